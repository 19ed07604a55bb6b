(** InsertOne of the older document package (/repo/document/collection.go:60-98) by any number of Collection objects on
    one collection, under any schedule. Built from OldColl.v (the write) and OldSequence.v (the id). *)
From Verif Require Import Bytes SMap Memcmp MemcmpProofs KeyModel Provider ProviderProofs World Numeric UtilTxn TxPost Sequence SequenceProofs OldSequence DocKeys P_DocKeys OldDoc InsertWorld DdlSys OldColl.

(** keys.go:35 *)
Definition documentIDBandWidth : Z := 1000.
(** [pw_o]: the store and the document sequences of the Collection objects (newCollection, collection.go:29-57);
    [pw_wait i]: object i has an InsertOne inside Next (its mutex lets one in at a time), with this document;
    [pw_pend]: calls that have an id and have not written yet; [pw_given] (ghost): the ids returned to callers *)
Record pworld := PW { pw_o : oworld; pw_wait : nat -> option bytes; pw_pend : list (Z * bytes); pw_given : list Z }.
Inductive pev :=
| PNewColl (i : nat)                             (* newCollection: NewSequence starts *)
| PCloseColl (i : nat)                           (* db.go:128-152: ReleaseRemaining starts *)
| PInsert (i : nat) (data : bytes)               (* InsertOne calls Next *)
| PSeq (i : nat) (lim : list bool) (io : bool)   (* the sequence call of object i completes *)
| PWrite (n : nat) (d0 : db) (lim : list bool) (io : bool)
    (* the n-th pending call writes, in its own transaction, begun on d0 (any: it reads nothing), and returns *)
| PGive (n : nat)                                (* it Sets in the caller's transaction, and returns *)
| PDrop (n : nat)                                (* it never gets there: its process crashed *)
| PCrash (who : nat -> bool)
| POther (t : txn) (io : bool)                   (* any other transaction commits, callers' transactions included *)
| PTick (n : nat).
Inductive pobs := PoNone | PoIns (did : Z) (data : bytes) (own : bool) (r : result unit).
Definition pset_o (w : pworld) (o : oworld) : pworld := PW o (pw_wait w) (pw_pend w) (pw_given w).
Definition pstep (K : bytes) (cid : Z) (w : pworld) (e : pev) : pworld * pobs :=
  match e with
  | PNewColl i => (pset_o w (fst (ostep K (pw_o w) (OBegin i (OcNew documentIDBandWidth)))), PoNone)
  | PCloseColl i => (pset_o w (fst (ostep K (pw_o w) (OBegin i OcRelease))), PoNone)
  | PInsert i data =>
      match pw_wait w i, ow_call (pw_o w) i, ow_seq (pw_o w) i with
      | None, None, Some _ => (PW (fst (ostep K (pw_o w) (OBegin i OcNext))) (fupd (pw_wait w) i (Some data)) (pw_pend w) (pw_given w), PoNone)
      | _, _, _ => (w, PoNone)
      end
  | PSeq i lim io =>
      let '(o, r) := ostep K (pw_o w) (OEnd i lim io) in
      match pw_wait w i, r with
      | Some data, Some (Ok v) => (PW o (fupd (pw_wait w) i None) ((to_i64 v, data) :: pw_pend w) (pw_given w), PoNone)
      | Some data, Some _ => (PW o (fupd (pw_wait w) i None) (pw_pend w) (pw_given w), PoNone)
      | _, _ => (pset_o w o, PoNone)
      end
  | PWrite n d0 lim io =>
      match nth_error (pw_pend w) n with
      | None => (w, PoNone)
      | Some (did, data) =>
          let '(d', r) := run_update d0 (ow_db (pw_o w)) (old_tx cid (PInsertAs did data)) lim io in
          (PW (OW d' (ow_seq (pw_o w)) (ow_call (pw_o w))) (pw_wait w) (drop_nth n (pw_pend w)) (did :: pw_given w),
           PoIns did data true (match r with Ok _ => Ok tt | Err e => Err e | Panic => Panic end))
      end
  | PGive n =>
      match nth_error (pw_pend w) n with
      | None => (w, PoNone)
      | Some (did, data) => (PW (pw_o w) (pw_wait w) (drop_nth n (pw_pend w)) (did :: pw_given w), PoIns did data false (Ok tt))
      end
  | PDrop n => (PW (pw_o w) (pw_wait w) (drop_nth n (pw_pend w)) (pw_given w), PoNone)
  | PCrash who => (PW (fst (ostep K (pw_o w) (OCrash who))) (fun i => if who i then None else pw_wait w i) (pw_pend w) (pw_given w), PoNone)
  | POther t io => (pset_o w (fst (ostep K (pw_o w) (OForeign t io))), PoNone)
  | PTick n => (pset_o w (fst (ostep K (pw_o w) (OTick n))), PoNone)
  end.
Fixpoint prun (K : bytes) (cid : Z) (w : pworld) (es : list pev) : pworld * list pobs :=
  match es with
  | [] => (w, [])
  | e :: es' => let '(w1, r) := pstep K cid w e in let '(w2, rs) := prun K cid w1 es' in (w2, r :: rs)
  end.
Definition pstart (d : db) : pworld := PW (OW d (fun _ => None) (fun _ => None)) (fun _ => None) [] [].
(** Other transactions leave the counter alone, and write documents of this collection only under ids InsertOne has
    returned or the counter had passed before (c0). They may delete anything. *)
Definition p_allowed (K : bytes) (cid c0 : Z) (w : pworld) (e : pev) : Prop :=
  match e with
  | POther t _ => get (t_pend t) (EncodeMetaSequenceKey K) = None /\
      forall v x, is_i64 v -> get (t_pend t) (docKey cid v) = Some (Some x) -> v <= c0 \/ In v (pw_given w)
  | _ => True
  end.
Fixpoint pallowed (K : bytes) (cid c0 : Z) (w : pworld) (es : list pev) : Prop :=
  match es with
  | [] => True
  | e :: es' => p_allowed K cid c0 w e /\ pallowed K cid c0 (fst (pstep K cid w e)) es'
  end.
Definition pids (os : list pobs) : list Z := flat_map (fun o => match o with PoIns did _ _ _ => [did] | PoNone => [] end) os.

(** * Proofs *)
Section pinv.
Context (K : bytes) (cid c0 : Z) (Hcid : is_i64 cid).
Notation BW := documentIDBandWidth.
Record pinv (rem : Z) (w : pworld) (used : list Z) (c : Z) : Prop := {
  pi_o : oinv BW K rem (pw_o w) used c;
  pi_c : c + BW * rem < two63;
  pi_pos : forall v, In v used -> 0 <= v;
  pi_old : forall v, 0 <= v <= c0 -> In v used;
  pi_nd : NoDup (map fst (pw_pend w) ++ pw_given w);
  pi_in : forall v, In v (map fst (pw_pend w) ++ pw_given w) -> In v used /\ c0 < v;
  pi_doc : forall v e, is_i64 v -> get (d_kv (ow_db (pw_o w))) (docKey cid v) = Some e -> v <= c0 \/ In v (pw_given w) }.
Lemma doc_not_counter v : is_i64 v -> docKey cid v <> EncodeMetaSequenceKey K.
Proof. intros Hv E. apply (C48_keys_never_collide (KDoc cid v) (KSequence K) (conj Hcid Hv) I) in E. discriminate E. Qed.
Lemma doc_inj v v' : is_i64 v -> is_i64 v' -> docKey cid v = docKey cid v' -> v = v'.
Proof. intros Hv Hv' E. apply (C48_keys_never_collide (KDoc cid v) (KDoc cid v') (conj Hcid Hv) (conj Hcid Hv')) in E. cbn in E. congruence. Qed.
Lemma ids_pos w i lim io v : In v (ids1 (snd (ostep K w (OEnd i lim io)))) -> 0 <= v.
Proof.
  cbn [ostep]. destruct (ow_call w i) as [[d0 q]|]; [|intros []]. destruct q as [bw| |].
  - destruct (o_New d0 (ow_db w) lim io K bw) as [[d s] r]. intros [].
  - destruct (ow_seq w i) as [s|]; [|intros []]. unfold o_Next.
    destruct (if o_leased s <=? o_next s then o_updateLease d0 (ow_db w) lim io s else (ow_db w, s, Ok tt)) as [[d s1] [u|e|]]; cbn [snd ids1]; [|intros []|intros []].
    intros [<-|[]]. unfold to_u64. apply Z.mod_pos_bound. reflexivity.
  - destruct (ow_seq w i) as [s|]; [|intros []]. destruct (o_Release d0 (ow_db w) lim s) as [[d s1] r]. intros [].
Qed.
Lemma ids_end w e : match e with OEnd _ _ _ => True | _ => ids1 (snd (ostep K w e)) = [] end.
Proof.
  destruct e as [i q|i lim io|who|t io|n]; cbn [ostep]; try exact I; try reflexivity.
  - destruct (ow_call w i); [reflexivity|]. destruct q, (ow_seq w i); reflexivity.
  - destruct (commit (ow_db w) t io) as [[d2 t2] r2]. reflexivity.
Qed.
Lemma drop_in {A} n (l : list A) x : In x (drop_nth n l) -> In x l.
Proof. revert n. induction l as [|a l IH]; intros [|n]; cbn [drop_nth]; auto; [right; assumption|]. intros [H|H]; [left; exact H | right; eapply IH; exact H]. Qed.
Lemma drop_perm (l : list (Z * bytes)) g : forall n did data, nth_error l n = Some (did, data) -> NoDup (map fst l ++ g) -> NoDup (map fst (drop_nth n l) ++ did :: g).
Proof.
  induction l as [|[a b] l IH]; intros [|n] did data E N; cbn [nth_error] in E; try discriminate.
  - inversion E. subst. cbn [drop_nth]. cbn [map fst app] in N. inversion N as [|? ? N1 N2]. subst. apply nodup_app in N2. destruct N2 as (N2 & N3 & N4).
    apply nodup_join; [exact N2| |constructor; [intros X; apply N1; apply in_or_app; right; exact X | exact N3]].
    intros x Hx [X|X]; [apply N1; apply in_or_app; left; rewrite X; exact Hx | exact (N4 x Hx X)].
  - cbn [drop_nth map fst app] in *. inversion N as [|? ? N1 N2]. subst. constructor; [|eapply IH; eassumption].
    intros X. apply N1. apply in_or_app. apply in_app_or in X. destruct X as [X|[X|X]].
    + left. apply in_map_iff in X. destruct X as (p & <- & X). apply in_map. eapply drop_in; exact X.
    + left. subst did. apply nth_error_In in E. apply (in_map fst) in E. exact E.
    + right. exact X.
Qed.
Lemma pinv_move rem w used c e wait : 0 <= rem -> pinv (rem + 1) w used c -> o_allowed BW K e ->
  match e with OForeign _ _ => forall v x, is_i64 v -> get (d_kv (ow_db (fst (ostep K (pw_o w) e)))) (docKey cid v) = Some x -> v <= c0 \/ In v (pw_given w) | _ => True end ->
  (forall v, In v (ids1 (snd (ostep K (pw_o w) e))) -> ~ In v used /\ 0 <= v < two63) /\
  exists c', pinv rem (PW (fst (ostep K (pw_o w) e)) wait (pw_pend w) (pw_given w)) (ids1 (snd (ostep K (pw_o w) e)) ++ used) c'.
Proof.
  intros R [I1 I2 I3 I4 I5 I6 I7] A Fo.
  destruct (ostep_inv BW K ltac:(reflexivity) rem (pw_o w) used c e R I1 A) as ((N1 & F1) & c' & Lc & I1').
  assert (Po : forall v, In v (ids1 (snd (ostep K (pw_o w) e))) -> 0 <= v).
  { intros v. pose proof (ids_end (pw_o w) e) as X. destruct e; try (rewrite X; intros []). apply ids_pos. }
  split.
  - intros v Hv. split; [apply F1; exact Hv|]. split; [apply Po; exact Hv|].
    destruct (oi_used _ _ _ _ _ _ I1' v ltac:(apply in_or_app; left; exact Hv)) as [Lv _]. unfold BW in *. lia.
  - exists c'. split; cbn [pw_o pw_wait pw_pend pw_given].
    + exact I1'.
    + unfold BW in *. lia.
    + intros v Hv. apply in_app_or in Hv. destruct Hv; auto.
    + intros v Hv. apply in_or_app. right. apply I4. exact Hv.
    + exact I5.
    + intros v Hv. destruct (I6 v Hv) as [X Y]. split; [apply in_or_app; right; exact X | exact Y].
    + intros v x Hv G. destruct e as [i q|i lim io|who|t io|n]; try (apply (I7 v x Hv); rewrite <- G; symmetry; eapply (ostep_frame BW (rem + 1) K (pw_o w) used c); [exact I1 | exact I | apply doc_not_counter; exact Hv]).
      exact (Fo v x Hv G).
Qed.
Lemma pinv_wait rem w used c wait : 0 <= rem -> pinv (rem + 1) w used c -> pinv rem (PW (pw_o w) wait (pw_pend w) (pw_given w)) used c.
Proof.
  intros R [I1 I2 I3 I4 I5 I6 I7]. split; cbn [pw_o pw_wait pw_pend pw_given]; try assumption.
  - apply oinv_rem; [reflexivity | exact R | exact I1].
  - unfold BW in *. lia.
Qed.
Lemma pinv_pend rem w used c wait v data : pinv rem w (v :: used) c -> ~ In v used -> (forall x, In x (map fst (pw_pend w) ++ pw_given w) -> In x used) -> (forall x, 0 <= x <= c0 -> In x used) -> 0 <= v ->
  pinv rem (PW (pw_o w) wait ((v, data) :: pw_pend w) (pw_given w)) (v :: used) c.
Proof.
  intros [I1 I2 I3 I4 I5 I6 I7] N Sub Old P. split; cbn [pw_o pw_wait pw_pend pw_given]; try assumption.
  - cbn [map fst app]. constructor; [intros X; exact (N (Sub v X)) | exact I5].
  - intros x [<-|Hx]; [|apply I6; exact Hx]. split; [left; reflexivity|]. destruct (Z.le_gt_cases v c0) as [L|L]; [exfalso; apply N, Old; split; [exact P | exact L] | exact L].
Qed.
(** what holds of a call that returns: its id is new, and free in the store; if it wrote, exactly its document appeared *)
Definition good_return (w : pworld) (o : pobs) (w' : pworld) : Prop :=
  match o with
  | PoNone => True
  | PoIns did data own r =>
      is_i64 did /\ get (d_kv (ow_db (pw_o w))) (docKey cid did) = None /\ ~ In did (pw_given w) /\
      forall k, get (d_kv (ow_db (pw_o w'))) k =
        if own && bytes_eqb k (docKey cid did) then match r with Ok _ => Some (mk data) | _ => None end else get (d_kv (ow_db (pw_o w))) k
  end.
Lemma pstep_inv rem w used c e : 0 <= rem -> pinv (rem + 1) w used c -> p_allowed K cid c0 w e ->
  exists used' c', pinv rem (fst (pstep K cid w e)) used' c' /\ good_return w (snd (pstep K cid w e)) (fst (pstep K cid w e)) /\
    pw_given (fst (pstep K cid w e)) = pids [snd (pstep K cid w e)] ++ pw_given w.
Proof.
  intros R I A.
  assert (SAME : exists used' c', pinv rem w used' c' /\ True /\ pw_given w = [] ++ pw_given w).
  { exists used, c. split; [|auto]. pose proof (pinv_wait rem w used c (pw_wait w) R I) as X. destruct w; exact X. }
  assert (QUIET : forall oe wait, match oe with OEnd _ _ _ | OForeign _ _ => False | _ => True end -> o_allowed BW K oe ->
     exists used' c', pinv rem (PW (fst (ostep K (pw_o w) oe)) wait (pw_pend w) (pw_given w)) used' c' /\ True /\ pw_given w = [] ++ pw_given w).
  { intros oe wait He Ha. destruct (pinv_move rem w used c oe wait R I Ha) as (_ & c' & J); [destruct oe; try exact Logic.I; contradiction|].
    eexists. exists c'. split; [exact J | auto]. }
  assert (TAKE : forall n did data, nth_error (pw_pend w) n = Some (did, data) -> is_i64 did /\ ~ In did (pw_given w) /\ c0 < did /\ get (d_kv (ow_db (pw_o w))) (docKey cid did) = None).
  { intros n did data E. assert (Hi : In did (map fst (pw_pend w))) by (apply nth_error_In in E; apply (in_map fst) in E; exact E).
    destruct (pi_in _ _ _ _ I did ltac:(apply in_or_app; left; exact Hi)) as [U G]. destruct (nodup_app _ _ (pi_nd _ _ _ _ I)) as (_ & _ & N).
    destruct (oi_used _ _ _ _ _ _ (pi_o _ _ _ _ I) did U) as [Lv _]. pose proof (pi_pos _ _ _ _ I did U). pose proof (pi_c _ _ _ _ I) as Cv.
    assert (Hd : is_i64 did) by (unfold is_i64; unfold BW in Cv; rewrite two63_val in *; lia). split; [exact Hd|]. split; [apply N; exact Hi|]. split; [exact G|].
    destruct (get (d_kv (ow_db (pw_o w))) (docKey cid did)) as [x|] eqn:X; [|reflexivity]. exfalso. destruct (pi_doc _ _ _ _ I did x Hd X) as [Y|Y]; [lia | exact (N did Hi Y)]. }
  assert (GIVE : forall n did data o, nth_error (pw_pend w) n = Some (did, data) -> oinv BW K (rem + 1) o used c ->
     (forall v x, is_i64 v -> get (d_kv (ow_db o)) (docKey cid v) = Some x -> v = did \/ get (d_kv (ow_db (pw_o w))) (docKey cid v) = Some x) ->
     pinv rem (PW o (pw_wait w) (drop_nth n (pw_pend w)) (did :: pw_given w)) used c).
  { intros n did data o E Io Hd. destruct I as [I1 I2 I3 I4 I5 I6 I7]. split; cbn [pw_o pw_wait pw_pend pw_given]; try assumption.
    - apply oinv_rem; [reflexivity | exact R | exact Io].
    - unfold BW in *. lia.
    - eapply drop_perm; eassumption.
    - intros v Hv. apply I6. apply in_app_or in Hv. apply in_or_app. destruct Hv as [Hv|[<-|Hv]]; [left|left|right; exact Hv].
      + apply in_map_iff in Hv. destruct Hv as (p & <- & X). apply in_map. eapply drop_in; exact X.
      + apply nth_error_In in E. apply (in_map fst) in E. exact E.
    - intros v x Hv G. destruct (Hd v x Hv G) as [->|G']; [right; left; reflexivity|]. destruct (I7 v x Hv G') as [X|X]; [left; exact X | right; right; exact X]. }
  destruct e as [i|i|i data|i lim io|n d0 lim io|n|n|who|t io|n]; cbn [pstep].
  - apply QUIET; [exact Logic.I|]. cbn [o_allowed]. unfold BW. lia.
  - apply QUIET; exact Logic.I.
  - destruct (pw_wait w i); [exact SAME|]. destruct (ow_call (pw_o w) i); [exact SAME|]. destruct (ow_seq (pw_o w) i); [|exact SAME]. apply QUIET; exact Logic.I.
  - pose proof (fun wait => pinv_move rem w used c (OEnd i lim io) wait R I Logic.I Logic.I) as Mv.
    destruct (ostep K (pw_o w) (OEnd i lim io)) as [o r]. cbn [fst snd] in *.
    assert (Q : forall wait, exists used' c', pinv rem (PW o wait (pw_pend w) (pw_given w)) used' c' /\ True /\ pw_given w = [] ++ pw_given w).
    { intros wait. destruct (Mv wait) as (_ & c' & J). eexists. exists c'. split; [exact J | auto]. }
    destruct (pw_wait w i) as [data|]; [|apply Q]. destruct r as [[v|er|]|]; try apply Q.
    destruct (Mv (pw_wait w)) as (Fr & c' & J). cbn [ids1 app] in *. destruct (Fr v (or_introl eq_refl)) as [Nv Rv].
    rewrite to_i64_id by (unfold is_i64; rewrite two63_val in *; lia). exists (v :: used), c'. cbn [fst snd good_return pids flat_map app pw_given]. split; [|auto].
    apply (pinv_pend rem (PW o (pw_wait w) (pw_pend w) (pw_given w)) used c' _ v data J Nv); [intros x Hx; apply (pi_in _ _ _ _ I x Hx) | apply (pi_old _ _ _ _ I) | lia].
  - destruct (nth_error (pw_pend w) n) as [[did data]|] eqn:E; [|exact SAME]. destruct (TAKE n did data E) as (Hd & Ng & Gt & Ab).
    destruct (run_update d0 (ow_db (pw_o w)) (old_tx cid (PInsertAs did data)) lim io) as [d' r] eqn:Er. cbn [fst snd].
    assert (W : forall k, get (d_kv d') k = if bytes_eqb k (docKey cid did) then match r with Ok _ => Some (mk data) | _ => None end else get (d_kv (ow_db (pw_o w))) k).
    { destruct (run_update_cases _ _ _ _ _ _ _ Er) as [(t & t' & a & -> & Ef & Ec)|[Nr ->]].
      - cbn [old_tx] in Ef. unfold bind in Ef. destruct (tset (docKey cid did) data (new_txn d0 true lim)) as [t1 [u|e1|]] eqn:Es; inversion Ef. subst t a. apply tset_ok in Es. destruct Es as [l ->].
        destruct (commit_cases _ _ _ _ _ _ Ec) as [(_ & Kv & _)|[X _]]; [|congruence]. intros k. rewrite Kv, get_put. destruct (bytes_eqb k (docKey cid did)); [reflexivity|]. cbn [new_txn t_pend]. rewrite get_empty. reflexivity.
      - intros k. destruct (bytes_eqb k (docKey cid did)) eqn:Ek; [|reflexivity]. apply bytes_eqb_eq in Ek. subst k. rewrite Ab. destruct r as [a| |]; [destruct (Nr a eq_refl) | reflexivity..]. }
    exists used, c. split; [|split; [|reflexivity]].
    + apply (GIVE n did data (OW d' (ow_seq (pw_o w)) (ow_call (pw_o w))) E).
      * apply oinv_foreign; [exact (pi_o _ _ _ _ I)| | |].
        -- rewrite W. destruct (bytes_eqb (EncodeMetaSequenceKey K) (docKey cid did)) eqn:Ek; [|reflexivity]. apply bytes_eqb_eq in Ek. destruct (doc_not_counter did Hd). symmetry. exact Ek.
        -- pose proof (run_update_db_ok d0 (ow_db (pw_o w)) (old_tx cid (PInsertAs did data)) lim io (oi_db _ _ _ _ _ _ (pi_o _ _ _ _ I))) as X. rewrite Er in X. exact X.
        -- intros tj T. pose proof (run_update_tx_ok d0 (ow_db (pw_o w)) (old_tx cid (PInsertAs did data)) lim io tj (oi_db _ _ _ _ _ _ (pi_o _ _ _ _ I)) T) as X. rewrite Er in X. exact X.
      * intros v x Hv G. cbn [ow_db] in G. rewrite W in G. destruct (bytes_eqb (docKey cid v) (docKey cid did)) eqn:Ek; [left; apply bytes_eqb_eq in Ek; exact (doc_inj v did Hv Hd Ek) | right; exact G].
    + cbn [good_return pw_o ow_db andb]. split; [exact Hd|]. split; [exact Ab|]. split; [exact Ng|]. intros k. rewrite W. destruct (bytes_eqb k (docKey cid did)); [destruct r; reflexivity | reflexivity].
  - destruct (nth_error (pw_pend w) n) as [[did data]|] eqn:E; [|exact SAME]. destruct (TAKE n did data E) as (Hd & Ng & Gt & Ab). cbn [fst snd].
    exists used, c. split; [|split; [|reflexivity]].
    + apply (GIVE n did data (pw_o w) E (pi_o _ _ _ _ I)). auto.
    + cbn [good_return pw_o andb]. auto.
  - exists used, c. cbn [fst snd good_return pids flat_map app pw_given]. split; [|auto]. destruct I as [I1 I2 I3 I4 I5 I6 I7]. split; cbn [pw_o pw_wait pw_pend pw_given]; try assumption.
    + apply oinv_rem; [reflexivity | exact R | exact I1].
    + unfold BW in *. lia.
    + destruct (nth_error (pw_pend w) n) as [[did data]|] eqn:E.
      * pose proof (drop_perm _ _ _ _ _ E I5) as X. apply nodup_app in X. destruct X as (X1 & X2 & X3). inversion X2. subst.
        apply nodup_join; [exact X1 | intros x Hx Y; exact (X3 x Hx (or_intror Y)) | assumption].
      * replace (drop_nth n (pw_pend w)) with (pw_pend w); [exact I5|]. clear -E. revert n E. induction (pw_pend w) as [|a l IH]; intros [|n] E; cbn in *; try reflexivity; try discriminate. f_equal. apply IH. exact E.
    + intros v Hv. apply I6. apply in_app_or in Hv. apply in_or_app. destruct Hv as [Hv|Hv]; [left|right; exact Hv].
      apply in_map_iff in Hv. destruct Hv as (p & <- & X). apply in_map. eapply drop_in; exact X.
  - apply QUIET; exact Logic.I.
  - destruct A as [A1 A2]. destruct (pinv_move rem w used c (OForeign t io) (pw_wait w) R I A1) as (_ & c' & J).
    + intros v x Hv. cbn [ostep]. destruct (commit (ow_db (pw_o w)) t io) as [[d2 t2] r2] eqn:Ec. cbn [fst ow_db].
      destruct (commit_cases _ _ _ _ _ _ Ec) as [(_ & Kv & _)|[_ ->]]; [|apply (pi_doc _ _ _ _ I v x Hv)]. rewrite Kv.
      destruct (get (t_pend t) (docKey cid v)) as [[x'|]|] eqn:Gp; [intros _; exact (A2 v x' Hv Gp) | discriminate | apply (pi_doc _ _ _ _ I v x Hv)].
    + eexists. exists c'. split; [exact J | cbn; auto].
  - apply QUIET; exact Logic.I.
Qed.
Lemma pids_app a b : pids (a ++ b) = pids a ++ pids b.
Proof. apply flat_map_app. Qed.
Lemma prun_inv es : forall rem w used c, 0 <= rem -> pinv (rem + Z.of_nat (length es)) w used c -> pallowed K cid c0 w es ->
  exists used' c', pinv rem (fst (prun K cid w es)) used' c' /\ pw_given (fst (prun K cid w es)) = rev (pids (snd (prun K cid w es))) ++ pw_given w.
Proof.
  induction es as [|e es IH]; intros rem w used c R I A.
  - exists used, c. cbn [length] in I. rewrite Z.add_0_r in I. auto.
  - cbn [length] in I. replace (rem + Z.of_nat (S (length es))) with (rem + Z.of_nat (length es) + 1) in I by lia. destruct A as [A1 A2].
    destruct (pstep_inv (rem + Z.of_nat (length es)) w used c e ltac:(lia) I A1) as (used1 & c1 & I1 & _ & G1).
    cbn [prun]. destruct (pstep K cid w e) as [w1 r]. cbn [fst snd] in *. destruct (IH rem w1 used1 c1 R I1 A2) as (used2 & c2 & I2 & G2).
    destruct (prun K cid w1 es) as [w2 rs]. cbn [fst snd] in *. exists used2, c2. split; [exact I2|]. rewrite G2, G1. change (r :: rs) with ([r] ++ rs). rewrite pids_app, rev_app_distr, <- app_assoc. f_equal.
    f_equal. destruct r; reflexivity.
Qed.
End pinv.
