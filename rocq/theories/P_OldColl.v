(** C69, C74, C75: documents of the older document package. The specification of single operations is [old_sem]
    (OldColl.v) on finite maps [zmap] (Dml.v); [rep] (DmlProofs.v) relates a store to the documents it holds. *)
From Verif Require Import Bytes SMap Memcmp MemcmpProofs KeyModel Provider ProviderProofs World Numeric UtilTxn TxPost Sequence SequenceProofs OldSequence DocKeys P_DocKeys OldDoc Dml DmlProofs OldColl OldInsert.

(** * C74: operations are operations on maps *)
(** programs: single operations, whole transactions of the caller (over any collections), transactions of others *)
Inductive oact :=
| BAuto (s : dbstate) (io : bool) (cid : Z) (o : oldop)
| BTxn (s : dbstate) (upd : bool) (ops : list (Z * oldop)) (docommit io : bool)
| BOther (t : txn) (io : bool).
Inductive oout := BoAuto (r : result oldval) | BoTxn (rs : list (result oldval)) (r : result unit) | BoOther.
Fixpoint old_ins (s : dbstate) (ops : list (Z * oldop)) (t : txn) : txn * list (result oldval) :=
  match ops with
  | [] => (t, [])
  | (c, o) :: ops' => let '(t1, r) := old_in s c o t in let '(t2, rs) := old_ins s ops' t1 in (t2, r :: rs)
  end.
Definition bact (d : db) (a : oact) : db * oout :=
  match a with
  | BAuto s io c o => let '(d', r) := old_auto s d d [] io c o in (d', BoAuto r)
  | BTxn s upd ops docommit io =>
      let '(t, rs) := old_ins s ops (new_txn d upd []) in
      if docommit then let '(d', _, r) := commit d t io in (d', BoTxn rs r) else (d, BoTxn rs (Ok tt))
  | BOther t io => let '(d', _, _) := commit d t io in (d', BoOther)
  end.
Fixpoint bacts (d : db) (l : list oact) : db * list oout :=
  match l with [] => (d, []) | a :: l' => let '(d1, o) := bact d a in let '(d2, os) := bacts d1 l' in (d2, o :: os) end.
Definition bact_ok (a : oact) : Prop :=
  match a with
  | BAuto _ _ c o => is_i64 c /\ Forall is_i64 (old_ids o)
  | BTxn _ _ ops _ _ => Forall (fun p => is_i64 (fst p) /\ Forall is_i64 (old_ids (snd p))) ops
  | BOther t _ => forall c k, is_i64 c -> has_prefix k (docPrefix c) = true -> get (t_pend t) k = None
  end.
(** the specification: an operation alone runs in a transaction that may write, except the readers and DeleteAll; a
    database that is closing or closed refuses every operation *)
Definition may_write (o : oldop) : bool :=
  match o with
  | PUpdate _ _ | PUpsert _ _ | PManaged _ _ | PInsertAs _ _ | PDelete _ => true
  | PGet _ | PGetMany _ | PCount | PDeleteAll => false
  end.
Definition op_sem (s : dbstate) (upd : bool) (D : dstore) (c : Z) (o : oldop) : result oldval * dstore :=
  match s with
  | SClosing => (Err ErrAlreadyClosing, D)
  | SClosed => (Err ErrAlreadyClosed, D)
  | SOpen => let '(r, m) := old_sem upd (D c) o in (r, dupd D c m)
  end.
Fixpoint ops_sem (s : dbstate) (upd : bool) (D : dstore) (ops : list (Z * oldop)) : list (result oldval) * dstore :=
  match ops with
  | [] => ([], D)
  | (c, o) :: ops' => let '(r, D1) := op_sem s upd D c o in let '(rs, D2) := ops_sem s upd D1 ops' in (r :: rs, D2)
  end.
Definition same (D D' : dstore) : Prop := forall c, D c = D' c.
Definition bexplains (D : dstore) (a : oact) (o : oout) (D' : dstore) : Prop :=
  match a, o with
  | BAuto s io c op, BoAuto r =>
      let '(rs, Ds) := op_sem s (may_write op) D c op in
      (r = rs /\ same D' Ds) \/ (io = true /\ may_write op = true /\ (exists v, rs = Ok v) /\ r = Err EIO /\ same D' D)
  | BTxn s upd ops docommit io, BoTxn rs r =>
      rs = fst (ops_sem s upd D ops) /\
      same D' (if docommit && upd && (match r with Ok _ => true | _ => false end) then snd (ops_sem s upd D ops) else D)
  | BOther _ _, BoOther => same D' D
  | _, _ => False
  end.
Fixpoint bexplained (D : dstore) (l : list oact) (os : list oout) (D' : dstore) : Prop :=
  match l, os with
  | [], [] => same D' D
  | a :: l', o :: os' => exists D1, bexplains D a o D1 /\ bexplained D1 l' os' D'
  | _, _ => False
  end.
Lemma same_refl D : same D D.
Proof. intros c. reflexivity. Qed.
Lemma old_err_same upd m o e m' : old_sem upd m o = (Err e, m') -> m' = m.
Proof.
  destruct o; cbn [old_sem]; intros H; try congruence; try (destruct (has m did)); try (destruct upd); try congruence.
  - destruct m; congruence.
  - destruct m; congruence.
Qed.
Lemma old_no_panic upd m o m' : old_sem upd m o <> (Panic, m').
Proof.
  intros H. destruct o; cbn [old_sem] in H; try congruence; try (destruct (has m did)); try (destruct upd); try congruence; try (destruct (zget m did); congruence); destruct m; congruence.
Qed.
Lemma old_ro_same m o : snd (old_sem false m o) = m.
Proof. destruct o; cbn [old_sem snd]; try reflexivity; try (destruct (has m did); reflexivity). destruct m; reflexivity. Qed.
Lemma dupd_same D c m : m = D c -> same (dupd D c m) D.
Proof. intros -> j. unfold dupd. destruct (j =? c) eqn:E; [apply Z.eqb_eq in E; subst; reflexivity | reflexivity]. Qed.
Lemma op_sem_eq s upd D c o : op_sem s upd D c o = match checkState s with Some e => (Err e, D) | None => let '(r, m) := old_sem upd (D c) o in (r, dupd D c m) end.
Proof. destruct s; reflexivity. Qed.
Lemma own_may o : may_write o = match own_txn o with HUpdate => true | HView => false end.
Proof. destruct o; reflexivity. Qed.
Lemma old_ins_spec s upd ops : Forall (fun p => is_i64 (fst p) /\ Forall is_i64 (old_ids (snd p))) ops ->
  forall t D, okx upd t -> rep (view t) D ->
  exists t', old_ins s ops t = (t', fst (ops_sem s upd D ops)) /\ okx upd t' /\ keeps t t' /\ rep (view t') (snd (ops_sem s upd D ops)) /\
    (upd = false -> same (snd (ops_sem s upd D ops)) D).
Proof.
  induction 1 as [|[c o] ops [Hc Hi] F IH]; intros t D O R.
  - exists t. cbn [old_ins ops_sem fst snd]. split; [reflexivity|]. split; [exact O|]. split; [apply keeps_refl|]. split; [exact R | intros _; apply same_refl].
  - cbn [fst snd] in *. cbn [old_ins ops_sem]. unfold old_in. rewrite op_sem_eq. destruct (checkState s) as [e|] eqn:Cs.
    + cbn [fail]. destruct (IH t D O R) as (t' & E & O' & K & R' & Sm). unfold fail. rewrite E.
      destruct (ops_sem s upd D ops) as [rs D2]. cbn [fst snd] in *. exists t'. auto.
    + destruct (old_spec upd _ D c o t R Hc Hi O eq_refl) as (t1 & E1 & O1 & K1 & R1). rewrite E1.
      destruct (old_sem upd (D c) o) as [r m] eqn:Es. cbn [fst snd] in *. destruct (IH t1 (dupd D c m) O1 R1) as (t' & E & O' & K & R' & Sm). rewrite E.
      destruct (ops_sem s upd (dupd D c m) ops) as [rs D2]. cbn [fst snd] in *. exists t'. split; [reflexivity|]. split; [exact O'|]. split; [eapply keeps_trans; eassumption|]. split; [exact R'|].
      intros E0. subst upd. intros j. rewrite (Sm eq_refl j). apply dupd_same. pose proof (old_ro_same (D c) o) as X. rewrite Es in X. exact X.
Qed.
Lemma other_rep d t io d' t' r D : db_ok d -> rep (dview d) D -> (forall c k, is_i64 c -> has_prefix k (docPrefix c) = true -> get (t_pend t) k = None) ->
  commit d t io = (d', t', r) -> db_ok d' /\ rep (dview d') D.
Proof.
  intros K R A C. split; [eapply commit_db_ok; eassumption|]. destruct (commit_next _ _ _ _ _ _ C) as [-> | ->]; [exact R|].
  apply (rep_frame (dview d)); [exact R|]. intros c k Hc P. specialize (A c k Hc P). unfold dview, live_map. rewrite !get_sfilter. cbn [publish d_kv d_now]. rewrite get_apply_pend, A. reflexivity.
Qed.
Lemma bact_explained d D a : db_ok d -> rep (dview d) D -> bact_ok a ->
  exists D', bexplains D a (snd (bact d a)) D' /\ rep (dview (fst (bact d a))) D' /\ db_ok (fst (bact d a)).
Proof.
  intros K R A. destruct a as [s io c o|s upd ops docommit io|t io]; cbn [bact].
  - destruct A as [Hc Hi]. unfold old_auto, bexplains. rewrite op_sem_eq. destruct (checkState s) as [e|]; [exists D; cbn [fst snd]; split; [left; split; [reflexivity | apply same_refl] | auto]|].
    destruct (old_sem (may_write o) (D c) o) as [rs m] eqn:Es. rewrite own_may in *.
    destruct (own_txn o) eqn:Ow.
    + unfold run_update. destruct (old_spec true _ D c o (new_txn d true []) R Hc Hi (okx_new d true) (view_new_dview d true [])) as (t' & E & (O1 & _) & (K1 & K2 & K3 & _) & R').
      rewrite E, Es. rewrite Es in R'. cbn [fst snd] in *. destruct rs as [v|e|].
      * destruct (commit_solo d t' io K O1 K2 K1 K3) as [(d1 & t1 & Ec & Ev & Kd & _)|(t1 & Ec & Hio & _)]; rewrite Ec; cbn [fst snd].
        -- exists (dupd D c m). split; [left; split; [reflexivity | apply same_refl]|]. split; [|exact Kd]. unfold dview. rewrite Ev. exact R'.
        -- exists D. split; [right; repeat split; eauto|auto].
      * exists D. split; [left; split; [reflexivity|]|auto]. intros j. symmetry. apply dupd_same. eapply old_err_same; exact Es.
      * destruct (old_no_panic _ _ _ _ Es).
    + destruct (old_spec false _ D c o (new_txn d false []) R Hc Hi (okx_new d false) (view_new_dview d false [])) as (t' & E & _ & _ & R').
      unfold run_view. rewrite E, Es. cbn [fst snd]. exists D. split; [left; split; [reflexivity|]|auto]. intros j. symmetry. apply dupd_same. pose proof (old_ro_same (D c) o) as X. rewrite Es in X. exact X.
  - destruct (old_ins_spec s upd ops A (new_txn d upd []) D (okx_new d upd)) as (t' & E & (O1 & O2 & _) & (K1 & K2 & K3 & _) & R' & Sm); [rewrite view_new_dview; exact R|].
    rewrite E. destruct docommit.
    + destruct (commit_solo d t' io K O1 K2 K1 K3) as [(d1 & t1 & Ec & Ev & Kd & _)|(t1 & Ec & Hio & _)]; rewrite Ec; cbn [fst snd bexplains andb].
      * exists (snd (ops_sem s upd D ops)). split; [split; [reflexivity|]|split; [unfold dview; rewrite Ev; exact R' | exact Kd]].
        destruct upd; [apply same_refl|]. intros j. rewrite (Sm eq_refl j). reflexivity.
      * exists D. split; [split; [reflexivity|]|auto]. rewrite andb_false_r. apply same_refl.
    + cbn [fst snd bexplains andb]. exists D. split; [split; [reflexivity | apply same_refl]|auto].
  - destruct (commit d t io) as [[d' t'] r] eqn:C. cbn [fst snd bexplains]. destruct (other_rep _ _ _ _ _ _ D K R A C). exists D. split; [apply same_refl | auto].
Qed.
Theorem C74_documents_refine_maps : forall l d D, db_ok d -> rep (dview d) D -> Forall bact_ok l ->
  exists D', bexplained D l (snd (bacts d l)) D' /\ rep (dview (fst (bacts d l))) D'.
Proof.
  induction l as [|a l IH]; intros d D K R A.
  - exists D. split; [apply same_refl | exact R].
  - inversion A as [|? ? A1 A2]. subst. destruct (bact_explained d D a K R A1) as (D1 & X1 & R1 & K1). cbn [bacts].
    destruct (bact d a) as [d1 o]. cbn [fst snd] in *. destruct (IH d1 D1 K1 R1 A2) as (D2 & X2 & R2). destruct (bacts d1 l) as [d2 os]. cbn [fst snd] in *.
    exists D2. split; [|exact R2]. exists D1. auto.
Qed.
Lemma rep_init : rep (dview (db_init 0 false)) (fun _ => []).
Proof. apply (rep_frame empty); [apply rep_empty|]. reflexivity. Qed.
Definition prog74 : list oact :=
  [BAuto SOpen false 1 (PManaged 5 (str "x")); BAuto SOpen false 1 (PManaged 5 (str "y")); BAuto SOpen true 2 (PUpsert (-7) (str "z"));
   BTxn SOpen true [(2, PUpsert (-7) (str "z")); (1, PInsertAs 4 (str "w")); (1, PCount); (2, PGetMany [-7; 0])] true false;
   BTxn SOpen true [(1, PDeleteAll); (1, PCount)] false false; BTxn SOpen false [(1, PUpdate 9 []); (1, PUpdate 4 [])] true false;
   BAuto SOpen false 1 PDeleteAll; BAuto SOpen false 3 PDeleteAll; BAuto SOpen false 1 (PGet 4); BAuto SClosed false 1 (PGet 4)].
Example C74_nonvacuous : Forall bact_ok prog74 /\ db_ok (db_init 0 false) /\ rep (dview (db_init 0 false)) (fun _ => []) /\
  snd (bacts (db_init 0 false) prog74) =
  [BoAuto (Ok PvUnit); BoAuto (Err ErrDocIDExists); BoAuto (Err EIO);
   BoTxn [Ok (PvBool true); Ok (PvId 4); Ok (PvNum 2); Ok (PvDocs [str "z"] (Some ErrDocNotFound))] (Ok tt);
   BoTxn [Ok (PvNum 2); Ok (PvNum 0)] (Ok tt); BoTxn [Ok (PvBool false); Err EReadOnlyTxn] (Ok tt);
   BoAuto (Err EReadOnlyTxn); BoAuto (Ok (PvNum 0)); BoAuto (Ok (PvDoc (str "w"))); BoAuto (Err ErrAlreadyClosed)].
Proof.
  assert (I : forall z, (-10 <= z <= 10)%Z -> is_i64 z) by (intros z Hz; unfold is_i64; rewrite two63_val; lia).
  split; [|split; [apply db_ok_init|split; [exact rep_init | vm_compute; reflexivity]]].
  assert (L : forall l, forallb (fun z => (-10 <=? z) && (z <=? 10)) l = true -> Forall is_i64 l).
  { intros l E. apply Forall_forall. intros z Hz. apply I. rewrite forallb_forall in E. specialize (E z Hz). lia. }
  unfold prog74. repeat (apply Forall_cons || apply Forall_nil); cbn [bact_ok fst snd];
    repeat (apply Forall_cons || apply Forall_nil); cbn [fst snd]; (split; [apply I; lia | apply L; reflexivity]).
Qed.

(** * C69: DeleteAll without a transaction *)
(** It fails on every non-empty collection, and deletes nothing: its own transaction is read-only. *)
Theorem C69_deleteall_without_transaction_partial : forall d D c io, rep (dview d) D -> is_i64 c ->
  old_auto SOpen d d [] io c PDeleteAll = (d, match D c with [] => Ok (PvNum 0) | _ => Err EReadOnlyTxn end).
Proof.
  intros d D c io R Hc. unfold old_auto. cbn [checkState own_txn]. unfold run_view.
  destruct (old_spec false _ D c PDeleteAll (new_txn d false []) R Hc ltac:(constructor) (okx_new d false) (view_new_dview d false [])) as (t' & -> & _).
  cbn [old_sem snd fst]. destruct (D c); reflexivity.
Qed.
Theorem C69_deleteall_refuted :
  ~ (forall d D c io, db_ok d -> rep (dview d) D -> is_i64 c ->
       let '(d', r) := old_auto SOpen d d [] io c PDeleteAll in
       (exists v, r = Ok v) /\ rep (dview d') (dupd D c [])).
Proof.
  intros H. assert (I1 : is_i64 1) by (unfold is_i64; rewrite two63_val; lia).
  destruct (bact_explained (db_init 0 false) (fun _ => []) (BAuto SOpen false 1 (PManaged 1 (str "x")))) as (D' & X & R & K'); [apply db_ok_init | exact rep_init | split; [exact I1 | constructor; [exact I1 | constructor]]|].
  assert (N : D' 1 <> []).
  { cbn in X. destruct X as [[_ X]|(X & _)]; [|discriminate]. rewrite (X 1). discriminate. }
  specialize (H _ D' 1 false K' R I1). rewrite (C69_deleteall_without_transaction_partial _ D' 1 false R I1) in H.
  destruct (D' 1); [congruence|]. destruct H as ((v & E) & _). discriminate.
Qed.
(** In an update transaction of the caller it deletes every document of the collection and no other, and counts them. *)
Theorem C69_deleteall_in_a_transaction : forall d D c t, rep (view t) D -> is_i64 c -> keeps (new_txn d true []) t -> okx true t ->
  exists t', old_in SOpen c PDeleteAll t = (t', Ok (PvNum (length (D c)))) /\ okx true t' /\ keeps t t' /\ rep (view t') (dupd D c []).
Proof.
  intros d D c t R Hc K O. destruct (old_spec true _ D c PDeleteAll t R Hc ltac:(constructor) O eq_refl) as (t' & E & O' & K' & R').
  exists t'. unfold old_in. cbn [checkState]. rewrite E. cbn [old_sem fst snd] in *. destruct (D c) eqn:ED; cbn [fst snd length] in *; auto.
Qed.

(** * C75: InsertOne destroys nothing *)
(** where a run starts: the stored counter of the collection has passed every document there is *)
Definition good_start75 (K : bytes) (cid c0 : Z) (d : db) (steps : nat) : Prop :=
  is_i64 cid /\ db_ok d /\ 0 <= c0 /\ ocell K d c0 /\ c0 + documentIDBandWidth * Z.of_nat steps < two63 /\
  forall v e, is_i64 v -> get (d_kv d) (docKey cid v) = Some e -> v <= c0.
Lemma start75 K cid c0 d es n : good_start75 K cid c0 d (n + length es) -> pallowed K cid c0 (pstart d) es ->
  is_i64 cid /\ exists used c, pinv K cid c0 (Z.of_nat n) (fst (prun K cid (pstart d) es)) used c /\
    pw_given (fst (prun K cid (pstart d) es)) = rev (pids (snd (prun K cid (pstart d) es))).
Proof.
  intros (Hc & Dk & P0 & Ce & Lim & Old) A. split; [exact Hc|]. set (used := map Z.of_nat (List.seq 0%nat (Datatypes.S (Z.to_nat c0)))).
  assert (Us : forall v, In v used <-> 0 <= v <= c0).
  { intros v. unfold used. rewrite in_map_iff. split; [intros (m & <- & H); apply in_seq in H; lia | intros H; exists (Z.to_nat v); split; [lia | apply in_seq; lia]]. }
  destruct (prun_inv K cid c0 Hc es (Z.of_nat n) (pstart d) used c0) as (used' & c' & I & G); [lia| |exact A|].
  - split; cbn [pstart pw_o pw_pend pw_given map app ow_db].
    + split; cbn [ow_db ow_seq ow_call]; try discriminate; try assumption.
      * split; [exact P0|]. rewrite two63_val in Lim. rewrite two64_val. rewrite Nat2Z.inj_add in Lim. lia.
      * intros v Hv. split; [apply Us; exact Hv | discriminate].
    + rewrite Nat2Z.inj_add in Lim. lia.
    + intros v Hv. apply Us in Hv. lia.
    + intros v Hv. apply Us. exact Hv.
    + constructor.
    + intros v [].
    + intros v e Hv He. left. exact (Old v e Hv He).
  - exists used', c'. split; [exact I|]. rewrite G. cbn [pstart pw_given]. apply app_nil_r.
Qed.
(** Any number of Collection objects in any processes, in any interleaving, with crashes and failed writes: when an
    InsertOne returns id [did], no document had that id and no InsertOne had returned it; in its own transaction it adds
    exactly its document, or nothing if it fails. Hypothesis [pallowed]: documents are written under ids of the
    application's own only if these were returned by InsertOne or lie below the initial counter. Missing: without that
    it is false. *)
Theorem C75_insert_destroys_nothing_partial : forall K cid c0 d es e w' did data own r,
  good_start75 K cid c0 d (1 + length es) -> pallowed K cid c0 (pstart d) (es ++ [e]) ->
  let w := fst (prun K cid (pstart d) es) in
  pstep K cid w e = (w', PoIns did data own r) ->
  get (d_kv (ow_db (pw_o w))) (docKey cid did) = None /\
  ~ In did (pids (snd (prun K cid (pstart d) es))) /\
  (own = true -> r = Ok tt -> get (d_kv (ow_db (pw_o w'))) (docKey cid did) = Some (mk data)) /\
  (forall k, k <> docKey cid did -> get (d_kv (ow_db (pw_o w'))) k = get (d_kv (ow_db (pw_o w))) k) /\
  (r <> Ok tt \/ own = false -> forall k, get (d_kv (ow_db (pw_o w'))) k = get (d_kv (ow_db (pw_o w))) k).
Proof.
  intros K cid c0 d es e w' did data own r G A w E.
  assert (A' : pallowed K cid c0 (pstart d) es /\ p_allowed K cid c0 w e).
  { clear -A. unfold w. revert A. generalize (pstart d). induction es as [|x es IH]; intros w0 A; cbn [app pallowed prun fst] in *; [tauto|].
    destruct A as [A1 A2]. destruct (IH _ A2) as [B1 B2]. destruct (pstep K cid w0 x) as [w1 o]. cbn [fst] in *. destruct (prun K cid w1 es). cbn [fst] in *. auto. }
  destruct A' as [A1 A2]. destruct (start75 K cid c0 d es 1 G A1) as (Hc & used & c & I & Gv).
  destruct (pstep_inv K cid c0 Hc 0 w used c e ltac:(lia) I A2) as (_ & _ & _ & Gr & _). rewrite E in Gr. cbn [fst snd good_return] in Gr. destruct Gr as (Hd & Ab & Ng & W).
  split; [exact Ab|]. split; [intros X; apply Ng; unfold w; rewrite Gv; apply in_rev; rewrite rev_involutive; exact X|].
  split; [intros -> ->; rewrite W, bytes_eqb_refl; reflexivity|]. split.
  - intros k Nk. rewrite W. apply bytes_eqb_neq in Nk. rewrite Nk, andb_false_r. reflexivity.
  - intros X k. rewrite W. destruct own; [|reflexivity]. cbn [andb]. destruct (bytes_eqb k (docKey cid did)) eqn:Ek; [|reflexivity]. apply bytes_eqb_eq in Ek. subst k. rewrite Ab. destruct r as [[]| |]; [destruct X; congruence | reflexivity..].
Qed.
(** the ids all calls ever return are distinct *)
Theorem C75_ids_never_repeat : forall K cid c0 d es,
  good_start75 K cid c0 d (length es) -> pallowed K cid c0 (pstart d) es -> NoDup (pids (snd (prun K cid (pstart d) es))).
Proof.
  intros K cid c0 d es G A. destruct (start75 K cid c0 d es 0 G A) as (Hc & used & c & I & Gv).
  pose proof (pi_nd _ _ _ _ _ _ _ I) as N. rewrite Gv in N. apply DdlSys.nodup_app in N. destruct N as (_ & N & _). apply NoDup_rev in N. rewrite rev_involutive in N. exact N.
Qed.
Definition mkcoll (i : nat) : list pev := [PNewColl i; PSeq i [] false].
Definition ins75 (i : nat) (data : bytes) : list pev := [PInsert i data; PSeq i [] false].
Definition vis75 (os : list pobs) : list pobs := filter (fun o => match o with PoNone => false | _ => true end) os.
Definition upd75 (cid did : Z) (v : bytes) (d : db) : txn := fst (tset (docKey cid did) v (new_txn d true [])).
Definition run75 : list pev :=
  mkcoll 0 ++ mkcoll 1 ++ ins75 0 (str "a") ++ ins75 1 (str "b") ++ [PWrite 1 (db_init 0 false) [] false; PWrite 0 (db_init 0 false) [] true] ++ ins75 0 (str "c") ++
  [PGive 0; POther (upd75 7 2 (str "c") (db_init 0 false)) false; POther (upd75 7 (-3) (str "m") (db_init 0 false)) false; PCrash (fun i => Nat.eqb i 0)] ++ mkcoll 2 ++ ins75 2 (str "d") ++ [PWrite 0 (db_init 0 false) [] false].
Example C75_nonvacuous : vis75 (snd (prun (str "people") 7 (pstart (db_init 0 false)) run75)) =
    [PoIns 1 (str "a") true (Ok tt); PoIns 1001 (str "b") true (Err EIO); PoIns 2 (str "c") false (Ok tt); PoIns 2001 (str "d") true (Ok tt)] /\
  good_start75 (str "people") 7 0 (db_init 0 false) (1 + length run75) /\ pallowed (str "people") 7 0 (pstart (db_init 0 false)) run75.
Proof.
  assert (I7 : is_i64 7) by (unfold is_i64; rewrite two63_val; lia).
  split; [vm_compute; reflexivity|]. split.
  - split; [exact I7|]. split; [apply db_ok_init|]. split; [lia|]. split; [left; split; vm_compute; reflexivity|].
    split; [rewrite two63_val; vm_compute; reflexivity|]. intros v e _. cbn [db_init d_kv]. rewrite get_empty. discriminate.
  - assert (U : forall did v v0 x, is_i64 did -> is_i64 v0 -> get (t_pend (upd75 7 did v (db_init 0 false))) (docKey 7 v0) = Some (Some x) -> v0 = did).
    { intros did v v0 x Hd Hv G. unfold upd75 in G. destruct (tset (docKey 7 did) v (new_txn (db_init 0 false) true [])) as [t r] eqn:E. cbn [fst] in G.
      apply tset_post in E. destruct E as [[_ (l & ->)]|(e & _ & [->|(l & ->)])]; [rewrite get_put in G | discriminate G | discriminate G].
      destruct (bytes_eqb (docKey 7 v0) (docKey 7 did)) eqn:Ek; [|discriminate G]. apply bytes_eqb_eq in Ek. exact (doc_inj 7 I7 v0 did Hv Hd Ek). }
    assert (N : forall did v, get (t_pend (upd75 7 did v (db_init 0 false))) (EncodeMetaSequenceKey (str "people")) = None \/ docKey 7 did = EncodeMetaSequenceKey (str "people")).
    { intros did v. unfold upd75. destruct (tset (docKey 7 did) v (new_txn (db_init 0 false) true [])) as [t r] eqn:E. cbn [fst].
      apply tset_post in E. destruct E as [[_ (l & ->)]|(e & _ & [->|(l & ->)])]; [rewrite get_put | left; reflexivity | left; reflexivity].
      destruct (bytes_eqb (EncodeMetaSequenceKey (str "people")) (docKey 7 did)) eqn:Ek; [right; apply bytes_eqb_eq in Ek; congruence | left; reflexivity]. }
    assert (J : forall z, (-10 <= z <= 10)%Z -> is_i64 z) by (intros z Hz; unfold is_i64; rewrite two63_val; lia).
    unfold run75, ins75, mkcoll. cbn [app pallowed].
    repeat (split; [first [exact Logic.I | split; [destruct (N 2 (str "c")) as [H|H]; [exact H | destruct (doc_not_counter _ 7 I7 2 (J 2 ltac:(lia)) H)]|
         intros v x Hv G; right; rewrite (U 2 (str "c") v x (J 2 ltac:(lia)) Hv G); vm_compute; tauto]
       | split; [destruct (N (-3) (str "m")) as [H|H]; [exact H | destruct (doc_not_counter _ 7 I7 (-3) (J (-3) ltac:(lia)) H)]|
         intros v x Hv G; left; rewrite (U (-3) (str "m") v x (J (-3) ltac:(lia)) Hv G); lia]]|]).
    exact Logic.I.
Qed.
(** Refuted: InsertOneManaged under id 1, then the first InsertOne of the same collection is given id 1 and overwrites it. *)
Definition man75 : txn := fst (old_tx 7 (PManaged 1 (str "precious")) (new_txn (db_init 0 false) true [])).
Definition run75b : list pev := mkcoll 0 ++ [POther man75 false] ++ ins75 0 (str "new").
Theorem C75_insert_overwrites_a_managed_document_refuted :
  let w := fst (prun (str "people") 7 (pstart (db_init 0 false)) run75b) in
  let '(w', o) := pstep (str "people") 7 w (PWrite 0 (ow_db (pw_o w)) [] false) in
  get (d_kv (ow_db (pw_o w))) (docKey 7 1) = Some (mk (str "precious")) /\
  o = PoIns 1 (str "new") true (Ok tt) /\ get (d_kv (ow_db (pw_o w'))) (docKey 7 1) = Some (mk (str "new")).
Proof. vm_compute. repeat split. Qed.
