(** Model of the allocator of the older document package, /repo/document/sequence.go, and of any
    number of instances on one keyword under any schedule. *)
From Verif Require Import Bytes SMap Provider ProviderProofs World Numeric KvUtil UtilTxn TxPost Sequence SequenceProofs.

(** EncodeMetaSequenceKey, document/keys.go:113-121 *)
Definition EncodeMetaSequenceKey (keyword : bytes) : bytes := MetaPrefix ++ str "_s" ++ keyword.
(** Sequence, document/sequence.go:12-19 *)
Record oseq := OSeq { o_key : bytes; o_bw : Z; o_next : Z; o_leased : Z }.

Definition ErrEmptyKeywordForSequence := ENamed (str "sequence keyword cannot be empty").

Section call.
Context (d0 d1 : db) (lim : list bool) (io : bool).
(** updateLease, 39-72: s.next is assigned before the write and stays when it fails; s.leased is
    restored when the commit fails *)
Definition o_updateLease (s : oseq) : db * oseq * result unit :=
  match tget (o_key s) (new_txn d0 true lim) with
  | (_, Panic) => (d1, s, Panic)
  | (t, r) =>
      match (match r with
             | Err ErrKeyNotFound => Ok 0
             | Ok val => match DecodeFromBinary val with Some n => Ok n | None => Err EDecode end
             | Err e => Err e
             | Panic => Panic
             end) with
      | Err e => (d1, s, Err e)
      | Panic => (d1, s, Panic)
      | Ok num =>
          let lease := to_u64 (num + o_bw s) in
          let s1 := OSeq (o_key s) (o_bw s) num (o_leased s) in
          match tset (o_key s) (Encode2Binary lease []) t with
          | (_, Err e) => (d1, s1, Err e)
          | (_, Panic) => (d1, s1, Panic)
          | (t2, Ok _) =>
              match commit d1 t2 io with
              | (d, _, Ok _) => (d, OSeq (o_key s) (o_bw s) num lease, Ok tt)
              | (d, _, Err e) => (d, s1, Err e)
              | (d, _, Panic) => (d, OSeq (o_key s) (o_bw s) num lease, Panic)
              end
          end
      end
  end.
(** NewSequence, 22-37: when the first lease fails the object is returned beside the error (NewDB, db.go:32-33,
    ignores the error and keeps the object) *)
Definition o_New (keyword : bytes) (bw : Z) : db * option oseq * result unit :=
  match keyword with
  | [] => (d1, None, Err ErrEmptyKeywordForSequence)
  | _ => if bw =? 0 then (d1, None, Err ErrZeroBandwidth)
         else match o_updateLease (OSeq (EncodeMetaSequenceKey keyword) bw 0 0) with
              | (d, s, r) => (d, Some s, r)
              end
  end.
(** ReleaseRemaining, 75-94: the transaction is never committed, only discarded *)
Definition o_Release (s : oseq) : db * oseq * result unit :=
  if o_leased s =? o_next s then (d1, s, Ok tt)
  else match tset (o_key s) (Encode2Binary (o_next s) []) (new_txn d0 true lim) with
       | (_, Ok _) => (d1, OSeq (o_key s) (o_bw s) (o_next s) (o_next s), Ok tt)
       | (_, Err e) => (d1, s, Err e)
       | (_, Panic) => (d1, s, Panic)
       end.
(** Next, 98-112 *)
Definition o_Next (s : oseq) : db * oseq * result Z :=
  match (if o_leased s <=? o_next s then o_updateLease s else (d1, s, Ok tt)) with
  | (d, s1, Ok _) => let v := to_u64 (o_next s1 + 1) in (d, OSeq (o_key s1) (o_bw s1) v (o_leased s1), Ok v)
  | (d, s1, Err e) => (d, s1, Err e)
  | (d, s1, Panic) => (d, s1, Panic)
  end.
End call.

(** any number of instances on one keyword *)
Inductive ocall := OcNew (bw : Z) | OcNext | OcRelease.
Record oworld := OW { ow_db : db; ow_seq : nat -> option oseq; ow_call : nat -> option (db * ocall) }.
Inductive oev :=
| OBegin (i : nat) (c : ocall) | OEnd (i : nat) (lim : list bool) (io : bool) | OCrash (who : nat -> bool)
| OForeign (t : txn) (io : bool) | OTick (n : nat).
Definition ostep (K : bytes) (w : oworld) (e : oev) : oworld * option (result Z) :=
  match e with
  | OBegin i c =>
      match ow_call w i with
      | Some _ => (w, None)
      | None => match c, ow_seq w i with
                | OcNew _, Some _ | OcNext, None | OcRelease, None => (w, None)
                | _, _ => (OW (ow_db w) (ow_seq w) (fupd (ow_call w) i (Some (ow_db w, c))), None)
                end
      end
  | OEnd i lim io =>
      match ow_call w i with
      | None => (w, None)
      | Some (d0, c) =>
          match c, ow_seq w i with
          | OcNew bw, _ => let '(d, s, r) := o_New d0 (ow_db w) lim io K bw in
                           (OW d (fupd (ow_seq w) i s) (fupd (ow_call w) i None), None)
          | OcNext, Some s => let '(d, s', r) := o_Next d0 (ow_db w) lim io s in
                              (OW d (fupd (ow_seq w) i (Some s')) (fupd (ow_call w) i None), Some r)
          | OcRelease, Some s => let '(d, s', r) := o_Release d0 (ow_db w) lim s in
                                 (OW d (fupd (ow_seq w) i (Some s')) (fupd (ow_call w) i None), None)
          | _, None => (w, None)
          end
      end
  | OCrash who => (OW (ow_db w) (fun j => if who j then None else ow_seq w j) (fun j => if who j then None else ow_call w j), None)
  | OForeign t io => let '(d, _, _) := commit (ow_db w) t io in (OW d (ow_seq w) (ow_call w), None)
  | OTick n => (OW (tick (ow_db w) n) (ow_seq w) (ow_call w), None)
  end.
Fixpoint orun (K : bytes) (w : oworld) (es : list oev) : oworld * list (option (result Z)) :=
  match es with
  | [] => (w, [])
  | e :: es' => let '(w1, r) := ostep K w e in let '(w2, rs) := orun K w1 es' in (w2, r :: rs)
  end.
(** every id handed out, in order *)
Definition oids (rs : list (option (result Z))) : list Z :=
  concat (map (fun r => match r with Some (Ok v) => [v] | _ => [] end) rs).
(** hypotheses: bandwidths within a bound, nobody else writes the counter *)
Definition o_allowed (B : Z) (K : bytes) (e : oev) : Prop :=
  match e with
  | OBegin _ (OcNew bw) => 0 < bw <= B
  | OForeign t _ => get (t_pend t) (EncodeMetaSequenceKey K) = None
  | _ => True
  end.

(** * Proofs *)
Definition ocell (K : bytes) (d : db) (c : Z) : Prop :=
  (get (d_kv d) (EncodeMetaSequenceKey K) = None /\ c = 0) \/ get (d_kv d) (EncodeMetaSequenceKey K) = Some (mk (Encode2Binary c [])).
Lemma old_key_nonempty K : EncodeMetaSequenceKey K <> [].
Proof. discriminate. Qed.
Lemma bin_inj a b : is_u64 a -> is_u64 b -> Encode2Binary a [] = Encode2Binary b [] -> a = b.
Proof. intros Ha Hb E. pose proof (DecodeFromBinary_enc a Ha) as X. rewrite E, (DecodeFromBinary_enc b Hb) in X. congruence. Qed.
Lemma ocell_fun K d c c' : is_u64 c -> is_u64 c' -> ocell K d c -> ocell K d c' -> c = c'.
Proof. intros I1 I2 [[H1 ->]|H1] [[H2 ->]|H2]; try congruence. rewrite H1 in H2. apply bin_inj; [assumption..|]. exact (f_equal (fun o => match o with Some e => e_val e | None => [] end) H2). Qed.

Lemma o_lease_abs K d0 d1 lim io s d' s1 r c0 : db_ok d1 -> tx_ok d1 (new_txn d0 true lim) -> o_key s = EncodeMetaSequenceKey K ->
  ocell K d0 c0 -> 0 <= c0 -> 0 < o_bw s -> c0 + o_bw s < two64 ->
  o_updateLease d0 d1 lim io s = (d', s1, r) ->
  (r = Ok tt /\ ocell K d1 c0 /\ ocell K d' (c0 + o_bw s) /\ s1 = OSeq (o_key s) (o_bw s) c0 (c0 + o_bw s) /\ db_ok d' /\ (forall tj, tx_ok d1 tj -> tx_ok d' tj)) \/
  (r <> Ok tt /\ d' = d1 /\ s1 = OSeq (o_key s) (o_bw s) c0 (o_leased s)).
Proof.
  intros Dk T Ky C P0 Pb Up E. unfold o_updateLease in E.
  assert (Kn : o_key s <> []) by (rewrite Ky; apply old_key_nonempty).
  destruct (tget (o_key s) (new_txn d0 true lim)) as [t rg] eqn:Eg.
  apply tget_post in Eg; [|reflexivity | exact Kn]. destruct Eg as [-> Er].
  assert (V : (get (view (new_txn d0 true lim)) (o_key s) = None /\ c0 = 0) \/ get (view (new_txn d0 true lim)) (o_key s) = Some (mk (Encode2Binary c0 []))).
  { rewrite Ky. destruct C as [[H ->]|H]; [left; split; [|reflexivity]; exact (get_view_fresh d0 true lim _ None H) | right; exact (get_view_fresh d0 true lim _ (Some _) H)]. }
  assert (N : match rg with
             | Err ErrKeyNotFound => Ok 0
             | Ok val => match DecodeFromBinary val with Some n => Ok n | None => Err EDecode end
             | Err e => Err e
             | Panic => Panic
             end = Ok c0).
  { destruct V as [[V ->]|V]; rewrite V in Er; subst rg; [reflexivity|]. cbn [mk e_val]. rewrite DecodeFromBinary_enc by (unfold is_u64; lia). reflexivity. }
  rewrite N in E. clear N.
  assert (E' : (let lease := to_u64 (c0 + o_bw s) in
          let s1 := OSeq (o_key s) (o_bw s) c0 (o_leased s) in
          match tset (o_key s) (Encode2Binary lease []) (track (o_key s) (new_txn d0 true lim)) with
          | (_, Err e) => (d1, s1, Err e)
          | (_, Panic) => (d1, s1, Panic)
          | (t2, Ok _) =>
              match commit d1 t2 io with
              | (d, _, Ok _) => (d, OSeq (o_key s) (o_bw s) c0 lease, Ok tt)
              | (d, _, Err e) => (d, s1, Err e)
              | (d, _, Panic) => (d, OSeq (o_key s) (o_bw s) c0 lease, Panic)
              end
          end) = (d', s1, r)) by (destruct V as [[V ->]|V]; rewrite V in Er; subst rg; exact E).
  clear E. cbv zeta in E'. replace (to_u64 (c0 + o_bw s)) with (c0 + o_bw s) in E' by (symmetry; apply Z.mod_small; rewrite ?two64_val in *; lia).
  destruct (tset (o_key s) (Encode2Binary (c0 + o_bw s) []) (track (o_key s) (new_txn d0 true lim))) as [t2 r2] eqn:Es.
  apply tset_post in Es. destruct Es as [[-> (l & ->)]|(e & -> & _)].
  2:{ apply pair3_inj in E'. destruct E' as (<- & <- & <-). right. split; [discriminate|]. split; reflexivity. }
  set (t3 := put (o_key s) (Some (mk (Encode2Binary (c0 + o_bw s) []))) l (track (o_key s) (new_txn d0 true lim))) in *.
  assert (G : get (t_pend t3) (o_key s) = Some (Some (mk (Encode2Binary (c0 + o_bw s) [])))) by (unfold t3; rewrite get_put, bytes_eqb_refl; reflexivity).
  destruct (commit d1 t3 io) as [[d2 t4] rc] eqn:Ec. pose proof (commit_cases _ _ _ _ _ _ Ec) as Cc.
  destruct rc as [[]|e|].
  - apply pair3_inj in E'. destruct E' as (<- & <- & <-). left. destruct Cc as [(_ & Kv & Nc)|[X _]]; [|congruence].
    assert (Ne : entries (t_pend t3) <> []). { intros X. apply entries_nil_iff in X. rewrite X, get_empty in G. discriminate. }
    assert (Ex : ext (new_txn d0 true lim) t3) by (unfold t3; eapply ext_trans; [apply ext_track | apply ext_put]).
    assert (R : In (o_key s) (t_reads t3)) by (unfold t3; cbn [put t_reads]; apply reads_track; [reflexivity | apply get_empty]).
    assert (Eq : get (d_kv d1) (o_key s) = get (d_kv d0) (o_key s)).
    { rewrite (conflict_free d1 t3); [|eapply tx_ok_ext; eassumption | exact (Nc Ne) | exact R]. destruct Ex as (-> & _). reflexivity. }
    split; [reflexivity|]. split; [unfold ocell in *; rewrite <- Ky in *; rewrite Eq; exact C|].
    split; [right; rewrite <- Ky, Kv, G; reflexivity|]. split; [reflexivity|].
    split; [eapply commit_db_ok; eassumption | intros tj; eapply commit_tx_ok; eassumption].
  - apply pair3_inj in E'. destruct E' as (<- & <- & <-). right. destruct Cc as [(X & _)|[_ ->]]; [discriminate|].
    split; [discriminate|]. split; reflexivity.
  - exfalso. unfold commit in Ec. assert (O : t_open t3 = true).
    { unfold t3. cbn [put t_open]. unfold track, add_read. destruct (get (t_pend (new_txn d0 true lim)) (o_key s)); [reflexivity|]. destruct (t_upd (new_txn d0 true lim)); reflexivity. }
    rewrite O in Ec. cbn [negb] in Ec. destruct (entries (t_pend t3)); [inversion Ec|]. destruct (conflict d1 t3); [inversion Ec|]. destruct io; inversion Ec.
Qed.

Definition opool (s : oseq) (v : Z) : Prop := o_next s < v <= o_leased s.
Record oinv (B : Z) (K : bytes) (rem : Z) (w : oworld) (used : list Z) (c : Z) : Prop := {
  oi_cell : ocell K (ow_db w) c;
  oi_range : 0 <= c /\ c + B * rem < two64;
  oi_db : db_ok (ow_db w);
  oi_obj : forall i s, ow_seq w i = Some s -> o_key s = EncodeMetaSequenceKey K /\ 0 < o_bw s <= B /\ 0 <= o_next s <= c /\ o_leased s <= c;
  oi_dis : forall i j s s' v, i <> j -> ow_seq w i = Some s -> ow_seq w j = Some s' -> opool s v -> ~ opool s' v;
  oi_used : forall v, In v used -> v <= c /\ forall i s, ow_seq w i = Some s -> ~ opool s v;
  oi_call : forall i d0 k, ow_call w i = Some (d0, k) ->
    tx_ok (ow_db w) (new_txn d0 true []) /\
    (exists c0, ocell K d0 c0 /\ 0 <= c0 <= c /\ forall s, ow_seq w i = Some s -> o_leased s <= c0) /\
    match k with OcNew bw => 0 < bw <= B /\ ow_seq w i = None | _ => exists s, ow_seq w i = Some s end }.

Section oinv.
Context (B : Z) (K : bytes) (HB : 0 < B).
Notation oinv := (oinv B K).

Lemma oinv_rem rem w used c : 0 <= rem -> oinv (rem + 1) w used c -> oinv rem w used c.
Proof. intros R [I1 I2 I3 I4 I5 I6 I7]. split; try assumption. split; [tauto | nia]. Qed.

(** object i changes state: its new pool is part of its old one, or new ids *)
Lemma oinv_set rem w used c i d' c' o ids : 0 <= rem -> oinv (rem + 1) w used c ->
  c <= c' -> c' + B * rem < two64 -> ocell K d' c' -> db_ok d' -> (forall tj, tx_ok (ow_db w) tj -> tx_ok d' tj) ->
  let opl := fun v => exists s, ow_seq w i = Some s /\ opool s v in
  (forall s', o = Some s' -> o_key s' = EncodeMetaSequenceKey K /\ 0 < o_bw s' <= B /\ 0 <= o_next s' <= c' /\ o_leased s' <= c' /\
     forall v, opool s' v -> opl v \/ c < v) ->
  (forall v, In v ids -> v <= c' /\ (opl v \/ c < v) /\ (forall s', o = Some s' -> ~ opool s' v)) -> NoDup ids ->
  (NoDup ids /\ forall v, In v ids -> ~ In v used) /\
  oinv rem (OW d' (fupd (ow_seq w) i o) (fupd (ow_call w) i None)) (ids ++ used) c'.
Proof.
  intros R [I1 I2 I3 I4 I5 I6 I7] Le Up Ce Dk Tx opl Ho Hi Nd. split.
  - split; [exact Nd|]. intros v Hv Hu. destruct (Hi v Hv) as (_ & [(s & Hs & Pl)|X] & _); destruct (I6 v Hu) as [Lv Np]; [exact (Np i s Hs Pl) | lia].
  - split; cbn [ow_db ow_seq ow_call].
    + exact Ce.
    + split; [lia | exact Up].
    + exact Dk.
    + intros j s. destruct (Nat.eq_dec j i) as [->|N]; [rewrite fupd_eq; intros E; destruct (Ho s E) as (A1 & A2 & A3 & A4 & _); auto|].
      rewrite fupd_ne by exact N. intros E. destruct (I4 j s E) as (A1 & A2 & A3 & A4). split; [exact A1|]. split; [exact A2|]. split; lia.
    + assert (X : forall j s s' v, j <> i -> o = Some s -> ow_seq w j = Some s' -> opool s v -> opool s' v -> False).
      { intros j s s' v N E1 E2 P1 P2. destruct (Ho s E1) as (_ & _ & _ & _ & A). destruct (A v P1) as [(s0 & H0 & P0)|Y].
        - exact (I5 i j s0 s' v (not_eq_sym N) H0 E2 P0 P2).
        - destruct (I4 j s' E2) as (_ & _ & _ & Q). unfold opool in P2. lia. }
      intros a b s s' v Nab. destruct (Nat.eq_dec a i) as [->|Na]; [rewrite fupd_eq | rewrite fupd_ne by exact Na].
      * rewrite fupd_ne by congruence. intros E1 E2 P1 P2. exact (X b s s' v (not_eq_sym Nab) E1 E2 P1 P2).
      * destruct (Nat.eq_dec b i) as [->|Nb]; [rewrite fupd_eq | rewrite fupd_ne by exact Nb].
        -- intros E1 E2 P1 P2. exact (X a s' s v Na E2 E1 P2 P1).
        -- apply I5. exact Nab.
    + intros v Hv. apply in_app_or in Hv. destruct Hv as [Hv|Hv].
      * destruct (Hi v Hv) as (Lv & Or & Nn). split; [exact Lv|]. intros j s. destruct (Nat.eq_dec j i) as [->|N]; [rewrite fupd_eq; apply Nn|].
        rewrite fupd_ne by exact N. intros E P. destruct Or as [(s0 & H0 & P0)|Y]; [exact (I5 i j s0 s v (not_eq_sym N) H0 E P0 P)|].
        destruct (I4 j s E) as (_ & _ & _ & Q). unfold opool in P. lia.
      * destruct (I6 v Hv) as [Lv Np]. split; [lia|]. intros j s. destruct (Nat.eq_dec j i) as [->|N]; [|rewrite fupd_ne by exact N; apply Np].
        rewrite fupd_eq. intros E P. destruct (Ho s E) as (_ & _ & _ & _ & A). destruct (A v P) as [(s0 & H0 & P0)|Y]; [exact (Np i s0 H0 P0) | lia].
    + intros j d0 k. destruct (Nat.eq_dec j i) as [->|N]; [rewrite fupd_eq; discriminate|]. rewrite fupd_ne by exact N. intros E.
      destruct (I7 j d0 k E) as (A1 & (c0 & A2 & A3 & A4) & A5). split; [apply Tx; exact A1|]. rewrite (fupd_ne (ow_seq w) i o j N). split; [|exact A5].
      exists c0. split; [exact A2|]. split; [lia | exact A4].
Qed.

Lemma oinv_foreign rem w used c d' : oinv rem w used c -> get (d_kv d') (EncodeMetaSequenceKey K) = get (d_kv (ow_db w)) (EncodeMetaSequenceKey K) ->
  db_ok d' -> (forall tj, tx_ok (ow_db w) tj -> tx_ok d' tj) -> oinv rem (OW d' (ow_seq w) (ow_call w)) used c.
Proof.
  intros [I1 I2 I3 I4 I5 I6 I7] G Dk Tx. split; cbn [ow_db ow_seq ow_call]; try assumption.
  - unfold ocell in *. rewrite G. exact I1.
  - intros i d0 k E. destruct (I7 i d0 k E) as (A1 & A2 & A3). split; [apply Tx; exact A1|]. split; assumption.
Qed.

Definition ids1 (r : option (result Z)) : list Z := match r with Some (Ok v) => [v] | _ => [] end.

Lemma ostep_inv rem w used c e : 0 <= rem -> oinv (rem + 1) w used c -> o_allowed B K e ->
  (NoDup (ids1 (snd (ostep K w e))) /\ forall v, In v (ids1 (snd (ostep K w e))) -> ~ In v used) /\
  exists c', c' <= c + B /\ oinv rem (fst (ostep K w e)) (ids1 (snd (ostep K w e)) ++ used) c'.
Proof.
  intros R I A. pose proof (oinv_rem rem w used c R I) as I0. pose proof (oi_range _ _ _ _ _ _ I) as Rg. pose proof (oi_db _ _ _ _ _ _ I) as Dk.
  assert (SILENT : forall w' , oinv rem w' used c -> (NoDup (ids1 None) /\ forall v, In v (ids1 None) -> ~ In v used) /\ exists c', c' <= c + B /\ oinv rem w' (ids1 None ++ used) c').
  { intros w' H. split; [split; [constructor | intros v []] | exists c; split; [lia | exact H]]. }
  destruct e as [i k|i lim io|who|t io|n]; cbn [ostep].
  - destruct (ow_call w i) eqn:Hc; [apply SILENT; exact I0|].
    assert (BEG : match k with OcNew bw => 0 < bw <= B /\ ow_seq w i = None | _ => exists s, ow_seq w i = Some s end ->
       oinv rem (OW (ow_db w) (ow_seq w) (fupd (ow_call w) i (Some (ow_db w, k)))) used c).
    { intros Hk. destruct I0 as [J1 J2 J3 J4 J5 J6 J7]. split; cbn [ow_db ow_seq ow_call]; try assumption.
      intros j d0 k0. destruct (Nat.eq_dec j i) as [->|N]; [|rewrite fupd_ne by exact N; apply J7].
      rewrite fupd_eq. intros E. inversion E. subst d0 k0. split; [apply tx_ok_new|]. split; [|exact Hk].
      exists c. split; [exact J1|]. split; [lia|]. intros s E1. apply (J4 i s E1). }
    destruct k as [bw| |]; destruct (ow_seq w i) as [s|] eqn:Hs; apply SILENT; try exact I0; apply BEG; eauto.
  - destruct (ow_call w i) as [[d0 k]|] eqn:Hc; [|apply SILENT; exact I0].
    destruct (oi_call _ _ _ _ _ _ I i d0 k Hc) as (T & (c0 & C0 & P0 & Ls) & Hk).
    assert (T' : tx_ok (ow_db w) (new_txn d0 true lim)) by exact T.
    destruct k as [bw| |].
    + destruct Hk as [Bw Hn].
      assert (GONE : oinv rem (OW (ow_db w) (fupd (ow_seq w) i None) (fupd (ow_call w) i None)) used c).
      { apply (oinv_set rem w used c i (ow_db w) c None []); try assumption; try lia; try nia; [apply (oi_cell _ _ _ _ _ _ I) | auto | discriminate | intros v [] | constructor]. }
      unfold o_New. destruct K as [|b K'] eqn:EK; [apply SILENT; exact GONE|]. rewrite <- EK in *. 
      replace (bw =? 0) with false by lia.
      destruct (o_updateLease d0 (ow_db w) lim io (OSeq (EncodeMetaSequenceKey K) bw 0 0)) as [[d2 s2] r2] eqn:E.
      destruct (o_lease_abs K d0 (ow_db w) lim io (OSeq (EncodeMetaSequenceKey K) bw 0 0) d2 s2 r2 c0 Dk T' eq_refl C0 ltac:(lia) ltac:(cbn; lia) ltac:(cbn; nia) E) as [(-> & Ce & Ce' & -> & Dk' & Tx)|(Nr & -> & ->)].
      * assert (c0 = c) by (apply (ocell_fun K (ow_db w)); [unfold is_u64; nia | unfold is_u64; nia | exact Ce | apply (oi_cell _ _ _ _ _ _ I)]). subst c0. cbn [o_bw o_key] in *. cbn [fst snd].
        destruct (oinv_set rem w used c i d2 (c + bw) (Some (OSeq (EncodeMetaSequenceKey K) bw c (c + bw))) [] R I) as [Q1 Q2]; try assumption; try nia.
        -- intros s' E'. inversion E'. subst s'. cbn [o_key o_bw o_next o_leased]. split; [reflexivity|]. split; [exact Bw|]. split; [lia|]. split; [lia|].
           intros v. unfold opool. cbn [o_next o_leased]. intros Hv. right. lia.
        -- intros v [].
        -- constructor.
        -- split; [exact Q1 | exists (c + bw); split; [lia | exact Q2]].
      * assert (Q : oinv rem (OW (ow_db w) (fupd (ow_seq w) i (Some (OSeq (EncodeMetaSequenceKey K) bw c0 0))) (fupd (ow_call w) i None)) used c).
        { apply (oinv_set rem w used c i (ow_db w) c (Some (OSeq (EncodeMetaSequenceKey K) bw c0 0)) []); try assumption; try lia; try nia; [apply (oi_cell _ _ _ _ _ _ I) | auto | | intros v [] | constructor].
          intros s' E'. inversion E'. subst s'. cbn [o_key o_bw o_next o_leased]. split; [reflexivity|]. split; [exact Bw|]. split; [lia|]. split; [lia|].
          intros v. unfold opool. cbn [o_next o_leased]. lia. }
        destruct r2 as [[]|e|]; [congruence| |]; apply SILENT; exact Q.
    + destruct Hk as [s Hs]. rewrite Hs. destruct (oi_obj _ _ _ _ _ _ I i s Hs) as (Ky & Bw & Nx & Ld). unfold o_Next.
      destruct (Z.leb_spec (o_leased s) (o_next s)) as [LE|LT].
      * destruct (o_updateLease d0 (ow_db w) lim io s) as [[d2 s2] r2] eqn:E.
        destruct (o_lease_abs K d0 (ow_db w) lim io s d2 s2 r2 c0 Dk T' Ky C0 ltac:(lia) ltac:(lia) ltac:(nia) E) as [(-> & Ce & Ce' & -> & Dk' & Tx)|(Nr & -> & ->)].
        -- assert (c0 = c) by (apply (ocell_fun K (ow_db w)); [unfold is_u64; nia | unfold is_u64; nia | exact Ce | apply (oi_cell _ _ _ _ _ _ I)]). subst c0. cbn [o_bw o_key o_next o_leased fst snd].
           replace (to_u64 (c + 1)) with (c + 1) by (symmetry; apply Z.mod_small; rewrite ?two64_val in *; nia).
           destruct (oinv_set rem w used c i d2 (c + o_bw s) (Some (OSeq (o_key s) (o_bw s) (c + 1) (c + o_bw s))) [c + 1] R I) as [Q1 Q2]; try assumption; try nia.
           ++ intros s' E'. inversion E'. subst s'. cbn [o_key o_bw o_next o_leased]. split; [exact Ky|]. split; [exact Bw|]. split; [lia|]. split; [lia|].
              intros v. unfold opool. cbn [o_next o_leased]. intros Hv. right. lia.
           ++ intros v [<-|[]]. split; [lia|]. split; [right; lia|]. intros s' E'. inversion E'. unfold opool. cbn [o_next o_leased]. lia.
           ++ constructor; [intros []|constructor].
           ++ split; [exact Q1 | exists (c + o_bw s); split; [lia | exact Q2]].
        -- assert (Q : oinv rem (OW (ow_db w) (fupd (ow_seq w) i (Some (OSeq (o_key s) (o_bw s) c0 (o_leased s)))) (fupd (ow_call w) i None)) used c).
           { apply (oinv_set rem w used c i (ow_db w) c (Some (OSeq (o_key s) (o_bw s) c0 (o_leased s))) []); try assumption; try lia; try nia; [apply (oi_cell _ _ _ _ _ _ I) | auto | | intros v [] | constructor].
             intros s' E'. inversion E'. subst s'. cbn [o_key o_bw o_next o_leased]. split; [exact Ky|]. split; [exact Bw|]. split; [lia|]. split; [lia|].
             intros v. unfold opool. cbn [o_next o_leased]. specialize (Ls s Hs). lia. }
           destruct r2 as [[]|e|]; [congruence| |]; (split; [split; [constructor | intros v []] | exists c; split; [lia | exact Q]]).
      * cbn [fst snd]. replace (to_u64 (o_next s + 1)) with (o_next s + 1) by (symmetry; apply Z.mod_small; rewrite ?two64_val in *; nia).
        destruct (oinv_set rem w used c i (ow_db w) c (Some (OSeq (o_key s) (o_bw s) (o_next s + 1) (o_leased s))) [o_next s + 1] R I) as [Q1 Q2]; try assumption; try lia; try nia.
        -- apply (oi_cell _ _ _ _ _ _ I).
        -- auto.
        -- intros s' E'. inversion E'. subst s'. cbn [o_key o_bw o_next o_leased]. split; [exact Ky|]. split; [exact Bw|]. split; [lia|]. split; [lia|].
           intros v. unfold opool. cbn [o_next o_leased]. intros Hv. left. exists s. split; [exact Hs|]. unfold opool. lia.
        -- intros v [<-|[]]. split; [lia|]. split; [left; exists s; split; [exact Hs | unfold opool; lia]|]. intros s' E'. inversion E'. unfold opool. cbn [o_next o_leased]. lia.
        -- constructor; [intros []|constructor].
        -- split; [exact Q1 | exists c; split; [lia | exact Q2]].
    + destruct Hk as [s Hs]. rewrite Hs. destruct (oi_obj _ _ _ _ _ _ I i s Hs) as (Ky & Bw & Nx & Ld).
      assert (Q : forall ld, (ld = o_leased s \/ ld = o_next s) -> oinv rem (OW (ow_db w) (fupd (ow_seq w) i (Some (OSeq (o_key s) (o_bw s) (o_next s) ld))) (fupd (ow_call w) i None)) used c).
      { intros ld Hld. apply (oinv_set rem w used c i (ow_db w) c (Some (OSeq (o_key s) (o_bw s) (o_next s) ld)) []); try assumption; try lia; try nia; [apply (oi_cell _ _ _ _ _ _ I) | auto | | intros v [] | constructor].
        intros s' E'. inversion E'. subst s'. cbn [o_key o_bw o_next o_leased]. split; [exact Ky|]. split; [exact Bw|]. split; [lia|]. split; [lia|].
        intros v. unfold opool. cbn [o_next o_leased]. intros Hv. left. exists s. split; [exact Hs|]. unfold opool. lia. }
      assert (Q0 : oinv rem (OW (ow_db w) (fupd (ow_seq w) i (Some s)) (fupd (ow_call w) i None)) used c).
      { specialize (Q (o_leased s) (or_introl eq_refl)). destruct s; exact Q. }
      unfold o_Release. destruct (o_leased s =? o_next s); [apply SILENT; exact Q0|].
      destruct (tset (o_key s) (Encode2Binary (o_next s) []) (new_txn d0 true lim)) as [t2 [u|e|]]; apply SILENT; try exact Q0. apply Q. right. reflexivity.
  - apply SILENT. destruct I0 as [J1 J2 J3 J4 J5 J6 J7]. split; cbn [fst ow_db ow_seq ow_call]; try assumption.
    + intros j s. destruct (who j); [discriminate | apply J4].
    + intros a b s s' v N. destruct (who a); [discriminate|]. destruct (who b); [discriminate|]. apply J5. exact N.
    + intros v Hv. destruct (J6 v Hv) as [X Y]. split; [exact X|]. intros j s. destruct (who j); [discriminate | apply Y].
    + intros j d0 k. destruct (who j); [discriminate | apply J7].
  - destruct (commit (ow_db w) t io) as [[d2 t2] r2] eqn:E. apply SILENT. apply oinv_foreign; [exact I0| | |].
    + destruct (commit_cases _ _ _ _ _ _ E) as [(_ & Kv & _)|[_ ->]]; [|reflexivity]. rewrite Kv. cbn [o_allowed] in A. rewrite A. reflexivity.
    + eapply commit_db_ok; [exact Dk | exact E].
    + intros tj. eapply commit_tx_ok; [exact Dk | exact E].
  - apply SILENT. apply oinv_foreign; [exact I0 | reflexivity | exact Dk | auto].
Qed.
Lemma orun_inv es : forall rem w used c, 0 <= rem -> oinv (rem + Z.of_nat (length es)) w used c -> Forall (o_allowed B K) es ->
  NoDup (oids (snd (orun K w es))) /\ forall v, In v (oids (snd (orun K w es))) -> ~ In v used.
Proof.
  induction es as [|e es IH]; intros rem w used c R I A; [split; [constructor | intros v []]|].
  cbn [length] in I. replace (rem + Z.of_nat (S (length es))) with (rem + Z.of_nat (length es) + 1) in I by lia. inversion A as [|? ? A1 A2]. subst.
  destruct (ostep_inv (rem + Z.of_nat (length es)) w used c e ltac:(lia) I A1) as ((N1 & F1) & c' & _ & I1).
  cbn [orun]. destruct (ostep K w e) as [w1 r]. cbn [fst snd] in *. destruct (IH rem w1 _ c' R I1 A2) as [N2 F2].
  destruct (orun K w1 es) as [w2 rs]. cbn [snd] in *. change (oids (r :: rs)) with (ids1 r ++ oids rs).
  assert (Dj : forall v, In v (ids1 r) -> ~ In v (oids rs)). { intros v Hv H. apply (F2 v H). apply in_or_app. auto. }
  split.
  - clear -N1 N2 Dj. induction (ids1 r) as [|x l IHl]; [exact N2|]. inversion N1. subst. cbn [app]. constructor.
    + intros H. apply in_app_or in H. destruct H as [H|H]; [contradiction | exact (Dj x (or_introl eq_refl) H)].
    + apply IHl; [assumption|]. intros v Hv. apply Dj. right. exact Hv.
  - intros v Hv. apply in_app_or in Hv. destruct Hv as [Hv|Hv]; [exact (F1 v Hv)|]. intros Hu. apply (F2 v Hv). apply in_or_app. auto.
Qed.
End oinv.
