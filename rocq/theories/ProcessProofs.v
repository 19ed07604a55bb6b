(** Invariants of a process (Process.v) for P_Process.v. *)
From Verif Require Import Bytes SMap Provider ProviderProofs World Memcmp MemcmpProofs Numeric KvUtil KeyModel Struct
  StructProofs StructHash StructList UtilTxn Sequence SequenceProofs Model Meta MetaCodec MetaSpec MetaProofs MetaOps MetaRun Schema Ddl DdlSpec DdlProofs DdlWorker DdlSys DdlIndex DdlMore Domain DomainProofs Process.
From Verif Require P_Schema P_Meta P_Ddl.
From Verif Require Import P_Domain.
From Coq Require Import Sorted Permutation.

(** what the events may be: Go visits every element of a map; names are valid UTF-8; other transactions do not touch the metadata *)
Definition pev_ok (e : pev) : Prop :=
  match e with
  | PInit sh _ => forall l, Permutation (sh l) l
  | PCreate i io => dev_ok (DCreate i io)
  | PAddIndex i io => dev_ok (DIndex i io)
  | PWork o sh _ => orders_are o /\ forall l, Permutation (sh l) l
  | POther t io => dev_ok (DOther t io)
  | PElsewhere o _ => orders_are o
  | _ => True
  end.
(** one process at a time uses the store, and Lease is 0 *)
Definition single (e : pev) : Prop := match e with PTick | PElsewhere _ _ => False | _ => True end.
Definition pweight (e : pev) : Z :=
  match e with
  | PInit _ ios => llen ios
  | PCreate i io => dweight (DCreate i io)
  | PAddIndex i io => dweight (DIndex i io)
  | PSeq _ | PNext _ _ => 1
  | _ => 0
  end.
Definition pload (es : list pev) : Z := fold_right (fun e n => pweight e + n) 0 es.
Lemma pweight_nonneg e : 0 <= pweight e.
Proof. destruct e; cbn [pweight]; try lia; try apply llen_nonneg; try apply weight_nonneg. Qed.
Lemma pload_nonneg es : 0 <= pload es.
Proof. induction es as [|e es IH]; cbn [pload fold_right]; [lia|]. pose proof (pweight_nonneg e). unfold pload in IH. lia. Qed.
Lemma pload_app es es' : pload (es ++ es') = pload es + pload es'.
Proof. unfold pload. induction es as [|e es IH]; cbn [app fold_right]; [reflexivity|]. rewrite IH. lia. Qed.

(** * Allocators *)
Definition fit (a c : Z) (s : seq) : Prop := q_loc s = did_loc a c /\ is_i64 (q_bw s) /\ q_closed s = false.
Definition good (l : list (Z * Z)) (G : registry) : Prop := forall c s, G c = Some s -> exists a, In (a, c) l /\ fit a c s.
Lemma reg_set_eq G c s : reg_set G c s c = Some s.
Proof. unfold reg_set. rewrite Z.eqb_refl. reflexivity. Qed.
Lemma reg_set_ne G c s c' : c' <> c -> reg_set G c s c' = G c'.
Proof. intros N. unfold reg_set. destruct (Z.eqb_spec c' c); [contradiction | reflexivity]. Qed.
Lemma reg_set_some G c s c' : G c' <> None -> reg_set G c s c' <> None.
Proof. unfold reg_set. destruct (Z.eqb_spec c' c); [discriminate | auto]. Qed.
Lemma did_loc_new d0 d1 lim io a c bw : bw <> 0 -> newSeq d0 d1 lim io (did_loc a c) bw =
  match renewLease d0 d1 lim io (Seq (did_loc a c) bw false 0 0 []) 0 with (d, s, Ok _) => (d, Some s, Ok tt) | (d, _, r) => (d, None, r) end.
Proof.
  intros N. unfold newSeq, did_loc. destruct (dbKeyByID a) as [|x l] eqn:E; [exfalso; revert E; unfold dbKeyByID, pkey; cbn; discriminate|].
  destruct (didSequenceKeyByID c) as [|y l'] eqn:E'; [exfalso; revert E'; unfold didSequenceKeyByID, pkey; cbn; discriminate|].
  destruct (Z.eqb_spec bw 0) as [|_]; [contradiction | reflexivity].
Qed.
Lemma renew_shape d0 d1 lim io s k d s' r : renewLease d0 d1 lim io s k = (d, s', r) ->
  d = fst (run_update d0 d1 (loc_inc (q_loc s) (if k =? 0 then q_bw s else k)) lim io) /\ q_loc s' = q_loc s /\ q_bw s' = q_bw s /\ q_closed s' = q_closed s /\
  (r = Ok tt /\ (exists v, snd (run_update d0 d1 (loc_inc (q_loc s) (if k =? 0 then q_bw s else k)) lim io) = Ok v) \/
   s' = s /\ (forall u, r <> Ok u) /\ (forall v, snd (run_update d0 d1 (loc_inc (q_loc s) (if k =? 0 then q_bw s else k)) lim io) <> Ok v) /\
   (r = Panic -> snd (run_update d0 d1 (loc_inc (q_loc s) (if k =? 0 then q_bw s else k)) lim io) = Panic) /\
   (forall e, r = Err e -> snd (run_update d0 d1 (loc_inc (q_loc s) (if k =? 0 then q_bw s else k)) lim io) = Err e)).
Proof.
  unfold renewLease. cbv zeta. set (x := run_update d0 d1 (loc_inc (q_loc s) (if k =? 0 then q_bw s else k)) lim io). destruct x as [dx [v|e|]]; intros E;
    assert (Eq : d = dx) by congruence; cbn [fst snd]; (split; [exact Eq|]).
  - assert (s' = set_lease s (to_i64 (v - (if k =? 0 then q_bw s else k))) v) by congruence. subst s'. repeat (split; [reflexivity|]). left. split; [congruence | eauto].
  - assert (s' = s) by congruence. subst s'. repeat (split; [reflexivity|]). right. split; [reflexivity|]. split; [congruence|]. split; [congruence|]. split; congruence.
  - assert (s' = s) by congruence. subst s'. repeat (split; [reflexivity|]). right. split; [reflexivity|]. split; [congruence|]. split; [congruence|]. split; congruence.
Qed.
Lemma NoDup_app_intro' {X} (l l' : list X) : NoDup l -> NoDup l' -> (forall x, In x l -> ~ In x l') -> NoDup (l ++ l').
Proof.
  induction l as [|a l IH]; intros N N' D; [exact N'|]. inversion N as [|? ? N1 N2]; subst. cbn [app]. constructor.
  - rewrite in_app_iff. intros [Y|Y]; [contradiction | exact (D a (or_introl eq_refl) Y)].
  - apply IH; [exact N2 | exact N' | intros x Y; apply D; right; exact Y].
Qed.
Section WithJson.
Variable J : json.
Hypothesis JO : json_ok J.
Local Notation sinv := (sinv J).
Lemma sys_eta y : Sys (y_db y) (y_vars y) (y_jobs y) = y.
Proof. destruct y. reflexivity. Qed.
Lemma did_sinv T y D R st A a c s io : sinv T y D R st A -> T + 1 < two63 -> is_i64 a -> is_i64 c -> is_i64 s ->
  let x := run_update (y_db y) (y_db y) (loc_inc (did_loc a c) s) [] io in
  exists A', sinv (T + 1) (Sys (fst x) (y_vars y) (y_jobs y)) D R st A' /\ (snd x = Err EIO /\ io = true /\ fst x = y_db y \/ exists v, snd x = Ok v).
Proof.
  intros I L Ha Hc Hs x. destruct (other_inv J T y D R st A (DDid a c s io) I (conj Ha (conj Hc Hs)) L Logic.I) as (A' & H & _). cbn [dweight dstep] in H. exists A'. split; [exact H|].
  pose proof (si_holds _ _ _ _ _ _ _ I) as Hh. pose proof (room_le T D R st) as RL.
  destruct (update_run J _ _ _ _ _ _ _ io Z.le_0_1 Hh ltac:(lia) (DidInc_d J A a c s Ha Hc Hs)) as [(E & Hio & _)|(d' & E & _)]; unfold x, did_loc; cbn [loc_inc]; rewrite E; cbn [fst snd]; eauto.
Qed.
Lemma create_seq T y D R st A G a c io : sinv T y D R st A -> T + 1 < two63 -> is_i64 a -> is_i64 c -> G c = None ->
  exists d' A', sinv (T + 1) (Sys d' (y_vars y) (y_jobs y)) D R st A' /\
    (io = true /\ CreateSequence (y_db y) G a c 0 io = (d', G, Err EIO) \/
     exists s, fit a c s /\ CreateSequence (y_db y) G a c 0 io = (d', reg_set G c s, Ok tt)).
Proof.
  intros I L Ha Hc N. assert (Hs : is_i64 1000) by (unfold is_i64; rewrite two63_val; lia). destruct (did_sinv T y D R st A a c 1000 io I L Ha Hc Hs) as (A' & H & Q).
  set (x := run_update (y_db y) (y_db y) (loc_inc (did_loc a c) 1000) [] io) in *. exists (fst x), A'. split; [exact H|].
  unfold CreateSequence. rewrite N. unfold NewDocIDSequence. replace (if 0 <=? 0 then defaultDIDBandWidth else 0) with 1000 by reflexivity. rewrite did_loc_new by lia.
  destruct (renewLease (y_db y) (y_db y) [] io (Seq (did_loc a c) 1000 false 0 0 []) 0) as [[d' s'] r] eqn:E. apply renew_shape in E. cbn [q_loc q_bw q_closed] in E.
  replace (if 0 =? 0 then 1000 else 0) with 1000 in E by reflexivity. fold x in E. destruct E as (-> & E1 & E2 & E3 & E4). destruct Q as [(Q1 & Q2 & Q3)|(v & Q)].
  - left. split; [exact Q2|]. destruct E4 as [(_ & v & E4)|(E4 & E5 & _ & E7 & E8)]; [congruence|]. destruct r as [u|e|]; [destruct (E5 u eq_refl) | | specialize (E7 eq_refl); congruence].
    specialize (E8 e eq_refl). assert (e = EIO) by congruence. subst e. reflexivity.
  - right. exists s'. destruct E4 as [(-> & _)|(_ & _ & E4 & _)]; [|destruct (E4 v Q)]. split; [|reflexivity]. split; [exact E1|]. rewrite E2, E3. auto.
Qed.
(** * Init's loop *)
Lemma create_seqs_sinv l : forall ios T y D R st A G d' G' r, sinv T y D R st A -> T + llen ios < two63 -> (forall a c, In (a, c) l -> is_i64 a /\ is_i64 c) ->
  create_seqs (y_db y) G l ios = (d', G', r) ->
  (exists A', sinv (T + llen ios) (Sys d' (y_vars y) (y_jobs y)) D R st A') /\ r <> IPanic /\ r <> IWaits /\
  (forall c, G c <> None -> G' c = G c) /\
  (forall c s, G' c = Some s -> G c = Some s \/ exists a, In (a, c) l /\ fit a c s) /\
  (r = IOk -> forall a c, In (a, c) l -> G' c <> None).
Proof.
  induction l as [|[a c] l IH]; intros ios T y D R st A G d' G' r I L W E; cbn [create_seqs] in E.
  - assert (d' = y_db y /\ G' = G /\ r = IOk) as (-> & -> & ->) by (repeat split; congruence). split; [exists A; rewrite sys_eta; eapply sinv_weaken; [|exact I]; pose proof (llen_nonneg ios); lia|].
    split; [discriminate|]. split; [discriminate|]. split; [reflexivity|]. split; [auto|]. intros _ a c [].
  - destruct ios as [|io ios].
    { assert (d' = y_db y /\ G' = G /\ r = IDied) as (-> & -> & ->) by (repeat split; congruence). split; [exists A; rewrite sys_eta, llen_nil, Z.add_0_r; exact I|].
      split; [discriminate|]. split; [discriminate|]. split; [reflexivity|]. split; [auto | discriminate]. }
    rewrite llen_cons in L |- *. pose proof (llen_nonneg ios) as L0. destruct (W a c (or_introl eq_refl)) as [Wa Wc]. destruct (G c) as [s0|] eqn:Gc.
    { unfold CreateSequence in E. rewrite Gc in E. assert (d' = y_db y /\ G' = G /\ r = IErr ErrSequenceAlreadyExists) as (-> & -> & ->) by (repeat split; congruence).
      split; [exists A; rewrite sys_eta; eapply sinv_weaken; [|exact I]; lia|]. split; [discriminate|]. split; [discriminate|]. split; [reflexivity|]. split; [auto | discriminate]. }
    destruct (create_seq T y D R st A G a c io I ltac:(lia) Wa Wc Gc) as (d1 & A1 & I1 & [(Hio & E1)|(s & F & E1)]); rewrite E1 in E.
    + assert (d' = d1 /\ G' = G /\ r = IErr EIO) as (-> & -> & ->) by (repeat split; congruence).
      split; [exists A1; eapply sinv_weaken; [|exact I1]; lia|]. split; [discriminate|]. split; [discriminate|]. split; [reflexivity|]. split; [auto | discriminate].
    + destruct (IH ios (T + 1) (Sys d1 (y_vars y) (y_jobs y)) D R st A1 (reg_set G c s) d' G' r I1 ltac:(lia) (fun a' c' X => W a' c' (or_intror X)) E) as ((A' & I') & P1 & P2 & P3 & P4 & P5).
      cbn [y_vars y_jobs] in I'. replace (T + 1 + llen ios) with (T + (1 + llen ios)) in I' by lia. split; [exists A'; exact I'|]. split; [exact P1|]. split; [exact P2|]. split.
      { intros c' N. rewrite P3 by (apply reg_set_some; exact N). apply reg_set_ne. intros X. subst c'. congruence. }
      split.
      { intros c' s' Q. destruct (P4 c' s' Q) as [X|(a' & X & Y)]; [|right; exists a'; split; [right; exact X | exact Y]].
        unfold reg_set in X. destruct (Z.eqb_spec c' c) as [->|_]; [|left; exact X]. assert (s' = s) by congruence. subst s'. right. exists a. split; [left; reflexivity | exact F]. }
      intros Hr a' c' [X|X]; [|exact (P5 Hr a' c' X)]. assert (c' = c) by congruence. subst c'. rewrite P3; rewrite reg_set_eq; discriminate.
Qed.
(** nothing fails unless a commit does *)
Lemma create_seqs_ok l : forall ios T y D R st A G, sinv T y D R st A -> T + llen ios < two63 -> (forall a c, In (a, c) l -> is_i64 a /\ is_i64 c /\ G c = None) -> NoDup (map snd l) ->
  (length l <= length ios)%nat -> Forall (fun b => b = false) ios -> exists d' G', create_seqs (y_db y) G l ios = (d', G', IOk).
Proof.
  induction l as [|[a c] l IH]; intros ios T y D R st A G I L W N Ln F; cbn [create_seqs]; [eauto|].
  destruct ios as [|io ios]; [cbn [length] in Ln; lia|]. inversion F as [|? ? F1 F2]; subst. rewrite llen_cons in L. pose proof (llen_nonneg ios) as L0. cbn [map snd] in N. inversion N as [|? ? N1 N2]; subst.
  destruct (W a c (or_introl eq_refl)) as (Wa & Wc & Gc). destruct (create_seq T y D R st A G a c false I ltac:(lia) Wa Wc Gc) as (d1 & A1 & I1 & [(Hio & _)|(s & Fs & E1)]); [discriminate|]. rewrite E1.
  apply (IH ios (T + 1) (Sys d1 (y_vars y) (y_jobs y)) D R st A1 (reg_set G c s) I1 ltac:(lia)); [|exact N2 | cbn [length] in Ln; lia | exact F2].
  intros a' c' X. destruct (W a' c' (or_intror X)) as (Y1 & Y2 & Y3). split; [exact Y1|]. split; [exact Y2|]. rewrite reg_set_ne; [exact Y3|]. intros ->. apply N1. apply (in_map snd) in X. exact X.
Qed.
(** an id already in the table: on any store *)
Lemma create_seqs_clash l : forall d ios (G : registry) d' G' r, (exists a c, In (a, c) l /\ G c <> None) -> create_seqs d G l ios = (d', G', r) -> r <> IOk.
Proof.
  induction l as [|[a c] l IH]; intros d ios G d' G' r (a0 & c0 & X & N) E; [destruct X|]. cbn [create_seqs] in E. destruct ios as [|io ios]; [congruence|].
  destruct (CreateSequence d G a c 0 io) as [[d1 G1] r1] eqn:E1. destruct r1 as [u|e|]; [|congruence..].
  unfold CreateSequence in E1. destruct (G c) as [s0|] eqn:Gc; [congruence|]. destruct X as [X|X]; [assert (c0 = c) by congruence; subst c0; congruence|].
  apply (IH d1 ios G1 d' G' r); [|exact E]. exists a0, c0. split; [exact X|]. destruct (NewDocIDSequence d a c 0 io) as [[d2 [s|]] [u2|e2|]]; try congruence.
  assert (G1 = reg_set G c s) by congruence. subst G1. apply reg_set_some. exact N.
Qed.
(** * Next *)
Lemma next_fit T y D R st A a c s io d' s' r : sinv T y D R st A -> T + 1 < two63 -> is_i64 a -> is_i64 c -> fit a c s ->
  q_exec (y_db y) (y_db y) [] io s QNext = (d', s', r) -> fit a c s' /\ exists A', sinv (T + 1) (Sys d' (y_vars y) (y_jobs y)) D R st A'.
Proof.
  intros I L Ha Hc (F1 & F2 & F3) E. unfold q_exec in E. rewrite F3 in E. unfold q_Next in E.
  assert (SAME : exists A', sinv (T + 1) (Sys (y_db y) (y_vars y) (y_jobs y)) D R st A') by (exists A; rewrite sys_eta; eapply sinv_weaken; [|exact I]; lia).
  destruct (rev (q_put s)) as [|v l].
  - destruct (q_leased s <=? q_next s).
    + destruct (renewLease (y_db y) (y_db y) [] io s 0) as [[d1 s1] r1] eqn:E1. apply renew_shape in E1. replace (if 0 =? 0 then q_bw s else 0) with (q_bw s) in E1 by reflexivity. rewrite F1 in E1.
      destruct E1 as (-> & X1 & X2 & X3 & _). destruct (did_sinv T y D R st A a c (q_bw s) io I L Ha Hc F2) as (A' & I' & _).
      assert (F' : fit a c s1) by (split; [exact X1 | rewrite X2, X3; auto]).
      destruct r1 as [u|e|]; (assert (d' = fst (run_update (y_db y) (y_db y) (loc_inc (did_loc a c) (q_bw s)) [] io)) by congruence; subst d'; split; [|exists A'; exact I']).
      * assert (s' = set_lease s1 (to_i64 (q_next s1 + 1)) (q_leased s1)) by congruence. subst s'. exact F'.
      * assert (s' = s1) by congruence. subst s'. exact F'.
      * assert (s' = s1) by congruence. subst s'. exact F'.
    + assert (d' = y_db y) by congruence. subst d'. assert (s' = set_lease s (to_i64 (q_next s + 1)) (q_leased s)) by congruence. subst s'. split; [exact (conj F1 (conj F2 F3)) | exact SAME].
  - assert (d' = y_db y) by congruence. subst d'. assert (s' = set_put s (rev l)) by congruence. subst s'. split; [exact (conj F1 (conj F2 F3)) | exact SAME].
Qed.

(** * Ids *)
Lemma seqs_in L a c : In (a, c) (flat_map seqs_of L) <-> exists x k, In x (dbs_of L) /\ In k (vals (di_colls x)) /\ a = di_id x /\ c = ci_id k.
Proof.
  induction L as [|j L IH]; [split; [intros [] | intros (x & k & [] & _)]|]. cbn [flat_map]. unfold dbs_of. cbn [flat_map]. fold (dbs_of L). rewrite in_app_iff, IH. unfold seqs_of. split.
  - intros [X|(x & k & X & Y)]; [|exists x, k; split; [apply in_or_app; right; exact X | exact Y]]. destruct (j_arg j) as [d| |]; [|destruct X..]. apply in_map_iff in X. destruct X as (k & E & K). exists d, k.
    split; [left; reflexivity|]. split; [exact K|]. split; congruence.
  - intros (x & k & X & K & -> & ->). apply in_app_iff in X. destruct X as [X|X]; [|right; exists x, k; auto]. left. destruct (j_arg j) as [d| |]; [|destruct X..]. destruct X as [X|[]]. subst d. apply in_map_iff. exists k. auto.
Qed.
Lemma snd_seqs L : NoDup (flat_map ids_of L) -> NoDup (map snd (flat_map seqs_of L)).
Proof.
  induction L as [|j L IH]; intros N; cbn [flat_map map] in *; [constructor|]. apply nodup_app in N. destruct N as (N1 & N2 & N3). rewrite map_app.
  assert (SUB : forall j0 c, In c (map snd (seqs_of j0)) -> In c (ids_of j0)).
  { intros j0 c X. unfold seqs_of in X. unfold ids_of. destruct (j_arg j0) as [d| |]; [|destruct X..]. rewrite map_map in X. right. right. exact X. }
  assert (A1 : NoDup (map snd (seqs_of j))).
  { unfold seqs_of, ids_of in *. destruct (j_arg j) as [d| |]; [|constructor..]. rewrite map_map. cbn [snd]. inversion N1 as [|? ? _ N4]; subst. inversion N4; assumption. }
  specialize (IH N2). apply NoDup_app_intro'; [exact A1 | exact IH|]. intros c X Y. apply (N3 c (SUB j c X)). rewrite in_map_iff in Y. destruct Y as ([a c'] & E & Y). cbn in E. subst c'.
  apply in_flat_map in Y. destruct Y as (j' & Y1 & Y2). apply in_flat_map. exists j'. split; [exact Y1|]. apply SUB. apply (in_map snd) in Y2. exact Y2.
Qed.
Lemma applied_ids T y D R st A : sinv T y D R st A -> NoDup (flat_map ids_of (applied D R st)).
Proof.
  intros I. destruct (applied_prefix J _ _ _ _ _ _ I) as (l & E). destruct (ds_ids _ _ _ _ (si_state _ _ _ _ _ _ _ I)) as [N _]. rewrite E, flat_map_app in N. apply nodup_app in N. apply N.
Qed.
Lemma applied_range T y D R st A a c : sinv T y D R st A -> T < two63 -> In (a, c) (flat_map seqs_of (applied D R st)) -> is_i64 a /\ is_i64 c.
Proof.
  intros I L X. pose proof (si_gid _ _ _ _ _ _ _ I) as GG. destruct (ds_ids _ _ _ _ (si_state _ _ _ _ _ _ _ I)) as [_ F]. rewrite Forall_forall in F.
  assert (IN : forall i, In i (flat_map ids_of (applied D R st)) -> is_i64 i).
  { intros i Hi. apply in_flat_map in Hi. destruct Hi as (j & Hj & Hi). apply applied_in in Hj. specialize (F i). assert (In i (flat_map ids_of (D ++ R))) as Q by (apply in_flat_map; eauto). specialize (F Q).
    unfold is_i64. unfold gid in GG. rewrite two63_val in *. lia. }
  apply in_flat_map in X. destruct X as (j & Hj & X). unfold seqs_of in X. destruct (j_arg j) as [d| |] eqn:Ej; [|destruct X..]. apply in_map_iff in X. destruct X as (k & E & K).
  assert (a = di_id d /\ c = ci_id k) as [-> ->] by (split; congruence).
  split; apply IN; apply in_flat_map; exists j; (split; [exact Hj|]); unfold ids_of; rewrite Ej; [right; left; reflexivity | right; right; apply in_map; exact K].
Qed.

(** * Listing the databases *)
Lemma listed T y D R st A : sinv T y D R st A -> T < two63 -> exists l, run_view (y_db y) (ListDatabases J) = Ok l /\ Permutation l (map pub_di (dbs_of (applied D R st))).
Proof.
  intros I L. pose proof (ds_effects _ _ _ _ (si_state _ _ _ _ _ _ _ I)) as EF. pose proof (ds_names _ _ _ _ (si_state _ _ _ _ _ _ _ I)) as NN.
  pose proof (used_lt J _ _ _ _ _ _ I L) as UL. pose proof (si_holds _ _ _ _ _ _ _ I) as (K & S0 & R0 & M). destruct (ListDatabases_r J JO A S0 M) as (l & [L1 L2] & HL).
  exists l. split; [eapply run_view_spec; exact (HL false _ _ R0 UL)|].
  apply NoDup_Permutation; [eapply NoDup_map_inv; exact L1 | apply (NoDup_map_inv di_name); rewrite map_map; exact NN|].
  intros x. rewrite in_map_iff, L2, (ef_db _ _ EF). split; [intros (z & Iz & _ & ->); exists z; auto | intros (z & <- & Iz); exists z; auto].
Qed.
Lemma flat_perm {X Y} (f g : X -> list Y) l : (forall x, Permutation (f x) (g x)) -> Permutation (flat_map f l) (flat_map g l).
Proof. intros H. induction l as [|a l IH]; [constructor|]. cbn [flat_map]. apply Permutation_app; [apply H | exact IH]. Qed.
Lemma seqs_dbs L : flat_map seqs_of L = flat_map (fun x => map (fun c => (di_id x, ci_id c)) (vals (di_colls x))) (dbs_of L).
Proof.
  induction L as [|j L IH]; [reflexivity|]. unfold dbs_of. cbn [flat_map]. fold (dbs_of L). rewrite flat_map_app, <- IH. f_equal. unfold seqs_of. destruct (j_arg j) as [d| |]; cbn [flat_map]; rewrite ?app_nil_r; reflexivity.
Qed.
Lemma init_seqs sh l L : (forall k, Permutation (sh k) k) -> Permutation l (map pub_di (dbs_of L)) -> Permutation (seqs_listed sh l) (flat_map seqs_of L).
Proof.
  intros H Pm. unfold seqs_listed. etransitivity; [apply (flat_perm _ (fun x => map (fun c => (di_id x, ci_id c)) (vals (di_colls x)))); intros x; apply Permutation_map; apply H|].
  etransitivity; [apply Permutation_flat_map; exact Pm|]. rewrite seqs_dbs. clear. induction (dbs_of L) as [|d ds IH]; [constructor|]. cbn [map flat_map]. apply Permutation_app; [|exact IH].
  rewrite vals_pub, map_map. apply Permutation_refl.
Qed.

(** * The invariant *)
Definition current (L : list Job) (h : handle) : Prop :=
  version_of h = Z.of_nat (length L) /\ forall name, orel same_db (mget (cached h) name) (find (by_name name) (dbs_of L)).
Local Notation seqs L := (flat_map seqs_of L).
Record upinv (p : proc) (D R : list Job) (st : hstat) (L0 : list Job) : Prop := {
  ui_cinv : cinv L0 (p_h p);
  ui_cur : current L0 (p_h p);
  ui_idle : p_todo p = [] -> p_note p = false -> L0 = applied D R st;
  ui_two : L0 = applied D R st \/ L0 = D /\ exists j r, R = j :: r /\ st = HApplied;
  ui_todo : p_todo p <> [] -> p_note p = true /\ L0 = D /\ st = HApplied /\ exists j r, R = j :: r /\ forall ac, In ac (p_todo p) -> In ac (seqs_of j);
  ui_reg : forall a c, In (a, c) (seqs (applied D R st)) -> In (a, c) (p_todo p) \/ p_reg p c <> None
}.
Record pinv (T : Z) (p : proc) (D R : list Job) (st : hstat) (A : mst) : Prop := {
  pv_s : sinv T (p_sys p) D R st A;
  pv_good : good (seqs (applied D R st)) (p_reg p);
  pv_nodup : NoDup (map snd (p_todo p));
  pv_todo : forall a c, In (a, c) (p_todo p) -> In (a, c) (seqs (applied D R st)) /\ p_reg p c = None;
  pv_down : p_up p = false -> p_todo p = [] /\ p_note p = false /\ cinv (applied D R st) (p_h p);
  pv_up : p_up p = true -> exists L0, upinv p D R st L0
}.
Lemma good_more l l' G : (forall x, In x l -> In x l') -> good l G -> good l' G.
Proof. intros H X c s E. destruct (X c s E) as (a & Y & F). exists a. auto. Qed.
Lemma good_none l : good l no_sequences.
Proof. intros c s E. discriminate. Qed.
Lemma good_set l G a c s : good l G -> In (a, c) l -> fit a c s -> good l (reg_set G c s).
Proof. intros H X F c' s' E. unfold reg_set in E. destruct (Z.eqb_spec c' c) as [->|_]; [|exact (H c' s' E)]. exists a. split; [exact X|]. replace s' with s by congruence. exact F. Qed.
Lemma applied_D_prefix D R st : exists l, applied D R st = D ++ l.
Proof. unfold applied. destruct st, R; try (exists []; rewrite app_nil_r; reflexivity). eexists. reflexivity. Qed.
Lemma up_cinv p D R st L0 : upinv p D R st L0 -> cinv (applied D R st) (p_h p).
Proof. intros U. destruct (ui_two _ _ _ _ _ U) as [E|[E _]]; pose proof (ui_cinv _ _ _ _ _ U) as C; [rewrite <- E; exact C|]. destruct (applied_D_prefix D R st) as (l & ->). apply cinv_more. rewrite <- E. exact C. Qed.
Lemma pv_cinv T p D R st A : pinv T p D R st A -> cinv (applied D R st) (p_h p).
Proof. intros V. destruct (p_up p) eqn:U; [destruct (pv_up _ _ _ _ _ _ V U) as (L0 & X); eapply up_cinv; exact X | apply (pv_down _ _ _ _ _ _ V U)]. Qed.
Lemma start_pinv d : holds J 0 d m_empty -> pinv 0 (pstart d) [] [] HFresh m_empty.
Proof.
  intros H. split; cbn [pstart p_sys p_reg p_todo p_up]; [apply start_inv; exact H | apply good_none | constructor | intros a c [] | | discriminate]. intros _. split; [reflexivity|]. split; [reflexivity | apply fresh_cinv].
Qed.
Lemma restart_pinv T p D R st A : sinv T (p_sys p) D R st A -> pinv T (restart J p) D R st A.
Proof.
  intros I. split; cbn [restart p_sys p_reg p_todo p_up]; [apply crash_inv; exact I | apply good_none | constructor | intros a c [] | | discriminate]. intros _. split; [reflexivity|]. split; [reflexivity | apply fresh_cinv].
Qed.
(** the store moves on without a schema change *)
Lemma same_pinv T T' p y D R R' st A A' : pinv T p D R st A -> sinv T' y D R' st A' -> (exists l, R' = R ++ l) -> pinv T' (with_sys p y) D R' st A'.
Proof.
  intros V I (l & ->). pose proof (pv_s _ _ _ _ _ _ V) as I0. assert (EA : applied D (R ++ l) st = applied D R st).
  { unfold applied. destruct st; try reflexivity. destruct R; [|reflexivity]. exfalso. exact (ds_stat _ _ _ _ (si_state _ _ _ _ _ _ _ I0) eq_refl). }
  destruct V as [V1 V2 V3 V4 V5 V6]. split; cbn [with_sys p_sys p_reg p_todo p_up p_note p_h]; rewrite ?EA; try assumption. intros U. destruct (V6 U) as (L0 & [U1 U2 U3 U4 U5 U6]). exists L0.
  split; cbn [with_sys p_sys p_reg p_todo p_up p_note p_h]; rewrite ?EA; try assumption.
  - destruct U4 as [U4|(U4 & j & r & E & Es)]; [left; exact U4 | right; split; [exact U4|]; exists j, (r ++ l); rewrite E; auto].
  - intros N. destruct (U5 N) as (N1 & N2 & N3 & j & r & E & F). split; [exact N1|]. split; [exact N2|]. split; [exact N3|]. exists j, (r ++ l). rewrite E. auto.
Qed.
(** a new state of one allocator *)
Lemma set_pinv T T' p D R st A A' d a c s : pinv T p D R st A -> sinv T' (Sys d (y_vars (p_sys p)) (y_jobs (p_sys p))) D R st A' -> p_reg p c <> None -> In (a, c) (seqs (applied D R st)) -> fit a c s ->
  pinv T' (with_reg (with_db p d) (reg_set (p_reg p) c s)) D R st A'.
Proof.
  intros [V1 V2 V3 V4 V5 V6] I N X F. split; cbn [with_sys with_db with_reg p_sys p_reg p_todo p_up p_note p_h]; try assumption.
  - eapply good_set; eassumption.
  - intros a' c' Y. destruct (V4 a' c' Y) as [Y1 Y2]. split; [exact Y1|]. rewrite reg_set_ne; [exact Y2 | intros ->; contradiction].
  - intros U. destruct (V6 U) as (L0 & [U1 U2 U3 U4 U5 U6]). exists L0. split; cbn [with_sys with_db with_reg p_sys p_reg p_todo p_up p_note p_h]; try assumption.
    intros a' c' Y. destruct (U6 a' c' Y) as [Q|Q]; [left; exact Q | right; apply reg_set_some; exact Q].
Qed.
Lemma req_app T y D R R' st A A' e T' : sinv T y D R st A -> sinv T' (dstep J y e) D R' st A' -> match e with DCreate _ _ | DIndex _ _ => True | _ => False end -> exists l, R' = R ++ l.
Proof.
  intros I H K. pose proof (si_jobs _ _ _ _ _ _ _ H) as E. pose proof (si_jobs _ _ _ _ _ _ _ I) as E0. destruct e as [i io|i io| | | | |]; try destruct K; cbn [dstep] in E.
  - destruct (CreateSchema J (y_db y) i io) as [d' r]. cbn [y_jobs] in E. rewrite E0 in E. destruct r as [j|e|]; cbn [accepted] in E; [rewrite <- app_assoc in E|..]; apply app_inv_head in E; [exists [j] | exists [] | exists []]; rewrite ?app_nil_r; congruence.
  - destruct (AddIndex J (y_db y) i io) as [d' r]. cbn [y_jobs] in E. rewrite E0 in E. destruct r as [j|e|]; cbn [accepted] in E; [rewrite <- app_assoc in E|..]; apply app_inv_head in E; [exists [j] | exists [] | exists []]; rewrite ?app_nil_r; congruence.
Qed.
Lemma with_sys_same p : with_sys p (p_sys p) = p.
Proof. destruct p. reflexivity. Qed.
Lemma weaken_pinv T T' p D R st A : T <= T' -> pinv T p D R st A -> pinv T' p D R st A.
Proof. intros L V. rewrite <- (with_sys_same p). eapply same_pinv; [exact V | eapply sinv_weaken; [exact L | exact (pv_s _ _ _ _ _ _ V)] | exists []; rewrite app_nil_r; reflexivity]. Qed.
(** ** Init *)
Lemma reload_pinv T p D R st A h r : pinv T p D R st A -> T < two63 -> reloadSchema J (y_db (p_sys p)) (p_h p) (p_next p) = (h, r) ->
  (r = RBlocked /\ h = p_h p) \/ (r = RDone /\ cinv (applied D R st) h /\ current (applied D R st) h).
Proof.
  intros V L E. destruct (reload_inv J JO _ _ _ _ _ _ (p_h p) (p_next p) (pv_s _ _ _ _ _ _ V) L (pv_cinv _ _ _ _ _ _ V)) as (Q1 & Q2 & Q3 & Q4). rewrite E in Q1, Q2, Q3, Q4. cbn [fst snd] in *.
  destruct r as [|e| |]; try (destruct (Q4 ltac:(discriminate)) as [X Y]; try discriminate X; left; auto). right. split; [reflexivity|]. split; [exact Q1 | exact (Q3 eq_refl)].
Qed.
Lemma init_pinv T p D R st A sh ios : pinv T p D R st A -> (forall l, Permutation (sh l) l) -> T + llen ios < two63 ->
  exists A', pinv (T + llen ios) (pstep J p (PInit sh ios)) D R st A'.
Proof.
  intros V H L. pose proof (llen_nonneg ios) as L0. cbn [pstep]. destruct (p_up p) eqn:U; [exists A; eapply weaken_pinv; [|exact V]; lia|].
  destruct (pv_down _ _ _ _ _ _ V U) as (T0 & N0 & C0). unfold domain_Init. destruct (reloadSchema J (y_db (p_sys p)) (p_h p) (p_next p)) as [h r] eqn:E.
  destruct (reload_pinv _ _ _ _ _ _ h r V ltac:(lia) E) as [(-> & ->)|(-> & C & CU)].
  - exists A. apply (weaken_pinv T); [lia|]. pose proof (pv_s _ _ _ _ _ _ V) as I. destruct V as [V1 V2 V3 V4 V5 V6]. split; cbn [with_reg with_handle with_db with_sys p_sys p_reg p_todo p_up p_note p_h]; try assumption; [rewrite sys_eta; exact I | intros Up; congruence].
  - unfold ddl_Init. destruct (listed _ _ _ _ _ _ (pv_s _ _ _ _ _ _ V) ltac:(lia)) as (l & -> & Pm). pose proof (init_seqs sh l _ H Pm) as PS.
    destruct (create_seqs (y_db (p_sys p)) (p_reg p) (seqs_listed sh l) ios) as [[d G] ri] eqn:EC.
    assert (W : forall a c, In (a, c) (seqs_listed sh l) -> is_i64 a /\ is_i64 c).
    { intros a c X. apply (Permutation_in _ PS) in X. exact (applied_range _ _ _ _ _ _ _ _ (pv_s _ _ _ _ _ _ V) ltac:(lia) X). }
    destruct (create_seqs_sinv _ ios T (p_sys p) D R st A (p_reg p) d G ri (pv_s _ _ _ _ _ _ V) L W EC) as ((A' & I') & P1 & P2 & P3 & P4 & P5). exists A'.
    assert (GG : good (seqs (applied D R st)) G).
    { intros c s Gc. destruct (P4 c s Gc) as [X|(a & X & F)]; [exact (pv_good _ _ _ _ _ _ V c s X)|]. exists a. split; [exact (Permutation_in _ PS X) | exact F]. }
    assert (Q : forall b, b = p_up p -> pinv (T + llen ios) (Proc (Sys d (y_vars (p_sys p)) (y_jobs (p_sys p))) h (S (p_next p)) G (p_todo p) (p_note p) b (p_run p)) D R st A').
    { intros b ->. rewrite T0, N0. split; cbn [p_sys p_reg p_todo p_up p_note p_h]; [exact I' | exact GG | constructor | intros a c [] | auto | congruence]. }
    destruct ri as [|e| | |]; unfold with_up, with_reg, with_handle, with_db, with_sys; cbn [p_sys p_reg p_todo p_up p_note p_h p_next p_run]; try congruence.
    + rewrite T0, N0. split; cbn [p_sys p_reg p_todo p_up p_note p_h]; [exact I' | exact GG | constructor | intros a c [] | discriminate|]. intros _. exists (applied D R st).
      split; cbn [p_sys p_reg p_todo p_up p_note p_h]; try assumption; auto; [congruence|]. intros a c X. right. apply (P5 eq_refl a c). exact (Permutation_in _ (Permutation_sym PS) X).
    + apply Q. reflexivity.
    + apply restart_pinv. exact I'.
Qed.
(** ** the worker *)
Lemma snd_in (l : list (Z * Z)) a c : In (a, c) l -> In c (map snd l).
Proof. intros X. apply (in_map snd) in X. exact X. Qed.
Lemma worked_grows D R st D' R' st' : worked D R st D' R' st' -> exists l, applied D' R' st' = applied D R st ++ l.
Proof.
  intros W. destruct W as [D|D j r d Ea N|D j r|D j r d Ea N|D R|D j r i st Ea Hs]; cbn [applied]; try (exists []; rewrite app_nil_r; reflexivity); try (eexists; reflexivity).
  destruct Hs as [-> | ->]; exists []; rewrite app_nil_r; reflexivity.
Qed.
Lemma work_pinv T p D R st A o sh io : pinv T p D R st A -> orders_are o -> (forall l, Permutation (sh l) l) -> T < two63 ->
  exists D' R' st' A', pinv T (pstep J p (PWork o sh io)) D' R' st' A' /\ exists l, applied D' R' st' = applied D R st ++ l.
Proof.
  intros V O H L. cbn [pstep]. destruct (p_up p) eqn:U; cbn [andb]; [|exists D, R, st, A; split; [exact V | exists []; rewrite app_nil_r; reflexivity]]. destruct (idle p) eqn:B; [|exists D, R, st, A; split; [exact V | exists []; rewrite app_nil_r; reflexivity]].
  assert (p_todo p = [] /\ p_note p = false) as [T0 N0] by (unfold idle in B; destruct (p_todo p); [split; [reflexivity | destruct (p_note p); [discriminate | reflexivity]] | discriminate]).
  destruct (pv_up _ _ _ _ _ _ V U) as (L0 & UI). pose proof (ui_idle _ _ _ _ _ UI T0 N0) as E0. subst L0. destruct UI as [U1 U2 _ _ _ U6].
  destruct (work_after J JO T (p_sys p) D R st A o io (pv_s _ _ _ _ _ _ V) O L) as (D' & R' & st' & A' & I' & DI & NP & Q).
  cbv zeta. set (e := iteration J o (y_vars (p_sys p)) (y_db (p_sys p)) io) in *. exists D', R', st', A'.
  split; [|destruct Q as [(W & _)|(-> & -> & -> & _)]; [exact (worked_grows _ _ _ _ _ _ W) | exists []; rewrite app_nil_r; reflexivity]].
  destruct (e_res e) as [u|er|] eqn:ER; [| |exfalso; apply NP; reflexivity]; clear NP ER; (
  assert (K : pinv T (with_note (with_todo (with_sys p (dstep J (p_sys p) (DWork o io))) (sh (e_after e))) (negb (e_return e) && negb (v_err (e_vars e)))) D' R' st' A'); [|exact K]).
  all: pose proof (applied_ids _ _ _ _ _ _ I') as ND; apply snd_seqs in ND.
  all: assert (PERM : Permutation (sh (e_after e)) (e_after e)) by apply H.
  all: assert (SAMEA : applied D' R' st' = applied D R st -> e_after e = [] -> pinv T (with_note (with_todo (with_sys p (dstep J (p_sys p) (DWork o io))) (sh (e_after e))) (negb (e_return e) && negb (v_err (e_vars e)))) D' R' st' A') by (
    intros EA EM; assert (ES : sh (e_after e) = []) by (rewrite EM in *; apply Permutation_nil; apply Permutation_sym; exact PERM);
    pose proof V as [V1 V2 V3 V4 V5 V6]; split; cbn [with_note with_todo with_sys p_sys p_reg p_todo p_up p_note p_h]; rewrite ?EA, ?ES; try assumption; [constructor | intros a c [] | congruence|];
    intros _; exists (applied D R st); split; cbn [with_note with_todo with_sys p_sys p_reg p_todo p_up p_note p_h]; rewrite ?EA, ?ES; auto; [congruence|]; intros a c X; destruct (U6 a c X) as [Y|Y]; [rewrite T0 in Y; destruct Y | right; exact Y]).
  all: destruct Q as [(W & AF & RT)|(-> & -> & -> & AF & _)]; [|apply SAMEA; [reflexivity | exact AF]].
  all: destruct W as [D|D j r d Ea N|D j r|D j r d Ea N|D R|D j r i st Ea Hs]; try (apply SAMEA; [reflexivity | exact AF]); [|apply SAMEA; [destruct Hs as [-> | ->]; reflexivity | destruct Hs as [-> | ->]; exact AF]].
  all: cbn [newly flat_map] in AF; rewrite app_nil_r in AF; destruct (RT ltac:(discriminate)) as [R1 R2]; rewrite R1, R2; cbn [negb andb]; cbn [applied] in *.
  all: pose proof V as [V1 V2 V3 V4 V5 V6]; cbn [applied] in *.
  all: assert (SEQ : flat_map seqs_of (D ++ [j]) = flat_map seqs_of D ++ seqs_of j) by (rewrite flat_map_app; cbn [flat_map]; rewrite app_nil_r; reflexivity).
  all: rewrite SEQ, map_app in ND; apply nodup_app in ND; destruct ND as (ND1 & ND2 & ND3).
  all: split; cbn [with_note with_todo with_sys p_sys p_reg p_todo p_up p_note p_h]; [exact I' | | | | congruence|].
  all: try (cbn [applied]; rewrite SEQ; eapply good_more; [|exact V2]; intros x X; apply in_or_app; left; exact X).
  all: try (apply (Permutation_NoDup (l := map snd (e_after e))); [apply Permutation_map, Permutation_sym; exact PERM | rewrite AF; exact ND2]).
  all: try (intros a c X; apply (Permutation_in _ PERM) in X; rewrite AF in X; cbn [applied]; rewrite SEQ; split; [apply in_or_app; right; exact X|]; destruct (p_reg p c) as [s|] eqn:Gc; [|reflexivity]; exfalso;
            destruct (V2 c s Gc) as (a' & Y & _); exact (ND3 c (snd_in _ _ _ Y) (snd_in _ _ _ X))).
  all: intros _; exists D; split; cbn [with_note with_todo with_sys p_sys p_reg p_todo p_up p_note p_h]; [exact U1 | exact U2 | discriminate | right; split; [reflexivity|]; exists j, r; auto | |].
  all: try (intros _; split; [reflexivity|]; split; [reflexivity|]; split; [reflexivity|]; exists j, r; split; [reflexivity|]; intros ac X; apply (Permutation_in _ PERM) in X; rewrite AF in X; exact X).
  all: cbn [applied]; rewrite SEQ; intros a c X; apply in_app_iff in X; destruct X as [X|X]; [destruct (U6 a c X) as [Y|Y]; [rewrite T0 in Y; destruct Y | right; exact Y] | left; apply (Permutation_in _ (Permutation_sym PERM)); rewrite AF; exact X].
Qed.
Lemma seq_pinv T p D R st A io : pinv T p D R st A -> T + 1 < two63 -> exists A', pinv (T + 1) (pstep J p (PSeq io)) D R st A' /\
  (io = false -> p_todo (pstep J p (PSeq io)) = tl (p_todo p) /\ p_run (pstep J p (PSeq io)) = p_run p).
Proof.
  intros V L. cbn [pstep]. destruct (p_todo p) as [|[a c] l] eqn:T0; [exists A; split; [eapply weaken_pinv; [|exact V]; lia | rewrite T0; auto]|].
  destruct (pv_todo _ _ _ _ _ _ V a c) as [X Gc]; [rewrite T0; left; reflexivity|]. pose proof (pv_s _ _ _ _ _ _ V) as I. destruct (applied_range _ _ _ _ _ _ _ _ I ltac:(lia) X) as [Wa Wc].
  destruct (create_seq _ _ _ _ _ _ (p_reg p) a c io I L Wa Wc Gc) as (d & A' & I' & [(Hio & ->)|(s & F & ->)]); exists A'.
  - split; [|rewrite Hio; discriminate]. destruct V as [V1 V2 V3 V4 V5 V6]. split; try assumption.
    intros U. destruct (V6 U) as (L0 & [U1 U2 U3 U4 U5 U6]). exists L0. split; try assumption.
  - split; [|intros _; cbn [with_todo p_todo tl p_run]; auto]. pose proof V as [V1 V2 V3 V4 V5 V6]. rewrite T0 in *. cbn [map snd] in V3. inversion V3 as [|? ? V31 V32]; subst.
    split; cbn [with_todo with_reg with_db with_sys p_sys p_reg p_todo p_up p_note p_h].
    + exact I'.
    + eapply good_set; eassumption.
    + exact V32.
    + intros a' c' Y. destruct (V4 a' c' (or_intror Y)) as [Y1 Y2]. split; [exact Y1|]. rewrite reg_set_ne; [exact Y2|]. intros ->. apply V31. eapply snd_in. exact Y.
    + intros U. destruct (V5 U) as [Y _]. discriminate.
    + intros U. destruct (V6 U) as (L0 & [U1 U2 U3 U4 U5 U6]). rewrite T0 in *. exists L0. destruct (U5 ltac:(discriminate)) as (B1 & B2 & B3 & j & r & B4 & B5).
      split; cbn [with_todo with_reg with_db with_sys p_sys p_reg p_todo p_up p_note p_h]; try assumption.
      * intros _ N. congruence.
      * intros _. split; [exact B1|]. split; [exact B2|]. split; [exact B3|]. exists j, r. split; [exact B4|]. intros ac Y. apply B5. right. exact Y.
      * intros a' c' Y. destruct (U6 a' c' Y) as [[Q|Q]|Q]; [right; assert (c' = c) by congruence; subst c'; rewrite reg_set_eq; discriminate | left; exact Q | right; apply reg_set_some; exact Q].
Qed.
Lemma note_pinv T p D R st A : pinv T p D R st A -> T < two63 -> pinv T (pstep J p PNote) D R st A /\
  (p_todo p = [] -> h_readers (p_h p) = 0%nat -> p_note (pstep J p PNote) = false /\ p_todo (pstep J p PNote) = [] /\ p_run (pstep J p PNote) = p_run p).
Proof.
  intros V L. cbn [pstep]. destruct (p_todo p) as [|ac l] eqn:T0; [|split; [exact V | discriminate]]. destruct (p_note p) eqn:N0; [|split; [exact V | auto]].
  unfold note_step. destruct (reloadSchema J (y_db (p_sys p)) (p_h p) (p_next p)) as [h r] eqn:E. destruct (p_up p) eqn:U; [|destruct (pv_down _ _ _ _ _ _ V U) as (_ & Y & _); congruence].
  pose proof (reload_inv J JO _ _ _ _ _ _ (p_h p) (p_next p) (pv_s _ _ _ _ _ _ V) L (pv_cinv _ _ _ _ _ _ V)) as (_ & Q2 & _ & _). rewrite E in Q2. cbn [snd] in Q2.
  destruct (reload_pinv _ _ _ _ _ _ h r V L E) as [(-> & ->)|(-> & C & CU)].
  - split; [|intros _ Y; specialize (Q2 Y); discriminate]. destruct V as [V1 V2 V3 V4 V5 V6]. split; try assumption.
    intros U'. destruct (V6 U') as (L0 & [U1 U2 U3 U4 U5 U6]). exists L0. split; try assumption.
  - split; [|intros _ _; cbn [with_note with_handle p_note p_todo p_run]; auto]. pose proof V as [V1 V2 V3 V4 V5 V6]. split; try assumption; cbn [with_note with_handle p_sys p_reg p_todo p_up p_note p_h]; [congruence|].
    intros U'. destruct (V6 U') as (L0 & [U1 U2 U3 U4 U5 U6]). exists (applied D R st). split; cbn [with_note with_handle p_sys p_reg p_todo p_up p_note p_h]; auto. congruence.
Qed.
(** ** every step *)
Lemma pstep_pinv T p D R st A e : pinv T p D R st A -> pev_ok e -> single e -> T + pweight e < two63 ->
  exists D' R' st' A', pinv (T + pweight e) (pstep J p e) D' R' st' A' /\ exists l, applied D' R' st' = applied D R st ++ l.
Proof.
  intros V K Sg L. pose proof (pv_s _ _ _ _ _ _ V) as I. assert (NIL : exists l, R = R ++ l) by (exists []; rewrite app_nil_r; reflexivity).
  assert (SAMEL : exists l, applied D R st = applied D R st ++ l) by (exists []; rewrite app_nil_r; reflexivity).
  assert (MORE : forall l, exists l', applied D (R ++ l) st = applied D R st ++ l').
  { intros l. exists []. rewrite app_nil_r. unfold applied. destruct st; try reflexivity. destruct R; [|reflexivity]. exfalso. exact (ds_stat _ _ _ _ (si_state _ _ _ _ _ _ _ I) eq_refl). }
  assert (KEEP : forall w, 0 <= w -> exists D' R' st' A', pinv (T + w) p D' R' st' A' /\ exists l, applied D' R' st' = applied D R st ++ l) by (intros w Hw; exists D, R, st, A; split; [eapply weaken_pinv; [|exact V]; lia | exact SAMEL]).
  destruct e as [sh ios|i io|i io|o sh io|io| |c io|c vs|t io|n| | |o io]; try destruct Sg; cbn [pweight pev_ok] in *.
  - destruct (init_pinv _ _ _ _ _ _ sh ios V K L) as (A' & H). exists D, R, st, A'. split; [exact H | exact SAMEL].
  - cbn [pstep]. destruct (p_up p); [|apply KEEP; apply weight_nonneg]. destruct (create_inv J JO _ _ _ _ _ _ i io I K L) as (R' & A' & H). assert (RA : exists l, R' = R ++ l) by (eapply req_app; [exact I | exact H | exact Logic.I]).
    exists D, R', st, A'. split; [eapply same_pinv; [exact V | exact H | exact RA] | destruct RA as (l & E); rewrite E; apply MORE].
  - cbn [pstep]. destruct (p_up p); [|apply KEEP; apply weight_nonneg]. destruct (index_inv J JO _ _ _ _ _ _ i io I K L) as (R' & A' & H). assert (RA : exists l, R' = R ++ l) by (eapply req_app; [exact I | exact H | exact Logic.I]).
    exists D, R', st, A'. split; [eapply same_pinv; [exact V | exact H | exact RA] | destruct RA as (l & E); rewrite E; apply MORE].
  - rewrite Z.add_0_r in *. destruct K as [K1 K2]. apply (work_pinv T p D R st A o sh io V K1 K2 L).
  - destruct (seq_pinv _ _ _ _ _ _ io V L) as (A' & H & _). exists D, R, st, A'. split; [exact H | exact SAMEL].
  - rewrite Z.add_0_r in *. exists D, R, st, A. split; [apply (note_pinv _ _ _ _ _ _ V L) | exact SAMEL].
  - cbn [pstep]. destruct (p_reg p c) as [s|] eqn:Gc; [|apply KEEP; lia]. destruct (pv_good _ _ _ _ _ _ V c s Gc) as (a & X & F). destruct (applied_range _ _ _ _ _ _ _ _ I ltac:(lia) X) as [Wa Wc].
    destruct (q_exec (y_db (p_sys p)) (y_db (p_sys p)) [] io s QNext) as [[d' s'] r] eqn:E. destruct (next_fit _ _ _ _ _ _ a c s io d' s' r I L Wa Wc F E) as (F' & A' & I').
    exists D, R, st, A'. split; [|exact SAMEL]. eapply set_pinv; [exact V | exact I' | congruence | exact X | exact F'].
  - cbn [pstep]. destruct (p_reg p c) as [s|] eqn:Gc; [|apply KEEP; lia]. destruct (pv_good _ _ _ _ _ _ V c s Gc) as (a & X & F). exists D, R, st, A. split; [|exact SAMEL]. rewrite Z.add_0_r.
    replace (with_reg p (reg_set (p_reg p) c (q_PutBack s vs))) with (with_reg (with_db p (y_db (p_sys p))) (reg_set (p_reg p) c (q_PutBack s vs))) by (unfold with_db; rewrite sys_eta, with_sys_same; reflexivity).
    eapply set_pinv; [exact V | rewrite sys_eta; exact I | congruence | exact X | exact F].
  - cbn [pstep]. destruct (other_inv J _ _ _ _ _ _ (DOther t io) I K L Logic.I) as (A' & H & _). exists D, R, st, A'. split; [eapply same_pinv; [exact V | exact H | exact NIL] | exact SAMEL].
  - rewrite Z.add_0_r. exists D, R, st, A. split; [|exact SAMEL]. destruct V as [V1 V2 V3 V4 V5 V6]. split; try assumption; cbn [pstep p_up p_todo p_note p_h p_reg].
    intros U. destruct (V6 U) as (L0 & [U1 U2 U3 U4 U5 U6]). exists L0. split; try assumption.
  - rewrite Z.add_0_r. exists D, R, st, A. split; [|exact SAMEL]. cbn [pstep]. apply restart_pinv. exact I.
Qed.
Lemma prun_pinv es : forall T p D R st A, pinv T p D R st A -> Forall pev_ok es -> Forall single es -> T + pload es < two63 ->
  exists D' R' st' A', pinv (T + pload es) (prun J p es) D' R' st' A' /\ exists l, applied D' R' st' = applied D R st ++ l.
Proof.
  induction es as [|e es IH]; intros T p D R st A V F Sg L.
  - exists D, R, st, A. cbn [pload fold_right prun fold_left]. rewrite Z.add_0_r. split; [exact V | exists []; rewrite app_nil_r; reflexivity].
  - inversion F as [|? ? F1 F2]; subst. inversion Sg as [|? ? S1 S2]; subst. cbn [pload fold_right] in L. pose proof (pload_nonneg es) as L0. unfold pload in L0. pose proof (pweight_nonneg e).
    destruct (pstep_pinv T p D R st A e V F1 S1 ltac:(lia)) as (D1 & R1 & st1 & A1 & V1 & l1 & E1). cbn [prun fold_left]. fold (prun J (pstep J p e) es).
    destruct (IH _ _ _ _ _ _ V1 F2 S2) as (D2 & R2 & st2 & A2 & V2 & l2 & E2); [unfold pload; lia|]. exists D2, R2, st2, A2. cbn [pload fold_right]. rewrite Z.add_assoc. split; [exact V2|].
    exists (l1 ++ l2). rewrite E2, E1, app_assoc. reflexivity.
Qed.
Lemma hist_pinv d es : db_ok d -> P_Meta.no_meta d -> Forall pev_ok es -> Forall single es -> pload es < two63 -> exists D R st A, pinv (pload es) (prun J (pstart d) es) D R st A.
Proof.
  intros H1 H2 H3 H4 H5. destruct (prun_pinv es 0 (pstart d) [] [] HFresh m_empty (start_pinv d (P_Ddl.empty_holds J d H1 H2)) H3 H4) as (D & R & st & A & V & _); [lia|]. rewrite Z.add_0_l in V. exists D, R, st, A. exact V.
Qed.
End WithJson.
