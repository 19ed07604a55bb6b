(** Leases of document ids taken by allocators of overlapping processes: C94.
    encoding/json is a parameter J meeting the contract [json_ok] (MetaCodec.v has an instance). *)
From Verif Require Import Bytes SMap Provider ProviderProofs World Memcmp MemcmpProofs Numeric KvUtil KeyModel Struct
  StructProofs StructHash StructList UtilTxn Sequence SequenceProofs Model Meta MetaCodec MetaSpec MetaProofs MetaOps MetaRun P_Meta Ddl DdlSpec DdlProofs DdlWorker DdlSys DdlMore P_Ddl.
From Verif Require SerialProofs ProcessIds StructSerialProofs.
From Verif Require Import DdlSerial DdlSerialProofs P_DdlSerial.
From Coq Require Import Permutation.

(** * Specification *)
(** A lease: collection [l_coll] of database [l_db] got the ids [l_from + 1 .. l_to] *)
Record lease := Lease { l_db : Z; l_coll : Z; l_from : Z; l_to : Z }.
(** the lease an event of the history (DdlSerial.v) grants: an allocator's transaction ends and its caller is answered [v]
    (document/meta/sequence/hash.go:31-50: the allocator then gives out v-step+1 .. v) *)
Definition granted (y : ksys) (e : kev) : list lease :=
  match e with
  | KEnd n io => match k_open y n with
                 | Some (KDid a c s, d0, _) => match snd (run_update d0 (k_db y) (loc_inc (AtHash (dbKeyByID a) (didSequenceKeyByID c)) s) [] io) with
                                               | Ok v => [Lease a c (v - s) v]
                                               | _ => []
                                               end
                 | _ => []
                 end
  | _ => []
  end.
Fixpoint leases (J : json) (y : ksys) (es : list kev) : list lease :=
  match es with [] => [] | e :: es' => granted y e ++ leases J (kstep J y e) es' end.
(** the histories: allocators lease 1 to [B] ids at a time, and return nothing (see C44 for allocators that do) *)
Definition leasing (B : Z) (e : kev) : Prop :=
  match e with KBegin _ (KDid _ _ s) => 0 < s <= B | KBegin _ (KRelease _ _ _) => False | _ => True end.

(** * Proof *)
Section S. Context (J : json) (JO : json_ok J) (B : Z).
Local Notation holds := (MetaRun.holds J).
Local Notation kinv := (kinv J).
Lemma kholds T y D R st A : kinv T y D R st A -> exists n, holds n (k_db y) A /\ n <= T.
Proof. intros I. exists (room T D R st). split; [exact (si_holds _ _ _ _ _ _ _ (ki_sys _ _ _ _ _ _ _ I))|]. pose proof (room_le T D R st). lia. Qed.
(** the size of an open lease *)
Definition sized (y : ksys) : Prop := forall n a c s d0 v, k_open y n = Some (KDid a c s, d0, v) -> 0 < s <= B.
Definition never_released (y : ksys) : Prop := forall n a c s d0 v, k_open y n <> Some (KRelease a c s, d0, v).
Lemma kend_open y c d0 v io : k_open (kend J y c d0 v io) = k_open y.
Proof.
  destruct c as [i|i|p o|a b s|a b s]; cbn [kend]; try reflexivity.
  - destruct (match ValidateCreateSchema i with Some e => _ | None => _ end). reflexivity.
  - destruct (run_update _ _ _ _ _). reflexivity.
Qed.
Lemma step_open y e n x : k_open (kstep J y e) n = Some x -> k_open y n = Some x \/ exists c, e = KBegin n c /\ fst (fst x) = c.
Proof.
  destruct e as [m c|m io|m|p|t io]; cbn [kstep]; auto.
  - cbn [set_open k_open]. destruct (Nat.eqb_spec n m) as [->|]; [|auto]. intros X. inversion X. right. eexists. split; reflexivity.
  - destruct (k_open y m) as [[[c d0] v]|] eqn:H; [|auto]. rewrite kend_open. intros X. left. exact (set_open_none _ _ _ _ X).
  - intros X. left. exact (set_open_none _ _ _ _ X).
Qed.
Lemma step_sized y e : leasing B e -> sized y -> never_released y -> sized (kstep J y e) /\ never_released (kstep J y e).
Proof.
  intros L Z N. split.
  - intros n a c s d0 v X. apply step_open in X. destruct X as [X|(c' & -> & E)]; [exact (Z _ _ _ _ _ _ X)|]. cbn [fst] in E. subst c'. exact L.
  - intros n a c s d0 v X. apply step_open in X. destruct X as [X|(c' & -> & E)]; [exact (N _ _ _ _ _ _ X)|]. cbn [fst] in E. subst c'. exact L.
Qed.
Definition same_did (A A' : mst) : Prop := forall a c, is_i64 a -> is_i64 c -> m_did A' a c = m_did A a c.
Lemma writes_try {X Y} (m : Tx X) (k : result X -> Tx Y) : (forall r, writes (k r)) -> writes (try m k).
Proof. intros W t t' a E. unfold try in E. destruct (m t) as [t1 r]. destruct r; [exact (W _ _ _ _ E) | exact (W _ _ _ _ E) | discriminate E]. Qed.
Lemma writes_panic {X} : writes (@gopanic X).
Proof. intros t t' a E. discriminate E. Qed.
Lemma human_moves n s : is_i64 n -> is_i64 s -> s <> 0 -> to_i64 (n + s) <> n.
Proof. unfold is_i64, to_i64. rewrite two63_val. replace two64 with 18446744073709551616 by reflexivity. lia. Qed.
(** what [HInc] stores is not what was there *)
Definition bump (s : Z) (o : option bytes) : result (bytes * Z) :=
  match o with
  | None => Ok (Encode2Human (to_i64 (0 + s)), to_i64 (0 + s))
  | Some v => match DecodeFromHuman (Some v) with NErr _ => Err EDecode | NOk n => Ok (Encode2Human (to_i64 (n + s)), to_i64 (n + s)) end
  end.
Lemma bump_moves s old v x : is_i64 s -> s <> 0 -> bump s (nil_of old) = Ok (v, x) -> bequal old v = false.
Proof.
  intros Hs N0 H. unfold bequal. destruct (bytes_eqb old v) eqn:X; [|reflexivity]. exfalso. apply bytes_eqb_eq in X. subst v. destruct old as [|b old]; cbn [nil_of bump] in H.
  - apply (human_nonempty (to_i64 (0 + s))). congruence.
  - destruct (DecodeFromHuman (Some (b :: old))) as [n|e] eqn:D; [|discriminate H]. assert (E : Encode2Human (to_i64 (n + s)) = b :: old) by congruence. rewrite <- E in D.
    rewrite human_roundtrip in D by apply to_i64_range. apply (human_moves n s); [|assumption | assumption | congruence]. assert (X : to_i64 (n + s) = n) by congruence. rewrite <- X. apply to_i64_range.
Qed.
(** an allocator's transaction always writes the counter *)
Lemma writes_inc a c s : is_i64 s -> s <> 0 -> writes (loc_inc (AtHash (dbKeyByID a) (didSequenceKeyByID c)) s).
Proof.
  intros Hs N0. cbn [loc_inc]. unfold HInc. fold (bump s). unfold updateHash. apply writes_try. intros r.
  destruct r as [o|e|]; [ | destruct e; try apply writes_fail | apply writes_panic].
  - destruct (bump s (nil_of o)) as [[v x]|e|] eqn:E; [|apply writes_fail | apply writes_panic]. rewrite (bump_moves s o v x Hs N0 E). cbn [negb]. apply writes_then, writes_set.
  - destruct (bump s (nil_of [])) as [[v x]|e|] eqn:E; [|apply writes_fail | apply writes_panic]. rewrite (bump_moves s [] v x Hs N0 E). cbn [negb].
    apply writes_bind. intros _. apply writes_bind. intros k. apply writes_then, writes_set.
Qed.
(** one step: nothing about the counters changes, or one lease is granted, next to what is stored *)
Lemma lease_step T y D R st A e : kinv T y D R st A -> kev_ok e -> leasing B e -> sized y -> never_released y -> T + kweight y e < two63 -> B * (T + kweight y e) < two63 ->
  (forall a c, is_i64 a -> is_i64 c -> 0 <= somez (m_did A a c) <= B * T) ->
  exists D' R' st' A', kinv (T + kweight y e) (kstep J y e) D' R' st' A' /\
    (granted y e = [] /\ same_did A A' \/
     exists a c s, granted y e = [Lease a c (somez (m_did A a c)) (somez (m_did A a c) + s)] /\ is_i64 a /\ is_i64 c /\ 0 < s <= B /\ kweight y e = 1 /\
       somez (m_did A' a c) = somez (m_did A a c) + s /\ forall a' c', is_i64 a' -> is_i64 c' -> (a', c') <> (a, c) -> m_did A' a' c' = m_did A a' c').
Proof.
  intros I K LE Z N L LB BD.
  assert (KEEP : forall D' R' st' A', kinv (T + kweight y e) (kstep J y e) D' R' st' A' -> k_db (kstep J y e) = k_db y -> same_did A A').
  { intros D' R' st' A' I' E a c Ha Hc. destruct (kholds _ _ _ _ _ _ I) as (n1 & H1 & _). destruct (kholds _ _ _ _ _ _ I') as (n2 & H2 & _). rewrite E in H2.
    symmetry. exact (ProcessIds.did_fun J n1 n2 _ A A' a c H1 H2 Ha Hc). }
  destruct (kstep_inv J JO T y D R st A e I K L) as (D' & R' & st' & A' & I' & _).
  assert (SAME : k_db (kstep J y e) = k_db y -> granted y e = [] -> exists D' R' st' A', kinv (T + kweight y e) (kstep J y e) D' R' st' A' /\
    (granted y e = [] /\ same_did A A' \/
     exists a c s, granted y e = [Lease a c (somez (m_did A a c)) (somez (m_did A a c) + s)] /\ is_i64 a /\ is_i64 c /\ 0 < s <= B /\ kweight y e = 1 /\
       somez (m_did A' a c) = somez (m_did A a c) + s /\ forall a' c', is_i64 a' -> is_i64 c' -> (a', c') <> (a, c) -> m_did A' a' c' = m_did A a' c')).
  { intros E G. exists D', R', st', A'. split; [exact I'|]. left. split; [exact G|]. exact (KEEP _ _ _ _ I' E). }
  destruct e as [n c|n io|n|p|t io].
  - apply SAME; reflexivity.
  - cbn [kweight] in *. destruct (k_open y n) as [[[c d0] v]|] eqn:H.
    2:{ apply SAME; cbn [kstep granted]; rewrite H; reflexivity. }
    pose proof (ki_open _ _ _ _ _ _ _ I _ _ _ _ H) as C. pose proof C as (O & KO & _). destruct (kholds _ _ _ _ _ _ I) as (n1 & H1 & L1).
    destruct c as [i|i|p o|a c s|a c s].
    + destruct (create_kinv J T y D R st A n i d0 v io I H L) as (R2 & A2 & I2 & E2 & _). exists D, R2, st, A2. split; [exact I2|]. left. split; [cbn [granted]; rewrite H; reflexivity|]. intros a c _ _. rewrite E2. reflexivity.
    + destruct (index_kinv J T y D R st A n i d0 v io I H L) as (R2 & A2 & I2 & E2). exists D, R2, st, A2. split; [exact I2|]. left. split; [cbn [granted]; rewrite H; reflexivity|]. intros a c _ _. rewrite E2. reflexivity.
    + exists D', R', st', A'. split; [exact I'|]. left. split; [cbn [granted]; rewrite H; reflexivity|]. pose proof (work_end J T y D R st A p o d0 v io I C) as X. cbv zeta in X. destruct X as [(X & _)|X].
      * apply (KEEP _ _ _ _ I'). cbn [kstep]. rewrite H. exact X.
      * destruct C as (_ & OO & V & _). cbn [kcall_ok] in OO. pose proof (sinv_vars J T (k_db y) vars0 v (k_jobs y) D R st A V (ki_sys _ _ _ _ _ _ _ I)) as IV.
        change (kcost (KWork p o)) with 0 in *.
        destruct (work_after J JO T _ D R st A o io IV OO ltac:(lia)) as (D2 & R2 & st2 & A2 & I2 & M & _). cbn [dstep y_vars y_db y_jobs] in I2. rewrite <- X in I2.
        pose proof (si_holds _ _ _ _ _ _ _ I2) as H2. cbn [y_db] in H2. destruct (kholds _ _ _ _ _ _ I') as (n3 & H3 & _). cbn [kstep] in H3. rewrite H in H3. cbn [kend k_db set_open] in H3.
        intros a c Ha Hc. rewrite <- M. symmetry. exact (ProcessIds.did_fun J _ _ _ _ _ a c H2 H3 Ha Hc).
    + pose proof (Z _ _ _ _ _ _ H) as Zs. cbn [kcall_ok] in KO. destruct KO as (Ha & Hc & Hs). set (m := loc_inc (AtHash (dbKeyByID a) (didSequenceKeyByID c)) s) in *.
      assert (DB : k_db (kstep J y (KEnd n io)) = fst (run_update d0 (k_db y) m [] io)) by (cbn [kstep]; rewrite H; reflexivity).
      assert (GR : granted y (KEnd n io) = match snd (run_update d0 (k_db y) m [] io) with Ok v => [Lease a c (v - s) v] | _ => [] end) by (cbn [granted]; rewrite H; reflexivity).
      destruct (not_ok (snd (run_update d0 (k_db y) m [] io))) as [(w & W)|W].
      2:{ apply SAME; [rewrite DB; apply update_refused; exact W|]. rewrite GR. destruct (snd (run_update d0 (k_db y) m [] io)) as [w|e|]; [exfalso; exact (W w eq_refl) | reflexivity | reflexivity]. }
      assert (Y : run_update d0 (k_db y) m [] io = (fst (run_update d0 (k_db y) m [] io), Ok w)) by (rewrite <- W; apply surjective_pairing).
      apply (covers_now m m d0 (k_db y) io _ w (covers_steady m (steady_inc a c s)) (writes_inc a c s Hs ltac:(lia)) O (ki_eternal _ _ _ _ _ _ _ I) (proj1 H1)) in Y.
      specialize (BD a c Ha Hc). change (kcost (KDid a c s)) with 1 in *.
      assert (EI : inc64 (m_did A a c) s = somez (m_did A a c) + s).
      { unfold inc64, somez in *. destruct (m_did A a c) as [x|]; [|lia]. apply to_i64_id. unfold is_i64 in *. lia. }
      destruct (update_run J _ _ _ _ _ _ _ io Z.le_0_1 H1 ltac:(lia) (DidInc_d J A a c s Ha Hc Hs)) as [(E & _)|(d' & E & H')].
      { change (HInc MetaPrefix (dbKeyByID a) (didSequenceKeyByID c) s) with m in E. rewrite E in Y. discriminate Y. }
      change (HInc MetaPrefix (dbKeyByID a) (didSequenceKeyByID c) s) with m in E. rewrite E in Y. assert (E1 : d' = fst (run_update d0 (k_db y) m [] io)) by congruence. assert (E2 : w = somez (m_did A a c) + s) by congruence.
      rewrite <- E1 in DB. exists D', R', st', A'. split; [exact I'|]. right. exists a, c, s. split.
      { rewrite GR, W, E2. do 2 f_equal. lia. }
      split; [exact Ha|]. split; [exact Hc|]. split; [exact Zs|]. split; [reflexivity|].
      destruct (kholds _ _ _ _ _ _ I') as (n3 & H3 & _). rewrite DB in H3. split.
      { rewrite <- (ProcessIds.did_fun J _ _ _ _ _ a c H' H3 Ha Hc). cbn [with_did m_did]. unfold zupd. rewrite !Z.eqb_refl. cbn [somez]. exact EI. }
      intros a' c' Ha' Hc' NE. rewrite <- (ProcessIds.did_fun J _ _ _ _ _ a' c' H' H3 Ha' Hc'). cbn [with_did m_did]. unfold zupd.
      destruct (Z.eqb_spec a' a) as [->|]; [|reflexivity]. destruct (Z.eqb_spec c' c) as [->|]; [congruence | reflexivity].
    + exfalso. exact (N _ _ _ _ _ _ H).
  - apply SAME; reflexivity.
  - apply SAME; reflexivity.
  - exists D', R', st', A'. split; [exact I'|]. left. split; [reflexivity|]. destruct (kholds _ _ _ _ _ _ I) as (n1 & H1 & L1). destruct (kholds _ _ _ _ _ _ I') as (n2 & H2 & _). cbn [kstep k_db] in H2.
    intros a c Ha Hc. symmetry. eapply (ProcessIds.did_fun J n1 n2); [|exact H2 | exact Ha | exact Hc].
    destruct (commit (k_db y) t io) as [[d' t'] r] eqn:E. cbn [fst]. eapply holds_other; [exact H1 | eapply commit_db_ok; [exact (proj1 H1) | exact E]|].
    intros k Hk. eapply commit_other; [|exact E | exact Hk]. intros j o G. exact (proj1 (K j o G)).
Qed.
(** a list of leases: each of at least one id, and of the same collection only increasing; [lo a c] is below all of them and [hi a c] above *)
Fixpoint increasing (lo : Z -> Z -> Z) (ls : list lease) : Prop :=
  match ls with
  | [] => True
  | l :: r => lo (l_db l) (l_coll l) <= l_from l < l_to l /\ increasing (fun a c => if (a =? l_db l) && (c =? l_coll l) then l_to l else lo a c) r
  end.
Lemma increasing_ext ls : forall lo lo', (forall l, In l ls -> lo' (l_db l) (l_coll l) = lo (l_db l) (l_coll l)) -> increasing lo ls -> increasing lo' ls.
Proof.
  induction ls as [|l r IH]; intros lo lo' E H; [exact Logic.I|]. cbn [increasing] in *. destruct H as [H1 H2]. split; [rewrite E by (left; reflexivity); exact H1|].
  eapply IH; [|exact H2]. intros x Hx. cbv beta. destruct (_ && _); [reflexivity | apply E; right; exact Hx].
Qed.
Definition named64 (l : lease) : Prop := is_i64 (l_db l) /\ is_i64 (l_coll l).
Lemma lease_run es : forall T y D R st A, kinv T y D R st A -> Forall kev_ok es -> Forall (leasing B) es -> sized y -> never_released y -> 0 < B -> T + kload J y es < two63 -> B * (T + kload J y es) < two63 ->
  (forall a c, is_i64 a -> is_i64 c -> 0 <= somez (m_did A a c) <= B * T) ->
  Forall named64 (leases J y es) /\ increasing (fun a c => somez (m_did A a c)) (leases J y es).
Proof.
  induction es as [|e es IH]; intros T y D R st A I F1 F2 Z N BP L LB BD; cbn [leases kload] in *; [split; [constructor | exact Logic.I]|].
  inversion F1 as [|? ? F11 F12]; subst. inversion F2 as [|? ? F21 F22]; subst. pose proof (kload_nonneg J es (kstep J y e)) as L0. pose proof (kweight_nonneg y e) as W0.
  assert (LB1 : B * (T + kweight y e) < two63) by nia. destruct (step_sized y e F21 Z N) as [Z' N'].
  destruct (lease_step T y D R st A e I F11 F21 Z N ltac:(lia) LB1 BD) as (D' & R' & st' & A' & I' & X).
  assert (MB : B * T <= B * (T + kweight y e)) by (apply Z.mul_le_mono_nonneg_l; lia).
  assert (BD' : forall a c, is_i64 a -> is_i64 c -> 0 <= somez (m_did A' a c) <= B * (T + kweight y e)).
  { intros a c Ha Hc. destruct X as [[_ X]|(a0 & c0 & s & _ & _ & _ & Hs & W & X1 & X2)].
    - rewrite (X a c Ha Hc). specialize (BD a c Ha Hc). lia.
    - destruct (Z.eq_dec a a0) as [->|Na]; [destruct (Z.eq_dec c c0) as [->|Nc]|].
      + rewrite X1. specialize (BD a0 c0 Ha Hc). rewrite W in *. lia.
      + rewrite X2 by (auto; congruence). specialize (BD a0 c Ha Hc). lia.
      + rewrite X2 by (auto; congruence). specialize (BD a c Ha Hc). lia. }
  destruct (IH _ _ _ _ _ _ I' F12 F22 Z' N' BP ltac:(lia) ltac:(rewrite <- Z.add_assoc; exact LB) BD') as [G1 G2].
  destruct X as [[-> X]|(a0 & c0 & s & -> & Ha0 & Hc0 & Hs & W & X1 & X2)]; cbn [app].
  - split; [exact G1|]. eapply increasing_ext; [|exact G2]. intros l Hl. rewrite Forall_forall in G1. destruct (G1 l Hl) as [Ha Hc]. cbv beta. rewrite (X _ _ Ha Hc). reflexivity.
  - split; [constructor; [split; assumption | exact G1]|]. cbn [increasing l_db l_coll l_from l_to]. split; [lia|].
    eapply increasing_ext; [|exact G2]. intros l Hl. rewrite Forall_forall in G1. destruct (G1 l Hl) as [Ha Hc]. cbv beta.
    destruct (Z.eqb_spec (l_db l) a0) as [Ea|Na]; cbn [andb]; [destruct (Z.eqb_spec (l_coll l) c0) as [Ec|Nc]|].
    + rewrite Ea, Ec. symmetry. exact X1.
    + rewrite X2 by (auto; congruence). reflexivity.
    + rewrite X2 by (auto; congruence). reflexivity.
Qed.
Lemma increasing_from ls : forall lo x, increasing lo ls -> In x ls -> lo (l_db x) (l_coll x) <= l_from x < l_to x.
Proof.
  induction ls as [|l r IH]; intros lo x H Hx; [destruct Hx|]. cbn [increasing] in H. destruct H as [H1 H2]. destruct Hx as [->|Hx]; [exact H1|].
  specialize (IH _ _ H2 Hx). cbv beta in IH. destruct (Z.eqb_spec (l_db x) (l_db l)) as [Ea|Na]; cbn [andb] in IH; [destruct (Z.eqb_spec (l_coll x) (l_coll l)) as [Ec|Nc]|]; try exact IH.
  rewrite Ea, Ec. lia.
Qed.
Lemma increasing_pair ls : forall lo i j x y, increasing lo ls -> (i < j)%nat -> nth_error ls i = Some x -> nth_error ls j = Some y -> l_db x = l_db y -> l_coll x = l_coll y -> l_to x <= l_from y.
Proof.
  induction ls as [|l r IH]; intros lo i j x y H Hij Hi Hj Ea Ec; [destruct i; discriminate Hi|]. cbn [increasing] in H. destruct H as [H1 H2]. destruct j as [|j]; [lia|]. cbn [nth_error] in Hj.
  destruct i as [|i]; cbn [nth_error] in Hi.
  - injection Hi as <-. apply nth_error_In in Hj. pose proof (increasing_from _ _ _ H2 Hj) as X. cbv beta in X. rewrite Ea, Ec, !Z.eqb_refl in X. cbn [andb] in X. lia.
  - assert (Hij2 : (i < j)%nat) by lia. exact (IH _ _ _ _ _ H2 Hij2 Hi Hj Ea Ec).
Qed.
End S.

(** * C94. However the transactions of the allocators of any number of processes overlap with each other, with requests,
    with workers and with documents being written, and whichever of them conflict, fail or never end: in the order in which
    they are answered, the leases of one collection lie above one another ... *)
Theorem C94_leases_of_a_collection_grow : forall J, json_ok J -> forall B d es, overlap_ok J d es -> 0 < B -> Forall (leasing B) es -> B * kload J (kstart d) es < two63 ->
  let ls := leases J (kstart d) es in
  (forall x, In x ls -> 0 <= l_from x < l_to x) /\
  (forall i j x y, (i < j)%nat -> nth_error ls i = Some x -> nth_error ls j = Some y -> l_db x = l_db y -> l_coll x = l_coll y -> l_to x <= l_from y).
Proof.
  intros J JO B d es (K & NM & ET & F & L) BP FL LB ls.
  pose proof (lease_run J JO B es 0 (kstart d) [] [] HFresh m_empty (kstart_inv J d (empty_holds J d K NM) ET) F FL) as X. rewrite !Z.add_0_l in X.
  destruct X as [_ X]; try assumption; [intros n a c s d0 v Y; discriminate Y | intros n a c s d0 v Y; discriminate Y | intros a c _ _; cbn; lia|]. fold ls in X. split.
  - intros x Hx. exact (increasing_from ls (fun a c => somez (m_did m_empty a c)) x X Hx).
  - intros i j x y. exact (increasing_pair ls _ i j x y X).
Qed.
Print Assumptions C94_leases_of_a_collection_grow.
(** ... so no id is in two of them *)
Corollary C94_no_id_is_leased_twice : forall J, json_ok J -> forall B d es, overlap_ok J d es -> 0 < B -> Forall (leasing B) es -> B * kload J (kstart d) es < two63 ->
  let ls := leases J (kstart d) es in
  forall i j x y v, nth_error ls i = Some x -> nth_error ls j = Some y -> l_db x = l_db y -> l_coll x = l_coll y ->
    l_from x < v <= l_to x -> l_from y < v <= l_to y -> i = j.
Proof.
  intros J JO B d es H BP FL LB ls i j x y v Hi Hj Ea Ec Vx Vy. destruct (C94_leases_of_a_collection_grow J JO B d es H BP FL LB) as [_ G]. fold ls in G.
  destruct (Nat.lt_trichotomy i j) as [X|[X|X]]; [|exact X|].
  - pose proof (G i j x y X Hi Hj Ea Ec). lia.
  - pose proof (G j i y x X Hj Hi (eq_sym Ea) (eq_sym Ec)). lia.
Qed.
Print Assumptions C94_no_id_is_leased_twice.

(** * A concrete history: three allocators of the same collection begin together, one of another collection between them; the first to
    end gets its lease, the other two conflict; one of these tries again after the first process died, while the worker applies a schema
    and a document is written *)
Definition rush : list kev :=
  [ KBegin 0 (KCreate (bare (str "shop") [str "orders"; str "users"])); KEnd 0 false;
    KBegin 20 (KDid 1 2 1000); KBegin 21 (KDid 1 2 500); KBegin 22 (KDid 1 2 1000); KBegin 23 (KDid 1 3 1000);
    KBegin 10 (KWork 0 ident); KEnd 21 false; KEnd 20 false; KEnd 22 false; KEnd 10 false; KEnd 23 true; KBegin 23 (KDid 1 3 1000); KCrash 0;
    KBegin 20 (KDid 1 2 1000); KOther a_doc false; KBegin 11 (KWork 1 backwards); KEnd 23 false; KEnd 11 false; KEnd 20 false; KBegin 20 (KDid 1 2 1000); KEnd 20 false; KDrop 20 ].
Example C94_example : overlap_ok demo_json d00 rush /\ Forall (leasing 1000) rush /\ 1000 * kload demo_json (kstart d00) rush < two63 /\
  leases demo_json (kstart d00) rush = [Lease 1 2 0 500; Lease 1 3 0 1000; Lease 1 2 500 1500; Lease 1 2 1500 2500] /\
  (let y := after_overlap demo_json d00 (firstn 8 rush) in
     option_map (fun x => snd (run_update (snd (fst x)) (k_db y) (loc_inc (AtHash (dbKeyByID 1) (didSequenceKeyByID 2)) 1000) [] false)) (k_open y 20) = Some (Err EConflict)).
Proof.
  split; [|split; [|split; [|split]]].
  - split; [apply db_ok_init|]. split; [exact no_meta_init|]. split; [exact start_eternal|]. split; [|vm_compute; reflexivity].
    unfold rush. kok; (split; [|split]); unfold is_i64; rewrite two63_val; lia.
  - unfold rush. kok; cbn [leasing]; lia.
  - vm_compute. reflexivity.
  - vm_compute. reflexivity.
  - vm_compute. reflexivity.
Qed.
