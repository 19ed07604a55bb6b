(** Requests on any metadata, wedged queues, progress, and what waiting requests see. *)
From Verif Require Import Bytes SMap Provider ProviderProofs World Memcmp MemcmpProofs Numeric KvUtil KeyModel Struct
  StructProofs StructHash StructList UtilTxn Sequence SequenceProofs Model Meta MetaSpec MetaProofs MetaOps MetaRun Ddl DdlSpec DdlProofs DdlWorker DdlSys DdlIndex.
From Coq Require Import Sorted Permutation.

Section WithJson.
Variable J : json.
Hypothesis JO : json_ok J.
Local Notation mdo := (mdo J).
Local Notation mgets := (mgets J).
Local Notation holds := (holds J).

(** * CreateSchema on any metadata *)
Lemma CreateSchema_ok n d A i io : holds n d A -> n + 1 < two63 -> 0 <= gid A -> gid A + reserve i < two63 -> csi_utf8 i -> ValidateCreateSchema i = None ->
  no_index i -> Z.of_nat (length (queue A)) <= maxJobsInQueue -> ~ used_name A (cs_db i) ->
  (CreateSchema J d i io = (d, Err EIO) /\ io = true) \/
  exists j x d', new_schema_job i (gid A) (gid A + reserve i) j x /\ CreateSchema J d i io = (d', Ok j) /\
    holds (n + 1) d' (with_queue (with_gid A (gid A + reserve i)) DefaultJobList (queue A ++ [j])).
Proof.
  intros H L G0 G1 U V NI Q N. destruct (CreateSchemaTx_d J JO A i G0 G1 U NI Q N) as (j & x & NJ & M).
  unfold CreateSchema. rewrite V. destruct (update_run J _ _ _ _ _ _ _ io Z.le_0_1 H L M) as [(E & Hio & _)|(d' & E & H')]; [left; auto | right; exists j, x, d'; auto].
Qed.
Lemma CreateSchema_invalid d i io e : ValidateCreateSchema i = Some e -> CreateSchema J d i io = (d, Err e).
Proof. intros V. unfold CreateSchema. rewrite V. reflexivity. Qed.
Lemma CreateSchema_full n d A i io : holds n d A -> n < two63 -> ValidateCreateSchema i = None -> maxJobsInQueue < Z.of_nat (length (queue A)) -> CreateSchema J d i io = (d, Err ErrJobsInQueueExceeded).
Proof. intros H L V Q. unfold CreateSchema. rewrite V. exact (holds_view_err J _ _ _ _ _ io H L (CreateSchemaTx_full J A i Q)). Qed.
Lemma CreateSchema_used n d A i io : holds n d A -> n < two63 -> ValidateCreateSchema i = None -> Z.of_nat (length (queue A)) <= maxJobsInQueue -> used_name A (cs_db i) -> CreateSchema J d i io = (d, Err ErrDBAlreadyExists).
Proof. intros H L V Q U. unfold CreateSchema. rewrite V. exact (holds_view_err J _ _ _ _ _ io H L (CreateSchemaTx_used J JO A i Q U)). Qed.
Lemma CreateSchema_panics n d A i io : holds n d A -> n + 1 < two63 -> 0 <= gid A -> gid A + reserve i < two63 -> ValidateCreateSchema i = None ->
  Z.of_nat (length (queue A)) <= maxJobsInQueue -> ~ used_name A (cs_db i) -> (exists cn is, In cn (cs_colls i) /\ mget (cs_indices i) cn = Some is /\ is <> []) ->
  CreateSchema J d i io = (d, Panic).
Proof.
  intros H L G0 G1 V Q N X. destruct (CreateSchemaTx_panic J JO A i G0 G1 Q N X) as (A' & M). unfold CreateSchema. rewrite V. exact (holds_panic J _ _ _ _ _ _ io H L M).
Qed.

(** * What a waiting request sees *)
Lemma history_read n d A id io : holds n d A -> n < two63 -> is_i64 id ->
  snd (GetHistoryJob J d id io) = jread (m_hist A id) \/ snd (GetHistoryJob J d id io) = Err EIO /\ io = true.
Proof.
  intros H L I. unfold GetHistoryJob. pose proof (mgets_mdo J _ _ _ (GetHistoryDDLJob_r J JO A id I)) as M.
  destruct (update_run J n d A _ 0 _ _ io (Z.le_refl 0) H ltac:(lia) M) as [(E & Hio & _)|(d' & E & _)]; rewrite E; cbn [snd]; auto.
Qed.
Lemma poll_waits n d A id io : holds n d A -> n < two63 -> is_i64 id -> (forall j, m_hist A id = Some j -> j_err j = true) -> poll J d id io = Waiting.
Proof.
  intros H L I N. unfold poll. destruct (history_read n d A id io H L I) as [E|[E _]]; rewrite E; [|reflexivity].
  destruct (m_hist A id) as [j|]; [|reflexivity]. cbn [jread]. rewrite (N j eq_refl). reflexivity.
Qed.
Lemma poll_returns n d A id j : holds n d A -> n < two63 -> is_i64 id -> m_hist A id = Some j -> j_err j = false -> j_state j = JSynced -> poll J d id false = Returned None.
Proof.
  intros H L I E Er St. unfold poll. destruct (history_read n d A id false H L I) as [X|[_ X]]; [|discriminate]. rewrite X, E. cbn [jread]. rewrite Er. unfold IsSynced. rewrite St. reflexivity.
Qed.
Lemma id_range T y D R st A : sinv J T y D R st A -> T < two63 -> forall j, In j (D ++ R) -> is_i64 (j_id j).
Proof.
  intros I L j Ij. pose proof (ds_ids _ _ _ _ (si_state _ _ _ _ _ _ _ I)) as [_ F]. rewrite Forall_forall in F. pose proof (si_gid _ _ _ _ _ _ _ I) as G. unfold gid in G.
  assert (X : 0 < j_id j <= somez (m_gid A)); [|unfold is_i64; lia]. apply F. apply in_flat_map. exists j. split; [exact Ij | left; reflexivity].
Qed.
Lemma used_lt T y D R st A : sinv J T y D R st A -> T < two63 -> room T D R st < two63.
Proof. intros I L. pose proof (room_le T D R st). lia. Qed.
Lemma pending_waits T y D R st A j io : sinv J T y D R st A -> T < two63 -> In j R -> poll J (y_db y) (j_id j) io = Waiting.
Proof.
  intros I L Ij. eapply poll_waits; [exact (si_holds _ _ _ _ _ _ _ I) | exact (used_lt _ _ _ _ _ _ I L) | eapply id_range; [exact I | exact L | apply in_or_app; right; exact Ij]|].
  intros x X. exfalso. apply (ds_hist _ _ _ _ (si_state _ _ _ _ _ _ _ I)) in X. destruct X as (j' & Ij' & Ei & _).
  pose proof (ds_ids _ _ _ _ (si_state _ _ _ _ _ _ _ I)) as [N _]. rewrite flat_map_app in N. apply nodup_app in N. destruct N as (_ & _ & N). apply (N (j_id j)); apply in_flat_map.
  - exists j'. split; [exact Ij' | rewrite Ei; left; reflexivity].
  - exists j. split; [exact Ij | left; reflexivity].
Qed.
Lemma finished_returns T y D R st A j : sinv J T y D R st A -> T < two63 -> In j D -> poll J (y_db y) (j_id j) false = Returned None.
Proof.
  intros I L Ij. eapply (poll_returns _ _ _ _ (synced j)); [exact (si_holds _ _ _ _ _ _ _ I) | exact (used_lt _ _ _ _ _ _ I L) | eapply id_range; [exact I | exact L | apply in_or_app; left; exact Ij] | | reflexivity | reflexivity].
  apply (ds_hist _ _ _ _ (si_state _ _ _ _ _ _ _ I)). exists j. auto.
Qed.
(** reading calls *)
Lemma read_op n d A o : holds n d A -> n < two63 -> mreads o = true -> mok o -> exists r, mref A o r A /\ run_view d (mexec J o) = r.
Proof.
  intros (K & S & R & M) L RD OK. destruct (msim_read J JO A S o RD OK M) as (r & X & H & N). exists r. split; [exact X|]. eapply run_view_spec. exact (H false n _ R L).
Qed.

(** * A wedged queue stays wedged *)
Definition wedged (st : hstat) : Prop := st = HFailed \/ st = HStuck.
Lemma wedge_step T y D R st A e : wedged st -> sinv J T y D R st A -> dev_ok e -> T + dweight e < two63 ->
  exists R' A', sinv J (T + dweight e) (dstep J y e) D R' st A' /\ (exists l, R' = R ++ l).
Proof.
  intros Wd I K L. assert (OTH : match e with DDid _ _ _ _ | DRelease _ _ _ _ | DOther _ _ => True | _ => False end -> exists R' A', sinv J (T + dweight e) (dstep J y e) D R' st A' /\ (exists l, R' = R ++ l)).
  { intros X. destruct (other_inv J T y D R st A e I K L X) as (A' & H & _). exists R, A'. split; [exact H | exists []; rewrite app_nil_r; reflexivity]. }
  destruct e as [i io|i io|o io| |a c s io|a c s io|t io]; try (apply OTH; exact Logic.I); clear OTH.
  - destruct (create_inv J JO T y D R st A i io I K L) as (R' & A' & H). exists R', A'. split; [exact H|].
    pose proof (si_jobs _ _ _ _ _ _ _ H) as E. cbn [dstep] in E. destruct (CreateSchema J (y_db y) i io) as [d' r]. cbn [y_jobs] in E. rewrite (si_jobs _ _ _ _ _ _ _ I) in E.
    destruct r as [j|e|]; cbn [accepted] in E; [rewrite <- app_assoc in E|..]; apply app_inv_head in E; [exists [j] | exists [] | exists []]; rewrite ?app_nil_r; congruence.
  - destruct (index_inv J JO T y D R st A i io I K L) as (R' & A' & H). exists R', A'. split; [exact H|].
    pose proof (si_jobs _ _ _ _ _ _ _ H) as E. cbn [dstep] in E. destruct (AddIndex J (y_db y) i io) as [d' r]. cbn [y_jobs] in E. rewrite (si_jobs _ _ _ _ _ _ _ I) in E.
    destruct r as [j|e|]; cbn [accepted] in E; [rewrite <- app_assoc in E|..]; apply app_inv_head in E; [exists [j] | exists [] | exists []]; rewrite ?app_nil_r; congruence.
  - cbn [dweight] in *. rewrite Z.add_0_r in *. destruct (work_inv J JO T y D R st A o io I K L) as (D' & R' & st' & A' & H & W).
    assert (X : D' = D /\ R' = R /\ st' = st).
    { destruct W as [W|(_ & W)]; [|exact W]. destruct Wd as [-> | ->]; inversion W; subst; auto; match goal with X : _ \/ _ |- _ => destruct X; discriminate end. }
    destruct X as (-> & -> & ->). exists R, A'. split; [exact H | exists []; rewrite app_nil_r; reflexivity].
  - cbn [dweight] in *. rewrite Z.add_0_r in *. exists R, A. split; [apply crash_inv; exact I | exists []; rewrite app_nil_r; reflexivity].
Qed.
Lemma wedge_run es : forall T y D R st A, wedged st -> sinv J T y D R st A -> Forall dev_ok es -> T + dload es < two63 ->
  exists R' A', sinv J (T + dload es) (drun J y es) D R' st A' /\ (exists l, R' = R ++ l).
Proof.
  induction es as [|e es IH]; intros T y D R st A Wd I F L.
  - exists R, A. cbn [dload fold_right drun fold_left]. rewrite Z.add_0_r. split; [exact I | exists []; rewrite app_nil_r; reflexivity].
  - inversion F as [|? ? F1 F2]; subst. cbn [dload fold_right] in L. pose proof (load_nonneg es) as L0. unfold dload in L0. pose proof (weight_nonneg e).
    destruct (wedge_step T y D R st A e Wd I F1 ltac:(lia)) as (R1 & A1 & I1 & (l1 & E1)).
    destruct (IH _ _ _ _ _ _ Wd I1 F2) as (R2 & A2 & I2 & (l2 & E2)); [unfold dload; lia|].
    exists R2, A2. split; [|exists (l1 ++ l2); rewrite E2, E1, app_assoc; reflexivity].
    cbn [drun fold_left]. unfold drun in I2. eapply sinv_weaken; [|exact I2]. cbn [dload fold_right]. unfold dload. lia.
Qed.

(** * Accepted requests *)
Lemma create_accepted T y D R st A i : sinv J T y D R st A -> dev_ok (DCreate i false) -> T + dweight (DCreate i false) < two63 ->
  ValidateCreateSchema i = None -> no_index i -> llen R <= maxJobsInQueue -> ~ In (cs_db i) (map di_name (dbs_of (applied D R st))) ->
  exists j x A', new_schema_job i (gid A) (gid A + reserve i) j x /\ snd (CreateSchema J (y_db y) i false) = Ok j /\
    sinv J (T + dweight (DCreate i false)) (dstep J y (DCreate i false)) D (R ++ [j]) st A'.
Proof.
  intros I K L V NI Q N. pose proof (used_lt _ _ _ _ _ _ I ltac:(pose proof (weight_nonneg (DCreate i false)); lia)) as UL.
  pose proof (si_holds _ _ _ _ _ _ _ I) as H. pose proof (si_gid _ _ _ _ _ _ _ I) as G. pose proof (si_total _ _ _ _ _ _ _ I) as TT. pose proof (room_le T D R st) as UT.
  assert (W : dweight (DCreate i false) = reserve i + 1) by (unfold dweight, reserve; lia). assert (R0 : 2 <= reserve i) by (unfold reserve, llen; destruct (cs_indices i); lia).
  assert (QL : Z.of_nat (length (queue A)) <= maxJobsInQueue).
  { unfold queue. rewrite (ds_queue _ _ _ _ (si_state _ _ _ _ _ _ _ I)). unfold llen in Q. destruct R; exact Q. }
  assert (NU : ~ used_name A (cs_db i)) by (intros X; apply N; apply (used_name_iff _ _ _ (ds_effects _ _ _ _ (si_state _ _ _ _ _ _ _ I))); exact X).
  destruct (CreateSchema_ok _ _ A i false H ltac:(lia) (proj1 G) ltac:(lia) K V NI QL NU) as [[_ X]|(j & x & d' & NJ & E & H')]; [discriminate|].
  destruct (create_inv J JO T y D R st A i false I K L) as (R' & A' & I'). exists j, x, A'. split; [exact NJ|]. rewrite E. split; [reflexivity|].
  assert (ER : R' = R ++ [j]); [|rewrite <- ER; exact I']. pose proof (si_jobs _ _ _ _ _ _ _ I') as EJ. cbn [dstep] in EJ. rewrite E in EJ. cbn [y_jobs accepted] in EJ. rewrite (si_jobs _ _ _ _ _ _ _ I), <- app_assoc in EJ.
  apply app_inv_head in EJ. symmetry. exact EJ.
Qed.
Lemma index_accepted T y D R st A i x c : sinv J T y D R st A -> dev_ok (DIndex i false) -> T + dweight (DIndex i false) < two63 ->
  In x (dbs_of (applied D R st)) -> di_name x = ai_db i -> mget (di_colls x) (ai_coll i) = Some c ->
  exists j A', j_arg j = ArgIndex (index_arg i (gid A + 1)) /\ snd (AddIndex J (y_db y) i false) = Ok j /\ sinv J (T + dweight (DIndex i false)) (dstep J y (DIndex i false)) D (R ++ [j]) st A'.
Proof.
  intros I K L Ix En Ec. cbn [dweight] in L. pose proof (used_lt _ _ _ _ _ _ I ltac:(lia)) as UL. pose proof (si_holds _ _ _ _ _ _ _ I) as H. pose proof (si_gid _ _ _ _ _ _ _ I) as G.
  pose proof (si_total _ _ _ _ _ _ _ I) as TT. pose proof (room_le T D R st) as UT.
  pose proof (named_of _ _ _ (ds_effects _ _ _ _ (si_state _ _ _ _ _ _ _ I)) (ds_names _ _ _ _ (si_state _ _ _ _ _ _ _ I)) Ix) as Nm. rewrite En in Nm.
  pose proof (plain_colls J T y D R st A x _ c I Ix Ec) as Nc.
  pose proof (AddIndexTx_d J JO A i _ _ (proj1 G) ltac:(lia) K Nm (mget_pub _ _ _ Ec)) as M. assert (Y : mget (ci_indices (pub_ci c)) (dx_name (ai_index i)) = None) by (cbn [pub_ci ci_indices]; rewrite Nc; reflexivity).
  specialize (M Y). destruct (update_run J _ _ _ _ _ _ _ false Z.le_0_1 H ltac:(lia) M) as [(_ & X & _)|(d' & E & H')]; [discriminate|].
  destruct (index_inv J JO T y D R st A i false I K L) as (R' & A' & I'). exists (index_job i (gid A)), A'. split; [reflexivity|]. unfold AddIndex. rewrite E. split; [reflexivity|].
  assert (ER : R' = R ++ [index_job i (gid A)]); [|rewrite <- ER; exact I']. pose proof (si_jobs _ _ _ _ _ _ _ I') as EJ. cbn [dstep] in EJ. unfold AddIndex in EJ. rewrite E in EJ. cbn [y_jobs accepted] in EJ. rewrite (si_jobs _ _ _ _ _ _ _ I), <- app_assoc in EJ.
  apply app_inv_head in EJ. symmetry. exact EJ.
Qed.

(** * Progress *)
Definition all_create (l : list Job) : Prop := (forall j, In j l -> exists d, j_arg j = ArgDB d) /\ NoDup (map di_name (dbs_of l)).
Definition steps_left (R : list Job) (st : hstat) : nat := match st with HApplied => 2 * length R - 1 | _ => 2 * length R end.
Lemma progress_step T y D R st A o : sinv J T y D R st A -> orders_are o -> T < two63 -> all_create (D ++ R) -> st = HFresh \/ st = HApplied ->
  exists D' R' st' A', sinv J T (dstep J y (DWork o false)) D' R' st' A' /\ (st' = HFresh \/ st' = HApplied) /\ D' ++ R' = D ++ R /\ (steps_left R' st' <= steps_left R st - 1)%nat.
Proof.
  intros I O L [AC ND] S. destruct (work_inv J JO T y D R st A o false I O L) as (D' & R' & st' & A' & H & [W|(X & _)]); [|discriminate].
  exists D', R', st', A'. split; [exact H|]. destruct W as [D|D j r d Ea N|D j r|D j r d Ea N|D R|D j r i st Ea Hs].
  - split; [auto|]. split; [reflexivity | cbn; lia].
  - split; [auto|]. split; [reflexivity|]. cbn [steps_left length]. lia.
  - split; [auto|]. split; [rewrite <- app_assoc; reflexivity|]. cbn [steps_left length]. lia.
  - exfalso. rewrite dbs_app in ND. change (j :: r) with ([j] ++ r) in ND. rewrite dbs_app, (dbs_one j d Ea), map_app, map_app in ND. apply nodup_app in ND. destruct ND as (_ & _ & ND). apply (ND _ N). left. reflexivity.
  - destruct S; discriminate.
  - exfalso. destruct (AC j) as (d & X); [apply in_or_app; right; left; reflexivity|]. congruence.
Qed.
Lemma progress_run os : forall T y D R st A, sinv J T y D R st A -> Forall orders_are os -> T < two63 -> all_create (D ++ R) -> st = HFresh \/ st = HApplied -> (steps_left R st <= length os)%nat ->
  exists D' A', sinv J T (drun J y (map (fun o => DWork o false) os)) D' [] HFresh A' /\ D' = D ++ R.
Proof.
  induction os as [|o os IH]; intros T y D R st A I F L AC S N; cbn [map drun fold_left length] in *.
  - assert (st = HFresh /\ R = []).
    { destruct S as [-> | ->]; cbn [steps_left] in N; destruct R as [|j r]; auto; try (cbn [length] in N; lia). exfalso. exact (ds_stat _ _ _ _ (si_state _ _ _ _ _ _ _ I) eq_refl). }
    destruct H as [-> ->]. exists D, A. rewrite app_nil_r. auto.
  - inversion F as [|? ? F1 F2]; subst. destruct (progress_step T y D R st A o I F1 L AC S) as (D' & R' & st' & A' & I' & S' & E & LE).
    rewrite <- E in AC. destruct (IH T _ D' R' st' A' I' F2 L AC S' ltac:(lia)) as (D2 & A2 & I2 & E2). exists D2, A2. split; [exact I2 | congruence].
Qed.
Lemma good_status T y D R st A : sinv J T y D R st A -> all_create (D ++ R) -> st = HFresh \/ st = HApplied.
Proof.
  intros I [AC ND]. pose proof (ds_stat _ _ _ _ (si_state _ _ _ _ _ _ _ I)) as X. destruct st; auto.
  - exfalso. destruct X as (j & r & d & -> & Ea & N). rewrite dbs_app in ND. change (j :: r) with ([j] ++ r) in ND. rewrite dbs_app, (dbs_one j d Ea), map_app, map_app in ND. apply nodup_app in ND. destruct ND as (_ & _ & ND). apply (ND _ N). left. reflexivity.
  - exfalso. destruct X as (j & r & i & -> & Ea). destruct (AC j) as (d & Y); [apply in_or_app; right; left; reflexivity|]. congruence.
Qed.
End WithJson.
