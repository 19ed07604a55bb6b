(** Schema changes: C57-C61, C71.
    encoding/json is a parameter J meeting the contract [json_ok] (MetaCodec.v has an instance). *)
From Verif Require Import Bytes SMap Provider ProviderProofs World Memcmp MemcmpProofs Numeric KvUtil KeyModel Struct
  StructProofs StructHash StructList UtilTxn Sequence SequenceProofs Model Meta MetaCodec MetaSpec MetaProofs MetaOps MetaRun P_Meta Ddl DdlSpec DdlProofs DdlWorker DdlSys DdlIndex DdlMore.
From Coq Require Import Sorted Permutation.

Local Notation P := MetaPrefix.

(** the database [d] shows the metadata [A] to every reading call *)
Definition sees (J : json) (d : db) (A : mst) : Prop := forall o, mreads o = true -> mok o -> exists r, mref A o r A /\ run_view d (mexec J o) = r.
(** the metadata [A'] is [A] but for the last global id, which is not smaller, and one more job in the queue *)
Definition only_enqueued (A A' : mst) (j : Job) : Prop :=
  m_queue A' DefaultJobList = m_queue A DefaultJobList ++ [j] /\ somez (m_gid A) <= somez (m_gid A') /\
  m_ver A' = m_ver A /\ m_boot A' = m_boot A /\ m_diff A' = m_diff A /\ m_db A' = m_db A /\ m_coll A' = m_coll A /\ m_did A' = m_did A /\
  m_queue A' AddIndexJobList = m_queue A AddIndexJobList /\ m_hist A' = m_hist A /\ m_start A' = m_start A /\ m_end A' = m_end A.
(** the job [j] describes what the input [i] asks for (a schema without indices) *)
Definition requested (i : CSI) (j : Job) : Prop :=
  j_type j = ActionCreateSchema /\ j_err j = false /\
  exists x m, j_arg j = ArgDB x /\ di_name x = cs_db i /\ di_order x = cs_colls i /\ di_colls x = Some m /\
    (forall cn, (exists c, get m cn = Some c) <-> In cn (cs_colls i)) /\ (forall cn c, get m cn = Some c -> ci_name c = cn /\ ci_indices c = None).
(** a history on a database without schema metadata *)
Definition history_ok (d : db) (es : list dev) : Prop := db_ok d /\ no_meta d /\ Forall dev_ok es /\ dload es < two63.
Definition after_history (J : json) (d : db) (es : list dev) : sys := drun J (dstart d) es.

Lemma empty_holds J d : db_ok d -> no_meta d -> holds J 0 d m_empty.
Proof. intros HD HN. split; [exact HD|]. exists s_empty. split; [apply (rep_empty P); exact HN | apply mrep_empty]. Qed.
Lemma hist_inv J (JO : json_ok J) d es : history_ok d es ->
  exists D R st A, sinv J (dload es) (after_history J d es) D R st A.
Proof.
  intros (H1 & H2 & H3 & H4). destruct (run_inv J JO es 0 (dstart d) [] [] HFresh m_empty (start_inv J d (empty_holds J d H1 H2)) H3) as (D & R & st & A & I & _); [rewrite Z.add_0_l; exact H4|].
  rewrite Z.add_0_l in I. exists D, R, st, A. exact I.
Qed.
Lemma sees_holds J (JO : json_ok J) n d A : holds J n d A -> n < two63 -> sees J d A.
Proof. intros H L o RD OK. apply (read_op J JO n d A o H L RD OK). Qed.
Lemma sinv_sees J (JO : json_ok J) T y D R st A : sinv J T y D R st A -> T < two63 -> sees J (y_db y) A.
Proof. intros I L. eapply sees_holds; [exact JO | exact (si_holds _ _ _ _ _ _ _ I) | eapply used_lt; [exact I | exact L]]. Qed.
Lemma load_app es es' : dload (es ++ es') = dload es + dload es'.
Proof. unfold dload. induction es as [|e es IH]; cbn [app fold_right]; [reflexivity|]. rewrite IH. lia. Qed.
Lemma new_requested i lo hi j x : new_schema_job i lo hi j x -> requested i j.
Proof.
  intros [N1 N2 N3 N4 (m & N5 & P1 & P2) N6 N7]. split; [rewrite N1; reflexivity|]. split; [rewrite N1; reflexivity|]. exists x, m. split; [rewrite N1; reflexivity|].
  split; [exact N2|]. split; [exact N3|]. split; [exact N5|]. split; [exact P1|]. intros cn c E. rewrite (P2 cn c E). auto.
Qed.
Lemma new_ids i lo hi j x : new_schema_job i lo hi j x -> NoDup (ids_of j) /\ Forall (fun id => lo < id <= hi) (ids_of j).
Proof. intros [N1 N2 N3 N4 N5 N6 [F1 F2]]. assert (E : ids_of j = j_id j :: di_id x :: coll_ids x) by (rewrite N1; reflexivity). rewrite E. auto. Qed.

(** * C57 *)
(** every outcome of CreateSchema on any metadata *)
Lemma create_cases J (JO : json_ok J) n d A i io : holds J n d A -> n + 1 < two63 -> 0 <= gid A -> gid A + reserve i < two63 -> csi_utf8 i ->
  (exists e, CreateSchema J d i io = (d, Err e)) \/ CreateSchema J d i io = (d, Panic) \/
  exists j x d', new_schema_job i (gid A) (gid A + reserve i) j x /\ CreateSchema J d i io = (d', Ok j) /\
    holds J (n + 1) d' (with_queue (with_gid A (gid A + reserve i)) DefaultJobList (queue A ++ [j])).
Proof.
  intros H L G0 G1 U. destruct (ValidateCreateSchema i) as [e|] eqn:V; [left; exists e; apply CreateSchema_invalid; exact V|].
  destruct (Z.le_gt_cases (Z.of_nat (length (queue A))) maxJobsInQueue) as [Q|Q]; [|left; eexists; eapply CreateSchema_full; [exact H | lia | exact V | exact Q]].
  destruct (used_name_dec J JO A (cs_db i)) as [X|X]; [exists n, d; split; [exact H | lia] | left; eexists; eapply CreateSchema_used; try eassumption; lia|].
  destruct (no_index_dec i) as [NI|NI]; [|right; left; eapply CreateSchema_panics; eassumption].
  destruct (CreateSchema_ok J JO n d A i io H L G0 G1 U V NI Q X) as [[E _]|E]; [left; eexists; exact E | right; right; exact E].
Qed.
(** on any metadata: the new ids are pairwise different, above the last id generated and not above the new last one;
    exactly one job is enqueued, describing the request, and nothing else changes *)
Theorem C57_fresh_ids_any_metadata : forall J, json_ok J -> forall n d A i io d' j, holds J n d A -> n + 1 < two63 -> 0 <= somez (m_gid A) ->
  somez (m_gid A) + dweight (DCreate i io) < two63 -> dev_ok (DCreate i io) -> CreateSchema J d i io = (d', Ok j) ->
  requested i j /\ NoDup (ids_of j) /\
  exists A', holds J (n + 1) d' A' /\ Forall (fun id => somez (m_gid A) < id <= somez (m_gid A')) (ids_of j) /\ only_enqueued A A' j.
Proof.
  intros J JO n d A i io d' j H L G0 G1 U E. assert (W : dweight (DCreate i io) = reserve i + 1) by (unfold dweight, reserve; lia). assert (R0 : 2 <= reserve i) by (unfold reserve, llen; destruct (cs_indices i); lia).
  destruct (create_cases J JO n d A i io H L G0 ltac:(unfold gid; lia) U) as [(e & X)|[X|(j' & x & d1 & NJ & X & H')]]; rewrite X in E; try discriminate.
  assert (d1 = d' /\ j' = j) by (split; congruence). destruct H0 as [-> ->]. split; [eapply new_requested; exact NJ|]. destruct (new_ids _ _ _ _ _ NJ) as [N1 N2]. split; [exact N1|].
  eexists. split; [exact H'|]. split; [exact N2|]. unfold only_enqueued. cbn [with_queue with_gid m_queue m_gid m_ver m_boot m_diff m_db m_coll m_did m_hist m_start m_end qeqb somez].
  split; [reflexivity|]. split; [unfold gid; lia|]. repeat split.
Qed.
(** in any history: the new ids were never used by an earlier request *)
Theorem C57_fresh_ids : forall J, json_ok J -> forall d0 es i io, history_ok d0 (es ++ [DCreate i io]) ->
  let y := after_history J d0 es in forall d' j, CreateSchema J (y_db y) i io = (d', Ok j) ->
  requested i j /\ NoDup (ids_of j) /\ (forall id, In id (ids_of j) -> ~ In id (flat_map ids_of (y_jobs y))) /\
  exists A A', sees J (y_db y) A /\ sees J d' A' /\ only_enqueued A A' j.
Proof.
  intros J JO d0 es i io (H1 & H2 & H3 & H4) y d' j E. apply Forall_app in H3. destruct H3 as [H3 H5]. inversion H5 as [|? ? K _]; subst. rewrite load_app in H4. cbn [dload fold_right] in H4. fold (dload es) in H4.
  pose proof (weight_nonneg (DCreate i io)) as W0. assert (W : dweight (DCreate i io) = reserve i + 1) by (unfold dweight, reserve; lia). assert (R0 : 2 <= reserve i) by (unfold reserve, llen; destruct (cs_indices i); lia).
  destruct (hist_inv J JO d0 es) as (D & R & st & A & I); [repeat split; try assumption; try apply H1; lia|]. fold y in I.
  pose proof (si_holds _ _ _ _ _ _ _ I) as H. pose proof (si_gid _ _ _ _ _ _ _ I) as G. pose proof (room_le (dload es) D R st) as UT. pose proof (si_total _ _ _ _ _ _ _ I) as TT.
  destruct (C57_fresh_ids_any_metadata J JO _ _ A i io d' j H ltac:(lia) (proj1 G) ltac:(unfold gid in G; lia) K E) as (Q1 & Q2 & A' & H' & Q3 & Q4).
  split; [exact Q1|]. split; [exact Q2|]. split.
  - intros id Ii Ij. rewrite Forall_forall in Q3. apply Q3 in Ii. rewrite (si_jobs _ _ _ _ _ _ _ I) in Ij. pose proof (ds_ids _ _ _ _ (si_state _ _ _ _ _ _ _ I)) as [_ F]. rewrite Forall_forall in F. apply F in Ij. lia.
  - exists A, A'. split; [eapply sees_holds; [exact JO | exact H | lia]|]. split; [eapply sees_holds; [exact JO | exact H' | lia] | exact Q4].
Qed.
(** a request that is not accepted leaves the database as it was *)
Theorem C57_rejected_changes_nothing : forall J, json_ok J -> forall d0 es i io, history_ok d0 (es ++ [DCreate i io]) ->
  let y := after_history J d0 es in (forall j, snd (CreateSchema J (y_db y) i io) <> Ok j) -> fst (CreateSchema J (y_db y) i io) = y_db y.
Proof.
  intros J JO d0 es i io (H1 & H2 & H3 & H4) y E. apply Forall_app in H3. destruct H3 as [H3 H5]. inversion H5 as [|? ? K _]; subst. rewrite load_app in H4. cbn [dload fold_right] in H4. fold (dload es) in H4.
  pose proof (weight_nonneg (DCreate i io)) as W0. assert (W : dweight (DCreate i io) = reserve i + 1) by (unfold dweight, reserve; lia). assert (R0 : 2 <= reserve i) by (unfold reserve, llen; destruct (cs_indices i); lia).
  destruct (hist_inv J JO d0 es) as (D & R & st & A & I); [repeat split; try assumption; try apply H1; lia|]. fold y in I.
  pose proof (si_holds _ _ _ _ _ _ _ I) as H. pose proof (si_gid _ _ _ _ _ _ _ I) as G. pose proof (room_le (dload es) D R st) as UT. pose proof (si_total _ _ _ _ _ _ _ I) as TT.
  destruct (create_cases J JO _ _ A i io H ltac:(lia) (proj1 G) ltac:(lia) K) as [(e & X)|[X|(j' & x & d1 & NJ & X & H')]]; rewrite X in *; cbn [fst snd] in *; try reflexivity. exfalso. exact (E j' eq_refl).
Qed.
(** a valid request for a free name, without indices, is accepted while at most 100 jobs wait *)
Theorem C57_accepts : forall J, json_ok J -> forall d0 es i, history_ok d0 (es ++ [DCreate i false]) ->
  let y := after_history J d0 es in ValidateCreateSchema i = None -> (forall cn is, In cn (cs_colls i) -> mget (cs_indices i) cn = Some is -> is = []) ->
  (exists q, run_view (y_db y) (mexec J (MQueueLen DefaultJobList)) = Ok (VInt q) /\ q <= 100) ->
  (forall l x, run_view (y_db y) (mexec J MListDBs) = Ok (VDbs l) -> In x l -> di_name x <> cs_db i) ->
  exists d' j, CreateSchema J (y_db y) i false = (d', Ok j).
Proof.
  intros J JO d0 es i (H1 & H2 & H3 & H4) y V NI (q & Q & Q100) N. apply Forall_app in H3. destruct H3 as [H3 H5]. inversion H5 as [|? ? K _]; subst. rewrite load_app in H4. cbn [dload fold_right] in H4. fold (dload es) in H4.
  pose proof (weight_nonneg (DCreate i false)) as W0. destruct (hist_inv J JO d0 es) as (D & R & st & A & I); [repeat split; try assumption; try apply H1; lia|]. fold y in I.
  pose proof (sinv_sees J JO _ _ _ _ _ _ I ltac:(lia)) as SE.
  destruct (SE (MQueueLen DefaultJobList) eq_refl Logic.I) as (r & [-> _] & X). rewrite Q in X. destruct (SE MListDBs eq_refl Logic.I) as (r2 & [(l & -> & L1 & L2) _] & X2).
  destruct (create_accepted J JO _ _ _ _ _ _ i I K) as (j & x & A' & _ & E & _); try assumption.
  - lia.
  - unfold maxJobsInQueue. assert (q = Z.of_nat (length (m_queue A DefaultJobList))) by (injection X as ->; reflexivity). rewrite (ds_queue _ _ _ _ (si_state _ _ _ _ _ _ _ I)) in H. unfold llen. destruct R; cbn [length] in *; lia.
  - intros Ix. apply in_map_iff in Ix. destruct Ix as (z & Ez & Iz). apply (N l (pub_di z) X2); [|exact Ez]. apply L2. apply (ef_db _ _ (ds_effects _ _ _ _ (si_state _ _ _ _ _ _ _ I))). exists z. auto.
  - destruct (CreateSchema J (y_db y) i false) as [d' r']. cbn [snd] in E. subst r'. eauto.
Qed.

(** * C58 *)
(** an index on a requested collection makes CreateSchema panic: every such input, on every metadata *)
Theorem C58_create_with_index_panics_refuted : forall J, json_ok J -> forall n d A i io, holds J n d A -> n + 1 < two63 -> 0 <= somez (m_gid A) ->
  somez (m_gid A) + dweight (DCreate i io) < two63 -> ValidateCreateSchema i = None -> Z.of_nat (length (m_queue A DefaultJobList)) <= 100 ->
  (forall id x, m_db A id = Some x -> di_name x <> cs_db i) -> (exists cn is, In cn (cs_colls i) /\ mget (cs_indices i) cn = Some is /\ is <> []) ->
  CreateSchema J d i io = (d, Panic).
Proof.
  intros J JO n d A i io H L G0 G1 V Q N X. assert (W : dweight (DCreate i io) = reserve i + 1) by (unfold dweight, reserve; lia). eapply CreateSchema_panics; try eassumption; [unfold gid; lia|]. intros (id & x & E & En). exact (N id x E En).
Qed.

(** * C59 *)
(** after any history the accepted jobs are those finished, [D], then those still waiting, [R]: the metadata holds
    the effects of the finished jobs (and of the first waiting one if its effects are committed), each once and in order *)
Theorem C59_exactly_once : forall J, json_ok J -> forall d0 es, history_ok d0 es -> let y := after_history J d0 es in
  exists D R st A, y_jobs y = D ++ R /\ dstate D R st A /\ sees J (y_db y) A.
Proof.
  intros J JO d0 es H y. destruct (hist_inv J JO d0 es H) as (D & R & st & A & I). exists D, R, st, A.
  split; [exact (si_jobs _ _ _ _ _ _ _ I)|]. split; [exact (si_state _ _ _ _ _ _ _ I) | eapply sinv_sees; [exact JO | exact I | apply H]].
Qed.
(** as many databases as schema versions, with different names, each asked for by an accepted job *)
Theorem C59_version_counts : forall J, json_ok J -> forall d0 es, history_ok d0 es -> let y := after_history J d0 es in
  exists l, run_view (y_db y) (mexec J MListDBs) = Ok (VDbs l) /\ run_view (y_db y) (mexec J MGetVersion) = Ok (VInt (Z.of_nat (length l))) /\
    NoDup (map di_name l) /\ forall x, In x l -> exists j x0, In j (y_jobs y) /\ j_arg j = ArgDB x0 /\ x = pub_di x0.
Proof.
  intros J JO d0 es H y. destruct (hist_inv J JO d0 es H) as (D & R & st & A & I). fold y in I. pose proof (sinv_sees J JO _ _ _ _ _ _ I (proj2 (proj2 (proj2 H)))) as SE.
  destruct (SE MListDBs eq_refl Logic.I) as (r & [(l & -> & L1 & L2) _] & X). destruct (SE MGetVersion eq_refl Logic.I) as (r2 & [-> _] & X2). exists l. split; [exact X|].
  pose proof (ds_effects _ _ _ _ (si_state _ _ _ _ _ _ _ I)) as EF. pose proof (ds_names _ _ _ _ (si_state _ _ _ _ _ _ _ I)) as NN. set (ds := dbs_of (applied D R st)) in *.
  assert (Inl : forall x, In x l <-> exists z, In z ds /\ x = pub_di z).
  { intros x. rewrite L2, (ef_db _ _ EF). split; [intros (z & Iz & _ & ->); eauto | intros (z & Iz & ->); exists z; auto]. }
  assert (Pm : Permutation l (map pub_di ds)).
  { apply NoDup_Permutation; [eapply NoDup_map_inv; exact L1 | | intros x; rewrite Inl, in_map_iff; split; intros (z & Z1 & Z2); eauto].
    apply (NoDup_map_inv di_name). rewrite map_map. exact NN. }
  split; [|split].
  - rewrite X2, (ef_ver _ _ EF), (Permutation_length Pm), map_length. unfold ds. rewrite (dbs_len _ _ EF). reflexivity.
  - eapply Permutation_NoDup; [apply Permutation_map, Permutation_sym; exact Pm|]. rewrite map_map. exact NN.
  - intros x Ix. apply Inl in Ix. destruct Ix as (z & Iz & ->). apply in_flat_map in Iz. destruct Iz as (j & Ij & Xj). exists j, z. split; [rewrite (si_jobs _ _ _ _ _ _ _ I); apply applied_in with (st := st); exact Ij|].
    destruct (j_arg j); cbn in Xj; try destruct Xj as [Xj|[]]; try contradiction. split; congruence.
Qed.
(** what a round of waiting ends with, on any metadata: the call returns only once its job is in the history as synced. A
    job that ended with an error cannot be read back, so its caller keeps waiting (the branch returning the job's error
    is never taken); one that ended in another state makes the call panic *)
Theorem C59_poll_meaning : forall J, json_ok J -> forall n d A id, holds J n d A -> n < two63 -> is_i64 id ->
  (forall io, poll J d id io = Waiting \/ poll J d id io = poll J d id false) /\
  poll J d id false = match m_hist A id with
                      | Some j => if j_err j then Waiting else if jstate_eqb (j_state j) JSynced then Returned None else Panicked
                      | None => Waiting
                      end.
Proof.
  intros J JO n d A id H L I.
  assert (E : poll J d id false = match m_hist A id with Some j => if j_err j then Waiting else if jstate_eqb (j_state j) JSynced then Returned None else Panicked | None => Waiting end).
  { unfold poll. destruct (history_read J JO n d A id false H L I) as [X|[_ X]]; [|discriminate]. rewrite X. destruct (m_hist A id) as [j|]; [|reflexivity]. cbn [jread]. destruct (j_err j) eqn:Ej; [reflexivity|]. rewrite Ej. reflexivity. }
  split; [|exact E]. intros io. unfold poll. destruct (history_read J JO n d A id io H L I) as [X|[X _]]; rewrite X; [|left; reflexivity].
  right. destruct (history_read J JO n d A id false H L I) as [Y|[_ Y]]; [rewrite Y; reflexivity | discriminate].
Qed.
(** a request that is answered: its database and collections are there, public, and remain answered and there whatever follows *)
Theorem C59_answered_is_done : forall J, json_ok J -> forall d0 es es', history_ok d0 (es ++ es') -> forall j, In j (y_jobs (after_history J d0 es)) ->
  poll J (y_db (after_history J d0 es)) (j_id j) false = Returned None ->
  let y' := after_history J d0 (es ++ es') in
  poll J (y_db y') (j_id j) false = Returned None /\
  exists x, j_arg j = ArgDB x /\ run_view (y_db y') (mexec J (MGetDB (di_id x))) = Ok (VDb (pub_di x)) /\
    (forall c, In c (vals (di_colls x)) -> run_view (y_db y') (mexec J (MGetColl (di_id x) (ci_id c))) = Ok (VColl (pub_ci c))) /\
    (exists l, run_view (y_db y') (mexec J (MListColls (di_id x))) = Ok (VColls l) /\ Permutation l (map pub_ci (vals (di_colls x)))).
Proof.
  intros J JO d0 es es' (H1 & H2 & H3 & H4) j Ij Pj y'. apply Forall_app in H3. destruct H3 as [H3 H5]. rewrite load_app in H4. pose proof (load_nonneg es') as L1. pose proof (load_nonneg es) as L0.
  destruct (hist_inv J JO d0 es) as (D & R & st & A & I); [repeat split; try assumption; try apply H1; lia|].
  assert (ID : In j D).
  { rewrite (si_jobs _ _ _ _ _ _ _ I) in Ij. apply in_app_iff in Ij. destruct Ij as [Ij|Ij]; [exact Ij|]. rewrite (pending_waits J JO _ _ _ _ _ _ j false I ltac:(lia) Ij) in Pj. discriminate. }
  destruct (run_inv J JO es' _ _ _ _ _ _ I H5 H4) as (D' & R' & st' & A' & I' & (l & ED)). assert (Y : y' = drun J (after_history J d0 es) es') by (unfold y', after_history, drun; rewrite fold_left_app; reflexivity).
  rewrite <- Y in I'. assert (ID' : In j D') by (rewrite ED; apply in_or_app; auto). split; [eapply finished_returns; [exact JO | exact I' | lia | exact ID']|].
  pose proof (sinv_sees J JO _ _ _ _ _ _ I' ltac:(lia)) as SE. pose proof (ds_effects _ _ _ _ (si_state _ _ _ _ _ _ _ I')) as EF.
  assert (IA : In j (applied D' R' st')) by (unfold applied; destruct st'; auto; destruct R'; auto; apply in_or_app; auto).
  destruct (ef_create _ _ EF j IA) as (Et & x & Ea). exists x. split; [exact Ea|]. assert (Ix : In x (dbs_of (applied D' R' st'))) by (apply in_flat_map; exists j; split; [exact IA | rewrite Ea; left; reflexivity]).
  assert (Db : m_db A' (di_id x) = Some (pub_di x)) by (apply (ef_db _ _ EF); eauto).
  assert (Wj : wf_di x).
  { pose proof (si_ok _ _ _ _ _ _ _ I') as F. rewrite Forall_forall in F. destruct (F j) as [W _]; [apply in_or_app; auto|]. pose proof (proj2 (proj2 (proj2 W))) as Wa. rewrite Ea in Wa. exact Wa. }
  assert (ND : NoDup (coll_ids x)).
  { pose proof (ds_ids _ _ _ _ (si_state _ _ _ _ _ _ _ I')) as [N _]. apply in_split in ID'. destruct ID' as (l1 & l2 & EDD). rewrite EDD in N. rewrite <- app_assoc in N. cbn [app] in N. eapply fresh_head; [exact N | exact Ea]. }
  assert (CO : forall c, In c (vals (di_colls x)) -> m_coll A' (di_id x) (ci_id c) = Some (pub_ci c)) by (intros c Ic; apply (ef_coll _ _ EF); exists x, c; auto).
  pose proof (wf_vals x Wj) as WV. split; [|split].
  - destruct (SE (MGetDB (di_id x)) eq_refl (proj1 Wj)) as (r & [-> _] & X). rewrite X, Db. reflexivity.
  - intros c Ic. rewrite Forall_forall in WV. destruct (SE (MGetColl (di_id x) (ci_id c)) eq_refl (conj (proj1 Wj) (proj1 (WV c Ic)))) as (r & [-> _] & X). rewrite X. unfold exists_db. rewrite Db, (CO c Ic). reflexivity.
  - destruct (SE (MListColls (di_id x)) eq_refl (proj1 Wj)) as (r & [Xl _] & X). unfold exists_db in Xl. rewrite Db in Xl. destruct Xl as (ll & -> & LL1 & LL2). exists ll. split; [exact X|].
    apply NoDup_Permutation; [eapply NoDup_map_inv; exact LL1 | apply (NoDup_map_inv ci_id); rewrite map_map; exact ND|]. intros c. rewrite LL2, in_map_iff. split.
    + intros Y0. apply (ef_coll _ _ EF) in Y0. destruct Y0 as (x' & c0 & Ix' & Ic0 & Ei & _ & ->). exists c0. split; [reflexivity|]. replace x with x'; [exact Ic0|].
      assert (Z1 : Some (pub_di x') = Some (pub_di x)) by (rewrite <- Db; symmetry; apply (ef_db _ _ EF); exists x'; auto).
      pose proof (ds_names _ _ _ _ (si_state _ _ _ _ _ _ _ I')) as NN. assert (En : di_name x' = di_name x) by (injection Z1; auto). clear - NN Ix Ix' En.
      induction (dbs_of (applied D' R' st')) as [|a r IH]; [destruct Ix|]. cbn [map] in NN. inversion NN as [|? ? N1 N2]; subst. destruct Ix as [->|Ix], Ix' as [->|Ix']; [reflexivity | | |apply IH; assumption].
      * exfalso. apply N1. rewrite <- En. apply in_map. exact Ix'.
      * exfalso. apply N1. rewrite En. apply in_map. exact Ix.
    + intros (c0 & <- & Ic0). apply (CO c0 Ic0).
Qed.
(** when the accepted jobs create schemas with different names, two committed iterations per job answer every request *)
Theorem C59_completes : forall J, json_ok J -> forall d0 es os, history_ok d0 es -> let y := after_history J d0 es in
  (forall j, In j (y_jobs y) -> exists x, j_arg j = ArgDB x) -> NoDup (map di_name (dbs_of (y_jobs y))) ->
  Forall orders_are os -> (2 * length (y_jobs y) <= length os)%nat ->
  let y' := drun J y (map (fun o => DWork o false) os) in
  forall j, In j (y_jobs y) -> poll J (y_db y') (j_id j) false = Returned None.
Proof.
  intros J JO d0 es os H y AC ND F Lo y' j Ij. destruct (hist_inv J JO d0 es H) as (D & R & st & A & I). fold y in I. assert (L : dload es < two63) by apply H.
  pose proof (si_jobs _ _ _ _ _ _ _ I) as EJ. assert (AL : all_create (D ++ R)) by (rewrite <- EJ; split; assumption).
  destruct (progress_run J JO os _ _ _ _ _ _ I F L AL (good_status J _ _ _ _ _ _ I AL)) as (D' & A' & I' & ED).
  - rewrite EJ, app_length in Lo. unfold steps_left. destruct st; lia.
  - eapply finished_returns; [exact JO | exact I' | exact L | rewrite ED, <- EJ; exact Ij].
Qed.

(** * C60 *)
Definition ident : orders := Orders (fun l => l) (fun l => l).
Lemma ident_ok : orders_are ident.
Proof. intros l. split; apply Permutation_refl. Qed.
Definition bare (name : bytes) (colls : list bytes) : CSI := MkCSI name colls None.
(** two requests for the same database and one for another, with three worker iterations in between *)
Definition clash (a b : bytes) : list dev := [DCreate (bare a []) false; DCreate (bare a []) false; DWork ident false; DWork ident false; DWork ident false; DCreate (bare b []) false].
Lemma bare_valid a cs : a <> [] -> Forall (fun c => c <> []) cs -> ValidateCreateSchema (bare a cs) = None.
Proof.
  intros N F. unfold ValidateCreateSchema. cbn [bare cs_db cs_colls cs_indices]. destruct a; [congruence|]. cbn [isnil]. induction F as [|c cs X F IH]; [reflexivity|]. cbn [first_err]. destruct c; [congruence|]. exact IH.
Qed.
Lemma bare_plain a cs : no_index (bare a cs).
Proof. intros cn is _ X. discriminate. Qed.
Lemma fold_step J y e es : drun J y (e :: es) = drun J (dstep J y e) es.
Proof. reflexivity. Qed.
(** the second fails, and then neither it nor the third is ever answered, whatever happens next *)
Theorem C60_failed_job_blocks_refuted : forall J, json_ok J -> forall d0 a b, db_ok d0 -> no_meta d0 -> a <> [] -> b <> [] -> a <> b -> utf8 a = true -> utf8 b = true ->
  exists j1 j2 j3, y_jobs (after_history J d0 (clash a b)) = [j1; j2; j3] /\ requested (bare a []) j1 /\ requested (bare a []) j2 /\ requested (bare b []) j3 /\
  forall es, Forall dev_ok es -> dload (clash a b) + dload es < two63 ->
  let y := after_history J d0 (clash a b ++ es) in
  poll J (y_db y) (j_id j1) false = Returned None /\ (forall io, poll J (y_db y) (j_id j2) io = Waiting) /\ (forall io, poll J (y_db y) (j_id j3) io = Waiting).
Proof.
  intros J JO d0 a b HD HN Na Nb Nab Ua Ub.
  assert (Ka : dev_ok (DCreate (bare a []) false)) by (split; [exact Ua | constructor]). assert (Kb : dev_ok (DCreate (bare b []) false)) by (split; [exact Ub | constructor]).
  assert (W : forall x, dweight (DCreate (bare x []) false) = 3) by reflexivity. assert (B : two63 > 100) by (rewrite two63_val; lia).
  unfold after_history, clash. rewrite !fold_step.
  pose proof (start_inv J d0 (empty_holds J d0 HD HN)) as I0. set (y0 := dstart d0) in *.
  destruct (create_accepted J JO _ _ _ _ _ _ (bare a []) I0 Ka) as (j1 & x1 & A1 & N1 & _ & I1); [rewrite W; lia | apply bare_valid; [exact Na | constructor] | apply bare_plain | unfold llen; cbn; unfold maxJobsInQueue; lia | intros []|].
  set (y1 := dstep J y0 _) in *. cbn [app] in I1.
  destruct (create_accepted J JO _ _ _ _ _ _ (bare a []) I1 Ka) as (j2 & x2 & A2 & N2 & _ & I2); [rewrite !W; lia | apply bare_valid; [exact Na | constructor] | apply bare_plain | unfold llen; cbn; unfold maxJobsInQueue; lia | intros []|].
  set (y2 := dstep J y1 _) in *. cbn [app] in I2. rewrite !W in I2.
  assert (Ea1 : j_arg j1 = ArgDB x1) by (rewrite (ns_job _ _ _ _ _ N1); reflexivity). assert (Ea2 : j_arg j2 = ArgDB x2) by (rewrite (ns_job _ _ _ _ _ N2); reflexivity).
  assert (En1 : di_name x1 = a) by apply N1. assert (En2 : di_name x2 = a) by apply N2.
  destruct (work_inv J JO _ _ _ _ _ _ ident false I2 ident_ok ltac:(lia)) as (D3 & R3 & st3 & A3 & I3 & [W3|(X & _)]); [|discriminate].
  inversion W3 as [|? ? ? ? X1 X2| |? ? ? ? X1 X2| |? ? ? ? ? X1 X2]; subst; try (cbn in X2; destruct X2; fail); [|congruence]. clear W3 X1 X2. set (y3 := dstep J y2 _) in *.
  destruct (work_inv J JO _ _ _ _ _ _ ident false I3 ident_ok ltac:(lia)) as (D4 & R4 & st4 & A4 & I4 & [W4|(X & _)]); [|discriminate].
  inversion W4 as [| | | | |? ? ? ? ? X1 X2]; subst; [|destruct X2; discriminate]. clear W4. set (y4 := dstep J y3 _) in *. cbn [app] in I4.
  assert (D1 : dbs_of [j1] = [x1]) by (apply dbs_one; exact Ea1).
  destruct (work_inv J JO _ _ _ _ _ _ ident false I4 ident_ok ltac:(lia)) as (D5 & R5 & st5 & A5 & I5 & [W5|(X & _)]); [|discriminate].
  inversion W5 as [|? ? ? d5 X1 X2| |? ? ? d5 X1 X2| |? ? ? ? ? X1 X2]; subst; [exfalso; apply X2; rewrite D1; assert (E5 : d5 = x2) by congruence; rewrite E5; left; congruence | |congruence]. clear W5 X1 X2. set (y5 := dstep J y4 _) in *.
  destruct (create_accepted J JO _ _ _ _ _ _ (bare b []) I5 Kb) as (j3 & x3 & A6 & N3 & _ & I6); [rewrite W; lia | apply bare_valid; [exact Nb | constructor] | apply bare_plain | unfold llen; cbn; unfold maxJobsInQueue; lia | cbn [applied]; rewrite D1; intros [X|[]]; cbn [bare cs_db] in X; congruence|].
  cbn [app] in I6. rewrite W in I6. set (y6 := dstep J y5 _) in *. exists j1, j2, j3. cbn [drun fold_left]. split; [exact (si_jobs _ _ _ _ _ _ _ I6)|].
  split; [eapply new_requested; exact N1|]. split; [eapply new_requested; exact N2|]. split; [eapply new_requested; exact N3|].
  intros es F L. assert (L9 : 9 + dload es < two63) by exact L. clear L.
  destruct (wedge_run J JO es _ _ _ _ _ _ (or_introl eq_refl) I6 F) as (R7 & A7 & I7 & (l & E7)); [lia|].
  unfold after_history, clash, drun. rewrite fold_left_app. fold (drun J y6 es).
  change (fold_left (dstep J) es _) with (drun J y6 es). cbv zeta.
  split; [eapply finished_returns; [exact JO | exact I7 | lia | left; reflexivity]|].
  split; intros io; (eapply pending_waits; [exact JO | exact I7 | lia|]; rewrite E7; cbn [app In]; tauto).
Qed.
(** what a request for the index [i] cannot be served with: no such database, no such collection, or the index is there *)
Definition hopeless (A : mst) (i : IndexInfo) (rd : IndexInfoRedundant) : Prop :=
  (forall id x, m_db A id = Some x -> di_name x <> ir_db rd) \/
  exists x, m_db A (di_id x) = Some x /\ di_name x = ir_db rd /\ (forall id y, m_db A id = Some y -> di_name y = ir_db rd -> id = di_id x) /\
    (mget (di_colls x) (ir_collection rd) = None \/ exists c k, mget (di_colls x) (ir_collection rd) = Some c /\ mget (ci_indices c) (ii_name i) = Some k).
(** an index job that cannot succeed is removed by the next committed iteration, so the following job is reached;
    missing: its requester is not told (it waits for ever), and a create-schema job that fails does block (above) *)
Theorem C60_failed_index_job_removed_partial : forall J, json_ok J -> forall n d A j i rd l o v, holds J n d A -> n + 1 < two63 ->
  m_queue A DefaultJobList = j :: l -> j = MkJob (j_id j) ActionAddIndex JNone false 0 (ArgIndex i) Absent -> ii_red i = Some rd -> hopeless A i rd ->
  let d' := e_db (iteration J o v d false) in
  exists A', sees J d' A' /\ m_queue A' DefaultJobList = l /\ m_ver A' = m_ver A /\ m_db A' = m_db A /\ m_coll A' = m_coll A /\ m_diff A' = m_diff A /\ m_gid A' = m_gid A /\
    (forall id, id <> j_id j -> m_hist A' id = m_hist A id) /\ forall io, poll J d' (j_id j) io = Waiting.
Proof.
  intros J JO n d A j i rd l o v H L Q Ej Er X d'.
  assert (Ea : j_arg j = ArgIndex i) by (rewrite Ej; reflexivity). assert (Et : j_type j = ActionAddIndex) by (rewrite Ej; reflexivity).
  assert (T : tries j) by (rewrite Ej; split; [reflexivity | left; reflexivity]). destruct (started_same j) as (S1 & S2 & S3 & S4 & S5 & S6).
  pose proof (holds_wf_queue J n d A DefaultJobList H) as WQ. rewrite Q in WQ. apply Forall_inv in WQ. rename WQ into Wj.
  assert (M : mdo J 0 A (onAddIndex J (started j)) (Ok (JOut (started j) true true [])) A).
  { destruct X as [X|(x & X1 & X2 & X3 & [X4|(c & k & X4 & X5)])].
    - apply onAdd_no_db with (i := i) (rd := rd); [exact JO | rewrite S1; exact Ea | exact Er|]. intros (id & x & E & En). exact (X id x E En).
    - assert (X3' : forall id y, m_db A id = Some y -> di_name y = ir_db rd -> y = x) by (intros id y Y1 Y2; rewrite (X3 id y Y1 Y2) in Y1; congruence). apply onAdd_no_coll with (i := i) (rd := rd) (x := x); [exact JO | rewrite S1; exact Ea | exact Er | split; [exact X1|]; split; [exact X2 | exact X3'] | exact X4].
    - assert (X3' : forall id y, m_db A id = Some y -> di_name y = ir_db rd -> y = x) by (intros id y Y1 Y2; rewrite (X3 id y Y1 Y2) in Y1; congruence). apply onAdd_exists with (i := i) (rd := rd) (x := x) (c := c) (k := k); [exact JO | | rewrite S3, Ej; reflexivity | exact X5].
      split; [rewrite S2; exact Et | rewrite S1; exact Ea | exact Er | split; [exact X1|]; split; [exact X2 | exact X3'] | exact X4]. }
  pose proof (iter_fail_now J JO A o v j l Q T Wj ltac:(rewrite Ej; reflexivity) Et M) as I.
  pose proof (iteration_spec J n d A o v false 1 _ _ Z.le_0_1 H L I) as S. cbn [i_res i_vars i_nojob i_after] in S. destruct S as [(d1 & E & H')|(Y & _)]; [|discriminate].
  unfold d'. rewrite E. cbn [e_db]. eexists. split; [eapply sees_holds; [exact JO | exact H' | exact L]|].
  cbn [with_hist with_queue m_queue m_ver m_db m_coll m_diff m_gid m_hist qeqb]. split; [reflexivity|]. split; [reflexivity|]. split; [reflexivity|]. split; [reflexivity|]. split; [reflexivity|]. split; [reflexivity|]. split.
  - intros id N. unfold zupd. destruct (Z.eqb_spec id (j_id j)); [contradiction | reflexivity].
  - intros io. eapply poll_waits; [exact JO | exact H' | exact L | apply Wj|]. cbn [with_hist m_hist]. unfold zupd. rewrite Z.eqb_refl. intros j' Y. injection Y as <-. reflexivity.
Qed.

(** * C61 *)
(** the worker alone: iterations and crashes *)
Definition worker_event (e : dev) : Prop := match e with DWork _ _ | DCrash => True | _ => False end.
Definition iterations (es : list dev) : nat := length (filter (fun e => match e with DWork _ _ => true | _ => false end) es).
Definition committing (es : list dev) : nat := length (filter (fun e => match e with DWork _ false => true | _ => false end) es).
Lemma stages_run J (JO : json_ok J) A x c j i l : index_request A x c j i l -> 0 <= ver A -> ver A + 4 < two63 ->
  forall es n y k B, Forall worker_event es -> holds J n (y_db y) B -> n + 2 * Z.of_nat (iterations es) < two63 -> at_stage A x c j i l k B ->
  exists k' B' n', (k + committing es <= k' <= k + iterations es)%nat /\ n' < two63 /\ holds J n' (y_db (drun J y es)) B' /\ at_stage A x c j i l k' B'.
Proof.
  intros RQ V0 V1. induction es as [|e es IH]; intros n y k B F H L AS.
  - exists k, B, n. cbn. split; [lia|]. cbn in L. split; [lia|]. auto.
  - inversion F as [|? ? F1 F2]; subst. rewrite fold_step. destruct e as [?|?|o io| |?|?|?]; try contradiction.
    + assert (E : iterations (DWork o io :: es) = S (iterations es)) by reflexivity. rewrite E in *.
      destruct (stage_step J JO A x c j i l RQ k B n (y_db y) o (y_vars y) AS H V0 V1) as (B1 & AS1 & M).
      pose proof (iteration_spec J n (y_db y) B o (y_vars y) io 2 _ _ ltac:(lia) H ltac:(lia) M) as S. cbn [i_res i_vars i_nojob i_after] in S. cbn [dstep].
      destruct S as [(d1 & Ed & H1)|(Hio & Ed)]; rewrite Ed; cbn [e_db].
      * destruct (IH (n + 2) (Sys d1 (next_vars (IEnd d1 vars0 false [] (Ok tt))) (y_jobs y)) (S k) B1 F2 H1 ltac:(lia) AS1) as (k' & B' & n' & K1 & K2 & K3 & K4).
        exists k', B', n'. split; [|auto]. destruct io; unfold committing in *; cbn [filter length]; lia.
      * subst io. destruct (IH n (Sys (y_db y) (next_vars (IEnd (y_db y) vars0 true [] (Err EIO))) (y_jobs y)) k B F2 H ltac:(lia) AS) as (k' & B' & n' & K1 & K2 & K3 & K4).
        exists k', B', n'. split; [|auto]. unfold committing in *. cbn [filter]. lia.
    + cbn [dstep]. destruct (IH n (Sys (y_db y) vars0 (y_jobs y)) k B F2 H L AS) as (k' & B' & n' & K1 & K2 & K3 & K4). exists k', B', n'. auto.
Qed.
(** whatever the iterations, failed commits and crashes, the index has made k steps (never fewer than the committed
    iterations): delete only, write only, write reorganization, one schema version and one diff for each.
    Missing: it never becomes public, see the next theorem *)
Theorem C61_forward_partial : forall J, json_ok J -> forall n y A x c j i l es, holds J n (y_db y) A -> index_request A x c j i l ->
  0 <= somez (m_ver A) -> somez (m_ver A) + 4 < two63 -> Forall worker_event es -> n + 2 * Z.of_nat (iterations es) < two63 ->
  exists k B, (committing es <= k <= iterations es)%nat /\ at_stage A x c j i l k B /\ sees J (y_db (drun J y es)) B.
Proof.
  intros J JO n y A x c j i l es H RQ V0 V1 F L. destruct (stages_run J JO A x c j i l RQ V0 V1 es n y 0 A F H L (start_stage A x c j i l RQ)) as (k & B & n' & K1 & K2 & K3 & K4).
  exists k, B. split; [lia|]. split; [exact K4 | eapply sees_holds; [exact JO | exact K3 | exact K2]].
Qed.
(** however often the worker runs, the request stays in the queue in front of the others and is never answered *)
Theorem C61_never_finishes_refuted : forall J, json_ok J -> forall n y A x c j i l es, holds J n (y_db y) A -> index_request A x c j i l ->
  0 <= somez (m_ver A) -> somez (m_ver A) + 4 < two63 -> Forall worker_event es -> n + 2 * Z.of_nat (iterations es) < two63 -> m_hist A (j_id j) = None ->
  let y' := drun J y es in (forall io, poll J (y_db y') (j_id j) io = Waiting) /\
  run_view (y_db y') (mexec J (MQueueLen DefaultJobList)) = Ok (VInt (Z.of_nat (length l) + 1)).
Proof.
  intros J JO n y A x c j i l es H RQ V0 V1 F L N y'. pose proof (holds_wf_queue J n (y_db y) A DefaultJobList H) as WQ. rewrite (ir_queue _ _ _ _ _ _ RQ) in WQ. apply Forall_inv in WQ. rename WQ into Wj.
  destruct (stages_run J JO A x c j i l RQ V0 V1 es n y 0 A F H L (start_stage A x c j i l RQ)) as (k & B & n' & K1 & K2 & K3 & K4). split.
  - intros io. eapply poll_waits; [exact JO | exact K3 | exact K2 | apply Wj|]. intros j' X. rewrite (as_hist _ _ _ _ _ _ _ _ K4), N in X. discriminate.
  - destruct (read_op J JO n' _ B (MQueueLen DefaultJobList) K3 K2 eq_refl Logic.I) as (r & [-> _] & E). fold y' in E. rewrite E. destruct (as_queue _ _ _ _ _ _ _ _ K4) as (h & Eq & _). rewrite Eq. cbn [length]. do 2 f_equal. lia.
Qed.
(** a schema with one collection, applied, and a request for an index on it *)
Definition indexed (a c ix : bytes) (cols : list bytes) : list dev :=
  [DCreate (bare a [c]) false; DWork ident false; DWork ident false; DIndex (MkAII a c (MkDIX ix cols false)) false; DWork ident false].
(** the index of a collection created through the API is never added: the job panics, and it blocks the queue for ever *)
Theorem C61_api_index_sticks_refuted : forall J, json_ok J -> forall d0 a c ix cols, db_ok d0 -> no_meta d0 -> a <> [] -> c <> [] -> utf8 a = true -> utf8 c = true -> utf8 ix = true -> utf8s cols ->
  exists j1 j2 i, y_jobs (after_history J d0 (indexed a c ix cols)) = [j1; j2] /\ requested (bare a [c]) j1 /\
  j_type j2 = ActionAddIndex /\ j_arg j2 = ArgIndex i /\ ii_name i = ix /\ ii_red i = Some (IIR c a 0) /\
  forall es, Forall dev_ok es -> dload (indexed a c ix cols) + dload es < two63 ->
  let y := after_history J d0 (indexed a c ix cols ++ es) in
  poll J (y_db y) (j_id j1) false = Returned None /\ (forall io, poll J (y_db y) (j_id j2) io = Waiting) /\
  forall j, In j (y_jobs y) -> j <> j1 -> forall io, poll J (y_db y) (j_id j) io = Waiting.
Proof.
  intros J JO d0 a c ix cols HD HN Na Nc Ua Uc Ux Ucs.
  assert (Ka : dev_ok (DCreate (bare a [c]) false)) by (split; [exact Ua | constructor; [exact Uc | constructor]]).
  assert (Ki : dev_ok (DIndex (MkAII a c (MkDIX ix cols false)) false)) by (split; [exact Ua|]; split; [exact Uc | split; [exact Ux | exact Ucs]]).
  assert (W : dweight (DCreate (bare a [c]) false) = 4) by reflexivity. assert (W' : dweight (DIndex (MkAII a c (MkDIX ix cols false)) false) = 3) by reflexivity. assert (B : two63 > 100) by (rewrite two63_val; lia).
  unfold after_history, indexed. rewrite !fold_step.
  pose proof (start_inv J d0 (empty_holds J d0 HD HN)) as I0. set (y0 := dstart d0) in *.
  destruct (create_accepted J JO _ _ _ _ _ _ (bare a [c]) I0 Ka) as (j1 & x1 & A1 & N1 & _ & I1); [rewrite W; lia | apply bare_valid; [exact Na | constructor; [exact Nc | constructor]] | apply bare_plain | unfold llen; cbn; unfold maxJobsInQueue; lia | intros []|].
  set (y1 := dstep J y0 _) in *. cbn [app] in I1. rewrite W in I1.
  assert (Ea1 : j_arg j1 = ArgDB x1) by (rewrite (ns_job _ _ _ _ _ N1); reflexivity). assert (En1 : di_name x1 = a) by apply N1.
  destruct (work_inv J JO _ _ _ _ _ _ ident false I1 ident_ok ltac:(lia)) as (D3 & R3 & st3 & A3 & I3 & [W3|(X & _)]); [|discriminate].
  inversion W3 as [|? ? ? d3 X1 X2| |? ? ? d3 X1 X2| |? ? ? i3 st0 X1 X2]; subst D3 R3 st3; [|cbn in X2; destruct X2|congruence]. clear W3 X1 X2. set (y3 := dstep J y1 _) in *.
  destruct (work_inv J JO _ _ _ _ _ _ ident false I3 ident_ok ltac:(lia)) as (D4 & R4 & st4 & A4 & I4 & [W4|(X & _)]); [|discriminate].
  inversion W4 as [| | | | |? ? ? i4 st0 X1 X2]; subst D4 R4 st4; [|destruct X2; congruence]. clear W4. set (y4 := dstep J y3 _) in *. cbn [app] in I4.
  assert (D1 : dbs_of [j1] = [x1]) by (apply dbs_one; exact Ea1).
  assert (Ec : exists c1, mget (di_colls x1) c = Some c1).
  { destruct (new_requested _ _ _ _ _ N1) as (_ & _ & x & m & Y1 & _ & _ & Y2 & Y3 & _). assert (x = x1) by congruence. subst x. rewrite Y2. apply Y3. left. reflexivity. }
  destruct Ec as (c1 & Ec).
  destruct (index_accepted J JO _ _ _ _ _ _ (MkAII a c (MkDIX ix cols false)) x1 c1 I4 Ki) as (j2 & A5 & Ej2 & _ & I5); [rewrite W'; lia | cbn [applied]; rewrite D1; left; reflexivity | exact En1 | exact Ec |].
  rewrite W' in I5. set (y5 := dstep J y4 _) in *. cbn [app] in I5.
  destruct (work_inv J JO _ _ _ _ _ _ ident false I5 ident_ok ltac:(lia)) as (D6 & R6 & st6 & A6 & I6 & [W6|(X & _)]); [|discriminate].
  inversion W6 as [|? ? ? d6 X1 X2| |? ? ? d6 X1 X2| |? ? ? i6 st7 X1 X2]; subst D6 R6 st6; [congruence|congruence|]. clear W6 X1 X2 i6. set (y6 := dstep J y5 _) in *.
  cbn [drun fold_left]. exists j1, j2, (index_arg (MkAII a c (MkDIX ix cols false)) (gid A4 + 1)). split; [exact (si_jobs _ _ _ _ _ _ _ I6)|]. split; [eapply new_requested; exact N1|]. split.
  { pose proof (si_ok _ _ _ _ _ _ _ I6) as F. rewrite Forall_forall in F. destruct (F j2) as (_ & [(d & Y)|(i' & Y)]); [right; left; reflexivity | | ]; unfold create_form, index_form in Y; destruct Y as [Y _]; rewrite Y in *; [discriminate Ej2 | reflexivity]. }
  split; [exact Ej2|]. split; [reflexivity|]. split; [reflexivity|].
  intros es F L. assert (L7 : 7 + dload es < two63) by exact L. clear L.
  destruct (wedge_run J JO es _ _ _ _ _ _ (or_intror eq_refl) I6 F) as (R7 & A7 & I7 & (l & E7)); [lia|].
  unfold after_history, indexed, drun. rewrite fold_left_app. change (fold_left (dstep J) es _) with (drun J y6 es). cbv zeta.
  split; [eapply finished_returns; [exact JO | exact I7 | lia | left; reflexivity]|].
  split; [intros io; eapply pending_waits; [exact JO | exact I7 | lia|]; rewrite E7; left; reflexivity|].
  intros jx Ij Nj io. eapply pending_waits; [exact JO | exact I7 | lia|]. rewrite (si_jobs _ _ _ _ _ _ _ I7) in Ij. destruct Ij as [Ij|Ij]; [congruence | exact Ij].
Qed.

(** * C71 *)
(** an index has a name and at least one column *)
Definition good_index (i : DIX) : Prop := dx_name i <> [] /\ dx_cols i <> [].
Lemma index_iff i : ValidateIndex i = None <-> good_index i.
Proof. unfold ValidateIndex, good_index. destruct (dx_name i), (dx_cols i); cbn [isnil]; split; try discriminate; try tauto; split; congruence. Qed.
Lemma first_err_iff {X} (f : X -> option err) l : first_err f l = None <-> forall a, In a l -> f a = None.
Proof.
  induction l as [|a l IH]; [split; [intros _ a [] | reflexivity]|]. cbn [first_err In]. destruct (f a) eqn:E.
  - split; [discriminate|]. intros H. rewrite (H a (or_introl eq_refl)) in E. discriminate.
  - rewrite IH. split; [intros H b [<-|Hb]; auto | auto].
Qed.
Lemma isnil_iff s : isnil s = true <-> s = [].
Proof. destruct s; cbn; split; congruence. Qed.
(** CreateSchema: the name of the schema, of every collection and every index is not empty, and every index has columns *)
Theorem C71_create_schema_iff : forall i, ValidateCreateSchema i = None <->
  cs_db i <> [] /\ (forall cn, In cn (cs_colls i) -> cn <> []) /\ (forall cn is ix, mget (cs_indices i) cn = Some is -> In ix is -> good_index ix).
Proof.
  intros i. unfold ValidateCreateSchema. destruct (isnil (cs_db i)) eqn:N.
  { apply isnil_iff in N. split; [discriminate | intros (X & _); contradiction]. }
  assert (Nn : cs_db i <> []) by (destruct (cs_db i); [discriminate | congruence]).
  assert (C : first_err (fun cn => if isnil cn then Some ECollEmpty else None) (cs_colls i) = None <-> forall cn, In cn (cs_colls i) -> cn <> []).
  { rewrite first_err_iff. split; intros H cn I; specialize (H cn I); destruct cn; cbn [isnil] in *; congruence. }
  destruct (first_err (fun cn => if isnil cn then Some ECollEmpty else None) (cs_colls i)) as [e|].
  { split; [discriminate|]. intros (_ & X & _). apply C in X. discriminate. }
  destruct (cs_indices i) as [m|].
  - rewrite first_err_iff. split.
    + intros H. split; [exact Nn|]. split; [apply C; reflexivity|]. intros cn is ix E I. cbn [mget] in E. apply get_in in E. specialize (H _ E). cbn [snd] in H. rewrite first_err_iff in H. apply index_iff, H, I.
    + intros (_ & _ & H) [cn is] E. cbn [snd]. apply first_err_iff. intros ix I. apply index_iff. apply (H cn is ix); [cbn [mget]; apply get_in; exact E | exact I].
  - split; [intros _|reflexivity]. split; [exact Nn|]. split; [apply C; reflexivity|]. intros cn is ix E. discriminate.
Qed.
Theorem C71_drop_schema_iff : forall db, ValidateDropSchema db = None <-> db <> [].
Proof. intros [|b db]; cbn; split; congruence. Qed.
Theorem C71_create_collection_iff : forall i, ValidateCreateCollection i = None <-> cc_db i <> [] /\ cc_coll i <> [] /\ forall ix, In ix (cc_indices i) -> good_index ix.
Proof.
  intros i. unfold ValidateCreateCollection. destruct (cc_db i); [cbn; split; [discriminate | intros (X & _); congruence]|]. destruct (cc_coll i); [cbn; split; [discriminate | intros (_ & X & _); congruence]|]. cbn [isnil].
  rewrite first_err_iff. split; [intros H; split; [discriminate|]; split; [discriminate|]; intros ix I; apply index_iff, H, I | intros (_ & _ & H) ix I; apply index_iff, H, I].
Qed.
Theorem C71_drop_collection_iff : forall db coll, ValidateDropCollection db coll = None <-> db <> [] /\ coll <> [].
Proof. intros [|b db] [|c coll]; cbn; split; try discriminate; try (intros [X Y]; congruence); split; congruence. Qed.
Theorem C71_add_index_iff : forall i, ValidateAddIndex i = None <-> ai_db i <> [] /\ ai_coll i <> [] /\ good_index (ai_index i).
Proof.
  intros i. unfold ValidateAddIndex. destruct (ai_db i); [cbn; split; [discriminate | intros (X & _); congruence]|]. destruct (ai_coll i); [cbn; split; [discriminate | intros (_ & X & _); congruence]|]. cbn [isnil].
  rewrite index_iff. split; [intros H; split; [discriminate|]; split; [discriminate | exact H] | intros (_ & _ & H); exact H].
Qed.
Theorem C71_drop_index_iff : forall db coll ix, ValidateDropIndex db coll ix = None <-> db <> [] /\ coll <> [] /\ ix <> [].
Proof. intros [|a db] [|b coll] [|c ix]; cbn; split; try discriminate; try (intros (X & Y & Z); congruence); intros _; repeat split; congruence. Qed.
(** a create-schema input that is not valid is rejected with the validation's error and nothing happens *)
Theorem C71_create_schema_checks : forall J d i io e, ValidateCreateSchema i = Some e -> CreateSchema J d i io = (d, Err e).
Proof. intros. apply CreateSchema_invalid. assumption. Qed.
(** AddIndex does not validate: an index without columns or without a name is enqueued on any public collection *)
Theorem C71_add_index_unchecked_refuted : forall J, json_ok J -> forall n d A x c i, holds J n d A -> n + 1 < two63 -> 0 <= somez (m_gid A) -> somez (m_gid A) + 2 < two63 -> dev_ok (DIndex i false) ->
  m_db A (di_id x) = Some x -> di_name x = ai_db i -> (forall id y, m_db A id = Some y -> di_name y = ai_db i -> id = di_id x) -> mget (di_colls x) (ai_coll i) = Some c -> mget (ci_indices c) (dx_name (ai_index i)) = None ->
  dx_cols (ai_index i) = [] \/ dx_name (ai_index i) = [] -> ValidateAddIndex i <> None /\
  exists d' j A', AddIndex J d i false = (d', Ok j) /\ holds J (n + 1) d' A' /\ only_enqueued A A' j.
Proof.
  intros J JO n d A x c i H L G0 G1 K X1 X2 X3 Ec En Bad. split.
  - rewrite C71_add_index_iff. intros (_ & _ & Y1 & Y2). destruct Bad; contradiction.
  - assert (Nm : named A (ai_db i) x) by (split; [exact X1|]; split; [exact X2 | intros id y Y1 Y2; rewrite (X3 id y Y1 Y2) in Y1; congruence]).
    pose proof (AddIndexTx_d J JO A i x c G0 G1 K Nm Ec En) as M. destruct (update_run J _ _ _ _ _ _ _ false Z.le_0_1 H L M) as [(_ & Y & _)|(d' & E & H')]; [discriminate|].
    exists d', (index_job i (gid A)). eexists. split; [exact E|]. split; [exact H'|]. unfold only_enqueued. cbn [with_queue with_gid m_queue m_gid m_ver m_boot m_diff m_db m_coll m_did m_hist m_start m_end qeqb somez].
    split; [reflexivity|]. split; [unfold gid; lia|]. repeat split.
Qed.

(** * Concrete cases meeting the hypotheses *)
Definition d00 : db := db_init 0 false.
Definition backwards : orders := Orders (fun l => rev l) (fun l => rev l).
(** a document being written *)
Definition a_doc : txn := Txn empty (set empty (str "doc") (Some (mk (str "x")))) true true [] [] 0 0 false.
(** two schemas, an unvalidated name, an iteration whose commit fails, crashes, a request for a name in use, a lease of
    document ids and its end, a document *)
Definition hd : list dev :=
  [ DCreate (bare (str "shop") [str "orders"; str "users"]) false; DWork ident true; DCrash; DWork backwards false; DDid 1 2 1000 false; DOther a_doc false; DCreate (bare (str "") []) false;
    DCreate (bare (str "shop") []) false; DCrash; DRelease 1 2 7 false; DCreate (bare (str "blog") [str "posts"]) false; DWork ident false; DCreate (bare (str "wiki") []) true ].
Lemma backwards_ok : orders_are backwards.
Proof. intros l. split; apply Permutation_sym, Permutation_rev. Qed.
Lemma a_doc_ok : dev_ok (DOther a_doc false).
Proof.
  intros k o G. unfold a_doc in G. cbn [t_pend] in G. rewrite get_set in G. destruct (bytes_eqb k (str "doc")) eqn:N; [|discriminate G].
  apply bytes_eqb_eq in N. subst k. reflexivity.
Qed.
Lemma bare_ok a cs io : utf8 a = true -> forallb utf8 cs = true -> dev_ok (DCreate (bare a cs) io).
Proof. intros H F. split; [exact H|]. apply Forall_forall. rewrite forallb_forall in F. exact F. Qed.
Lemma all_db (l : list Job) : forallb (fun j => match j_arg j with ArgDB _ => true | _ => false end) l = true -> forall j, In j l -> exists x, j_arg j = ArgDB x.
Proof. intros F j H. rewrite forallb_forall in F. specialize (F j H). destruct (j_arg j) as [x| |]; try discriminate. exists x. reflexivity. Qed.
Example C57_C59_nonvacuous : json_ok demo_json /\ history_ok d00 hd /\
  let y := after_history demo_json d00 hd in
  map (fun j => (j_id j, ids_of j)) (y_jobs y) = [(4, [4; 1; 2; 3]); (7, [7; 5; 6])] /\ existsb (bytes_eqb (str "doc")) (map fst (entries (d_kv (y_db y)))) = true /\
  poll demo_json (y_db y) 4 false = Returned None /\ poll demo_json (y_db y) 7 false = Waiting /\
  (forall j, In j (y_jobs y) -> exists x, j_arg j = ArgDB x) /\ NoDup (map di_name (dbs_of (y_jobs y))) /\
  snd (CreateSchema demo_json (y_db y) (bare (str "wiki") []) false) <> Err EIO.
Proof.
  split; [exact demo_json_ok|]. split.
  - split; [apply db_ok_init|]. split; [exact no_meta_init|]. split; [|vm_compute; reflexivity].
    unfold hd. repeat (apply Forall_cons || apply Forall_nil); try (apply bare_ok; reflexivity); try exact ident_ok; try exact backwards_ok; try exact a_doc_ok; try exact Logic.I; (split; [|split]); vm_compute; split; congruence.
  - cbv zeta. do 4 (split; [vm_compute; reflexivity|]).
    split; [|split; [|vm_compute; discriminate]].
    + apply all_db. vm_compute. reflexivity.
    + assert (X : map di_name (dbs_of (y_jobs (after_history demo_json d00 hd))) = [str "shop"; str "blog"]) by (vm_compute; reflexivity). rewrite X.
      constructor; [intros [X'|[]]; discriminate | constructor; [intros [] | constructor]].
Qed.
(** a collection with a non-nil, empty index map and a request for an index on it, made with the metadata calls *)
Definition ci1 : CollectionInfo := CI 2 (str "orders") (Some empty) [] Public.
Definition di1 : DBInfo := DI 1 (str "shop") (Some (set empty (str "orders") ci1)) [str "orders"] Public.
Definition ii1 : IndexInfo := II 3 (str "by_day") (Some (IIR (str "orders") (str "shop") 0)) [str "day"] true Absent.
Definition ji1 : Job := MkJob 4 ActionAddIndex JNone false 0 (ArgIndex ii1) Absent.
Definition ii2 : IndexInfo := II 3 (str "by_day") (Some (IIR (str "gone") (str "shop") 0)) [str "day"] true Absent.
Definition ji2 : Job := MkJob 4 ActionAddIndex JNone false 0 (ArgIndex ii2) Absent.
Definition setup (j : Job) : list mop := [MGenGlobalIDs 4; MCreateDB di1; MCreateColl 1 ci1; MEnqueue DefaultJobList j].
Ltac i64' := unfold is_i64, is_u8; rewrite ?two63_val; unfold di1, ci1, ii1, ji1, ii2, ji2, ActionAddIndex; cbn; lia.
Lemma wf_ci1 : wf_ci ci1.
Proof. split; [i64'|]. split; [reflexivity|]. split; [intros k a; discriminate | constructor]. Qed.
Lemma wf_di1 : wf_di di1.
Proof.
  split; [i64'|]. split; [reflexivity|]. split; [|constructor; [reflexivity | constructor]]. intros k a. cbn [di1 di_colls]. rewrite get_set. destruct (bytes_eqb k (str "orders")) eqn:E; [|discriminate].
  intros X. injection X as <-. apply bytes_eqb_eq in E. subst k. split; [reflexivity | exact wf_ci1].
Qed.
Lemma wf_ii_of s : utf8 s = true -> wf_ii (II 3 (str "by_day") (Some (IIR s (str "shop") 0)) [str "day"] true Absent).
Proof. intros U. split; [i64'|]. split; [reflexivity|]. split; [|constructor; [reflexivity | constructor]]. split; [exact U|]. split; [reflexivity | i64']. Qed.
Lemma wf_ji j : j = ji1 \/ j = ji2 -> wf_job j.
Proof. intros [-> | ->]; (split; [i64'|]; split; [i64'|]; split; [i64'|]; apply wf_ii_of; reflexivity). Qed.
Lemma setup_ref j rss A : mref_hist m_empty [MCommit (setup j)] rss A ->
  m_db A = zupd (fun _ => None) 1 (Some di1) /\ m_coll A 1 2 = Some ci1 /\ m_queue A DefaultJobList = [j] /\ m_ver A = None /\ m_gid A = Some 4 /\ forall id, m_hist A id = None.
Proof.
  intros M. inversion M; subst; clear M. match goal with H : mref_hist _ [] _ _ |- _ => inversion H; subst; clear H end. match goal with H : mref_batch _ _ _ _ |- _ => inversion H; subst; clear H end. unfold setup in *.
  repeat match goal with H : mref_run _ (_ :: _) _ _ |- _ => inversion H; subst; clear H | H : mref_run _ [] _ _ |- _ => inversion H; subst; clear H end.
  repeat match goal with H : mref _ _ _ _ |- _ => cbn in H; destruct H as [? ->] end. cbn. repeat split.
Qed.
Lemma setup_holds j : j = ji1 \/ j = ji2 -> exists n A, n < 100 /\ holds demo_json n (fst (mhexec demo_json d00 [MCommit (setup j)])) A /\
  m_db A = zupd (fun _ => None) 1 (Some di1) /\ m_coll A 1 2 = Some ci1 /\ m_queue A DefaultJobList = [j] /\ m_ver A = None /\ m_gid A = Some 4 /\ forall id, m_hist A id = None.
Proof.
  intros Hj. assert (K : db_ok d00) by apply db_ok_init.
  destruct (mhist_sim demo_json demo_json_ok [MCommit (setup j)] 0 d00 m_empty (empty_holds _ _ K no_meta_init)) as (A & M & H & _).
  - constructor; [|constructor]. cbn [mbatch_ok setup]. repeat (apply Forall_cons || apply Forall_nil); cbn [mok]; try i64'; [exact wf_di1 | split; [i64' | exact wf_ci1] | apply wf_ji; exact Hj].
  - rewrite two63_val. vm_compute. reflexivity.
  - exists (0 + mhcost [MCommit (setup j)]), A. split; [vm_compute; reflexivity|]. split; [exact H|].
    exact (setup_ref j _ A M).
Qed.
Lemma zupd_one {X} (x : X) k id y : zupd (fun _ => None) k (Some x) id = Some y -> id = k /\ y = x.
Proof. unfold zupd. destruct (Z.eqb_spec id k); [intros H; injection H as <-; auto | discriminate]. Qed.
Example C61_nonvacuous : let y := dstart (fst (mhexec demo_json d00 [MCommit (setup ji1)])) in let es := [DWork ident true; DWork ident false; DCrash; DWork ident false] in
  exists n A, holds demo_json n (y_db y) A /\ index_request A di1 ci1 ji1 ii1 [] /\ 0 <= somez (m_ver A) /\ somez (m_ver A) + 4 < two63 /\ Forall worker_event es /\ n + 2 * Z.of_nat (iterations es) < two63 /\ m_hist A (j_id ji1) = None.
Proof.
  cbv zeta. destruct (setup_holds ji1 (or_introl eq_refl)) as (n & A & Ln & H & Hd & Hc & Hq & Hv & Hg & Hh). exists n, A. split; [exact H|]. split.
  - split.
    + rewrite Hd. split; [reflexivity|]. intros id y E _. apply zupd_one in E. exact (proj1 E).
    + split; [reflexivity | exact Hc].
    + exists empty. split; reflexivity.
    + reflexivity.
    + exists 0. reflexivity.
    + exact Hq.
  - rewrite Hv, two63_val. cbn. split; [lia|]. split; [lia|]. split; [repeat constructor|]. split; [unfold iterations; cbn; lia | apply Hh].
Qed.
Example C60_partial_nonvacuous : let d := fst (mhexec demo_json d00 [MCommit (setup ji2)]) in
  exists n A, holds demo_json n d A /\ n + 1 < two63 /\ m_queue A DefaultJobList = [ji2] /\ ii_red ii2 = Some (IIR (str "gone") (str "shop") 0) /\ hopeless A ii2 (IIR (str "gone") (str "shop") 0).
Proof.
  cbv zeta. destruct (setup_holds ji2 (or_intror eq_refl)) as (n & A & Ln & H & Hd & Hc & Hq & Hv & Hg & Hh). exists n, A. split; [exact H|]. split; [rewrite two63_val; lia|]. split; [exact Hq|]. split; [reflexivity|].
  right. exists di1. rewrite Hd. split; [reflexivity|]. split; [reflexivity|]. split; [|left; reflexivity]. intros id y E _. apply zupd_one in E. exact (proj1 E).
Qed.
(** C58: an index on a requested collection; C71: an index without columns on an existing collection *)
Definition with_index : CSI := MkCSI (str "blog") [str "posts"] (Some (set empty (str "posts") [MkDIX (str "by_day") [str "day"] false])).
Definition no_cols : AII := MkAII (str "shop") (str "orders") (MkDIX (str "none") [] false).
Example C58_C71_nonvacuous : let d := fst (mhexec demo_json d00 [MCommit (setup ji1)]) in ValidateCreateSchema with_index = None /\
  (exists n A, holds demo_json n d A /\ n + 1 < two63 /\ 0 <= somez (m_gid A) /\ somez (m_gid A) + dweight (DCreate with_index false) < two63 /\
    Z.of_nat (length (m_queue A DefaultJobList)) <= 100 /\ (forall id x, m_db A id = Some x -> di_name x <> cs_db with_index) /\
    dev_ok (DIndex no_cols false) /\ m_db A (di_id di1) = Some di1 /\ (forall id y, m_db A id = Some y -> di_name y = ai_db no_cols -> id = di_id di1)) /\
  (exists cn is, In cn (cs_colls with_index) /\ mget (cs_indices with_index) cn = Some is /\ is <> []).
Proof.
  cbv zeta. split; [reflexivity|]. split.
  - destruct (setup_holds ji1 (or_introl eq_refl)) as (n & A & Ln & H & Hd & Hc & Hq & Hv & Hg & Hh). exists n, A. split; [exact H|]. rewrite Hg, Hq, Hd, two63_val. cbn [somez length]. split; [lia|]. split; [lia|]. split; [vm_compute; reflexivity|]. split; [lia|].
    split; [intros id x E; apply zupd_one in E; destruct E as [_ ->]; discriminate|]. split; [split; [reflexivity|]; split; [reflexivity|]; split; [reflexivity | constructor]|]. split; [reflexivity|]. intros id y E _. apply zupd_one in E. exact (proj1 E).
  - exists (str "posts"). eexists. split; [left; reflexivity|]. split; [reflexivity | discriminate].
Qed.
