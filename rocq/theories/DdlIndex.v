(** The add-index state machine: the worker's iterations on one job. *)
From Verif Require Import Bytes SMap Provider ProviderProofs World Memcmp MemcmpProofs Numeric KvUtil KeyModel Struct
  StructProofs StructHash StructList UtilTxn Sequence SequenceProofs Model Meta MetaSpec MetaProofs MetaOps MetaRun Ddl DdlSpec DdlProofs DdlWorker DdlSys.
From Coq Require Import Sorted Permutation.

Section WithJson.
Variable J : json.
Hypothesis JO : json_ok J.
Local Notation mdo := (mdo J).
Local Notation mgets := (mgets J).
Local Notation holds := (holds J).

Lemma holds_wf_db n d A id x : holds n d A -> m_db A id = Some x -> wf_di x.
Proof. intros (_ & S & _ & M) E. exact (proj1 (wf_get _ _ _ _ _ _ _ (proj1 (mr_dbs J _ _ M)) E)). Qed.
Lemma holds_wf_queue n d A q : holds n d A -> Forall wf_job (m_queue A q).
Proof. intros (_ & S & _ & M). apply (mr_queue J _ _ M). Qed.
Lemma started_runs j : tries j -> j_state j <> JCancelling -> started j = set_state j JRunning.
Proof. intros [_ [H|[H|H]]] N; unfold started; rewrite H; try reflexivity. congruence. Qed.
(** the outcome of a transition *)
Lemma settle_move A o v j l c j' A1 : queue A = j :: l -> tries j -> j_type j = ActionAddIndex -> 0 <= c ->
  mdo c A (onAddIndex J (started j)) (Ok (JOut j' false false [])) A1 -> queue A1 = j :: l -> j_state j' = JRunning -> wf_job j' ->
  mdo c A (iter_body J o v) (Ok (IOut vars0 false [] (Ok tt))) (with_queue A1 DefaultJobList (j' :: l)).
Proof.
  intros Q T Et C H Q1 Es W. replace c with (c + 0) by lia.
  eapply (iter_run J JO A o v j l); [lia | lia | exact Q | apply T | apply (proj1 (tries_not_done j T)) | |].
  - apply run_index; [exact T | exact Et|]. apply caught_ok; [exact H | lia].
  - unfold settle. cbn [jo_job jo_fail jo_err jo_after v_err v_fail andb]. unfold IsCancelled. rewrite Es. cbn [jstate_eqb]. apply ending_d; [lia | discriminate|]. apply (update_d J A1 j' j l Q1 W).
Qed.
Lemma onAdd_absent A j i rd x c m : 0 <= ver A -> ver A + 1 < two63 -> idx_job A j i rd x c -> wf_job j -> wf_di x -> wf_ci c -> j_sstate j = Absent ->
  ci_name c = ir_collection rd -> m_coll A (di_id x) (ci_id c) = Some c -> ci_indices c = Some m -> get m (ii_name i) = None -> wf_ci (staged c i 1) ->
  mdo 2 A (onAddIndex J j)
    (Ok (JOut (set_sstate (set_arg j (ArgIndex (II (ii_id i) (ii_name i) (Some (IIR (ir_collection rd) (ir_db rd) (ci_id c))) (ii_cols i) (ii_unique i) (ii_state i)))) DeleteOnly) false false []))
    (moved A x (staged c i 1) j (ci_id c)).
Proof.
  intros V1 V2 [Et Ea Er Hn Hc] W Wx Wc Es Nk Mc Ei G Ws. unfold onAddIndex. rewrite Ea, Er.
  eapply mdo_get; [lia | apply getDbInfo_named; [exact JO | exact Hn]|]. cbv iota. rewrite Hc. cbv zeta. rewrite Es, Ei. cbn [mget]. rewrite G.
  assert (X : AddIndexInfo c (II (ii_id i) (ii_name i) None (ii_cols i) (ii_unique i) DeleteOnly) = Ok (Some (staged c i 1))).
  { unfold AddIndexInfo. cbn [ii_name]. rewrite Ei. cbn [mget]. rewrite G. cbn [map_assign]. rewrite clone_ii_eq. cbn [staged stage]. rewrite Ei. reflexivity. }
  rewrite X. cbn [lift_r]. eapply (mdo_then J 0 2); [lia | lia | lia | apply mdo_ret|]. cbv beta iota.
  eapply (mdo_then J 2 0); [lia | lia | lia | | apply mdo_ret].
  apply (update_coll_d J JO A j (ci_id c) x (ir_collection rd) c (staged c i 1)); try assumption.
  - apply Wc.
  - apply Hn.
  - unfold exists_coll. change (ci_id (staged c i 1)) with (ci_id c). rewrite Mc. reflexivity.
Qed.
Lemma onAdd_move A j i rd x c m k s s' : 0 <= ver A -> ver A + 1 < two63 -> idx_job A j i rd x c -> wf_job j -> is_i64 (ir_cid rd) -> wf_di x -> j_sstate j = s ->
  (s = DeleteOnly /\ s' = WriteOnly) \/ (s = WriteOnly /\ s' = WriteReorganization) ->
  ci_name c = ir_collection rd -> m_coll A (di_id x) (ci_id c) = Some c -> ci_indices c = Some m -> get m (ii_name i) = Some k -> ii_name k = ii_name i ->
  wf_ci (set_indices c (Some (set m (ii_name i) (set_istate k s')))) ->
  mdo 2 A (onAddIndex J j) (Ok (JOut (set_sstate j s') false false [])) (moved A x (set_indices c (Some (set m (ii_name i) (set_istate k s')))) j (ir_cid rd)).
Proof.
  intros V1 V2 [Et Ea Er Hn Hc] W Wcid Wx Es St Nk Mc Ei G Nm Ws. unfold onAddIndex. rewrite Ea, Er.
  eapply mdo_get; [lia | apply getDbInfo_named; [exact JO | exact Hn]|]. cbv iota. rewrite Hc. cbv zeta. rewrite Es, Ei. cbn [mget]. rewrite G.
  assert (X : UpdateIndexInfo c (set_istate k s') = Some (set_indices c (Some (set m (ii_name i) (set_istate k s'))))).
  { unfold UpdateIndexInfo. rewrite Ei. cbn [set_istate ii_name]. rewrite Nm, G, clone_ii_eq. unfold set_istate. rewrite Nm. reflexivity. }
  destruct St as [[-> ->]|[-> ->]]; rewrite X; (eapply (mdo_then J 2 0); [lia | lia | lia | | apply mdo_ret]);
    (apply (update_coll_d J JO A j (ir_cid rd) x (ir_collection rd) c); try assumption; [apply Hn | unfold exists_coll; cbn [set_indices ci_id]; rewrite Mc; reflexivity]).
Qed.
Lemma onAdd_reorg A j i rd x c : idx_job A j i rd x c -> j_sstate j = WriteReorganization -> mdo 0 A (onAddIndex J j) (Ok (JOut j false false [])) A.
Proof.
  intros [Et Ea Er Hn Hc] Es. unfold onAddIndex. rewrite Ea, Er. eapply mdo_get; [lia | apply getDbInfo_named; [exact JO | exact Hn]|]. cbv iota. rewrite Hc. cbv zeta. rewrite Es. apply mdo_ret.
Qed.

Lemma wf_staged c i k : wf_ci c -> wf_ii i -> wf_ci (staged c i k).
Proof.
  intros (C1 & C2 & C3 & C4) (I1 & I2 & I3 & I4). destruct k as [|k]; [split; auto|]. cbn [staged]. split; [exact C1|]. split; [exact C2|]. split.
  - cbn [ci_indices]. destruct (ci_indices c) as [m|]; cbn [option_map wf_map wf_opt]; [|exact Logic.I]. cbn [wf_map wf_opt] in C3. intros k' a. rewrite get_set. destruct (bytes_eqb k' (ii_name i)) eqn:E; [|apply C3].
    intros X. injection X as <-. apply bytes_eqb_eq in E. subst k'. split; [exact I2|]. split; [exact I1|]. split; [exact I2|]. split; [exact Logic.I | exact I4].
  - apply Forall_app. split; [exact C4 | constructor; [exact I2 | constructor]].
Qed.
Lemma stage_more k : stage (S (S (S k))) = WriteReorganization.
Proof. destruct k; reflexivity. Qed.

Section Request.
Variables (A : mst) (x : DBInfo) (c : CollectionInfo) (j : Job) (i : IndexInfo) (l : list Job).
Hypothesis RQ : index_request A x c j i l.
Lemma start_stage : at_stage A x c j i l 0 A.
Proof.
  destruct RQ as [[O1 O2] [N1 N2] M Jb Of Q]. split; try reflexivity.
  - cbn [Nat.min]. lia.
  - intros id. destruct (Z.eqb_spec id (di_id x)) as [->|]; [exact O1 | reflexivity].
  - intros id cid. destruct (Z.eqb_spec id (di_id x)) as [->|]; cbn [andb]; [|reflexivity]. destruct (Z.eqb_spec cid (ci_id c)) as [->|]; [exact N2 | reflexivity].
  - exists j. split; [exact Q|]. split; [reflexivity|]. split; [rewrite Jb; reflexivity|]. split; [rewrite Jb; reflexivity|]. split; [rewrite Jb; reflexivity|]. split; [reflexivity | congruence].
  - intros v H. cbn [Nat.min] in H. lia.
Qed.
Lemma staged_ids k : ci_id (staged c i k) = ci_id c /\ ci_name (staged c i k) = ci_name c.
Proof. destruct k; split; reflexivity. Qed.
Lemma staged_db_ids k : di_id (staged_db x c i k) = di_id x /\ di_name (staged_db x c i k) = di_name x.
Proof. destruct k; split; reflexivity. Qed.
Lemma staged_db_coll k : mget (di_colls (staged_db x c i k)) (ci_name c) = Some (staged c i k).
Proof.
  destruct RQ as [_ [N1 _] _ _ _ _]. destruct k; [exact N1|]. cbn [staged_db set_colls di_colls]. destruct (di_colls x) as [m|]; [|discriminate]. cbn [option_map mget]. rewrite get_set_eq. reflexivity.
Qed.
Lemma stage_named k B : at_stage A x c j i l k B -> named B (di_name x) (staged_db x c i k).
Proof.
  intros H. destruct RQ as [[O1 O2] _ _ _ _ _]. destruct (staged_db_ids k) as [E1 E2]. split; [rewrite E1, (as_db _ _ _ _ _ _ _ _ H), Z.eqb_refl; reflexivity|]. split; [exact E2|].
  intros id y Y N. rewrite (as_db _ _ _ _ _ _ _ _ H) in Y. destruct (Z.eqb_spec id (di_id x)) as [->|Ne]; [congruence|]. exfalso. apply Ne. exact (O2 id y Y N).
Qed.
Lemma set_set_db m k : set_colls (staged_db x c i k) (option_map (fun m' => set m' (ci_name c) m) (di_colls (staged_db x c i k))) = set_colls x (option_map (fun m' => set m' (ci_name c) m) (di_colls x)).
Proof. destruct k; [reflexivity|]. unfold set_colls, staged_db. cbn [di_id di_name di_colls di_order di_state set_colls]. destruct (di_colls x) as [q|]; [|reflexivity]. cbn [option_map]. rewrite set_set. reflexivity. Qed.
Lemma moved_stage k B h c' arg : at_stage A x c j i l k B -> (k < 3)%nat -> c' = staged c i (S k) -> j_type h = ActionAddIndex ->
  forall h', j_id h' = j_id j -> j_type h' = ActionAddIndex -> j_err h' = false -> j_sstate h' = stage (S k) -> j_state h' = JRunning ->
  j_arg h' = ArgIndex (II (ii_id i) (ii_name i) (Some (IIR (ci_name c) (di_name x) (ci_id c))) (ii_cols i) (ii_unique i) (ii_state i)) -> j_arg h = arg ->
  at_stage A x c j i l (S k) (with_queue (moved B (staged_db x c i k) c' h (ci_id c)) DefaultJobList (h' :: l)).
Proof.
  intros H L -> Th h' F1 F2 F3 F4 F5 F6 _. destruct H as [H1 H2 H3 H4 H5 H6 H7 H8]. destruct (staged_db_ids k) as [E1 E2]. destruct (staged_ids (S k)) as [E3 E4].
  assert (Em : Z.of_nat (Nat.min (S k) 3) = Z.of_nat (Nat.min k 3) + 1) by lia. assert (EV : ver B = somez (m_ver A) + Z.of_nat (Nat.min k 3)) by exact H1.
  split; unfold moved; cbn [with_queue with_diff with_ver with_db with_coll m_ver m_db m_coll m_queue m_hist m_gid m_diff somez]; rewrite ?E1, ?E3, ?E4.
  - rewrite EV. lia.
  - intros id. unfold zupd. destruct (Z.eqb_spec id (di_id x)) as [->|N]; [|rewrite H2; destruct (Z.eqb_spec id (di_id x)); [contradiction | reflexivity]]. rewrite set_set_db. reflexivity.
  - intros id cid. unfold zupd. destruct (Z.eqb_spec id (di_id x)) as [->|N]; cbn [andb].
    + destruct (Z.eqb_spec cid (ci_id c)) as [->|N]; [reflexivity|]. rewrite H3, Z.eqb_refl. cbn [andb]. destruct (Z.eqb_spec cid (ci_id c)); [contradiction | reflexivity].
    + rewrite H3. destruct (Z.eqb_spec id (di_id x)); [contradiction | reflexivity].
  - exists h'. cbn [qeqb]. split; [reflexivity|]. split; [exact F1|]. split; [exact F2|]. split; [exact F3|]. split; [exact F4|]. split; [discriminate | auto].
  - exact H5.
  - exact H6.
  - intros v N. unfold zupd. destruct (Z.eqb_spec v (ver B + 1)) as [->|_]; [exfalso; lia|]. apply H7. lia.
  - intros v N. unfold zupd. destruct (Z.eqb_spec v (ver B + 1)) as [->|Ne]; [rewrite Th; eexists; reflexivity|]. apply H8. lia.
Qed.
(** one committed iteration *)
Lemma stage_step k B n d o v : at_stage A x c j i l k B -> holds n d B -> 0 <= ver A -> ver A + 4 < two63 ->
  exists B', at_stage A x c j i l (S k) B' /\ mdo 2 B (iter_body J o v) (Ok (IOut vars0 false [] (Ok tt))) B'.
Proof.
  intros H Hh V0 V1. pose proof (stage_named k B H) as Nm. pose proof RQ as [[O1 O2] [N1 N2] (m & M1 & M2) Jb (cid0 & Of) Q].
  destruct (as_queue _ _ _ _ _ _ _ _ H) as (h & Q1 & F1 & F2 & F3 & F4 & F5 & F6).
  pose proof (holds_wf_queue _ _ _ DefaultJobList Hh) as WQ. rewrite Q1 in WQ. inversion WQ as [|? ? Wh _]; subst.
  pose proof (holds_wf_db _ _ _ _ _ Hh (proj1 Nm)) as Wx. destruct (staged_db_ids k) as [E1 E2].
  assert (Wc : wf_ci (staged c i k)).
  { pose proof (staged_db_coll k) as G. destruct Wx as (_ & _ & X3 & _). destruct (di_colls (staged_db x c i k)) as [mm|]; [|discriminate]. cbn [mget] in G. apply (X3 _ _ G). }
  assert (VB : 0 <= ver B /\ ver B + 1 < two63) by (pose proof (as_ver _ _ _ _ _ _ _ _ H) as X; fold (ver B) (ver A) in X; lia).
  assert (MC : m_coll B (di_id (staged_db x c i k)) (ci_id (staged c i k)) = Some (staged c i k)) by (rewrite E1, (proj1 (staged_ids k)), (as_coll _ _ _ _ _ _ _ _ H), !Z.eqb_refl; reflexivity).
  destruct k as [|k].
  - specialize (F5 eq_refl). subst h. clear F6. assert (T : tries j) by (rewrite Jb; split; [reflexivity | left; reflexivity]).
    assert (St : started j = set_state j JRunning) by (apply started_runs; [exact T | rewrite Jb; discriminate]).
    assert (Ea : j_arg j = ArgIndex i) by (rewrite Jb; reflexivity). assert (Et : j_type j = ActionAddIndex) by (rewrite Jb; reflexivity).
    assert (IX : idx_job B j i (IIR (ci_name c) (di_name x) cid0) x c) by (split; [exact Et | exact Ea | exact Of | exact Nm | exact N1]).
    assert (Wi : wf_ii i) by (pose proof (proj2 (proj2 (proj2 Wh))) as X; rewrite Ea in X; exact X).
    assert (Wsj : wf_job (started j)) by (rewrite St; exact Wh).
    pose proof (onAdd_absent B (started j) i _ x c m (proj1 VB) (proj2 VB) (idx_started _ _ _ _ _ _ IX) Wsj Wx Wc) as X. cbn [ir_collection ir_db] in X.
    rewrite (proj1 (proj2 (proj2 (started_same j)))), F4 in X. specialize (X eq_refl eq_refl MC M1 M2 (wf_staged c i 1 Wc Wi)).
    eexists. split; [|apply (settle_move B o v j l 2 _ _ Q1 T Et ltac:(lia) X)].
    + eapply (moved_stage 0 B (started j) (staged c i 1)); try reflexivity; try assumption; try lia; rewrite St; try exact Et; try reflexivity. exact F3.
    + unfold queue, moved. cbn [with_diff with_ver with_db with_coll m_queue]. exact Q1.
    + rewrite St. reflexivity.
    + rewrite St. destruct Wh as (A1 & A2 & A3 & A4). split; [exact A1|]. split; [exact A2|]. split; [exact A3|]. cbn [set_sstate set_arg j_arg wf_arg]. destruct Wi as (I1 & I2 & I3 & I4).
      split; [exact I1|]. split; [exact I2|]. split; [|exact I4]. cbn [wf_opt ii_red]. rewrite Of in I3. cbn [wf_opt] in I3. destruct I3 as (R1 & R2 & _). split; [exact R1|]. split; [exact R2 | apply Wc].
  - clear F5. destruct (F6 ltac:(discriminate)) as [F7 F8]. clear F6. set (i' := II (ii_id i) (ii_name i) (Some (IIR (ci_name c) (di_name x) (ci_id c))) (ii_cols i) (ii_unique i) (ii_state i)) in *.
    assert (T : tries h) by (split; [exact F3 | right; left; exact F7]).
    assert (St : started h = h) by (unfold started; rewrite F7; unfold set_state; rewrite <- F7; destruct h; reflexivity).
    assert (IX : idx_job B h i' (IIR (ci_name c) (di_name x) (ci_id c)) (staged_db x c i (S k)) (staged c i (S k))) by (split; [exact F2 | exact F8 | reflexivity | exact Nm | apply staged_db_coll]).
    assert (Wi : wf_ii i') by (pose proof (proj2 (proj2 (proj2 Wh))) as X; rewrite F8 in X; exact X). assert (Wi0 : is_i64 (ci_id c)) by (rewrite <- (proj1 (staged_ids (S k))); apply Wc).
    set (kk := II (ii_id i) (ii_name i) None (ii_cols i) (ii_unique i) (stage (S k))) in *.
    assert (Gi : get (set m (ii_name i) kk) (ii_name i') = Some kk) by apply get_set_eq.
    assert (Ei : ci_indices (staged c i (S k)) = Some (set m (ii_name i) kk)) by (cbn [staged ci_indices]; rewrite M1; reflexivity).
    assert (WS : forall s, wf_ci (set_indices (staged c i (S k)) (Some (set (set m (ii_name i) kk) (ii_name i') (set_istate kk s))))).
    { intros s. destruct Wc as (C1 & C2 & C3 & C4). split; [exact C1|]. split; [exact C2|]. split; [|exact C4]. rewrite Ei in C3. cbn [set_indices ci_indices wf_map wf_opt] in *. intros k' a. rewrite get_set.
      destruct (bytes_eqb k' (ii_name i')) eqn:E; [|apply C3]. intros Y. injection Y as <-. apply bytes_eqb_eq in E. subst k'. exact (C3 _ _ Gi). }
    assert (SG : forall s, s = stage (S (S k)) -> set_indices (staged c i (S k)) (Some (set (set m (ii_name i) kk) (ii_name i') (set_istate kk s))) = staged c i (S (S k))).
    { intros s ->. unfold set_indices. cbn [staged ci_id ci_name ci_order ci_state i' ii_name]. rewrite M1. cbn [option_map]. rewrite set_set. reflexivity. }
    destruct k as [|[|k]].
    + pose proof (onAdd_move B h i' _ _ _ _ kk DeleteOnly WriteOnly (proj1 VB) (proj2 VB) IX Wh Wi0 Wx F4 (or_introl (conj eq_refl eq_refl)) eq_refl MC Ei Gi eq_refl (WS _)) as X. rewrite (SG WriteOnly eq_refl) in X. rewrite <- St in X at 1.
      eexists. split; [|apply (settle_move B o v h l 2 _ _ Q1 T F2 ltac:(lia) X)].
      * eapply (moved_stage 1 B h); try reflexivity; try assumption; try lia.
      * unfold queue, moved. cbn [with_diff with_ver with_db with_coll m_queue]. exact Q1.
      * exact F7.
      * exact Wh.
    + pose proof (onAdd_move B h i' _ _ _ _ kk WriteOnly WriteReorganization (proj1 VB) (proj2 VB) IX Wh Wi0 Wx F4 (or_intror (conj eq_refl eq_refl)) eq_refl MC Ei Gi eq_refl (WS _)) as X. rewrite (SG WriteReorganization eq_refl) in X. rewrite <- St in X at 1.
      eexists. split; [|apply (settle_move B o v h l 2 _ _ Q1 T F2 ltac:(lia) X)].
      * eapply (moved_stage 2 B h); try reflexivity; try assumption; try lia.
      * unfold queue, moved. cbn [with_diff with_ver with_db with_coll m_queue]. exact Q1.
      * exact F7.
      * exact Wh.
    + pose proof (onAdd_reorg B h i' _ _ _ IX F4) as X. rewrite <- St in X at 1. exists (with_queue B DefaultJobList (h :: l)).
      split; [|apply mdo_le with (c := 0); [lia | apply (settle_move B o v h l 0 h B Q1 T F2 ltac:(lia) X Q1 F7 Wh)]].
      destruct H as [H1 H2 H3 H4 H5 H6 H7 H8]. rewrite (Nat.min_r (S (S (S k))) 3) in * by lia. split; rewrite ?(Nat.min_r (S (S (S (S k)))) 3) by lia; try assumption. exists h. cbn [with_queue m_queue qeqb]. split; [reflexivity|]. split; [exact F1|]. split; [exact F2|]. split; [exact F3|]. split; [exact F4|]. split; [discriminate | auto].
Qed.
End Request.
End WithJson.
