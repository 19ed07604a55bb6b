(** Every history of requests, worker iterations and crashes leaves what DdlSpec.v allows. *)
From Verif Require Import Bytes SMap Provider ProviderProofs World Memcmp MemcmpProofs Numeric KvUtil KeyModel Struct
  StructProofs StructHash StructList UtilTxn Sequence SequenceProofs Model Meta MetaSpec MetaProofs MetaOps MetaRun Ddl DdlSpec DdlProofs DdlWorker.
From Coq Require Import Sorted Permutation.

Local Notation P := MetaPrefix.

Section WithJson.
Variable J : json.
Hypothesis JO : json_ok J.
Local Notation mdo := (mdo J).
Local Notation mgets := (mgets J).
Local Notation holds := (holds J).

(** * One iteration on the database *)
Lemma iteration_spec n d A o v io c x A' : 0 <= c -> holds n d A -> n + c < two63 -> mdo c A (iter_body J o v) (Ok x) A' ->
  match i_res x with
  | Ok _ => (exists d', iteration J o v d io = IEnd d' (i_vars x) (i_nojob x) (i_after x) (Ok tt) /\ holds (n + c) d' A') \/
            (io = true /\ iteration J o v d io = IEnd d (i_vars x) true [] (Err EIO))
  | Err e => iteration J o v d io = IEnd d (i_vars x) true [] (Err e)
  | Panic => True
  end.
Proof.
  intros C (K & S & R & M) L H. destruct (H S M) as (S' & X1 & M'). destruct (X1 n _ R L) as (V & X2 & R' & _).
  destruct (X2 (new_txn d true [])) as (t & E & (O & _) & Vt & (K1 & K2 & K3 & K4 & K5)).
  { apply okt_new. reflexivity. } { apply view_new. }
  unfold iteration. rewrite E. destruct (i_res x) as [u|e|]; [|reflexivity | exact I].
  destruct (commit_solo d t io K O) as [(d' & t' & Ec & Ev & Kd & N1 & N2)|(t' & Ec & Hio & _)]; try (cbn in *; congruence).
  - left. exists d'. rewrite Ec. split; [reflexivity|]. split; [exact Kd|]. exists S'. split; [|exact M']. unfold dview. rewrite Ev, Vt. exact R'.
  - right. rewrite Ec. auto.
Qed.

(** * The effects of one more job *)
Lemma dbs_app l l' : dbs_of (l ++ l') = dbs_of l ++ dbs_of l'.
Proof. unfold dbs_of. apply flat_map_app. Qed.
Lemma dbs_one j d : j_arg j = ArgDB d -> dbs_of [j] = [d].
Proof. intros E. cbn. rewrite E. reflexivity. Qed.
Lemma dbs_len l A : effects l A -> length (dbs_of l) = length l.
Proof.
  intros H. pose proof (ef_create _ _ H) as F. clear H. induction l as [|j l IH]; [reflexivity|]. destruct (F j (or_introl eq_refl)) as (_ & d & E).
  cbn [dbs_of flat_map]. rewrite E. cbn [app length]. f_equal. apply IH. intros j' I. apply F. right. exact I.
Qed.
Lemma effects_add l A j d cids : effects l A -> j_type j = ActionCreateSchema -> j_arg j = ArgDB d -> (forall d', In d' (dbs_of l) -> di_id d' <> di_id d) ->
  NoDup (coll_ids d) -> Permutation cids (coll_ids d) -> effects (l ++ [j]) (created A d cids).
Proof.
  intros E Et Ea Fr ND Pm. pose proof (dbs_len l A E) as DL. assert (VA : ver A = Z.of_nat (length l)) by apply E.
  assert (IN : forall d', In d' (dbs_of (l ++ [j])) <-> In d' (dbs_of l) \/ d' = d).
  { intros d'. rewrite dbs_app, (dbs_one j d Ea), in_app_iff. cbn [In]. intuition. }
  split.
  - intros j' I. apply in_app_iff in I. destruct I as [I|[<-|[]]]; [apply (ef_create _ _ E j' I) | eauto].
  - cbn [created with_diff with_ver m_ver somez]. rewrite VA, app_length. cbn [length]. lia.
  - intros id x. cbn [created with_diff with_ver with_coll with_db m_db]. unfold zupd. destruct (Z.eqb_spec id (di_id d)) as [->|N].
    + split.
      * intros X. injection X as <-. exists d. split; [apply IN; auto | auto].
      * intros (d' & I & Ei & ->). apply IN in I. destruct I as [I| ->]; [exfalso; exact (Fr d' I (eq_sym Ei)) | reflexivity].
    + rewrite (ef_db _ _ E). split; intros (d' & I & Ei & Ex); exists d'; (split; [|auto]); [apply IN; auto|]. apply IN in I. destruct I as [I| ->]; [exact I | congruence].
  - intros id c x. cbn [created with_diff with_ver with_coll with_db m_coll]. unfold zupd. destruct (Z.eqb_spec id (di_id d)) as [->|N].
    + assert (Nn : forall c', m_coll A (di_id d) c' = None).
      { intros c'. destruct (m_coll A (di_id d) c') as [y|] eqn:Y; [|reflexivity]. apply (ef_coll _ _ E) in Y. destruct Y as (d' & c0 & I & _ & Ei & _). exfalso. exact (Fr d' I (eq_sym Ei)). }
      unfold add_all. assert (NDp : NoDup (map ci_id (map pub_ci (vals (di_colls d))))) by (rewrite map_map; exact ND). split.
      * destruct (find _ _) as [y|] eqn:F; [|rewrite Nn; discriminate]. intros X. injection X as <-. apply find_some in F. destruct F as [F1 F2]. apply Z.eqb_eq in F2. apply in_map_iff in F1.
        destruct F1 as (c0 & <- & I). exists d, c0. split; [apply IN; auto|]. split; [exact I|]. split; [reflexivity|]. split; [symmetry; exact F2 | reflexivity].
      * intros (d' & c0 & I & Ic & Ei & -> & ->). apply IN in I. destruct I as [I| ->]; [exfalso; exact (Fr d' I (eq_sym Ei))|].
        pose proof (find_id _ (pub_ci c0) NDp (in_map pub_ci _ _ Ic)) as X. change (ci_id (pub_ci c0)) with (ci_id c0) in X. rewrite X. reflexivity.
    + rewrite (ef_coll _ _ E). split; intros (d' & c0 & I & Ic & Ei & Ex); exists d', c0; (split; [|auto]); [apply IN; auto|]. apply IN in I. destruct I as [I| ->]; [exact I | congruence].
  - intros v x. cbn [created with_diff m_diff]. unfold zupd. rewrite app_length. cbn [length]. destruct (Z.eqb_spec v (ver A + 1)) as [->|N]; [intros _; rewrite VA; lia|].
    intros X. apply (ef_diff _ _ E) in X. lia.
  - intros n d'. rewrite dbs_app, (dbs_one j d Ea). cbn [created with_diff m_diff]. unfold zupd. intros X. destruct (Nat.lt_ge_cases n (length (dbs_of l))) as [L|L].
    + rewrite nth_error_app1 in X by exact L. destruct (ef_diff_at _ _ E n d' X) as (cs & C1 & C2). exists cs. split; [exact C1|].
      rewrite VA. destruct (Z.eqb_spec (Z.of_nat n + 1) (Z.of_nat (length l) + 1)) as [Y|_]; [lia | exact C2].
    + rewrite nth_error_app2 in X by exact L. destruct (n - length (dbs_of l))%nat as [|m] eqn:M; [|destruct m; discriminate]. cbn in X. injection X as <-.
      assert (Hn : Z.of_nat n = ver A) by (rewrite VA, <- DL; apply (f_equal Z.of_nat); revert M L; generalize (length (dbs_of l)); clear; lia). rewrite Hn, Z.eqb_refl. exists cids. auto.
Qed.
Lemma effects_ext l A B : effects l A -> somez (m_ver B) = somez (m_ver A) -> (forall i, m_db B i = m_db A i) -> (forall i c, m_coll B i c = m_coll A i c) -> (forall v, m_diff B v = m_diff A v) -> effects l B.
Proof.
  intros [E1 E2 E3 E4 E5 E6] H1 H2 H3 H4. split; intros; rewrite ?H1, ?H2, ?H3, ?H4 in *; eauto.
Qed.

(** * The invariant *)
Definition jsize (j : Job) : Z := match j_arg j with ArgDB d => llen (vals (di_colls d)) | _ => 0 end.
Definition sizes (l : list Job) : Z := fold_right (fun j n => jsize j + n) 0 l.
Definition used (D R : list Job) (st : hstat) : Z := llen D + llen (D ++ R) + llen (applied D R st) + sizes (applied D R st).
Definition total (l : list Job) : Z := 3 * llen l + sizes l.
Lemma sizes_cons j l : sizes (j :: l) = jsize j + sizes l.
Proof. reflexivity. Qed.
Lemma sizes_nil : sizes [] = 0.
Proof. reflexivity. Qed.
Lemma sizes_app l l' : sizes (l ++ l') = sizes l + sizes l'.
Proof. induction l as [|j l IH]; cbn [app]; rewrite ?sizes_cons, ?sizes_nil; lia. Qed.
Lemma jsize_nonneg j : 0 <= jsize j.
Proof. unfold jsize, llen. destruct (j_arg j); lia. Qed.
Lemma sizes_nonneg l : 0 <= sizes l.
Proof. induction l as [|j l IH]; rewrite ?sizes_cons, ?sizes_nil; [lia|]. pose proof (jsize_nonneg j). lia. Qed.
Lemma llen_app {A} (l l' : list A) : llen (l ++ l') = llen l + llen l'.
Proof. unfold llen. rewrite app_length. lia. Qed.
Lemma llen_cons {A} (a : A) l : llen (a :: l) = 1 + llen l.
Proof. unfold llen. cbn [length]. lia. Qed.
Lemma llen_nil {A} : llen (@nil A) = 0.
Proof. reflexivity. Qed.
Lemma llen_nonneg {A} (l : list A) : 0 <= llen l.
Proof. unfold llen. lia. Qed.
Lemma used_total D R st : used D R st <= total (D ++ R).
Proof.
  unfold used, total, applied. pose proof (sizes_nonneg R). pose proof (sizes_nonneg D). pose proof (llen_nonneg R). pose proof (llen_nonneg D).
  destruct st; rewrite ?llen_app, ?sizes_app; try lia. destruct R as [|j r]; rewrite ?llen_app, ?sizes_app; [lia|].
  pose proof (jsize_nonneg j). pose proof (llen_nonneg r). pose proof (sizes_nonneg r). rewrite !llen_cons, !sizes_cons, llen_nil, sizes_nil. lia.
Qed.
(** room for what is stored: the jobs' effects and, with what is left of the budget [T], document-id counters *)
Definition room (T : Z) (D R : list Job) (st : hstat) : Z := used D R st + (T - total (D ++ R)).
Lemma room_le T D R st : room T D R st <= T.
Proof. unfold room. pose proof (used_total D R st). lia. Qed.
Definition create_form (j : Job) (d : DBInfo) : Prop :=
  j = MkJob (j_id j) ActionCreateSchema JNone false 0 (ArgDB d) Absent /\ forall c, In c (vals (di_colls d)) -> ci_indices c = None.
Definition index_form (l : list Job) (j : Job) (i : IndexInfo) : Prop :=
  j = MkJob (j_id j) ActionAddIndex JNone false 0 (ArgIndex i) Absent /\
  exists rd d c, ii_red i = Some rd /\ In d (dbs_of l) /\ di_name d = ir_db rd /\ mget (di_colls d) (ir_collection rd) = Some c.
Definition job_ok (l : list Job) (j : Job) : Prop := wf_job j /\ ((exists d, create_form j d) \/ exists i, index_form l j i).
Record sinv (T : Z) (y : sys) (D R : list Job) (st : hstat) (A : mst) : Prop := {
  si_jobs : y_jobs y = D ++ R;
  si_holds : holds (room T D R st) (y_db y) A;
  si_state : dstate D R st A;
  si_ok : Forall (job_ok (applied D R st)) (D ++ R);
  si_vars : v_err (y_vars y) = true -> st = HFailed;
  si_total : total (D ++ R) <= T;
  si_gid : 0 <= gid A <= T
}.
Lemma job_ok_more l l' j : (forall d, In d (dbs_of l) -> In d (dbs_of l')) -> job_ok l j -> job_ok l' j.
Proof.
  intros H [W [X|(i & Y & rd & d & c & Z1 & Z2 & Z3)]]; split; auto. right. exists i. split; [exact Y|]. exists rd, d, c. auto.
Qed.
(** ids of different jobs are different *)
Lemma nodup_app {X} (l l' : list X) : NoDup (l ++ l') -> NoDup l /\ NoDup l' /\ forall x, In x l -> ~ In x l'.
Proof.
  induction l as [|a l IH]; cbn [app]; intros H; [split; [constructor|]; split; [exact H | intros x []]|]. inversion H as [|? ? H1 H2]; subst. destruct (IH H2) as (A1 & A2 & A3).
  split; [constructor; [intros X1; apply H1; apply in_or_app; auto | exact A1]|]. split; [exact A2|]. intros x [<-|I] I'; [apply H1; apply in_or_app; auto | exact (A3 x I I')].
Qed.
Lemma in_ids l d : In d (dbs_of l) -> In (di_id d) (flat_map ids_of l).
Proof.
  induction l as [|j l IH]; cbn [dbs_of flat_map]; [intros []|]. intros I. apply in_app_iff in I. apply in_or_app. destruct I as [I|I]; [left | right; apply IH; exact I].
  unfold ids_of. destruct (j_arg j) as [d0|i0|]; cbn in I; try contradiction. destruct I as [<-|[]]. right. left. reflexivity.
Qed.
Lemma fresh_head D j r d : NoDup (flat_map ids_of (D ++ j :: r)) -> j_arg j = ArgDB d -> (forall d', In d' (dbs_of D) -> di_id d' <> di_id d) /\ NoDup (coll_ids d).
Proof.
  intros N E. rewrite flat_map_app in N. apply nodup_app in N. destruct N as (_ & N2 & N3). cbn [flat_map] in N2, N3. split.
  - intros d' I X. apply in_ids in I. rewrite X in I. apply (N3 _ I). apply in_or_app. left. unfold ids_of. rewrite E. right. left. reflexivity.
  - apply nodup_app in N2. destruct N2 as (N2 & _). unfold ids_of in N2. rewrite E in N2. inversion N2 as [|? ? _ N4]; subst. inversion N4; subst. assumption.
Qed.
Lemma used_name_iff l A name : effects l A -> (used_name A name <-> In name (map di_name (dbs_of l))).
Proof.
  intros E. split.
  - intros (id & x & X & <-). apply (ef_db _ _ E) in X. destruct X as (d & I & _ & ->). change (di_name (pub_di d)) with (di_name d). apply in_map. exact I.
  - intros I. apply in_map_iff in I. destruct I as (d & <- & I). exists (di_id d), (pub_di d). split; [apply (ef_db _ _ E); eauto | reflexivity].
Qed.
Lemma named_of l A d : effects l A -> NoDup (map di_name (dbs_of l)) -> In d (dbs_of l) -> named A (di_name d) (pub_di d).
Proof.
  intros E N I. split; [apply (ef_db _ _ E); exists d; auto|]. split; [reflexivity|]. intros id y Y En. apply (ef_db _ _ E) in Y. destruct Y as (d' & I' & _ & ->).
  change (di_name (pub_di d')) with (di_name d') in En. f_equal. clear E. induction (dbs_of l) as [|a r IH]; [destruct I|]. cbn [map] in N. inversion N as [|? ? N1 N2]; subst.
  destruct I as [->|I], I' as [->|I']; [reflexivity | | |apply IH; assumption].
  - exfalso. apply N1. rewrite <- En. apply in_map. exact I'.
  - exfalso. apply N1. rewrite En. apply in_map. exact I.
Qed.
Lemma sinv_weaken T T' y D R st A : T <= T' -> sinv T y D R st A -> sinv T' y D R st A.
Proof. intros L [H1 H2 H3 H4 H5 H6 H7]. split; try assumption; try lia. eapply holds_le; [|exact H2]. unfold room. lia. Qed.

(** * Requests *)
Lemma applied_app D R st j : (st = HApplied -> R <> []) -> applied D (R ++ [j]) st = applied D R st.
Proof. intros H. unfold applied. destruct st; try reflexivity. destruct R; [exfalso; apply H; reflexivity | reflexivity]. Qed.
Lemma stat_applied D R st A : dstate D R st A -> st = HApplied -> R <> [].
Proof. intros H ->. exact (ds_stat _ _ _ _ H). Qed.
Lemma stat_nil D st A : dstate D [] st A -> st = HFresh.
Proof. intros H. pose proof (ds_stat _ _ _ _ H) as X. destruct st; [reflexivity | congruence | destruct X as (? & ? & ? & X & _); discriminate | destruct X as (? & ? & ? & X & _); discriminate]. Qed.
Lemma enqueue_inv T w y D R st A j d' n g : sinv T y D R st A -> 0 <= w -> 0 < n -> 3 + jsize j <= w -> n <= w -> g = gid A + n ->
  Forall (fun x => gid A < x <= g) (ids_of j) -> NoDup (ids_of j) -> job_ok (applied D R st) j ->
  holds (room T D R st + 1) d' (with_queue (with_gid A g) DefaultJobList (queue A ++ [j])) ->
  sinv (T + w) (Sys d' (y_vars y) (y_jobs y ++ [j])) D (R ++ [j]) st (with_queue (with_gid A g) DefaultJobList (queue A ++ [j])).
Proof.
  intros I W0 N0 W1 W2 Eg F ND JK H. destruct I as [I1 I2 I3 I4 I5 I6 I7]. pose proof (applied_app D R st j (stat_applied _ _ _ _ I3)) as AP.
  split; cbn [y_jobs y_db y_vars].
  - rewrite I1, app_assoc. reflexivity.
  - eapply holds_le; [|exact H]. unfold room, used, total. rewrite AP. rewrite app_assoc, !sizes_app, !llen_app. change (llen [j]) with 1. cbn [sizes fold_right]. pose proof (jsize_nonneg j). lia.
  - destruct I3 as [E1 E2 E3 E4 E5 E6]. split.
    + rewrite AP. eapply effects_ext; [exact E1 | reflexivity..].
    + exact E2.
    + cbn [with_queue m_queue qeqb]. unfold queue. rewrite E3. destruct R as [|a r]; cbn [app]; [|reflexivity]. destruct st; [reflexivity | congruence | destruct E6 as (? & ? & ? & X & _); discriminate | destruct E6 as (? & ? & ? & X & _); discriminate].
    + cbn [with_queue with_gid m_gid somez]. destruct E4 as [A1 A2]. rewrite app_assoc, flat_map_app. cbn [flat_map]. rewrite app_nil_r. split.
      * fold (gid A) in A2. clear - A1 A2 F ND. set (l := flat_map ids_of (D ++ R)) in *. clearbody l. induction l as [|a l IH]; [exact ND|]. cbn [app]. inversion A1; subst. inversion A2; subst. constructor; [|apply IH; assumption].
        intros X. apply in_app_iff in X. destruct X as [X|X]; [contradiction|]. rewrite Forall_forall in F. apply F in X. lia.
      * apply Forall_app. split; [|eapply Forall_impl; [|exact F]; cbn beta; intros; lia]. eapply Forall_impl; [|exact A2]. cbn beta. fold (gid A). intros; lia.
    + rewrite AP. exact E5.
    + destruct st; [exact Logic.I | intros X; destruct R; discriminate | |].
      * destruct E6 as (j0 & r & d & -> & X1 & X2). exists j0, (r ++ [j]), d. auto.
      * destruct E6 as (j0 & r & i & -> & X1). exists j0, (r ++ [j]), i. auto.
  - rewrite AP, app_assoc. apply Forall_app. split; [exact I4 | constructor; [exact JK | constructor]].
  - exact I5.
  - unfold total in *. rewrite app_assoc, llen_app, sizes_app. change (llen [j]) with 1. cbn [sizes fold_right]. lia.
  - cbn [with_queue with_gid gid m_gid somez]. unfold gid. cbn [with_queue with_gid m_gid somez]. lia.
Qed.
Lemma no_index_dec i : no_index i \/ exists cn is, In cn (cs_colls i) /\ mget (cs_indices i) cn = Some is /\ is <> [].
Proof.
  unfold no_index. induction (cs_colls i) as [|a l IH].
  - left. intros cn is [].
  - destruct IH as [IH|(cn & is & H1 & H2)]; [|right; exists cn, is; split; [right; exact H1 | exact H2]].
    destruct (mget (cs_indices i) a) as [[|x xs]|] eqn:E.
    + left. intros cn is [<-|I] X; [congruence | eapply IH; eassumption].
    + right. exists a, (x :: xs). split; [left; reflexivity|]. split; [exact E | discriminate].
    + left. intros cn is [<-|I] X; [congruence | eapply IH; eassumption].
Qed.
Lemma sinv_same T y y' D R st A : y_jobs y' = y_jobs y -> y_db y' = y_db y -> y_vars y' = y_vars y -> sinv T y D R st A -> sinv T y' D R st A.
Proof. intros E1 E2 E3 [H1 H2 H3 H4 H5 H6 H7]. split; rewrite ?E1, ?E2, ?E3; assumption. Qed.
Lemma holds_view_err {X} n d A (m : Tx X) e io : holds n d A -> n < two63 -> mgets A m (Err e) -> run_update d d m [] io = (d, Err e).
Proof.
  intros (K & S & R & M) L H. eapply run_update_err. exact (H S M true n _ R L).
Qed.
Lemma holds_panic {X} n d A (m : Tx X) c A' io : holds n d A -> n + c < two63 -> mdo c A m Panic A' -> run_update d d m [] io = (d, Panic).
Proof.
  intros (K & S & R & M) L H. destruct (H S M) as (S' & X1 & M'). destruct (X1 n _ R L) as (V & X2 & _).
  destruct (X2 (new_txn d true [])) as (t & E & _); [apply okt_new; reflexivity | apply view_new|]. unfold run_update. rewrite E. reflexivity.
Qed.
Lemma create_inv_did T y D R st A i io : sinv T y D R st A -> dev_ok (DCreate i io) -> T + dweight (DCreate i io) < two63 ->
  exists R' A', sinv (T + dweight (DCreate i io)) (dstep J y (DCreate i io)) D R' st A' /\ m_did A' = m_did A.
Proof.
  intros I K L. pose proof (used_total D R st) as UT. assert (W : dweight (DCreate i io) = reserve i + 1) by (unfold dweight, reserve; lia).
  assert (RN : 2 + llen (cs_colls i) <= reserve i) by (unfold reserve, llen; destruct (cs_indices i); lia). pose proof (llen_nonneg (cs_colls i)) as LC.
  rewrite W in *. pose proof (room_le T D R st) as RL. assert (Lu : room T D R st + 1 < two63) by lia.
  assert (SAME : sinv (T + (reserve i + 1)) y D R st A) by (eapply sinv_weaken; [|exact I]; lia).
  cbn [dstep]. unfold CreateSchema. destruct (ValidateCreateSchema i) as [e|].
  { exists R, A. split; [|reflexivity]. cbn [accepted]. eapply sinv_same; [| | |exact SAME]; reflexivity. }
  pose proof (si_holds _ _ _ _ _ _ I) as H. pose proof (si_gid _ _ _ _ _ _ I) as G. pose proof (si_total _ _ _ _ _ _ I) as TT.
  destruct (Z.le_gt_cases (Z.of_nat (length (queue A))) maxJobsInQueue) as [Q|Q].
  2:{ rewrite (holds_view_err _ _ _ _ _ io H ltac:(lia) (CreateSchemaTx_full J A i Q)). exists R, A. split; [|reflexivity]. cbn [accepted]. eapply sinv_same; [| | |exact SAME]; reflexivity. }
  destruct (used_name_dec J JO A (cs_db i)) as [U|U]; [exists (room T D R st), (y_db y); split; [exact H | lia]| |].
  { rewrite (holds_view_err _ _ _ _ _ io H ltac:(lia) (CreateSchemaTx_used J JO A i Q U)). exists R, A. split; [|reflexivity]. cbn [accepted]. eapply sinv_same; [| | |exact SAME]; reflexivity. }
  destruct (no_index_dec i) as [NI|NI].
  - destruct (CreateSchemaTx_d J JO A i) as (j & d & NJ & M); try assumption; try lia.
    destruct (update_run J _ _ _ _ _ _ _ io Z.le_0_1 H Lu M) as [(E & _)|(d' & E & H')]; rewrite E; cbn [accepted].
    + exists R, A. split; [|reflexivity]. eapply sinv_same; [| | |exact SAME]; reflexivity.
    + exists (R ++ [j]), (with_queue (with_gid A (gid A + reserve i)) DefaultJobList (queue A ++ [j])). split; [|reflexivity].
      assert (Wj : wf_job j) by (eapply new_job_wf; [| |exact K | exact NJ]; lia). destruct NJ as [Nj Nn No Ns (m & Em & Pm1 & Pm2) Nz [Ni1 Ni2]].
      assert (Ea : j_arg j = ArgDB d) by (rewrite Nj; reflexivity). assert (EI : ids_of j = j_id j :: di_id d :: coll_ids d) by (unfold ids_of; rewrite Ea; reflexivity).
      eapply (enqueue_inv T (reserve i + 1) y D R st A j d' (reserve i)); [exact I | lia | lia | | lia | reflexivity | rewrite EI; exact Ni2 | rewrite EI; exact Ni1 | | exact H'].
      * unfold jsize. rewrite Ea. lia.
      * split; [exact Wj|]. left. exists d. split; [exact Nj|]. intros c Ic. rewrite Em in Ic. apply vals_in in Ic. destruct Ic as (k & Ek). rewrite (Pm2 k c Ek). reflexivity.
  - destruct (CreateSchemaTx_panic J JO A i) as (A' & M); try assumption; try lia.
    rewrite (holds_panic _ _ _ _ _ _ io H Lu M). exists R, A. split; [|reflexivity]. cbn [accepted]. eapply sinv_same; [| | |exact SAME]; reflexivity.
Qed.
Lemma create_inv T y D R st A i io : sinv T y D R st A -> dev_ok (DCreate i io) -> T + dweight (DCreate i io) < two63 ->
  exists R' A', sinv (T + dweight (DCreate i io)) (dstep J y (DCreate i io)) D R' st A'.
Proof. intros I K L. destruct (create_inv_did T y D R st A i io I K L) as (R' & A' & H & _). exists R', A'. exact H. Qed.
(** AddIndex *)
Lemma AddIndexTx_no_db A i : ~ used_name A (ai_db i) -> mgets A (AddIndexTx J i) (Err ErrDBNotExistsD).
Proof. intros N. apply mgets_bind_err. unfold checkIndexNameNotExists. eapply mgets_bind; [apply getDbInfo_none; [exact JO | exact N] | apply mgets_fail]. Qed.
Lemma AddIndexTx_no_coll A i x : named A (ai_db i) x -> mget (di_colls x) (ai_coll i) = None -> mgets A (AddIndexTx J i) (Err ErrCollectionNotExistsD).
Proof. intros N C. apply mgets_bind_err. unfold checkIndexNameNotExists. eapply mgets_bind; [apply getDbInfo_named; [exact JO | exact N]|]. cbv iota. rewrite C. apply mgets_fail. Qed.
Lemma AddIndexTx_exists A i x c k : named A (ai_db i) x -> mget (di_colls x) (ai_coll i) = Some c -> mget (ci_indices c) (dx_name (ai_index i)) = Some k -> mgets A (AddIndexTx J i) (Err ErrIndexAlreadyExists).
Proof.
  intros N C K. unfold AddIndexTx. eapply mgets_bind with (a := true); [|apply mgets_fail]. unfold checkIndexNameNotExists. eapply mgets_bind; [apply getDbInfo_named; [exact JO | exact N]|]. cbv iota. rewrite C, K. apply mgets_ret.
Qed.
(** the job AddIndex enqueues, ids g+1 and g+2 *)
Definition index_arg (i : AII) (id : Z) : IndexInfo := II id (dx_name (ai_index i)) (Some (IIR (ai_coll i) (ai_db i) 0)) (dx_cols (ai_index i)) (dx_unique (ai_index i)) Absent.
Definition index_job (i : AII) (g : Z) : Job := MkJob (g + 2) ActionAddIndex JNone false 0 (ArgIndex (index_arg i (g + 1))) Absent.
Lemma index_job_wf i g : 0 <= g -> g + 2 < two63 -> dev_ok (DIndex i false) -> wf_job (index_job i g).
Proof.
  intros G L (U1 & U2 & U3 & U4). unfold index_job. split; [cbn [j_id]; unfold is_i64; rewrite two63_val in *; lia|]. split; [cbn; unfold is_u8, ActionAddIndex; lia|].
  split; [unfold is_i64; cbn [j_errcount]; rewrite two63_val; lia|]. cbn [j_arg wf_arg]. split; [cbn; unfold is_i64; rewrite two63_val in *; lia|]. split; [exact U3|]. split; [|exact U4].
  cbn [index_arg ii_red wf_opt]. split; [exact U2|]. split; [exact U1|]. cbn [ir_cid]. unfold is_i64. rewrite two63_val. lia.
Qed.
Lemma AddIndexTx_d A i x c : 0 <= gid A -> gid A + 2 < two63 -> dev_ok (DIndex i false) -> named A (ai_db i) x -> mget (di_colls x) (ai_coll i) = Some c ->
  mget (ci_indices c) (dx_name (ai_index i)) = None ->
  mdo 1 A (AddIndexTx J i) (Ok (index_job i (gid A))) (with_queue (with_gid A (gid A + 2)) DefaultJobList (queue A ++ [index_job i (gid A)])).
Proof.
  intros G0 G1 U N C K. unfold AddIndexTx. eapply mdo_get; [lia | |].
  { unfold checkIndexNameNotExists. eapply mgets_bind; [apply getDbInfo_named; [exact JO | exact N]|]. cbv iota. rewrite C, K. apply mgets_ret. }
  cbv iota. set (g := gid A) in *. assert (I2 : is_i64 2) by (unfold is_i64; rewrite two63_val; lia).
  eapply (mdo_then J 0 1 1); [lia | lia | lia | apply GenGlobalIDs_d; exact I2|]. rewrite (inc_gid A 2) by (unfold g in *; lia). fold g. cbn [fst].
  replace (g + 2 - 2) with g by lia. rewrite (to_i64_id g) by (unfold is_i64; rewrite two63_val in *; lia). rewrite (to_i64_id (g + 1)), (to_i64_id (g + 2)) by (unfold is_i64; rewrite two63_val in *; lia). cbv zeta. cbn [ToModel ii_name ii_cols ii_unique ii_state].
  fold (index_arg i (g + 1)). fold (index_job i g).
  eapply (mdo_then J 1 0 1); [lia | lia | lia | apply (EnQueueDDLJob_d J _ DefaultJobList (index_job i g)); apply index_job_wf; [lia | lia | exact U] | apply mdo_ret].
Qed.
Lemma index_inv_did T y D R st A i io : sinv T y D R st A -> dev_ok (DIndex i io) -> T + dweight (DIndex i io) < two63 ->
  exists R' A', sinv (T + dweight (DIndex i io)) (dstep J y (DIndex i io)) D R' st A' /\ m_did A' = m_did A.
Proof.
  intros I K L. cbn [dweight] in *. pose proof (room_le T D R st) as RL. assert (Lu : room T D R st + 1 < two63) by lia.
  assert (SAME : sinv (T + 3) y D R st A) by (eapply sinv_weaken; [|exact I]; lia).
  cbn [dstep]. unfold AddIndex. pose proof (si_holds _ _ _ _ _ _ I) as H. pose proof (si_gid _ _ _ _ _ _ I) as G. pose proof (si_state _ _ _ _ _ _ I) as DS.
  pose proof (ds_effects _ _ _ _ DS) as EF.
  destruct (used_name_dec J JO A (ai_db i)) as [U|U]; [exists (room T D R st), (y_db y); split; [exact H | lia]| |].
  2:{ rewrite (holds_view_err _ _ _ _ _ io H ltac:(lia) (AddIndexTx_no_db A i U)). exists R, A. split; [|reflexivity]. cbn [accepted]. eapply sinv_same; [| | |exact SAME]; reflexivity. }
  apply (used_name_iff _ _ _ EF) in U. apply in_map_iff in U. destruct U as (d & Ed & Id). pose proof (named_of _ _ _ EF (ds_names _ _ _ _ DS) Id) as Nm. rewrite Ed in Nm.
  destruct (mget (di_colls d) (ai_coll i)) as [c|] eqn:Ec.
  2:{ assert (X : mget (di_colls (pub_di d)) (ai_coll i) = None) by (cbn [pub_di di_colls]; destruct (di_colls d) as [m|]; [|reflexivity]; cbn [option_map mget] in *; rewrite get_smap_map, Ec; reflexivity).
      rewrite (holds_view_err _ _ _ _ _ io H ltac:(lia) (AddIndexTx_no_coll A i _ Nm X)). exists R, A. split; [|reflexivity]. cbn [accepted]. eapply sinv_same; [| | |exact SAME]; reflexivity. }
  assert (X : mget (di_colls (pub_di d)) (ai_coll i) = Some (pub_ci c)) by (cbn [pub_di di_colls]; destruct (di_colls d) as [m|]; [|discriminate]; cbn [option_map mget] in *; rewrite get_smap_map, Ec; reflexivity).
  assert (Ni : ci_indices c = None).
  { assert (Icj : exists j, In j (applied D R st) /\ j_arg j = ArgDB d).
    { unfold dbs_of in Id. apply in_flat_map in Id. destruct Id as (j & Ij & Xj). exists j. split; [exact Ij|]. destruct (j_arg j); try destruct Xj as [Xj|[]]; try contradiction; congruence. }
    destruct Icj as (j & Ij & Ej). assert (In j (D ++ R)).
    { clear - Ij. unfold applied in Ij. apply in_or_app. destruct st; auto. destruct R as [|a r]; [auto|]. apply in_app_iff in Ij. destruct Ij as [Ij|[<-|[]]]; [auto | right; left; reflexivity]. }
    pose proof (si_ok _ _ _ _ _ _ I) as F. rewrite Forall_forall in F. destruct (F j H0) as [_ [(d0 & C1 & C2)|(i0 & C1 & _)]]; [|rewrite C1 in Ej; discriminate].
    assert (d0 = d) by (rewrite C1 in Ej; cbn in Ej; congruence). subst d0. apply C2. destruct (di_colls d) as [m|]; [|discriminate]. apply vals_in. exists (ai_coll i). exact Ec. }
  pose proof (AddIndexTx_d A i _ _ (proj1 G) ltac:(lia) K Nm X) as M. assert (Y : mget (ci_indices (pub_ci c)) (dx_name (ai_index i)) = None) by (cbn [pub_ci ci_indices]; rewrite Ni; reflexivity).
  specialize (M Y). destruct (update_run J _ _ _ _ _ _ _ io Z.le_0_1 H Lu M) as [(E & _)|(d' & E & H')]; rewrite E; cbn [accepted].
  - exists R, A. split; [|reflexivity]. eapply sinv_same; [| | |exact SAME]; reflexivity.
  - exists (R ++ [index_job i (gid A)]), (with_queue (with_gid A (gid A + 2)) DefaultJobList (queue A ++ [index_job i (gid A)])). split; [|reflexivity].
    eapply (enqueue_inv T 3 y D R st A (index_job i (gid A)) d' 2); [exact I | lia | lia | cbn; lia | lia | reflexivity | | | | exact H'].
    + change (ids_of (index_job i (gid A))) with [gid A + 2; gid A + 1]. constructor; [lia|]. constructor; [lia | constructor].
    + change (ids_of (index_job i (gid A))) with [gid A + 2; gid A + 1]. constructor; [intros [Z1|[]]; lia|]. constructor; [intros [] | constructor].
    + split; [apply index_job_wf; [lia | lia | exact K]|]. right. exists (index_arg i (gid A + 1)). split; [reflexivity|]. exists (IIR (ai_coll i) (ai_db i) 0), d, c. auto.
Qed.
Lemma index_inv T y D R st A i io : sinv T y D R st A -> dev_ok (DIndex i io) -> T + dweight (DIndex i io) < two63 ->
  exists R' A', sinv (T + dweight (DIndex i io)) (dstep J y (DIndex i io)) D R' st A'.
Proof. intros I K L. destruct (index_inv_did T y D R st A i io I K L) as (R' & A' & H & _). exists R', A'. exact H. Qed.
(** * Worker iterations *)
(** what one committed iteration does to the finished jobs [D], the rest [R] and the head's status *)
Inductive worked : list Job -> list Job -> hstat -> list Job -> list Job -> hstat -> Prop :=
| WIdle D : worked D [] HFresh D [] HFresh
| WApply D j r d : j_arg j = ArgDB d -> ~ In (di_name d) (map di_name (dbs_of D)) -> worked D (j :: r) HFresh D (j :: r) HApplied
| WFinish D j r : worked D (j :: r) HApplied (D ++ [j]) r HFresh
| WFail D j r d : j_arg j = ArgDB d -> In (di_name d) (map di_name (dbs_of D)) -> worked D (j :: r) HFresh D (j :: r) HFailed
| WWedge D R : worked D R HFailed D R HFailed
| WStick D j r i st : j_arg j = ArgIndex i -> st = HFresh \/ st = HStuck -> worked D (j :: r) st D (j :: r) HStuck.
Lemma applied_in D R st j : In j (applied D R st) -> In j (D ++ R).
Proof.
  unfold applied. intros I. apply in_or_app. destruct st; auto. destruct R as [|a r]; [auto|]. apply in_app_iff in I. destruct I as [I|[<-|[]]]; [auto | right; left; reflexivity].
Qed.
Lemma plain_colls T y D R st A d k c : sinv T y D R st A -> In d (dbs_of (applied D R st)) -> mget (di_colls d) k = Some c -> ci_indices c = None.
Proof.
  intros I Id Ec. apply in_flat_map in Id. destruct Id as (j & Ij & Xj). assert (Ej : j_arg j = ArgDB d) by (destruct (j_arg j); cbn in Xj; try destruct Xj as [Xj|[]]; try contradiction; congruence).
  apply applied_in in Ij. pose proof (si_ok _ _ _ _ _ _ I) as F. rewrite Forall_forall in F. destruct (F j Ij) as [_ [(d0 & C1 & C2)|(i0 & C1 & _)]]; [|rewrite C1 in Ej; discriminate].
  assert (d0 = d) by (rewrite C1 in Ej; cbn in Ej; congruence). subst d0. apply C2. destruct (di_colls d) as [m|]; [|discriminate]. apply vals_in. exists k. exact Ec.
Qed.
Lemma mget_pub d k c : mget (di_colls d) k = Some c -> mget (di_colls (pub_di d)) k = Some (pub_ci c).
Proof. cbn [pub_di di_colls]. destruct (di_colls d) as [m|]; [|discriminate]. cbn [option_map mget]. intros E. rewrite get_smap_map, E. reflexivity. Qed.
(** the sequences (database id, collection id) a job's effects need, and the job whose effects an iteration commits *)
Definition seqs_of (j : Job) : list (Z * Z) := match j_arg j with ArgDB d => map (fun c => (di_id d, ci_id c)) (vals (di_colls d)) | _ => [] end.
Definition newly (R : list Job) (st st' : hstat) : list Job := match st, st', R with HFresh, HApplied, j :: _ => [j] | _, _, _ => [] end.
(** what the body does, and that its outcome satisfies the invariant *)
Lemma body_inv T y D R st A o : sinv T y D R st A -> orders_are o -> T < two63 ->
  exists D' R' st' A' x, worked D R st D' R' st' /\ used D R st <= used D' R' st' /\
    mdo (used D' R' st' - used D R st) A (iter_body J o (y_vars y)) (Ok x) A' /\ (i_res x = Ok tt \/ exists e, i_res x = Err e /\ D' = D /\ R' = R /\ st' = st)  /\
    i_after x = flat_map seqs_of (newly R st st') /\ ((st' = HApplied -> i_nojob x = false) /\ m_did A' = m_did A) /\
    forall d' v, holds (room T D' R' st') d' A' -> v = vars0 \/ v = i_vars x -> i_res x = Ok tt -> sinv T (Sys d' v (y_jobs y)) D' R' st' A'.
Proof.
  intros I O L. destruct I as [I1 I2 I3 I4 I5 I6 I7] eqn:EI. clear EI. pose proof I3 as [E1 E2 E3 E4 E5 E6].
  pose proof (used_total D R st) as UT. pose proof (sizes_nonneg (D ++ R)) as SN. pose proof (room_le T D R st) as RL.
  destruct R as [|j r].
  { assert (st = HFresh) by (eapply stat_nil; exact I3). subst st. exists D, [], HFresh, A. eexists. split; [constructor|]. split; [lia|].
    split; [replace (used D [] HFresh - used D [] HFresh) with 0 by lia; apply (iter_nojob J JO A o (y_vars y)); exact E3|]. split; [left; reflexivity|]. split; [reflexivity|]. split; [split; [discriminate | reflexivity]|].
    intros d' v Hh Hv _. split; try assumption. cbn [y_vars i_vars] in *. intros X. destruct Hv as [->| ->]; [discriminate | exact (I5 X)]. }
  assert (Jok : job_ok (applied D (j :: r) st) j) by (rewrite Forall_forall in I4; apply I4; apply in_or_app; right; left; reflexivity).
  destruct Jok as [Wj Fj].
  assert (LD : llen D + 1 <= T) by (unfold total in I6; rewrite llen_app, llen_cons in I6; pose proof (llen_nonneg r); pose proof (llen_nonneg D); lia).
  destruct st.
  - (* fresh *)
    cbn [applied head_as] in *. fold (queue A) in E3.
    destruct Fj as [(d & C1 & C2)|(i & C1 & rd & d & c & C2 & C3 & C4 & C5)].
    + assert (Ea : j_arg j = ArgDB d) by (rewrite C1; reflexivity). assert (Et : j_type j = ActionCreateSchema) by (rewrite C1; reflexivity).
      assert (Rn : runnable j) by (rewrite C1; split; [reflexivity | left; reflexivity]).
      destruct (fresh_head D j r d (proj1 E4) Ea) as [Fr ND]. assert (VA : ver A = llen D) by apply E1. pose proof (llen_nonneg D) as L0.
      destruct (used_name_dec J JO A (di_name d)) as [U|U]; [exists (room T D (j :: r) HFresh), (y_db y); split; [exact I2 | lia]| |].
      * exists D, (j :: r), HFailed. do 2 eexists. split; [apply (WFail D j r d Ea); apply (used_name_iff _ _ _ E1); exact U|]. split; [unfold used; cbn [applied]; lia|].
        split; [replace (used D (j :: r) HFailed - used D (j :: r) HFresh) with 0 by (unfold used; cbn [applied]; lia)|].
        { apply (iter_create_used J JO A o (y_vars y) j r d E3 Rn Wj); try assumption. rewrite C1. reflexivity. }
        split; [left; reflexivity|]. split; [reflexivity|]. split; [split; [discriminate | reflexivity]|]. intros d' v Hh Hv _. split; try assumption; [|intros _; reflexivity]. split; try assumption.
        -- eapply effects_ext; [exact E1 | reflexivity..].
        -- cbn [with_queue m_queue qeqb head_as]. f_equal. unfold failed_job, add_error, set_state. cbn [j_id j_type j_errcount j_arg j_sstate j_state j_err]. rewrite C1 at 3. cbn [j_errcount].
           replace (to_i64 (0 + 1)) with 1 by (symmetry; apply to_i64_id; unfold is_i64; rewrite two63_val; lia). reflexivity.
        -- exists j, r, d. split; [reflexivity|]. split; [exact Ea|]. apply (used_name_iff _ _ _ E1). exact U.
      * exists D, (j :: r), HApplied. do 2 eexists. split; [apply (WApply D j r d Ea); intros X; apply U; apply (used_name_iff _ _ _ E1); exact X|].
        assert (Eu : used D (j :: r) HApplied - used D (j :: r) HFresh = 1 + llen (vals (di_colls d))).
        { unfold used. cbn [applied]. rewrite (llen_app D [j]), sizes_app, llen_cons, llen_nil, sizes_cons, sizes_nil. unfold jsize. rewrite Ea. lia. }
        pose proof (llen_nonneg (vals (di_colls d))). split; [lia|]. rewrite Eu. split.
        { apply (iter_create J JO A o (y_vars y) j r d O E3 Rn Wj Ea Et); try assumption; try lia.
          - destruct (m_db A (di_id d)) as [x|] eqn:X; [|reflexivity]. apply (ef_db _ _ E1) in X. destruct X as (d' & Id & Ei & _). exfalso. exact (Fr d' Id (eq_sym Ei)).
          - intros cc Icc. destruct (m_coll A (di_id d) cc) as [x|] eqn:X; [|reflexivity]. apply (ef_coll _ _ E1) in X. destruct X as (d' & c0 & Id & _ & Ei & _). exfalso. exact (Fr d' Id (eq_sym Ei)). }
        split; [left; reflexivity|]. split; [cbn [i_after newly flat_map]; rewrite app_nil_r; unfold seqs_of; rewrite Ea; unfold coll_ids; rewrite map_map; reflexivity|]. split; [split; reflexivity|].
        intros d' v Hh Hv _. set (cids := map ci_id (o_ids o (vals (di_colls (pub_di d))))) in *.
        assert (Pc : Permutation cids (coll_ids d)).
        { unfold cids. rewrite <- coll_ids_pub. apply Permutation_map. apply O. }
        pose proof (effects_add D A j d cids E1 Et Ea Fr ND Pc) as EF.
        split; try assumption; [| |cbn [y_vars i_vars] in *; intros X; destruct Hv as [->| ->]; discriminate].
        -- split; try assumption.
           ++ eapply effects_ext; [exact EF | reflexivity..].
           ++ cbn [with_queue m_queue qeqb head_as]. f_equal. unfold done_job, set_sstate, set_state. cbn [j_id j_type j_errcount j_arg j_sstate j_state j_err]. rewrite C1. reflexivity.
           ++ cbn [applied]. rewrite dbs_app, (dbs_one j d Ea), map_app. cbn [map]. apply (Permutation_NoDup (l := di_name d :: map di_name (dbs_of D))).
              ** apply Permutation_cons_append.
              ** constructor; [|exact E5]. intros X. apply U. apply (used_name_iff _ _ _ E1). exact X.
           ++ discriminate.
        -- eapply Forall_impl; [|exact I4]. intros j'. apply job_ok_more. intros d0 Id. cbn [applied]. rewrite dbs_app. apply in_or_app. left. exact Id.
    + assert (Ea : j_arg j = ArgIndex i) by (rewrite C1; reflexivity).
      assert (IX : idx_job A j i rd (pub_di d) (pub_ci c)).
      { split; [rewrite C1; reflexivity | exact Ea | exact C2 | rewrite <- C4; apply (named_of _ _ _ E1 E5 C3) | apply mget_pub; exact C5]. }
      assert (Nc : ci_indices (pub_ci c) = None) by (cbn [pub_ci ci_indices]; rewrite (plain_colls T y D (j :: r) HFresh A d _ c I C3 C5); reflexivity).
      exists D, (j :: r), HStuck. do 2 eexists. split; [apply (WStick D j r i); auto|]. split; [unfold used; cbn [applied]; lia|].
      split; [replace (used D (j :: r) HStuck - used D (j :: r) HFresh) with 0 by (unfold used; cbn [applied]; lia)|].
      { apply (iter_index_panic J JO A o (y_vars y) j r i rd (pub_di d) (pub_ci c)); try assumption.
        - destruct (v_err (y_vars y)); [specialize (I5 eq_refl); discriminate | reflexivity].
        - rewrite C1. split; [reflexivity | left; reflexivity].
        - rewrite C1. reflexivity. }
      split; [left; reflexivity|]. split; [reflexivity|]. split; [split; [discriminate | reflexivity]|]. intros d' v Hh Hv _. split; try assumption.
      * split; try assumption.
        -- eapply effects_ext; [exact E1 | reflexivity..].
        -- cbn [with_queue m_queue qeqb head_as]. f_equal. unfold set_state. rewrite C1. reflexivity.
        -- exists j, r, i. auto.
      * cbn [y_vars i_vars] in *. intros X. destruct Hv as [->| ->]; [discriminate|]. specialize (I5 X). discriminate.
  - (* applied *)
    fold (queue A) in E3. assert (W1 : wf_job (head_as HApplied j)).
    { destruct Wj as (A1 & A2 & A3 & A4). split; [exact A1|]. split; [exact A2|]. split; [|exact A4]. unfold is_i64. cbn [head_as j_errcount]. rewrite two63_val. lia. }
    pose proof (iter_done J JO A o (y_vars y) (head_as HApplied j) r E3 eq_refl eq_refl W1) as M. change (set_state (head_as HApplied j) JSynced) with (synced j) in M. change (j_id (head_as HApplied j)) with (j_id j) in M.
    exists (D ++ [j]), r, HFresh. do 2 eexists. split; [apply WFinish|].
    assert (Eu : used (D ++ [j]) r HFresh - used D (j :: r) HApplied = 1) by (unfold used; cbn [applied]; rewrite <- app_assoc; cbn [app]; rewrite (llen_app D [j]), llen_cons, llen_nil; lia).
    split; [lia|]. rewrite Eu. split; [exact M|]. split; [left; reflexivity|]. split; [reflexivity|]. split; [split; [discriminate | reflexivity]|]. intros d' v Hh Hv _.
    assert (ED : D ++ j :: r = (D ++ [j]) ++ r) by (rewrite <- app_assoc; reflexivity).
    split; try assumption; try (rewrite <- ED; assumption); cbn [applied] in *.
    + split; try assumption; try (rewrite <- ED; assumption); try exact Logic.I.
      * cbn [applied]. eapply effects_ext; [exact E1 | reflexivity..].
      * intros id x. cbn [with_hist m_hist with_queue]. unfold zupd. destruct (Z.eqb_spec id (j_id j)) as [->|N].
        -- split.
           ++ intros X. injection X as <-. exists j. split; [apply in_or_app; right; left; reflexivity | auto].
           ++ intros (j' & Ij & Ei & ->). apply in_app_iff in Ij. destruct Ij as [Ij|[<-|[]]]; [|reflexivity]. exfalso.
              destruct E4 as [N4 _]. rewrite flat_map_app in N4. apply nodup_app in N4. destruct N4 as (_ & _ & N4). apply (N4 (j_id j)).
              ** apply in_flat_map. exists j'. split; [exact Ij | rewrite Ei; left; reflexivity].
              ** cbn [flat_map]. apply in_or_app. left. left. reflexivity.
        -- rewrite E2. split; intros (j' & Ij & Ei & Ex); exists j'; (split; [|auto]); [apply in_or_app; auto|]. apply in_app_iff in Ij. destruct Ij as [Ij|[<-|[]]]; [exact Ij | congruence].
      * cbn [with_hist with_queue m_queue qeqb]. destruct r; reflexivity.
    + intros X. cbn [y_vars i_vars] in *. destruct Hv as [->| ->]; [discriminate|]. specialize (I5 X). discriminate.
  - (* failed *)
    fold (queue A) in E3. exists D, (j :: r), HFailed, A. eexists. split; [constructor|]. split; [lia|]. replace (used D (j :: r) HFailed - used D (j :: r) HFailed) with 0 by lia.
    split; [apply (iter_unreadable J JO A o (y_vars y) (head_as HFailed j) r E3 eq_refl)|]. split; [right; exists EDecode; auto|]. split; [reflexivity|]. split; [split; [discriminate | reflexivity]|]. intros d' v _ _ X. discriminate.
  - (* stuck *)
    fold (queue A) in E3. destruct E6 as (j0 & r0 & i0 & Ej & Ea). injection Ej as <- <-. destruct Fj as [(d & C1 & C2)|(i & C1 & rd & d & c & C2 & C3 & C4 & C5)]; [rewrite C1 in Ea; discriminate|].
    assert (Ei : i0 = i) by (rewrite C1 in Ea; cbn in Ea; congruence). subst i0. cbn [applied] in *.
    assert (IX : idx_job A (head_as HStuck j) i rd (pub_di d) (pub_ci c)).
    { split; [rewrite C1; reflexivity | exact Ea | exact C2 | rewrite <- C4; apply (named_of _ _ _ E1 E5 C3) | apply mget_pub; exact C5]. }
    assert (Nc : ci_indices (pub_ci c) = None) by (cbn [pub_ci ci_indices]; rewrite (plain_colls T y D (j :: r) HStuck A d _ c I C3 C5); reflexivity).
    exists D, (j :: r), HStuck. do 2 eexists. split; [apply (WStick D j r i); auto|]. split; [lia|]. replace (used D (j :: r) HStuck - used D (j :: r) HStuck) with 0 by lia.
    split.
    { apply (iter_index_panic J JO A o (y_vars y) (head_as HStuck j) r i rd (pub_di d) (pub_ci c)); try assumption.
      - destruct (v_err (y_vars y)); [specialize (I5 eq_refl); discriminate | reflexivity].
      - split; [reflexivity | right; right; reflexivity].
      - destruct Wj as (A1 & A2 & A3 & A4). split; [exact A1|]. split; [exact A2|]. split; [|exact A4]. unfold is_i64. cbn [head_as j_errcount]. rewrite two63_val. lia.
      - rewrite C1. reflexivity. }
    split; [left; reflexivity|]. split; [reflexivity|]. split; [split; [discriminate | reflexivity]|]. intros d' v Hh Hv _. split; try assumption.
    + split; try assumption.
      * eapply effects_ext; [exact E1 | reflexivity..].
      * reflexivity.
      * exists j, r, i. auto.
    + cbn [y_vars i_vars] in *. intros X. destruct Hv as [->| ->]; [discriminate|]. specialize (I5 X). discriminate.
Qed.
Lemma work_inv T y D R st A o io : sinv T y D R st A -> orders_are o -> T < two63 ->
  exists D' R' st' A', sinv T (dstep J y (DWork o io)) D' R' st' A' /\ (worked D R st D' R' st' \/ io = true /\ D' = D /\ R' = R /\ st' = st).
Proof.
  intros I O L. destruct (body_inv T y D R st A o I O L) as (D' & R' & st' & A' & x & W & Lu & M & Rs & AF & (NJ & DI) & N).
  assert (RESET : sinv T (Sys (y_db y) vars0 (y_jobs y)) D R st A) by (destruct I as [I1 I2 I3 I4 I5 I6 I7]; split; try assumption; discriminate).
  assert (C0 : 0 <= used D' R' st' - used D R st) by lia. pose proof (used_total D R st) as UT. pose proof (si_total _ _ _ _ _ _ I) as TT.
  assert (ED : D' ++ R' = D ++ R) by (destruct W; try reflexivity; rewrite <- app_assoc; reflexivity).
  pose proof (room_le T D' R' st') as RL. assert (ER : room T D R st + (used D' R' st' - used D R st) = room T D' R' st') by (unfold room; rewrite ED; lia).
  pose proof (iteration_spec _ _ _ o (y_vars y) io _ x A' C0 (si_holds _ _ _ _ _ _ I) ltac:(lia) M) as S.
  destruct Rs as [Rs|(e & Rs & -> & -> & ->)]; rewrite Rs in S.
  - cbn [dstep]. destruct S as [(d' & E & H)|(Hio & E)]; rewrite E; cbn [e_db next_vars e_return e_vars].
    + exists D', R', st', A'. split; [|left; exact W]. rewrite ER in H.
      apply N; [exact H | unfold next_vars; cbn [e_return e_vars]; destruct (i_nojob x); auto | exact Rs].
    + exists D, R, st, A. split; [exact RESET | right; auto].
  - cbn [dstep]. rewrite S. exists D, R, st, A. split; [exact RESET | left; exact W].
Qed.
(** the same, with what the iteration leaves to be done after the commit *)
Lemma work_after T y D R st A o io : sinv T y D R st A -> orders_are o -> T < two63 -> let e := iteration J o (y_vars y) (y_db y) io in
  exists D' R' st' A', sinv T (dstep J y (DWork o io)) D' R' st' A' /\ m_did A' = m_did A /\ e_res e <> Panic /\
    (worked D R st D' R' st' /\ e_after e = flat_map seqs_of (newly R st st') /\ (newly R st st' <> [] -> e_return e = false /\ v_err (e_vars e) = false) \/
     D' = D /\ R' = R /\ st' = st /\ e_after e = [] /\ e_return e = true).
Proof.
  intros I O L. destruct (body_inv T y D R st A o I O L) as (D' & R' & st' & A' & x & W & Lu & M & Rs & AF & (NJ & DI) & N).
  assert (RESET : sinv T (Sys (y_db y) vars0 (y_jobs y)) D R st A) by (destruct I as [I1 I2 I3 I4 I5 I6 I7]; split; try assumption; discriminate).
  assert (C0 : 0 <= used D' R' st' - used D R st) by lia. pose proof (used_total D R st) as UT. pose proof (si_total _ _ _ _ _ _ I) as TT.
  assert (ED : D' ++ R' = D ++ R) by (destruct W; try reflexivity; rewrite <- app_assoc; reflexivity).
  pose proof (room_le T D' R' st') as RL. assert (ER : room T D R st + (used D' R' st' - used D R st) = room T D' R' st') by (unfold room; rewrite ED; lia).
  pose proof (iteration_spec _ _ _ o (y_vars y) io _ x A' C0 (si_holds _ _ _ _ _ _ I) ltac:(lia) M) as S.
  destruct Rs as [Rs|(e & Rs & -> & -> & ->)]; rewrite Rs in S.
  - cbn [dstep]. destruct S as [(d' & E & H)|(Hio & E)]; rewrite E; cbv zeta; cbn [e_db next_vars e_return e_vars e_res e_after].
    + rewrite ER in H. exists D', R', st', A'. split; [|split; [exact DI|split; [discriminate|]]].
      * apply N; [exact H | unfold next_vars; cbn [e_return e_vars]; destruct (i_nojob x); auto | exact Rs].
      * left. split; [exact W|]. split; [exact AF|]. intros NE. assert (st' = HApplied) by (unfold newly in NE; destruct st, st'; congruence). split; [auto|].
        pose proof (si_vars _ _ _ _ _ _ (N d' (i_vars x) H (or_intror eq_refl) Rs)) as V. cbn [y_vars] in V. destruct (v_err (i_vars x)); [|reflexivity]. specialize (V eq_refl). congruence.
    + exists D, R, st, A. split; [exact RESET|]. split; [reflexivity|]. split; [discriminate | right; auto].
  - cbn [dstep]. rewrite S. exists D, R, st, A. split; [exact RESET|]. split; [reflexivity|]. cbn [e_res e_after e_return]. split; [discriminate | right; auto].
Qed.
Lemma crash_inv T y D R st A : sinv T y D R st A -> sinv T (dstep J y DCrash) D R st A.
Proof. intros [I1 I2 I3 I4 I5 I6 I7]. split; try assumption. discriminate. Qed.
(** document-id counters and writes of other keys *)
Lemma did_inv T y D R st A d' A' : sinv T y D R st A -> (d' = y_db y /\ A' = A \/ holds (room T D R st + 1) d' A' /\ exists f, A' = with_did A f) ->
  sinv (T + 1) (Sys d' (y_vars y) (y_jobs y)) D R st A'.
Proof.
  intros I [[-> ->]|[H (f & ->)]]; [eapply sinv_same; [| | |eapply sinv_weaken; [|exact I]; lia]; reflexivity|]. destruct I as [I1 I2 I3 I4 I5 I6 I7].
  split; try assumption; try lia.
  - cbn [y_db]. unfold room in *. eapply holds_le; [|exact H]. lia.
  - destruct I3 as [E1 E2 E3 E4 E5 E6]. split; try assumption. eapply effects_ext; [exact E1 | reflexivity..].
  - unfold gid in *. cbn [with_did m_gid]. lia.
Qed.
Lemma DidSet_d A i c v : is_i64 i -> is_i64 c -> is_i64 v ->
  mdo 1 A (HSetInt64 P (dbKeyByID i) (didSequenceKeyByID c) v) (Ok tt) (with_did A (zupd (m_did A) i (zupd (m_did A i) c (Some v)))).
Proof.
  intros Hi Hc Hs. eapply mdo_meq; [apply with_did_coll|]. intros S R. pose proof (HSetInt64_spec P (dbKeyByID i) (didSequenceKeyByID c) v S meta_prefix_good) as X.
  destruct (mr_db J _ _ R i Hi) as [A1 A2 A3]. eexists. split; [exact X|]. apply (mrep_db J); [exact R | exact Hi|]. split.
  - apply tab_setk; [discriminate | exact A1].
  - apply tab_set; [apply inj_did | exact Hc | exact Hs | exact A2].
  - intros f x. rewrite get_set. destruct (bytes_eqb f _) eqn:Y; [|apply A3]. apply bytes_eqb_eq in Y. intros _. exists c. auto.
Qed.
Lemma holds_other n d d' A : holds n d A -> db_ok d' -> (forall k, has_prefix k P = true -> get (dview d') k = get (dview d) k) -> holds n d' A.
Proof.
  intros (K & S & R & M) K' E. split; [exact K'|]. exists S. split; [|exact M]. destruct R as [(Ls & W & B) Hh O]. split.
  - exists Ls. split; [|exact B]. intros k V. rewrite E by apply ek_prefix. apply W. exact V.
  - exact Hh.
  - intros k e G Hp. rewrite E in G by exact Hp. exact (O k e G Hp).
Qed.
Lemma commit_other d t io d' t' r k : (forall j o, get (t_pend t) j = Some o -> has_prefix j P = false) -> commit d t io = (d', t', r) -> has_prefix k P = true -> get (dview d') k = get (dview d) k.
Proof.
  intros N E Hk. apply commit_next in E. destruct E as [-> | ->]; [reflexivity|]. unfold dview. cbn [publish d_kv d_now]. unfold live_map.
  rewrite !get_sfilter, get_apply_pend. destruct (get (t_pend t) k) as [o|] eqn:G; [|reflexivity]. apply N in G. congruence.
Qed.
Lemma other_inv T y D R st A e : sinv T y D R st A -> dev_ok e -> T + dweight e < two63 -> match e with DDid _ _ _ _ | DRelease _ _ _ _ | DOther _ _ => True | _ => False end ->
  exists A', sinv (T + dweight e) (dstep J y e) D R st A' /\ exists f, A' = with_did A f.
Proof.
  intros I K L X. pose proof (si_holds _ _ _ _ _ _ I) as H. pose proof (room_le T D R st) as RL. assert (SAME : exists f, A = with_did A f) by (exists (m_did A); destruct A; reflexivity).
  destruct e as [i io|i io|o io| |a c s io|a c s io|t io]; try destruct X; cbn [dev_ok dweight dstep loc_inc loc_set] in *.
  - destruct K as (K1 & K2 & K3). destruct (update_run J _ _ _ _ _ _ _ io Z.le_0_1 H ltac:(lia) (DidInc_d J A a c s K1 K2 K3)) as [(E & _)|(d' & E & H')]; rewrite E; cbn [fst].
    + exists A. split; [apply (did_inv T y D R st A); auto | exact SAME].
    + eexists. split; [apply (did_inv T y D R st A); [exact I|]; right; split; [exact H' | eexists; reflexivity] | eexists; reflexivity].
  - destruct K as (K1 & K2 & K3). destruct (update_run J _ _ _ _ _ _ _ io Z.le_0_1 H ltac:(lia) (DidSet_d A a c s K1 K2 K3)) as [(E & _)|(d' & E & H')]; rewrite E; cbn [fst].
    + exists A. split; [apply (did_inv T y D R st A); auto | exact SAME].
    + eexists. split; [apply (did_inv T y D R st A); [exact I|]; right; split; [exact H' | eexists; reflexivity] | eexists; reflexivity].
  - exists A. split; [|exact SAME]. rewrite Z.add_0_r. destruct (commit (y_db y) t io) as [[d' t'] r] eqn:E. cbn [fst]. destruct I as [I1 I2 I3 I4 I5 I6 I7]. split; try assumption. cbn [y_db].
    eapply holds_other; [exact I2 | eapply commit_db_ok; [exact (proj1 I2) | exact E]|]. intros k Hk. eapply commit_other; [exact K | exact E | exact Hk].
Qed.
(** * Any history *)
Lemma weight_nonneg e : 0 <= dweight e.
Proof. destruct e as [i io|i io|o io| |a c s io|a c s io|t io]; cbn [dweight]; unfold llen; try lia. destruct (cs_indices i); lia. Qed.
Lemma load_nonneg es : 0 <= dload es.
Proof. induction es as [|e es IH]; cbn [dload fold_right]; [lia|]. pose proof (weight_nonneg e). unfold dload in IH. lia. Qed.
Lemma step_inv T y D R st A e : sinv T y D R st A -> dev_ok e -> T + dweight e < two63 ->
  exists D' R' st' A', sinv (T + dweight e) (dstep J y e) D' R' st' A' /\ (exists l, D' = D ++ l).
Proof.
  intros I K L. assert (OTH : match e with DDid _ _ _ _ | DRelease _ _ _ _ | DOther _ _ => True | _ => False end -> exists D' R' st' A', sinv (T + dweight e) (dstep J y e) D' R' st' A' /\ (exists l, D' = D ++ l)).
  { intros X. destruct (other_inv T y D R st A e I K L X) as (A' & H & _). exists D, R, st, A'. split; [exact H | exists []; rewrite app_nil_r; reflexivity]. }
  destruct e as [i io|i io|o io| |a c s io|a c s io|t io]; try (apply OTH; exact Logic.I); clear OTH.
  - destruct (create_inv T y D R st A i io I K L) as (R' & A' & H). exists D, R', st, A'. split; [exact H | exists []; rewrite app_nil_r; reflexivity].
  - destruct (index_inv T y D R st A i io I K L) as (R' & A' & H). exists D, R', st, A'. split; [exact H | exists []; rewrite app_nil_r; reflexivity].
  - cbn [dweight] in *. rewrite Z.add_0_r in *. destruct (work_inv T y D R st A o io I K L) as (D' & R' & st' & A' & H & W). exists D', R', st', A'. split; [exact H|].
    destruct W as [W|(_ & -> & _)]; [|exists []; rewrite app_nil_r; reflexivity]. destruct W; try (exists []; rewrite app_nil_r; reflexivity). exists [j]. reflexivity.
  - cbn [dweight] in *. rewrite Z.add_0_r in *. exists D, R, st, A. split; [apply crash_inv; exact I | exists []; rewrite app_nil_r; reflexivity].
Qed.
Lemma run_inv es : forall T y D R st A, sinv T y D R st A -> Forall dev_ok es -> T + dload es < two63 ->
  exists D' R' st' A', sinv (T + dload es) (drun J y es) D' R' st' A' /\ (exists l, D' = D ++ l).
Proof.
  induction es as [|e es IH]; intros T y D R st A I F L.
  - exists D, R, st, A. cbn [dload fold_right drun fold_left]. rewrite Z.add_0_r. split; [exact I | exists []; rewrite app_nil_r; reflexivity].
  - inversion F as [|? ? F1 F2]; subst. cbn [dload fold_right] in L. pose proof (load_nonneg es) as L0. unfold dload in L0. pose proof (weight_nonneg e).
    destruct (step_inv T y D R st A e I F1 ltac:(lia)) as (D1 & R1 & st1 & A1 & I1 & (l1 & E1)).
    destruct (IH _ _ _ _ _ _ I1 F2) as (D2 & R2 & st2 & A2 & I2 & (l2 & E2)); [unfold dload; lia|].
    exists D2, R2, st2, A2. split; [|exists (l1 ++ l2); rewrite E2, E1, app_assoc; reflexivity].
    cbn [drun fold_left]. unfold drun in I2. eapply sinv_weaken; [|exact I2]. cbn [dload fold_right]. unfold dload. lia.
Qed.
Lemma start_inv d : holds 0 d m_empty -> sinv 0 (dstart d) [] [] HFresh m_empty.
Proof.
  intros H. split; try reflexivity; try exact H.
  - split; try reflexivity; try exact Logic.I.
    + split; try reflexivity.
      * intros j [].
      * intros id x. split; [discriminate | intros (d' & [] & _)].
      * intros id c x. split; [discriminate | intros (d' & c0 & [] & _)].
      * intros v x X. discriminate.
      * intros n d' X. destruct n; discriminate.
    + intros id x. split; [discriminate | intros (j & [] & _)].
    + split; constructor.
    + constructor.
  - constructor.
  - discriminate.
  - cbn. unfold gid. cbn. lia.
Qed.
End WithJson.
