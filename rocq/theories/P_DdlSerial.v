(** Overlapping schema changes: C89.
    encoding/json is a parameter J meeting the contract [json_ok] (MetaCodec.v has an instance). *)
From Verif Require Import Bytes SMap Provider ProviderProofs World Memcmp MemcmpProofs Numeric KvUtil KeyModel Struct
  StructProofs StructHash StructList UtilTxn Sequence SequenceProofs Model Meta MetaCodec MetaSpec MetaProofs MetaOps MetaRun P_Meta Ddl DdlSpec DdlProofs DdlWorker DdlSys DdlMore P_Ddl.
From Verif Require SerialProofs.
From Verif Require Import DdlSerial DdlSerialProofs.
From Coq Require Import Permutation.

(** a history on a database without schema metadata in which nothing expires *)
Definition overlap_ok (J : json) (d : db) (es : list kev) : Prop :=
  db_ok d /\ no_meta d /\ SerialProofs.eternal (d_kv d) /\ Forall kev_ok es /\ kload J (kstart d) es < two63.
Definition after_overlap (J : json) (d : db) (es : list kev) : ksys := krun J (kstart d) es.

Lemma overlap_inv J (JO : json_ok J) d es : overlap_ok J d es -> exists D R st A, kinv J (kload J (kstart d) es) (after_overlap J d es) D R st A.
Proof.
  intros (H1 & H2 & H3 & H4 & H5). destruct (krun_inv J JO es 0 (kstart d) [] [] HFresh m_empty (kstart_inv J d (empty_holds J d H1 H2) H3) H4 ltac:(lia)) as (D & R & st & A & I & _).
  rewrite Z.add_0_l in I. exists D, R, st, A. exact I.
Qed.
(** * However the transactions of the requests, of the workers of any number of processes and of the id allocators overlap,
    and whichever of them conflict, fail or are never ended, the metadata is what DdlSpec.v says of the answered
    requests: the jobs finished, [D], and those waiting, [R], in the order of the answers; the effects of the finished ones
    (and of the first waiting one if its effects are committed), each once and in order; all ids different;
    and the caller waiting for a job is answered exactly when it is finished. *)
Theorem C89_overlapping_changes_take_effect_once : forall J, json_ok J -> forall d0 es, overlap_ok J d0 es -> let y := after_overlap J d0 es in
  exists D R st A, k_jobs y = D ++ R /\ dstate D R st A /\ sees J (k_db y) A /\
    (forall j, In j D -> poll J (k_db y) (j_id j) false = Returned None) /\ (forall j io, In j R -> poll J (k_db y) (j_id j) io = Waiting).
Proof.
  intros J JO d0 es H y. destruct (overlap_inv J JO d0 es H) as (D & R & st & A & I). fold y in I. pose proof (ki_sys _ _ _ _ _ _ _ I) as S. destruct H as (_ & _ & _ & _ & L).
  exists D, R, st, A. split; [exact (si_jobs _ _ _ _ _ _ _ S)|]. split; [exact (si_state _ _ _ _ _ _ _ S)|]. split; [exact (sinv_sees J JO _ _ _ _ _ _ S L)|]. split.
  - intros j Ij. exact (finished_returns J JO _ _ _ _ _ _ j S L Ij).
  - intros j io Ij. exact (pending_waits J JO _ _ _ _ _ _ j io S L Ij).
Qed.
Print Assumptions C89_overlapping_changes_take_effect_once.
(** * An answered request stays answered, its database and collections stay there, whatever overlaps afterwards *)
Theorem C89_answered_is_done : forall J, json_ok J -> forall d0 es es', overlap_ok J d0 (es ++ es') -> forall j, In j (k_jobs (after_overlap J d0 es)) ->
  poll J (k_db (after_overlap J d0 es)) (j_id j) false = Returned None ->
  let y' := after_overlap J d0 (es ++ es') in
  poll J (k_db y') (j_id j) false = Returned None /\
  exists x, j_arg j = ArgDB x /\ run_view (k_db y') (mexec J (MGetDB (di_id x))) = Ok (VDb (pub_di x)) /\
    (forall c, In c (vals (di_colls x)) -> run_view (k_db y') (mexec J (MGetColl (di_id x) (ci_id c))) = Ok (VColl (pub_ci c))).
Proof.
  intros J JO d0 es es' (H1 & H2 & H3 & H4 & H5) j Ij Pj y'. apply Forall_app in H4. destruct H4 as [H4 H6]. rewrite kload_app in H5. fold (after_overlap J d0 es) in H5.
  pose proof (kload_nonneg J es' (after_overlap J d0 es)) as L1. pose proof (kload_nonneg J es (kstart d0)) as L0.
  destruct (overlap_inv J JO d0 es) as (D & R & st & A & I); [split; [exact H1|]; split; [exact H2|]; split; [exact H3|]; split; [exact H4 | lia]|].
  pose proof (ki_sys _ _ _ _ _ _ _ I) as S.
  assert (ID : In j D).
  { pose proof (si_jobs _ _ _ _ _ _ _ S) as E. cbn [ksnap y_jobs] in E. rewrite E in Ij. apply in_app_iff in Ij. destruct Ij as [Ij|Ij]; [exact Ij|].
    pose proof (pending_waits J JO _ _ _ _ _ _ j false S ltac:(lia) Ij) as X. cbn [ksnap y_db] in X. rewrite X in Pj. discriminate. }
  destruct (krun_inv J JO es' _ _ _ _ _ _ I H6 H5) as (D' & R' & st' & A' & I' & (l & ED) & _). assert (Y : krun J (after_overlap J d0 es) es' = y') by (unfold y', after_overlap; rewrite krun_app; reflexivity).
  rewrite Y in I'. assert (ID' : In j D') by (rewrite ED; apply in_or_app; auto). pose proof (ki_sys _ _ _ _ _ _ _ I') as S'.
  split; [exact (finished_returns J JO _ _ _ _ _ _ j S' H5 ID')|].
  pose proof (sinv_sees J JO _ _ _ _ _ _ S' H5) as SE. cbn [ksnap y_db] in SE. pose proof (ds_effects _ _ _ _ (si_state _ _ _ _ _ _ _ S')) as EF.
  assert (IA : In j (applied D' R' st')) by (unfold applied; destruct st'; try exact ID'; destruct R'; [exact ID' | apply in_or_app; auto]).
  destruct (ef_create _ _ EF j IA) as (_ & x & Ea). exists x. split; [exact Ea|].
  assert (IX : In x (dbs_of (applied D' R' st'))) by (apply in_flat_map; exists j; split; [exact IA | rewrite Ea; left; reflexivity]).
  assert (Db : m_db A' (di_id x) = Some (pub_di x)) by (apply (ef_db _ _ EF); eauto).
  assert (Wj : wf_di x).
  { pose proof (si_ok _ _ _ _ _ _ _ S') as F. rewrite Forall_forall in F. destruct (F j) as [W _]; [apply in_or_app; auto|]. pose proof (proj2 (proj2 (proj2 W))) as Wa. rewrite Ea in Wa. exact Wa. }
  pose proof (wf_vals x Wj) as WV. split.
  - destruct (SE (MGetDB (di_id x)) eq_refl (proj1 Wj)) as (r & [-> _] & X). rewrite X, Db. reflexivity.
  - intros c Ic. rewrite Forall_forall in WV. destruct (SE (MGetColl (di_id x) (ci_id c)) eq_refl (conj (proj1 Wj) (proj1 (WV c Ic)))) as (r & [-> _] & X). rewrite X. unfold exists_db.
    assert (CO : m_coll A' (di_id x) (ci_id c) = Some (pub_ci c)) by (apply (ef_coll _ _ EF); exists x, c; auto). rewrite Db, CO. reflexivity.
Qed.
Print Assumptions C89_answered_is_done.
(** * The databases listed have different names, as many as the schema version says, each asked for by an accepted job *)
Theorem C89_version_counts : forall J, json_ok J -> forall d0 es, overlap_ok J d0 es -> let y := after_overlap J d0 es in
  exists l, run_view (k_db y) (mexec J MListDBs) = Ok (VDbs l) /\ run_view (k_db y) (mexec J MGetVersion) = Ok (VInt (Z.of_nat (length l))) /\
    NoDup (map di_name l) /\ forall x, In x l -> exists j x0, In j (k_jobs y) /\ j_arg j = ArgDB x0 /\ x = pub_di x0.
Proof.
  intros J JO d0 es H y. destruct (overlap_inv J JO d0 es H) as (D & R & st & A & K). fold y in K. pose proof (ki_sys _ _ _ _ _ _ _ K) as I. destruct H as (_ & _ & _ & _ & L).
  pose proof (sinv_sees J JO _ _ _ _ _ _ I L) as SE. cbn [ksnap y_db] in SE.
  destruct (SE MListDBs eq_refl Logic.I) as (r & [(l & -> & L1 & L2) _] & X). destruct (SE MGetVersion eq_refl Logic.I) as (r2 & [-> _] & X2). exists l. split; [exact X|].
  pose proof (ds_effects _ _ _ _ (si_state _ _ _ _ _ _ _ I)) as EF. pose proof (ds_names _ _ _ _ (si_state _ _ _ _ _ _ _ I)) as NN.
  assert (Inl : forall x, In x l <-> exists z, In z (dbs_of (applied D R st)) /\ x = pub_di z).
  { intros x. rewrite L2, (ef_db _ _ EF). split; [intros (z & Iz & _ & ->); eauto | intros (z & Iz & ->); exists z; auto]. }
  assert (Pm : Permutation l (map pub_di (dbs_of (applied D R st)))).
  { apply NoDup_Permutation; [eapply NoDup_map_inv; exact L1 | | intros x; rewrite Inl, in_map_iff; split; intros (z & Z1 & Z2); eauto].
    apply (NoDup_map_inv di_name). rewrite map_map. exact NN. }
  split; [|split].
  - rewrite X2, (ef_ver _ _ EF), (Permutation_length Pm), map_length, (dbs_len _ _ EF). reflexivity.
  - eapply Permutation_NoDup; [apply Permutation_map, Permutation_sym; exact Pm|]. rewrite map_map. exact NN.
  - intros x Ix. apply Inl in Ix. destruct Ix as (z & Iz & ->). apply in_flat_map in Iz. destruct Iz as (j & Ij & Xj). exists j, z.
    pose proof (si_jobs _ _ _ _ _ _ _ I) as E. cbn [ksnap y_jobs] in E. rewrite E. split; [apply applied_in in Ij; exact Ij|]. split; [|reflexivity].
    destruct (j_arg j); cbn in Xj; try contradiction. destruct Xj as [->|[]]. reflexivity.
Qed.
Print Assumptions C89_version_counts.
(** * A worker's iteration, begun on one state and ended on another, either changes nothing and leaves nothing to be done,
    or is the iteration a worker alone would make at the moment of the commit *)
Theorem C89_worker_transactions_are_atomic : forall J, json_ok J -> forall d0 es n p o d v io, overlap_ok J d0 es -> let y := after_overlap J d0 es in
  k_open y n = Some (KWork p o, d, v) ->
  let e := iteration_at J o v d (k_db y) io in
  k_db (kstep J y (KEnd n io)) = e_db e /\ ((e_db e = k_db y /\ e_after e = []) \/ e = iteration J o v (k_db y) io).
Proof.
  intros J JO d0 es n p o d v io H y O e. split; [cbn [kstep]; rewrite O; reflexivity|]. destruct (overlap_inv J JO d0 es H) as (D & R & st & A & K). fold y in K.
  destruct (work_end J _ y D R st A p o d v io K (ki_open _ _ _ _ _ _ _ K _ _ _ _ O)) as [(X1 & X2 & _)|X]; [left; auto | right; exact X].
Qed.
Print Assumptions C89_worker_transactions_are_atomic.
(** * A request whose transaction ends is refused without a trace, or answered with the job asked for, whose ids nobody else has or will have *)
Theorem C89_requests : forall J, json_ok J -> forall d0 es n i d v io, overlap_ok J d0 (es ++ [KEnd n io]) -> let y := after_overlap J d0 es in
  k_open y n = Some (KCreate i, d, v) ->
  let y' := kstep J y (KEnd n io) in
  (k_jobs y' = k_jobs y /\ k_db y' = k_db y) \/ exists j, k_jobs y' = k_jobs y ++ [j] /\ requested i j /\ forall x, In x (ids_of j) -> ~ In x (flat_map ids_of (k_jobs y)).
Proof.
  intros J JO d0 es n i d v io (H1 & H2 & H3 & H4 & H5) y O y'. apply Forall_app in H4. destruct H4 as [H4 _]. rewrite kload_app in H5. fold (after_overlap J d0 es) in H5. fold y in H5.
  cbn [kload kweight] in H5. rewrite O in H5. pose proof (kcost_nonneg (KCreate i)) as C0.
  destruct (overlap_inv J JO d0 es) as (D & R & st & A & K); [split; [exact H1|]; split; [exact H2|]; split; [exact H3|]; split; [exact H4 | lia]|]. fold y in K.
  destruct (create_kinv J _ y D R st A n i d v io K O ltac:(lia)) as (R' & A' & K' & _ & [X|(j & x & E & NJ)]); [left; exact X|]. right. exists j. split; [exact E|]. split; [eapply new_requested; exact NJ|].
  intros z Iz Iz'. pose proof (ki_sys _ _ _ _ _ _ _ K') as S'. pose proof (si_jobs _ _ _ _ _ _ _ S') as EJ. cbn [ksnap y_jobs] in EJ. fold y' in EJ.
  pose proof (ds_ids _ _ _ _ (si_state _ _ _ _ _ _ _ S')) as [N _]. rewrite <- EJ in N. unfold y' in N. rewrite E in N. rewrite flat_map_app in N. apply nodup_app in N. destruct N as (_ & _ & N).
  apply (N z Iz'). cbn [flat_map]. rewrite app_nil_r. exact Iz.
Qed.
Print Assumptions C89_requests.

(** * After any such history, whatever it left open: if the accepted jobs create databases with different names, twice as many
    undisturbed iterations, by workers of whichever processes, finish them all *)
Theorem C89_completes : forall J, json_ok J -> forall d0 es xs, overlap_ok J d0 es -> let y := after_overlap J d0 es in
  (forall j, In j (k_jobs y) -> exists x, j_arg j = ArgDB x) -> NoDup (map di_name (dbs_of (k_jobs y))) ->
  Forall (fun x => orders_are (snd x)) xs -> (2 * length (k_jobs y) <= length xs)%nat ->
  let y' := krun J y (flat_map (fun x : nat * nat * orders => let '(n, p, o) := x in [KBegin n (KWork p o); KEnd n false]) xs) in
  forall j, In j (k_jobs y) -> poll J (k_db y') (j_id j) false = Returned None.
Proof.
  intros J JO d0 es xs H y AC ND F Lo y' j Ij. destruct (overlap_inv J JO d0 es H) as (D & R & st & A & K). fold y in K. pose proof (ki_sys _ _ _ _ _ _ _ K) as I. destruct H as (_ & _ & _ & _ & L).
  pose proof (si_jobs _ _ _ _ _ _ _ I) as EJ. cbn [ksnap y_jobs] in EJ. rewrite EJ in *.
  assert (N : (steps_left R st <= length xs)%nat) by (rewrite app_length in Lo; unfold steps_left; destruct st; lia).
  destruct (rounds_kinv J JO xs _ y D R st A K F L (conj AC ND) N) as (A' & K').
  assert (EY : krun J y (flat_map round xs) = y').
  { unfold y'. f_equal. clear. induction xs as [|[[n p] o] xs IH]; [reflexivity|]. cbn [flat_map]. rewrite IH. reflexivity. }
  rewrite EY in K'. exact (finished_returns J JO _ _ _ _ _ _ j (ki_sys _ _ _ _ _ _ _ K') L Ij).
Qed.
Print Assumptions C89_completes.

(** * Concrete histories *)
(** two requests overlap: the second to end conflicts and is made again; the workers of two processes take the same job:
    the first to end applies it, the second conflicts; a third request and a lease overlap with them; a process dies with
    a transaction open; a document is written *)
Definition busy : list kev :=
  [ KBegin 0 (KCreate (bare (str "shop") [str "orders"; str "users"])); KBegin 1 (KCreate (bare (str "blog") [str "posts"])); KEnd 0 false; KEnd 1 false;
    KBegin 1 (KCreate (bare (str "blog") [str "posts"]));
    KBegin 10 (KWork 0 ident); KEnd 1 false; KEnd 10 false;
    KBegin 10 (KWork 0 ident); KBegin 11 (KWork 1 backwards); KBegin 12 (KWork 2 ident); KEnd 10 true; KEnd 11 false; KEnd 12 false;
    KOther a_doc false; KBegin 20 (KDid 1 2 1000); KBegin 21 (KDid 1 2 500); KEnd 21 false; KEnd 20 false; KBegin 20 (KRelease 1 2 7); KCrash 1;
    KBegin 11 (KWork 1 ident); KBegin 10 (KWork 0 ident); KEnd 10 false; KDrop 11; KEnd 20 false;
    KBegin 2 (KIndex (MkAII (str "shop") (str "users") (MkDIX (str "by_name") [str "name"] true))); KEnd 2 true ].
Definition applied_while_asking : list kev :=
  [ KBegin 0 (KCreate (bare (str "shop") [])); KEnd 0 false; KBegin 1 (KCreate (bare (str "shop") [])); KBegin 10 (KWork 0 ident); KEnd 10 false ].
Lemma kbare_ok n a cs : utf8 a = true -> forallb utf8 cs = true -> kev_ok (KBegin n (KCreate (bare a cs))).
Proof. intros H F. split; [exact H|]. apply Forall_forall. rewrite forallb_forall in F. exact F. Qed.
Lemma kdoc_ok : kev_ok (KOther a_doc false).
Proof.
  intros k o G. split; [eapply a_doc_ok; exact G|]. intros x ->. unfold a_doc in G. cbn [t_pend] in G. rewrite get_set in G. destruct (bytes_eqb k (str "doc")); [|discriminate G].
  assert (X : x = mk (str "x")) by congruence. subst x. reflexivity.
Qed.
Ltac kok := repeat (apply Forall_cons || apply Forall_nil); try exact Logic.I; try (apply kbare_ok; reflexivity); try exact ident_ok; try exact backwards_ok; try exact kdoc_ok.
Lemma start_eternal : SerialProofs.eternal (d_kv d00).
Proof. intros k e X. discriminate X. Qed.
Example C89_example : overlap_ok demo_json d00 busy /\
  let y := after_overlap demo_json d00 busy in
  map (fun j => (j_id j, ids_of j)) (k_jobs y) = [(4, [4; 1; 2; 3]); (7, [7; 5; 6])] /\
  map (fun j => poll demo_json (k_db y) (j_id j) false) (k_jobs y) = [Returned None; Waiting] /\
  map (fun n => length (k_jobs (after_overlap demo_json d00 (firstn n busy)))) [3; 4; 7]%nat = [1; 1; 2]%nat /\
  map (fun n => run_view (k_db (after_overlap demo_json d00 (firstn n busy))) (mexec demo_json MGetVersion)) [8; 12; 13; 14; 28]%nat = [Ok (VInt 0); Ok (VInt 0); Ok (VInt 1); Ok (VInt 1); Ok (VInt 1)] /\
  (exists d v, k_open (after_overlap demo_json d00 (firstn 13 busy)) 12 = Some (KWork 2 ident, d, v) /\
     e_res (iteration_at demo_json ident v d (k_db (after_overlap demo_json d00 (firstn 13 busy))) false) = Err EConflict).
Proof.
  split.
  - split; [apply db_ok_init|]. split; [exact no_meta_init|]. split; [exact start_eternal|]. split; [|vm_compute; reflexivity].
    unfold busy. kok; (split; [|split]); try reflexivity; try (vm_compute; split; discriminate || reflexivity); try (split; vm_compute; discriminate || reflexivity).
    all: unfold is_i64; rewrite ?two63_val; try lia. split; [reflexivity|]. constructor; [reflexivity | constructor].
  - cbv zeta. split; [vm_compute; reflexivity|]. split; [vm_compute; reflexivity|]. split; [vm_compute; reflexivity|]. split; [vm_compute; reflexivity|].
    eexists. eexists. split; [vm_compute; reflexivity | vm_compute; reflexivity].
Qed.
Example C89_completes_nonvacuous : overlap_ok demo_json d00 busy /\ let y := after_overlap demo_json d00 busy in
  (forall j, In j (k_jobs y) -> exists x, j_arg j = ArgDB x) /\ NoDup (map di_name (dbs_of (k_jobs y))) /\ length (k_jobs y) = 2%nat.
Proof.
  split; [exact (proj1 C89_example)|]. cbv zeta. split; [apply all_db; vm_compute; reflexivity|]. split; [|vm_compute; reflexivity].
  assert (X : map di_name (dbs_of (k_jobs (after_overlap demo_json d00 busy))) = [str "shop"; str "blog"]) by (vm_compute; reflexivity). rewrite X.
  constructor; [intros [X'|[]]; discriminate | constructor; [intros [] | constructor]].
Qed.
(** the names are checked on the state the request began on: this one is accepted although, when it is answered, the database
    exists and another request for it would be refused *)
Example C89_name_check_is_stale : overlap_ok demo_json d00 (applied_while_asking ++ [KEnd 1 false]) /\
  let y := after_overlap demo_json d00 applied_while_asking in
  snd (CreateSchema demo_json (k_db y) (bare (str "shop") []) false) = Err ErrDBAlreadyExists /\
  length (k_jobs (kstep demo_json y (KEnd 1 false))) = 2%nat.
Proof.
  split.
  - split; [apply db_ok_init|]. split; [exact no_meta_init|]. split; [exact start_eternal|]. split; [|vm_compute; reflexivity]. unfold applied_while_asking. kok.
  - cbv zeta. split; vm_compute; reflexivity.
Qed.
