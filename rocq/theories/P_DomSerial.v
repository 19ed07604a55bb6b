(** The schema caches of any number of processes while schema changes overlap: C90; their document transactions' schema
    checks: C91. encoding/json is a parameter J meeting the contract [json_ok] (MetaCodec.v has an instance). *)
From Verif Require Import Bytes SMap Provider ProviderProofs World Memcmp MemcmpProofs Numeric KvUtil KeyModel Struct
  StructProofs StructHash StructList UtilTxn Sequence SequenceProofs Model Meta MetaCodec MetaSpec MetaProofs MetaOps MetaRun Schema Ddl DdlSpec DdlProofs DdlWorker DdlSys DdlIndex DdlMore Domain DomainProofs.
From Verif Require P_Schema P_Meta P_Ddl SerialProofs.
From Verif Require Import P_Domain DdlSerial DdlSerialProofs P_DdlSerial DomSerial DomSerialProofs.

(** * Specification *)
(** a history on a database without schema metadata *)
Definition shared_ok (J : json) (d : db) (es : list fev) : Prop := overlap_ok J d (ddl_of es) /\ fok J (fstart d) es.
Definition after (J : json) (d : db) (es : list fev) : fsys := frun J (fstart d) es.
Definition store (f : fsys) : db := k_db (f_k f).
Definition reloading (f : fsys) (p : nat) : Prop := f_rel f p <> None.
Definition lives (p : nat) (es : list fev) : Prop := ~ In (FDdl (KCrash p)) es.

Lemma shared_inv J (JO : json_ok J) d es : shared_ok J d es -> exists G D R st A, finv J (kload J (kstart d) (ddl_of es)) ((d, []) :: G) (after J d es) D R st A /\ map fst G = dbs_along J (fstart d) es.
Proof.
  intros [(H1 & H2 & H3 & H4 & H5) O]. destruct (frun_inv J JO es 0 _ _ _ _ _ _ (fstart_inv J d (P_Ddl.empty_holds J d H1 H2) H3) H4 O) as (G & D & R & st & A & I & M & _); [cbn [fstart f_k]; lia|].
  exists G, D, R, st, A. cbn [fstart f_k] in I. rewrite Z.add_0_l in I. split; [exact I | exact M].
Qed.
Lemma shared_split J d es es' : shared_ok J d (es ++ es') -> shared_ok J d es /\ Forall kev_ok (ddl_of es') /\ fok J (after J d es) es' /\
  kload J (kstart d) (ddl_of (es ++ es')) = kload J (kstart d) (ddl_of es) + kload J (f_k (after J d es)) (ddl_of es') /\ kload J (kstart d) (ddl_of (es ++ es')) < two63.
Proof.
  intros [(H1 & H2 & H3 & H4 & H5) O]. apply fok_app in O. destruct O as [O1 O2]. pose proof H5 as H5'. rewrite ddl_of_app in H4, H5'. apply Forall_app in H4. destruct H4 as [H4 H6]. rewrite kload_app in H5'.
  assert (E : krun J (kstart d) (ddl_of es) = f_k (after J d es)) by (unfold after; rewrite frun_k; reflexivity). rewrite E in H5'.
  pose proof (kload_nonneg J (ddl_of es') (f_k (after J d es))) as L0. split; [split; [|exact O1]; repeat (split; [assumption|]); lia|]. split; [exact H6|]. split; [exact O2|]. split; [|exact H5].
  rewrite ddl_of_app, kload_app, E. reflexivity.
Qed.
Lemma moment_store J d es G T L x : Forall (moment J T L) ((d, []) :: G) -> map fst G = dbs_along J (fstart d) es -> In x ((d, []) :: G) ->
  exists es1 es2, es = es1 ++ es2 /\ fst x = store (after J d es1).
Proof.
  intros _ M I. apply (in_map fst) in I. cbn [map fst] in I. rewrite M in I. exact (along_in J es (fstart d) (fst x) I).
Qed.
(** * Every cache is the schema the store held at some moment of the past *)
Theorem C90_caches_show_a_past_schema : forall J, json_ok J -> forall d es p, shared_ok J d es ->
  exists es1 es2, es = es1 ++ es2 /\ up_to_date J (store (after J d es1)) (f_h (after J d es) p).
Proof.
  intros J JO d es p H. destruct (shared_inv J JO d es H) as (G & D & R & st & A & I & M). destruct (fi_h _ _ _ _ _ _ _ _ I p) as (_ & _ & (x & Ix & V & N) & _).
  pose proof (fi_G _ _ _ _ _ _ _ _ I) as FG. destruct (moment_store _ _ _ _ _ _ _ FG M Ix) as (es1 & es2 & E1 & E2). exists es1, es2. split; [exact E1|].
  rewrite Forall_forall in FG. destruct (FG x Ix) as (T0 & y0 & D0 & R0 & st0 & A0 & H1 & H2 & H3 & H4 & _). rewrite <- E2, <- H3. destruct H as [(_ & _ & _ & _ & LT) _].
  rewrite <- H4 in V, N. eapply (current_matches J JO); [exact H2 | lia | exact V | exact N].
Qed.
Print Assumptions C90_caches_show_a_past_schema.
(** * What a process lets a caller open is what was stored at some moment of the past *)
Theorem C90_names_that_open : forall J, json_ok J -> forall d es p, shared_ok J d es -> let h := f_h (after J d es) p in
  exists es1 es2 l, es = es1 ++ es2 /\ run_view (store (after J d es1)) (mexec J MListDBs) = Ok (VDbs l) /\
  (forall dbn, let is := exists x, In x l /\ di_name x = dbn in is /\ OpenDB h dbn = Ok dbn \/ ~ is /\ OpenDB h dbn = Err ErrNoDB) /\
  (forall dbn coll, let is := exists x c, In x l /\ di_name x = dbn /\ mget (di_colls x) coll = Some c in
     is /\ OpenCollection h dbn coll = Ok (dbn, coll) \/ ~ is /\ OpenCollection h dbn coll = Err ErrNoCollection) /\
  (forall dbn coll idx, let is := exists x c i, In x l /\ di_name x = dbn /\ mget (di_colls x) coll = Some c /\ mget (ci_indices c) idx = Some i in
     is /\ OpenIndex h dbn coll idx = Ok (dbn, coll, idx) \/ ~ is /\ OpenIndex h dbn coll idx = Err ErrNoIndex).
Proof.
  intros J JO d es p H h. destruct (C90_caches_show_a_past_schema J JO d es p H) as (es1 & es2 & E & (_ & l & L1 & L2 & L3)). fold h in L3. exists es1, es2, l. split; [exact E|]. split; [exact L1|].
  assert (ONE : forall dbn x, In x l -> di_name x = dbn -> find (by_name dbn) l = Some x) by (intros dbn x Ix Ex; apply find_name; assumption).
  assert (C : forall dbn, orel same_db (mget (cache_dbs (option_map c_val (h_val h))) dbn) (find (by_name dbn) l)) by exact L3.
  assert (F : forall dbn x, find (by_name dbn) l = Some x -> In x l /\ di_name x = dbn) by (intros dbn x X; apply find_some in X; destruct X as [X1 X2]; apply by_name_iff in X2; auto).
  split; [|split].
  - intros dbn is. unfold OpenDB, CheckDBExists. specialize (C dbn). destruct (mget _ dbn) as [y|]; destruct (find (by_name dbn) l) as [x|] eqn:X; try (destruct C; fail).
    + left. split; [exists x; apply F; exact X | reflexivity].
    + right. split; [|reflexivity]. intros (x & Ix & Ex). rewrite (ONE _ _ Ix Ex) in X. discriminate.
  - intros dbn coll is. unfold OpenCollection, CheckCollectionExists, cacheCollectionInfo. specialize (C dbn). destruct (mget (cache_dbs _) dbn) as [y|]; destruct (find (by_name dbn) l) as [x|] eqn:X; try (destruct C; fail).
    + destruct C as (_ & _ & _ & C). specialize (C coll). destruct (mget (di_colls y) coll) as [c|]; destruct (mget (di_colls x) coll) as [c'|] eqn:Y; try (destruct C; fail).
      * left. split; [|reflexivity]. exists x, c'. destruct (F _ _ X). auto.
      * right. split; [|reflexivity]. intros (x' & c & Ix & Ex & Ec). rewrite (ONE _ _ Ix Ex) in X. assert (x' = x) by congruence. subst x'. congruence.
    + right. split; [|reflexivity]. intros (x & c & Ix & Ex & _). rewrite (ONE _ _ Ix Ex) in X. discriminate.
  - intros dbn coll idx is. unfold OpenIndex, CheckIndexExists, cacheCollectionInfo. specialize (C dbn). destruct (mget (cache_dbs _) dbn) as [y|]; destruct (find (by_name dbn) l) as [x|] eqn:X; try (destruct C; fail).
    + destruct C as (_ & _ & _ & C). specialize (C coll). destruct (mget (di_colls y) coll) as [c|]; destruct (mget (di_colls x) coll) as [c'|] eqn:Y; try (destruct C; fail).
      * destruct C as (_ & _ & _ & C). specialize (C idx). destruct (mget (ci_indices c) idx) as [i|]; destruct (mget (ci_indices c') idx) as [i'|] eqn:Q; try (destruct C; fail).
        -- left. split; [|reflexivity]. exists x, c', i'. destruct (F _ _ X). auto.
        -- right. split; [|reflexivity]. intros (x' & c0 & i & Ix & Ex & Ec & Ei). rewrite (ONE _ _ Ix Ex) in X. assert (x' = x) by congruence. subst x'. assert (c0 = c') by congruence. subst c0. congruence.
      * right. split; [|reflexivity]. intros (x' & c & i & Ix & Ex & Ec & _). rewrite (ONE _ _ Ix Ex) in X. assert (x' = x) by congruence. subst x'. congruence.
    + right. split; [|reflexivity]. intros (x & c & i & Ix & Ex & _). rewrite (ONE _ _ Ix Ex) in X. discriminate.
Qed.
Print Assumptions C90_names_that_open.
Lemma rel_kept J p es : forall f d, f_rel f p = Some d -> lives p es -> ~ In (FReloaded p) es -> f_rel (frun J f es) p = Some d.
Proof.
  induction es as [|e es IH]; intros f d E L N; [exact E|]. unfold frun. cbn [fold_left]. apply IH; [|intros X; apply L; right; exact X | intros X; apply N; right; exact X].
  destruct e as [e|q|q|n q|n b refs]; cbn [fstep].
  - destruct e as [n c|n io|n|q|t io]; try exact E. cbn [f_rel]. rewrite upd_other; [exact E|]. intros ->. apply L. left. reflexivity.
  - destruct (f_rel f q) eqn:Eq; [exact E|]. cbn [f_rel]. rewrite upd_other; [exact E|]. congruence.
  - destruct (f_rel f q) as [d'|] eqn:Eq; [|exact E]. destruct (reloadSchema J d' (f_h f q) (f_next f)) as [h r]. cbn [f_rel]. rewrite upd_other; [exact E|]. intros ->. apply N. left. reflexivity.
  - exact E.
  - destruct (f_txn f n) as [[q s]|]; exact E.
Qed.
(** * A reload ends, and shows exactly what the store held when it began *)
Theorem C90_reload_shows_its_beginning : forall J, json_ok J -> forall d a b p, let es := a ++ FReload p :: b in shared_ok J d (es ++ [FReloaded p]) ->
  ~ reloading (after J d a) p -> lives p b -> ~ In (FReloaded p) b ->
  let f := after J d (es ++ [FReloaded p]) in up_to_date J (store (after J d a)) (f_h f p) /\ ~ reloading f p.
Proof.
  intros J JO d a b p es H NR L N f. destruct (shared_split J d es [FReloaded p] H) as (H1 & _ & _ & _ & LT). destruct (shared_inv J JO d es H1) as (G & D & R & st & A & I & M).
  assert (E : f_rel (after J d es) p = Some (store (after J d a))).
  { unfold after, es. rewrite frun_app. fold (after J d a). cbn [frun fold_left]. apply (rel_kept J p b); [|exact L | exact N]. cbn [fstep]. unfold reloading in NR.
    destruct (f_rel (after J d a) p); [exfalso; apply NR; discriminate|]. cbn [f_rel]. rewrite upd_same. reflexivity. }
  pose proof (proj1 H1) as (_ & _ & _ & _ & LT1). destruct (reload_good J JO _ _ _ _ _ _ _ p _ I LT1 E) as (h' & ER & _ & UD & _).
  assert (EF : f = fstep J (after J d es) (FReloaded p)) by (unfold f, after; rewrite frun_app; reflexivity). rewrite EF. cbn [fstep]. rewrite E, ER. cbn [f_h f_rel]. unfold reloading. cbn [f_rel]. rewrite !upd_same. split; [exact UD | congruence].
Qed.
Print Assumptions C90_reload_shows_its_beginning.
Lemma cinv_grows L h h' : cinv L h -> cinv L h' -> version_of h <= version_of h' -> NoDup (map di_name (dbs_of L)) -> forall dbn y, mget (cached h) dbn = Some y -> exists y', mget (cached h') dbn = Some y' /\ same_db y' y.
Proof.
  intros C C' V ND dbn y E. unfold cached, version_of, cinv in *. destruct (h_val h) as [c|]; [|discriminate E]. cbn [option_map cache_dbs] in E. destruct C as (V1 & _ & L0 & L1 & EL & N & G).
  destruct (h_val h') as [c'|]; [|lia]. destruct C' as (V1' & _ & L0' & L1' & EL' & N' & G'). cbn [option_map cache_dbs]. specialize (G dbn). specialize (G' dbn). rewrite E in G.
  destruct (find (by_name dbn) (dbs_of L0)) as [z|] eqn:F; [|destruct G]. assert (PX : exists k, L0' = L0 ++ k).
  { exists (firstn (length L0' - length L0) L1). rewrite EL in EL'. assert (X : firstn (length L0') (L0 ++ L1) = L0') by (rewrite EL', firstn_app, firstn_all, Nat.sub_diag, firstn_O, app_nil_r; reflexivity).
    rewrite firstn_app in X. rewrite (firstn_all2 (n := length L0') L0) in X by lia. symmetry. exact X. }
  destruct PX as (k & ->). rewrite dbs_app, P_Schema.find_app', F in G'. destruct (mget (mc_dbs (c_val c')) dbn) as [y'|]; [|destruct G']. exists y'. split; [reflexivity|]. eapply sd_trans; [exact G' | apply sd_sym; exact G].
Qed.
Lemma cache_grows J (JO : json_ok J) d es es' p : shared_ok J d (es ++ es') -> lives p es' -> let h := f_h (after J d es) p in let h' := f_h (after J d (es ++ es')) p in
  version_of h <= version_of h' /\ forall dbn y, mget (cached h) dbn = Some y -> exists y', mget (cached h') dbn = Some y' /\ same_db y' y.
Proof.
  intros H LV h h'. destruct (shared_split J d es es' H) as (H1 & F & O & EL & LT). destruct (shared_inv J JO d es H1) as (G & D & R & st & A & I & M). rewrite EL in LT.
  destruct (frun_inv J JO es' _ _ _ _ _ _ _ I F O LT) as (G' & D' & R' & st' & A' & I' & _ & (l & GL) & _ & V). specialize (V p LV). assert (Ef : frun J (after J d es) es' = after J d (es ++ es')) by (unfold after; rewrite frun_app; reflexivity).
  rewrite Ef in I', V. split; [exact V|]. destruct (fi_h _ _ _ _ _ _ _ _ I p) as (_ & C & _). destruct (fi_h _ _ _ _ _ _ _ _ I' p) as (_ & C' & _). fold h in C, V. fold h' in C', V.
  pose proof (ds_names _ _ _ _ (si_state _ _ _ _ _ _ _ (ki_sys _ _ _ _ _ _ _ (fi_k _ _ _ _ _ _ _ _ I')))) as NN. apply (cinv_more _ l) in C. rewrite <- GL in C. exact (cinv_grows _ _ _ C C' V NN).
Qed.
(** * A process's cache never goes back: the version grows, and what could be opened can be opened, with the same ids *)
Theorem C90_never_goes_back : forall J, json_ok J -> forall d es es' p, shared_ok J d (es ++ es') -> lives p es' ->
  let h := f_h (after J d es) p in let h' := f_h (after J d (es ++ es')) p in
  version_of h <= version_of h' /\
  forall dbn coll c, cacheCollectionInfo (option_map c_val (h_val h)) dbn coll = Some c -> exists c', cacheCollectionInfo (option_map c_val (h_val h')) dbn coll = Some c' /\ same_coll c' c.
Proof.
  intros J JO d es es' p H LV h h'. destruct (cache_grows J JO d es es' p H LV) as [V K]. cbv zeta in *. fold h h' in V, K. split; [exact V|]. intros dbn coll c E.
  unfold cacheCollectionInfo in *. destruct (mget (cache_dbs (option_map c_val (h_val h))) dbn) as [y|] eqn:Ey; [|discriminate E]. destruct (K dbn y Ey) as (y' & Ey' & (_ & _ & _ & S)). unfold cached in Ey'. rewrite Ey'.
  specialize (S coll). rewrite E in S. destruct (mget (di_colls y') coll) as [c'|]; [|destruct S]. exists c'. auto.
Qed.
Print Assumptions C90_never_goes_back.
(** * A request that was answered is seen by every process that started a reload after the answer, from the end of that
    reload on, whatever process ran the job *)
Theorem C90_answered_requests_are_seen : forall J, json_ok J -> forall d a b c p j, let es := a ++ FReload p :: b ++ FReloaded p :: c in shared_ok J d es ->
  ~ reloading (after J d a) p -> lives p b -> ~ In (FReloaded p) b -> lives p c ->
  In j (k_jobs (f_k (after J d a))) -> poll J (store (after J d a)) (j_id j) false = Returned None ->
  exists x y, j_arg j = ArgDB x /\ mget (cached (f_h (after J d es) p)) (di_name x) = Some y /\ same_db y x.
Proof.
  intros J JO d a b c p j es H NR L1 N L2 Ij Pj.
  assert (E1 : es = (a ++ FReload p :: b ++ [FReloaded p]) ++ c) by (unfold es; rewrite <- app_assoc; cbn [app]; rewrite <- app_assoc; reflexivity).
  assert (E2 : a ++ FReload p :: b ++ [FReloaded p] = (a ++ FReload p :: b) ++ [FReloaded p]) by (rewrite <- app_assoc; reflexivity).
  rewrite E1, E2 in H. destruct (shared_split J d _ c H) as (H1 & F & O & EL & LT). destruct (C90_reload_shows_its_beginning J JO d a b p H1 NR L1 N) as [(_ & l & U1 & U2 & U3) _]. cbv zeta in U3.
  set (es1 := (a ++ FReload p :: b) ++ [FReloaded p]) in *.
  assert (Ha : shared_ok J d a). { unfold es1 in H1. rewrite <- app_assoc in H1. apply shared_split in H1. apply H1. }
  destruct (shared_inv J JO d a Ha) as (G & D & R & st & A & I & M). pose proof (ki_sys _ _ _ _ _ _ _ (fi_k _ _ _ _ _ _ _ _ I)) as S. pose proof (proj1 Ha) as (_ & _ & _ & _ & LTa).
  assert (ID : In j D).
  { pose proof (si_jobs _ _ _ _ _ _ _ S) as E. cbn [ksnap y_jobs] in E. rewrite E in Ij. apply in_app_iff in Ij. destruct Ij as [Ij|Ij]; [exact Ij|].
    pose proof (pending_waits J JO _ _ _ _ _ _ j false S LTa Ij) as X. cbn [ksnap y_db] in X. unfold store in Pj. rewrite X in Pj. discriminate. }
  assert (IA : In j (applied D R st)) by (unfold applied; destruct st; try exact ID; destruct R; [exact ID | apply in_or_app; auto]).
  pose proof (ds_effects _ _ _ _ (si_state _ _ _ _ _ _ _ S)) as EF. destruct (ef_create _ _ EF j IA) as (_ & x & Ea).
  assert (IX : In x (dbs_of (applied D R st))) by (apply in_flat_map; exists j; split; [exact IA | rewrite Ea; left; reflexivity]).
  assert (IL : In (pub_di x) l).
  { pose proof (used_lt J _ _ _ _ _ _ S LTa) as UL. destruct (read_op J JO _ _ _ MListDBs (si_holds _ _ _ _ _ _ _ S) UL eq_refl Logic.I) as (r & [(l' & -> & Ll) _] & E). cbn [ksnap y_db] in E. unfold store in U1. rewrite E in U1.
    assert (l' = l) by congruence. subst l'. apply (in_listed _ _ _ EF Ll). eauto. }
  specialize (U3 (di_name x)). change (fun x0 => bytes_eqb (di_name x0) (di_name x)) with (by_name (di_name x)) in U3. rewrite (find_name (di_name x) l (pub_di x) U2 IL eq_refl) in U3.
  destruct (mget (cached (f_h (after J d es1) p)) (di_name x)) as [y|] eqn:Ey; [|destruct U3]. destruct (cache_grows J JO d es1 c p H L2) as [_ K]. destruct (K _ _ Ey) as (y' & Ey' & S').
  exists x, y'. split; [exact Ea|]. rewrite E1, E2. split; [exact Ey'|]. eapply sd_trans; [exact S'|]. eapply sd_trans; [exact U3 | apply pub_same].
Qed.
Print Assumptions C90_answered_requests_are_seen.

(** * C91: the schema check of document transactions. A transaction that refers to collections its cache showed is
    refused exactly when its process's schema has moved on by more than 100 changes since it began (or it began before
    the process had any schema); the check never fails otherwise, and never leaves the lock held *)
Theorem C91_check_outcome : forall J, json_ok J -> forall d es n p s cancelled refs, shared_ok J d (es ++ [FCheck n cancelled refs]) -> let f := after J d es in
  f_txn f n = Some (p, s) -> let h := f_h f p in
  Check h cancelled s refs = (h, if cancelled then CkErr else CkRes match s, h_val h with
      | None, None => true
      | Some a, Some b => mc_version (c_val b) - mc_version (c_val a) <=? 100
      | _, _ => false
      end) /\
  version_of (Handle s 0) <= version_of h.
Proof.
  intros J JO d es n p s b refs H f E h. destruct (shared_split J d es _ H) as (H1 & _ & [O _] & _). destruct (shared_inv J JO d es H1) as (G & D & R & st & A & I & M). fold f in I, O.
  pose proof (fi_txn _ _ _ _ _ _ _ _ I n p s E) as ST. fold h in ST. split.
  - destruct b; [reflexivity|]. cbn [fev_ok] in O. rewrite E in O. destruct (fi_h _ _ _ _ _ _ _ _ I p) as (_ & C & _). exact (check_result J _ _ _ _ _ _ _ s h refs (fi_k _ _ _ _ _ _ _ _ I) C ST O).
  - destruct (fi_h _ _ _ _ _ _ _ _ I p) as (_ & C & _). fold h in C. unfold version_of at 1. cbn [h_val]. destruct s as [s|]; [|apply cinv_len in C; lia]. destruct ST as (c & Eh & [F1 _] & _). unfold version_of. rewrite Eh. exact F1.
Qed.
Print Assumptions C91_check_outcome.
(** * No lock is ever left held, so a reload never blocks, and never fails *)
Theorem C91_reloads_never_block : forall J, json_ok J -> forall d es p, shared_ok J d es -> let f := after J d es in
  h_readers (f_h f p) = 0%nat /\ forall d0 k, f_rel f p = Some d0 -> snd (reloadSchema J d0 (f_h f p) k) = RDone.
Proof.
  intros J JO d es p H f. destruct (shared_inv J JO d es H) as (G & D & R & st & A & I & M). fold f in I. destruct (fi_h _ _ _ _ _ _ _ _ I p) as (HR & C & _). split; [exact HR|]. intros d0 k E.
  destruct (fi_rel _ _ _ _ _ _ _ _ I p d0 E) as (L0 & IG & C0). pose proof (fi_G _ _ _ _ _ _ _ _ I) as FG. rewrite Forall_forall in FG.
  destruct (FG _ IG) as (T0 & y0 & D0 & R0 & st0 & A0 & H1 & H2 & H3 & H4 & _). cbn [fst snd] in H3, H4. subst d0 L0. destruct H as [(_ & _ & _ & _ & LT) _].
  exact (proj1 (proj2 (reload_inv J JO T0 y0 D0 R0 st0 A0 (f_h f p) k H2 ltac:(lia) C0)) HR).
Qed.
Print Assumptions C91_reloads_never_block.

(** * Concrete histories *)
Definition make (n : nat) (i : CSI) : list fev := map FDdl [KBegin n (KCreate i); KEnd n false; KBegin n (KWork 0 P_Ddl.ident); KEnd n false; KBegin n (KWork 0 P_Ddl.ident); KEnd n false].
(** process 1 starts a reload when only "shop" exists and ends it when "blog" exists too; process 0 reloads later;
    transaction 5 begins before process 1 has a schema, 6 after its first reload *)
Definition twocaches : list fev :=
  [FReload 1; FReloaded 1; FTxn 5 1] ++ make 0 (P_Ddl.bare (str "shop") [str "orders"; str "users"]) ++ [FReload 1] ++ make 0 (P_Ddl.bare (str "blog") [str "posts"]) ++
  [FReloaded 1; FTxn 6 1; FReload 0; FReloaded 0; FReload 1; FReloaded 1; FTxn 7 1; FDdl (KCrash 0)].
Definition opens (f : fsys) (p : nat) := (OpenDB (f_h f p) (str "shop"), OpenCollection (f_h f p) (str "blog") (str "posts"), version_of (f_h f p)).
Lemma twocaches_ok refs : (forall x, In x refs -> x = 2 \/ x = 3) -> shared_ok demo_json P_Ddl.d00 (twocaches ++ [FCheck 6 false refs]).
Proof.
  intros HR. split.
  - split; [apply db_ok_init|]. split; [exact P_Meta.no_meta_init|]. split; [exact start_eternal|]. split; [|vm_compute; reflexivity]. unfold twocaches, make. cbn [map ddl_of flat_map app].
    repeat (apply Forall_cons || apply Forall_nil); try exact Logic.I; try (apply kbare_ok; reflexivity); exact P_Ddl.ident_ok.
  - apply fok_app. split; [repeat (split; [exact Logic.I|]); exact Logic.I|]. split; [|exact Logic.I]. cbn [fev_ok]. set (q := f_txn (frun demo_json (fstart P_Ddl.d00) twocaches) 6).
    assert (E : exists s, q = Some (1%nat, s) /\ forall x, In x [2; 3] -> exists dbn coll c, cacheCollectionInfo (option_map c_val s) dbn coll = Some c /\ ci_id c = x).
    { vm_compute in q. subst q. eexists. split; [reflexivity|]. intros x [<-|[<-|[]]].
      - exists (str "shop"), (str "orders"). eexists. split; vm_compute; reflexivity.
      - exists (str "shop"), (str "users"). eexists. split; vm_compute; reflexivity. }
    destruct E as (s & -> & Hs). intros x Ix. apply Hs. destruct (HR x Ix) as [-> | ->]; cbn; auto.
Qed.
Example C90_example : shared_ok demo_json P_Ddl.d00 twocaches /\
  map (fun n => opens (after demo_json P_Ddl.d00 (firstn n twocaches)) 1) [3; 16; 17; 22]%nat =
    [(Err ErrNoDB, Err ErrNoCollection, 0); (Err ErrNoDB, Err ErrNoCollection, 0); (Ok (str "shop"), Err ErrNoCollection, 1); (Ok (str "shop"), Ok (str "blog", str "posts"), 2)] /\
  map (fun n => opens (after demo_json P_Ddl.d00 (firstn n twocaches)) 0) [17; 22; 24]%nat =
    [(Err ErrNoDB, Err ErrNoCollection, 0); (Ok (str "shop"), Ok (str "blog", str "posts"), 2); (Err ErrNoDB, Err ErrNoCollection, 0)].
Proof.
  split; [exact (proj1 (shared_split _ _ _ _ (twocaches_ok [] ltac:(intros x []))))|]. split; vm_compute; reflexivity.
Qed.
Example C91_example : shared_ok demo_json P_Ddl.d00 (twocaches ++ [FCheck 6 false [3; 2]]) /\ let f := after demo_json P_Ddl.d00 twocaches in
  (exists s, f_txn f 6 = Some (1%nat, Some s) /\ mc_version (c_val s) = 1 /\ version_of (f_h f 1) = 2 /\ snd (Check (f_h f 1) false (Some s) [3; 2]) = CkRes true) /\
  (f_txn f 5 = Some (1%nat, None) /\ snd (Check (f_h f 1) false None []) = CkRes false).
Proof.
  split; [apply twocaches_ok; intros x [<-|[<-|[]]]; auto|]. cbv zeta. split; [eexists; split; [vm_compute; reflexivity|]; split; [vm_compute; reflexivity|]; split; vm_compute; reflexivity | split; vm_compute; reflexivity].
Qed.
