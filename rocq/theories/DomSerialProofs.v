(** Proofs for DomSerial.v *)
From Verif Require Import Bytes SMap Provider ProviderProofs World Memcmp MemcmpProofs Numeric KvUtil KeyModel Struct
  StructProofs StructHash StructList UtilTxn Sequence SequenceProofs Model Meta MetaCodec MetaSpec MetaProofs MetaOps MetaRun Schema Ddl DdlSpec DdlProofs DdlWorker DdlSys DdlIndex DdlMore Domain DomainProofs.
From Verif Require P_Schema P_Meta P_Ddl SerialProofs.
From Verif Require Import P_Domain DdlSerial DdlSerialProofs P_DdlSerial DomSerial.
From Coq Require Import Permutation.

Lemma upd_same {X} (f : nat -> X) p x : upd f p x p = x.
Proof. unfold upd. rewrite Nat.eqb_refl. reflexivity. Qed.
Lemma upd_other {X} (f : nat -> X) p x q : q <> p -> upd f p x q = f q.
Proof. intros N. unfold upd. destruct (Nat.eqb_spec q p); congruence. Qed.

Section WithJson.
Variable J : json.
Hypothesis JO : json_ok J.

(** * One reload and the caches transactions started with *)
(** [s] is not newer than [c], and [c] still has the changes since [s] if there were at most 100 *)
Definition follows (s c : MetaCache) : Prop := mc_version s <= mc_version c /\ (mc_version c - mc_version s <= 100 -> mc_start c <= mc_version s + 1).
Lemma reload_follows T y D R st A h p h' c s : sinv J T y D R st A -> T < two63 -> cinv (applied D R st) h -> h_readers h = 0%nat ->
  reloadSchema J (y_db y) h p = (h', RDone) -> h_val h = Some c -> follows s (c_val c) -> exists c', h_val h' = Some c' /\ follows s (c_val c').
Proof.
  intros I LT CI HR E Eh FO. set (L := applied D R st) in *. pose proof (ds_effects _ _ _ _ (si_state _ _ _ _ _ _ _ I)) as EF. fold L in EF.
  pose proof (ef_ver _ _ EF) as EV. pose proof (dbs_len _ _ EF) as DL. pose proof (used_lt J _ _ _ _ _ _ I LT) as UL.
  assert (LL : Z.of_nat (length L) < two63).
  { unfold room, used in UL. fold L in UL. pose proof (llen_nonneg D). pose proof (llen_nonneg (D ++ R)). pose proof (sizes_nonneg L). pose proof (si_total _ _ _ _ _ _ _ I). unfold llen in *. lia. }
  unfold cinv in CI. rewrite Eh in CI. destruct CI as (V & (Q1 & Q2 & Q3 & Q4) & L0 & L1 & EL & N & G).
  assert (VE : version_of h = mc_version (c_val c)) by (unfold version_of; rewrite Eh; reflexivity).
  assert (Le : length L = (length L0 + length L1)%nat) by (rewrite EL; apply app_length).
  unfold reloadSchema in E. destruct (reads_r J JO _ (y_db y) A (version_of h) (si_holds _ _ _ _ _ _ _ I) UL ltac:(lia) ltac:(lia)) as [(E1 & X)|[(E1 & E2 & X)|[(E1 & E2 & ds & K & X)|(E1 & E2 & K & l & Ll & _ & X)]]]; rewrite X in E; cbv iota beta in E.
  - assert (h' = h) by congruence. subst h'. eauto.
  - discriminate E.
  - rewrite Eh in E. cbn [option_map] in E. destruct (ApplyDiffs (CloneCache (Some (c_val c))) ds) as [c' [[]|e|]] eqn:AC; try discriminate E.
    unfold publish_cache, Update in E. rewrite HR in E. cbn [Nat.eqb] in E. assert (E' : h' = Handle (Some (CRef p c')) 0) by congruence. subst h'. exists (CRef p c'). split; [reflexivity|]. cbn [c_val].
    pose proof (P_Schema.ApplyDiffs_shape (CloneCache (Some (c_val c))) ds c' Q1 AC) as (c1 & Ec & S1 & S2 & S3 & _). cbn [CloneCache mc_start mc_diffs mc_version] in S1, S2, S3.
    destruct FO as [F1 F2]. rewrite Ec. unfold follows, trim. destruct (maxDiffs <? length (mc_diffs c1))%nat eqn:B; cbn [mc_version mc_start mc_diffs].
    + apply Nat.ltb_lt in B. unfold maxDiffs in *. assert (LN : length (mc_diffs c1) = (length (mc_diffs (c_val c)) + length ds)%nat) by (rewrite S2, app_length, map_length; reflexivity). split; [lia|]. intros Gp. lia.
    + split; [lia|]. intros Gp. rewrite S1. apply F2. lia.
  - rewrite EV in *. unfold publish_cache, Update in E. rewrite HR in E. cbn [Nat.eqb] in E. assert (E' : h' = Handle (Some (CRef p (NewMetaCache (Z.of_nat (length L)) l))) 0) by congruence. subst h'.
    eexists. split; [reflexivity|]. cbn [c_val]. destruct FO as [F1 F2]. unfold follows. cbn [NewMetaCache mc_version mc_start].
    assert (Gap : Z.of_nat (length L) - mc_version (c_val c) > 100).
    { unfold kept in K. rewrite EV, VE in K. destruct ((mc_version (c_val c) =? 0) || (maxNumberOfDiffsToLoad <? Z.of_nat (length L) - mc_version (c_val c))) eqn:B.
      - apply orb_true_iff in B. destruct B as [B|B]; [apply Z.eqb_eq in B; lia | apply Z.ltb_lt in B; unfold maxNumberOfDiffsToLoad in B; lia].
      - exfalso. apply diffs_none in K. destruct K as (k & Kk & Nk). assert (Kl : (Z.to_nat (k - 1) < length (dbs_of L))%nat) by lia. destruct (nth_error (dbs_of L) (Z.to_nat (k - 1))) as [d|] eqn:Y; [|apply nth_error_None in Y; lia].
        destruct (ef_diff_at _ _ EF _ _ Y) as (cids & _ & M). replace (Z.of_nat (Z.to_nat (k - 1)) + 1) with k in M by lia. congruence. }
    lia.
Qed.
Lemma reload_shape d h p h' r : reloadSchema J d h p = (h', r) -> h' = h \/ exists c, h' = Handle (Some (CRef p c)) 0.
Proof.
  unfold reloadSchema. intros E. destruct (run_view d (reload_reads J (version_of h))) as [[|ds|v l]|e|]; try (left; congruence).
  - destruct (ApplyDiffs _ ds) as [c [[]|e|]]; try (left; congruence). unfold publish_cache, Update in E. destruct (_ =? _)%nat; [right; exists c; congruence | left; congruence].
  - unfold publish_cache, Update in E. destruct (_ =? _)%nat; [right; eexists; inversion E; reflexivity | left; congruence].
Qed.

(** * The check of a transaction *)
Definition coll_ids (L : list Job) : list Z := flat_map (fun x => map ci_id (vals (di_colls x))) (dbs_of L).
Lemma coll_ids_app L L' : coll_ids (L ++ L') = coll_ids L ++ coll_ids L'.
Proof. unfold coll_ids. rewrite dbs_app. apply flat_map_app. Qed.
Lemma nodup_app_intro {X} (l l' : list X) : NoDup l -> NoDup l' -> (forall x, In x l -> ~ In x l') -> NoDup (l ++ l').
Proof.
  induction l as [|a l IH]; intros N N' H; [exact N'|]. inversion N as [|? ? N1 N2]; subst. cbn [app]. constructor.
  - rewrite in_app_iff. intros [X1|X1]; [exact (N1 X1)|]. exact (H a (or_introl eq_refl) X1).
  - apply IH; [exact N2 | exact N'|]. intros x Ix. apply H. right. exact Ix.
Qed.
Lemma coll_ids_in L x : In x (coll_ids L) -> In x (flat_map ids_of L).
Proof.
  unfold coll_ids, dbs_of. intros H. apply in_flat_map in H. destruct H as (d & Id & Ix). apply in_flat_map in Id. destruct Id as (j & Ij & Xd). apply in_flat_map. exists j. split; [exact Ij|].
  unfold ids_of. destruct (j_arg j) as [d'|i|]; cbn in Xd; try contradiction. destruct Xd as [->|[]]. right. right. exact Ix.
Qed.
Lemma coll_ids_nodup L : NoDup (flat_map ids_of L) -> NoDup (coll_ids L).
Proof.
  induction L as [|j L IH]; intros N; [constructor|]. cbn [flat_map] in N. apply nodup_app in N. destruct N as (N1 & N2 & N3). change (j :: L) with ([j] ++ L). rewrite coll_ids_app. apply nodup_app_intro.
  - unfold coll_ids, dbs_of. cbn [flat_map]. rewrite app_nil_r. unfold ids_of in N1. destruct (j_arg j) as [d|i|]; [|constructor | constructor]. cbn [flat_map]. rewrite app_nil_r. inversion N1 as [|? ? _ M]; subst. inversion M; assumption.
  - apply IH. exact N2.
  - intros x I1 I2. apply coll_ids_in in I1, I2. cbn [flat_map] in I1. rewrite app_nil_r in I1. exact (N3 x I1 I2).
Qed.
Lemma untouched (refs ids : list Z) : (forall x, In x refs -> ~ In x ids) -> existsb (in_refs refs) ids = false.
Proof.
  intros H. destruct (existsb (in_refs refs) ids) eqn:E; [|reflexivity]. apply existsb_exists in E. destruct E as (x & Ix & E). unfold in_refs in E. apply existsb_exists in E.
  destruct E as (y & Iy & Ey). apply Z.eqb_eq in Ey. subst y. destruct (H x Iy Ix).
Qed.
Lemma loop_result L L0 l c refs : NoDup (coll_ids L) -> remembers L c -> L = L0 ++ l -> length (dbs_of L0) = length L0 -> (forall x, In x refs -> In x (coll_ids L0)) ->
  forall n i, Z.of_nat (length L0) < i -> i + Z.of_nat n = mc_version c + 1 ->
  check_loop c refs i n = if (n =? 0)%nat || (mc_start c <=? i) then LDone else LUnknown.
Proof.
  intros ND (R1 & R2 & R3 & R4) EL LD HR. induction n as [|n IH]; intros i Hi Hn; [reflexivity|]. cbn [check_loop Nat.eqb orb]. destruct (Z.ltb_spec (i - mc_start c) 0) as [Lt|Ge].
  { destruct (Z.leb_spec (mc_start c) i); [lia | reflexivity]. }
  destruct (Z.leb_spec (mc_start c) i) as [Le|]; [|lia]. destruct (nth_error (mc_diffs c) (Z.to_nat (i - mc_start c))) as [ids|] eqn:N; [|apply nth_error_None in N; lia].
  destruct (R4 _ _ N) as (x & X & Pm). rewrite untouched.
  - rewrite IH by lia. destruct (Z.leb_spec (mc_start c) (i + 1)); [rewrite orb_true_r; reflexivity | lia].
  - intros z Iz Ix. rewrite EL, coll_ids_app in ND. apply nodup_app in ND. destruct ND as (_ & _ & ND). apply (ND z (HR z Iz)).
    rewrite EL, dbs_app, nth_error_app2 in X by lia. apply nth_error_In in X. unfold coll_ids. apply in_flat_map. exists x. split; [exact X|]. eapply Permutation_in; [exact Pm | exact Ix].
Qed.

(** * The invariant *)
(** the cache of [h] is the schema after the jobs [L0] *)
Definition shows (L0 : list Job) (h : handle) : Prop :=
  version_of h = Z.of_nat (length L0) /\ forall name, orel same_db (mget (cached h) name) (find (by_name name) (dbs_of L0)).
(** a moment of the past: the database then, and the jobs applied then *)
Definition moment (T : Z) (L : list Job) (x : db * list Job) : Prop :=
  exists T0 y0 D0 R0 st0 A0, T0 <= T /\ sinv J T0 y0 D0 R0 st0 A0 /\ y_db y0 = fst x /\ applied D0 R0 st0 = snd x /\ exists l, L = snd x ++ l.
Definition started (L : list Job) (next : nat) (s : option cref) (h : handle) : Prop :=
  match s with
  | None => True
  | Some s => exists c, h_val h = Some c /\ follows (c_val s) (c_val c) /\ (c_ptr s = c_ptr c -> s = c) /\ (c_ptr s < next)%nat /\
      exists L0 l, L = L0 ++ l /\ Z.of_nat (length L0) = mc_version (c_val s) /\ forall name, orel same_db (mget (mc_dbs (c_val s)) name) (find (by_name name) (dbs_of L0))
  end.
Definition hinv (G : list (db * list Job)) (L : list Job) (next : nat) (h : handle) : Prop :=
  h_readers h = 0%nat /\ cinv L h /\ (exists x, In x G /\ shows (snd x) h) /\ forall c, h_val h = Some c -> (c_ptr c < next)%nat.
Record finv (T : Z) (G : list (db * list Job)) (f : fsys) (D R : list Job) (st : hstat) (A : mst) : Prop := {
  fi_k : kinv J T (f_k f) D R st A;
  fi_G : Forall (moment T (applied D R st)) G;
  fi_start : exists d, In (d, []) G;
  fi_now : In (k_db (f_k f), applied D R st) G;
  fi_h : forall p, hinv G (applied D R st) (f_next f) (f_h f p);
  fi_rel : forall p d, f_rel f p = Some d -> exists L0, In (d, L0) G /\ cinv L0 (f_h f p);
  fi_txn : forall n p s, f_txn f n = Some (p, s) -> started (applied D R st) (f_next f) s (f_h f p)
}.
Lemma moment_more T T' L l x : T <= T' -> moment T L x -> moment T' (L ++ l) x.
Proof. intros H (T0 & y0 & D0 & R0 & st0 & A0 & H1 & H2 & H3 & H4 & (l' & H5)). exists T0, y0, D0, R0, st0, A0. repeat (split; [first [assumption | lia]|]). exists (l' ++ l). rewrite H5, app_assoc. reflexivity. Qed.
Lemma moment_now T f D R st A : kinv J T (f_k f) D R st A -> moment T (applied D R st) (k_db (f_k f), applied D R st).
Proof. intros I. exists T, (ksnap (f_k f)), D, R, st, A. split; [lia|]. split; [exact (ki_sys _ _ _ _ _ _ _ I)|]. split; [reflexivity|]. split; [reflexivity|]. apply grew. Qed.
Lemma started_more L l n n' s h : (n <= n')%nat -> started L n s h -> started (L ++ l) n' s h.
Proof.
  intros H. destruct s as [s|]; [|auto]. intros (c & H1 & H2 & H3 & H4 & L0 & l' & H5 & H6 & H7). exists c. repeat (split; [first [assumption | lia]|]). exists L0, (l' ++ l). rewrite H5, app_assoc. auto.
Qed.
Lemma hinv_more G g L l n n' h : (n <= n')%nat -> hinv G L n h -> hinv (G ++ g) (L ++ l) n' h.
Proof.
  intros H (H1 & H2 & (x & X1 & X2) & H3). split; [exact H1|]. split; [apply cinv_more; exact H2|]. split; [exists x; split; [apply in_or_app; auto | exact X2]|]. intros c E. specialize (H3 c E). lia.
Qed.
Lemma hinv_new G L n d : In (d, []) G -> hinv G L n NewHandle.
Proof.
  intros H. split; [reflexivity|]. split; [exact Logic.I|]. split; [|discriminate]. exists (d, []). split; [exact H|]. split; [reflexivity|]. intros name. exact Logic.I.
Qed.
Lemma kinv_ids T y D R st A : kinv J T y D R st A -> NoDup (coll_ids (applied D R st)).
Proof.
  intros I. apply coll_ids_nodup. pose proof (ki_sys _ _ _ _ _ _ _ I) as S. destruct (applied_prefix J _ _ _ _ _ _ S) as (l & E). pose proof (proj1 (ds_ids _ _ _ _ (si_state _ _ _ _ _ _ _ S))) as N.
  rewrite E, flat_map_app in N. apply nodup_app in N. apply N.
Qed.
Lemma cinv_len L h : cinv L h -> 0 <= version_of h <= Z.of_nat (length L).
Proof. unfold cinv, version_of. destruct (h_val h) as [c|]; [|lia]. intros (V & _ & L0 & L1 & -> & N & _). rewrite app_length. lia. Qed.
(** all jobs applied create a database *)
Lemma prefix_dbs T y D R st A L0 l : kinv J T y D R st A -> applied D R st = L0 ++ l -> length (dbs_of L0) = length L0.
Proof.
  intros I E. pose proof (ds_effects _ _ _ _ (si_state _ _ _ _ _ _ _ (ki_sys _ _ _ _ _ _ _ I))) as EF.
  assert (Ef0 : forall j, In j L0 -> exists d, j_arg j = ArgDB d) by (intros j Ij; apply (ef_create _ _ EF j); rewrite E; apply in_or_app; auto). clear - Ef0. induction L0 as [|j L0 IH]; [reflexivity|].
  cbn [dbs_of flat_map]. destruct (Ef0 j (or_introl eq_refl)) as (d & ->). cbn [app length]. f_equal. apply IH. intros j' Ij. apply Ef0. right. exact Ij.
Qed.
(** the outcome of a check *)
Definition passes (s : option cref) (h : handle) : bool :=
  match s, h_val h with
  | None, None => true
  | Some s, Some c => mc_version (c_val c) - mc_version (c_val s) <=? 100
  | _, _ => false
  end.
Definition refers (s : option cref) (refs : list Z) : Prop := forall x, In x refs -> exists dbn coll c, cacheCollectionInfo (option_map c_val s) dbn coll = Some c /\ ci_id c = x.
Lemma refers_ids s refs L0 : refers (Some s) refs -> (forall name, orel same_db (mget (mc_dbs (c_val s)) name) (find (by_name name) (dbs_of L0))) -> forall x, In x refs -> In x (coll_ids L0).
Proof.
  intros H G x Ix. destruct (H x Ix) as (dbn & coll & c & E & Ec). unfold cacheCollectionInfo in E. cbn [option_map cache_dbs] in E. specialize (G dbn). destruct (mget (mc_dbs (c_val s)) dbn) as [y|]; [|discriminate E].
  destruct (find (by_name dbn) (dbs_of L0)) as [z|] eqn:F; [|destruct G]. apply find_some in F. destruct F as [F _]. destruct G as (_ & _ & _ & G). specialize (G coll). rewrite E in G.
  destruct (mget (di_colls z) coll) as [c'|] eqn:Ez; [|destruct G]. destruct G as (Gi & _). unfold coll_ids. apply in_flat_map. exists z. split; [exact F|]. rewrite <- Ec, Gi. apply in_map.
  destruct (di_colls z) as [m|]; [|discriminate Ez]. cbn [mget] in Ez. cbn [vals]. apply get_in in Ez. apply (in_map snd) in Ez. exact Ez.
Qed.
Lemma check_result T y D R st A n s h refs : kinv J T y D R st A -> cinv (applied D R st) h -> started (applied D R st) n s h -> refers s refs ->
  Check h false s refs = (h, CkRes (passes s h)).
Proof.
  intros I CI ST RF. unfold Check. destruct s as [s|].
  2:{ unfold passes. destruct (h_val h) as [c|]; reflexivity. }
  destruct ST as (c & Eh & [F1 F2] & PT & _ & L0 & l & EL & EN & G). unfold passes, ptr_eqb. rewrite Eh. destruct (Nat.eqb_spec (c_ptr c) (c_ptr s)) as [Ep|Ep].
  { rewrite (PT (eq_sym Ep)), Z.sub_diag. reflexivity. }
  unfold cinv in CI. rewrite Eh in CI. destruct CI as (V & RM & _).
  rewrite (loop_result _ L0 l (c_val c) refs (kinv_ids _ _ _ _ _ _ I) RM EL (prefix_dbs _ _ _ _ _ _ _ _ I EL) (refers_ids s refs L0 RF G)) by lia.
  destruct RM as (R1 & R2 & R3 & _). destruct (Nat.eqb_spec (Z.to_nat (mc_version (c_val c) - mc_version (c_val s))) 0) as [Z0|Z0]; cbn [orb].
  { destruct (Z.leb_spec (mc_version (c_val c) - mc_version (c_val s)) 100); [reflexivity | lia]. }
  destruct (Z.leb_spec (mc_start (c_val c)) (mc_version (c_val s) + 1)) as [Le|Gt]; destruct (Z.leb_spec (mc_version (c_val c) - mc_version (c_val s)) 100) as [Lg|Gg]; try reflexivity; lia.
Qed.
Lemma check_cancelled h s refs : Check h true s refs = (h, CkErr).
Proof. reflexivity. Qed.

(** * Steps *)
Definition fweight (f : fsys) (e : fev) : Z := match e with FDdl e => kweight (f_k f) e | _ => 0 end.
Definition crash_of (p : nat) (e : fev) : Prop := e = FDdl (KCrash p).
Lemma reload_good T G f D R st A p d : finv T G f D R st A -> T < two63 -> f_rel f p = Some d ->
  exists h', reloadSchema J d (f_h f p) (f_next f) = (h', RDone) /\ hinv G (applied D R st) (S (f_next f)) h' /\ up_to_date J d h' /\ version_of (f_h f p) <= version_of h' /\
    (forall s, started (applied D R st) (f_next f) s (f_h f p) -> started (applied D R st) (S (f_next f)) s h') /\ (exists L0, In (d, L0) G /\ shows L0 h').
Proof.
  intros I LT E. destruct (fi_rel _ _ _ _ _ _ _ I p d E) as (L0 & IG & C0). pose proof (fi_G _ _ _ _ _ _ _ I) as FG. rewrite Forall_forall in FG.
  destruct (FG _ IG) as (T0 & y0 & D0 & R0 & st0 & A0 & H1 & H2 & H3 & H4 & (l & H5)). cbn [fst snd] in H3, H4, H5. subst d L0.
  destruct (fi_h _ _ _ _ _ _ _ I p) as (HR & HC & HX & HP). pose proof (reload_inv J JO T0 y0 D0 R0 st0 A0 (f_h f p) (f_next f) H2 ltac:(lia) C0) as Q. cbv zeta in Q.
  destruct (reloadSchema J (y_db y0) (f_h f p) (f_next f)) as [h' r] eqn:ER. cbn [fst snd] in Q. destruct Q as (Q1 & Q2 & Q3 & _). specialize (Q2 HR). subst r. destruct (Q3 eq_refl) as [V Gn].
  exists h'. split; [reflexivity|]. destruct (reload_shape _ _ _ _ _ ER) as [Es|(c & Es)].
  - assert (SH : shows (applied D0 R0 st0) h') by (split; assumption). split; [|split; [|split; [|split]]].
    + rewrite Es. split; [exact HR|]. split; [exact HC|]. split; [exact HX|]. intros c Ec. specialize (HP c Ec). lia.
    + eapply (current_matches J JO); [exact H2 | lia | exact V | exact Gn].
    + rewrite Es. lia.
    + intros s0 S0. rewrite Es. rewrite <- (app_nil_r (applied D R st)). apply started_more with (n := f_next f); [lia | exact S0].
    + exists (applied D0 R0 st0). split; [exact IG | exact SH].
  - assert (SH : shows (applied D0 R0 st0) h') by (split; assumption). split; [|split; [|split; [|split]]].
    + split; [rewrite Es; reflexivity|]. split; [rewrite H5; apply cinv_more; exact Q1|]. split; [exists (y_db y0, applied D0 R0 st0); split; [exact IG | exact SH]|]. rewrite Es. cbn [h_val]. intros c' Ec. assert (c' = CRef (f_next f) c) by congruence. subst c'. cbn [c_ptr]. lia.
    + eapply (current_matches J JO); [exact H2 | lia | exact V | exact Gn].
    + pose proof (cinv_len _ _ C0). lia.
    + intros [s0|]; [|auto]. intros (c0 & S1 & S2 & S3 & S4 & S5). destruct (reload_follows T0 y0 D0 R0 st0 A0 _ _ h' c0 (c_val s0) H2 ltac:(lia) C0 HR ER S1 S2) as (c' & Ec & F). exists c'. split; [exact Ec|]. split; [exact F|].
      split; [|split; [lia | exact S5]]. rewrite Es in Ec. cbn [h_val] in Ec. assert (c' = CRef (f_next f) c) by congruence. subst c'. cbn [c_ptr]. intros Ep. lia.
    + exists (applied D0 R0 st0). split; [exact IG | exact SH].
Qed.
Lemma finv_same T G f f' D R st A : finv T G f D R st A -> f_k f' = f_k f -> (f_next f <= f_next f')%nat ->
  (forall p, hinv G (applied D R st) (f_next f') (f_h f' p)) -> (forall p d, f_rel f' p = Some d -> exists L0, In (d, L0) G /\ cinv L0 (f_h f' p)) ->
  (forall n p s, f_txn f' n = Some (p, s) -> started (applied D R st) (f_next f') s (f_h f' p)) -> finv T (G ++ [(k_db (f_k f'), applied D R st)]) f' D R st A.
Proof.
  intros I E N H1 H2 H3. pose proof I as [I1 I2 I3 I4 I5 I6 I7]. rewrite <- E in I1. split; [exact I1| | | | | |].
  - apply Forall_app. split; [exact I2|]. constructor; [eapply moment_now; exact I1 | constructor].
  - destruct I3 as (d & X). exists d. apply in_or_app. auto.
  - apply in_or_app. right. left. reflexivity.
  - intros p. rewrite <- (app_nil_r (applied D R st)). apply hinv_more with (n := f_next f'); [lia | apply H1].
  - intros p d X. destruct (H2 p d X) as (L0 & X1 & X2). exists L0. split; [apply in_or_app; auto | exact X2].
  - exact H3.
Qed.
Lemma fstep_inv T G f D R st A e : finv T G f D R st A -> (forall k, e = FDdl k -> kev_ok k) -> fev_ok f e -> T + fweight f e < two63 ->
  exists D' R' st' A', finv (T + fweight f e) (G ++ [(k_db (f_k (fstep J f e)), applied D' R' st')]) (fstep J f e) D' R' st' A' /\
    (exists l, applied D' R' st' = applied D R st ++ l) /\ (exists l, D' = D ++ l) /\
    forall p, ~ crash_of p e -> version_of (f_h f p) <= version_of (f_h (fstep J f e) p).
Proof.
  intros I KE FE LT. assert (W0 : 0 <= fweight f e) by (destruct e; cbn [fweight]; try lia; apply kweight_nonneg). destruct e as [e|p|p|n p|n b refs].
  - cbn [fweight] in *. destruct (kstep_inv J JO T (f_k f) D R st A e (fi_k _ _ _ _ _ _ _ I) (KE e eq_refl) LT) as (D' & R' & st' & A' & I' & GD & (l & GL)). exists D', R', st', A'.
    assert (Q : finv (T + kweight (f_k f) e) (G ++ [(k_db (kstep J (f_k f) e), applied D' R' st')]) (FSys (kstep J (f_k f) e) (f_h f) (f_rel f) (f_txn f) (f_next f)) D' R' st' A').
    { destruct I as [I1 I2 I3 I4 I5 I6 I7]. split; cbn [f_k f_h f_rel f_txn f_next].
      - exact I'.
      - apply Forall_app. split; [|constructor; [|constructor]]. + rewrite GL. eapply Forall_impl; [|exact I2]. intros x. apply moment_more. lia. + eapply (moment_now _ (FSys (kstep J (f_k f) e) (f_h f) (f_rel f) (f_txn f) (f_next f))). exact I'.
      - destruct I3 as (d & X). exists d. apply in_or_app. auto.
      - apply in_or_app. right. left. reflexivity.
      - intros p. rewrite GL. apply hinv_more with (n := f_next f); [lia | apply I5].
      - intros p d X. destruct (I6 p d X) as (L0 & X1 & X2). exists L0. split; [apply in_or_app; auto | exact X2].
      - intros n p s X. rewrite GL. apply started_more with (n := f_next f); [lia | eapply I7; exact X]. }
    assert (GL' : exists l0, applied D' R' st' = applied D R st ++ l0) by (exists l; exact GL).
    destruct e as [n c|n io|n|p|t io]; try (split; [exact Q|]; split; [exact GL'|]; split; [exact GD|]; intros q _; cbn [fstep f_h]; lia).
    cbn [fstep]. split; [|split; [exact GL'|]; split; [exact GD|]; intros q Nq; cbn [f_h]; unfold upd; destruct (Nat.eqb_spec q p) as [->|]; [exfalso; apply Nq; reflexivity | lia]].
    destruct Q as [I1 I2 I3 I4 I5 I6 I7]. cbn [f_k f_h f_rel f_txn f_next] in *. split; cbn [f_k f_h f_rel f_txn f_next]; try assumption.
    + intros q. unfold upd. destruct (Nat.eqb q p); [|apply I5]. destruct I3 as (d & X). eapply hinv_new. exact X.
    + intros q d. unfold upd. destruct (Nat.eqb q p); [discriminate | apply I6].
    + intros n q s. unfold gone. destruct (f_txn f n) as [[q' s']|] eqn:Et; [|discriminate]. destruct (Nat.eqb_spec q' p) as [|Ne]; [discriminate|]. intros X. assert (q' = q /\ s' = s) by (split; congruence). destruct H as [-> ->].
      rewrite upd_other by exact Ne. eapply I7. exact Et.
  - cbn [fweight] in *. rewrite Z.add_0_r in *. exists D, R, st, A. split; [|split; [apply grew|]; split; [apply grew|]; intros q _; cbn [fstep]; destruct (f_rel f p); cbn [f_h]; lia].
    cbn [fstep]. destruct (f_rel f p) as [d|] eqn:E.
    + apply finv_same with (f := f); try lia; try reflexivity; try exact I; apply I.
    + apply finv_same with (f := f); cbn [f_k f_h f_rel f_txn f_next]; try lia; try reflexivity; try exact I; try apply I.
      intros q d. unfold upd. destruct (Nat.eqb_spec q p) as [->|]; [|apply I]. intros X. assert (d = k_db (f_k f)) by congruence. subst d. exists (applied D R st). split; [apply I | apply (fi_h _ _ _ _ _ _ _ I p)].
  - cbn [fweight] in *. rewrite Z.add_0_r in *. exists D, R, st, A. cbn [fstep]. destruct (f_rel f p) as [d|] eqn:E.
    2:{ split; [|split; [apply grew|]; split; [apply grew|]; intros q _; lia]. apply finv_same with (f := f); try lia; try reflexivity; try exact I; apply I. }
    destruct (reload_good T G f D R st A p d I LT E) as (h' & ER & HI & UD & VM & ST & _). rewrite ER. split; [|split; [apply grew|]; split; [apply grew|]; intros q _; cbn [f_h]; unfold upd; destruct (Nat.eqb_spec q p) as [->|]; lia].
    apply finv_same with (f := f); cbn [f_k f_h f_rel f_txn f_next]; try lia; try reflexivity; try exact I.
    + intros q. unfold upd. destruct (Nat.eqb q p); [exact HI|]. destruct (fi_h _ _ _ _ _ _ _ I q) as (X1 & X2 & X3 & X4). split; [exact X1|]. split; [exact X2|]. split; [exact X3|]. intros c Ec. specialize (X4 c Ec). lia.
    + intros q d'. unfold upd. destruct (Nat.eqb q p); [discriminate | apply I].
    + intros n q s X. pose proof (fi_txn _ _ _ _ _ _ _ I n q s X) as S0. unfold upd. destruct (Nat.eqb_spec q p) as [->|]; [apply ST; exact S0|]. rewrite <- (app_nil_r (applied D R st)). apply started_more with (n := f_next f); [lia | exact S0].
  - cbn [fweight] in *. rewrite Z.add_0_r in *. exists D, R, st, A. cbn [fstep]. split; [|split; [apply grew|]; split; [apply grew|]; intros q _; cbn [f_h]; lia].
    apply finv_same with (f := f); cbn [f_k f_h f_rel f_txn f_next]; try lia; try reflexivity; try exact I; try apply I.
    intros m q s. unfold upd. destruct (Nat.eqb m n); [|apply I]. intros X. assert (X' : p = q /\ h_val (f_h f p) = s) by (split; congruence). destruct X' as [-> <-].
    destruct (fi_h _ _ _ _ _ _ _ I q) as (X1 & X2 & X3 & X4). destruct (h_val (f_h f q)) as [c|] eqn:Eh; [|exact Logic.I]. unfold started. rewrite Eh. exists c. split; [reflexivity|]. unfold cinv in X2. rewrite Eh in X2.
    destruct X2 as (V & (R1 & R2 & R3 & R4) & L0 & L1 & EL & EN & Gn). split; [split; [lia|]; intros _; lia|]. split; [auto|]. split; [apply X4; reflexivity|]. exists L0, L1. auto.
  - cbn [fweight] in *. rewrite Z.add_0_r in *. exists D, R, st, A. cbn [fstep]. destruct (f_txn f n) as [[p s]|] eqn:E.
    2:{ split; [|split; [apply grew|]; split; [apply grew|]; intros q _; lia]. apply finv_same with (f := f); try lia; try reflexivity; try exact I; apply I. }
    assert (EC : fst (Check (f_h f p) b s refs) = f_h f p).
    { destruct b; [reflexivity|]. cbn [fev_ok] in FE. rewrite E in FE. destruct (fi_h _ _ _ _ _ _ _ I p) as (_ & X2 & _). rewrite (check_result _ _ _ _ _ _ _ s (f_h f p) refs (fi_k _ _ _ _ _ _ _ I) X2 (fi_txn _ _ _ _ _ _ _ I _ _ _ E) FE). reflexivity. }
    rewrite EC. assert (EU : forall q, upd (f_h f) p (f_h f p) q = f_h f q) by (intros q; unfold upd; destruct (Nat.eqb_spec q p) as [->|]; reflexivity).
    split; [|split; [apply grew|]; split; [apply grew|]; intros q _; cbn [f_h]; rewrite EU; lia].
    apply finv_same with (f := f); cbn [f_k f_h f_rel f_txn f_next]; try lia; try reflexivity; try exact I.
    + intros q. rewrite EU. apply I.
    + intros q d. rewrite EU. apply I.
    + intros m q s0. rewrite EU. unfold upd. destruct (Nat.eqb m n); [discriminate | apply I].
Qed.

(** * Histories *)
Lemma fstep_k f e : f_k (fstep J f e) = match e with FDdl e => kstep J (f_k f) e | _ => f_k f end.
Proof.
  destruct e as [e|p|p|n p|n b refs]; cbn [fstep]; try reflexivity.
  - destruct e; reflexivity.
  - destruct (f_rel f p); reflexivity.
  - destruct (f_rel f p) as [d|]; [|reflexivity]. destruct (reloadSchema J d (f_h f p) (f_next f)) as [h r]. reflexivity.
  - destruct (f_txn f n) as [[p s]|]; reflexivity.
Qed.
Lemma frun_k es : forall f, f_k (frun J f es) = krun J (f_k f) (ddl_of es).
Proof.
  induction es as [|e es IH]; intros f; [reflexivity|]. unfold frun in *. cbn [fold_left]. rewrite IH, fstep_k. destruct e; reflexivity.
Qed.
Fixpoint dbs_along (f : fsys) (es : list fev) : list db :=
  match es with [] => [] | e :: es' => k_db (f_k (fstep J f e)) :: dbs_along (fstep J f e) es' end.
Lemma along_in es : forall f d, In d (k_db (f_k f) :: dbs_along f es) -> exists es1 es2, es = es1 ++ es2 /\ d = k_db (f_k (frun J f es1)).
Proof.
  induction es as [|e es IH]; intros f d [<-|H]; try (exists [], (e :: es); split; reflexivity); try (exists [], []; split; reflexivity); [destruct H|].
  cbn [dbs_along] in H. destruct (IH (fstep J f e) d H) as (es1 & es2 & -> & ->). exists (e :: es1), es2. split; reflexivity.
Qed.
Lemma frun_inv es : forall T G f D R st A, finv T G f D R st A -> Forall kev_ok (ddl_of es) -> fok J f es -> T + kload J (f_k f) (ddl_of es) < two63 ->
  exists G' D' R' st' A', finv (T + kload J (f_k f) (ddl_of es)) (G ++ G') (frun J f es) D' R' st' A' /\ map fst G' = dbs_along f es /\
    (exists l, applied D' R' st' = applied D R st ++ l) /\ (exists l, D' = D ++ l) /\ forall p, ~ In (FDdl (KCrash p)) es -> version_of (f_h f p) <= version_of (f_h (frun J f es) p).
Proof.
  induction es as [|e es IH]; intros T G f D R st A I F O LT.
  { exists [], D, R, st, A. cbn [ddl_of flat_map kload frun fold_left]. rewrite Z.add_0_r, app_nil_r. split; [exact I|]. split; [reflexivity|]. split; [apply grew|]. split; [apply grew|]. intros; lia. }
  assert (EQ : kload J (f_k f) (ddl_of (e :: es)) = fweight f e + kload J (f_k (fstep J f e)) (ddl_of es)).
  { rewrite fstep_k. destruct e; cbn [ddl_of flat_map app fweight]; try reflexivity. }
  destruct O as [O1 O2]. assert (F2 : Forall kev_ok (ddl_of es)) by (destruct e; cbn [ddl_of flat_map app] in F; [inversion F; assumption | exact F ..]).
  assert (F1 : forall k, e = FDdl k -> kev_ok k) by (intros k ->; cbn [ddl_of flat_map app] in F; inversion F; assumption).
  pose proof (kload_nonneg J (ddl_of es) (f_k (fstep J f e))) as L0. rewrite EQ in *.
  destruct (fstep_inv T G f D R st A e I F1 O1 ltac:(lia)) as (D1 & R1 & st1 & A1 & I1 & (l1 & G1) & (m1 & E1) & V1).
  destruct (IH _ _ _ _ _ _ _ I1 F2 O2 ltac:(lia)) as (G' & D2 & R2 & st2 & A2 & I2 & M2 & (l2 & G2) & (m2 & E2) & V2).
  exists ((k_db (f_k (fstep J f e)), applied D1 R1 st1) :: G'), D2, R2, st2, A2. split; [|split; [|split; [|split]]].
  - rewrite Z.add_assoc. rewrite <- app_assoc in I2. exact I2.
  - cbn [map fst dbs_along]. f_equal. exact M2.
  - exists (l1 ++ l2). rewrite G2, G1, app_assoc. reflexivity.
  - exists (m1 ++ m2). rewrite E2, E1, app_assoc. reflexivity.
  - intros p N. specialize (V1 p). specialize (V2 p). assert (X1 : ~ crash_of p e) by (intros X; apply N; left; exact X). assert (X2 : ~ In (FDdl (KCrash p)) es) by (intros X; apply N; right; exact X).
    specialize (V1 X1). specialize (V2 X2). unfold frun in *. cbn [fold_left]. lia.
Qed.
Lemma fstart_inv d : MetaRun.holds J 0 d m_empty -> SerialProofs.eternal (d_kv d) -> finv 0 [(d, [])] (fstart d) [] [] HFresh m_empty.
Proof.
  intros H E. pose proof (kstart_inv J d H E) as K. split; cbn [fstart f_k f_h f_rel f_txn f_next].
  - exact K.
  - constructor; [|constructor]. exact (moment_now 0 (fstart d) [] [] HFresh m_empty K).
  - exists d. left. reflexivity.
  - left. reflexivity.
  - intros p. eapply hinv_new. left. reflexivity.
  - discriminate.
  - discriminate.
Qed.
Lemma frun_app f es es' : frun J f (es ++ es') = frun J (frun J f es) es'.
Proof. unfold frun. apply fold_left_app. Qed.
Lemma fok_app es : forall f es', fok J f (es ++ es') <-> fok J f es /\ fok J (frun J f es) es'.
Proof. induction es as [|e es IH]; intros f es'; cbn [app fok]; [tauto|]. rewrite IH. unfold frun. cbn [fold_left]. tauto. Qed.
Lemma ddl_of_app es es' : ddl_of (es ++ es') = ddl_of es ++ ddl_of es'.
Proof. apply flat_map_app. Qed.
End WithJson.
