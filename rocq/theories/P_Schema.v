(** Properties of the schema cache, its handle and document transactions: C62, C63, C64 (cache
    part), C66. *)
From Verif Require Import Bytes SMap Provider Model Schema DocTxn.

(** * Caches that can be published *)
(** [reached H base c]: [c] was fully loaded at version [base] and then brought up to date with
    diffs, where [H v] are the collections touched by version [v] (domain.go:106-150) *)
Inductive reached (H : Z -> list Z) : Z -> MetaCache -> Prop :=
| R_full v infos : reached H v (NewMetaCache v infos)
| R_diffs base c ds c' : reached H base c -> Forall (fun d => sd_cids d = H (sd_version d)) ds ->
    ApplyDiffs (CloneCache (Some c)) ds = (c', Ok tt) -> reached H base c'.

Lemma ApplyDiffs_ok c ds c' : ApplyDiffs c ds = (c', Ok tt) ->
  consecutive ds = true /\ (exists d0 ds0, ds = d0 :: ds0 /\ sd_version d0 = mc_start c + Z.of_nat (length (mc_diffs c))) /\
  exists c1, apply_loop c ds = (c1, Ok tt) /\ c' = trim c1.
Proof.
  unfold ApplyDiffs, validateDiffs. destruct (consecutive ds) eqn:C; cbn [negb]; [|discriminate].
  destruct ds as [|d0 ds]; [discriminate|]. destruct (sd_version d0 =? _) eqn:V; cbn [negb]; [|discriminate]. apply Z.eqb_eq in V.
  destruct (apply_loop c (d0 :: ds)) as [c1 [[]|e|]] eqn:L; try discriminate. intros E. inversion E. split; [reflexivity|]. split; [eauto|]. exists c1. auto.
Qed.
Lemma clone_shape c : mc_version (CloneCache (Some c)) = mc_version c /\ mc_diffs (CloneCache (Some c)) = mc_diffs c /\ mc_start (CloneCache (Some c)) = mc_start c.
Proof. auto. Qed.
(** one successful ApplyDiffs, in numbers *)
Lemma ApplyDiffs_shape c ds c' : mc_version c = mc_start c + Z.of_nat (length (mc_diffs c)) - 1 -> ApplyDiffs c ds = (c', Ok tt) ->
  exists c1, c' = trim c1 /\ mc_start c1 = mc_start c /\ mc_diffs c1 = mc_diffs c ++ map sd_cids ds /\ mc_version c1 = mc_version c + Z.of_nat (length ds) /\ ds <> [] /\
  (forall k d, nth_error ds k = Some d -> sd_version d = mc_version c + 1 + Z.of_nat k).
Proof.
  intros V A. apply ApplyDiffs_ok in A. destruct A as (C & (d0 & ds0 & -> & E) & c1 & L & ->). apply apply_loop_ok in L.
  destruct L as (L1 & L2 & L3 & _). exists c1. split; [reflexivity|]. split; [exact L1|]. split; [exact L2|].
  assert (N : forall k d, nth_error (d0 :: ds0) k = Some d -> sd_version d = mc_version c + 1 + Z.of_nat k).
  { intros k d X. rewrite (consecutive_nth _ _ C k d X). lia. }
  split; [|split; [discriminate | exact N]].
  rewrite L3. rewrite (N _ _ (last_nth ds0 d0 _)). cbn [length]. lia.
Qed.
Lemma reached_inv H base c : reached H base c -> records H c /\ mc_ok c /\ base <= mc_version c /\ mc_start c = Z.max (base + 1) (mc_version c - 99).
Proof.
  intros R. induction R as [v infos|base c ds c' R IH F A].
  - unfold NewMetaCache. split; [split; cbn; [lia|]; intros k ids X; destruct k; discriminate|]. split; [split; cbn; unfold maxDiffs; lia|]. cbn. lia.
  - destruct IH as ((R1 & R2) & (K1 & K2) & B & St). apply ApplyDiffs_shape in A; [|exact R1].
    destruct A as (c1 & -> & A1 & A2 & A3 & A4 & A5). cbn [mc_version mc_start mc_diffs CloneCache] in *.
    assert (L : length (mc_diffs c1) = (length (mc_diffs c) + length ds)%nat) by (rewrite A2, app_length, map_length; reflexivity).
    assert (N : (0 < length ds)%nat) by (destruct ds; [congruence | cbn; lia]).
    assert (Rc : records H c1).
    { split; [lia|]. intros k ids X. rewrite A2 in X. destruct (lt_dec k (length (mc_diffs c))) as [Lt|Ge].
      - rewrite nth_error_app1 in X by exact Lt. rewrite A1. apply R2. exact X.
      - rewrite nth_error_app2 in X by lia. rewrite nth_error_map in X. destruct (nth_error ds (k - length (mc_diffs c))) as [d|] eqn:D; [|discriminate].
        inversion X. subst ids. pose proof (nth_error_In _ _ D) as I. rewrite Forall_forall in F. rewrite (F _ I), (A5 _ _ D). f_equal. lia. }
    pose proof (trim_records H c1 Rc) as Rt. split; [exact Rt|]. destruct (trim_fields c1) as [T1 T2].
    split; [split; [exact (proj1 Rt) | apply trim_len]|]. rewrite T1. split; [lia|].
    unfold trim, maxDiffs. destruct (100 <? length (mc_diffs c1))%nat eqn:X; cbn [mc_start].
    + apply Nat.ltb_lt in X. lia.
    + apply Nat.ltb_ge in X. lia.
Qed.

(** * C62 *)
(** Check(start, collections) on a handle whose current cache was obtained from a full load at
    [base] and diffs: it answers, and accepts iff every schema change after the transaction's start
    is still recorded (made after the full load and among the last 100) and touches none of the
    given collections. Pointers identify caches. *)
Theorem C62_check_accepts_iff_unaffected : forall H base h c s refs,
  h_val h = Some c -> reached H base (c_val c) -> (c_ptr c = c_ptr s -> c_val c = c_val s) ->
  exists ok, snd (Check h false (Some s) refs) = CkRes ok /\
    (ok = true <-> forall v, mc_version (c_val s) < v <= mc_version (c_val c) ->
       base < v /\ mc_version (c_val c) - 100 < v /\ forall id, In id (H v) -> ~ In id refs).
Proof.
  intros H base h c s refs Hv R P. destruct (reached_inv _ _ _ R) as (Rc & _ & _ & St).
  unfold Check. rewrite Hv. cbn [ptr_eqb]. destruct (Nat.eqb (c_ptr c) (c_ptr s)) eqn:E.
  - apply Nat.eqb_eq in E. rewrite (P E). exists true. split; [reflexivity|]. split; [|reflexivity]. intros _ v X. lia.
  - set (n := Z.to_nat _). destruct (Z_le_gt_dec (mc_version (c_val c)) (mc_version (c_val s))) as [Le|Gt].
    + exists true. replace n with O by (subst n; lia). cbn [check_loop snd]. split; [reflexivity|]. split; [|reflexivity]. intros _ v X. lia.
    + destruct (check_loop_spec H (c_val c) refs Rc n (mc_version (c_val s) + 1) ltac:(subst n; lia)) as [[A B]|[[A B]|[A B]]]; rewrite A; cbn [snd].
      * exists true. split; [reflexivity|]. split; [|reflexivity]. intros _ v X. destruct (B v ltac:(lia)) as [B1 B2]. split; [lia|]. split; [lia | exact B2].
      * exists false. split; [reflexivity|]. split; [discriminate|]. intros X. destruct B as (v & B1 & B2). destruct (X v ltac:(lia)) as (X1 & X2 & _). lia.
      * exists false. split; [reflexivity|]. split; [discriminate|]. intros X. destruct B as (v & id & B1 & B2 & B3). destruct (X v ltac:(lia)) as (_ & _ & X3). destruct (X3 _ B2 B3).
Qed.
(** a transaction begun before any schema was loaded passes only while none is *)
Theorem C62_check_without_start_cache : forall h refs,
  snd (Check h false None refs) = CkRes (match h_val h with None => true | Some _ => false end).
Proof. intros [[c|] n] refs; reflexivity. Qed.

Definition demo_db (n : bytes) : DBInfo := DI 7 n None [] Absent.
Definition demo_c1 : MetaCache := NewMetaCache 4 [].
Definition demo_diff : SchemaDiff := SD 5 ActionCreateSchema [11; 12] (ArgDB (demo_db (str "a"))).
Definition demo_c2 : MetaCache := fst (ApplyDiffs (CloneCache (Some demo_c1)) [demo_diff]).
Definition demo_H (v : Z) : list Z := if v =? 5 then [11; 12] else [].
Example C62_nonvacuous : reached demo_H 4 demo_c2 /\
  snd (Check (Handle (Some (CRef 2 demo_c2)) 0) false (Some (CRef 1 demo_c1)) [12]) = CkRes false /\
  snd (Check (Handle (Some (CRef 2 demo_c2)) 0) false (Some (CRef 1 demo_c1)) [13]) = CkRes true.
Proof.
  split; [|split; vm_compute; reflexivity].
  apply (R_diffs demo_H 4 demo_c1 [demo_diff] demo_c2); [apply R_full | repeat constructor | vm_compute; reflexivity].
Qed.

(** * C63 *)
Inductive hop := HCheck (cancelled : bool) (start : option cref) (refs : list Z) | HUpdate (c : cref).
(** the handle after a sequence of calls, and for each Update whether it got through *)
Fixpoint hrun (h : handle) (ops : list hop) : handle * list bool :=
  match ops with
  | [] => (h, [])
  | HCheck k s r :: ops' => hrun (fst (Check h k s r)) ops'
  | HUpdate c :: ops' => match Update h c with
                         | Some h' => let '(h2, l) := hrun h' ops' in (h2, true :: l)
                         | None => let '(h2, l) := hrun h ops' in (h2, false :: l)
                         end
  end.
Lemma Check_readers h k s r : (h_readers h <= h_readers (fst (Check h k s r)))%nat.
Proof.
  unfold Check. destruct k; [reflexivity|]. destruct (ptr_eqb _ _); [reflexivity|]. destruct s as [s|]; [|reflexivity].
  destruct (h_val h) as [c|]; [|cbn; lia]. destruct (check_loop _ _ _ _); cbn; lia.
Qed.
Lemma hrun_stuck ops : forall h, (0 < h_readers h)%nat -> Forall (fun b => b = false) (snd (hrun h ops)).
Proof.
  induction ops as [|[k s r|c] ops IH]; intros h P; cbn [hrun]; [constructor| |].
  - apply IH. pose proof (Check_readers h k s r). lia.
  - unfold Update. destruct (h_readers h =? 0)%nat eqn:E; [apply Nat.eqb_eq in E; lia|].
    pose proof (IH h P) as X. destruct (hrun h ops) as [h2 l]. cbn [snd] in *. constructor; [reflexivity | exact X].
Qed.
(** After a check that finds a conflict, no Update of the schema cache ever gets through again,
    whatever calls follow: the property fails. *)
Theorem C63_check_releases_lock_refuted : exists ops start refs,
  let h := fst (hrun NewHandle ops) in
  snd (Check h false start refs) = CkRes false /\ h_readers h = 0%nat /\
  forall later, Forall (fun through => through = false) (snd (hrun (fst (Check h false start refs)) later)).
Proof.
  exists [HUpdate (CRef 1 demo_c1); HUpdate (CRef 2 demo_c2)], (Some (CRef 1 demo_c1)), [12]. cbn zeta.
  split; [vm_compute; reflexivity|]. split; [vm_compute; reflexivity|]. intros later. apply hrun_stuck. vm_compute. lia.
Qed.
(** It holds for every call that accepts, that has no start cache, whose context ended, or none
    of whose collections was touched since the start. *)
Theorem C63_check_releases_lock_partial : forall H base h c k start refs,
  h_val h = Some c -> reached H base (c_val c) ->
  snd (Check h k start refs) = CkRes true \/ start = None \/ k = true \/
    (exists s, start = Some s /\ forall v id, mc_version (c_val s) < v <= mc_version (c_val c) -> In id (H v) -> ~ In id refs) ->
  fst (Check h k start refs) = h /\ (h_readers h = 0%nat -> forall c', Update (fst (Check h k start refs)) c' = Some (Handle (Some c') 0)).
Proof.
  intros H base h c k start refs Hv R D.
  assert (E : fst (Check h k start refs) = h).
  { destruct (reached_inv _ _ _ R) as (Rc & _). unfold Check in *. destruct k; [reflexivity|]. destruct (ptr_eqb _ _); [reflexivity|].
    destruct start as [s|]; [|reflexivity]. rewrite Hv in *. set (n := Z.to_nat _) in *.
    destruct (Z_le_gt_dec (mc_version (c_val c)) (mc_version (c_val s))) as [Le|Gt]; [replace n with O by (subst n; lia); reflexivity|].
    destruct (check_loop_spec H (c_val c) refs Rc n (mc_version (c_val s) + 1) ltac:(subst n; lia)) as [[A B]|[[A B]|[A B]]]; rewrite A in *; try reflexivity.
    destruct D as [D|[D|[D|(s' & D & X)]]]; cbn in *; try discriminate. inversion D. subst s'.
    destruct B as (v & id & B1 & B2 & B3). destruct (X v id ltac:(lia) B2 B3). }
  split; [exact E|]. intros Z c'. rewrite E. unfold Update. rewrite Z. reflexivity.
Qed.
Example C63_nonvacuous : let h := Handle (Some (CRef 2 demo_c2)) 0 in
  snd (Check h false (Some (CRef 1 demo_c1)) [13]) = CkRes true /\ fst (Check h false (Some (CRef 1 demo_c1)) [13]) = h.
Proof. vm_compute. auto. Qed.

(** * C64, cache part *)
(** a cache holds the databases [infos], exactly as a full load would *)
Definition holds (c : MetaCache) (infos : list DBInfo) : Prop :=
  forall n, option_map clone_di (mget (mc_dbs c) n) = mget (mc_dbs (NewMetaCache (mc_version c) infos)) n.
Lemma clone_ci_idem c : clone_ci (clone_ci c) = clone_ci c.
Proof.
  unfold clone_ci. cbn [ci_id ci_name ci_indices ci_order ci_state]. f_equal. unfold clone_map. f_equal.
  rewrite smap_map_id; [reflexivity|]. intros k v _. apply clone_ii_eq.
Qed.
Lemma clone_di_idem d : clone_di (clone_di d) = clone_di d.
Proof.
  unfold clone_di. cbn [di_id di_name di_colls di_order di_state]. f_equal. unfold clone_map. f_equal.
  destruct (di_colls d) as [m|]; [|apply smap_map_id; intros k v E; rewrite get_empty in E; discriminate].
  apply smap_map_id. intros k v E. rewrite get_smap_map in E. destruct (get m k); [|discriminate]. inversion E. apply clone_ci_idem.
Qed.
Lemma full_get v infos n : mget (mc_dbs (NewMetaCache v infos)) n = option_map clone_di (find (fun i => bytes_eqb (di_name i) n) (rev infos)).
Proof.
  cbn [mc_dbs NewMetaCache mget]. rewrite <- (rev_involutive infos) at 1. rewrite <- fold_left_rev_right, rev_involutive. induction (rev infos) as [|i l IH]; [reflexivity|].
  cbn [fold_right find]. rewrite get_set. destruct (bytes_eqb n (di_name i)) eqn:E.
  - apply bytes_eqb_eq in E. subst n. rewrite bytes_eqb_refl. reflexivity.
  - destruct (bytes_eqb (di_name i) n) eqn:E'; [|exact IH]. apply bytes_eqb_eq in E'. subst n. rewrite bytes_eqb_refl in E. discriminate.
Qed.
Lemma find_app' {A} (f : A -> bool) l l' : find f (l ++ l') = match find f l with Some x => Some x | None => find f l' end.
Proof. induction l as [|x l IH]; cbn; [reflexivity|]. destruct (f x); auto. Qed.
Lemma find_rev_nodup (l : list DBInfo) n : NoDup (map di_name l) -> find (fun i => bytes_eqb (di_name i) n) (rev l) = find (fun i => bytes_eqb (di_name i) n) l.
Proof.
  induction l as [|x l IH]; intros N; [reflexivity|]. cbn [rev map] in *. inversion N as [|? ? Nx Nl]; subst. rewrite find_app', IH by exact Nl. cbn [find].
  destruct (bytes_eqb (di_name x) n) eqn:E; [|destruct (find _ l); reflexivity]. destruct (find _ l) as [y|] eqn:F; [|reflexivity].
  apply find_some in F. destruct F as [F1 F2]. apply bytes_eqb_eq in F2. apply bytes_eqb_eq in E. exfalso. apply Nx. rewrite E, <- F2. apply in_map. exact F1.
Qed.
(** Loading diffs gives the databases a full load of old and new databases would give, at the
    version of the last diff, keeping at most 100 consecutive diffs. *)
Theorem C64_diffs_equal_full_load_of_their_databases : forall H base c infos ds c',
  reached H base c -> holds c infos -> Forall (fun d => sd_cids d = H (sd_version d)) ds ->
  ApplyDiffs (CloneCache (Some c)) ds = (c', Ok tt) ->
  holds c' (infos ++ args_of ds) /\ mc_version c' = mc_version c + Z.of_nat (length ds) /\
  (length (mc_diffs c') <= 100)%nat /\ mc_version c' = mc_start c' + Z.of_nat (length (mc_diffs c')) - 1 /\
  (forall k ids, nth_error (mc_diffs c') k = Some ids -> ids = H (mc_start c' + Z.of_nat k)).
Proof.
  intros H base c infos ds c' R Hd F A. assert (R' : reached H base c') by (eapply R_diffs; eassumption).
  destruct (reached_inv _ _ _ R) as ((V & _) & _). destruct (reached_inv _ _ _ R') as ((V' & N') & (_ & L') & _).
  pose proof A as A0. apply ApplyDiffs_shape in A0; [|exact V]. destruct A0 as (c1 & -> & _ & _ & Ev & _). cbn [CloneCache mc_version] in Ev.
  apply ApplyDiffs_ok in A. destruct A as (_ & _ & c2 & L & E). apply apply_loop_ok in L. destruct L as (_ & _ & L3 & L4 & L5 & L6 & L7 & _).
  destruct (trim_fields c1) as [T1 T2]. destruct (trim_fields c2) as [T3 T4].
  split; [|split; [congruence|]; split; [exact L'|]; split; [exact V' | exact N']].
  intros n. rewrite full_get, rev_app_distr, find_app', find_rev_nodup by exact L6. rewrite E, T4, L4.
  destruct (find _ (args_of ds)) as [i|] eqn:X; [reflexivity|]. cbn [CloneCache mc_dbs]. rewrite mget_clone.
  specialize (Hd n). rewrite full_get in Hd. destruct (mget (mc_dbs c) n); cbn in Hd |- *; [rewrite clone_di_idem|]; exact Hd.
Qed.
Theorem C64_full_load_holds : forall v infos, holds (NewMetaCache v infos) infos.
Proof.
  intros v infos n. cbn [NewMetaCache mc_version]. rewrite !full_get. destruct (find _ _); cbn; [rewrite clone_di_idem|]; reflexivity.
Qed.
Lemma diffs_accepted c ds : mc_version c = mc_start c + Z.of_nat (length (mc_diffs c)) - 1 ->
  (exists c', ApplyDiffs (CloneCache (Some c)) ds = (c', Ok tt)) <->
  ds <> [] /\ (forall k d, nth_error ds k = Some d -> sd_version d = mc_version c + 1 + Z.of_nat k) /\
  Forall (fun d => sd_type d = ActionCreateSchema /\ exists i, sd_arg d = ArgDB i) ds /\
  NoDup (map di_name (args_of ds)) /\ (forall i, In i (args_of ds) -> CheckDBExists (Some c) (di_name i) = false).
Proof.
  intros V. split.
  - intros [c' A]. pose proof A as A0. apply ApplyDiffs_shape in A0; [|exact V]. destruct A0 as (_ & _ & _ & _ & _ & A1 & A2).
    apply ApplyDiffs_ok in A. destruct A as (_ & _ & c2 & L & _). apply apply_loop_ok in L. destruct L as (_ & _ & _ & _ & L5 & L6 & L7 & _).
    split; [exact A1|]. split; [exact A2|]. split; [exact L5|]. split; [exact L6|]. intros i I. specialize (L7 _ I). unfold CheckDBExists, cache_dbs.
    cbn [CloneCache mc_dbs] in L7. rewrite mget_clone in L7. destruct (mget (mc_dbs c) (di_name i)); [discriminate | reflexivity].
  - intros (N & C & F & D & X). assert (Cs : consecutive ds = true).
    { clear - C. revert C. generalize (mc_version c + 1). induction ds as [|d ds IH]; intros v C; [reflexivity|]. destruct ds as [|d2 ds]; [reflexivity|].
      change (consecutive (d :: d2 :: ds)) with ((sd_version d + 1 =? sd_version d2) && consecutive (d2 :: ds)). apply andb_true_iff. split.
      - rewrite (C O d eq_refl), (C 1%nat d2 eq_refl). apply Z.eqb_eq. lia.
      - apply (IH (v + 1)). intros k d' E. rewrite (C (S k) d' E). lia. }
    destruct (apply_loop_complete ds (CloneCache (Some c))) as [c1 L]; try assumption.
    + cbn [CloneCache mc_dbs]. unfold clone_map. discriminate.
    + intros i I. cbn [CloneCache mc_dbs]. rewrite mget_clone. specialize (X _ I). unfold CheckDBExists, cache_dbs in X. destruct (mget (mc_dbs c) (di_name i)); [discriminate | reflexivity].
    + exists (trim c1). unfold ApplyDiffs, validateDiffs. rewrite Cs. cbn [negb]. destruct ds as [|d0 ds]; [congruence|].
      rewrite (C O d0 eq_refl). change (mc_start (CloneCache (Some c))) with (mc_start c). change (mc_diffs (CloneCache (Some c))) with (mc_diffs c). replace (_ =? _) with true by (symmetry; apply Z.eqb_eq; lia). cbn [negb]. rewrite L. reflexivity.
Qed.
(** It succeeds exactly on a non-empty list of consecutive create-schema diffs continuing the
    cache, with new and different names. *)
Theorem C64_diffs_accepted_iff : forall H base c ds, reached H base c ->
  (exists c', ApplyDiffs (CloneCache (Some c)) ds = (c', Ok tt)) <->
  ds <> [] /\ (forall k d, nth_error ds k = Some d -> sd_version d = mc_version c + 1 + Z.of_nat k) /\
  Forall (fun d => sd_type d = ActionCreateSchema /\ exists i, sd_arg d = ArgDB i) ds /\
  NoDup (map di_name (args_of ds)) /\ (forall i, In i (args_of ds) -> CheckDBExists (Some c) (di_name i) = false).
Proof. intros H base c ds R. destruct (reached_inv _ _ _ R) as ((V & _) & _). apply diffs_accepted. exact V. Qed.
Example C64_nonvacuous : exists c', ApplyDiffs (CloneCache (Some demo_c1)) [demo_diff] = (c', Ok tt) /\ CheckDBExists (Some c') (str "a") = true.
Proof. eexists. vm_compute. split; reflexivity. Qed.

(** * C66 *)
(** Whenever a commit of a document transaction changes the store, the check of its start cache
    against every collection referred to before passed. [h0] is the handle when it began. *)
Theorem C66_commits_only_if_check_passes : forall h0 d0 upd lim before h d io after x os x' h' d' refs r ran os',
  drun (NewTxn h0 d0 upd lim) before = (x, os) ->
  drun (NewTxn h0 d0 upd lim) (before ++ DCommit h d io :: after) = (x', os ++ OCommit h h' d d' refs r ran :: os') ->
  d' <> d -> upd = true /\ snd (Check h false (h_val h0) (referred before)) = CkRes true /\ (r = Ok tt -> ran = []).
Proof.
  intros h0 d0 upd lim before h d io after x os x' h' d' refs r ran os' B E N. rewrite drun_app, B in E. cbn [drun dstep] in E.
  apply drun_fields in B. destruct B as (B1 & B2 & B3 & _). cbn [NewTxn dt_upd dt_start dt_refs app] in B1, B2, B3.
  destruct (dcommit h d io x) as [[[[h1 d1] x1] r1] ran1] eqn:D. destruct (drun x1 after) as [x2 os2]. inversion E as [[E1 E2]]. clear E.
  apply app_inv_head in E2. inversion E2. subst h1 d1 refs r1 ran1 x2 os2. clear E2. pose proof D as D0. apply dcommit_fields in D0.
  unfold dcommit in D. rewrite B1, B2, B3 in D. destruct upd; cbn [negb] in D; [|inversion D; congruence].
  split; [reflexivity|]. destruct (Check h false (h_val h0) (referred before)) as [h2 [[|]| |]]; try (inversion D; congruence).
  split; [reflexivity|]. intros Er. destruct D0 as (_ & _ & _ & [((e & D0) & _)|(_ & D0 & _)]); [congruence | exact D0].
Qed.
(** A failing commit runs every cancel function added so far that has not run, in order; a
    successful (or panicking) one runs none; so no function runs twice. *)
Theorem C66_cancel_functions_of_one_commit : forall h0 d0 lim before h d io x' os h' d' refs r ran,
  forallb (fun e => negb (is_commit e)) before = true ->
  drun (NewTxn h0 d0 true lim) (before ++ [DCommit h d io]) = (x', os) -> last os ONone = OCommit h h' d d' refs r ran ->
  ran = (match r with Err _ => added before | _ => [] end) /\ (forall e, r = Err e -> d' = d).
Proof.
  intros h0 d0 lim before h d io x' os h' d' refs r ran NC E L. rewrite drun_app in E.
  destruct (drun (NewTxn h0 d0 true lim) before) as [x os1] eqn:B. cbn [drun dstep] in E.
  destruct (dcommit h d io x) as [[[[h1 d1] x1] r1] ran1] eqn:D. inversion E. subst x' os. rewrite last_last in L. inversion L. subst. clear L E.
  assert (Z : concat (map ran_of os1) = []).
  { clear D. revert NC B. generalize (NewTxn h0 d0 true lim). revert x os1. induction before as [|e es IH]; intros x os1 y NC B; cbn [drun] in B.
    - inversion B. reflexivity.
    - cbn [forallb] in NC. apply andb_true_iff in NC. destruct NC as [NC1 NC2]. destruct (dstep y e) as [y1 o] eqn:S. destruct (drun y1 es) as [y2 os2] eqn:R. inversion B. subst.
      cbn [map concat]. rewrite (IH _ _ _ NC2 R), app_nil_r. destruct e as [m|f|ids| |]; cbn [dstep is_commit] in S, NC1; try discriminate.
      + destruct (m (dt_t y)); inversion S; reflexivity.
      + destruct (AddCancelFunc y f) as [? [?|?|]]; inversion S; reflexivity.
      + inversion S; reflexivity.
      + inversion S; reflexivity. }
  apply drun_fields in B. destruct B as (B1 & _ & _ & B4). specialize (B4 eq_refl). rewrite Z in B4. cbn in B4.
  pose proof D as D0. apply dcommit_fields in D0. destruct D0 as (_ & _ & _ & D0). split.
  - destruct D0 as [((e & ->) & -> & _)|(N & -> & _)]; [exact B4|]. destruct r as [|e|]; [reflexivity | destruct (N e eq_refl) | reflexivity].
  - intros e ->. unfold dcommit in D. cbn [NewTxn dt_upd] in B1. rewrite B1 in D. cbn [negb] in D.
    destruct (Check h false (dt_start x) (dt_refs x)) as [h2 [[|]| |]]; try (inversion D; congruence).
    destruct (commit d (dt_t x) io) as [[d2 t2] [u|e2|]] eqn:C; inversion D; subst. clear - C. unfold commit in C.
    destruct (negb (t_open (dt_t x))); [discriminate|]. destruct (entries (t_pend (dt_t x))); [discriminate|].
    destruct (conflict d (dt_t x)); [inversion C; reflexivity|]. destruct io; [inversion C; reflexivity | discriminate].
Qed.
Theorem C66_no_cancel_function_runs_twice : forall h0 d0 lim es x os,
  drun (NewTxn h0 d0 true lim) es = (x, os) -> NoDup (added es) -> NoDup (concat (map ran_of os)) /\ incl (concat (map ran_of os)) (added es).
Proof.
  intros h0 d0 lim es x os E N. apply drun_fields in E. destruct E as (_ & _ & _ & E). specialize (E eq_refl). cbn in E. rewrite <- E in N |- *. split.
  - clear E. revert N. generalize (concat (map ran_of os)). intros l. induction l as [|a l IH]; intros N; [constructor|]. cbn [app] in N. inversion N as [|? ? N1 N2]; subst. constructor; [|apply IH; exact N2]. intros I. apply N1. apply in_or_app. left. exact I.
  - apply incl_appl, incl_refl.
Qed.
(** A read-only transaction never changes the store and its commit succeeds. *)
Theorem C66_read_only_commits_nothing : forall h0 d0 lim es x os h h' d d' refs r ran,
  drun (NewTxn h0 d0 false lim) es = (x, os) -> In (OCommit h h' d d' refs r ran) os -> d' = d /\ h' = h /\ r = Ok tt /\ ran = [].
Proof. intros h0 d0 lim es x os h h' d d' refs r ran E. eapply drun_ro; [|exact E]. reflexivity. Qed.
(** "Exactly once iff the commit fails" does not survive a second call of Commit: after a
    successful commit, another one that meets a schema conflict runs the cancel functions. *)
Theorem C66_cancel_after_success_refuted : exists h0 d0 es x os h1 h2 d1 d2 ran,
  drun (NewTxn h0 d0 true []) es = (x, os) /\
  In (OCommit h0 h0 d0 d1 [12] (Ok tt) []) os /\ d1 <> d0 /\ In (OCommit h1 h2 d1 d2 [12] (Err ErrDDLConflict) ran) os /\ ran = [1%nat].
Proof.
  exists (Handle (Some (CRef 1 demo_c1)) 0), (db_init 0 false),
    [DRefer [12]; DOp (tset (str "k") (str "v")); DCancel 1; DCommit (Handle (Some (CRef 1 demo_c1)) 0) (db_init 0 false) false;
     DCommit (Handle (Some (CRef 2 demo_c2)) 0) (fst (fst (commit (db_init 0 false) (fst (tset (str "k") (str "v") (new_txn (db_init 0 false) true []))) false))) false].
  do 7 eexists. split; [vm_compute; reflexivity|]. split; [right; right; right; left; vm_compute; reflexivity|].
  split; [intros X; apply (f_equal d_ts) in X; vm_compute in X; discriminate|].
  split; [right; right; right; right; left; vm_compute; reflexivity | reflexivity].
Qed.
Example C66_nonvacuous : exists x os h' d' refs,
  drun (NewTxn (Handle (Some (CRef 1 demo_c1)) 0) (db_init 0 false) true [])
    ([DRefer [12]; DOp (tset (str "k") (str "v")); DCancel 1] ++ [DCommit (Handle (Some (CRef 2 demo_c2)) 0) (db_init 0 false) false]) = (x, os) /\
  last os ONone = OCommit (Handle (Some (CRef 2 demo_c2)) 0) h' (db_init 0 false) d' refs (Err ErrDDLConflict) [1%nat].
Proof. do 5 eexists. split; vm_compute; reflexivity. Qed.

Print Assumptions C62_check_accepts_iff_unaffected.
Print Assumptions C63_check_releases_lock_partial.
Print Assumptions C64_diffs_equal_full_load_of_their_databases.
Print Assumptions C66_cancel_functions_of_one_commit.
