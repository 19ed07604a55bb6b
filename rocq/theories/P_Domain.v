(** The schema cache and the store: C64 (store part) and C65.
    encoding/json is a parameter J meeting the contract [json_ok] (MetaCodec.v has an instance). *)
From Verif Require Import Bytes SMap Provider ProviderProofs World Memcmp MemcmpProofs Numeric KvUtil KeyModel Struct
  StructProofs StructHash StructList UtilTxn Sequence SequenceProofs Model Meta MetaCodec MetaSpec MetaProofs MetaOps MetaRun Schema Ddl DdlSpec DdlProofs DdlWorker DdlSys DdlIndex DdlMore Domain DomainProofs.
From Verif Require P_Schema P_Meta P_Ddl.
From Coq Require Import Sorted Permutation.

(** * Specification *)
(** the same schema: equal but for the states, and a nil map counts as an empty one *)
Definition orel {X Y} (R : X -> Y -> Prop) (a : option X) (b : option Y) : Prop :=
  match a, b with Some x, Some y => R x y | None, None => True | _, _ => False end.
Definition same_index (a b : IndexInfo) : Prop :=
  ii_id a = ii_id b /\ ii_name a = ii_name b /\ ii_red a = ii_red b /\ ii_cols a = ii_cols b /\ ii_unique a = ii_unique b.
Definition same_coll (a b : CollectionInfo) : Prop :=
  ci_id a = ci_id b /\ ci_name a = ci_name b /\ ci_order a = ci_order b /\ forall k, orel same_index (mget (ci_indices a) k) (mget (ci_indices b) k).
Definition same_db (a b : DBInfo) : Prop :=
  di_id a = di_id b /\ di_name a = di_name b /\ di_order a = di_order b /\ forall k, orel same_coll (mget (di_colls a) k) (mget (di_colls b) k).
(** a process with its store: DDL events (a crash starts a new process), reloads at any moment, and the checks of
    document transactions, which may leave the handle locked *)
Inductive mev := EDdl (e : dev) | EReload | ECheck (cancelled : bool) (start : option cref) (refs : list Z).
Record dom := Dom { dm_sys : sys; dm_h : handle; dm_next : nat }.
Definition domstep (J : json) (m : dom) (e : mev) : dom :=
  match e with
  | EDdl e => Dom (dstep J (dm_sys m) e) (match e with DCrash => NewHandle | _ => dm_h m end) (dm_next m)
  | EReload => Dom (dm_sys m) (fst (reloadSchema J (y_db (dm_sys m)) (dm_h m) (dm_next m))) (S (dm_next m))
  | ECheck k s refs => Dom (dm_sys m) (fst (Check (dm_h m) k s refs)) (dm_next m)
  end.
Definition domrun (J : json) (d0 : db) (es : list mev) : dom := fold_left (domstep J) es (Dom (dstart d0) NewHandle 0).
Definition ddl_events (es : list mev) : list dev := flat_map (fun e => match e with EDdl e => [e] | _ => [] end) es.
(** the cache of a handle holds, by name, the databases the store lists, and has its version *)
Definition cached (h : handle) : option (smap DBInfo) := cache_dbs (option_map c_val (h_val h)).
Definition up_to_date (J : json) (d : db) (h : handle) : Prop :=
  run_view d (mexec J MGetVersion) = Ok (VInt (version_of h)) /\
  exists l, run_view d (mexec J MListDBs) = Ok (VDbs l) /\ NoDup (map di_name l) /\
    forall name, orel same_db (mget (cached h) name) (find (fun x => bytes_eqb (di_name x) name) l).
(** the last changes the cache remembers: of at most 100 versions, the newest ones; each the collections its version created *)
Definition remembers (jobs : list Job) (c : MetaCache) : Prop :=
  mc_version c = mc_start c + Z.of_nat (length (mc_diffs c)) - 1 /\ (length (mc_diffs c) <= 100)%nat /\ 1 <= mc_start c /\
  forall k ids, nth_error (mc_diffs c) k = Some ids ->
    exists x, nth_error (dbs_of jobs) (Z.to_nat (mc_start c - 1) + k) = Some x /\ Permutation ids (map ci_id (vals (di_colls x))).

(** * The relation *)
Lemma orel_refl {X} (R : X -> X -> Prop) o : (forall x, R x x) -> orel R o o.
Proof. destruct o; cbn; auto. Qed.
Lemma orel_trans {X} (R : X -> X -> Prop) : (forall a b c, R a b -> R b c -> R a c) -> forall a b c, orel R a b -> orel R b c -> orel R a c.
Proof. intros T [a|] [b|] [c|]; cbn; eauto; contradiction. Qed.
Lemma orel_sym {X} (R : X -> X -> Prop) : (forall a b, R a b -> R b a) -> forall a b, orel R a b -> orel R b a.
Proof. intros T [a|] [b|]; cbn; eauto. Qed.
Lemma si_refl i : same_index i i.
Proof. repeat split. Qed.
Lemma si_trans a b c : same_index a b -> same_index b c -> same_index a c.
Proof. intros (A1 & A2 & A3 & A4 & A5) (B1 & B2 & B3 & B4 & B5). repeat split; congruence. Qed.
Lemma si_sym a b : same_index a b -> same_index b a.
Proof. intros (A1 & A2 & A3 & A4 & A5). repeat split; congruence. Qed.
Lemma sc_refl c : same_coll c c.
Proof. split; [reflexivity|]. split; [reflexivity|]. split; [reflexivity|]. intros k. apply orel_refl, si_refl. Qed.
Lemma sc_trans a b c : same_coll a b -> same_coll b c -> same_coll a c.
Proof. intros (A1 & A2 & A3 & A4) (B1 & B2 & B3 & B4). split; [congruence|]. split; [congruence|]. split; [congruence|]. intros k. eapply orel_trans; [exact si_trans | apply A4 | apply B4]. Qed.
Lemma sc_sym a b : same_coll a b -> same_coll b a.
Proof. intros (A1 & A2 & A3 & A4). split; [congruence|]. split; [congruence|]. split; [congruence|]. intros k. apply orel_sym; [exact si_sym | apply A4]. Qed.
Lemma sd_refl x : same_db x x.
Proof. split; [reflexivity|]. split; [reflexivity|]. split; [reflexivity|]. intros k. apply orel_refl, sc_refl. Qed.
Lemma sd_trans a b c : same_db a b -> same_db b c -> same_db a c.
Proof. intros (A1 & A2 & A3 & A4) (B1 & B2 & B3 & B4). split; [congruence|]. split; [congruence|]. split; [congruence|]. intros k. eapply orel_trans; [exact sc_trans | apply A4 | apply B4]. Qed.
Lemma sd_sym a b : same_db a b -> same_db b a.
Proof. intros (A1 & A2 & A3 & A4). split; [congruence|]. split; [congruence|]. split; [congruence|]. intros k. apply orel_sym; [exact sc_sym | apply A4]. Qed.
Lemma orel_map {X} (R : X -> X -> Prop) (f : X -> X) o : (forall x, R (f x) x) -> orel R (option_map f o) o.
Proof. destruct o; cbn; auto. Qed.
Lemma mget_map {X} (f : X -> X) o k : mget (option_map (smap_map f) o) k = option_map f (mget o k).
Proof. destruct o; cbn [option_map mget]; [apply get_smap_map | reflexivity]. Qed.
Lemma clone_same_ci c : same_coll (clone_ci c) c.
Proof. split; [reflexivity|]. split; [reflexivity|]. split; [reflexivity|]. intros k. cbn [clone_ci ci_indices]. rewrite mget_clone. apply orel_map. intros i. rewrite clone_ii_eq. apply si_refl. Qed.
Lemma clone_same x : same_db (clone_di x) x.
Proof. split; [reflexivity|]. split; [reflexivity|]. split; [reflexivity|]. intros k. cbn [clone_di di_colls]. rewrite mget_clone. apply orel_map. exact clone_same_ci. Qed.
Lemma pub_same_ci c : same_coll (pub_ci c) c.
Proof. split; [reflexivity|]. split; [reflexivity|]. split; [reflexivity|]. intros k. cbn [pub_ci ci_indices]. rewrite mget_map. apply orel_map. intros i. repeat split. Qed.
Lemma pub_same x : same_db (pub_di x) x.
Proof. split; [reflexivity|]. split; [reflexivity|]. split; [reflexivity|]. intros k. cbn [pub_di di_colls]. rewrite mget_map. apply orel_map. exact pub_same_ci. Qed.

(** * Applied jobs only grow *)
Section WithJson.
Variable J : json.
Hypothesis JO : json_ok J.
Local Notation sinv := (sinv J).
Lemma applied_grows T y D R st A e : sinv T y D R st A -> dev_ok e -> T + dweight e < two63 ->
  exists D' R' st' A', sinv (T + dweight e) (dstep J y e) D' R' st' A' /\ (exists l, applied D' R' st' = applied D R st ++ l).
Proof.
  intros I K L. assert (SAME : forall R' A', sinv (T + dweight e) (dstep J y e) D R' st A' -> (exists l, R' = R ++ l) ->
    exists D1 R1 st1 A1, sinv (T + dweight e) (dstep J y e) D1 R1 st1 A1 /\ (exists l, applied D1 R1 st1 = applied D R st ++ l)).
  { intros R' A' H (l & ->). exists D, (R ++ l), st, A'. split; [exact H|]. exists []. rewrite app_nil_r. unfold applied. destruct st; auto. destruct R; [|reflexivity].
    exfalso. exact (ds_stat _ _ _ _ (si_state _ _ _ _ _ _ _ I) eq_refl). }
  assert (OTH : match e with DDid _ _ _ _ | DRelease _ _ _ _ | DOther _ _ => True | _ => False end -> exists A', sinv (T + dweight e) (dstep J y e) D R st A').
  { intros X. destruct (other_inv J T y D R st A e I K L X) as (A' & H & _). exists A'. exact H. }
  destruct e as [i io|i io|o io| |a c s io|a c s io|t io]; try (destruct (OTH Logic.I) as (A' & H); apply (SAME R A' H); exists []; rewrite app_nil_r; reflexivity); clear OTH.
  - destruct (create_inv J JO T y D R st A i io I K L) as (R' & A' & H). apply (SAME R' A' H).
    pose proof (si_jobs _ _ _ _ _ _ _ H) as E. cbn [dstep] in E. destruct (CreateSchema J (y_db y) i io) as [d' r]. cbn [y_jobs] in E. rewrite (si_jobs _ _ _ _ _ _ _ I) in E.
    destruct r as [j|e|]; cbn [accepted] in E; [rewrite <- app_assoc in E|..]; apply app_inv_head in E; [exists [j] | exists [] | exists []]; rewrite ?app_nil_r; congruence.
  - destruct (index_inv J JO T y D R st A i io I K L) as (R' & A' & H). apply (SAME R' A' H).
    pose proof (si_jobs _ _ _ _ _ _ _ H) as E. cbn [dstep] in E. destruct (AddIndex J (y_db y) i io) as [d' r]. cbn [y_jobs] in E. rewrite (si_jobs _ _ _ _ _ _ _ I) in E.
    destruct r as [j|e|]; cbn [accepted] in E; [rewrite <- app_assoc in E|..]; apply app_inv_head in E; [exists [j] | exists [] | exists []]; rewrite ?app_nil_r; congruence.
  - cbn [dweight] in *. rewrite Z.add_0_r in *. destruct (work_inv J JO T y D R st A o io I K L) as (D' & R' & st' & A' & H & W). exists D', R', st', A'. split; [exact H|].
    destruct W as [W|(_ & -> & -> & ->)]; [|exists []; rewrite app_nil_r; reflexivity]. destruct W as [D|D j r d Ea N|D j r|D j r d Ea N|D R|D j r i st Ea Hs]; cbn [applied]; try (exists []; rewrite app_nil_r; reflexivity).
    + exists [j]. reflexivity.
    + exists []. rewrite app_nil_r. destruct Hs as [-> | ->]; reflexivity.
  - apply (SAME R A); [cbn [dweight]; rewrite Z.add_0_r; apply crash_inv; exact I | exists []; rewrite app_nil_r; reflexivity].
Qed.

(** * The cache after any history *)
Definition by_name (name : bytes) (x : DBInfo) : bool := bytes_eqb (di_name x) name.
Definition cinv (L : list Job) (h : handle) : Prop :=
  match h_val h with
  | None => True
  | Some c => 1 <= mc_version (c_val c) /\ remembers L (c_val c) /\
      exists L0 L1, L = L0 ++ L1 /\ Z.of_nat (length L0) = mc_version (c_val c) /\ forall name, orel same_db (mget (mc_dbs (c_val c)) name) (find (by_name name) (dbs_of L0))
  end.
Lemma remembers_more L l c : remembers L c -> remembers (L ++ l) c.
Proof.
  intros (R1 & R2 & R3 & R4). split; [exact R1|]. split; [exact R2|]. split; [exact R3|]. intros k ids N. destruct (R4 k ids N) as (x & X & Y). exists x. split; [|exact Y].
  rewrite dbs_app, nth_error_app1; [exact X | apply nth_error_Some; congruence].
Qed.
Lemma cinv_more L l h : cinv L h -> cinv (L ++ l) h.
Proof.
  unfold cinv. destruct (h_val h) as [c|]; [|auto]. intros (V & R & L0 & L1 & E & N & G). split; [exact V|]. split; [apply remembers_more; exact R|]. exists L0, (L1 ++ l). rewrite E, app_assoc. auto.
Qed.
Lemma cinv_leak L h h' : h_val h' = h_val h -> cinv L h -> cinv L h'.
Proof. unfold cinv. intros ->. auto. Qed.
Lemma check_val h k s refs : h_val (fst (Check h k s refs)) = h_val h.
Proof.
  unfold Check. destruct k; [reflexivity|]. destruct (ptr_eqb (h_val h) s); [reflexivity|]. destruct s as [s|]; [|reflexivity]. destruct (h_val h) as [c|] eqn:E; [|cbn [fst leak h_val]; exact E].
  destruct (check_loop _ _ _ _); cbn [fst leak h_val]; exact E.
Qed.
Lemma by_name_iff name x : by_name name x = true <-> di_name x = name.
Proof. apply bytes_eqb_eq. Qed.
Lemma find_name name l x : NoDup (map di_name l) -> In x l -> di_name x = name -> find (by_name name) l = Some x.
Proof.
  induction l as [|a l IH]; intros N I E; [destruct I|]. cbn [map] in N. inversion N as [|? ? N1 N2]; subst. cbn [find]. destruct (by_name (di_name x) a) eqn:B.
  - apply by_name_iff in B. destruct I as [->|I]; [reflexivity|]. exfalso. apply N1. rewrite B. apply in_map. exact I.
  - destruct I as [->|I]; [|apply IH; auto]. exfalso. unfold by_name in B. rewrite bytes_eqb_refl in B. discriminate.
Qed.
Lemma find_no_name name l : (forall x, In x l -> di_name x <> name) -> find (by_name name) l = None.
Proof. intros H. destruct (find (by_name name) l) as [x|] eqn:F; [|reflexivity]. apply find_some in F. destruct F as [F1 F2]. apply by_name_iff in F2. destruct (H x F1 F2). Qed.
(** a list of the published databases, in any order *)
Lemma find_listed (l ds : list DBInfo) : (forall x, In x l <-> exists z, In z ds /\ x = pub_di z) -> NoDup (map di_name ds) -> forall name,
  orel same_db (option_map clone_di (find (by_name name) (rev l))) (find (by_name name) ds).
Proof.
  intros E N name. destruct (find (by_name name) ds) as [z|] eqn:F.
  - apply find_some in F. destruct F as [F1 F2]. apply by_name_iff in F2. assert (Il : In (pub_di z) (rev l)) by (rewrite <- in_rev; apply E; eauto).
    destruct (find (by_name name) (rev l)) as [x|] eqn:G.
    + apply find_some in G. destruct G as [G1 G2]. apply by_name_iff in G2. rewrite <- in_rev in G1. apply E in G1. destruct G1 as (z' & Z1 & ->).
      assert (Some z' = Some z) by (rewrite <- (find_name name ds z' N Z1 G2); apply find_name; assumption). assert (z' = z) by congruence. subst z'. cbn [option_map orel]. eapply sd_trans; [apply clone_same | apply pub_same].
    + pose proof (find_none _ _ G _ Il) as X. assert (Y : by_name name (pub_di z) = true) by (apply by_name_iff; exact F2). congruence.
  - rewrite find_no_name; [exact Logic.I|]. intros x Ix Nx. rewrite <- in_rev in Ix. apply E in Ix. destruct Ix as (z & Z1 & ->). pose proof (find_none _ _ F z Z1) as X. assert (Y : by_name name z = true) by (apply by_name_iff; exact Nx). congruence.
Qed.
Lemma args_are (ds : list SchemaDiff) : forall l : list DBInfo, length ds = length l -> (forall k x d, nth_error ds k = Some x -> nth_error l k = Some d -> sd_arg x = ArgDB d) -> args_of ds = l.
Proof.
  induction ds as [|x ds IH]; intros [|d l] E H; try discriminate; [reflexivity|]. cbn [args_of flat_map]. rewrite (H O x d eq_refl eq_refl). cbn [app]. f_equal. apply IH; [cbn in E; lia|]. intros k. exact (H (S k)).
Qed.
Lemma trim_remembers L c : mc_version c = mc_start c + Z.of_nat (length (mc_diffs c)) - 1 -> 1 <= mc_start c ->
  (forall k ids, nth_error (mc_diffs c) k = Some ids -> exists x, nth_error (dbs_of L) (Z.to_nat (mc_start c - 1) + k) = Some x /\ Permutation ids (map ci_id (vals (di_colls x)))) -> remembers L (trim c).
Proof.
  intros V S H. split; [|split; [apply trim_len|]]; unfold trim; destruct (maxDiffs <? length (mc_diffs c))%nat eqn:B; cbn [mc_version mc_start mc_diffs]; try assumption.
  - rewrite skipn_length. apply Nat.ltb_lt in B. lia.
  - split; [lia|]. intros k ids N. rewrite nth_skipn in N. destruct (H _ _ N) as (x & X & Y). exists x. split; [|exact Y]. rewrite <- X. f_equal. lia.
  - split; assumption.
Qed.
Lemma reload_inv T y D R st A h p : sinv T y D R st A -> T < two63 -> cinv (applied D R st) h -> let L := applied D R st in
  let h' := fst (reloadSchema J (y_db y) h p) in let r := snd (reloadSchema J (y_db y) h p) in
  cinv L h' /\ (h_readers h = 0%nat -> r = RDone) /\
  (r = RDone -> version_of h' = Z.of_nat (length L) /\ forall name, orel same_db (mget (cached h') name) (find (by_name name) (dbs_of L))) /\
  (r <> RDone -> r = RBlocked /\ h' = h).
Proof.
  intros I LT CI L. pose proof (ds_effects _ _ _ _ (si_state _ _ _ _ _ _ _ I)) as EF. fold L in EF. pose proof (ds_names _ _ _ _ (si_state _ _ _ _ _ _ _ I)) as NN. fold L in NN.
  pose proof (ef_ver _ _ EF) as EV. pose proof (dbs_len _ _ EF) as DL. pose proof (used_lt J _ _ _ _ _ _ I LT) as UL. pose proof (si_total _ _ _ _ _ _ _ I) as TT.
  assert (LL : Z.of_nat (length L) < two63).
  { unfold room, used in UL. fold L in UL. pose proof (llen_nonneg D). pose proof (llen_nonneg (D ++ R)). pose proof (sizes_nonneg L). unfold llen in *. lia. }
  assert (V0 : 0 <= version_of h <= Z.of_nat (length L)).
  { unfold version_of. unfold cinv in CI. destruct (h_val h) as [c|]; [|lia]. fold L in CI. destruct CI as (V & _ & L0 & L1 & E & N & _). split; [lia|]. rewrite E, app_length. lia. }
  assert (PUB : forall c, cinv L (Handle (Some (CRef p c)) 0) -> mc_version c = Z.of_nat (length L) -> (forall name, orel same_db (mget (mc_dbs c) name) (find (by_name name) (dbs_of L))) ->
    let h' := fst (publish_cache h (CRef p c)) in let r := snd (publish_cache h (CRef p c)) in
    cinv L h' /\ (h_readers h = 0%nat -> r = RDone) /\ (r = RDone -> version_of h' = Z.of_nat (length L) /\ forall name, orel same_db (mget (cached h') name) (find (by_name name) (dbs_of L))) /\ (r <> RDone -> r = RBlocked /\ h' = h)).
  { intros c C1 C2 C3. unfold publish_cache, Update. destruct (Nat.eqb_spec (h_readers h) 0) as [Z|N]; cbn [fst snd].
    - split; [exact C1|]. split; [reflexivity|]. split; [intros _; split; [exact C2 | exact C3] | congruence].
    - split; [exact CI|]. split; [congruence|]. split; [discriminate | auto]. }
  unfold reloadSchema. destruct (reads_r J JO _ (y_db y) A (version_of h) (si_holds _ _ _ _ _ _ _ I) UL (proj1 V0) ltac:(lia)) as [(E & ->)|[(E1 & E2 & _)|[(E1 & E2 & ds & K & ->)|(E1 & E2 & K & l & Ll & _ & ->)]]]; cbv iota beta.
  - (* current *)
    rewrite EV in E. cbn [fst snd]. split; [exact CI|]. split; [reflexivity|]. split; [|congruence]. intros _. split; [exact E|].
    intros name. unfold cached, version_of in *. unfold cinv in CI. destruct (h_val h) as [c|]; cbn [option_map cache_dbs].
    + fold L in CI. destruct CI as (V & _ & L0 & L1 & EL & N & G). assert (L1 = []) by (destruct L1; [reflexivity|]; rewrite EL, app_length in E; cbn [length] in E; lia). subst L1. rewrite EL, app_nil_r. apply G.
    + destruct L; [exact Logic.I | cbn [length] in E; lia].
  - exfalso. lia.
  - (* diffs *)
    assert (CV : exists c, h_val h = Some c).
    { destruct (h_val h) as [c|] eqn:Eh; [eauto|]. exfalso. unfold kept, version_of in K. rewrite Eh in K. discriminate. }
    destruct CV as (c & Eh). unfold cinv in CI. rewrite Eh in CI. fold L in CI. destruct CI as (V & (Q1 & Q2 & Q3 & Q4) & L0 & L1 & EL & N & G). unfold version_of in *. rewrite Eh in *. cbn [option_map].
    unfold kept in K. rewrite EV in K. destruct ((mc_version (c_val c) =? 0) || _) eqn:B; [discriminate|]. clear B. pose proof (diffs_length _ _ _ _ K) as DS. pose proof (diffs_nth _ _ _ _ K) as DN.
    assert (Le : length L = (length L0 + length L1)%nat) by (rewrite EL; apply app_length). replace (Z.to_nat (Z.of_nat (length L) - mc_version (c_val c))) with (length L1) in * by lia.
    assert (D01 : dbs_of L = dbs_of L0 ++ dbs_of L1) by (rewrite EL; apply dbs_app).
    assert (LD0 : length (dbs_of L0) = length L0).
    { assert (Ef0 : forall j, In j L0 -> exists d, j_arg j = ArgDB d) by (intros j Ij; apply (ef_create _ _ EF j); rewrite EL; apply in_or_app; auto). clear - Ef0. induction L0 as [|j L0 IH]; [reflexivity|].
      cbn [dbs_of flat_map]. destruct (Ef0 j (or_introl eq_refl)) as (d & ->). cbn [app length]. f_equal. apply IH. intros j' Ij. apply Ef0. right. exact Ij. }
    assert (LD1 : length (dbs_of L1) = length L1) by (rewrite D01, app_length in DL; lia).
    assert (DK : forall k, (k < length L1)%nat -> exists d cids, nth_error (dbs_of L1) k = Some d /\ Permutation cids (map ci_id (vals (di_colls d))) /\ nth_error ds k = Some (SD (mc_version (c_val c) + 1 + Z.of_nat k) ActionCreateSchema cids (ArgDB d))).
    { intros k Kk. destruct (nth_error (dbs_of L1) k) as [d|] eqn:X; [|apply nth_error_None in X; lia]. assert (X' : nth_error (dbs_of L) (length L0 + k) = Some d) by (rewrite D01, nth_error_app2 by lia; rewrite LD0, Nat.add_comm, Nat.add_sub; exact X).
      destruct (ef_diff_at _ _ EF _ _ X') as (cids & Pc & Mc). exists d, cids. split; [reflexivity|]. split; [exact Pc|]. rewrite (DN k Kk).
      replace (mc_version (c_val c) + 1 + Z.of_nat k) with (Z.of_nat (length L0 + k) + 1) by lia. exact Mc. }
    assert (AR : args_of ds = dbs_of L1).
    { apply args_are; [lia|]. intros k x d Nx Nd. assert (Kk : (k < length L1)%nat) by (rewrite <- DS; apply nth_error_Some; congruence). destruct (DK k Kk) as (d' & cids & Y1 & _ & Y2). rewrite Nx in Y2. rewrite Nd in Y1. injection Y1 as <-. injection Y2 as ->. reflexivity. }
    rewrite D01, map_app in NN. apply nodup_app in NN. destruct NN as (NN0 & NN1 & NN2).
    assert (NC : forall i, In i (args_of ds) -> mget (mc_dbs (c_val c)) (di_name i) = None).
    { intros i Ii. rewrite AR in Ii. pose proof (G (di_name i)) as Gi. rewrite find_no_name in Gi; [destruct (mget _ _); [destruct Gi | reflexivity]|]. intros x Ix Nx. apply (NN2 (di_name i)); [rewrite <- Nx; apply in_map; exact Ix | apply in_map; exact Ii]. }
    assert (AC : exists c', ApplyDiffs (CloneCache (Some (c_val c))) ds = (c', Ok tt)).
    { apply (P_Schema.diffs_accepted (c_val c) ds Q1). split; [destruct ds; [cbn [length] in DS; lia | discriminate]|]. split; [|split; [|split; [rewrite AR; exact NN1|]]].
      - intros k d Nd. assert (Kk : (k < length L1)%nat) by (rewrite <- DS; apply nth_error_Some; congruence). destruct (DK k Kk) as (d' & cids & _ & _ & Y2). rewrite Nd in Y2. injection Y2 as ->. reflexivity.
      - apply Forall_forall. intros x Ix. apply In_nth_error in Ix. destruct Ix as (k & Nx). assert (Kk : (k < length L1)%nat) by (rewrite <- DS; apply nth_error_Some; congruence). destruct (DK k Kk) as (d' & cids & _ & _ & Y2). rewrite Nx in Y2. injection Y2 as ->. split; [reflexivity | eexists; reflexivity].
      - intros i Ii. unfold CheckDBExists, cache_dbs. rewrite (NC i Ii). reflexivity. }
    destruct AC as (c' & AC). rewrite AC. pose proof (P_Schema.ApplyDiffs_shape (CloneCache (Some (c_val c))) ds c' Q1 AC) as (c1 & Ec & S1 & S2 & S3 & S4 & S5). cbn [CloneCache mc_start mc_diffs mc_version] in S1, S2, S3.
    pose proof (P_Schema.ApplyDiffs_ok _ _ _ AC) as (_ & _ & c2 & AL & Ec2). apply apply_loop_ok in AL. destruct AL as (_ & _ & _ & A4 & _). destruct (trim_fields c1) as [T1 T2]. destruct (trim_fields c2) as [T3 T4].
    assert (GN : forall name, orel same_db (mget (mc_dbs c') name) (find (by_name name) (dbs_of L))).
    { intros name. rewrite Ec2, T4, A4, AR, D01. fold (by_name name). rewrite P_Schema.find_app'. destruct (find (by_name name) (dbs_of L1)) as [i|] eqn:F1.
      - rewrite find_no_name; [apply sd_refl|]. intros x Ix Nx. apply find_some in F1. destruct F1 as [F1 F2]. apply by_name_iff in F2. apply (NN2 name); [rewrite <- Nx; apply in_map; exact Ix | rewrite <- F2; apply in_map; exact F1].
      - cbn [CloneCache mc_dbs]. rewrite mget_clone. specialize (G name). destruct (mget (mc_dbs (c_val c)) name) as [x|], (find (by_name name) (dbs_of L0)) as [z|]; cbn [option_map orel] in *; try contradiction; [|exact Logic.I]. eapply sd_trans; [apply clone_same | exact G]. }
    assert (VN : mc_version c' = Z.of_nat (length L)) by (rewrite Ec, T1, S3; lia).
    apply PUB; [|exact VN | exact GN]. unfold cinv. cbn [h_val c_val]. split; [lia|]. split.
    + rewrite Ec. apply trim_remembers; [rewrite S3, S1, S2, app_length, map_length; lia | rewrite S1; exact Q3|]. rewrite S1, S2. intros k ids Nk. destruct (lt_dec k (length (mc_diffs (c_val c)))) as [Lt|Ge].
      * rewrite nth_error_app1 in Nk by exact Lt. exact (Q4 k ids Nk).
      * rewrite nth_error_app2 in Nk by lia. rewrite nth_error_map in Nk. destruct (nth_error ds (k - length (mc_diffs (c_val c)))) as [x|] eqn:Nx; [|discriminate].
        assert (Kk : (k - length (mc_diffs (c_val c)) < length L1)%nat) by (rewrite <- DS; apply nth_error_Some; congruence). destruct (DK _ Kk) as (d & cids & Y1 & Y2 & Y3). rewrite Nx in Y3. injection Y3 as ->. cbn [option_map sd_cids] in Nk. injection Nk as <-.
        exists d. split; [|exact Y2]. rewrite D01, nth_error_app2 by lia. rewrite LD0, <- Y1. f_equal. lia.
    + exists L, []. rewrite app_nil_r. split; [reflexivity|]. split; [lia | exact GN].
  - (* full *)
    rewrite EV in *. destruct Ll as [L1 L2].
    assert (GN : forall name, orel same_db (mget (mc_dbs (NewMetaCache (Z.of_nat (length L)) l)) name) (find (by_name name) (dbs_of L))).
    { intros name. rewrite P_Schema.full_get. apply find_listed; [|exact NN]. intros x. rewrite L2, (ef_db _ _ EF). split; [intros (z & Iz & _ & ->); eauto | intros (z & Iz & ->); exists z; auto]. }
    apply PUB; [|reflexivity | exact GN]. unfold cinv. cbn [h_val c_val]. split; [cbn [NewMetaCache mc_version]; lia|]. split.
    + split; [cbn; lia|]. split; [cbn; lia|]. split; [cbn; lia|]. intros k ids Nk. destruct k; discriminate.
    + exists L, []. rewrite app_nil_r. split; [reflexivity|]. split; [reflexivity | exact GN].
Qed.
Lemma dom_inv d0 es : db_ok d0 -> P_Meta.no_meta d0 -> Forall dev_ok (ddl_events es) -> dload (ddl_events es) < two63 ->
  exists D R st A, sinv (dload (ddl_events es)) (dm_sys (domrun J d0 es)) D R st A /\ cinv (applied D R st) (dm_h (domrun J d0 es)) /\ y_jobs (dm_sys (domrun J d0 es)) = D ++ R.
Proof.
  intros H1 H2 H3 H4. assert (G : forall es T m D R st A, sinv T (dm_sys m) D R st A -> cinv (applied D R st) (dm_h m) -> Forall dev_ok (ddl_events es) -> T + dload (ddl_events es) < two63 ->
    exists D' R' st' A', sinv (T + dload (ddl_events es)) (dm_sys (fold_left (domstep J) es m)) D' R' st' A' /\ cinv (applied D' R' st') (dm_h (fold_left (domstep J) es m))).
  { clear - JO. induction es as [|e es IH]; intros T m D R st A I C F L.
    - cbn [fold_left]. exists D, R, st, A. cbn [ddl_events flat_map dload fold_right] in *. rewrite Z.add_0_r. auto.
    - cbn [fold_left]. destruct e as [e| |k s refs]; cbn [ddl_events flat_map app] in F, L |- *; fold (ddl_events es) in *.
      + inversion F as [|? ? F1 F2]; subst. cbn [dload fold_right] in L |- *. fold (dload (ddl_events es)) in *. pose proof (load_nonneg (ddl_events es)) as L0. pose proof (weight_nonneg e).
        destruct (applied_grows T (dm_sys m) D R st A e I F1 ltac:(lia)) as (D1 & R1 & st1 & A1 & I1 & (l1 & E1)).
        rewrite Z.add_assoc. apply (IH _ (domstep J m (EDdl e)) D1 R1 st1 A1 I1); [|exact F2 | lia]. rewrite E1. cbn [domstep dm_h]. destruct e; try (apply cinv_more; exact C). exact Logic.I.
      + apply (IH _ (domstep J m EReload) D R st A I); [|exact F | exact L]. cbn [domstep dm_h]. pose proof (load_nonneg (ddl_events es)) as L0. apply (reload_inv T (dm_sys m) D R st A (dm_h m) (dm_next m) I ltac:(lia) C).
      + apply (IH _ (domstep J m (ECheck k s refs)) D R st A I); [|exact F | exact L]. cbn [domstep dm_h]. eapply cinv_leak; [apply check_val | exact C]. }
  destruct (G es 0 (Dom (dstart d0) NewHandle 0) [] [] HFresh m_empty (start_inv J d0 (P_Ddl.empty_holds J d0 H1 H2)) Logic.I H3 ltac:(lia)) as (D & R & st & A & I & C).
  rewrite Z.add_0_l in I. exists D, R, st, A. split; [exact I|]. split; [exact C | exact (si_jobs _ _ _ _ _ _ _ I)].
Qed.

Lemma in_listed L A l : effects L A -> lists_dbs A l -> forall x, In x l <-> exists z, In z (dbs_of L) /\ x = pub_di z.
Proof. intros EF [L1 L2] x. rewrite L2, (ef_db _ _ EF). split; [intros (z & Iz & _ & ->); eauto | intros (z & Iz & ->); exists z; auto]. Qed.
Lemma listed_names (ds : list DBInfo) : NoDup (map di_name ds) -> forall l, NoDup (map di_id l) -> (forall x, In x l -> exists z, In z ds /\ x = pub_di z) -> NoDup (map di_name l).
Proof.
  intros N. induction l as [|a l IH]; intros NI E; [constructor|]. cbn [map] in NI |- *. inversion NI as [|? ? N1 N2]; subst. constructor; [|apply IH; [exact N2 | intros x Ix; apply E; right; exact Ix]].
  intros X. apply in_map_iff in X. destruct X as (b & Eb & Ib). destruct (E a (or_introl eq_refl)) as (z & Iz & ->). destruct (E b (or_intror Ib)) as (z' & Iz' & ->).
  assert (Some z' = Some z) by (rewrite <- (find_name (di_name z) ds z' N Iz' Eb); apply find_name; auto). apply N1. replace z with z' by congruence. apply in_map. exact Ib.
Qed.
Lemma listed_find (l ds : list DBInfo) : (forall x, In x l <-> exists z, In z ds /\ x = pub_di z) -> NoDup (map di_name ds) -> forall name, orel same_db (find (by_name name) ds) (find (by_name name) l).
Proof.
  intros E N name. apply orel_sym; [exact sd_sym|]. rewrite <- (rev_involutive l). eapply orel_trans; [exact sd_trans| |apply (find_listed (rev l)); [|exact N]].
  - rewrite rev_involutive. apply orel_sym; [exact sd_sym|]. destruct (find (by_name name) l); cbn [option_map orel]; [apply clone_same | exact Logic.I].
  - intros x. rewrite <- in_rev. apply E.
Qed.
Lemma fresh_cinv L : cinv L NewHandle.
Proof. exact Logic.I. Qed.
Lemma applied_prefix T y D R st A : sinv T y D R st A -> exists l, D ++ R = applied D R st ++ l.
Proof.
  intros I. unfold applied. destruct st; try (exists R; reflexivity). destruct R as [|j R]; [exists []; reflexivity|]. exists R. rewrite <- app_assoc. reflexivity.
Qed.
Lemma current_matches T y D R st A h : sinv T y D R st A -> T < two63 -> let L := applied D R st in version_of h = Z.of_nat (length L) ->
  (forall name, orel same_db (mget (cached h) name) (find (by_name name) (dbs_of L))) -> up_to_date J (y_db y) h.
Proof.
  intros I LT L V G. pose proof (ds_effects _ _ _ _ (si_state _ _ _ _ _ _ _ I)) as EF. fold L in EF. pose proof (ds_names _ _ _ _ (si_state _ _ _ _ _ _ _ I)) as NN. fold L in NN.
  pose proof (used_lt J _ _ _ _ _ _ I LT) as UL. pose proof (si_holds _ _ _ _ _ _ _ I) as H. split.
  - destruct (read_op J JO _ _ _ MGetVersion H UL eq_refl Logic.I) as (r & [-> _] & ->). rewrite (ef_ver _ _ EF), V. reflexivity.
  - destruct (read_op J JO _ _ _ MListDBs H UL eq_refl Logic.I) as (r & [(l & -> & Ll) _] & E). exists l. split; [exact E|]. pose proof (in_listed L A l EF Ll) as IL. split.
    + apply (listed_names (dbs_of L) NN l (proj1 Ll)). intros x. apply IL.
    + intros name. eapply orel_trans; [exact sd_trans | apply G | apply listed_find; assumption].
Qed.
End WithJson.

(** * C64: the store *)
(** after any history of DDL calls, worker iterations, failed commits, crashes, reloads and checks, a reload succeeds
    unless a reader's lock was leaked; then the cache is what the store holds, the diffs it keeps are those of the
    stored versions, at most 100, ending at its version *)
Theorem C64_reload_matches_store : forall J, json_ok J -> forall d0 es, db_ok d0 -> P_Meta.no_meta d0 -> Forall dev_ok (ddl_events es) -> dload (ddl_events es) < two63 ->
  let m := domrun J d0 es in let d := y_db (dm_sys m) in forall p h' r, reloadSchema J d (dm_h m) p = (h', r) ->
  (h_readers (dm_h m) = 0%nat -> r = RDone) /\
  (r = RDone -> up_to_date J d h' /\ forall c, h_val h' = Some c -> remembers (y_jobs (dm_sys m)) (c_val c)) /\
  (r <> RDone -> r = RBlocked /\ h' = dm_h m).
Proof.
  intros J JO d0 es H1 H2 H3 H4 m d p h' r E. destruct (dom_inv J JO d0 es H1 H2 H3 H4) as (D & R & st & A & I & C & JE). fold m in I, C, JE.
  destruct (reload_inv J JO _ _ D R st A _ p I H4 C) as (C' & Q1 & Q2 & Q3). fold d in C', Q1, Q2, Q3. rewrite E in C', Q1, Q2, Q3. cbn [fst snd] in C', Q1, Q2, Q3. split; [exact Q1|]. split; [|exact Q3].
  intros Er. destruct (Q2 Er) as [V G]. split; [exact (current_matches J JO _ _ D R st A h' I H4 V G)|]. intros c Ec. unfold cinv in C'. rewrite Ec in C'. destruct C' as (_ & X & _).
  rewrite JE. destruct (applied_prefix J _ _ _ _ _ _ I) as (l & ->). apply remembers_more. exact X.
Qed.
(** the incremental load gives the schema that a full load by a new process gives *)
Theorem C64_incremental_equals_full : forall J, json_ok J -> forall d0 es, db_ok d0 -> P_Meta.no_meta d0 -> Forall dev_ok (ddl_events es) -> dload (ddl_events es) < two63 ->
  let m := domrun J d0 es in let d := y_db (dm_sys m) in forall p p' h1 h2 r2, reloadSchema J d (dm_h m) p = (h1, RDone) -> reloadSchema J d NewHandle p' = (h2, r2) ->
  r2 = RDone /\ version_of h1 = version_of h2 /\ forall name, orel same_db (mget (cached h1) name) (mget (cached h2) name).
Proof.
  intros J JO d0 es H1 H2 H3 H4 m d p p' h1 h2 r2 E1 E2. destruct (dom_inv J JO d0 es H1 H2 H3 H4) as (D & R & st & A & I & C & JE). fold m in I, C, JE.
  destruct (reload_inv J JO _ _ D R st A _ p I H4 C) as (_ & _ & Q & _). fold d in Q. rewrite E1 in Q. cbn [fst snd] in Q. destruct (Q eq_refl) as [V1 G1].
  destruct (reload_inv J JO _ _ D R st A _ p' I H4 (fresh_cinv _)) as (_ & P & Q' & _). fold d in P, Q'. rewrite E2 in P, Q'. cbn [fst snd] in P, Q'. specialize (P eq_refl). destruct (Q' P) as [V2 G2].
  split; [exact P|]. split; [congruence|]. intros name. eapply orel_trans; [exact sd_trans | apply G1|]. apply orel_sym; [exact sd_sym | apply G2].
Qed.

(** * C65 *)
(** the handles a process can have: made new, reloaded from any store, checked *)
Inductive served (J : json) : handle -> Prop :=
| served_new : served J NewHandle
| served_reload d h p : served J h -> served J (fst (reloadSchema J d h p))
| served_check h k s refs : served J h -> served J (fst (Check h k s refs)).
Lemma served_ok J h : served J h -> match h_val h with Some c => mc_ok (c_val c) | None => True end.
Proof.
  intros H. induction H as [|d h p H IH|h k s refs H IH]; [exact Logic.I| |rewrite check_val; exact IH].
  assert (PUB : forall c, mc_ok c -> match h_val (fst (publish_cache h (CRef p c))) with Some c => mc_ok (c_val c) | None => True end).
  { intros c K. unfold publish_cache, Update. destruct (h_readers h =? 0)%nat; cbn [fst h_val c_val]; [exact K | exact IH]. }
  unfold reloadSchema. destruct (run_view d (reload_reads J (version_of h))) as [[|ds|v l]|e|]; cbn [fst]; try exact IH.
  - destruct (ApplyDiffs (CloneCache (option_map c_val (h_val h))) ds) as [c' [[]|e|]] eqn:AD; cbn [fst]; try exact IH. apply PUB.
    apply P_Schema.ApplyDiffs_shape in AD.
    + destruct AD as (c1 & -> & S1 & S2 & S3 & _). split; [|apply trim_len]. unfold trim. destruct (maxDiffs <? length (mc_diffs c1))%nat eqn:B; cbn [mc_version mc_start mc_diffs].
      * rewrite skipn_length. apply Nat.ltb_lt in B. rewrite S3, S1. destruct (h_val h) as [c|]; cbn [option_map CloneCache mc_version mc_start mc_diffs] in *; [destruct IH as [IH _]|]; rewrite S2, app_length, map_length in *; cbn [length] in *; lia.
      * rewrite S3, S1, S2, app_length, map_length. destruct (h_val h) as [c|]; cbn [option_map CloneCache mc_version mc_start mc_diffs length] in *; [destruct IH as [IH _]|]; lia.
    + destruct (h_val h) as [c|]; cbn [option_map CloneCache mc_version mc_start mc_diffs]; [apply IH | reflexivity].
  - apply PUB. split; cbn; lia.
Qed.
(** on any metadata: a reload that returns normally leaves the cache at the stored version; the version never goes back;
    when already current, nothing changes; a reload that fails leaves the handle as it was *)
Theorem C65_reload_follows_store : forall J, json_ok J -> forall n d A h p v h' r, holds J n d A -> n < two63 -> run_view d (mexec J MGetVersion) = Ok (VInt v) -> 0 <= v < two63 ->
  served J h -> 0 <= version_of h -> reloadSchema J d h p = (h', r) ->
  (r = RDone -> version_of h' = v) /\ version_of h <= version_of h' /\ (version_of h = v -> h' = h /\ r = RDone) /\ (r <> RDone -> h' = h) /\ (v < version_of h -> r = RPanic).
Proof.
  intros J JO n d A h p v h' r H L RV V S V0 E. destruct (read_op J JO _ _ _ MGetVersion H L eq_refl Logic.I) as (x & [-> _] & X). rewrite RV in X. assert (EV : somez (m_ver A) = v) by congruence. clear X.
  pose proof (served_ok J h S) as OK. assert (PUB : forall c, mc_version c = v -> version_of h <= v -> version_of h <> v -> publish_cache h (CRef p c) = (h', r) ->
    (r = RDone -> version_of h' = v) /\ version_of h <= version_of h' /\ (version_of h = v -> h' = h /\ r = RDone) /\ (r <> RDone -> h' = h) /\ (v < version_of h -> r = RPanic)).
  { intros c Ec Le Ne. unfold publish_cache, Update. destruct (h_readers h =? 0)%nat; intros P; injection P as <- <-.
    - change (version_of (Handle (Some (CRef p c)) 0)) with (mc_version c). rewrite Ec. split; [auto|]. split; [exact Le|]. split; [contradiction|]. split; [congruence | lia].
    - split; [discriminate|]. split; [lia|]. split; [contradiction|]. split; [reflexivity | lia]. }
  unfold reloadSchema in E. destruct (reads_r J JO _ d A (version_of h) H L V0 ltac:(lia)) as [(E1 & X)|[(E1 & E2 & X)|[(E1 & E2 & ds & K & X)|(E1 & E2 & K & l & Ll & _ & X)]]]; rewrite X in E; clear X; rewrite EV in *.
  - injection E as <- <-. split; [auto|]. split; [lia|]. split; [auto|]. split; [congruence | lia].
  - injection E as <- <-. split; [discriminate|]. split; [lia|]. split; [lia|]. split; [reflexivity | auto].
  - assert (Lt : version_of h < v) by lia. destruct (ApplyDiffs (CloneCache (option_map c_val (h_val h))) ds) as [c' [[]|e|]] eqn:AD.
    + apply P_Schema.ApplyDiffs_shape in AD.
      * destruct AD as (c1 & -> & _ & _ & S3 & _). apply (PUB (trim c1)); [|lia | lia | exact E]. rewrite (proj1 (trim_fields c1)), S3.
        unfold kept in K. rewrite EV in K. destruct ((version_of h =? 0) || _) eqn:B; [discriminate|]. rewrite (diffs_length _ _ _ _ K). unfold version_of in *. destruct (h_val h); cbn [option_map CloneCache mc_version]; lia.
      * destruct (h_val h) as [c|]; cbn [option_map CloneCache mc_version mc_start mc_diffs]; [apply OK | reflexivity].
    + injection E as <- <-. split; [discriminate|]. split; [lia|]. split; [lia|]. split; [reflexivity | lia].
    + injection E as <- <-. split; [discriminate|]. split; [lia|]. split; [lia|]. split; [reflexivity | lia].
  - apply (PUB (NewMetaCache v l)); [reflexivity | lia | lia | exact E].
Qed.
(** a new process, one that is more than 100 versions behind, or one for which a diff is missing, succeeds on any metadata
    as soon as no reader holds the lock; its cache is then that of the databases the store lists *)
Theorem C65_full_load_succeeds : forall J, json_ok J -> forall n d A h p v, holds J n d A -> n < two63 -> run_view d (mexec J MGetVersion) = Ok (VInt v) -> 0 <= v < two63 ->
  served J h -> 0 <= version_of h < v -> h_readers h = 0%nat ->
  (version_of h = 0 \/ 100 < v - version_of h \/ exists k, version_of h < k <= v /\ run_view d (mexec J (MGetDiff k)) = Ok (VDiff None)) ->
  exists l, run_view d (mexec J MListDBs) = Ok (VDbs l) /\ reloadSchema J d h p = (Handle (Some (CRef p (NewMetaCache v l))) 0, RDone).
Proof.
  intros J JO n d A h p v H L RV V S V0 HR C. destruct (read_op J JO _ _ _ MGetVersion H L eq_refl Logic.I) as (x & [-> _] & X). rewrite RV in X. assert (EV : somez (m_ver A) = v) by congruence. clear X.
  assert (KN : kept A (version_of h) = None).
  { unfold kept. rewrite EV. destruct ((version_of h =? 0) || (maxNumberOfDiffsToLoad <? v - version_of h)) eqn:B; [reflexivity|]. apply orb_false_iff in B. destruct B as [B1 B2]. apply Z.eqb_neq in B1. apply Z.ltb_ge in B2. unfold maxNumberOfDiffsToLoad in B2.
    destruct C as [C|[C|(k & Ck & Cr)]]; [lia | lia|]. apply diffs_none. exists k. split; [lia|]. assert (MK : mok (MGetDiff k)) by (cbn [mok]; unfold is_i64; lia). destruct (read_op J JO _ _ _ (MGetDiff k) H L eq_refl MK) as (r & [-> _] & Y). rewrite Cr in Y. congruence. }
  destruct (reads_r J JO _ d A (version_of h) H L (proj1 V0) ltac:(lia)) as [(E1 & X)|[(E1 & E2 & X)|[(E1 & E2 & ds & K & X)|(E1 & E2 & K & l & Ll & LL & X)]]]; try lia; [congruence|].
  exists l. unfold reloadSchema. rewrite X, EV. unfold publish_cache, Update. rewrite HR. cbn [Nat.eqb]. split; [exact LL | reflexivity].
Qed.

(** * C64: where it fails *)
(** after any committed step of an index request that is carried out (DdlSpec.index_request), a process whose cache was
    current can never reload again: every reload fails and changes nothing, so the loop of mustReload does not end.
    (Requests made with AddIndex do not get that far, C61.) *)
Theorem C64_add_index_breaks_reload_refuted : forall J, json_ok J -> forall n y A x c j i l es, holds J n (y_db y) A -> index_request A x c j i l ->
  0 <= somez (m_ver A) -> somez (m_ver A) + 4 < two63 -> Forall P_Ddl.worker_event es -> n + 2 * Z.of_nat (P_Ddl.iterations es) < two63 -> (1 <= P_Ddl.committing es)%nat ->
  forall h p, served J h -> 1 <= version_of h -> version_of h = somez (m_ver A) ->
  reloadSchema J (y_db (drun J y es)) h p = (h, RErr ErrDiffType).
Proof.
  intros J JO n y A x c j i l es H RQ V0 V1 F L CM h p S V2 EV. pose proof (served_ok J h S) as OK.
  destruct (P_Ddl.stages_run J JO A x c j i l RQ V0 V1 es n y 0 A F H L (start_stage A x c j i l RQ)) as (k & B & n' & K1 & K2 & K3 & K4).
  pose proof (as_ver _ _ _ _ _ _ _ _ K4) as AV. pose proof (as_diff_new _ _ _ _ _ _ _ _ K4) as AD. set (q := Nat.min k 3) in *. assert (Q : (1 <= q <= 3)%nat) by lia.
  unfold reloadSchema. destruct (reads_r J JO _ _ B (version_of h) K3 K2 ltac:(lia) ltac:(lia)) as [(E1 & X)|[(E1 & E2 & X)|[(E1 & E2 & ds & K & X)|(E1 & E2 & K & l0 & Ll & LL & X)]]]; try lia.
  - rewrite X. unfold kept in K. destruct ((version_of h =? 0) || _) eqn:Bq; [discriminate|]. pose proof (diffs_length _ _ _ _ K) as DL. pose proof (diffs_nth _ _ _ _ K) as DN. replace (Z.to_nat (somez (m_ver B) - version_of h)) with q in * by lia.
    assert (DS : forall z a, nth_error ds z = Some a -> sd_version a = version_of h + 1 + Z.of_nat z /\ sd_type a = ActionAddIndex).
    { intros z a Na. assert (Lz : (z < q)%nat) by (rewrite <- DL; apply nth_error_Some; congruence). rewrite (DN z Lz) in Na. destruct (AD (version_of h + 1 + Z.of_nat z) ltac:(lia)) as (g & Eg). rewrite Eg in Na. injection Na as <-. split; reflexivity. }
    assert (Cs : consecutive ds = true).
    { assert (G : forall (l1 : list SchemaDiff) w, (forall z a, nth_error l1 z = Some a -> sd_version a = w + Z.of_nat z) -> consecutive l1 = true).
      { induction l1 as [|a [|b l1] IH]; intros w Hw; [reflexivity | reflexivity|]. change (consecutive (a :: b :: l1)) with ((sd_version a + 1 =? sd_version b) && consecutive (b :: l1)). apply andb_true_iff. split.
        - rewrite (Hw 0%nat a eq_refl), (Hw 1%nat b eq_refl). apply Z.eqb_eq. lia.
        - apply (IH (w + 1)). intros z e Ne. rewrite (Hw (Datatypes.S z) e Ne). lia. }
      apply (G ds (version_of h + 1)). intros z a Na. apply (DS z a Na). }
    destruct ds as [|a ds]; [cbn [length] in DL; lia|]. destruct (DS 0%nat a eq_refl) as [Sa Ta].
    assert (SV : mc_start (CloneCache (option_map c_val (h_val h))) + Z.of_nat (length (mc_diffs (CloneCache (option_map c_val (h_val h))))) = version_of h + 1).
    { unfold version_of. destruct (h_val h) as [c0|]; cbn [option_map CloneCache mc_start mc_diffs]; [destruct OK as [OK _]; lia | reflexivity]. }
    unfold ApplyDiffs, validateDiffs. rewrite Cs. cbn [negb]. rewrite SV, Sa. replace (version_of h + 1 + Z.of_nat 0 =? version_of h + 1) with true by (symmetry; apply Z.eqb_eq; lia). cbn [negb].
    cbn [apply_loop]. rewrite Ta. replace (ActionAddIndex =? ActionCreateSchema) with false by reflexivity. reflexivity.
  - exfalso. unfold kept in K. destruct ((version_of h =? 0) || _) eqn:Bq.
    + apply orb_true_iff in Bq. destruct Bq as [Bq|Bq]; [apply Z.eqb_eq in Bq; lia | apply Z.ltb_lt in Bq; unfold maxNumberOfDiffsToLoad in Bq; lia].
    + apply diffs_none in K. destruct K as (z & Z1 & Z2). destruct (AD z ltac:(lia)) as (g & Eg). congruence.
Qed.
(** the states of the objects are not those of the store: a database the cache took from a diff is absent where the store,
    and a full load, say public *)
Definition dom_hist : list mev :=
  [ EDdl (DCreate (P_Ddl.bare (str "shop") [str "orders"]) false); EDdl (DWork P_Ddl.ident false); EReload;
    EDdl (DCreate (P_Ddl.bare (str "blog") [str "posts"]) false); EDdl (DWork P_Ddl.ident true); EDdl (DWork P_Ddl.ident false); EDdl (DWork P_Ddl.backwards false) ].
Theorem C64_states_differ_refuted : let m := domrun demo_json P_Ddl.d00 dom_hist in let d := y_db (dm_sys m) in
  let h1 := fst (reloadSchema demo_json d (dm_h m) (dm_next m)) in let h2 := fst (reloadSchema demo_json d NewHandle 0) in
  option_map di_state (mget (cached h1) (str "blog")) = Some Absent /\ option_map di_state (mget (cached h2) (str "blog")) = Some Public.
Proof. cbv zeta. split; vm_compute; reflexivity. Qed.

(** * The hypotheses can be met *)
Example C64_store_nonvacuous : json_ok demo_json /\ db_ok P_Ddl.d00 /\ P_Meta.no_meta P_Ddl.d00 /\ Forall dev_ok (ddl_events dom_hist) /\ dload (ddl_events dom_hist) < two63 /\
  let m := domrun demo_json P_Ddl.d00 dom_hist in version_of (dm_h m) = 1 /\ h_readers (dm_h m) = 0%nat /\
  let X := reloadSchema demo_json (y_db (dm_sys m)) (dm_h m) (dm_next m) in
  snd X = RDone /\ version_of (fst X) = 2 /\ option_map (fun c => mc_diffs (c_val c)) (h_val (fst X)) = Some [[5]] /\
  option_map di_id (mget (cached (fst X)) (str "shop")) = Some 1 /\ option_map di_id (mget (cached (fst X)) (str "blog")) = Some 4.
Proof.
  split; [exact demo_json_ok|]. split; [apply db_ok_init|]. split; [exact P_Meta.no_meta_init|]. split.
  { unfold dom_hist. cbn [ddl_events flat_map app]. repeat (apply Forall_cons || apply Forall_nil); try (apply P_Ddl.bare_ok; reflexivity); try exact P_Ddl.ident_ok; exact P_Ddl.backwards_ok. }
  split; [vm_compute; reflexivity|]. cbv zeta. repeat split; vm_compute; reflexivity.
Qed.
(** a store at schema version 1 with an index request, made with the metadata calls, and a process that loaded it *)
Definition d_idx : db := fst (mhexec demo_json P_Ddl.d00 [MCommit (MGenVersion :: P_Ddl.setup P_Ddl.ji1)]).
Definition h_idx : handle := fst (reloadSchema demo_json d_idx NewHandle 0).
Lemma idx_ref rss A : mref_hist m_empty [MCommit (MGenVersion :: P_Ddl.setup P_Ddl.ji1)] rss A ->
  m_db A = zupd (fun _ => None) 1 (Some P_Ddl.di1) /\ m_coll A 1 2 = Some P_Ddl.ci1 /\ m_queue A DefaultJobList = [P_Ddl.ji1] /\ m_ver A = Some 1.
Proof.
  intros M. inversion M; subst; clear M. match goal with H : mref_hist _ [] _ _ |- _ => inversion H; subst; clear H end. match goal with H : mref_batch _ _ _ _ |- _ => inversion H; subst; clear H end. unfold P_Ddl.setup in *.
  repeat match goal with H : mref_run _ (_ :: _) _ _ |- _ => inversion H; subst; clear H | H : mref_run _ [] _ _ |- _ => inversion H; subst; clear H end.
  repeat match goal with H : mref _ _ _ _ |- _ => cbn in H; destruct H as [? ->] end. cbn. repeat split.
Qed.
Lemma idx_holds : exists n A, n < 100 /\ holds demo_json n d_idx A /\ m_db A = zupd (fun _ => None) 1 (Some P_Ddl.di1) /\ m_coll A 1 2 = Some P_Ddl.ci1 /\ m_queue A DefaultJobList = [P_Ddl.ji1] /\ m_ver A = Some 1.
Proof.
  assert (K : db_ok P_Ddl.d00) by apply db_ok_init. set (o := [MCommit (MGenVersion :: P_Ddl.setup P_Ddl.ji1)]).
  destruct (mhist_sim demo_json demo_json_ok o 0 P_Ddl.d00 m_empty (P_Ddl.empty_holds _ _ K P_Meta.no_meta_init)) as (A & M & H & _).
  - constructor; [|constructor]. cbn [mbatch_ok P_Ddl.setup]. repeat (apply Forall_cons || apply Forall_nil); cbn [mok]; try exact Logic.I; [P_Ddl.i64' | exact P_Ddl.wf_di1 | split; [P_Ddl.i64' | exact P_Ddl.wf_ci1] | apply P_Ddl.wf_ji; left; reflexivity].
  - rewrite two63_val. vm_compute. reflexivity.
  - exists (0 + mhcost o), A. split; [vm_compute; reflexivity|]. split; [exact H|]. exact (idx_ref _ A M).
Qed.
Example C64_add_index_nonvacuous : exists n A, holds demo_json n (y_db (dstart d_idx)) A /\ index_request A P_Ddl.di1 P_Ddl.ci1 P_Ddl.ji1 P_Ddl.ii1 [] /\ 0 <= somez (m_ver A) /\ somez (m_ver A) + 4 < two63 /\
  let es := [DWork P_Ddl.ident true; DWork P_Ddl.ident false; DCrash] in Forall P_Ddl.worker_event es /\ n + 2 * Z.of_nat (P_Ddl.iterations es) < two63 /\ (1 <= P_Ddl.committing es)%nat /\
  served demo_json h_idx /\ 1 <= version_of h_idx /\ version_of h_idx = somez (m_ver A).
Proof.
  assert (V : version_of h_idx = 1) by (vm_compute; reflexivity). assert (SV : served demo_json h_idx) by (apply served_reload, served_new). revert V SV. generalize h_idx as h. intros h V SV.
  destruct idx_holds as (n & A & Ln & H & Hd & Hc & Hq & Hv). exists n, A. split; [exact H|]. rewrite V, Hv. split.
  - split.
    + rewrite Hd. split; [reflexivity|]. intros id y E _. apply P_Ddl.zupd_one in E. exact (proj1 E).
    + split; [reflexivity | exact Hc].
    + exists empty. split; reflexivity.
    + reflexivity.
    + exists 0. reflexivity.
    + exact Hq.
  - rewrite two63_val. cbn [somez]. split; [lia|]. split; [lia|]. cbv zeta. split; [repeat constructor|]. split; [unfold P_Ddl.iterations; cbn; lia|]. split; [unfold P_Ddl.committing; cbn; lia|]. split; [exact SV|]. split; [lia | reflexivity].
Qed.
Example C65_nonvacuous : exists n A, holds demo_json n d_idx A /\ n < two63 /\ run_view d_idx (mexec demo_json MGetVersion) = Ok (VInt 1) /\ served demo_json h_idx /\ version_of h_idx = 1 /\
  served demo_json NewHandle /\ version_of NewHandle = 0 /\ h_readers NewHandle = 0%nat /\ snd (reloadSchema demo_json d_idx h_idx 7) = RDone /\ snd (reloadSchema demo_json P_Ddl.d00 h_idx 7) = RPanic.
Proof.
  assert (V : version_of h_idx = 1) by (vm_compute; reflexivity). assert (SV : served demo_json h_idx) by (apply served_reload, served_new). assert (G : run_view d_idx (mexec demo_json MGetVersion) = Ok (VInt 1)) by (vm_compute; reflexivity).
  assert (R1 : snd (reloadSchema demo_json d_idx h_idx 7) = RDone) by (vm_compute; reflexivity). assert (R2 : snd (reloadSchema demo_json P_Ddl.d00 h_idx 7) = RPanic) by (vm_compute; reflexivity).
  destruct idx_holds as (n & A & Ln & H & _). exists n, A. split; [exact H|]. split; [rewrite two63_val; lia|]. split; [exact G|]. split; [exact SV|]. split; [exact V|]. split; [apply served_new|]. split; [reflexivity|]. split; [reflexivity|]. split; [exact R1 | exact R2].
Qed.
Print Assumptions C64_reload_matches_store.
Print Assumptions C64_incremental_equals_full.
Print Assumptions C65_reload_follows_store.
Print Assumptions C65_full_load_succeeds.
Print Assumptions C64_add_index_breaks_reload_refuted.
Print Assumptions C64_states_differ_refuted.
