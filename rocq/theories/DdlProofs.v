(** The DDL functions as triples over the specification's metadata (MetaSpec.v). *)
From Verif Require Import Bytes SMap Provider ProviderProofs World Memcmp MemcmpProofs Numeric KvUtil KeyModel Struct
  StructProofs StructHash StructList UtilTxn Sequence SequenceProofs Model Meta MetaSpec MetaProofs MetaOps MetaRun Ddl.
From Coq Require Import Sorted Permutation.

Local Notation P := MetaPrefix.

(** * Combinators *)
Lemma sspec_panic {A} P S : sspec P 0 (@gopanic A) S Panic S.
Proof. apply sread_sspec. intros w n M R L. apply spec_panic. Qed.
Lemma sspec_bind_panic {A B} P c (m : Tx A) (k : A -> Tx B) S S1 : sspec P c m S Panic S1 -> sspec P c (bind m k) S Panic S1.
Proof. intros H n M R L. destruct (H n M R L) as (M1 & X1 & R1 & O1). exists M1. split; [eapply spec_bind_panic; eassumption | auto]. Qed.
Lemma spec_try_panic {A B} w (m : Tx A) (k : result A -> Tx B) M M1 : spec w m M Panic M1 -> spec w (try m k) M Panic M1.
Proof. intros H t O V. destruct (H t O V) as (t' & E & X). exists t'. unfold try. rewrite E. auto. Qed.
Lemma spec_recovering {A B} w (m : Tx A) (k : result A -> Tx B) M ra M1 r M2 :
  spec w m M ra M1 -> spec w (k ra) M1 r M2 -> spec w (recovering m k) M r M2.
Proof.
  intros H1 H2 t O V. destruct (H1 t O V) as (t1 & E1 & O1 & V1 & K1). destruct (H2 t1 O1 V1) as (t2 & E2 & O2 & V2 & K2).
  exists t2. unfold recovering. rewrite E1. split; [exact E2|]. split; [exact O2|]. split; [exact V2 | eapply keeps_trans; eassumption].
Qed.
Lemma sspec_recovering {A B} P c1 c2 (m : Tx A) (k : result A -> Tx B) S ra S1 r S2 : 0 <= c1 -> 0 <= c2 ->
  sspec P c1 m S ra S1 -> sspec P c2 (k ra) S1 r S2 -> sspec P (c1 + c2) (recovering m k) S r S2.
Proof.
  intros C1 C2 H1 H2 n M R L. destruct (H1 n M R) as (M1 & X1 & R1 & O1); [lia|].
  destruct (H2 (n + c1) M1 R1) as (M2 & X2 & R2 & O2); [lia|].
  exists M2. split; [eapply spec_recovering; eassumption|]. split; [|eapply outside_trans; eassumption].
  replace (n + (c1 + c2)) with (n + c1 + c2) by lia. exact R2.
Qed.

Section WithJson.
Variable J : json.
Hypothesis JO : json_ok J.
Local Notation mrep := (mrep J).
Local Notation mdo := (mdo J).
Local Notation mgets := (mgets J).
Local Notation holds := (holds J).

Lemma mdo_panic {X} A : mdo 0 A (@gopanic X) Panic A.
Proof. intros S R. exists S. split; [apply sspec_panic | exact R]. Qed.
Lemma mdo_bind_panic {X Y} c A A1 (m : Tx X) (k : X -> Tx Y) : mdo c A m Panic A1 -> mdo c A (bind m k) Panic A1.
Proof. intros H S R. destruct (H S R) as (S1 & X1 & R1). exists S1. split; [apply sspec_bind_panic; exact X1 | exact R1]. Qed.
Lemma mdo_try {X Y} c1 c2 A A1 A2 (m : Tx X) (k : result X -> Tx Y) ra r : 0 <= c1 -> 0 <= c2 -> ra <> Panic ->
  mdo c1 A m ra A1 -> mdo c2 A1 (k ra) r A2 -> mdo (c1 + c2) A (try m k) r A2.
Proof.
  intros C1 C2 N H1 H2 S R. destruct (H1 S R) as (S1 & X1 & R1). destruct (H2 S1 R1) as (S2 & X2 & R2).
  exists S2. split; [eapply sspec_try; eassumption | exact R2].
Qed.
Lemma mdo_try_panic {X Y} c A A1 (m : Tx X) (k : result X -> Tx Y) : mdo c A m Panic A1 -> mdo c A (try m k) Panic A1.
Proof.
  intros H S R. destruct (H S R) as (S1 & X1 & R1). exists S1. split; [|exact R1]. intros n M R' L. destruct (X1 n M R' L) as (M1 & Y1 & Y2). exists M1.
  split; [apply spec_try_panic; exact Y1 | exact Y2].
Qed.
Lemma mdo_recovering {X Y} c1 c2 A A1 A2 (m : Tx X) (k : result X -> Tx Y) ra r : 0 <= c1 -> 0 <= c2 ->
  mdo c1 A m ra A1 -> mdo c2 A1 (k ra) r A2 -> mdo (c1 + c2) A (recovering m k) r A2.
Proof.
  intros C1 C2 H1 H2 S R. destruct (H1 S R) as (S1 & X1 & R1). destruct (H2 S1 R1) as (S2 & X2 & R2).
  exists S2. split; [eapply sspec_recovering; eassumption | exact R2].
Qed.
(** composition with the cost given *)
Lemma mdo_then {X Y} c1 c2 c A A1 A2 (m : Tx X) (k : X -> Tx Y) a r : 0 <= c1 -> 0 <= c2 -> c1 + c2 <= c ->
  mdo c1 A m (Ok a) A1 -> mdo c2 A1 (k a) r A2 -> mdo c A (bind m k) r A2.
Proof. intros C1 C2 L H1 H2. eapply mdo_le; [exact L | eapply mdo_bind; eassumption]. Qed.
Lemma mdo_get {X Y} c A A2 (m : Tx X) (k : X -> Tx Y) a r : 0 <= c -> mgets A m (Ok a) -> mdo c A (k a) r A2 -> mdo c A (bind m k) r A2.
Proof. intros C H1 H2. eapply (mdo_then 0 c c); [lia | exact C | lia | apply mgets_mdo; exact H1 | exact H2]. Qed.

(** * One transaction on the database *)
Lemma update_run {X} n d A (m : Tx X) c r A' io : 0 <= c -> holds n d A -> n + c < two63 -> mdo c A m r A' ->
  (run_update d d m [] io = (d, Err EIO) /\ io = true /\ exists a, r = Ok a) \/
  (exists d', run_update d d m [] io = (d', r) /\ holds (n + c) d' (match r with Ok _ => A' | _ => A end)).
Proof.
  intros C (K & S & R & M) L H. destruct (H S M) as (S' & X1 & M'). destruct (X1 n _ R L) as (V & X2 & R' & _).
  destruct (run_update_solo d m r V io K X2) as (d' & K' & _ & _ & [[E V']|(E & -> & Hio & Ha)]).
  - right. exists d'. split; [exact E|]. split; [exact K'|]. destruct r as [a|e|].
    + exists S'. rewrite V'. auto.
    + exists S. rewrite V'. split; [eapply rep_le; [exact R | lia] | exact M].
    + exists S. rewrite V'. split; [eapply rep_le; [exact R | lia] | exact M].
  - left. auto.
Qed.
Lemma view_run {X} n d A (m : Tx X) r : holds n d A -> n < two63 -> mgets A m r -> run_view d m = r.
Proof. intros (K & S & R & M) L H. eapply run_view_spec. exact (H S M false n _ R L). Qed.
Lemma holds_le n n' d A : n <= n' -> holds n d A -> holds n' d A.
Proof. intros L (K & S & R & M). split; [exact K|]. exists S. split; [eapply rep_le; [exact R | exact L] | exact M]. Qed.
Lemma holds_meq n d A B : meq A B -> holds n d A -> holds n d B.
Proof. intros E (K & S & R & M). split; [exact K|]. exists S. split; [exact R | eapply mrep_meq; eassumption]. Qed.

(** * Looking a database up by name *)
Definition used_name (A : mst) (name : bytes) : Prop := exists id d, m_db A id = Some d /\ di_name d = name.
Lemma db_ids n d A id x : holds n d A -> m_db A id = Some x -> di_id x = id.
Proof. intros (_ & S & _ & M) E. exact (proj2 (wf_get _ _ _ _ _ _ _ (proj1 (mr_dbs J _ _ M)) E)). Qed.
Lemma getDbInfo_none A name : ~ used_name A name -> mgets A (getDbInfo J name) (Ok None).
Proof.
  intros N S R. destruct (ListDatabases_r J JO A S R) as (l & [_ L] & H). unfold getDbInfo. eapply sread_bind; [exact H|].
  destruct (find _ l) as [x|] eqn:F; [|apply sread_ret]. exfalso. apply find_some in F. destruct F as [F1 F2]. apply N. exists (di_id x), x.
  split; [apply L; exact F1 | apply bytes_eqb_eq; exact F2].
Qed.
Lemma getDbInfo_some A name id x : m_db A id = Some x -> di_name x = name -> (forall id' y, m_db A id' = Some y -> di_name y = name -> y = x) ->
  mgets A (getDbInfo J name) (Ok (Some x)).
Proof.
  intros E N U S R. destruct (ListDatabases_r J JO A S R) as (l & [_ L] & H). unfold getDbInfo. eapply sread_bind; [exact H|].
  assert (I : In x l) by (apply L; rewrite (proj2 (wf_get _ _ _ _ _ _ _ (proj1 (mr_dbs J _ _ R)) E)); exact E).
  destruct (find _ l) as [y|] eqn:F.
  - apply find_some in F. destruct F as [F1 F2]. apply bytes_eqb_eq in F2. rewrite (U (di_id y) y); [apply sread_ret | apply L; exact F1 | exact F2].
  - pose proof (find_none _ _ F x I) as X. cbn beta in X. rewrite N, bytes_eqb_refl in X. discriminate.
Qed.
Lemma checkName_free A name : ~ used_name A name -> mgets A (checkDBNameNotExists J name) (Ok false).
Proof. intros N. eapply mgets_bind; [apply getDbInfo_none; exact N | apply mgets_ret]. Qed.
Lemma checkName_used A name : used_name A name -> mgets A (checkDBNameNotExists J name) (Err ErrDBAlreadyExists).
Proof.
  intros (id & x & E & N) S R. destruct (ListDatabases_r J JO A S R) as (l & [_ L] & H). unfold checkDBNameNotExists, getDbInfo.
  assert (I : In x l) by (apply L; rewrite (proj2 (wf_get _ _ _ _ _ _ _ (proj1 (mr_dbs J _ _ R)) E)); exact E).
  destruct (find (fun d => bytes_eqb (di_name d) name) l) as [y|] eqn:F.
  - eapply sread_bind; [eapply sread_bind; [exact H | apply sread_ret]|]. rewrite F. apply sread_fail.
  - pose proof (find_none _ _ F x I) as X. cbn beta in X. rewrite N, bytes_eqb_refl in X. discriminate.
Qed.
Lemma used_name_dec A name : (exists n d, holds n d A /\ n < two63) -> used_name A name \/ ~ used_name A name.
Proof.
  intros (n & d & (_ & S & R & M) & L). destruct (ListDatabases_r J JO A S M) as (l & [_ HL] & _).
  destruct (find (fun d => bytes_eqb (di_name d) name) l) as [y|] eqn:F.
  - left. apply find_some in F. destruct F as [F1 F2]. exists (di_id y), y. split; [apply HL; exact F1 | apply bytes_eqb_eq; exact F2].
  - right. intros (id & x & E & N). assert (I : In x l) by (apply HL; rewrite (proj2 (wf_get _ _ _ _ _ _ _ (proj1 (mr_dbs J _ _ M)) E)); exact E).
    pose proof (find_none _ _ F x I) as X. cbn beta in X. rewrite N, bytes_eqb_refl in X. discriminate.
Qed.

(** * CreateSchema *)
(** what the ids of a new schema must satisfy: all in (lo, hi], all different *)
Definition coll_ids (d : DBInfo) : list Z := map ci_id (vals (di_colls d)).
Definition fresh_ids (lo hi : Z) (l : list Z) : Prop := NoDup l /\ Forall (fun x => lo < x <= hi) l.
(** the collections as requested *)
Definition plain (i : CSI) (m : smap CollectionInfo) : Prop :=
  (forall cn, (exists c, get m cn = Some c) <-> In cn (cs_colls i)) /\
  (forall cn c, get m cn = Some c -> c = CI (ci_id c) cn None [] Absent).
Definition no_index (i : CSI) : Prop := forall cn is, In cn (cs_colls i) -> mget (cs_indices i) cn = Some is -> is = [].

Record build_inv (base : Z) (m : smap CollectionInfo) (next : Z) : Prop := {
  bi_form : forall cn c, get m cn = Some c -> c = CI (ci_id c) cn None [] Absent /\ base < ci_id c <= next;
  bi_inj : forall cn c cn' c', get m cn = Some c -> get m cn' = Some c' -> ci_id c = ci_id c' -> cn = cn'
}.
Lemma set_same {A} (m : smap A) k v : get m k = Some v -> set m k v = m.
Proof. intros E. apply smap_ext. intros j. rewrite get_set. destruct (bytes_eqb j k) eqn:X; [apply bytes_eqb_eq in X; subst; auto | reflexivity]. Qed.
Lemma length_set {A} (m : smap A) k v : (length (entries (set m k v)) <= length (entries m) + 1)%nat.
Proof.
  destruct (get m k) as [w|] eqn:E.
  - assert (map fst (entries (set m k v)) = map fst (entries m) \/ True) by auto. clear H.
    assert (incl (map fst (entries (set m k v))) (map fst (entries m))).
    { intros x I. apply in_map_iff in I. destruct I as ([a b] & <- & I). apply get_in in I. rewrite get_set in I. cbn [fst]. destruct (bytes_eqb a k) eqn:X.
      - apply bytes_eqb_eq in X. subst a. apply get_in in E. apply (in_map fst) in E. exact E.
      - apply get_in in I. apply (in_map fst) in I. exact I. }
    apply NoDup_incl_length in H; [|apply keys_nodup]. rewrite !map_length in H. lia.
  - assert (incl (map fst (entries (set m k v))) (k :: map fst (entries m))).
    { intros x I. apply in_map_iff in I. destruct I as ([a b] & <- & I). apply get_in in I. rewrite get_set in I. cbn [fst]. destruct (bytes_eqb a k) eqn:X.
      - apply bytes_eqb_eq in X. subst a. left. reflexivity.
      - apply get_in in I. apply (in_map fst) in I. right. exact I. }
    apply NoDup_incl_length in H; [|apply keys_nodup]. cbn [length] in H. rewrite !map_length in H. lia.
Qed.
Lemma add_colls_ok idx l : forall m order next base, (forall cn is, In cn l -> mget idx cn = Some is -> is = []) ->
  0 <= base <= next -> next + llen l < two63 -> build_inv base m next ->
  exists m' next', add_colls idx l m order next = Ok (m', order ++ l, next') /\ build_inv base m' next' /\ next <= next' <= next + llen l /\
    (forall cn, (exists c, get m' cn = Some c) <-> (exists c, get m cn = Some c) \/ In cn l) /\
    (length (entries m') <= length (entries m) + length l)%nat.
Proof.
  induction l as [|cn l IH]; intros m order next base NI B L I.
  - exists m, next. cbn [add_colls]. unfold llen. cbn [length]. rewrite app_nil_r. split; [reflexivity|]. split; [exact I|]. split; [lia|]. split; [|lia].
    intros cn. split; [auto | intros [H|[]]; exact H].
  - cbn [add_colls]. unfold llen in *. cbn [length] in *. rewrite Nat2Z.inj_succ in *.
    assert (X : match mget idx cn with Some is => is | None => [] end = []). { destruct (mget idx cn) as [is|] eqn:E; [|reflexivity]. apply (NI cn is); [left; reflexivity | exact E]. }
    rewrite X. cbn [add_indices]. destruct (get m cn) as [c|] eqn:E.
    + rewrite (set_same _ _ _ E). destruct (IH m (order ++ [cn]) next base) as (m' & next' & H1 & H2 & H3 & H4 & H5).
      * intros cn' is I'. apply NI. right. exact I'.
      * lia.
      * lia.
      * exact I.
      * exists m', next'. rewrite H1, <- app_assoc. split; [reflexivity|]. split; [exact H2|]. split; [lia|]. split; [|lia].
        intros cn'. rewrite H4. cbn [In]. split; [intros [H|H]; auto|]. intros [H|[H|H]]; [auto | left; subst cn'; eauto | auto].
    + assert (T : to_i64 (next + 1) = next + 1) by (apply to_i64_id; unfold is_i64; rewrite two63_val in *; lia). rewrite T.
      destruct (IH (set m cn (CI (next + 1) cn None [] Absent)) (order ++ [cn]) (next + 1) base) as (m' & next' & H1 & H2 & H3 & H4 & H5).
      * intros cn' is I'. apply NI. right. exact I'.
      * lia.
      * lia.
      * destruct I as [F Inj]. split.
        -- intros cn' c. rewrite get_set. destruct (bytes_eqb cn' cn) eqn:Eb; [|intros G; destruct (F cn' c G); split; [assumption | lia]].
           intros G. injection G as <-. cbn [ci_id]. apply bytes_eqb_eq in Eb. subst. split; [reflexivity | lia].
        -- intros a ca b cb. rewrite !get_set. destruct (bytes_eqb a cn) eqn:Ea, (bytes_eqb b cn) eqn:Ebb; intros Ga Gb X1.
           ++ apply bytes_eqb_eq in Ea. apply bytes_eqb_eq in Ebb. congruence.
           ++ injection Ga as <-. cbn [ci_id] in X1. destruct (F b cb Gb). lia.
           ++ injection Gb as <-. cbn [ci_id] in X1. destruct (F a ca Ga). lia.
           ++ exact (Inj a ca b cb Ga Gb X1).
      * exists m', next'. rewrite H1, <- app_assoc. split; [reflexivity|]. split; [exact H2|]. split; [lia|]. split.
        -- intros cn'. rewrite H4. rewrite get_set. cbn [In]. destruct (bytes_eqb cn' cn) eqn:Eb.
           ++ apply bytes_eqb_eq in Eb. subst. split; [intros _; auto | intros _; left; eauto].
           ++ apply bytes_eqb_neq in Eb. split; [intros [H|H]; auto | intros [H|[H|H]]; [auto | congruence | auto]].
        -- pose proof (length_set m cn (CI (next + 1) cn None [] Absent)). lia.
Qed.
Lemma vals_in {A} (m : smap A) x : In x (vals (Some m)) <-> exists k, get m k = Some x.
Proof.
  cbn [vals]. rewrite in_map_iff. split.
  - intros ([k v] & <- & I). exists k. apply get_in. exact I.
  - intros (k & E). exists (k, x). split; [reflexivity | apply get_in; exact E].
Qed.
Lemma ids_nodup base m next : build_inv base m next -> NoDup (map ci_id (vals (Some m))).
Proof.
  intros [F I]. cbn [vals]. rewrite map_map. pose proof (keys_nodup m) as N. assert (G : forall p, In p (entries m) -> get m (fst p) = Some (snd p)) by (intros [k v] H; apply get_in; exact H).
  induction (entries m) as [|p l IH]; cbn [map]; [constructor|]. cbn [map] in N. inversion N as [|? ? N1 N2]; subst. constructor.
  - intros X. apply in_map_iff in X. destruct X as (q & E & Iq). apply N1. rewrite (I (fst p) (snd p) (fst q) (snd q)); [apply in_map; exact Iq | apply G; left; reflexivity | apply G; right; exact Iq | congruence].
  - apply IH; [exact N2|]. intros q Iq. apply G. right. exact Iq.
Qed.
(** the number of ids CreateSchema reserves *)
Definition reserve (i : CSI) : Z := 2 + llen (cs_colls i) + match cs_indices i with Some m => llen (entries m) | None => 0 end.
(** the job CreateSchema enqueues *)
Record new_schema_job (i : CSI) (lo hi : Z) (j : Job) (d : DBInfo) : Prop := {
  ns_job : j = MkJob (j_id j) ActionCreateSchema JNone false 0 (ArgDB d) Absent;
  ns_name : di_name d = cs_db i;
  ns_order : di_order d = cs_colls i;
  ns_state : di_state d = Absent;
  ns_colls : exists m, di_colls d = Some m /\ plain i m;
  ns_size : llen (vals (di_colls d)) <= llen (cs_colls i);
  ns_ids : fresh_ids lo hi (j_id j :: di_id d :: coll_ids d)
}.
Definition csi_utf8 (i : CSI) : Prop := utf8 (cs_db i) = true /\ utf8s (cs_colls i).
Lemma new_job_wf i lo hi j d : 0 <= lo -> hi < two63 -> csi_utf8 i -> new_schema_job i lo hi j d -> wf_job j.
Proof.
  intros L H [U1 U2] [-> N O St (m & Em & Pm1 & Pm2) Sz [_ F]]. cbn [j_id] in F. unfold coll_ids in F. rewrite Em in F.
  assert (R : forall x, In x (j_id j :: di_id d :: map ci_id (vals (Some m))) -> is_i64 x).
  { intros x I. rewrite Forall_forall in F. specialize (F x I). unfold is_i64. lia. }
  split; [apply R; left; reflexivity|]. split; [cbn; unfold is_u8, ActionCreateSchema; lia|]. split; [unfold is_i64; cbn [j_errcount]; rewrite two63_val; lia|].
  cbn [j_arg wf_arg]. split; [apply R; right; left; reflexivity|]. split; [congruence|]. split; [|rewrite O; exact U2].
  rewrite Em. cbn [wf_map wf_opt]. intros k c E. assert (I : In k (cs_colls i)) by (apply Pm1; eauto). unfold utf8s in U2. rewrite Forall_forall in U2. pose proof (U2 k I) as Uk. split; [exact Uk|].
  rewrite (Pm2 k c E). split; [apply R; right; right; cbn [ci_id]; apply in_map; apply vals_in; eauto|]. split; [exact Uk|]. split; [exact I0 || exact Logic.I | constructor].
Qed.
Definition gid A := somez (m_gid A).
Lemma inc_gid A n : 0 <= gid A -> 0 <= n -> gid A + n < two63 -> inc64 (m_gid A) n = gid A + n.
Proof. unfold gid. destruct (m_gid A) as [g|]; cbn [somez inc64]; intros; [apply to_i64_id; unfold is_i64; lia | lia]. Qed.
Definition queue A := m_queue A DefaultJobList.
Lemma CreateSchemaTx_d A i : 0 <= gid A -> gid A + reserve i < two63 -> csi_utf8 i -> no_index i ->
  Z.of_nat (length (queue A)) <= maxJobsInQueue -> ~ used_name A (cs_db i) ->
  exists j d, new_schema_job i (gid A) (gid A + reserve i) j d /\
    mdo 1 A (CreateSchemaTx J i) (Ok j) (with_queue (with_gid A (gid A + reserve i)) DefaultJobList (queue A ++ [j])).
Proof.
  intros G0 G1 U NI Q N. set (g := gid A) in *.
  assert (RN : 2 + llen (cs_colls i) <= reserve i) by (unfold reserve, llen; destruct (cs_indices i); lia).
  assert (LC : 0 <= llen (cs_colls i)) by (unfold llen; lia).
  assert (T1 : to_i64 (g + 1) = g + 1) by (apply to_i64_id; unfold is_i64; rewrite two63_val in *; lia).
  destruct (add_colls_ok (cs_indices i) (cs_colls i) empty [] (g + 1) (g + 1)) as (m & next & H1 & H2 & H3 & H4 & H5); try lia.
  { exact NI. }
  { split; intros cn c; rewrite get_empty; discriminate. }
  cbn [app] in H1. assert (T2 : to_i64 (next + 1) = next + 1) by (apply to_i64_id; unfold is_i64; rewrite two63_val in *; lia).
  set (d := DI (g + 1) (cs_db i) (Some m) (cs_colls i) Absent).
  set (j := MkJob (next + 1) ActionCreateSchema JNone false 0 (ArgDB d) Absent).
  assert (NJ : new_schema_job i g (g + reserve i) j d).
  { assert (CI1 : Forall (fun x => g + 1 < x <= next) (map ci_id (vals (Some m)))).
    { apply Forall_forall. intros x I. apply in_map_iff in I. destruct I as (c & <- & I). apply vals_in in I. destruct I as (k & E). apply (bi_form _ _ _ H2 k c E). }
    split; try reflexivity.
    - exists m. split; [reflexivity|]. split.
      + intros cn. rewrite H4. split; [intros [(c & X)|X]; [rewrite get_empty in X; discriminate | exact X] | auto].
      + intros cn c E. apply (bi_form _ _ _ H2 cn c E).
    - cbn [vals di_colls d]. unfold llen. rewrite map_length. cbn [entries empty length] in H5. unfold entries in H5 at 2. cbn in H5. lia.
    - cbn [j_id j di_id d coll_ids di_colls]. unfold coll_ids. cbn [di_colls d]. split.
      + constructor.
        * intros [X|X]; [lia|]. rewrite Forall_forall in CI1. apply CI1 in X. lia.
        * constructor; [intros X; rewrite Forall_forall in CI1; apply CI1 in X; lia | eapply ids_nodup; exact H2].
      + constructor; [lia|]. constructor; [lia|]. eapply Forall_impl; [|exact CI1]. cbn beta. intros; lia. }
  exists j, d. split; [exact NJ|]. unfold CreateSchemaTx.
  eapply mdo_get; [lia | apply DDLJobQueueLen_r|]. fold (queue A). replace (maxJobsInQueue <? Z.of_nat (length (queue A))) with false by lia.
  eapply mdo_get; [lia | apply checkName_free; exact N|]. cbv iota. fold (reserve i).
  assert (IR : is_i64 (reserve i)) by (unfold is_i64; rewrite two63_val in *; lia).
  eapply (mdo_then 0 1 1); [lia | lia | lia | apply GenGlobalIDs_d; exact IR|]. rewrite (inc_gid A (reserve i)) by (unfold g in *; lia). fold g. cbn [fst].
  replace (g + reserve i - reserve i) with g by lia. rewrite (to_i64_id g) by (unfold is_i64; rewrite two63_val in *; lia). rewrite T1.
  eapply (mdo_then 0 1 1); [lia | lia | lia | rewrite H1; cbn [lift_r]; apply mdo_ret|]. cbv beta iota zeta. rewrite T2. fold d. fold j.
  eapply (mdo_then 1 0 1); [lia | lia | lia | apply (EnQueueDDLJob_d J _ DefaultJobList j); eapply new_job_wf; [| | exact U | exact NJ]; lia | apply mdo_ret].
Qed.
Lemma CreateSchemaTx_full A i : maxJobsInQueue < Z.of_nat (length (queue A)) -> mgets A (CreateSchemaTx J i) (Err ErrJobsInQueueExceeded).
Proof.
  intros Q. unfold CreateSchemaTx. eapply mgets_bind; [apply DDLJobQueueLen_r|]. fold (queue A). replace (maxJobsInQueue <? Z.of_nat (length (queue A))) with true by lia. apply mgets_fail.
Qed.
Lemma CreateSchemaTx_used A i : Z.of_nat (length (queue A)) <= maxJobsInQueue -> used_name A (cs_db i) -> mgets A (CreateSchemaTx J i) (Err ErrDBAlreadyExists).
Proof.
  intros Q N. unfold CreateSchemaTx. eapply mgets_bind; [apply DDLJobQueueLen_r|]. fold (queue A). replace (maxJobsInQueue <? Z.of_nat (length (queue A))) with false by lia.
  eapply mgets_bind_err. apply checkName_used. exact N.
Qed.
(** an index on a requested collection: the nil map of indices is assigned to *)
Lemma add_colls_panic idx l : forall m order next, (forall cn c, get m cn = Some c -> ci_indices c = None) ->
  (exists cn is, In cn l /\ mget idx cn = Some is /\ is <> []) -> add_colls idx l m order next = Panic.
Proof.
  induction l as [|a l IH]; intros m order next NI (cn & is & I & E & Nn); [destruct I|]. cbn [add_colls].
  set (p := match get m a with Some c => (c, next) | None => (CI (to_i64 (next + 1)) a None [] Absent, to_i64 (next + 1)) end).
  assert (X : ci_indices (fst p) = None) by (unfold p; destruct (get m a) eqn:G; cbn [fst]; [eapply NI; exact G | reflexivity]).
  destruct p as [c n1]. cbn [fst] in X. destruct (match mget idx a with Some is0 => is0 | None => [] end) as [|x xs] eqn:Y.
  - cbn [add_indices]. apply IH.
    + intros cn' c'. rewrite get_set. destruct (bytes_eqb cn' a); [intros G; injection G as <-; exact X | apply NI].
    + destruct I as [->|I]; [|exists cn, is; auto]. rewrite E in Y. congruence.
  - cbn [add_indices]. rewrite X. reflexivity.
Qed.
Lemma CreateSchemaTx_panic A i : 0 <= gid A -> gid A + reserve i < two63 -> Z.of_nat (length (queue A)) <= maxJobsInQueue -> ~ used_name A (cs_db i) ->
  (exists cn is, In cn (cs_colls i) /\ mget (cs_indices i) cn = Some is /\ is <> []) -> exists A', mdo 1 A (CreateSchemaTx J i) Panic A'.
Proof.
  intros G0 G1 Q N X. eexists. unfold CreateSchemaTx. eapply mdo_get; [lia | apply DDLJobQueueLen_r|]. fold (queue A). replace (maxJobsInQueue <? Z.of_nat (length (queue A))) with false by lia.
  eapply mdo_get; [lia | apply checkName_free; exact N|]. cbv iota. fold (reserve i).
  assert (IR : is_i64 (reserve i)) by (unfold is_i64, gid, reserve, llen in *; rewrite two63_val in *; destruct (cs_indices i); lia).
  eapply (mdo_then 0 1 1); [lia | lia | lia | apply GenGlobalIDs_d; exact IR|].
  rewrite add_colls_panic; [| intros cn c; rewrite get_empty; discriminate | exact X]. cbn [lift_r].
  apply mdo_le with (c := 0); [lia|]. apply mdo_bind_panic. apply mdo_panic.
Qed.
End WithJson.
