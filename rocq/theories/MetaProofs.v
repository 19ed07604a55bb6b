(** package meta refines its specification (MetaSpec.v). *)
From Verif Require Import Bytes SMap Provider ProviderProofs World Memcmp MemcmpProofs Numeric KvUtil KeyModel Struct
  StructProofs StructHash StructList UtilTxn Sequence SequenceProofs Model Meta MetaSpec.
From Coq Require Import Sorted.

Local Notation P := MetaPrefix.

(** * Keys *)
Lemma pkey_inj p a b : is_i64 a -> is_i64 b -> pkey p a = pkey p b -> a = b.
Proof. intros Ha Hb H. unfold pkey in H. apply app_inv_head in H. apply app_inv_head in H. apply SequenceProofs.human_inj; assumption. Qed.
Lemma to_u64_inj a b : is_i64 a -> is_i64 b -> to_u64 a = to_u64 b -> a = b.
Proof. unfold is_i64, to_u64. rewrite two63_val, two64_val. intros Ha Hb H.
  pose proof (Z.div_mod a 18446744073709551616 ltac:(lia)). pose proof (Z.div_mod b 18446744073709551616 ltac:(lia)).
  assert (-1 <= a / 18446744073709551616 <= 0) by (split; [apply Z.div_le_lower_bound; lia | apply Z.lt_succ_r, Z.div_lt_upper_bound; lia]).
  assert (-1 <= b / 18446744073709551616 <= 0) by (split; [apply Z.div_le_lower_bound; lia | apply Z.lt_succ_r, Z.div_lt_upper_bound; lia]). lia.
Qed.
Lemma app_len_inj {A} (a b x y : list A) : length a = length b -> a ++ x = b ++ y -> a = b /\ x = y.
Proof.
  revert b. induction a as [|c a IH]; intros [|d b] L H; cbn in *; try discriminate; [auto|]. injection H as H1 H2. injection L as L. destruct (IH _ L H2) as [-> ->]. subst. auto.
Qed.
Lemma u64_key_inj a b x y : is_i64 a -> is_i64 b -> Encode2Binary (to_u64 a) [] ++ x = Encode2Binary (to_u64 b) [] ++ y -> a = b /\ x = y.
Proof.
  intros Ha Hb H. apply app_len_inj in H; [|unfold Encode2Binary; cbn [app]; rewrite !be_bytes_length; reflexivity].
  destruct H as [H ->]. split; [|reflexivity]. unfold Encode2Binary in H. cbn [app] in H. apply be_bytes_inj in H; [apply to_u64_inj; assumption| |];
    pose proof (to_u64_range a); pose proof (to_u64_range b); unfold is_u64 in *; change (256 ^ Z.of_nat 8) with two64; assumption.
Qed.
Lemma hkey_inj a b : is_i64 a -> is_i64 b -> historyJobIDKey a = historyJobIDKey b -> a = b.
Proof. intros Ha Hb H. destruct (u64_key_inj a b [] [] Ha Hb) as [E _]; [rewrite !app_nil_r; exact H | exact E]. Qed.
Lemma ekey_inj a b : is_i64 a -> is_i64 b -> reorgJobEndHandle a = reorgJobEndHandle b -> a = b.
Proof. intros Ha Hb H. destruct (u64_key_inj a b (str "_end") (str "_end") Ha Hb H) as [E _]. exact E. Qed.
Lemma skey_ekey a b : is_i64 a -> is_i64 b -> reorgJobStartHandle a <> reorgJobEndHandle b.
Proof. intros Ha Hb H. apply (f_equal (@length byte)) in H. unfold reorgJobStartHandle, reorgJobEndHandle, Encode2Binary in H. rewrite !app_length, !be_bytes_length in H. cbn in H. lia. Qed.
Lemma ci_did a b : collectionInfoKeyByID a <> didSequenceKeyByID b.
Proof. discriminate. Qed.

(** * Tables of integer keys inside a map of strings *)
Record tab {X} (h : smap bytes) (key : Z -> bytes) (e : X -> bytes) (W : Z -> X -> Prop) (m : Z -> option X) : Prop := {
  tab_get : forall i, is_i64 i -> get h (key i) = option_map e (m i);
  tab_wf : forall i x, m i = Some x -> is_i64 i /\ W i x
}.
Arguments tab_get {X h key e W m}. Arguments tab_wf {X h key e W m}.
Definition inj64 (key : Z -> bytes) : Prop := forall a b, is_i64 a -> is_i64 b -> key a = key b -> a = b.
Lemma tab_set {X} h key (e : X -> bytes) (W : Z -> X -> Prop) (m : Z -> option X) i x : inj64 key -> is_i64 i -> W i x -> tab h key e W m -> tab (set h (key i) (e x)) key e W (zupd m i (Some x)).
Proof.
  intros K Hi Wx [G F]. split.
  - intros j Hj. rewrite get_set. unfold zupd. destruct (Z.eqb_spec j i) as [->|N]; [rewrite bytes_eqb_refl; reflexivity|].
    replace (bytes_eqb (key j) (key i)) with false; [apply G; exact Hj|]. symmetry. apply bytes_eqb_neq. intros E. apply N, K; assumption.
  - intros j y. unfold zupd. destruct (Z.eqb_spec j i) as [->|N]; [|apply F]. intros E. inversion E. subst. auto.
Qed.
Lemma tab_del {X} h key (e : X -> bytes) (W : Z -> X -> Prop) (m : Z -> option X) i : inj64 key -> is_i64 i -> tab h key e W m -> tab (del h (key i)) key e W (zupd m i None).
Proof.
  intros K Hi [G F]. split.
  - intros j Hj. rewrite get_del. unfold zupd. destruct (Z.eqb_spec j i) as [->|N]; [rewrite bytes_eqb_refl; reflexivity|].
    replace (bytes_eqb (key j) (key i)) with false; [apply G; exact Hj|]. symmetry. apply bytes_eqb_neq. intros E. apply N, K; assumption.
  - intros j y. unfold zupd. destruct (Z.eqb_spec j i) as [->|N]; [discriminate | apply F].
Qed.
Lemma tab_frame {X} h h' key (e : X -> bytes) (W : Z -> X -> Prop) (m : Z -> option X) : (forall i, is_i64 i -> get h' (key i) = get h (key i)) -> tab h key e W m -> tab h' key e W m.
Proof. intros E [G F]. split; [intros i Hi; rewrite E by exact Hi; apply G; exact Hi | exact F]. Qed.
Lemma tab_empty {X} h key (e : X -> bytes) (W : Z -> X -> Prop) : (forall i, is_i64 i -> get h (key i) = None) -> tab h key e W (fun _ => None).
Proof. intros E. split; [intros i Hi; rewrite E by exact Hi; reflexivity | discriminate]. Qed.
(** entries of a map all of whose keys are of this kind *)
Definition all_of (key : Z -> bytes) (h : smap bytes) : Prop := forall f x, get h f = Some x -> exists i, is_i64 i /\ f = key i.
Lemma all_set key h i x : is_i64 i -> all_of key h -> all_of key (set h (key i) x).
Proof.
  intros Hi A f y. rewrite get_set. destruct (bytes_eqb f (key i)) eqn:E; [|apply A]. apply bytes_eqb_eq in E. eauto.
Qed.
Lemma all_del key h f : all_of key h -> all_of key (del h f).
Proof. intros A g y. rewrite get_del. destruct (bytes_eqb g f); [discriminate | apply A]. Qed.
Lemma all_empty key : all_of key empty.
Proof. intros f x. rewrite get_empty. discriminate. Qed.

Section WithJson.
Variable J : json.
Hypothesis JO : json_ok J.

Definition numcell (h : smap bytes) (k : bytes) (o : option Z) : Prop := get h k = option_map Encode2Human o /\ wf_opt is_i64 o.
Definition Wdb (i : Z) (d : DBInfo) : Prop := wf_di d /\ di_id d = i.
Definition Wci (i : Z) (c : CollectionInfo) : Prop := wf_ci c /\ ci_id c = i.
Definition Wjob (i : Z) (j : Job) : Prop := wf_job j /\ j_id j = i.
Definition Wsd (i : Z) (d : SchemaDiff) : Prop := wf_sd d /\ sd_version d = i.
Definition Wnum (i : Z) (n : Z) : Prop := is_i64 n.
Record rep_str (h : smap bytes) (A : mst) : Prop := {
  rs_gid : numcell h globalIDKey (m_gid A);
  rs_ver : numcell h schemaVersionKey (m_ver A);
  rs_boot : numcell h bootstrapKey (m_boot A);
  rs_diff : tab h schemaDiffKey (jenc (jsd J)) Wsd (m_diff A)
}.
Record rep_db (h : smap bytes) (mc : Z -> option CollectionInfo) (md : Z -> option Z) : Prop := {
  rd_coll : tab h collectionInfoKeyByID (jenc (jci J)) Wci mc;
  rd_did : tab h didSequenceKeyByID Encode2Human Wnum md;
  rd_all : forall f x, get h f = Some x -> exists i, is_i64 i /\ (f = collectionInfoKeyByID i \/ f = didSequenceKeyByID i)
}.
Record rep_reorg (h : smap bytes) (ms me : Z -> option Z) : Prop := {
  rr_start : tab h reorgJobStartHandle Encode2Human Wnum ms;
  rr_end : tab h reorgJobEndHandle Encode2Human Wnum me
}.
Record mrep (S : sst) (A : mst) : Prop := {
  mr_str : rep_str (s_str S) A;
  mr_dbs : tab (s_hash S dbsKey) dbKeyByID (jenc (jdb J)) Wdb (m_db A) /\ all_of dbKeyByID (s_hash S dbsKey);
  mr_db : forall i, is_i64 i -> rep_db (s_hash S (dbKeyByID i)) (m_coll A i) (m_did A i);
  mr_queue : forall q, s_list S (jkey q) = map (jenc (jjob J)) (m_queue A q) /\ Forall wf_job (m_queue A q);
  mr_hist : tab (s_hash S ddlJobHistoryKey) historyJobIDKey (jenc (jjob J)) Wjob (m_hist A) /\ all_of historyJobIDKey (s_hash S ddlJobHistoryKey);
  mr_reorg : rep_reorg (s_hash S ddlJobReorgKey) (m_start A) (m_end A)
}.
Lemma mrep_empty : mrep s_empty m_empty.
Proof.
  split.
  - split; try (split; [reflexivity | exact I]). apply tab_empty. reflexivity.
  - split; [apply tab_empty; reflexivity | apply all_empty].
  - intros i _. split; [apply tab_empty; reflexivity..|]. intros f x. cbn. discriminate.
  - intros q. split; [reflexivity | constructor].
  - split; [apply tab_empty; reflexivity | apply all_empty].
  - split; apply tab_empty; reflexivity.
Qed.

(** * Triples over the specification's state *)
Definition mdo {X} (c : Z) (A : mst) (m : Tx X) (r : result X) (A' : mst) : Prop :=
  forall S, mrep S A -> exists S', sspec P c m S r S' /\ mrep S' A'.
Definition mgets {X} (A : mst) (m : Tx X) (r : result X) : Prop := forall S, mrep S A -> sread P m S r.
Lemma mgets_mdo {X} A (m : Tx X) r : mgets A m r -> mdo 0 A m r A.
Proof. intros H S R. exists S. split; [apply sread_sspec, H; exact R | exact R]. Qed.
Lemma mdo_ret {X} A (x : X) : mdo 0 A (ret x) (Ok x) A.
Proof. intros S R. exists S. split; [apply sspec_ret | exact R]. Qed.
Lemma mdo_fail {X} A e : mdo 0 A (@fail X e) (Err e) A.
Proof. intros S R. exists S. split; [apply sspec_fail | exact R]. Qed.
Lemma mdo_bind {X Y} c1 c2 A A1 A2 (m : Tx X) (k : X -> Tx Y) a r : 0 <= c1 -> 0 <= c2 ->
  mdo c1 A m (Ok a) A1 -> mdo c2 A1 (k a) r A2 -> mdo (c1 + c2) A (bind m k) r A2.
Proof.
  intros C1 C2 H1 H2 S R. destruct (H1 S R) as (S1 & X1 & R1). destruct (H2 S1 R1) as (S2 & X2 & R2).
  exists S2. split; [eapply sspec_bind; eassumption | exact R2].
Qed.
Lemma mdo_bind_err {X Y} c A A1 (m : Tx X) (k : X -> Tx Y) e : mdo c A m (Err e) A1 -> mdo c A (bind m k) (Err e) A1.
Proof. intros H S R. destruct (H S R) as (S1 & X1 & R1). exists S1. split; [apply sspec_bind_err; exact X1 | exact R1]. Qed.
Lemma mdo_le {X} c c' A (m : Tx X) r A' : c <= c' -> mdo c A m r A' -> mdo c' A m r A'.
Proof. intros L H S R. destruct (H S R) as (S1 & X1 & R1). exists S1. split; [eapply sspec_le; eassumption | exact R1]. Qed.
Lemma mgets_bind {X Y} A (m : Tx X) (k : X -> Tx Y) a r : mgets A m (Ok a) -> mgets A (k a) r -> mgets A (bind m k) r.
Proof. intros H1 H2 S R. eapply sread_bind; [apply H1; exact R | apply H2; exact R]. Qed.
Lemma mgets_bind_err {X Y} A (m : Tx X) (k : X -> Tx Y) e : mgets A m (Err e) -> mgets A (bind m k) (Err e).
Proof. intros H S R. apply sread_bind_err, H, R. Qed.
Lemma mgets_ret {X} A (x : X) : mgets A (ret x) (Ok x).
Proof. intros S R. apply sread_ret. Qed.
Lemma mgets_fail {X} A e : mgets A (@fail X e) (Err e).
Proof. intros S R. apply sread_fail. Qed.

(** * Frames *)
Lemma mrep_str S A h A' : mrep S A -> rep_str h A' -> m_db A' = m_db A -> m_coll A' = m_coll A -> m_did A' = m_did A -> m_queue A' = m_queue A ->
  m_hist A' = m_hist A -> m_start A' = m_start A -> m_end A' = m_end A -> mrep (put_str S h) A'.
Proof. intros [R1 R2 R3 R4 R5 R6] H E1 E2 E3 E4 E5 E6 E7. split; cbn [put_str s_str s_hash s_list]; rewrite ?E1, ?E2, ?E3, ?E4, ?E5, ?E6, ?E7; assumption. Qed.
Lemma put_hash_eq S k h : s_hash (put_hash S k h) k = h.
Proof. cbn. rewrite bytes_eqb_refl. reflexivity. Qed.
Lemma put_hash_ne S k h j : j <> k -> s_hash (put_hash S k h) j = s_hash S j.
Proof. intros N. cbn. apply bytes_eqb_neq in N. rewrite N. reflexivity. Qed.
Lemma rep_str_same h A A' : rep_str h A -> m_gid A' = m_gid A -> m_ver A' = m_ver A -> m_boot A' = m_boot A -> m_diff A' = m_diff A -> rep_str h A'.
Proof. intros [R1 R2 R3 R4] E1 E2 E3 E4. split; rewrite ?E1, ?E2, ?E3, ?E4; assumption. Qed.
Lemma dbs_db i : dbKeyByID i <> dbsKey.
Proof. discriminate. Qed.
Lemma mrep_dbs S A h f : mrep S A -> tab h dbKeyByID (jenc (jdb J)) Wdb f -> all_of dbKeyByID h -> mrep (put_hash S dbsKey h) (with_db A f).
Proof.
  intros [R1 R2 R3 R4 R5 R6] H1 H2. split.
  - apply (rep_str_same _ A); auto.
  - rewrite put_hash_eq. split; assumption.
  - intros i Hi. rewrite put_hash_ne by apply dbs_db. apply R3. exact Hi.
  - exact R4.
  - rewrite put_hash_ne by discriminate. exact R5.
  - rewrite put_hash_ne by discriminate. exact R6.
Qed.
Lemma mrep_db S A h i mc md : mrep S A -> is_i64 i -> rep_db h mc md ->
  mrep (put_hash S (dbKeyByID i) h) (with_did (with_coll A (zupd (m_coll A) i mc)) (zupd (m_did A) i md)).
Proof.
  intros [R1 R2 R3 R4 R5 R6] Hi H. split; cbn [with_did with_coll m_db m_queue m_hist m_start m_end m_coll m_did].
  - apply (rep_str_same _ A); auto.
  - rewrite put_hash_ne by (intros E; symmetry in E; revert E; apply dbs_db). exact R2.
  - intros j Hj. unfold zupd. destruct (Z.eqb_spec j i) as [->|N]; [rewrite put_hash_eq; exact H|].
    rewrite put_hash_ne by (intros E; apply N; apply (pkey_inj (str "db")); assumption). apply R3. exact Hj.
  - exact R4.
  - rewrite put_hash_ne by discriminate. exact R5.
  - rewrite put_hash_ne by discriminate. exact R6.
Qed.
Lemma mrep_hist S A h f : mrep S A -> tab h historyJobIDKey (jenc (jjob J)) Wjob f -> all_of historyJobIDKey h -> mrep (put_hash S ddlJobHistoryKey h) (with_hist A f).
Proof.
  intros [R1 R2 R3 R4 R5 R6] H1 H2. split.
  - apply (rep_str_same _ A); auto.
  - rewrite put_hash_ne by discriminate. exact R2.
  - intros i Hi. rewrite put_hash_ne by discriminate. apply R3. exact Hi.
  - exact R4.
  - rewrite put_hash_eq. split; assumption.
  - rewrite put_hash_ne by discriminate. exact R6.
Qed.
Lemma mrep_reorg S A h ms me : mrep S A -> rep_reorg h ms me -> mrep (put_hash S ddlJobReorgKey h) (with_end (with_start A ms) me).
Proof.
  intros [R1 R2 R3 R4 R5 R6] H. split.
  - apply (rep_str_same _ A); auto.
  - rewrite put_hash_ne by discriminate. exact R2.
  - intros i Hi. rewrite put_hash_ne by discriminate. apply R3. exact Hi.
  - exact R4.
  - rewrite put_hash_ne by discriminate. exact R5.
  - rewrite put_hash_eq. exact H.
Qed.
Lemma jkey_inj p q : jkey p = jkey q -> qeqb p q = true.
Proof. destruct p, q; try reflexivity; discriminate. Qed.
Lemma qeqb_refl q : qeqb q q = true.
Proof. destruct q; reflexivity. Qed.
Lemma mrep_queue S A q l : mrep S A -> Forall wf_job l -> mrep (put_list S (jkey q) (map (jenc (jjob J)) l)) (with_queue A q l).
Proof.
  intros [R1 R2 R3 R4 R5 R6] F. split; try assumption.
  - apply (rep_str_same _ A); auto.
  - intros p. cbn [put_list s_list with_queue m_queue]. destruct (qeqb p q) eqn:E.
    + replace p with q by (destruct p, q; try discriminate; reflexivity). rewrite bytes_eqb_refl. split; [reflexivity | exact F].
    + destruct (bytes_eqb (jkey p) (jkey q)) eqn:X; [apply bytes_eqb_eq, jkey_inj in X; congruence|]. apply R4.
Qed.
(** the specification's states up to pointwise equality *)
Definition meq (A B : mst) : Prop :=
  m_gid A = m_gid B /\ m_ver A = m_ver B /\ m_boot A = m_boot B /\ (forall v, m_diff A v = m_diff B v) /\ (forall i, m_db A i = m_db B i) /\
  (forall i c, m_coll A i c = m_coll B i c) /\ (forall i c, m_did A i c = m_did B i c) /\ (forall q, m_queue A q = m_queue B q) /\
  (forall i, m_hist A i = m_hist B i) /\ (forall i, m_start A i = m_start B i) /\ (forall i, m_end A i = m_end B i).
Lemma tab_ext {X} h key (e : X -> bytes) (W : Z -> X -> Prop) (m m' : Z -> option X) : (forall i, m i = m' i) -> tab h key e W m -> tab h key e W m'.
Proof. intros E [G F]. split; intros; rewrite <- ?E in *; auto. Qed.
Lemma mrep_meq S A B : meq A B -> mrep S A -> mrep S B.
Proof.
  intros (E1 & E2 & E3 & E4 & E5 & E6 & E7 & E8 & E9 & E10 & E11) [R1 R2 R3 R4 R5 R6]. split.
  - destruct R1 as [A1 A2 A3 A4]. split; rewrite <- ?E1, <- ?E2, <- ?E3; try assumption. eapply tab_ext; [exact E4 | exact A4].
  - destruct R2 as [A1 A2]. split; [eapply tab_ext; [exact E5 | exact A1] | exact A2].
  - intros i Hi. destruct (R3 i Hi) as [A1 A2 A3]. split; [eapply tab_ext; [apply E6 | exact A1] | eapply tab_ext; [apply E7 | exact A2] | exact A3].
  - intros q. rewrite <- E8. apply R4.
  - destruct R5 as [A1 A2]. split; [eapply tab_ext; [exact E9 | exact A1] | exact A2].
  - destruct R6 as [A1 A2]. split; [eapply tab_ext; [exact E10 | exact A1] | eapply tab_ext; [exact E11 | exact A2]].
Qed.
Lemma mdo_meq {X} c A (m : Tx X) r A' B : meq A' B -> mdo c A m r A' -> mdo c A m r B.
Proof. intros E H S R. destruct (H S R) as (S1 & X1 & R1). exists S1. split; [exact X1 | eapply mrep_meq; eassumption]. Qed.
End WithJson.
