(** Every function of package meta, as a triple over the specification's state. *)
From Verif Require Import Bytes SMap Provider ProviderProofs World Memcmp MemcmpProofs Numeric KvUtil KeyModel Struct
  StructProofs StructHash StructList UtilTxn Sequence SequenceProofs Model Meta MetaSpec MetaProofs.
From Coq Require Import Sorted.

Local Notation P := MetaPrefix.
Local Notation GP := meta_prefix_good.

Lemma inc64_range o step : is_i64 step -> is_i64 (inc64 o step).
Proof. intros H. destruct o; cbn [inc64]; [apply to_i64_range | exact H]. Qed.

Section WithJson.
Variable J : json.
Hypothesis JO : json_ok J.
Local Notation mrep := (mrep J).
Local Notation mdo := (mdo J).
Local Notation mgets := (mgets J).

(** * Counters *)
Lemma numcell_int h k o : numcell h k o -> int_res (get h k) = match o with Some v => Ok v | None => Err ErrKeyNotFound end.
Proof. intros [E W]. rewrite E. destruct o as [v|]; cbn [option_map int_res]; [|reflexivity]. rewrite as_int_enc by exact W. reflexivity. Qed.
Lemma numcell_inc h k o step : numcell h k o -> inc_res (get h k) step = Ok (inc64 o step).
Proof. intros [E W]. rewrite E. destruct o as [v|]; cbn [option_map inc_res inc64]; [|reflexivity]. rewrite as_int_enc by exact W. reflexivity. Qed.
Lemma numcell_set h k k' o v : numcell h k o -> k <> k' -> numcell (set h k' v) k o.
Proof. intros [E W] N. split; [rewrite get_set_ne by exact N; exact E | exact W]. Qed.
Lemma numcell_put h k v : is_i64 v -> numcell (set h k (Encode2Human v)) k (Some v).
Proof. intros W. split; [apply get_set_eq | exact W]. Qed.
Lemma GetInt_r A k o : (forall S, mrep S A -> numcell (s_str S) k o) -> mgets A (SGetInt64 P k) (match o with Some v => Ok v | None => Err ErrKeyNotFound end).
Proof. intros H S R. rewrite <- (numcell_int _ _ _ (H S R)). apply SGetInt64_read. Qed.
Lemma getOr0_r A k o : (forall S, mrep S A -> numcell (s_str S) k o) -> mgets A (getOr0 k) (Ok (somez o)).
Proof.
  intros H S R. unfold getOr0. pose proof (GetInt_r A k o H S R) as X. destruct o as [v|]; cbn [somez].
  - eapply sread_try; [exact X | discriminate | apply sread_ret].
  - eapply sread_try; [exact X | discriminate | apply sread_ret].
Qed.
Lemma tab_setk {X} h key (e : X -> bytes) (W : Z -> X -> Prop) (m : Z -> option X) k v : (forall i, key i <> k) -> tab h key e W m -> tab (set h k v) key e W m.
Proof. intros N. apply tab_frame. intros i _. apply get_set_ne. apply N. Qed.
Lemma tab_delk {X} h key (e : X -> bytes) (W : Z -> X -> Prop) (m : Z -> option X) k : (forall i, is_i64 i -> key i <> k) -> tab h key e W m -> tab (del h k) key e W m.
Proof. intros N. apply tab_frame. intros i Hi. apply get_del_ne. apply N. exact Hi. Qed.
Lemma GetGlobalID_r A : mgets A GetGlobalID (match m_gid A with Some v => Ok v | None => Err ErrKeyNotFound end).
Proof. apply GetInt_r. intros S R. apply R. Qed.
Lemma GetSchemaVersion_r A : mgets A GetSchemaVersion (Ok (somez (m_ver A))).
Proof. apply getOr0_r. intros S R. apply R. Qed.
Lemma GetBootstrapVersion_r A : mgets A GetBootstrapVersion (Ok (somez (m_boot A))).
Proof. apply getOr0_r. intros S R. apply R. Qed.
Lemma str_gid h A v : rep_str J h A -> is_i64 v -> rep_str J (set h globalIDKey (Encode2Human v)) (with_gid A v).
Proof.
  intros [R1 R2 R3 R4] W. split; cbn [with_gid m_gid m_ver m_boot m_diff]; [apply numcell_put; exact W | apply numcell_set; [exact R2 | discriminate] | apply numcell_set; [exact R3 | discriminate]|].
  apply tab_setk; [discriminate | exact R4].
Qed.
Lemma str_ver h A v : rep_str J h A -> is_i64 v -> rep_str J (set h schemaVersionKey (Encode2Human v)) (with_ver A v).
Proof.
  intros [R1 R2 R3 R4] W. split; cbn [with_ver m_gid m_ver m_boot m_diff]; [apply numcell_set; [exact R1 | discriminate] | apply numcell_put; exact W | apply numcell_set; [exact R3 | discriminate]|].
  apply tab_setk; [discriminate | exact R4].
Qed.
Lemma str_boot h A v : rep_str J h A -> is_i64 v -> rep_str J (set h bootstrapKey (Encode2Human v)) (with_boot A v).
Proof.
  intros [R1 R2 R3 R4] W. split; cbn [with_boot m_gid m_ver m_boot m_diff]; [apply numcell_set; [exact R1 | discriminate] | apply numcell_set; [exact R2 | discriminate] | apply numcell_put; exact W |].
  apply tab_setk; [discriminate | exact R4].
Qed.
Lemma IncGid_d A n : is_i64 n -> mdo 0 A (SInc P globalIDKey n) (Ok (inc64 (m_gid A) n)) (with_gid A (inc64 (m_gid A) n)).
Proof.
  intros W S R. pose proof (SInc_spec P globalIDKey n S GP) as X. rewrite (numcell_inc _ _ _ n (rs_gid J _ _ (mr_str J _ _ R))) in X.
  eexists. split; [exact X|]. apply (mrep_str J S A); try reflexivity; [exact R|]. apply str_gid; [apply R | apply inc64_range; exact W].
Qed.
Lemma i64_1 : is_i64 1.
Proof. unfold is_i64. rewrite two63_val. lia. Qed.
Lemma GenGlobalID_d A : mdo 0 A GenGlobalID (Ok (inc64 (m_gid A) 1)) (with_gid A (inc64 (m_gid A) 1)).
Proof. apply IncGid_d. apply i64_1. Qed.
Lemma GenGlobalIDs_d A n : is_i64 n -> mdo 0 A (GenGlobalIDs n) (Ok (to_i64 (inc64 (m_gid A) n - n), inc64 (m_gid A) n)) (with_gid A (inc64 (m_gid A) n)).
Proof. intros W. unfold GenGlobalIDs. apply (mdo_bind J 0 0 A (with_gid A (inc64 (m_gid A) n)) _ _ _ (inc64 (m_gid A) n)); [lia | lia | apply IncGid_d; exact W | apply mdo_ret]. Qed.
Lemma GenSchemaVersion_d A : mdo 0 A GenSchemaVersion (Ok (inc64 (m_ver A) 1)) (with_ver A (inc64 (m_ver A) 1)).
Proof.
  intros S R. pose proof (SInc_spec P schemaVersionKey 1 S GP) as X. rewrite (numcell_inc _ _ _ 1 (rs_ver J _ _ (mr_str J _ _ R))) in X.
  eexists. split; [exact X|]. apply (mrep_str J S A); try reflexivity; [exact R|]. apply str_ver; [apply R | apply inc64_range, i64_1].
Qed.
Lemma FinishBootstrap_d A v : is_i64 v -> mdo 0 A (FinishBootstrap v) (Ok tt) (with_boot A v).
Proof.
  intros W S R. eexists. split; [apply (SSetInt64_spec P bootstrapKey v S GP)|]. apply (mrep_str J S A); try reflexivity; [exact R|]. apply str_boot; [apply R | exact W].
Qed.

(** * Existence checks *)
Lemma must_exist_r A k f e o : (forall S, mrep S A -> get (s_hash S k) f = o) -> mgets A (must_exist (HGet P k f) e) (match o with Some _ => Ok tt | None => Err e end).
Proof.
  intros H S R. unfold must_exist. pose proof (HGet_read P k f S) as X. rewrite (H S R) in X. destruct o; eapply sread_try; [exact X | discriminate | apply sread_ret | exact X | discriminate | apply sread_fail].
Qed.
Lemma must_not_exist_r A k f e o : (forall S, mrep S A -> get (s_hash S k) f = o) -> mgets A (must_not_exist (HGet P k f) e) (match o with Some _ => Err e | None => Ok tt end).
Proof.
  intros H S R. unfold must_not_exist. pose proof (HGet_read P k f S) as X. rewrite (H S R) in X. destruct o; eapply sread_try; [exact X | discriminate | apply sread_fail | exact X | discriminate | apply sread_ret].
Qed.
Lemma get_db A i : is_i64 i -> forall S, mrep S A -> get (s_hash S dbsKey) (dbKeyByID i) = option_map (jenc (jdb J)) (m_db A i).
Proof. intros Hi S R. exact (tab_get (proj1 (mr_dbs J _ _ R)) i Hi). Qed.
Lemma get_coll A i c : is_i64 i -> is_i64 c -> forall S, mrep S A -> get (s_hash S (dbKeyByID i)) (collectionInfoKeyByID c) = option_map (jenc (jci J)) (m_coll A i c).
Proof. intros Hi Hc S R. exact (tab_get (rd_coll J _ _ _ (mr_db J _ _ R i Hi)) c Hc). Qed.
Lemma checkDBExists_r A i : is_i64 i -> mgets A (checkDBExists (dbKeyByID i)) (if exists_db A i then Ok tt else Err ErrDBNotExists).
Proof. intros Hi. pose proof (must_exist_r A _ _ ErrDBNotExists _ (get_db A i Hi)) as X. unfold exists_db. destruct (m_db A i); exact X. Qed.
Lemma checkDBNotExists_r A i : is_i64 i -> mgets A (checkDBNotExists (dbKeyByID i)) (if exists_db A i then Err ErrDBExists else Ok tt).
Proof. intros Hi. pose proof (must_not_exist_r A _ _ ErrDBExists _ (get_db A i Hi)) as X. unfold exists_db. destruct (m_db A i); exact X. Qed.
Lemma checkCollectionExists_r A i c : is_i64 i -> is_i64 c -> mgets A (checkCollectionExists (dbKeyByID i) (collectionInfoKeyByID c)) (if exists_coll A i c then Ok tt else Err ErrCollectionNotExists).
Proof. intros Hi Hc. pose proof (must_exist_r A _ _ ErrCollectionNotExists _ (get_coll A i c Hi Hc)) as X. unfold exists_coll. destruct (m_coll A i c); exact X. Qed.
Lemma checkCollectionNotExists_r A i c : is_i64 i -> is_i64 c -> mgets A (checkCollectionNotExists (dbKeyByID i) (collectionInfoKeyByID c)) (if exists_coll A i c then Err ErrCollectionExists else Ok tt).
Proof. intros Hi Hc. pose proof (must_not_exist_r A _ _ ErrCollectionExists _ (get_coll A i c Hi Hc)) as X. unfold exists_coll. destruct (m_coll A i c); exact X. Qed.
(** a check followed by the rest *)
Lemma after_check {X} c A (m : Tx unit) (k : unit -> Tx X) (b : bool) e r A' : 0 <= c -> mgets A m (if b then Ok tt else Err e) ->
  (b = true -> mdo c A (k tt) r A') -> mdo c A (bind m k) (if b then r else Err e) (if b then A' else A).
Proof.
  intros C H K. destruct b.
  - apply (mdo_bind J 0 c A A A' m k tt r); [lia | exact C | apply mgets_mdo; exact H | apply K; reflexivity].
  - apply mdo_le with (c := 0); [lia|]. apply mdo_bind_err, mgets_mdo. exact H.
Qed.

(** * Databases *)
Lemma inj_db : inj64 dbKeyByID.
Proof. intros a b. apply pkey_inj. Qed.
Lemma inj_ci : inj64 collectionInfoKeyByID.
Proof. intros a b. apply pkey_inj. Qed.
Lemma inj_did : inj64 didSequenceKeyByID.
Proof. intros a b. apply pkey_inj. Qed.
Lemma inj_sd : inj64 schemaDiffKey.
Proof. intros a b. apply pkey_inj. Qed.
Lemma inj_hist : inj64 historyJobIDKey.
Proof. intros a b. apply hkey_inj. Qed.
Lemma HSet_db_d A d : wf_di d -> mdo 1 A (HSet P dbsKey (dbKeyByID (di_id d)) (jenc (jdb J) d)) (Ok tt) (with_db A (zupd (m_db A) (di_id d) (Some d))).
Proof.
  intros W S R. pose proof (proj1 W) as Hi. eexists. split; [apply HSet_spec, GP|]. rewrite hput_nonempty by apply (ne_db J JO). apply mrep_dbs; [exact R | |].
  - apply tab_set; [apply inj_db | exact Hi | split; [exact W | reflexivity] | apply R].
  - apply all_set; [exact Hi | apply R].
Qed.
Lemma CreateDatabase_d A d : wf_di d ->
  mdo 1 A (CreateDatabase J d) (if exists_db A (di_id d) then Err ErrDBExists else Ok tt) (if exists_db A (di_id d) then A else with_db A (zupd (m_db A) (di_id d) (Some d))).
Proof.
  intros W. pose proof (proj1 W) as Hi. pose proof (checkDBNotExists_r A _ Hi) as C. destruct (exists_db A (di_id d)) eqn:E.
  - apply mdo_le with (c := 0); [lia|]. apply mdo_bind_err, mgets_mdo. exact C.
  - apply (mdo_bind J 0 1 A A _ _ _ tt); [lia | lia | apply mgets_mdo; exact C | apply HSet_db_d; exact W].
Qed.
Lemma UpdateDatabase_d A d : wf_di d ->
  mdo 1 A (UpdateDatabase J d) (if exists_db A (di_id d) then Ok tt else Err ErrDBNotExists) (if exists_db A (di_id d) then with_db A (zupd (m_db A) (di_id d) (Some d)) else A).
Proof. intros W. apply after_check; [lia | apply checkDBExists_r, W | intros _; apply HSet_db_d; exact W]. Qed.
Lemma found_r {X} A k f e (c : jcodec X) (o : option X) : (forall S, mrep S A -> get (s_hash S k) f = option_map (jenc c) o) ->
  (forall x, o = Some x -> jdec c (jenc c x) = Some x) -> mgets A (found (HGet P k f) e c) (match o with Some x => Ok x | None => Err e end).
Proof.
  intros H D S R. unfold found. pose proof (HGet_read P k f S) as Y. rewrite (H S R) in Y. destruct o as [x|]; cbn [option_map] in Y.
  - eapply sread_try; [exact Y | discriminate|]. cbv iota. unfold decode. rewrite (D x eq_refl). apply sread_ret.
  - eapply sread_try; [exact Y | discriminate | apply sread_fail].
Qed.
Lemma wf_get {X} (m : Z -> option X) h key (e : X -> bytes) W i x : tab h key e W m -> m i = Some x -> W i x.
Proof. intros T E. apply (tab_wf T) in E. apply E. Qed.
Lemma GetDatabase_r A i : is_i64 i -> mgets A (GetDatabase J i) (match m_db A i with Some d => Ok d | None => Err ErrDBNotExists end).
Proof.
  intros Hi S R. apply (found_r A); [apply get_db; exact Hi | | exact R]. intros d E. apply (ok_db J JO). exact (proj1 (wf_get _ _ _ _ _ _ _ (proj1 (mr_dbs J _ _ R)) E)).
Qed.

(** * Collections *)
Lemma with_coll_did A i f : meq (with_did (with_coll A (zupd (m_coll A) i f)) (zupd (m_did A) i (m_did A i))) (with_coll A (zupd (m_coll A) i f)).
Proof. repeat (split; [reflexivity|]). split; [|repeat split]. intros j c. cbn. unfold zupd. destruct (Z.eqb_spec j i) as [->|]; reflexivity. Qed.
Lemma with_did_coll A i f : meq (with_did (with_coll A (zupd (m_coll A) i (m_coll A i))) (zupd (m_did A) i f)) (with_did A (zupd (m_did A) i f)).
Proof. repeat (split; [reflexivity|]). split; [|repeat split]. intros j c. cbn. unfold zupd. destruct (Z.eqb_spec j i) as [->|]; reflexivity. Qed.
Lemma HSet_coll_d A i c : is_i64 i -> wf_ci c ->
  mdo 1 A (HSet P (dbKeyByID i) (collectionInfoKeyByID (ci_id c)) (jenc (jci J) c)) (Ok tt) (with_coll A (zupd (m_coll A) i (zupd (m_coll A i) (ci_id c) (Some c)))).
Proof.
  intros Hi W. pose proof (proj1 W) as Hc. eapply mdo_meq; [apply with_coll_did|]. intros S R. eexists. split; [apply HSet_spec, GP|]. rewrite hput_nonempty by apply (ne_ci J JO). apply mrep_db; [exact R | exact Hi|].
  destruct (mr_db J _ _ R i Hi) as [A1 A2 A3]. split.
  - apply tab_set; [apply inj_ci | exact Hc | split; [exact W | reflexivity] | exact A1].
  - apply tab_setk; [discriminate | exact A2].
  - intros f x. rewrite get_set. destruct (bytes_eqb f _) eqn:E; [|apply A3]. apply bytes_eqb_eq in E. intros _. exists (ci_id c). auto.
Qed.
Lemma CreateCollection_d A i c : is_i64 i -> wf_ci c ->
  mdo 1 A (CreateCollection J i c)
    (if exists_db A i then if exists_coll A i (ci_id c) then Err ErrCollectionExists else Ok tt else Err ErrDBNotExists)
    (if exists_db A i then if exists_coll A i (ci_id c) then A else with_coll A (zupd (m_coll A) i (zupd (m_coll A i) (ci_id c) (Some c))) else A).
Proof.
  intros Hi W. apply after_check; [lia | apply checkDBExists_r; exact Hi|]. intros _. pose proof (checkCollectionNotExists_r A i _ Hi (proj1 W)) as C. destruct (exists_coll A i (ci_id c)) eqn:E.
  - apply mdo_le with (c := 0); [lia|]. apply mdo_bind_err, mgets_mdo. exact C.
  - apply (mdo_bind J 0 1 A A _ _ _ tt); [lia | lia | apply mgets_mdo; exact C | apply HSet_coll_d; assumption].
Qed.
Lemma UpdateCollection_d A i c : is_i64 i -> wf_ci c ->
  mdo 1 A (UpdateCollection J i c)
    (if exists_db A i then if exists_coll A i (ci_id c) then Ok tt else Err ErrCollectionNotExists else Err ErrDBNotExists)
    (if exists_db A i then if exists_coll A i (ci_id c) then with_coll A (zupd (m_coll A) i (zupd (m_coll A i) (ci_id c) (Some c))) else A else A).
Proof.
  intros Hi W. apply after_check; [lia | apply checkDBExists_r; exact Hi|]. intros _. apply after_check; [lia | apply checkCollectionExists_r; [exact Hi | apply W]|]. intros _. apply HSet_coll_d; assumption.
Qed.
Lemma HDel_coll_d A i c : is_i64 i -> is_i64 c -> mdo 0 A (HDel P (dbKeyByID i) [collectionInfoKeyByID c]) (Ok tt) (with_coll A (zupd (m_coll A) i (zupd (m_coll A i) c None))).
Proof.
  intros Hi Hc. eapply mdo_meq; [apply with_coll_did|]. intros S R. eexists. split; [apply HDel_spec, GP|]. cbn [hdels fold_left]. apply mrep_db; [exact R | exact Hi|].
  destruct (mr_db J _ _ R i Hi) as [A1 A2 A3]. split.
  - apply tab_del; [apply inj_ci | exact Hc | exact A1].
  - apply tab_delk; [discriminate | exact A2].
  - intros f x. rewrite get_del. destruct (bytes_eqb f _); [discriminate | apply A3].
Qed.
Lemma HDel_did_d A i c : is_i64 i -> is_i64 c -> mdo 0 A (HDel P (dbKeyByID i) [didSequenceKeyByID c]) (Ok tt) (with_did A (zupd (m_did A) i (zupd (m_did A i) c None))).
Proof.
  intros Hi Hc. eapply mdo_meq; [apply with_did_coll|]. intros S R. eexists. split; [apply HDel_spec, GP|]. cbn [hdels fold_left]. apply mrep_db; [exact R | exact Hi|].
  destruct (mr_db J _ _ R i Hi) as [A1 A2 A3]. split.
  - apply tab_delk; [discriminate | exact A1].
  - apply tab_del; [apply inj_did | exact Hc | exact A2].
  - intros f x. rewrite get_del. destruct (bytes_eqb f _); [discriminate | apply A3].
Qed.
Lemma DropCollection_d A i c del : is_i64 i -> is_i64 c ->
  let A1 := with_coll A (zupd (m_coll A) i (zupd (m_coll A i) c None)) in
  mdo 0 A (DropCollection i c del)
    (if exists_db A i then if exists_coll A i c then Ok tt else Err ErrCollectionNotExists else Err ErrDBNotExists)
    (if exists_db A i then if exists_coll A i c then (if del then with_did A1 (zupd (m_did A) i (zupd (m_did A i) c None)) else A1) else A else A).
Proof.
  intros Hi Hc A1. apply after_check; [lia | apply checkDBExists_r; exact Hi|]. intros _. apply after_check; [lia | apply checkCollectionExists_r; assumption|]. intros _.
  apply (mdo_bind J 0 0 A A1 _ _ _ tt); [lia | lia | apply HDel_coll_d; assumption|]. destruct del; [exact (HDel_did_d A1 i c Hi Hc) | apply mdo_ret].
Qed.
Lemma DropDatabase_d A i : is_i64 i ->
  mdo 0 A (DropDatabase i) (if exists_db A i then Ok tt else Err ErrDBNotExists)
    (if exists_db A i then with_did (with_coll (with_db A (zupd (m_db A) i None)) (zupd (m_coll A) i (fun _ => None))) (zupd (m_did A) i (fun _ => None)) else A).
Proof.
  intros Hi. apply after_check; [lia | apply checkDBExists_r; exact Hi|]. intros _.
  set (A1 := with_did (with_coll A (zupd (m_coll A) i (fun _ => None))) (zupd (m_did A) i (fun _ => None))).
  apply (mdo_bind J 0 0 A A1 _ _ _ tt); [lia | lia | |].
  - intros S R. eexists. split; [apply HClear_spec, GP|]. apply mrep_db; [exact R | exact Hi|]. split; [apply tab_empty; reflexivity..|]. intros f x. rewrite get_empty. discriminate.
  - intros S R. eexists. split; [apply HDel_spec, GP|]. cbn [hdels fold_left]. eapply mrep_meq; [|apply mrep_dbs; [exact R | |]].
    2:{ apply (tab_del _ _ _ _ (m_db A1) i); [apply inj_db | exact Hi | apply R]. } 2:{ apply all_del, R. }
    repeat split.
Qed.
Lemma GetCollection_r A i c : is_i64 i -> is_i64 c ->
  mgets A (GetCollection J i c) (if exists_db A i then match m_coll A i c with Some x => Ok x | None => Err ErrCollectionNotExists end else Err ErrDBNotExists).
Proof.
  intros Hi Hc. unfold GetCollection. pose proof (checkDBExists_r A i Hi) as C. destruct (exists_db A i); [|apply mgets_bind_err; exact C].
  eapply mgets_bind; [exact C|]. intros S R. apply (found_r A); [apply get_coll; assumption | | exact R]. intros x E. apply (ok_ci J JO). exact (proj1 (wf_get _ _ _ _ _ _ _ (rd_coll J _ _ _ (mr_db J _ _ R i Hi)) E)).
Qed.
(** document-id counters *)
Lemma DidInc_d A i c step : is_i64 i -> is_i64 c -> is_i64 step ->
  mdo 1 A (HInc P (dbKeyByID i) (didSequenceKeyByID c) step) (Ok (inc64 (m_did A i c) step)) (with_did A (zupd (m_did A) i (zupd (m_did A i) c (Some (inc64 (m_did A i c) step))))).
Proof.
  intros Hi Hc Hs. eapply mdo_meq; [apply with_did_coll|]. intros S R. pose proof (HInc_spec P (dbKeyByID i) (didSequenceKeyByID c) step S GP Hs) as X.
  destruct (mr_db J _ _ R i Hi) as [A1 A2 A3]. pose proof (tab_get A2 c Hc) as G.
  assert (E : hinc_res (get (s_hash S (dbKeyByID i)) (didSequenceKeyByID c)) step = Ok (inc64 (m_did A i c) step)).
  { rewrite G. destruct (m_did A i c) as [n|] eqn:D; cbn [option_map hinc_res inc64]; [|reflexivity]. pose proof (human_nonempty n) as N. destruct (Encode2Human n) eqn:H; [congruence|]. rewrite <- H.
    rewrite as_int_enc; [reflexivity|]. exact (proj2 (tab_wf A2 _ _ D)). }
  rewrite E in X. eexists. split; [exact X|]. apply mrep_db; [exact R | exact Hi|]. split.
  - apply tab_setk; [discriminate | exact A1].
  - apply tab_set; [apply inj_did | exact Hc | apply inc64_range; exact Hs | exact A2].
  - intros f x. rewrite get_set. destruct (bytes_eqb f _) eqn:Y; [|apply A3]. apply bytes_eqb_eq in Y. intros _. exists c. auto.
Qed.

(** * Listings *)
Lemma list_of {X} (key : Z -> bytes) (e : X -> bytes) (id : X -> Z) (m : Z -> option X) (E : list (bytes * bytes)) : inj64 key ->
  (forall i x, m i = Some x -> is_i64 i /\ id x = i) -> NoDup (map fst E) ->
  (forall f v, In (f, v) E -> exists i x, f = key i /\ m i = Some x /\ v = e x) ->
  (forall i x, m i = Some x -> In (key i, e x) E) ->
  exists l, map snd E = map e l /\ map fst E = map (fun x => key (id x)) l /\ NoDup (map id l) /\ (forall x, In x l <-> m (id x) = Some x).
Proof.
  intros K W N D C.
  assert (H : exists l, map snd E = map e l /\ map fst E = map (fun x => key (id x)) l /\ forall x, In x l -> m (id x) = Some x).
  { clear N C. induction E as [|[f v] E IH]; [exists []; repeat split; intros x []|].
    destruct (D f v (or_introl eq_refl)) as (i & x & -> & M & ->). destruct IH as (l & L1 & L2 & L3); [intros g w I; apply D; right; exact I|].
    destruct (W i x M) as [_ Ei]. exists (x :: l). cbn [map fst snd]. rewrite L1, L2, Ei. split; [reflexivity|]. split; [reflexivity|]. intros y [<-|I]; [rewrite Ei; exact M | apply L3; exact I]. }
  destruct H as (l & L1 & L2 & L3). exists l. split; [exact L1|]. split; [exact L2|]. split.
  - rewrite L2 in N. rewrite <- (map_map id key) in N. apply NoDup_map_inv in N. exact N.
  - intros x. split; [apply L3|]. intros M. destruct (W _ _ M) as [Hi _]. pose proof (C _ _ M) as I. apply (in_map fst) in I. cbn [fst] in I. rewrite L2 in I. apply in_map_iff in I. destruct I as (y & Ky & Iy).
    pose proof (L3 _ Iy) as My. destruct (W _ _ My) as [Hy _]. apply K in Ky; [|assumption..]. rewrite Ky in My. congruence.
Qed.
Lemma decode_all_r {X} S (c : jcodec X) l : Forall (fun x => jdec c (jenc c x) = Some x) l -> sread P (decode_all c (map (jenc c) l)) S (Ok l).
Proof.
  induction 1 as [|x l H F IH]; cbn [map decode_all]; [apply sread_ret|]. unfold decode at 1. rewrite H. eapply sread_bind; [apply sread_ret|]. eapply sread_bind; [exact IH | apply sread_ret].
Qed.
Lemma ListDatabases_r A S : mrep S A -> exists l, lists_dbs A l /\ sread P (ListDatabases J) S (Ok l).
Proof.
  intros R. destruct (mr_dbs J _ _ R) as [T Al]. destruct (list_of dbKeyByID (jenc (jdb J)) di_id (m_db A) (entries (s_hash S dbsKey))) as (l & L1 & _ & L3 & L4).
  - apply inj_db.
  - intros i x E. destruct (tab_wf T _ _ E) as [Hi [_ Ei]]. auto.
  - apply keys_nodup.
  - intros f v I. apply get_in in I. destruct (Al _ _ I) as (i & Hi & ->). rewrite (tab_get T i Hi) in I. destruct (m_db A i) as [x|] eqn:E; [|discriminate]. exists i, x. cbn in I. split; [reflexivity|]. split; [exact E | congruence].
  - intros i x E. apply get_in. destruct (tab_wf T _ _ E) as [Hi _]. rewrite (tab_get T i Hi), E. reflexivity.
  - exists l. split; [split; assumption|]. unfold ListDatabases. eapply sread_bind; [apply HGetAll_read|]. rewrite L1. apply decode_all_r. apply Forall_forall. intros x I.
    apply L4 in I. destruct (tab_wf T _ _ I) as [_ [W _]]. apply (ok_db J JO). exact W.
Qed.
Lemma ListCollections_r A S i : is_i64 i -> mrep S A -> exists_db A i = true -> exists l, lists_colls A i l /\ sread P (ListCollections J i) S (Ok l).
Proof.
  intros Hi R X. destruct (mr_db J _ _ R i Hi) as [T _ Al]. set (h := s_hash S (dbKeyByID i)) in *.
  destruct (list_of collectionInfoKeyByID (jenc (jci J)) ci_id (m_coll A i) (filter (fun r => has_prefix (fst r) collectionInfoPrefix) (entries h))) as (l & L1 & _ & L3 & L4).
  - apply inj_ci.
  - intros c x E. destruct (tab_wf T _ _ E) as [Hc [_ Ec]]. auto.
  - rewrite <- (entries_filter (fun r => has_prefix (fst r) collectionInfoPrefix)). apply keys_nodup.
  - intros f v I. apply filter_In in I. destruct I as [I Pf]. apply get_in in I. destruct (Al _ _ I) as (c & Hc & [-> | ->]); [|discriminate Pf].
    rewrite (tab_get T c Hc) in I. destruct (m_coll A i c) as [x|] eqn:E; [|discriminate]. exists c, x. cbn in I. split; [reflexivity|]. split; [exact E | congruence].
  - intros c x E. apply filter_In. split; [|unfold collectionInfoKeyByID, pkey; apply has_prefix_app]. apply get_in. destruct (tab_wf T _ _ E) as [Hc _]. rewrite (tab_get T c Hc), E. reflexivity.
  - exists l. split; [split; assumption|]. unfold ListCollections. pose proof (checkDBExists_r A i Hi S R) as C. rewrite X in C. eapply sread_bind; [exact C|].
    eapply sread_bind; [apply HGetAll_read|]. fold h. rewrite L1. apply decode_all_r. apply Forall_forall. intros x I.
    apply L4 in I. destruct (tab_wf T _ _ I) as [_ [W _]]. apply (ok_ci J JO). exact W.
Qed.
Lemma ListCollections_none A i : is_i64 i -> exists_db A i = false -> mgets A (ListCollections J i) (Err ErrDBNotExists).
Proof. intros Hi X. pose proof (checkDBExists_r A i Hi) as C. rewrite X in C. apply mgets_bind_err. exact C. Qed.

(** * Schema diffs *)
Lemma GetSchemaDiff_r A v : is_i64 v -> mgets A (GetSchemaDiff J v) (Ok (m_diff A v)).
Proof.
  intros Hv S R. pose proof (SGet_read P (schemaDiffKey v) S) as X. pose proof (rs_diff J _ _ (mr_str J _ _ R)) as T. rewrite (tab_get T v Hv) in X. unfold GetSchemaDiff, optional.
  destruct (m_diff A v) as [d|] eqn:E; cbn [option_map] in X.
  - eapply sread_try; [exact X | discriminate|]. cbv iota. unfold decode. rewrite (ok_sd J JO) by exact (proj1 (wf_get _ _ _ _ _ _ _ T E)). eapply sread_bind; apply sread_ret.
  - eapply sread_try; [exact X | discriminate | apply sread_ret].
Qed.
Lemma SetSchemaDiff_d A d : wf_sd d -> mdo 0 A (SetSchemaDiff J d) (Ok tt) (with_diff A (zupd (m_diff A) (sd_version d) (Some d))).
Proof.
  intros W S R. eexists. split; [apply SSet_spec, GP|]. apply (mrep_str J S A); try reflexivity; [exact R|].
  destruct (mr_str J _ _ R) as [A1 A2 A3 A4]. split; cbn [with_diff m_gid m_ver m_boot m_diff]; try (apply numcell_set; [assumption | discriminate]).
  apply tab_set; [apply inj_sd | apply W | split; [exact W | reflexivity] | exact A4].
Qed.

(** * The queues *)
Definition jread (o : option Job) : result (option Job) := match o with None => Ok None | Some j => if j_err j then Err EDecode else Ok (Some j) end.
Lemma dec_job_r S j : wf_job j -> sread P (a <- decode (jjob J) (jenc (jjob J) j) ;; ret (Some a)) S (jread (Some j)).
Proof.
  intros W. unfold decode, jread. rewrite (ok_job J JO j W). destruct (j_err j); [apply sread_bind_err, sread_fail | eapply sread_bind; apply sread_ret].
Qed.
Lemma EnQueueDDLJob_d A q j : wf_job j -> mdo 1 A (EnQueueDDLJob J q j) (Ok tt) (with_queue A q (m_queue A q ++ [j])).
Proof.
  intros W S R. pose proof (push_spec P (jkey q) false [jenc (jjob J) j] S GP) as X. destruct (mr_queue J _ _ R q) as [E F]. rewrite E in X.
  change ([jenc (jjob J) j]) with (map (jenc (jjob J)) [j]) in X. rewrite <- map_app in X. eexists. split; [exact X|]. apply mrep_queue; [exact R|]. apply Forall_app. split; [exact F | constructor; [exact W | constructor]].
Qed.
Lemma DeQueueDDLJob_d A q : mdo 0 A (DeQueueDDLJob J q) (jread (hd_error (m_queue A q))) (match m_queue A q with [] => A | _ :: l => with_queue A q l end).
Proof.
  intros S R. pose proof (LPop_spec P (jkey q) S GP) as X. destruct (mr_queue J _ _ R q) as [E F]. rewrite E in X. unfold DeQueueDDLJob, optional. destruct (m_queue A q) as [|j l]; cbn [map] in X.
  - exists S. split; [|exact R]. eapply (sspec_try P 0 0); [lia | lia | exact X | discriminate | apply sspec_ret].
  - inversion F; subst. eexists. split; [|apply mrep_queue; [exact R | assumption]]. eapply (sspec_try P 0 0); [lia | lia | exact X | discriminate|]. apply sread_sspec. apply dec_job_r. assumption.
Qed.
Lemma nth_map_d {X Y} (f : X -> Y) l n d d' : (n < length l)%nat -> nth n (map f l) d' = f (nth n l d).
Proof. revert n. induction l as [|x l IH]; intros [|n] H; cbn in *; try lia; [reflexivity|]. apply IH. lia. Qed.
Lemma position_lt len i n : position len i = Some n -> (Z.of_nat n < len)%Z.
Proof. unfold position. destruct (_ && _) eqn:E; [|discriminate]. intros X. inversion X. apply andb_true_iff in E. destruct E as [E1 E2]. apply Z.leb_le in E1. apply Z.ltb_lt in E2. rewrite Z2Nat.id; assumption. Qed.
Lemma llen_map {X} (f : X -> bytes) l : llen (map f l) = Z.of_nat (length l).
Proof. unfold llen. rewrite map_length. reflexivity. Qed.
Definition job_at (l : list Job) (i : Z) : result (option Job) :=
  match l with [] => Ok None | _ => match position (Z.of_nat (length l)) i with Some n => jread (nth_error l n) | None => Err EDecode end end.
Lemma GetDDLJobByIdx_r A q i : is_i64 i -> mgets A (GetDDLJobByIdx J q i) (job_at (m_queue A q) i).
Proof.
  intros Hi S R. pose proof (LIndex_read P (jkey q) i S Hi) as X. destruct (mr_queue J _ _ R q) as [E F]. rewrite E in X. unfold GetDDLJobByIdx, optional, job_at.
  unfold lindex_res in X. rewrite llen_map in X. destruct (m_queue A q) as [|j l] eqn:Q; cbn [map] in X.
  - eapply sread_try; [exact X | discriminate | apply sread_ret].
  - change (lpos (Z.of_nat (length (j :: l))) i) with (position (Z.of_nat (length (j :: l))) i) in X. destruct (position _ i) as [n|] eqn:L.
    + apply position_lt in L. eapply sread_try; [exact X | discriminate|]. cbv iota. change (jenc (jjob J) j :: map (jenc (jjob J)) l) with (map (jenc (jjob J)) (j :: l)).
      rewrite (nth_map_d _ _ _ j) by lia. rewrite (nth_error_nth' _ j) by lia. apply dec_job_r. rewrite Forall_forall in F. apply F. apply nth_In. lia.
    + eapply sread_try; [exact X | discriminate|]. cbv iota. unfold decode. rewrite (no_job J JO). apply sread_bind_err, sread_fail.
Qed.
Lemma lupdate_map {X} (f : X -> bytes) l n x : lupdate (map f l) n (f x) = map f (replace l n x).
Proof. revert n. induction l as [|y l IH]; intros [|n]; cbn; try reflexivity. rewrite IH. reflexivity. Qed.
Lemma Forall_replace {X} (W : X -> Prop) l n x : Forall W l -> W x -> Forall W (replace l n x).
Proof. intros F Wx. revert n. induction F; intros [|n]; cbn; constructor; auto. Qed.
Lemma put_list_same A S q : mrep S A -> mrep (put_list S (jkey q) (s_list S (jkey q))) A.
Proof.
  intros R. destruct (mr_queue J _ _ R q) as [E F]. rewrite E. eapply mrep_meq; [|apply (mrep_queue J S A q); [exact R | exact F]].
  repeat (split; [reflexivity|]). split; [|repeat split]. intros p. cbn. destruct (qeqb p q) eqn:X; [|reflexivity]. destruct p, q; try discriminate; reflexivity.
Qed.
Lemma UpdateDDLJob_d A q i j : is_i64 i -> wf_job j ->
  mdo 0 A (UpdateDDLJob J q i j) (match position (Z.of_nat (length (m_queue A q))) i with Some _ => Ok tt | None => Err ErrJobNotExists end)
    (match position (Z.of_nat (length (m_queue A q))) i with Some n => with_queue A q (replace (m_queue A q) n j) | None => A end).
Proof.
  intros Hi W S R. pose proof (LSet_spec P (jkey q) i (jenc (jjob J) j) S GP Hi) as X. destruct (mr_queue J _ _ R q) as [E F]. unfold lset_res, lset_list in X. rewrite E, llen_map in X.
  change (lpos (Z.of_nat (length (m_queue A q))) i) with (position (Z.of_nat (length (m_queue A q))) i) in X. unfold UpdateDDLJob. destruct (position _ i) as [n|] eqn:L.
  - rewrite lupdate_map in X. eexists. split; [eapply (sspec_try P 0 0); [lia | lia | exact X | discriminate | apply sspec_ret]|]. apply mrep_queue; [exact R|]. apply Forall_replace; assumption.
  - rewrite <- E in X. eexists. split; [eapply (sspec_try P 0 0); [lia | lia | exact X | discriminate | apply sspec_fail]|]. apply put_list_same. exact R.
Qed.
Lemma DDLJobQueueLen_r A q : mgets A (DDLJobQueueLen q) (Ok (Z.of_nat (length (m_queue A q)))).
Proof. intros S R. pose proof (LLen_read P (jkey q) S) as X. rewrite (proj1 (mr_queue J _ _ R q)), llen_map in X. exact X. Qed.
Definition jreads (l : list Job) : result (list Job) := if existsb j_err l then Err EDecode else Ok l.
Lemma decode_jobs_r S l : Forall wf_job l -> sread P (decode_all (jjob J) (map (jenc (jjob J)) l)) S (jreads l).
Proof.
  induction 1 as [|j l W F IH]; cbn [map decode_all]; [apply sread_ret|]. unfold decode at 1. rewrite (ok_job J JO j W). unfold jreads in *. cbn [existsb]. destruct (j_err j); cbn [orb].
  - apply sread_bind_err, sread_fail.
  - eapply sread_bind; [apply sread_ret|]. destruct (existsb j_err l); [apply sread_bind_err; exact IH | eapply sread_bind; [exact IH | apply sread_ret]].
Qed.
Lemma GetAllDDLJobsInQueue_r A q : mgets A (GetAllDDLJobsInQueue J q) (jreads (rev (m_queue A q))).
Proof.
  intros S R. destruct (mr_queue J _ _ R q) as [E F]. unfold GetAllDDLJobsInQueue. eapply sread_bind; [apply LGetAll_read|]. rewrite E, <- map_rev. apply decode_jobs_r. apply Forall_rev. exact F.
Qed.

(** * History *)
Lemma AddHistoryDDLJob_d A j : wf_job j -> mdo 1 A (AddHistoryDDLJob J j) (Ok tt) (with_hist A (zupd (m_hist A) (j_id j) (Some j))).
Proof.
  intros W S R. pose proof (proj1 W) as Hi. eexists. split; [apply HSet_spec, GP|]. rewrite hput_nonempty by apply (ne_job J JO). apply mrep_hist; [exact R | |].
  - apply tab_set; [apply inj_hist | exact Hi | split; [exact W | reflexivity] | apply R].
  - apply all_set; [exact Hi | apply R].
Qed.
Lemma GetHistoryDDLJob_r A i : is_i64 i -> mgets A (GetHistoryDDLJob J i) (jread (m_hist A i)).
Proof.
  intros Hi S R. pose proof (HGet_read P ddlJobHistoryKey (historyJobIDKey i) S) as X. pose proof (proj1 (mr_hist J _ _ R)) as T. rewrite (tab_get T i Hi) in X. unfold GetHistoryDDLJob, optional.
  destruct (m_hist A i) as [j|] eqn:E; cbn [option_map] in X.
  - eapply sread_try; [exact X | discriminate|]. cbv iota. apply dec_job_r. exact (proj1 (wf_get _ _ _ _ _ _ _ T E)).
  - eapply sread_try; [exact X | discriminate | apply sread_ret].
Qed.
Lemma sorted_ss {V} (l : list (bytes * V)) : sortedb l = true -> StronglySorted (fun p q => bytes_lt (fst p) (fst q)) l.
Proof.
  induction l as [|[k v] l IH]; intros H; [constructor|]. apply sortedb_cons in H. destruct H as [H1 H2]. constructor; [apply IH; exact H2|]. apply Forall_forall. intros [k' v'] I. cbn [fst]. eapply H1. exact I.
Qed.
Lemma hkey_lt a b : is_i64 a -> is_i64 b -> bytes_lt (historyJobIDKey a) (historyJobIDKey b) -> to_u64 a < to_u64 b.
Proof.
  intros Ha Hb H. unfold bytes_lt, historyJobIDKey, Encode2Binary in H. cbn [app] in H. rewrite be_bytes_cmp in H; [exact H | |];
    change (256 ^ Z.of_nat 8) with two64; [exact (to_u64_range a) | exact (to_u64_range b)].
Qed.
Lemma ss_map {A B} (f : A -> B) (R : B -> B -> Prop) l : StronglySorted (fun a b => R (f a) (f b)) l -> StronglySorted R (map f l).
Proof. induction 1; cbn; constructor; auto. apply Forall_map. assumption. Qed.
Lemma ss_unmap {A B} (f : A -> B) (R : B -> B -> Prop) l : StronglySorted R (map f l) -> StronglySorted (fun a b => R (f a) (f b)) l.
Proof. induction l as [|x l IH]; intros H; [constructor|]. cbn in H. inversion H; subst. constructor; [auto|]. apply Forall_map. assumption. Qed.
Lemma hist_list A S : mrep S A -> exists l, lists_hist A l /\ map snd (entries (s_hash S ddlJobHistoryKey)) = map (jenc (jjob J)) l /\ Forall wf_job l.
Proof.
  intros R. destruct (mr_hist J _ _ R) as [T Al]. set (h := s_hash S ddlJobHistoryKey) in *.
  destruct (list_of historyJobIDKey (jenc (jjob J)) j_id (m_hist A) (entries h)) as (l & L1 & L2 & L3 & L4).
  - apply inj_hist.
  - intros i x E. destruct (tab_wf T _ _ E) as [Hi [_ Ei]]. auto.
  - apply keys_nodup.
  - intros f v I. apply get_in in I. destruct (Al _ _ I) as (i & Hi & ->). rewrite (tab_get T i Hi) in I. destruct (m_hist A i) as [x|] eqn:E; [|discriminate]. exists i, x. cbn in I. split; [reflexivity|]. split; [exact E | congruence].
  - intros i x E. apply get_in. destruct (tab_wf T _ _ E) as [Hi _]. rewrite (tab_get T i Hi), E. reflexivity.
  - exists l. assert (W : Forall wf_job l) by (apply Forall_forall; intros x I; apply L4 in I; destruct (tab_wf T _ _ I) as [_ [W _]]; exact W).
    split; [split; [|exact L4] | split; [exact L1 | exact W]].
    pose proof (sorted_ss (entries h) (sm_ok h)) as SS. apply (ss_map fst bytes_lt) in SS. rewrite L2 in SS. apply ss_unmap in SS. clear -SS W.
    induction SS as [|x l SS IH F]; [constructor|]. inversion W; subst. constructor; [apply IH; assumption|]. rewrite Forall_forall in *. intros y I. apply hkey_lt; [apply H1 | apply H2; exact I | apply F; exact I].
Qed.
Lemma GetAllHistoryDDLJobs_r A S : mrep S A -> exists l, lists_hist A l /\ sread P (GetAllHistoryDDLJobs J) S (jreads l).
Proof.
  intros R. destruct (hist_list A S R) as (l & L & E & W). exists l. split; [exact L|]. unfold GetAllHistoryDDLJobs. eapply sread_bind; [apply HGetAll_read|]. rewrite E. apply decode_jobs_r. exact W.
Qed.
Lemma GetLastNHistoryDDLJobs_r A S n : mrep S A -> exists l, lists_hist A l /\ sread P (GetLastNHistoryDDLJobs J n) S (jreads (firstn (Z.to_nat n) (rev l))).
Proof.
  intros R. destruct (hist_list A S R) as (l & L & E & W). exists l. split; [exact L|]. unfold GetLastNHistoryDDLJobs. eapply sread_bind; [apply HGetNDesc_read|].
  rewrite <- firstn_map, map_rev, E, <- map_rev, firstn_map. apply decode_jobs_r. apply Forall_forall. intros x I.
  rewrite Forall_forall in W. apply W. apply in_rev. rewrite <- (firstn_skipn (Z.to_nat n) (rev l)). apply in_or_app. left. exact I.
Qed.

(** * Reorganization handles *)
Lemma inj_start : inj64 reorgJobStartHandle.
Proof. intros a b. apply hkey_inj. Qed.
Lemma inj_end : inj64 reorgJobEndHandle.
Proof. intros a b. apply ekey_inj. Qed.
Lemma with_same_end A f : meq (with_end (with_start A f) (m_end A)) (with_start A f).
Proof. repeat split. Qed.
Lemma with_same_start A f : meq (with_end (with_start A (m_start A)) f) (with_end A f).
Proof. repeat split. Qed.
Lemma tab_set_other {X} h key (e : X -> bytes) (W : Z -> X -> Prop) (m : Z -> option X) k v : (forall i, is_i64 i -> key i <> k) -> tab h key e W m -> tab (set h k v) key e W m.
Proof. intros N. apply tab_frame. intros i Hi. apply get_set_ne. apply N. exact Hi. Qed.
Lemma ReorgStart_d A i s : is_i64 i -> is_i64 s -> mdo 1 A (UpdateDDLReorgStartHandle i s) (Ok tt) (with_start A (zupd (m_start A) i (Some s))).
Proof.
  intros Hi Hs. eapply mdo_meq; [apply with_same_end|]. intros S R. eexists. split; [apply HSet_spec, GP|]. rewrite hput_nonempty by apply human_nonempty. apply mrep_reorg; [exact R|].
  destruct (mr_reorg J _ _ R) as [A1 A2]. split; [apply tab_set; [apply inj_start | assumption..]|]. apply tab_set_other; [|exact A2]. intros j Hj E. symmetry in E. revert E. apply skey_ekey; assumption.
Qed.
Lemma ReorgEnd_d A i s : is_i64 i -> is_i64 s -> mdo 1 A (HSet P ddlJobReorgKey (reorgJobEndHandle i) (Encode2Human s)) (Ok tt) (with_end A (zupd (m_end A) i (Some s))).
Proof.
  intros Hi Hs. eapply mdo_meq; [apply with_same_start|]. intros S R. eexists. split; [apply HSet_spec, GP|]. rewrite hput_nonempty by apply human_nonempty. apply mrep_reorg; [exact R|].
  destruct (mr_reorg J _ _ R) as [A1 A2]. split; [|apply tab_set; [apply inj_end | assumption..]]. apply tab_set_other; [|exact A1]. intros j Hj. apply skey_ekey; assumption.
Qed.
Lemma UpdateDDLReorgHandle_d A i s e : is_i64 i -> is_i64 s -> is_i64 e -> mdo 2 A (UpdateDDLReorgHandle i s e) (Ok tt) (with_end (with_start A (zupd (m_start A) i (Some s))) (zupd (m_end A) i (Some e))).
Proof. intros Hi Hs He. apply (mdo_bind J 1 1 A (with_start A (zupd (m_start A) i (Some s))) _ _ _ tt); [lia | lia | apply ReorgStart_d; assumption | apply (ReorgEnd_d (with_start A _)); assumption]. Qed.
Lemma RemoveDDLReorgHandle_d A i : is_i64 i -> mdo 0 A (RemoveDDLReorgHandle i) (Ok tt) (with_end (with_start A (zupd (m_start A) i None)) (zupd (m_end A) i None)).
Proof.
  intros Hi. apply (mdo_bind J 0 0 A (with_start A (zupd (m_start A) i None)) _ _ _ tt); [lia | lia | |].
  - eapply mdo_meq; [apply with_same_end|]. intros S R. eexists. split; [apply HDel_spec, GP|]. cbn [hdels fold_left]. apply mrep_reorg; [exact R|].
    destruct (mr_reorg J _ _ R) as [A1 A2]. split; [apply tab_del; [apply inj_start | assumption..]|]. apply tab_delk; [|exact A2]. intros j Hj E. symmetry in E. revert E. apply skey_ekey; assumption.
  - eapply mdo_meq; [apply (with_same_start (with_start A _))|]. intros S R. eexists. split; [apply HDel_spec, GP|]. cbn [hdels fold_left]. apply mrep_reorg; [exact R|].
    destruct (mr_reorg J _ _ R) as [A1 A2]. split; [|apply tab_del; [apply inj_end | assumption..]]. apply tab_delk; [|exact A1]. intros j Hj. apply skey_ekey; assumption.
Qed.
Lemma GetDDLReorgHandle_r A i : is_i64 i -> mgets A (GetDDLReorgHandle i) (match m_start A i, m_end A i with Some s, Some e => Ok (s, e) | _, _ => Err ErrKeyNotFound end).
Proof.
  intros Hi S R. destruct (mr_reorg J _ _ R) as [A1 A2]. unfold GetDDLReorgHandle.
  pose proof (HGetInt64_read P ddlJobReorgKey (reorgJobStartHandle i) S) as X. rewrite (tab_get A1 i Hi) in X.
  pose proof (HGetInt64_read P ddlJobReorgKey (reorgJobEndHandle i) S) as Y. rewrite (tab_get A2 i Hi) in Y.
  destruct (m_start A i) as [s|] eqn:E1; cbn [option_map int_res] in X; [|apply sread_bind_err; exact X].
  rewrite as_int_enc in X by exact (proj2 (tab_wf A1 _ _ E1)). eapply sread_bind; [exact X|].
  destruct (m_end A i) as [e|] eqn:E2; cbn [option_map int_res] in Y; [|apply sread_bind_err; exact Y].
  rewrite as_int_enc in Y by exact (proj2 (tab_wf A2 _ _ E2)). eapply sread_bind; [exact Y | apply sread_ret].
Qed.
End WithJson.
