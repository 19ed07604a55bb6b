(** Proofs about the model of Dml.v. *)
From Verif Require Import Bytes SMap Memcmp MemcmpProofs KeyModel Provider ProviderProofs World UtilTxn Sequence Model Schema DocTxn DocKeys Dml.
From Coq Require Import Sorted.

(** * zmap *)
Definition zsorted (m : zmap) : Prop := StronglySorted (fun a b => fst a < fst b) m.
Lemma zget_in m k v : zsorted m -> (zget m k = Some v <-> In (k, v) m).
Proof.
  induction 1 as [|[j w] m S IH F]; cbn [zget In]; [split; [discriminate|tauto]|]. rewrite Forall_forall in F.
  destruct (k =? j) eqn:E.
  - apply Z.eqb_eq in E. subst j. split; [intros X; inversion X; auto|]. intros [X|X]; [congruence|]. apply F in X. cbn in X. lia.
  - apply Z.eqb_neq in E. rewrite IH. split; [auto|]. intros [X|X]; [congruence | exact X].
Qed.
Lemma zget_lt m k : Forall (fun b => k < fst b) m -> zget m k = None.
Proof. induction 1 as [|[j w] m L F IH]; cbn [zget]; [reflexivity|]. cbn in L. destruct (k =? j) eqn:E; [apply Z.eqb_eq in E; lia | exact IH]. Qed.
Lemma zset_forall (P : Z -> Prop) m k v : P k -> Forall (fun b => P (fst b)) m -> Forall (fun b => P (fst b)) (zset m k v).
Proof.
  intros Pk. induction 1 as [|[j w] m L F IH]; cbn [zset]; [repeat constructor; exact Pk|].
  destruct (k <? j); [constructor; [exact Pk | constructor; assumption]|]. destruct (k =? j); constructor; assumption.
Qed.
Lemma zdel_forall (P : Z -> Prop) m k : Forall (fun b => P (fst b)) m -> Forall (fun b => P (fst b)) (zdel m k).
Proof. induction 1 as [|[j w] m L F IH]; cbn [zdel]; [constructor|]. destruct (k =? j); [exact F | constructor; assumption]. Qed.
Lemma zset_sorted m k v : zsorted m -> zsorted (zset m k v).
Proof.
  induction 1 as [|[j w] m S IH F]; cbn [zset]; [repeat constructor|].
  destruct (k <? j) eqn:E1; [|destruct (k =? j) eqn:E2].
  - apply Z.ltb_lt in E1. constructor; [constructor; assumption|]. constructor; [exact E1|]. eapply Forall_impl; [|exact F]. intros b Hb. cbn [fst] in *. lia.
  - apply Z.eqb_eq in E2. subst j. constructor; assumption.
  - apply Z.ltb_ge in E1. apply Z.eqb_neq in E2. constructor; [exact IH|]. apply (zset_forall (fun x => j < x)); [lia | exact F].
Qed.
Lemma zdel_sorted m k : zsorted m -> zsorted (zdel m k).
Proof.
  induction 1 as [|[j w] m S IH F]; cbn [zdel]; [constructor|]. destruct (k =? j); [exact S|]. constructor; [exact IH|]. apply (zdel_forall (fun x => j < x)); exact F.
Qed.
Lemma zget_zset m k v j : zget (zset m k v) j = if j =? k then Some v else zget m j.
Proof.
  induction m as [|[i w] m IH]; cbn [zset zget]; [reflexivity|].
  destruct (k <? i) eqn:E1; [|destruct (k =? i) eqn:E2]; cbn [zget].
  - reflexivity.
  - apply Z.eqb_eq in E2. subst i. destruct (j =? k); reflexivity.
  - rewrite IH. destruct (j =? i) eqn:E3; [|reflexivity]. apply Z.eqb_eq in E3. subst i. replace (j =? k) with false; [reflexivity|]. symmetry. rewrite Z.eqb_sym. exact E2.
Qed.
Lemma zget_zdel m k j : zsorted m -> zget (zdel m k) j = if j =? k then None else zget m j.
Proof.
  induction 1 as [|[i w] m S IH F]; cbn [zdel zget]; [destruct (j =? k); reflexivity|].
  destruct (k =? i) eqn:E2; cbn [zget].
  - apply Z.eqb_eq in E2. subst i. destruct (j =? k) eqn:E3; [|reflexivity]. apply Z.eqb_eq in E3. subst j. apply zget_lt. exact F.
  - rewrite IH. destruct (j =? i) eqn:E3; [|reflexivity]. apply Z.eqb_eq in E3. subst i. replace (j =? k) with false; [reflexivity|]. symmetry. rewrite Z.eqb_sym. exact E2.
Qed.

(** * Stores that hold documents *)
(** [D] is what the collections of a store contain. Under the prefix of a collection there are
    nothing but documents with an int64 id, stored without expiry. Nothing is said of other keys. *)
Record rep (M : smap ent) (D : dstore) : Prop := {
  r_doc : forall c did, is_i64 c -> is_i64 did -> get M (docKey c did) = option_map mk (zget (D c) did);
  r_only : forall c k e, is_i64 c -> get M k = Some e -> has_prefix k (docPrefix c) = true -> exists did, is_i64 did /\ k = docKey c did;
  r_map : forall c, zsorted (D c) /\ Forall (fun p => is_i64 (fst p)) (D c)
}.
Lemma rep_empty : rep empty (fun _ => []).
Proof. split; [reflexivity | discriminate | intros c; split; constructor]. Qed.
Lemma docKey_good c d : good_key (docKey c d).
Proof. unfold good_key. rewrite docKey_app. reflexivity. Qed.
Lemma docKey_nonempty c d : docKey c d <> [].
Proof. apply good_key_nonempty, docKey_good. Qed.
Lemma dupd_eq D c m : dupd D c m c = m.
Proof. unfold dupd. rewrite Z.eqb_refl. reflexivity. Qed.
Lemma dupd_ne D c m j : j <> c -> dupd D c m j = D j.
Proof. intros H. unfold dupd. apply Z.eqb_neq in H. rewrite H. reflexivity. Qed.
Lemma rep_ext M D D' : (forall c, D c = D' c) -> rep M D -> rep M D'.
Proof. intros E [R1 R2 R3]. split; [intros; rewrite <- E; apply R1; assumption | exact R2 | intros c; rewrite <- E; apply R3]. Qed.
Lemma rep_same M D c : rep M D -> rep M (dupd D c (D c)).
Proof. apply rep_ext. intros j. unfold dupd. destruct (j =? c) eqn:E; [apply Z.eqb_eq in E; subst; reflexivity | reflexivity]. Qed.
Lemma rep_set M D c did v : rep M D -> is_i64 c -> is_i64 did -> rep (set M (docKey c did) (mk v)) (dupd D c (zset (D c) did v)).
Proof.
  intros [R1 R2 R3] Hc Hd. split.
  - intros c' d' Hc' Hd'. destruct (list_eq_dec byte_eq_dec (docKey c' d') (docKey c did)) as [E|N].
    + apply docKey_inj in E; try assumption. destruct E as [-> ->]. rewrite get_set_eq, dupd_eq, zget_zset, Z.eqb_refl. reflexivity.
    + rewrite get_set_ne by exact N. rewrite R1 by assumption. destruct (Z.eq_dec c' c) as [->|Nc]; [|rewrite dupd_ne by exact Nc; reflexivity].
      rewrite dupd_eq, zget_zset. replace (d' =? did) with false; [reflexivity|]. symmetry. apply Z.eqb_neq. congruence.
  - intros c' k e Hc'. rewrite get_set. destruct (bytes_eqb k (docKey c did)) eqn:E; [|apply R2; exact Hc'].
    apply bytes_eqb_eq in E. subst k. intros _ P. apply docKey_has_prefix in P; try assumption. subst c'. eauto.
  - intros c'. destruct (Z.eq_dec c' c) as [->|Nc]; [|rewrite dupd_ne by exact Nc; apply R3]. rewrite dupd_eq.
    split; [apply zset_sorted, R3 | apply (zset_forall is_i64); [exact Hd | apply R3]].
Qed.
Lemma rep_del M D c did : rep M D -> is_i64 c -> is_i64 did -> rep (del M (docKey c did)) (dupd D c (zdel (D c) did)).
Proof.
  intros [R1 R2 R3] Hc Hd. split.
  - intros c' d' Hc' Hd'. destruct (list_eq_dec byte_eq_dec (docKey c' d') (docKey c did)) as [E|N].
    + apply docKey_inj in E; try assumption. destruct E as [-> ->]. rewrite get_del_eq, dupd_eq, zget_zdel, Z.eqb_refl by apply R3. reflexivity.
    + rewrite get_del_ne by exact N. rewrite R1 by assumption. destruct (Z.eq_dec c' c) as [->|Nc]; [|rewrite dupd_ne by exact Nc; reflexivity].
      rewrite dupd_eq, zget_zdel by apply R3. replace (d' =? did) with false; [reflexivity|]. symmetry. apply Z.eqb_neq. congruence.
  - intros c' k e Hc'. rewrite get_del. destruct (bytes_eqb k (docKey c did)) eqn:E; [discriminate|apply R2; exact Hc'].
  - intros c'. destruct (Z.eq_dec c' c) as [->|Nc]; [|rewrite dupd_ne by exact Nc; apply R3]. rewrite dupd_eq.
    split; [apply zdel_sorted, R3 | apply (zdel_forall is_i64); apply R3].
Qed.
(** writes to other keys do not matter *)
Lemma rep_frame M M' D : rep M D -> (forall c k, is_i64 c -> has_prefix k (docPrefix c) = true -> get M' k = get M k) -> rep M' D.
Proof.
  intros [R1 R2 R3] F. split; [|  |exact R3].
  - intros c d Hc Hd. rewrite (F c) by (try apply docKey_has_prefix; auto). apply R1; assumption.
  - intros c k e Hc G P. rewrite (F c) in G by assumption. apply (R2 c k e); assumption.
Qed.
Definition doc_entry (c : Z) (p : Z * bytes) : bytes * ent := (docKey c (fst p), mk (snd p)).
Lemma doc_entries_sorted c m : is_i64 c -> zsorted m -> Forall (fun p => is_i64 (fst p)) m -> sortedb (map (doc_entry c) m) = true.
Proof.
  intros Hc S. induction S as [|[d v] m S IH F]; intros I; cbn [map]; [reflexivity|]. inversion I as [|? ? I1 I2]. subst. cbn [fst] in *.
  unfold doc_entry at 1. cbn [fst snd]. apply sortedb_cons. split; [|apply IH; exact I2].
  intros k' v' H. apply in_map_iff in H. destruct H as ([d' w] & E & H). inversion E. subst. rewrite Forall_forall in F, I2.
  specialize (F _ H). specialize (I2 _ H). cbn [fst] in *. unfold bytes_lt. rewrite docKey_cmp by assumption. rewrite Z.compare_refl. cbn [then_cmp]. exact F.
Qed.
Lemma rep_entries M D c : rep M D -> is_i64 c ->
  filter (fun p => has_prefix (fst p) (docPrefix c)) (entries M) = map (doc_entry c) (D c).
Proof.
  intros R Hc. destruct (r_map _ _ R c) as [S I]. apply sorted_ext.
  - apply sorted_filter, sm_ok.
  - apply doc_entries_sorted; assumption.
  - intros k e. rewrite filter_In, in_map_iff. cbn [fst]. split.
    + intros [H P]. apply get_in in H. destruct (r_only _ _ R c k e Hc H P) as (did & Hd & ->).
      rewrite (r_doc _ _ R) in H by assumption. destruct (zget (D c) did) as [v|] eqn:G; [|discriminate]. cbn [option_map] in H. inversion H. subst e.
      exists (did, v). split; [reflexivity|]. apply zget_in; assumption.
    + intros ([did v] & E & H). unfold doc_entry in E. cbn [fst snd] in E. apply (f_equal fst) in E as Ek. apply (f_equal snd) in E as Ee. cbn [fst snd] in Ek, Ee. subst k e.
      rewrite Forall_forall in I. pose proof (I _ H) as Hd. cbn [fst] in Hd. split; [|apply docKey_has_prefix; auto].
      apply get_in. rewrite (r_doc _ _ R) by assumption. apply zget_in in H; [|exact S]. rewrite H. reflexivity.
Qed.

(** * The operations *)
Lemma spec_scan_cons {St} w k e l (fn : bytes -> ent -> St -> Tx (St * bool)) s M s1 (b : bool) M1 r M2 :
  spec w (fn k e s) M (Ok (s1, b)) M1 -> spec w (if b then scan_loop l fn s1 else ret s1) M1 r M2 ->
  spec w (scan_loop ((k, e) :: l) fn s) M r M2.
Proof.
  intros H1 H2 t O V. destruct (H1 (add_read k t)) as (t1 & E1 & O1 & V1 & K1); [apply okt_add_read; exact O | rewrite view_add_read; exact V|].
  destruct (H2 t1 O1 V1) as (t2 & E2 & O2 & V2 & K2). exists t2. cbn [scan_loop]. unfold bind. rewrite E1. cbn [fst snd]. split; [|split; [exact O2|split; [exact V2|]]].
  - destruct b; exact E2.
  - eapply keeps_trans; [apply keeps_add_read|]. eapply keeps_trans; eassumption.
Qed.
Lemma spec_map {A B} w (m : Tx A) (f : A -> B) M r M' : spec w m M r M' ->
  spec w (x <- m ;; ret (f x)) M (match r with Ok a => Ok (f a) | Err e => Err e | Panic => Panic end) M'.
Proof.
  intros H. destruct r as [a|e|]; [eapply spec_bind; [exact H | apply spec_ret] | apply spec_bind_err; exact H | apply spec_bind_panic; exact H].
Qed.
Lemma has_get M D c did : rep M D -> is_i64 c -> is_i64 did -> (match get M (docKey c did) with Some _ => true | None => false end) = has (D c) did.
Proof. intros R Hc Hd. rewrite (r_doc _ _ R) by assumption. unfold has. destruct (zget (D c) did); reflexivity. Qed.
Lemma spec_exists w M D c did : rep M D -> is_i64 c -> is_i64 did -> spec w (texists (docKey c did)) M (Ok (has (D c) did)) M.
Proof. intros R Hc Hd. rewrite <- (has_get M D c did R Hc Hd). apply spec_texists, docKey_nonempty. Qed.
Lemma spec_doc_get w M D c did : rep M D -> is_i64 c -> is_i64 did ->
  spec w (doc_get c did) M (match zget (D c) did with Some v => Ok v | None => Err ErrDocNotFound end) M.
Proof.
  intros R Hc Hd. unfold doc_get. eapply spec_try; [apply spec_tget, docKey_nonempty | |].
  - destruct (get M (docKey c did)); discriminate.
  - rewrite (r_doc _ _ R) by assumption. destruct (zget (D c) did) as [v|]; cbn; [apply spec_ret | apply spec_fail].
Qed.
Lemma spec_doc_getmany w M D c dids : rep M D -> is_i64 c -> Forall is_i64 dids -> forall acc,
  spec w (doc_getmany c dids acc) M (Ok (acc ++ fst (zgetmany (D c) dids), snd (zgetmany (D c) dids))) M.
Proof.
  intros R Hc. induction 1 as [|did dids Hd F IH]; intros acc; cbn [doc_getmany zgetmany].
  - cbn [fst snd]. rewrite app_nil_r. apply spec_ret.
  - eapply spec_try; [apply spec_doc_get; eassumption | |].
    + destruct (zget (D c) did); discriminate.
    + destruct (zget (D c) did) as [v|].
      * specialize (IH (acc ++ [v])). destruct (zgetmany (D c) dids) as [l e]. cbn [fst snd] in *. rewrite <- app_assoc in IH. exact IH.
      * cbn [fst snd]. rewrite app_nil_r. apply spec_ret.
Qed.
Lemma scan_values w l : forall acc M,
  spec w (scan_loop l (fun (_ : bytes) e (a : list bytes) => ret (a ++ [e_val e], true)) acc) M (Ok (acc ++ map (fun p => e_val (snd p)) l)) M.
Proof.
  induction l as [|[k e] l IH]; intros acc M; cbn [map snd].
  - rewrite app_nil_r. apply spec_ret.
  - eapply spec_scan_cons; [apply spec_ret|]. cbn [fst snd]. specialize (IH (acc ++ [e_val e]) M). rewrite <- app_assoc in IH. exact IH.
Qed.
Lemma scan_count w l : forall n M,
  spec w (scan_loop l (fun (_ : bytes) (_ : ent) n => ret (S n, true)) n) M (Ok (n + length l)%nat) M.
Proof.
  induction l as [|[k e] l IH]; intros n M; cbn [length].
  - rewrite Nat.add_0_r. apply spec_ret.
  - eapply spec_scan_cons; [apply spec_ret|]. cbn beta iota. specialize (IH (S n) M). replace (n + S (length l))%nat with (S n + length l)%nat by lia. exact IH.
Qed.
Definition del_cb (k : bytes) (e : ent) (s : nat * option err) : Tx (nat * option err * bool) :=
  try (tdel k) (fun r => match r with Ok _ => ret ((S (fst s), None), true) | Err e => ret ((fst s, Some e), false) | Panic => gopanic end).
Lemma scan_delete l : Forall (fun p => good_key (fst p)) l -> forall n M,
  spec true (scan_loop l del_cb (n, None)) M (Ok ((n + length l)%nat, None)) (fold_left (fun m p => del m (fst p)) l M).
Proof.
  induction 1 as [|[k e] l G F IH]; intros n M; cbn [length fold_left].
  - rewrite Nat.add_0_r. apply spec_ret.
  - cbn [fst] in *. eapply spec_scan_cons.
    + unfold del_cb. eapply spec_try; [apply spec_tdel; exact G | discriminate | apply spec_ret].
    + cbn beta iota. specialize (IH (S n) (del M k)). replace (n + S (length l))%nat with (S n + length l)%nat by lia. exact IH.
Qed.
Lemma get_fold_del {V W} (l : list (bytes * W)) : forall (m : smap V) k, get (fold_left (fun m p => del m (fst p)) l m) k =
  if existsb (fun p => bytes_eqb k (fst p)) l then None else get m k.
Proof.
  induction l as [|[j w] l IH]; intros m k; cbn [fold_left existsb]; [reflexivity|]. rewrite IH. cbn [fst]. rewrite get_del.
  destruct (bytes_eqb k j); cbn [orb]; [destruct (existsb _ l); reflexivity | reflexivity].
Qed.
Lemma rep_delall M D c : rep M D -> is_i64 c ->
  rep (fold_left (fun m p => del m (fst p)) (map (doc_entry c) (D c)) M) (dupd D c []).
Proof.
  intros R Hc. destruct (r_map _ _ R c) as [S I].
  assert (E : forall k, existsb (fun p => bytes_eqb k (fst p)) (map (doc_entry c) (D c)) = true <-> exists did v, zget (D c) did = Some v /\ is_i64 did /\ k = docKey c did).
  { intros k. rewrite existsb_exists. split.
    - intros (p & H & E). apply in_map_iff in H. destruct H as ([d v] & <- & H). apply bytes_eqb_eq in E. cbn [doc_entry fst snd] in E. rewrite Forall_forall in I.
      exists d, v. split; [apply zget_in; assumption|]. split; [apply (I _ H) | exact E].
    - intros (d & v & H & _ & ->). apply zget_in in H; [|exact S]. exists (doc_entry c (d, v)). split; [apply in_map; exact H | apply bytes_eqb_refl]. }
  split.
  - intros c' d' Hc' Hd'. rewrite get_fold_del. destruct (existsb _ _) eqn:X.
    + apply E in X. destruct X as (d & v & G & Hd & K). apply docKey_inj in K; try assumption. destruct K as [-> ->]. rewrite dupd_eq. reflexivity.
    + rewrite (r_doc _ _ R) by assumption. destruct (Z.eq_dec c' c) as [->|N]; [|rewrite dupd_ne by exact N; reflexivity].
      rewrite dupd_eq. destruct (zget (D c) d') as [v|] eqn:G; [|reflexivity]. exfalso. apply not_true_iff_false in X. apply X, E. eauto.
  - intros c' k e Hc'. rewrite get_fold_del. destruct (existsb _ _); [discriminate|]. apply (r_only _ _ R). exact Hc'.
  - intros c'. destruct (Z.eq_dec c' c) as [->|N]; [rewrite dupd_eq; split; constructor | rewrite dupd_ne by exact N; apply (r_map _ _ R)].
Qed.
Definition op_ids (o : docop) : list Z :=
  match o with OUpdate d _ | OUpsert d _ | OInsert d _ | ODelete d | OGet d => [d] | OGetMany l => l | _ => [] end.
Lemma op_ids_one o d : op_ids o = [d] -> Forall is_i64 (op_ids o) -> is_i64 d.
Proof. intros E F. rewrite E in F. inversion F. assumption. Qed.
(** every operation but GetDidRange meets its specification; [w]: the transaction may write *)
Lemma op_spec w M D c o : rep M D -> is_i64 c -> Forall is_i64 (op_ids o) -> o <> ORange -> (op_writes o = true -> w = true) ->
  exists M', spec w (op_tx c o) M (fst (doc_spec (D c) o)) M' /\ rep M' (dupd D c (snd (doc_spec (D c) o))) /\
    (forall k, has_prefix k (docPrefix c) = false -> get M' k = get M k).
Proof.
  intros R Hc F NR W. pose proof (rep_same M D c R) as R0.
  assert (SET : forall d v, is_i64 d -> (forall k, has_prefix k (docPrefix c) = false -> get (set M (docKey c d) (mk v)) k = get M k)).
  { intros d v Hd k P. apply get_set_ne. intros ->. assert (X : has_prefix (docKey c d) (docPrefix c) = true) by (apply docKey_has_prefix; auto). congruence. }
  assert (DEL : forall d, is_i64 d -> (forall k, has_prefix k (docPrefix c) = false -> get (del M (docKey c d)) k = get M k)).
  { intros d Hd k P. apply get_del_ne. intros ->. assert (X : has_prefix (docKey c d) (docPrefix c) = true) by (apply docKey_has_prefix; auto). congruence. }
  destruct o as [did v|did v|did v|did|did|dids| | | |]; cbn [op_ids] in F; try (assert (Hd : is_i64 did) by (inversion F; assumption)); cbn [op_tx doc_spec fst snd].
  - rewrite (W eq_refl). destruct (has (D c) did) eqn:H.
    + eexists. split; [|split; [apply (rep_set M D c did v R Hc Hd) | apply SET; exact Hd]]. eapply (spec_bind) with (a := (true, false)); [|apply spec_ret]. unfold doc_update.
      eapply spec_bind; [apply (spec_exists _ M D c did R Hc Hd)|]. rewrite H. eapply spec_bind; [apply spec_tset, docKey_good | apply spec_ret].
    + exists M. split; [|split; [exact R0 | reflexivity]]. eapply (spec_bind) with (a := (false, false)); [|apply spec_ret]. unfold doc_update.
      eapply spec_bind; [apply (spec_exists _ M D c did R Hc Hd)|]. rewrite H. apply spec_ret.
  - rewrite (W eq_refl). eexists. split; [|split; [apply (rep_set M D c did v R Hc Hd) | apply SET; exact Hd]]. eapply (spec_bind) with (a := (has (D c) did, negb (has (D c) did))); [|apply spec_ret]. unfold doc_update.
    eapply spec_bind; [apply (spec_exists _ M D c did R Hc Hd)|]. cbn beta iota. eapply spec_bind; [apply spec_tset, docKey_good | apply spec_ret].
  - rewrite (W eq_refl). destruct (has (D c) did) eqn:H; cbn [fst snd].
    + exists M. split; [|split; [exact R0 | reflexivity]]. apply spec_bind_err. unfold doc_update.
      eapply spec_bind; [apply (spec_exists _ M D c did R Hc Hd)|]. rewrite H. apply spec_fail.
    + eexists. split; [|split; [apply (rep_set M D c did v R Hc Hd) | apply SET; exact Hd]]. eapply spec_bind; [|apply spec_ret]. unfold doc_update.
      eapply spec_bind; [apply (spec_exists _ M D c did R Hc Hd)|]. rewrite H. eapply spec_bind; [apply spec_tset, docKey_good | apply spec_ret].
  - rewrite (W eq_refl). eexists. split; [|split; [apply (rep_del M D c did R Hc Hd) | apply DEL; exact Hd]]. eapply spec_bind; [apply spec_tdel, docKey_good | apply spec_ret].
  - exists M. split; [|split; [exact R0 | reflexivity]]. eapply spec_eq; [apply spec_map, (spec_doc_get _ M D c did R Hc Hd) | | reflexivity]. destruct (zget (D c) did); reflexivity.
  - exists M. split; [|split; [exact R0 | reflexivity]]. eapply spec_eq; [apply spec_map, (spec_doc_getmany _ M D c dids R Hc F) | | reflexivity].
    destruct (zgetmany (D c) dids) as [l e]. reflexivity.
  - exists M. split; [|split; [exact R0 | reflexivity]]. eapply spec_bind; [|apply spec_ret]. unfold doc_getall. eapply spec_tscan; [apply scan_prefix|].
    rewrite (rep_entries M D c R Hc). eapply spec_eq; [apply scan_values | | reflexivity]. cbn [app]. rewrite map_map. reflexivity.
  - exists M. split; [|split; [exact R0 | reflexivity]]. eapply spec_bind; [|apply spec_ret]. unfold doc_count. eapply spec_tscan; [apply scan_prefix|].
    rewrite (rep_entries M D c R Hc). eapply spec_eq; [apply scan_count | | reflexivity]. rewrite map_length. reflexivity.
  - rewrite (W eq_refl). eexists. split; [|split; [apply (rep_delall M D c R Hc)|]].
    + eapply spec_bind; [|apply spec_ret]. unfold doc_deleteall. eapply spec_bind.
      * eapply spec_tscan; [apply scan_prefix|]. rewrite (rep_entries M D c R Hc). apply (scan_delete (map (doc_entry c) (D c))).
        apply Forall_forall. intros p H. apply in_map_iff in H. destruct H as (q & <- & _). apply docKey_good.
      * cbn [fst snd plus]. rewrite map_length. apply spec_ret.
    + intros k P. rewrite get_fold_del. replace (existsb _ _) with false; [reflexivity|]. symmetry. apply not_true_iff_false. intros X. apply existsb_exists in X.
      destruct X as (p & H & E). apply in_map_iff in H. destruct H as (q & <- & H). apply bytes_eqb_eq in E. subst k. cbn [doc_entry fst] in P.
      destruct (r_map _ _ R c) as [_ I]. rewrite Forall_forall in I. assert (X : has_prefix (docKey c (fst q)) (docPrefix c) = true) by (apply docKey_has_prefix; auto). congruence.
  - congruence.
Qed.
