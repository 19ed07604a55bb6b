(** Refinement lemmas for the hash operations. *)
From Verif Require Import Bytes SMap Provider ProviderProofs Memcmp MemcmpProofs Numeric KvUtil KeyModel Struct StructProofs.

Implicit Types M : smap ent.

(** ** metadata *)
Lemma hmeta_decode n : 0 <= n < two63 -> DecodeFromBinary (hmeta_val n) = Some n.
Proof.
  intros H. unfold hmeta_val. assert (R : is_u64 n) by (unfold is_u64; rewrite two64_val, two63_val in *; lia).
  rewrite to_u64_id by exact R. apply DecodeFromBinary_enc. exact R.
Qed.
Lemma hsize_nonneg h : 0 <= hsize h.
Proof. unfold hsize. lia. Qed.
Lemma hsize_zero h : hsize h = 0 <-> h = empty.
Proof.
  unfold hsize. rewrite <- entries_nil_iff. destruct (entries h); cbn [length]; [tauto|]. split; [lia | discriminate].
Qed.
Lemma filter_const {A} (l : list A) : filter (fun _ => true) l = l.
Proof. induction l as [|x l IH]; [reflexivity|]. cbn. rewrite IH. reflexivity. Qed.
Lemma hsize_set h f v : hsize (set h f v) = match get h f with Some _ => hsize h | None => hsize h + 1 end.
Proof.
  unfold hsize. pose proof (cnt_set (fun _ => true) h f v (fun _ _ _ => eq_refl)) as H. unfold cnt in H.
  rewrite !filter_const in H. rewrite H. destruct (get h f); lia.
Qed.
Lemma hsize_del h f : hsize (del h f) = match get h f with Some _ => hsize h - 1 | None => hsize h end.
Proof.
  unfold hsize. pose proof (cnt_del (fun _ => true) h f) as H. unfold cnt in H.
  rewrite !filter_const in H. rewrite H. destruct (get h f) as [v|] eqn:G; [|lia].
  apply get_in in G. destruct (entries h); [destruct G|]. cbn [length]. lia.
Qed.

Definition meta_of (z : Z) : option ent := if z =? 0 then None else Some (mk (hmeta_val z)).
Lemma loadHashMeta_w w P W k z : W (KHM k) = meta_of z -> 0 <= z < two63 ->
  wspec w P (loadHashMeta P k) W (if z =? 0 then Err ErrKeyNotFound else Ok z) W.
Proof.
  intros E R. unfold loadHashMeta. pose proof (wspec_tget w P W (KHM k) I) as X. rewrite E in X. unfold meta_of in X. cbn [ek] in X.
  destruct (z =? 0); [apply wspec_bind_err; exact X|]. eapply wspec_bind; [exact X|]. cbn [e_val mk].
  rewrite hmeta_decode by exact R. rewrite to_i64_id by (unfold is_i64; rewrite two63_val in *; lia). apply wspec_ret.
Qed.
(** how the wanted contents change when one hash changes *)
Lemma want_put_hash S Ls k h d : want (put_hash S k h) Ls d =
  match d with
  | KHD j f => if bytes_eqb j k then option_map mk (get h f) else want S Ls d
  | KHM j => if bytes_eqb j k then meta_of (hsize h) else want S Ls d
  | _ => want S Ls d
  end.
Proof. destruct d; cbn [want put_hash s_str s_hash s_list]; try reflexivity; destruct (bytes_eqb k0 k); reflexivity. Qed.
Lemma bounds_put_hash n n' S Ls k h : bounds n S Ls -> n <= n' -> hsize h <= n' -> bounds n' (put_hash S k h) Ls.
Proof.
  intros [B1 B2] L H. split.
  - intros j. specialize (B1 j). cbn [put_hash s_list]. lia.
  - intros j. specialize (B2 j). cbn [put_hash s_hash]. destruct (bytes_eqb j k); lia.
Qed.
Lemma put_hash_same S k : sst_eq (put_hash S k (s_hash S k)) S.
Proof.
  split; [reflexivity|]. split; [|reflexivity]. intros j. cbn [put_hash s_hash]. destruct (bytes_eqb j k) eqn:E; [|reflexivity].
  apply bytes_eqb_eq in E. subst. reflexivity.
Qed.
Lemma bounds_hash_range n S Ls k : bounds n S Ls -> n < two63 -> 0 <= hsize (s_hash S k) < two63.
Proof. intros [_ B] L. specialize (B k). pose proof (hsize_nonneg (s_hash S k)). lia. Qed.

(** ** point reads *)
Lemma HGet_read P k f S : sread P (HGet P k f) S (match get (s_hash S k) f with Some v => Ok v | None => Err ErrKeyNotFound end).
Proof.
  apply sread_of. intros w Ls n M B L St. unfold HGet. pose proof (get_stores w P M _ (KHD k f) I St) as X. cbn [ek want] in X.
  destruct (get (s_hash S k) f); exact X.
Qed.
Lemma parse_int_read P v S : sread P (parse_int v) S (match as_int v with Some n => Ok n | None => Err EDecode end).
Proof. intros w n M R L. apply parse_int_spec. Qed.
Lemma HGetInt64_read P k f S : sread P (HGetInt64 P k f) S (int_res (get (s_hash S k) f)).
Proof.
  unfold HGetInt64. pose proof (HGet_read P k f S) as X. destruct (get (s_hash S k) f); cbn [int_res].
  - eapply sread_bind; [exact X|]. apply parse_int_read.
  - apply sread_bind_err. exact X.
Qed.
Lemma wspec_run {A} w P (m : Tx A) W r W' M : wspec w P m W r W' -> stores P M W -> exists M', spec w m M r M'.
Proof. intros H R. destruct (H M R) as (M' & X & _). eauto. Qed.
Lemma loadHashMeta_spec w P M W k z : W (KHM k) = meta_of z -> 0 <= z < two63 -> stores P M W ->
  spec w (loadHashMeta P k) M (if z =? 0 then Err ErrKeyNotFound else Ok z) M.
Proof.
  intros E R St. unfold loadHashMeta. pose proof (get_stores w P M W (KHM k) I St) as X. rewrite E in X. unfold meta_of in X. cbn [ek] in X.
  destruct (z =? 0); [apply spec_bind_err; exact X|]. eapply spec_bind; [exact X|]. cbn [e_val mk].
  rewrite hmeta_decode by exact R. rewrite to_i64_id by (unfold is_i64; rewrite two63_val in *; lia). apply spec_ret.
Qed.
Lemma HLen_read P k S : sread P (HLen P k) S (Ok (hsize (s_hash S k))).
Proof.
  apply sread_of. intros w Ls n M B L St. pose proof (bounds_hash_range n S Ls k B L) as R.
  unfold HLen. eapply spec_try; [apply (loadHashMeta_spec w P M _ k (hsize (s_hash S k)) eq_refl R St) | destruct (hsize _ =? 0); discriminate|].
  destruct (hsize (s_hash S k) =? 0) eqn:E; [|apply spec_ret]. apply Z.eqb_eq in E. rewrite E. apply spec_ret.
Qed.

(** ** updates *)
(** the effect of storing a value: an empty value for a field that is absent is dropped *)
Definition hput (h : smap bytes) (f v : bytes) : smap bytes :=
  match get h f, v with None, [] => h | _, _ => set h f v end.
Lemma hput_size h f v : hsize (hput h f v) <= hsize h + 1.
Proof.
  unfold hput. destruct (get h f) eqn:E; [rewrite hsize_set, E; lia|]. destruct v; [lia|]. rewrite hsize_set, E. lia.
Qed.
Lemma hput_nonempty h f v : v <> [] -> hput h f v = set h f v.
Proof. intros H. unfold hput. destruct (get h f); [reflexivity|]. destruct v; [congruence | reflexivity]. Qed.
Lemma hput_present h f v x : get h f = Some x -> hput h f v = set h f v.
Proof. intros H. unfold hput. rewrite H. reflexivity. Qed.

Lemma updateHash_spec {A} P k f (fn : option bytes -> result (bytes * A)) S : good_prefix P ->
  fn (match get (s_hash S k) f with Some v => nil_of v | None => None end) <> Panic ->
  let r := fn (match get (s_hash S k) f with Some v => nil_of v | None => None end) in
  sspec P 1 (updateHash P k f fn) S (match r with Ok (_, a) => Ok a | Err e => Err e | Panic => Panic end)
    (match r with Ok (v, _) => put_hash S k (hput (s_hash S k) f v) | _ => S end).
Proof.
  intros G NP r. apply sspec_of; [exact G|]. intros Ls n B L.
  pose proof (bounds_hash_range n S Ls k B ltac:(lia)) as R.
  assert (Bn : forall v, bounds (n + 1) (put_hash S k (hput (s_hash S k) f v)) Ls).
  { intros v. pose proof (hput_size (s_hash S k) f v). destruct B as [B1 B2]. pose proof (B2 k).
    eapply bounds_put_hash; [split; eassumption | lia | lia]. }
  assert (Bs : bounds (n + 1) S Ls).
  { destruct B as [B1 B2]. split; [intros j; specialize (B1 j); lia | intros j; specialize (B2 j); lia]. }
  exists Ls. exists (want (match r with Ok (v, _) => put_hash S k (hput (s_hash S k) f v) | _ => S end) Ls).
  split; [|split; [reflexivity | destruct r as [[v a]|e|]; [apply Bn | exact Bs | exact Bs]]].
  unfold updateHash. pose proof (wspec_tget true P (want S Ls) (KHD k f) I) as X. cbn [ek want] in X.
  eapply wspec_try; [exact X | destruct (get (s_hash S k) f); discriminate |]. clear X.
  destruct (get (s_hash S k) f) as [old|] eqn:Eo; cbn [option_map e_val mk].
  - fold r in NP. fold r. destruct r as [[v a]|e|] eqn:Er; [|apply wspec_fail|congruence].
    unfold bequal. destruct (bytes_eqb old v) eqn:Ev.
    + apply bytes_eqb_eq in Ev. subst v. rewrite (hput_present _ f old old Eo), set_same by exact Eo.
      eapply wspec_eq; [apply wspec_ret | reflexivity|]. intros d V. rewrite want_put_hash.
      destruct d; try reflexivity; destruct (bytes_eqb k0 k) eqn:E; try reflexivity; apply bytes_eqb_eq in E; subst; reflexivity.
    + eapply wspec_eq; [eapply wspec_bind; [apply (wspec_tset P _ (KHD k f)); [exact G | exact I] | cbn [negb]; apply wspec_ret] | reflexivity|].
      intros d V. rewrite want_put_hash, (hput_present _ f v old Eo). unfold kupd.
      destruct d; cbn [kind_eqb]; try reflexivity.
      * destruct (bytes_eqb k0 k) eqn:E; [|reflexivity]. apply bytes_eqb_eq in E. subst. cbn [want]. rewrite hsize_set, Eo. reflexivity.
      * destruct (bytes_eqb k0 k) eqn:E; [|reflexivity]. apply bytes_eqb_eq in E. subst. cbn [andb want]. rewrite get_set.
        destruct (bytes_eqb f0 f); reflexivity.
  - fold r in NP. fold r. change (nil_of []) with (@None bytes). fold r. destruct r as [[v a]|e|] eqn:Er; [|apply wspec_fail|congruence].
    unfold bequal. destruct (bytes_eqb [] v) eqn:Ev.
    + apply bytes_eqb_eq in Ev. subst v. unfold hput. rewrite Eo.
      eapply wspec_eq; [apply wspec_ret | reflexivity|]. intros d V. rewrite want_put_hash.
      destruct d; try reflexivity; destruct (bytes_eqb k0 k) eqn:E; try reflexivity; apply bytes_eqb_eq in E; subst; reflexivity.
    + assert (Nv : v <> []) by (intros ->; rewrite bytes_eqb_refl in Ev; discriminate). rewrite (hput_nonempty _ f v Nv).
      eapply wspec_eq.
      * eapply wspec_bind; [apply (wspec_tset P _ (KHD k f)); [exact G | exact I]|]. cbn [negb].
        eapply wspec_bind.
        { eapply wspec_try; [eapply (loadHashMeta_w true P _ k (hsize (s_hash S k))); [kd; reflexivity | exact R] | destruct (hsize _ =? 0); discriminate|].
          instantiate (2 := hsize (s_hash S k)). destruct (hsize (s_hash S k) =? 0) eqn:E; [|apply wspec_ret]. apply Z.eqb_eq in E. rewrite E. apply wspec_ret. }
        eapply wspec_bind; [apply (wspec_tset P _ (KHM k)); [exact G | exact I] | apply wspec_ret].
      * reflexivity.
      * intros d V. rewrite want_put_hash. unfold kupd. destruct d; cbn [kind_eqb]; try reflexivity.
        -- destruct (bytes_eqb k0 k) eqn:E; [|reflexivity]. rewrite hsize_set, Eo. unfold meta_of.
           destruct (Z.eqb_spec (hsize (s_hash S k) + 1) 0); [lia|].
           destruct B as [_ B2]. specialize (B2 k). rewrite to_i64_id by (unfold is_i64; lia). reflexivity.
        -- destruct (bytes_eqb k0 k) eqn:E; [|reflexivity]. apply bytes_eqb_eq in E. subst. cbn [andb want]. rewrite get_set.
           destruct (bytes_eqb f0 f); reflexivity.
Qed.
Lemma HSet_spec P k f v S : good_prefix P -> sspec P 1 (HSet P k f v) S (Ok tt) (put_hash S k (hput (s_hash S k) f v)).
Proof. intros G. apply (updateHash_spec P k f (fun _ => Ok (v, tt)) S G). discriminate. Qed.
Lemma HSetInt64_spec P k f v S : good_prefix P -> sspec P 1 (HSetInt64 P k f v) S (Ok tt) (put_hash S k (set (s_hash S k) f (Encode2Human v))).
Proof. intros G. rewrite <- (hput_nonempty (s_hash S k) f (Encode2Human v)) by apply human_nonempty. apply HSet_spec. exact G. Qed.

(** increments: a missing field, or one holding the empty value, counts as 0 *)
Definition hinc_res (old : option bytes) (step : Z) : result Z :=
  match old with
  | None | Some [] => Ok step
  | Some v => match as_int v with Some n => Ok (to_i64 (n + step)) | None => Err EDecode end
  end.
Lemma HInc_spec P k f step S : good_prefix P -> is_i64 step ->
  sspec P 1 (HInc P k f step) S (hinc_res (get (s_hash S k) f) step)
    (match hinc_res (get (s_hash S k) f) step with Ok n => put_hash S k (set (s_hash S k) f (Encode2Human n)) | _ => S end).
Proof.
  intros G R. unfold HInc. eapply sspec_eq; [apply updateHash_spec; [exact G|] | |].
  - destruct (get (s_hash S k) f) as [v|]; [|discriminate]. destruct v as [|c v]; [discriminate|]. unfold nil_of.
    destruct (DecodeFromHuman (Some (c :: v))); discriminate.
  - destruct (get (s_hash S k) f) as [[|c v]|]; cbn [nil_of hinc_res]; rewrite ?Z.add_0_l, ?(to_i64_id step R); try reflexivity.
    unfold as_int. destruct (DecodeFromHuman (Some (c :: v))) as [n|e] eqn:E.
    + pose proof (DecodeFromHuman_range _ _ E) as Rn. apply DecodeFromHuman_spec in E. destruct E as [E _]. rewrite E.
      unfold is_i64 in Rn. replace ((- two63 <=? n) && (n <? two63)) with true by lia. reflexivity.
    + destruct (decimal (c :: v)) as [n|] eqn:D; [|reflexivity].
      destruct ((- two63 <=? n) && (n <? two63)) eqn:Rn; [|reflexivity].
      assert (X : DecodeFromHuman (Some (c :: v)) = NOk n) by (apply DecodeFromHuman_spec; split; [exact D | unfold is_i64; lia]). congruence.
  - destruct (get (s_hash S k) f) as [[|c v]|] eqn:Eg; cbn [nil_of hinc_res]; rewrite ?Z.add_0_l, ?(to_i64_id step R).
    + rewrite hput_nonempty by apply human_nonempty. repeat split.
    + unfold as_int. destruct (DecodeFromHuman (Some (c :: v))) as [n|e] eqn:E.
      * pose proof (DecodeFromHuman_range _ _ E) as Rn. apply DecodeFromHuman_spec in E. destruct E as [E _]. rewrite E.
        unfold is_i64 in Rn. replace ((- two63 <=? n) && (n <? two63)) with true by lia.
        rewrite hput_nonempty by apply human_nonempty. repeat split.
      * destruct (decimal (c :: v)) as [n|] eqn:D; [|repeat split].
        destruct ((- two63 <=? n) && (n <? two63)) eqn:Rn; [|repeat split].
        assert (X : DecodeFromHuman (Some (c :: v)) = NOk n) by (apply DecodeFromHuman_spec; split; [exact D | unfold is_i64; lia]). congruence.
    + rewrite hput_nonempty by apply human_nonempty. repeat split.
Qed.

(** ** deleting fields *)
Definition hdels (h : smap bytes) (fs : list bytes) : smap bytes := fold_left del fs h.
Lemma hdels_size h fs : hsize (hdels h fs) <= hsize h.
Proof.
  revert h. induction fs as [|f fs IH]; intros h; cbn [hdels fold_left]; [lia|]. specialize (IH (del h f)). unfold hdels in IH.
  rewrite hsize_del in IH. destruct (get h f); lia.
Qed.
(** data keys of hash k hold h, everything else as in W *)
Definition with_hash (W : skind -> option ent) (k : bytes) (h : smap bytes) : skind -> option ent :=
  fun d => match d with KHD j f => if bytes_eqb j k then option_map mk (get h f) else W d | _ => W d end.
Lemma hdel_loop_w P k fs : good_prefix P -> forall W h c, hsize h <= c < two63 -> 
  wspec true P (hdel_loop P k fs c) (with_hash W k h) (Ok (c - (hsize h - hsize (hdels h fs)))) (with_hash W k (hdels h fs)).
Proof.
  intros G. induction fs as [|f fs IH]; intros W h c Hc; cbn [hdel_loop hdels fold_left].
  - replace (c - (hsize h - hsize h)) with c by lia. apply wspec_ret.
  - pose proof (wspec_tget true P (with_hash W k h) (KHD k f) I) as X. cbn [ek with_hash] in X. rewrite bytes_eqb_refl in X.
    eapply wspec_try; [exact X | destruct (get h f); discriminate|]. clear X. destruct (get h f) as [v|] eqn:E; cbn [option_map].
    + eapply wspec_bind; [apply (wspec_tdel P _ (KHD k f)); [exact G | exact I]|].
      pose proof (hsize_nonneg h) as N0. assert (N1 : hsize (del h f) = hsize h - 1) by (rewrite hsize_del, E; reflexivity).
      pose proof (hsize_nonneg (del h f)) as N2.
      rewrite to_i64_id by (unfold is_i64; rewrite two63_val in *; lia).
      eapply wspec_start; [|eapply wspec_eq; [apply (IH W (del h f) (c - 1)); lia | | reflexivity]].
      * intros d V. unfold kupd. destruct d; cbn [kind_eqb with_hash]; try reflexivity. destruct (bytes_eqb k0 k) eqn:Ek; [|reflexivity].
        cbn [andb]. rewrite get_del. destruct (bytes_eqb f0 f); reflexivity.
      * f_equal. unfold hdels in *. lia.
    + rewrite del_none by exact E. apply IH. exact Hc.
Qed.
Lemma HDel_spec P k fs S : good_prefix P -> sspec P 0 (HDel P k fs) S (Ok tt) (put_hash S k (hdels (s_hash S k) fs)).
Proof.
  intros G. apply sspec_of; [exact G|]. intros Ls n B L. rewrite Z.add_0_r in *.
  pose proof (bounds_hash_range n S Ls k B L) as R. set (h := s_hash S k) in *.
  exists Ls, (want (put_hash S k (hdels h fs)) Ls). split; [|split; [reflexivity|]].
  2:{ pose proof (hdels_size h fs). destruct B as [B1 B2]. pose proof (B2 k). eapply bounds_put_hash; [split; eassumption | lia | unfold h in *; lia]. }
  unfold HDel. eapply wspec_try; [apply (loadHashMeta_w true P _ k (hsize h)); [reflexivity | exact R] | destruct (hsize h =? 0); discriminate|].
  destruct (hsize h =? 0) eqn:E.
  - apply Z.eqb_eq in E. eapply wspec_eq; [apply wspec_ret | reflexivity|]. intros d V. rewrite want_put_hash.
    assert (Hh : hdels h fs = h).
    { apply hsize_zero in E. rewrite E. clear. induction fs as [|f fs IH]; [reflexivity|]. cbn [hdels fold_left]. rewrite del_none by reflexivity. exact IH. }
    rewrite Hh. destruct d; try reflexivity; destruct (bytes_eqb k0 k) eqn:Ek; try reflexivity; apply bytes_eqb_eq in Ek; subst; reflexivity.
  - eapply wspec_start with (W0 := with_hash (want S Ls) k h).
    { intros d V. destruct d; cbn [with_hash]; try reflexivity. destruct (bytes_eqb k0 k) eqn:Ek; [|reflexivity]. apply bytes_eqb_eq in Ek. subst. reflexivity. }
    eapply wspec_bind; [apply (hdel_loop_w P k fs G (want S Ls) h (hsize h)); lia|].
    replace (hsize h - (hsize h - hsize (hdels h fs))) with (hsize (hdels h fs)) by lia.
    pose proof (hsize_nonneg (hdels h fs)) as N.
    destruct (hsize (hdels h fs) <=? 0) eqn:E0.
    + eapply wspec_eq; [apply (wspec_tdel P _ (KHM k)); [exact G | exact I] | reflexivity|].
      intros d V. rewrite want_put_hash. unfold kupd, meta_of. replace (hsize (hdels h fs) =? 0) with true by lia.
      destruct d; cbn [kind_eqb with_hash]; try reflexivity.
    + eapply wspec_eq; [apply (wspec_tset P _ (KHM k)); [exact G | exact I] | reflexivity|].
      intros d V. rewrite want_put_hash. unfold kupd, meta_of. replace (hsize (hdels h fs) =? 0) with false by lia.
      destruct d; cbn [kind_eqb with_hash]; try reflexivity.
Qed.

(** ** iteration *)
Definition kvof (P k : bytes) (p : bytes * bytes) : bytes * ent := (ek P (KHD k (fst p)), mk (snd p)).
Lemma sorted_map_kvof P k l : sortedb l = true -> sortedb (map (kvof P k) l) = true.
Proof.
  induction l as [|[f v] l IH]; intros S; [reflexivity|]. apply sortedb_cons in S. destruct S as [S1 S2]. cbn [map].
  unfold kvof at 1. cbn [fst snd]. apply sortedb_cons. split; [|apply IH; exact S2].
  intros k' v' H. apply in_map_iff in H. destruct H as ([f' x] & E & H). unfold kvof in E. cbn [fst snd] in E. inversion E. subst.
  change (bytes_cmp (ek P (KHD k f)) (ek P (KHD k f')) = Lt). rewrite hd_cmp. exact (S1 _ _ H).
Qed.
(** the stored entries with the hash's data prefix are exactly its fields, in field order *)
Lemma hash_entries P M S Ls k : stores P M (want S Ls) ->
  filter (fun p => has_prefix (fst p) (hashDataKeyPrefix P k)) (entries M) = map (kvof P k) (entries (s_hash S k)).
Proof.
  intros [W O]. apply sorted_ext; [apply sorted_filter, sm_ok | apply sorted_map_kvof, sm_ok|].
  intros key e. rewrite filter_In. cbn [fst]. split.
  - intros [H Hp]. apply get_in in H. assert (HP : has_prefix key P = true).
    { rewrite hdp_form in Hp. apply has_prefix_spec in Hp. destruct Hp as [s ->]. rewrite <- app_assoc. apply has_prefix_app. }
    destruct (O key e H HP) as (d & V & ->). apply hdp_prefix in Hp. destruct Hp as [f ->].
    rewrite (W _ V) in H. cbn [want] in H. destruct (get (s_hash S k) f) as [v|] eqn:E; [|discriminate]. cbn in H. inversion H. subst.
    apply in_map_iff. exists (f, v). split; [reflexivity|]. apply get_in. exact E.
  - intros H. apply in_map_iff in H. destruct H as ([f v] & E & H). unfold kvof in E. cbn [fst snd] in E. inversion E. subst. clear E.
    split; [|apply (proj2 (hdp_prefix P k (KHD k f))); eauto]. apply get_in. change (get M (ek P (KHD k f)) = Some (mk v)). rewrite (W (KHD k f) I). cbn [want]. apply get_in in H. rewrite H. reflexivity.
Qed.
Lemma spec_scan_cons {St A} w k e l (fn : bytes -> ent -> St -> Tx (St * bool)) s M r M' (c : St -> Tx A) :
  spec w (bind (r <- fn k e s ;; if snd r then scan_loop l fn (fst r) else ret (fst r)) c) M r M' ->
  spec w (bind (scan_loop ((k, e) :: l) fn s) c) M r M'.
Proof.
  intros H t O V. destruct (H (add_read k t)) as (t' & E & O' & V' & K); [apply okt_add_read; exact O | rewrite view_add_read; exact V|].
  exists t'. split; [exact E|]. split; [exact O'|]. split; [exact V'|]. eapply keeps_trans; [apply keeps_add_read | exact K].
Qed.
Lemma spec_scan_cons0 {St} w k e l (fn : bytes -> ent -> St -> Tx (St * bool)) s M r M' :
  spec w (r <- fn k e s ;; if snd r then scan_loop l fn (fst r) else ret (fst r)) M r M' ->
  spec w (scan_loop ((k, e) :: l) fn s) M r M'.
Proof.
  intros H t O V. destruct (H (add_read k t)) as (t' & E & O' & V' & K); [apply okt_add_read; exact O | rewrite view_add_read; exact V|].
  exists t'. split; [exact E|]. split; [exact O'|]. split; [exact V'|]. eapply keeps_trans; [apply keeps_add_read | exact K].
Qed.
Lemma iter_cb_hit {St} P k f v (fn : bytes -> bytes -> St -> Tx (St * bool)) st :
  iter_cb P (hashDataKeyPrefix P k) fn (ek P (KHD k f)) (mk v) st = (r <- fn f v (fst st) ;; ret ((fst r, None), snd r)).
Proof.
  unfold iter_cb, HasPrefix. rewrite (proj2 (hdp_prefix P k (KHD k f))) by eauto. cbn [negb]. rewrite decodeHashDataKey_ek. reflexivity.
Qed.
Definition lim_ok (n : option Z) (acc : nat) : Prop := match n with None => True | Some n' => Z.of_nat acc < n' end.
Definition lim_take {A} (n : option Z) (acc : nat) (l : list A) : list A :=
  match n with None => l | Some n' => firstn (Z.to_nat n' - acc) l end.
Lemma iter_pairs w P k n rest M : (forall x, In x rest -> has_prefix (fst x) (hashDataKeyPrefix P k) = false) ->
  forall h acc, lim_ok n (length acc) ->
  spec w (scan_loop (map (kvof P k) h ++ rest) (iter_cb P (hashDataKeyPrefix P k) (cb_pairs n)) (acc, None)) M
    (Ok (acc ++ lim_take n (length acc) h, None)) M.
Proof.
  intros Hr. induction h as [|[f v] h IH]; intros acc Hn.
  - cbn [map app]. replace (lim_take n (length acc) []) with (@nil (bytes * bytes)) by (destruct n; [cbn [lim_take]; rewrite firstn_nil|]; reflexivity).
    rewrite app_nil_r. destruct rest as [|[k0 e0] rest]; [apply spec_ret|]. apply spec_scan_cons0.
    unfold iter_cb at 1, HasPrefix. pose proof (Hr (k0, e0) (or_introl eq_refl)) as Hx. cbn [fst] in Hx. rewrite Hx. cbn [negb].
    eapply spec_bind; [apply spec_ret|]. cbn [fst snd]. apply spec_ret.
  - cbn [map app]. unfold kvof at 1. cbn [fst snd]. apply spec_scan_cons0. rewrite iter_cb_hit. cbn [fst].
    eapply spec_bind; [eapply spec_bind; [apply spec_ret | apply spec_ret]|]. cbn [fst snd].
    assert (La : length (acc ++ [(f, v)]) = S (length acc)) by (rewrite app_length; cbn [length]; lia).
    destruct n as [n'|]; cbn [lim_ok lim_take] in *.
    + destruct (Z.of_nat (length (acc ++ [(f, v)])) <? n') eqn:E.
      * eapply spec_eq; [apply IH; apply Z.ltb_lt in E; lia | | reflexivity]. f_equal. f_equal. rewrite <- app_assoc. f_equal. cbn [app].
        replace (Z.to_nat n' - length acc)%nat with (S (Z.to_nat n' - length (acc ++ [(f, v)]))) by (rewrite La in *; lia). reflexivity.
      * eapply spec_eq; [apply spec_ret | | reflexivity]. f_equal. f_equal. f_equal.
        replace (Z.to_nat n' - length acc)%nat with 1%nat by (rewrite La in *; lia). reflexivity.
    + eapply spec_eq; [apply IH; exact I | | reflexivity]. f_equal. f_equal. rewrite <- app_assoc. reflexivity.
Qed.
Lemma iter_keys w P k M : forall h acc,
  spec w (scan_loop (map (kvof P k) h) (iter_cb P (hashDataKeyPrefix P k) cb_keys) (acc, None)) M (Ok (acc ++ map fst h, None)) M.
Proof.
  induction h as [|[f v] h IH]; intros acc; cbn [map].
  - rewrite app_nil_r. apply spec_ret.
  - unfold kvof at 1. cbn [fst snd]. apply spec_scan_cons0. rewrite iter_cb_hit. cbn [fst].
    eapply spec_bind; [eapply spec_bind; [apply spec_ret | apply spec_ret]|]. cbn [fst snd].
    eapply spec_eq; [apply IH | | reflexivity]. rewrite <- app_assoc. reflexivity.
Qed.
Lemma HKeys_read P k S : sread P (HKeys P k) S (Ok (map fst (entries (s_hash S k)))).
Proof.
  apply sread_of. intros w Ls n M B L St. unfold HKeys, iterateHash. eapply spec_bind.
  - eapply spec_tscan; [apply scan_prefix|]. rewrite (hash_entries P M S Ls k St). apply (iter_keys w P k M _ []).
  - apply spec_ret.
Qed.
Lemma HGetAll_read P k S : sread P (HGetAll P k) S (Ok (entries (s_hash S k))).
Proof.
  apply sread_of. intros w Ls n M B L St. unfold HGetAll, iterateHash. eapply spec_bind.
  - eapply spec_tscan; [apply scan_prefix|]. rewrite (hash_entries P M S Ls k St), <- (app_nil_r (map _ _)).
    apply (iter_pairs w P k None [] M ltac:(intros x []) _ []). exact I.
  - apply spec_ret.
Qed.
Lemma HGetN_read P k n S : sread P (HGetN P k n) S (Ok (firstn (Z.to_nat n) (entries (s_hash S k)))).
Proof.
  apply sread_of. intros w Ls b M B L St. unfold HGetN. destruct (n <=? 0) eqn:E.
  - replace (Z.to_nat n) with 0%nat by lia. apply spec_ret.
  - unfold iterateHash. eapply spec_bind.
    + eapply spec_tscan; [apply scan_prefix|]. rewrite (hash_entries P M S Ls k St), <- (app_nil_r (map _ _)).
      apply (iter_pairs w P k (Some n) [] M ltac:(intros x []) _ []). cbn [lim_ok length]. lia.
    + cbn [length lim_take app]. rewrite Nat.sub_0_r. apply spec_ret.
Qed.

(** the reverse iteration starts just above the hash's data keys and leaves them at the first key
    without the prefix *)
Lemma hdp_PrefixNext P k : PrefixNext (hashDataKeyPrefix P k) = P ++ enc k ++ [z2b 105].
Proof.
  rewrite hdp_form. replace (P ++ enc k ++ [HashData]) with ((P ++ enc k) ++ HashData :: repeat (z2b 255) 0) by (cbn [repeat]; rewrite <- app_assoc; reflexivity).
  rewrite PrefixNext_form by reflexivity. rewrite <- app_assoc. reflexivity.
Qed.
Lemma not_next P k d : ek P d <> P ++ enc k ++ [z2b 105].
Proof.
  rewrite ek_form. intros H. apply app_inv_head in H. apply enc_inj_app in H. destruct H as [_ H].
  pose proof (f_equal (fun l => match l with x :: _ => b2z x | [] => 0 end) H) as Ht; cbv beta iota in Ht.
  destruct d; cbn [ktag] in Ht; vm_compute in Ht; discriminate.
Qed.
Lemma hdp_range P k key : bytes_le (hashDataKeyPrefix P k) key -> bytes_lt key (PrefixNext (hashDataKeyPrefix P k)) -> has_prefix key (hashDataKeyPrefix P k) = true.
Proof.
  rewrite hdp_form. replace (P ++ enc k ++ [HashData]) with ((P ++ enc k) ++ HashData :: repeat (z2b 255) 0) by (cbn [repeat]; rewrite <- app_assoc; reflexivity).
  intros H1 H2. destruct (proj1 (PrefixNext_range (P ++ enc k) HashData 0 key eq_refl) (conj H1 H2)) as [H|(m & Hm & _)]; [exact H | lia].
Qed.
Lemma sorted_split (l : list (bytes * ent)) (p : bytes) (f : bytes * ent -> bool) : sortedb l = true ->
  (forall x, In x l -> f x = true -> bytes_le p (fst x)) ->
  filter (fun x => f x || bytes_ltb (fst x) p) l = filter (fun x => bytes_ltb (fst x) p) l ++ filter f l.
Proof.
  induction l as [|[k e] l IH]; intros S H; [reflexivity|]. apply sortedb_cons in S. destruct S as [S1 S2]. cbn [filter fst].
  specialize (IH S2 ltac:(intros x Hx; apply H; right; exact Hx)).
  destruct (bytes_ltb k p) eqn:E.
  - assert (F : f (k, e) = false).
    { destruct (f (k, e)) eqn:F; [|reflexivity]. specialize (H (k, e) (or_introl eq_refl) F). cbn [fst] in H. apply bytes_ltb_lt in E.
      exfalso. apply (bytes_lt_irrefl k). eapply bytes_lt_le_trans; eassumption. }
    rewrite F. cbn [orb]. rewrite IH. reflexivity.
  - rewrite orb_false_r. destruct (f (k, e)); [|exact IH].
    assert (N : filter (fun x => bytes_ltb (fst x) p) l = []).
    { assert (forall x, In x l -> bytes_ltb (fst x) p = false).
      { intros [k' e'] Hx. cbn [fst]. apply bytes_ltb_nlt. apply bytes_ltb_nlt in E. specialize (S1 _ _ Hx).
        eapply bytes_le_trans; [exact E|]. apply bytes_le_lteq; left. exact S1. }
      clear -H0. induction l as [|x l IH]; [reflexivity|]. cbn. rewrite H0 by (left; reflexivity). apply IH. intros y Hy. apply H0. right. exact Hy. }
    rewrite N in *. cbn [app] in *. rewrite IH. reflexivity.
Qed.
Lemma scan_reverse_hash P M S Ls k : stores P M (want S Ls) ->
  exists rest, (forall x, In x rest -> has_prefix (fst x) (hashDataKeyPrefix P k) = false) /\
  scan_ok (ScanOpt true [] (PrefixNext (hashDataKeyPrefix P k))) M (map (kvof P k) (rev (entries (s_hash S k))) ++ rest).
Proof.
  intros St. set (dp := hashDataKeyPrefix P k). exists (rev (filter (fun x => bytes_ltb (fst x) dp) (entries M))). split.
  - intros x Hx. apply in_rev in Hx. apply filter_In in Hx. destruct Hx as [_ Hx]. destruct (has_prefix (fst x) dp) eqn:E; [|reflexivity].
    apply prefix_ge in E. apply bytes_ltb_lt in Hx. exfalso. apply (bytes_lt_irrefl (fst x)). eapply bytes_lt_le_trans; eassumption.
  - intros clamp. rewrite map_rev, <- (hash_entries P M S Ls k St). fold dp. rewrite <- rev_app_distr.
    rewrite <- (sorted_split (entries M) dp (fun p => has_prefix (fst p) dp)); [|apply sm_ok | intros x _ Hx; apply prefix_ge; exact Hx].
    unfold scan_items, seek_key. cbn [so_rev so_prefix so_offset].
    assert (NE : PrefixNext dp <> []) by (unfold dp; rewrite hdp_PrefixNext; intros H; apply app_eq_nil in H; destruct H as [_ H]; apply app_eq_nil in H; destruct H; discriminate).
    destruct (PrefixNext dp) as [|c off] eqn:Eo; [congruence|].
    assert (F : forall b : bool, bytes_ltb (c :: off) [] = false) by reflexivity. rewrite (F true), andb_false_r.
    rewrite (takeWhile_all (fun p : bytes * ent => has_prefix (fst p) [])) by reflexivity.
    rewrite (dropWhile_filter _ (fun x y => bytes_lt (fst y) (fst x))).
    2:{ intros x y H H'. apply bytes_ltb_lt in H'. apply bytes_ltb_lt. eapply bytes_lt_trans; eassumption. }
    2:{ intros i j x y Hij Hi Hj. eapply sorted_nth_rev; [apply (sm_ok M) | exact Hij | exact Hi | exact Hj]. }
    rewrite <- rev_filter. f_equal. apply filter_ext_in. intros [key e] Hx. cbn [fst]. rewrite leb_negb_ltb.
    destruct (bytes_ltb key dp) eqn:E1.
    + rewrite orb_true_r. apply bytes_leb_le. apply bytes_ltb_lt in E1. apply bytes_le_lteq; left. eapply bytes_lt_trans; [exact E1|]. rewrite <- Eo. apply PrefixNext_gt.
    + rewrite orb_false_r. apply bytes_ltb_nlt in E1. destruct (has_prefix key dp) eqn:E2.
      * apply bytes_leb_le. apply bytes_le_lteq; left; rewrite <- Eo. apply prefix_lt_PrefixNext; [|exact E2].
        intros Fa. unfold dp in Fa. rewrite hdp_form in Fa. unfold all_ff in Fa. rewrite Forall_forall in Fa. specialize (Fa HashData).
        assert (X : In HashData (P ++ enc k ++ [HashData])) by (apply in_or_app; right; apply in_or_app; right; left; reflexivity).
        specialize (Fa X). vm_compute in Fa. discriminate.
      * destruct (bytes_leb key (c :: off)) eqn:E3; [|reflexivity]. exfalso. apply bytes_leb_le in E3. rewrite <- Eo in E3.
        destruct (bytes_ltb key (PrefixNext dp)) eqn:E4.
        { apply bytes_ltb_lt in E4. pose proof (hdp_range P k key E1 E4) as X. fold dp in X. congruence. }
        apply bytes_ltb_nlt in E4. assert (EQ : key = PrefixNext dp) by (apply bytes_le_antisym; assumption).
        unfold dp in EQ. rewrite hdp_PrefixNext in EQ. apply get_in in Hx. destruct St as [_ O].
        destruct (O key e Hx) as (d & _ & Ed); [rewrite EQ; apply has_prefix_app|]. rewrite Ed in EQ. exact (not_next P k d EQ).
Qed.
Lemma HGetNDesc_read P k n S : sread P (HGetNDesc P k n) S (Ok (firstn (Z.to_nat n) (rev (entries (s_hash S k))))).
Proof.
  apply sread_of. intros w Ls b M B L St. unfold HGetNDesc. destruct (n <=? 0) eqn:E.
  - replace (Z.to_nat n) with 0%nat by lia. apply spec_ret.
  - unfold iterateReverseHash. destruct (scan_reverse_hash P M S Ls k St) as (rest & Hr & Hs). eapply spec_bind.
    + eapply spec_tscan; [exact Hs|]. apply (iter_pairs w P k (Some n) rest M Hr _ []). cbn [lim_ok length]. lia.
    + cbn [length lim_take app]. rewrite Nat.sub_0_r. apply spec_ret.
Qed.

(** ** HClear *)
Definition clear_cb (P k f v : bytes) (_ : option err) : Tx (option err * bool) :=
  try (tdel (encodeHashDataKey P k f)) (fun d => match d with Ok _ => ret (None, true) | Err e => ret (Some e, false) | Panic => gopanic end).
Lemma spec_clear_loop P k : good_prefix P -> forall l W, 
  wspec true P (scan_loop (map (kvof P k) l) (iter_cb P (hashDataKeyPrefix P k) (clear_cb P k)) (None, None)) W
    (Ok (None, None)) (fold_left (fun W p => kupd W (KHD k (fst p)) None) l W).
Proof.
  intros G. induction l as [|[f v] l IH]; intros W; cbn [map fold_left fst]; [apply wspec_ret|].
  unfold kvof at 1. cbn [fst snd]. intros M R.
  assert (X : wspec true P (r <- iter_cb P (hashDataKeyPrefix P k) (clear_cb P k) (ek P (KHD k f)) (mk v) (None, None) ;;
     if snd r then scan_loop (map (kvof P k) l) (iter_cb P (hashDataKeyPrefix P k) (clear_cb P k)) (fst r) else ret (fst r)) W
     (Ok (None, None)) (fold_left (fun W p => kupd W (KHD k (fst p)) None) l (kupd W (KHD k f) None))).
  { rewrite iter_cb_hit. eapply (wspec_bind true P _ _ W ((None, None), true) (kupd W (KHD k f) None)); [|cbn [fst snd]; apply IH].
    eapply (wspec_bind true P _ _ W (None, true)); [|cbn [fst snd]; apply wspec_ret]. unfold clear_cb. cbn [fst].
    eapply wspec_try; [apply (wspec_tdel P W (KHD k f)); [exact G | exact I] | discriminate | apply wspec_ret]. }
  destruct (X M R) as (M' & X1 & X2 & X3). exists M'. split; [apply spec_scan_cons0; exact X1 | auto].
Qed.
Lemma fold_clear k l : forall W d, fold_left (fun W p => kupd W (KHD k (fst p)) None) l W d =
  match d with KHD j f => if bytes_eqb j k && existsb (fun p : bytes * bytes => bytes_eqb f (fst p)) l then None else W d | _ => W d end.
Proof.
  induction l as [|[f v] l IH]; intros W d; cbn [fold_left existsb fst].
  - destruct d; try reflexivity. rewrite andb_false_r. reflexivity.
  - rewrite IH. unfold kupd. destruct d; cbn [kind_eqb]; try reflexivity.
    destruct (bytes_eqb k0 k); cbn [andb]; [|reflexivity]. destruct (bytes_eqb f0 f); cbn [orb]; [|reflexivity].
    destruct (existsb _ l); reflexivity.
Qed.
Lemma HClear_spec P k S : good_prefix P -> sspec P 0 (HClear P k) S (Ok tt) (put_hash S k empty).
Proof.
  intros G. apply sspec_of; [exact G|]. intros Ls n B L. rewrite Z.add_0_r in *.
  pose proof (bounds_hash_range n S Ls k B L) as R. set (h := s_hash S k) in *.
  exists Ls, (want (put_hash S k empty) Ls). split; [|split; [reflexivity|]].
  2:{ eapply bounds_put_hash; [exact B | lia|]. pose proof (proj2 B k). unfold h in *. cbn. unfold hsize. cbn. lia. }
  unfold HClear. eapply wspec_try; [apply (loadHashMeta_w true P _ k (hsize h)); [reflexivity | exact R] | destruct (hsize h =? 0); discriminate|].
  destruct (hsize h =? 0) eqn:E.
  - apply Z.eqb_eq in E. apply hsize_zero in E. eapply wspec_eq; [apply wspec_ret | reflexivity|]. intros d V. rewrite want_put_hash, <- E.
    destruct d; try reflexivity; destruct (bytes_eqb k0 k) eqn:Ek; try reflexivity; apply bytes_eqb_eq in Ek; subst; reflexivity.
  - eapply wspec_bind.
    + intros M St. destruct (spec_clear_loop P k G (entries h) (want S Ls) M St) as (M' & X1 & X2 & X3).
      exists M'. split; [|split; [exact X2 | exact X3]]. unfold iterateHash. eapply spec_tscan; [apply scan_prefix|].
      rewrite (hash_entries P M S Ls k St). exact X1.
    + cbn [fst snd]. eapply wspec_eq; [apply (wspec_tdel P _ (KHM k)); [exact G | exact I] | reflexivity|].
      intros d V. rewrite want_put_hash. unfold kupd at 1. rewrite fold_clear.
      destruct d; cbn [kind_eqb]; try reflexivity.
      destruct (bytes_eqb k0 k) eqn:Ek; [|reflexivity]. apply bytes_eqb_eq in Ek. subst. cbn [andb want]. fold h.
      change (get empty f) with (@None bytes). cbn [option_map].
      destruct (existsb (fun p : bytes * bytes => bytes_eqb f (fst p)) (entries h)) eqn:Ex; [reflexivity|].
      destruct (get h f) as [v|] eqn:Eg; [|reflexivity]. exfalso. apply get_in in Eg.
      apply not_true_iff_false in Ex. apply Ex. apply existsb_exists. exists (f, v). split; [exact Eg | apply bytes_eqb_refl].
Qed.
