(** Key spaces of the structures, the abstract state they represent, and the refinement lemmas
    for every operation of Struct.v. *)
From Verif Require Import Bytes SMap Provider ProviderProofs Memcmp MemcmpProofs Numeric KvUtil KeyModel Struct.

Implicit Types M : smap ent.

(** * Keys *)
Inductive skind := KS (k : bytes) | KHM (k : bytes) | KHD (k f : bytes) | KLM (k : bytes) | KLD (k : bytes) (i : Z).
Definition ek (P : bytes) (d : skind) : bytes :=
  match d with
  | KS k => encodeStringDataKey P k
  | KHM k => encodeHashMetaKey P k
  | KHD k f => encodeHashDataKey P k f
  | KLM k => encodeListMetaKey P k
  | KLD k i => encodeListDataKey P k i
  end.
Definition valid (d : skind) : Prop := match d with KLD _ i => is_i64 i | _ => True end.
Definition kind_eqb (a b : skind) : bool :=
  match a, b with
  | KS k, KS k' | KHM k, KHM k' | KLM k, KLM k' => bytes_eqb k k'
  | KHD k f, KHD k' f' => bytes_eqb k k' && bytes_eqb f f'
  | KLD k i, KLD k' i' => bytes_eqb k k' && (i =? i')
  | _, _ => false
  end.
Lemma kind_eqb_eq a b : kind_eqb a b = true <-> a = b.
Proof.
  destruct a, b; cbn; try (split; [discriminate | congruence]);
    rewrite ?andb_true_iff, ?bytes_eqb_eq, ?Z.eqb_eq; split; try (intros [-> ->]; reflexivity); try (intros ->; reflexivity);
    intros H; inversion H; auto.
Qed.
Lemma kind_eqb_refl a : kind_eqb a a = true.
Proof. apply kind_eqb_eq. reflexivity. Qed.
Lemma kind_eqb_ne a b : kind_eqb a b = false <-> a <> b.
Proof.
  rewrite <- not_true_iff_false, kind_eqb_eq. reflexivity.
Qed.
(** key, tag and rest *)
Definition ktag (d : skind) : byte := match d with KS _ => StringData | KHM _ => HashMeta | KHD _ _ => HashData | KLM _ => ListMeta | KLD _ _ => ListData end.
Definition kkey (d : skind) : bytes := match d with KS k | KHM k | KHD k _ | KLM k | KLD k _ => k end.
Definition krest (d : skind) : bytes := match d with KHD _ f => enc f | KLD _ i => EncodeInt64 [] i | _ => [] end.
Lemma ek_form P d : ek P d = P ++ enc (kkey d) ++ ktag d :: krest d.
Proof.
  destruct d; cbn [ek kkey ktag krest]; unfold encodeStringDataKey, encodeHashMetaKey, encodeHashDataKey, encodeListMetaKey, encodeListDataKey, EncodeUint8;
    try (rewrite EncodeInt64_app); rewrite !EncodeBytes_app; rewrite <- ?app_assoc; reflexivity.
Qed.
Lemma hdp_form P k : hashDataKeyPrefix P k = P ++ enc k ++ [HashData].
Proof. unfold hashDataKeyPrefix, EncodeUint8. rewrite EncodeBytes_app, <- app_assoc. reflexivity. Qed.
Lemma ek_inj P a b : valid a -> valid b -> ek P a = ek P b -> a = b.
Proof.
  intros Va Vb H. rewrite !ek_form in H. apply app_inv_head in H. apply enc_inj_app in H. destruct H as [Hk H].
  pose proof (f_equal (fun l => match l with x :: _ => b2z x | [] => 0 end) H) as Ht; cbv beta iota in Ht.
  pose proof (f_equal (@tl byte) H) as Hr. cbn [tl] in Hr. clear H.
  destruct a, b; cbn [kkey ktag krest valid] in *; try (vm_compute in Ht; discriminate Ht); subst; try reflexivity.
  - apply enc_inj in Hr. subst. reflexivity.
  - rewrite <- (app_nil_r (EncodeInt64 [] i)), <- (app_nil_r (EncodeInt64 [] i0)) in Hr. apply EncodeInt64_inj in Hr; try assumption.
    destruct Hr as [-> _]. reflexivity.
Qed.
Lemma ek_prefix P d : has_prefix (ek P d) P = true.
Proof. rewrite ek_form. apply has_prefix_app. Qed.
(** a hash's data prefix covers exactly its data keys among the structure keys *)
Lemma hdp_prefix P k d : has_prefix (ek P d) (hashDataKeyPrefix P k) = true <-> exists f, d = KHD k f.
Proof.
  rewrite hdp_form, ek_form. rewrite has_prefix_app_iff. split.
  - rewrite has_prefix_spec. intros [s H]. rewrite <- app_assoc in H. apply enc_inj_app in H. destruct H as [Hk H].
    pose proof (f_equal (fun l => match l with x :: _ => b2z x | [] => 0 end) H) as Ht; cbv beta iota in Ht.
    destruct d; cbn [kkey ktag] in *; try (vm_compute in Ht; discriminate Ht). subst. eauto.
  - intros [f ->]. cbn [kkey ktag krest].
    replace (enc k ++ HashData :: enc f) with ((enc k ++ [HashData]) ++ enc f) by (rewrite <- app_assoc; reflexivity).
    apply has_prefix_app.
Qed.
Lemma hd_cmp P k f f' : bytes_cmp (ek P (KHD k f)) (ek P (KHD k f')) = bytes_cmp f f'.
Proof.
  rewrite !ek_form, bytes_cmp_app_l, enc_cmp. cbn [kkey ktag krest].
  rewrite (proj2 (bytes_cmp_eq k k) eq_refl). cbn [then_cmp bytes_cmp]. rewrite Z.compare_refl.
  pose proof (enc_cmp f f' [] []) as H. rewrite !app_nil_r in H. rewrite H. destruct (bytes_cmp f f'); reflexivity.
Qed.
Lemma decodeHashDataKey_ek P k f : decodeHashDataKey P (ek P (KHD k f)) = Ok (k, f).
Proof.
  unfold decodeHashDataKey, HasPrefix. rewrite ek_prefix. cbn [negb]. rewrite ek_form, skipn_app_exact by reflexivity.
  unfold DecodeBytes. rewrite (decodeBytes_enc true false k). cbn [DecodeUint8 ktag]. rewrite byte_eqb_refl. cbn [negb krest].
  pose proof (decodeBytes_enc true false f []) as H. rewrite app_nil_r in H. change (encd false f) with (enc f) in H. rewrite H. reflexivity.
Qed.

(** * Prefixes accepted by the storage engine *)
Definition good_prefix (P : bytes) : Prop := match P with [] => False | c :: _ => b2z c <> 33 end.
Lemma good_prefix_key P x : good_prefix P -> good_key (P ++ x).
Proof.
  destruct P as [|c P]; [contradiction|]. cbn [good_prefix app]. intros H. unfold good_key, key_err, badger_prefix.
  destruct (has_prefix (c :: P ++ x) (str "!badger!")) eqn:E; [|reflexivity]. exfalso.
  change (str "!badger!") with (z2b 33 :: str "badger!") in E. cbn [has_prefix] in E. apply andb_prop in E. destruct E as [E _].
  apply byte_eqb_spec in E. subst c. apply H. reflexivity.
Qed.
Lemma ek_good P d : good_prefix P -> good_key (ek P d).
Proof. intros H. rewrite ek_form. apply good_prefix_key. exact H. Qed.
Lemma ek_nonempty P d : ek P d <> [].
Proof. rewrite ek_form. intros H. apply app_eq_nil in H. destruct H as [_ H]. apply app_eq_nil in H. destruct H as [_ H]. discriminate. Qed.

Lemma get_set_ek P M a b e : valid a -> valid b -> get (set M (ek P a) e) (ek P b) = if kind_eqb b a then Some e else get M (ek P b).
Proof.
  intros Va Vb. rewrite get_set. destruct (kind_eqb b a) eqn:E.
  - apply kind_eqb_eq in E. subst. rewrite bytes_eqb_refl. reflexivity.
  - apply kind_eqb_ne in E. replace (bytes_eqb (ek P b) (ek P a)) with false; [reflexivity|]. symmetry. apply bytes_eqb_neq.
    intros H. apply E. apply (ek_inj P); assumption.
Qed.
Lemma get_del_ek P M a b : valid a -> valid b -> get (del M (ek P a)) (ek P b) = if kind_eqb b a then None else get M (ek P b).
Proof.
  intros Va Vb. rewrite get_del. destruct (kind_eqb b a) eqn:E.
  - apply kind_eqb_eq in E. subst. rewrite bytes_eqb_refl. reflexivity.
  - apply kind_eqb_ne in E. replace (bytes_eqb (ek P b) (ek P a)) with false; [reflexivity|]. symmetry. apply bytes_eqb_neq.
    intros H. apply E. apply (ek_inj P); assumption.
Qed.

(** * The abstract state: strings, hashes and lists as plain data *)
Record sst := SSt { s_str : smap bytes; s_hash : bytes -> smap bytes; s_list : bytes -> list bytes }.
Definition s_empty : sst := SSt empty (fun _ => empty) (fun _ => []).
Definition put_str (S : sst) (m : smap bytes) : sst := SSt m (s_hash S) (s_list S).
Definition put_hash (S : sst) (k : bytes) (h : smap bytes) : sst :=
  SSt (s_str S) (fun j => if bytes_eqb j k then h else s_hash S j) (s_list S).
Definition put_list (S : sst) (k : bytes) (l : list bytes) : sst :=
  SSt (s_str S) (s_hash S) (fun j => if bytes_eqb j k then l else s_list S j).
Definition hsize (h : smap bytes) : Z := Z.of_nat (length (entries h)).
Definition llen (l : list bytes) : Z := Z.of_nat (length l).

(** * Representation *)
Definition lm_of (L : Z) (l : list bytes) : option ent :=
  match l with [] => None | _ => Some (mk (lmeta_val (LMeta L (L + llen l)))) end.
(** what is stored under a structure key; [Ls] gives the left index of each list *)
Definition want (S : sst) (Ls : bytes -> Z) (d : skind) : option ent :=
  match d with
  | KS k => option_map mk (get (s_str S) k)
  | KHD k f => option_map mk (get (s_hash S k) f)
  | KHM k => if hsize (s_hash S k) =? 0 then None else Some (mk (hmeta_val (hsize (s_hash S k))))
  | KLM k => lm_of (Ls k) (s_list S k)
  | KLD k i => if Ls k <=? i then option_map mk (nth_error (s_list S k) (Z.to_nat (i - Ls k))) else None
  end.
(** M stores S under prefix P; n bounds the sizes and list positions *)
Record rep (P : bytes) (n : Z) (M : smap ent) (S : sst) : Prop := {
  rep_want : exists Ls, (forall d, valid d -> get M (ek P d) = want S Ls d) /\
             (forall k, - n <= Ls k /\ Ls k + llen (s_list S k) <= n /\ llen (s_list S k) <= n);
  rep_hash : forall k, hsize (s_hash S k) <= n;
  rep_only : forall key e, get M key = Some e -> has_prefix key P = true -> exists d, valid d /\ key = ek P d
}.
Definition outside (P : bytes) (M M' : smap ent) : Prop := forall key, has_prefix key P = false -> get M' key = get M key.

Lemma outside_refl P M : outside P M M.
Proof. intros k _. reflexivity. Qed.
Lemma outside_trans P M M1 M2 : outside P M M1 -> outside P M1 M2 -> outside P M M2.
Proof. intros H1 H2 k Hk. rewrite (H2 k Hk). exact (H1 k Hk). Qed.
Lemma outside_set P M d e : outside P M (set M (ek P d) e).
Proof. intros k Hk. apply get_set_ne. intros ->. rewrite ek_prefix in Hk. discriminate. Qed.
Lemma outside_del P M d : outside P M (del M (ek P d)).
Proof. intros k Hk. apply get_del_ne. intros ->. rewrite ek_prefix in Hk. discriminate. Qed.

Definition only (P : bytes) (M : smap ent) : Prop :=
  forall key e, get M key = Some e -> has_prefix key P = true -> exists d, valid d /\ key = ek P d.
Lemma only_set P M d e : valid d -> only P M -> only P (set M (ek P d) e).
Proof.
  intros V H key e'. rewrite get_set. destruct (bytes_eqb key (ek P d)) eqn:E; [|apply H].
  apply bytes_eqb_eq in E. subst. eauto.
Qed.
Lemma only_del P M d : only P M -> only P (del M (ek P d)).
Proof. intros H key e'. rewrite get_del. destruct (bytes_eqb key (ek P d)); [discriminate|]. apply H. Qed.

Lemma rep_empty P M : (forall key, has_prefix key P = true -> get M key = None) -> rep P 0 M s_empty.
Proof.
  intros H. split.
  - exists (fun _ => 0). split; [|intros k; unfold llen; cbn; lia]. intros d _. rewrite H by apply ek_prefix.
    destruct d; cbn; try reflexivity. destruct (0 <=? i); [|reflexivity]. destruct (Z.to_nat (i - 0)); reflexivity.
  - intros k. unfold hsize. cbn. lia.
  - intros key e G Hp. rewrite H in G by exact Hp. discriminate.
Qed.
Lemma rep_le P n n' M S : rep P n M S -> n <= n' -> rep P n' M S.
Proof.
  intros [(Ls & W & B) H O] L. split; [exists Ls; split; [exact W|] | | exact O].
  - intros k. specialize (B k). lia.
  - intros k. specialize (H k). lia.
Qed.
(** pointwise equal abstract states are interchangeable *)
Definition sst_eq (S S' : sst) : Prop :=
  s_str S = s_str S' /\ (forall k, s_hash S k = s_hash S' k) /\ (forall k, s_list S k = s_list S' k).
Lemma rep_ext P n M S S' : sst_eq S S' -> rep P n M S -> rep P n M S'.
Proof.
  intros (E1 & E2 & E3) [(Ls & W & B) H O]. split; [exists Ls; split | | exact O].
  - intros d V. rewrite (W d V). destruct d; cbn [want]; rewrite ?E1, ?E2, ?E3; reflexivity.
  - intros k. rewrite <- E3. apply B.
  - intros k. rewrite <- E2. apply H.
Qed.

(** * Triples over the abstract state *)
Definition sspec {A} (P : bytes) (c : Z) (m : Tx A) (S : sst) (r : result A) (S' : sst) : Prop :=
  forall n M, rep P n M S -> n + c < two63 ->
    exists M', spec true m M r M' /\ rep P (n + c) M' S' /\ outside P M M'.
(** reads: on any kind of transaction *)
Definition sread {A} (P : bytes) (m : Tx A) (S : sst) (r : result A) : Prop :=
  forall w n M, rep P n M S -> n < two63 -> spec w m M r M.

Lemma sread_sspec {A} P (m : Tx A) S r : sread P m S r -> sspec P 0 m S r S.
Proof.
  intros H n M R L. exists M. split; [apply (H true n); [exact R | lia]|]. split; [|apply outside_refl].
  replace (n + 0) with n by lia. exact R.
Qed.
Lemma sspec_ret {A} P (a : A) S : sspec P 0 (ret a) S (Ok a) S.
Proof. apply sread_sspec. intros w n M R L. apply spec_ret. Qed.
Lemma sspec_fail {A} P e S : sspec P 0 (@fail A e) S (Err e) S.
Proof. apply sread_sspec. intros w n M R L. apply spec_fail. Qed.
Lemma sspec_bind {A B} P c1 c2 (m : Tx A) (k : A -> Tx B) S a S1 r S2 : 0 <= c1 -> 0 <= c2 ->
  sspec P c1 m S (Ok a) S1 -> sspec P c2 (k a) S1 r S2 -> sspec P (c1 + c2) (bind m k) S r S2.
Proof.
  intros C1 C2 H1 H2 n M R L. destruct (H1 n M R) as (M1 & X1 & R1 & O1); [lia|].
  destruct (H2 (n + c1) M1 R1) as (M2 & X2 & R2 & O2); [lia|].
  exists M2. split; [eapply spec_bind; eassumption|]. split; [|eapply outside_trans; eassumption].
  replace (n + (c1 + c2)) with (n + c1 + c2) by lia. exact R2.
Qed.
Lemma sspec_bind_err {A B} P c (m : Tx A) (k : A -> Tx B) S e S1 :
  sspec P c m S (Err e) S1 -> sspec P c (bind m k) S (Err e) S1.
Proof.
  intros H n M R L. destruct (H n M R L) as (M1 & X1 & R1 & O1). exists M1. split; [eapply spec_bind_err; eassumption | auto].
Qed.
Lemma sspec_try {A B} P c1 c2 (m : Tx A) (k : result A -> Tx B) S ra S1 r S2 : 0 <= c1 -> 0 <= c2 ->
  sspec P c1 m S ra S1 -> ra <> Panic -> sspec P c2 (k ra) S1 r S2 -> sspec P (c1 + c2) (try m k) S r S2.
Proof.
  intros C1 C2 H1 N H2 n M R L. destruct (H1 n M R) as (M1 & X1 & R1 & O1); [lia|].
  destruct (H2 (n + c1) M1 R1) as (M2 & X2 & R2 & O2); [lia|].
  exists M2. split; [eapply spec_try; eassumption|]. split; [|eapply outside_trans; eassumption].
  replace (n + (c1 + c2)) with (n + c1 + c2) by lia. exact R2.
Qed.
Lemma sspec_le {A} P c c' (m : Tx A) S r S' : c <= c' -> sspec P c m S r S' -> sspec P c' m S r S'.
Proof.
  intros C H n M R L. destruct (H n M R) as (M1 & X1 & R1 & O1); [lia|]. exists M1. split; [exact X1|]. split; [|exact O1].
  eapply rep_le; [exact R1 | lia].
Qed.
Lemma sspec_eq {A} P c (m : Tx A) S r S' r2 S2 : sspec P c m S r S' -> r = r2 -> sst_eq S' S2 -> sspec P c m S r2 S2.
Proof.
  intros H <- E n M R L. destruct (H n M R L) as (M1 & X1 & R1 & O1). exists M1. split; [exact X1|]. split; [|exact O1].
  eapply rep_ext; eassumption.
Qed.
Lemma sread_ret {A} P (a : A) S : sread P (ret a) S (Ok a).
Proof. intros w n M R L. apply spec_ret. Qed.
Lemma sread_fail {A} P e S : sread P (@fail A e) S (Err e).
Proof. intros w n M R L. apply spec_fail. Qed.
Lemma sread_bind {A B} P (m : Tx A) (k : A -> Tx B) S a r :
  sread P m S (Ok a) -> sread P (k a) S r -> sread P (bind m k) S r.
Proof. intros H1 H2 w n M R L. eapply spec_bind; [apply (H1 w n); assumption | apply (H2 w n); assumption]. Qed.
Lemma sread_bind_err {A B} P (m : Tx A) (k : A -> Tx B) S e : sread P m S (Err e) -> sread P (bind m k) S (Err e).
Proof. intros H1 w n M R L. eapply spec_bind_err. apply (H1 w n); assumption. Qed.
Lemma sread_try {A B} P (m : Tx A) (k : result A -> Tx B) S ra r :
  sread P m S ra -> ra <> Panic -> sread P (k ra) S r -> sread P (try m k) S r.
Proof. intros H1 N H2 w n M R L. eapply spec_try; [apply (H1 w n); assumption | exact N | apply (H2 w n); assumption]. Qed.

(** reading one structure key *)
Lemma sread_tget P S d (v : option bytes) : valid d ->
  (forall n M, rep P n M S -> n < two63 -> option_map e_val (get M (ek P d)) = v) ->
  sread P (tget (ek P d)) S (match v with Some x => Ok x | None => Err ErrKeyNotFound end).
Proof.
  intros V H w n M R L. pose proof (spec_tget w (ek P d) M (ek_nonempty P d)) as X. specialize (H n M R L).
  destruct (get M (ek P d)) as [e|]; cbn [option_map] in H; subst v; exact X.
Qed.

(** * Working level: contents of the structure keys as a function *)
Definition stores (P : bytes) M (W : skind -> option ent) : Prop :=
  (forall d, valid d -> get M (ek P d) = W d) /\ only P M.
Definition bounds (n : Z) (S : sst) (Ls : bytes -> Z) : Prop :=
  (forall k, - n <= Ls k /\ Ls k + llen (s_list S k) <= n /\ llen (s_list S k) <= n) /\ (forall k, hsize (s_hash S k) <= n).
Definition wspec {A} (w : bool) (P : bytes) (m : Tx A) (W : skind -> option ent) (r : result A) (W' : skind -> option ent) : Prop :=
  forall M, stores P M W -> exists M', spec w m M r M' /\ stores P M' W' /\ outside P M M'.
Definition kupd (W : skind -> option ent) (a : skind) (o : option ent) : skind -> option ent :=
  fun d => if kind_eqb d a then o else W d.

Lemma sspec_of {A} P c (m : Tx A) S r S' : good_prefix P ->
  (forall Ls n, bounds n S Ls -> n + c < two63 ->
     exists Ls' W', wspec true P m (want S Ls) r W' /\ (forall d, valid d -> W' d = want S' Ls' d) /\ bounds (n + c) S' Ls') ->
  sspec P c m S r S'.
Proof.
  intros _ H n M [(Ls & Wt & B) Hh O] L. destruct (H Ls n (conj B Hh) L) as (Ls' & W' & X & E & B').
  destruct (X M (conj Wt O)) as (M' & X1 & [W1 O1] & Out). exists M'. split; [exact X1|]. split; [|exact Out].
  destruct B' as [B1 B2]. split; [exists Ls'; split; [|exact B1] | exact B2 | exact O1].
  intros d V. rewrite (W1 d V). apply E. exact V.
Qed.
Lemma sread_of {A} P (m : Tx A) S r :
  (forall w Ls n M, bounds n S Ls -> n < two63 -> stores P M (want S Ls) -> spec w m M r M) -> sread P m S r.
Proof.
  intros H w n M [(Ls & Wt & B) Hh O] L. apply (H w Ls n M); [split; assumption | exact L | split; assumption].
Qed.

Lemma wspec_ret {A} w P (a : A) W : wspec w P (ret a) W (Ok a) W.
Proof. intros M H. exists M. split; [apply spec_ret|]. split; [exact H | apply outside_refl]. Qed.
Lemma wspec_fail {A} w P e W : wspec w P (@fail A e) W (Err e) W.
Proof. intros M H. exists M. split; [apply spec_fail|]. split; [exact H | apply outside_refl]. Qed.
Lemma wspec_bind {A B} w P (m : Tx A) (k : A -> Tx B) W a W1 r W2 :
  wspec w P m W (Ok a) W1 -> wspec w P (k a) W1 r W2 -> wspec w P (bind m k) W r W2.
Proof.
  intros H1 H2 M R. destruct (H1 M R) as (M1 & X1 & R1 & O1). destruct (H2 M1 R1) as (M2 & X2 & R2 & O2).
  exists M2. split; [eapply spec_bind; eassumption|]. split; [exact R2 | eapply outside_trans; eassumption].
Qed.
Lemma wspec_bind_err {A B} w P (m : Tx A) (k : A -> Tx B) W e W1 : wspec w P m W (Err e) W1 -> wspec w P (bind m k) W (Err e) W1.
Proof. intros H1 M R. destruct (H1 M R) as (M1 & X1 & R1 & O1). exists M1. split; [eapply spec_bind_err; eassumption | auto]. Qed.
Lemma wspec_try {A B} w P (m : Tx A) (k : result A -> Tx B) W ra W1 r W2 :
  wspec w P m W ra W1 -> ra <> Panic -> wspec w P (k ra) W1 r W2 -> wspec w P (try m k) W r W2.
Proof.
  intros H1 N H2 M R. destruct (H1 M R) as (M1 & X1 & R1 & O1). destruct (H2 M1 R1) as (M2 & X2 & R2 & O2).
  exists M2. split; [eapply spec_try; eassumption|]. split; [exact R2 | eapply outside_trans; eassumption].
Qed.
Lemma wspec_read {A} w P (m : Tx A) W r : (forall M, stores P M W -> spec w m M r M) -> wspec w P m W r W.
Proof. intros H M R. exists M. split; [apply H; exact R|]. split; [exact R | apply outside_refl]. Qed.
Lemma get_stores w P M W d : valid d -> stores P M W ->
  spec w (tget (ek P d)) M (match W d with Some e => Ok (e_val e) | None => Err ErrKeyNotFound end) M.
Proof. intros V [H _]. rewrite <- (H d V). apply spec_tget, ek_nonempty. Qed.
Lemma wspec_tget w P W d : valid d ->
  wspec w P (tget (ek P d)) W (match W d with Some e => Ok (e_val e) | None => Err ErrKeyNotFound end) W.
Proof. intros V. apply wspec_read. intros M R. apply get_stores; assumption. Qed.
Lemma wspec_tset P W d v : good_prefix P -> valid d -> wspec true P (tset (ek P d) v) W (Ok tt) (kupd W d (Some (mk v))).
Proof.
  intros G V M [R O]. exists (set M (ek P d) (mk v)). split; [apply spec_tset, ek_good, G|]. split; [split|apply outside_set].
  - intros d' V'. rewrite get_set_ek by assumption. unfold kupd. destruct (kind_eqb d' d); [reflexivity | apply R; exact V'].
  - apply only_set; assumption.
Qed.
Lemma wspec_tdel P W d : good_prefix P -> valid d -> wspec true P (tdel (ek P d)) W (Ok tt) (kupd W d None).
Proof.
  intros G V M [R O]. exists (del M (ek P d)). split; [apply spec_tdel, ek_good, G|]. split; [split|apply outside_del].
  - intros d' V'. rewrite get_del_ek by assumption. unfold kupd. destruct (kind_eqb d' d); [reflexivity | apply R; exact V'].
  - apply only_del; assumption.
Qed.
Lemma wspec_eq {A} w P (m : Tx A) W r W' r2 W2 : wspec w P m W r W' -> r = r2 -> (forall d, valid d -> W' d = W2 d) -> wspec w P m W r2 W2.
Proof.
  intros H <- E M R. destruct (H M R) as (M1 & X1 & [R1 R2] & O1). exists M1. split; [exact X1|]. split; [|exact O1].
  split; [|exact R2]. intros d V. rewrite R1 by exact V. apply E. exact V.
Qed.
Lemma wspec_start {A} w P (m : Tx A) W W0 r W' : (forall d, valid d -> W d = W0 d) -> wspec w P m W0 r W' -> wspec w P m W r W'.
Proof.
  intros E H M [R1 R2]. apply H. split; [|exact R2]. intros d V. rewrite <- (E d V). apply R1. exact V.
Qed.
Ltac kd := unfold kupd; cbn [kind_eqb]; rewrite ?bytes_eqb_refl, ?Z.eqb_refl; cbn [andb].

(** ** Strings *)
Lemma SGet_read P k S : sread P (SGet P k) S (match get (s_str S) k with Some v => Ok v | None => Err ErrKeyNotFound end).
Proof.
  apply sread_of. intros w Ls n M B L St. unfold SGet. pose proof (get_stores w P M _ (KS k) I St) as X. cbn [ek want] in X.
  destruct (get (s_str S) k); exact X.
Qed.
Lemma want_put_str S Ls k v d :
  want (put_str S (set (s_str S) k v)) Ls d = kupd (want S Ls) (KS k) (Some (mk v)) d.
Proof.
  destruct d; unfold kupd; cbn [want kind_eqb put_str s_str s_hash s_list]; try reflexivity. rewrite get_set.
  destruct (bytes_eqb k0 k); reflexivity.
Qed.
Lemma want_del_str S Ls k d :
  want (put_str S (del (s_str S) k)) Ls d = kupd (want S Ls) (KS k) None d.
Proof.
  destruct d; unfold kupd; cbn [want kind_eqb put_str s_str s_hash s_list]; try reflexivity. rewrite get_del.
  destruct (bytes_eqb k0 k); reflexivity.
Qed.
Lemma SSet_spec P k v S : good_prefix P -> sspec P 0 (SSet P k v) S (Ok tt) (put_str S (set (s_str S) k v)).
Proof.
  intros G. apply sspec_of; [exact G|]. intros Ls n B L. exists Ls. eexists. split; [apply (wspec_tset P _ (KS k)); [exact G | exact I]|].
  split; [|rewrite Z.add_0_r; exact B]. intros d V. symmetry. apply want_put_str.
Qed.
Lemma SClear_spec P k S : good_prefix P -> sspec P 0 (SClear P k) S (Ok tt) (put_str S (del (s_str S) k)).
Proof.
  intros G. apply sspec_of; [exact G|]. intros Ls n B L. exists Ls. eexists. split; [apply (wspec_tdel P _ (KS k)); [exact G | exact I]|].
  split; [|rewrite Z.add_0_r; exact B]. intros d V. symmetry. apply want_del_str.
Qed.
Definition int_res (o : option bytes) : result Z :=
  match o with None => Err ErrKeyNotFound | Some v => match as_int v with Some n => Ok n | None => Err EDecode end end.
Lemma SGetInt64_read P k S : sread P (SGetInt64 P k) S (int_res (get (s_str S) k)).
Proof.
  apply sread_of. intros w Ls n M B L [St _]. unfold SGetInt64.
  pose proof (GetInt64_spec w (ek P (KS k)) M (ek_nonempty P (KS k))) as X. rewrite (St (KS k) I) in X. cbn [want] in X.
  destruct (get (s_str S) k); exact X.
Qed.
Lemma SSetInt64_spec P k v S : good_prefix P -> sspec P 0 (SSetInt64 P k v) S (Ok tt) (put_str S (set (s_str S) k (Encode2Human v))).
Proof. intros G. exact (SSet_spec P k (Encode2Human v) S G). Qed.
Lemma SInc_spec P k step S : good_prefix P ->
  sspec P 0 (SInc P k step) S (inc_res (get (s_str S) k) step)
    (match inc_res (get (s_str S) k) step with Ok n => put_str S (set (s_str S) k (Encode2Human n)) | _ => S end).
Proof.
  intros G. apply sspec_of; [exact G|]. intros Ls n B L. exists Ls.
  assert (E : option_map e_val (want S Ls (KS k)) = get (s_str S) k) by (cbn [want]; destruct (get (s_str S) k); reflexivity).
  exists (match inc_res (get (s_str S) k) step with Ok n => kupd (want S Ls) (KS k) (Some (mk (Encode2Human n))) | _ => want S Ls end).
  split; [|split].
  - intros M [St O]. pose proof (IncInt64_spec (ek P (KS k)) step M (ek_good P (KS k) G)) as X. rewrite (St (KS k) I), E in X.
    eexists. split; [exact X|]. destruct (inc_res (get (s_str S) k) step) as [z|e|]; try (split; [split; assumption | apply outside_refl]).
    split; [|apply (outside_set P M (KS k))]. split; [|apply only_set; [exact I | exact O]].
    intros d V. rewrite get_set_ek by (try assumption; exact I). unfold kupd. destruct (kind_eqb d (KS k)); [reflexivity | apply St; exact V].
  - intros d V. destruct (inc_res (get (s_str S) k) step); try reflexivity. symmetry. apply want_put_str.
  - rewrite Z.add_0_r. destruct (inc_res (get (s_str S) k) step); exact B.
Qed.
