(** Refinement lemmas for the list operations. *)
From Verif Require Import Bytes SMap Provider ProviderProofs Memcmp MemcmpProofs Numeric KvUtil KeyModel Struct StructProofs.

Implicit Types M : smap ent.

Definition ld_of (L : Z) (l : list bytes) (i : Z) : option ent :=
  if L <=? i then option_map mk (nth_error l (Z.to_nat (i - L))) else None.

Lemma lmeta_decode w P m M : is_i64 (li m) -> is_i64 (ri m) ->
  (forall v, v = lmeta_val m -> spec w (if negb (Nat.eqb (length v) 16) then fail (ENamed (str "invalid list meta data"))
  else match DecodeFromBinary (firstn 8 v), DecodeFromBinary (skipn 8 v) with
       | Some a, Some b => ret (LMeta (to_i64 a) (to_i64 b))
       | _, _ => fail EDecode
       end) M (Ok m) M) /\ P = P :> bytes.
Proof.
  intros Hl Hr. split; [|reflexivity]. intros v ->. unfold lmeta_val.
  assert (E : Encode2Binary (to_u64 (ri m)) (Encode2Binary (to_u64 (li m)) []) = Encode2Binary (to_u64 (li m)) [] ++ Encode2Binary (to_u64 (ri m)) []).
  { unfold Encode2Binary. rewrite !app_nil_l. reflexivity. }
  rewrite E. assert (L8 : forall z, length (Encode2Binary z []) = 8%nat) by (intros z; unfold Encode2Binary; rewrite app_nil_l, be_bytes_length; reflexivity).
  rewrite app_length, !L8. cbn [Nat.eqb Nat.add negb].
  rewrite firstn_app_exact by apply L8. rewrite skipn_app_exact by apply L8.
  rewrite !DecodeFromBinary_enc by apply to_u64_range. rewrite !to_i64_u64, !to_i64_id by assumption. destruct m. apply spec_ret.
Qed.
Lemma loadListMeta_spec w P M W k L l : W (KLM k) = lm_of L l -> is_i64 L -> is_i64 (L + llen l) -> stores P M W ->
  spec w (loadListMeta P k) M (match l with [] => Err ErrKeyNotFound | _ => Ok (LMeta L (L + llen l)) end) M.
Proof.
  intros E R1 R2 St. unfold loadListMeta. pose proof (get_stores w P M W (KLM k) I St) as X. rewrite E in X. cbn [ek lm_of] in X.
  destruct l as [|x l]; cbn [lm_of] in X; [apply spec_bind_err; exact X|]. eapply spec_bind; [exact X|]. cbn [e_val mk].
  apply (lmeta_decode w P (LMeta L (L + llen (x :: l))) M R1 R2). reflexivity.
Qed.
Lemma loadListMeta_w w P W k L l : W (KLM k) = lm_of L l -> is_i64 L -> is_i64 (L + llen l) ->
  wspec w P (loadListMeta P k) W (match l with [] => Err ErrKeyNotFound | _ => Ok (LMeta L (L + llen l)) end) W.
Proof. intros E R1 R2. apply wspec_read. intros M St. eapply loadListMeta_spec; eassumption. Qed.

(** contents of list k replaced *)
Definition lupd (Ls : bytes -> Z) (k : bytes) (L : Z) : bytes -> Z := fun j => if bytes_eqb j k then L else Ls j.
Lemma want_put_list S Ls k l L d : want (put_list S k l) (lupd Ls k L) d =
  match d with
  | KLM j => if bytes_eqb j k then lm_of L l else want S Ls d
  | KLD j i => if bytes_eqb j k then ld_of L l i else want S Ls d
  | _ => want S Ls d
  end.
Proof. destruct d; cbn [want put_list s_str s_hash s_list lupd]; try reflexivity; unfold lupd; destruct (bytes_eqb k0 k); try reflexivity; unfold lm_of; destruct l; reflexivity. Qed.
Lemma bounds_put_list n n' S Ls k l L : bounds n S Ls -> n <= n' -> - n' <= L -> L + llen l <= n' -> llen l <= n' -> bounds n' (put_list S k l) (lupd Ls k L).
Proof.
  intros [B1 B2] Hn H1 H2 H3. split.
  - intros j. specialize (B1 j). cbn [put_list s_list]. unfold lupd. destruct (bytes_eqb j k); lia.
  - intros j. specialize (B2 j). cbn [put_list s_hash]. lia.
Qed.
Definition with_list (W : skind -> option ent) (k : bytes) (L : Z) (l : list bytes) : skind -> option ent :=
  fun d => match d with KLD j i => if bytes_eqb j k then ld_of L l i else W d | _ => W d end.
Lemma with_list_want S Ls k d : with_list (want S Ls) k (Ls k) (s_list S k) d = want S Ls d.
Proof. destruct d; cbn [with_list]; try reflexivity. destruct (bytes_eqb k0 k) eqn:E; [|reflexivity]. apply bytes_eqb_eq in E. subst. reflexivity. Qed.
(** an empty list may start anywhere *)
Lemma with_list_nil W k L L' d : with_list W k L [] d = with_list W k L' [] d.
Proof.
  destruct d; cbn [with_list]; try reflexivity. destruct (bytes_eqb k0 k); [|reflexivity]. unfold ld_of.
  replace (nth_error (@nil bytes) (Z.to_nat (i - L))) with (@None bytes) by (destruct (Z.to_nat (i - L)); reflexivity).
  replace (nth_error (@nil bytes) (Z.to_nat (i - L'))) with (@None bytes) by (destruct (Z.to_nat (i - L')); reflexivity).
  cbn [option_map]. destruct (L <=? i), (L' <=? i); reflexivity.
Qed.
Lemma llen_cons v l : llen (v :: l) = llen l + 1.
Proof. unfold llen. cbn [length]. lia. Qed.
Lemma llen_app l l' : llen (l ++ l') = llen l + llen l'.
Proof. unfold llen. rewrite app_length. lia. Qed.
Lemma llen_nonneg l : 0 <= llen l.
Proof. unfold llen. lia. Qed.
Lemma ld_cons L v l i : ld_of (L - 1) (v :: l) i = if i =? L - 1 then Some (mk v) else ld_of L l i.
Proof.
  unfold ld_of. destruct (Z.eqb_spec i (L - 1)) as [->|N].
  - replace (L - 1 <=? L - 1) with true by lia. replace (Z.to_nat (L - 1 - (L - 1))) with 0%nat by lia. reflexivity.
  - destruct (L <=? i) eqn:E.
    + replace (L - 1 <=? i) with true by lia. replace (Z.to_nat (i - (L - 1))) with (S (Z.to_nat (i - L))) by lia. reflexivity.
    + replace (L - 1 <=? i) with false by lia. reflexivity.
Qed.
Lemma ld_snoc L v l i : ld_of L (l ++ [v]) i = if i =? L + llen l then Some (mk v) else ld_of L l i.
Proof.
  unfold ld_of. pose proof (llen_nonneg l) as N0. destruct (Z.eqb_spec i (L + llen l)) as [->|N].
  - replace (L <=? L + llen l) with true by lia. replace (Z.to_nat (L + llen l - L)) with (length l) by (unfold llen; lia).
    rewrite nth_error_app2, Nat.sub_diag by lia. reflexivity.
  - destruct (L <=? i) eqn:E; [|reflexivity]. f_equal. destruct (Nat.ltb (Z.to_nat (i - L)) (length l)) eqn:E2.
    + apply Nat.ltb_lt in E2. apply nth_error_app1. exact E2.
    + apply Nat.ltb_ge in E2. rewrite (proj2 (nth_error_None l _) E2). apply nth_error_None. rewrite app_length. cbn [length]. unfold llen in N. lia.
Qed.

(** ** push *)
Lemma push_left_w P k : good_prefix P -> forall vs W L l, - two63 <= L - llen vs -> L + llen l < two63 ->
  wspec true P (push_loop P k true vs (LMeta L (L + llen l))) (with_list W k L l) (Ok (LMeta (L - llen vs) (L + llen l)))
    (with_list W k (L - llen vs) (rev vs ++ l)).
Proof.
  intros G. induction vs as [|v vs IH]; intros W L l H1 H2; cbn [push_loop rev].
  - unfold llen at 2. cbn [length Z.of_nat]. rewrite Z.sub_0_r. eapply wspec_eq; [apply wspec_ret | reflexivity|].
    intros d _. unfold llen. cbn [length Z.of_nat app]. rewrite Z.sub_0_r. reflexivity.
  - rewrite llen_cons in *. pose proof (llen_nonneg vs). pose proof (llen_nonneg l). cbn [li ri].
    rewrite to_i64_id by (unfold is_i64; rewrite two63_val in *; lia).
    eapply wspec_bind; [apply (wspec_tset P _ (KLD k (L - 1))); [exact G | cbn [valid]; unfold is_i64; rewrite two63_val in *; lia]|].
    eapply wspec_start with (W0 := with_list W k (L - 1) (v :: l)).
    { intros d V. unfold kupd. destruct d; cbn [kind_eqb with_list]; try reflexivity. destruct (bytes_eqb k0 k); cbn [andb]; [|reflexivity].
      rewrite ld_cons. reflexivity. }
    replace (L + llen l) with (L - 1 + llen (v :: l)) by (rewrite llen_cons; lia).
    replace (L - (llen vs + 1)) with (L - 1 - llen vs) by lia.
    rewrite <- app_assoc. cbn [app]. apply IH; rewrite ?llen_cons; lia.
Qed.
Lemma push_right_w P k : good_prefix P -> forall vs W L l, - two63 <= L -> L + llen l + llen vs < two63 ->
  wspec true P (push_loop P k false vs (LMeta L (L + llen l))) (with_list W k L l) (Ok (LMeta L (L + llen l + llen vs)))
    (with_list W k L (l ++ vs)).
Proof.
  intros G. induction vs as [|v vs IH]; intros W L l H1 H2; cbn [push_loop].
  - unfold llen at 3. cbn [length Z.of_nat]. rewrite Z.add_0_r, app_nil_r. apply wspec_ret.
  - rewrite llen_cons in *. pose proof (llen_nonneg vs). pose proof (llen_nonneg l). cbn [li ri].
    rewrite to_i64_id by (unfold is_i64; rewrite two63_val in *; lia).
    eapply wspec_bind; [apply (wspec_tset P _ (KLD k (L + llen l))); [exact G | cbn [valid]; unfold is_i64; rewrite two63_val in *; lia]|].
    eapply wspec_start with (W0 := with_list W k L (l ++ [v])).
    { intros d V. unfold kupd. destruct d; cbn [kind_eqb with_list]; try reflexivity. destruct (bytes_eqb k0 k); cbn [andb]; [|reflexivity].
      rewrite ld_snoc. reflexivity. }
    assert (E : llen (l ++ [v]) = llen l + 1) by (rewrite llen_app; reflexivity).
    replace (L + llen l + 1) with (L + llen (l ++ [v])) by lia.
    replace (L + llen l + (llen vs + 1)) with (L + llen (l ++ [v]) + llen vs) by lia.
    replace (l ++ v :: vs) with ((l ++ [v]) ++ vs) by (rewrite <- app_assoc; reflexivity). apply IH; lia.
Qed.
Lemma orEmpty_w w P W k L l : W (KLM k) = lm_of L l -> is_i64 L -> is_i64 (L + llen l) ->
  wspec w P (orEmpty (loadListMeta P k)) W (Ok (match l with [] => LMeta 0 0 | _ => LMeta L (L + llen l) end)) W.
Proof.
  intros E R1 R2. unfold orEmpty. eapply wspec_try; [eapply loadListMeta_w; eassumption | destruct l; discriminate|].
  destruct l; apply wspec_ret.
Qed.
Lemma bounds_i64 n S Ls k : bounds n S Ls -> n < two63 -> is_i64 (Ls k) /\ is_i64 (Ls k + llen (s_list S k)).
Proof. intros [B _] L. specialize (B k). pose proof (llen_nonneg (s_list S k)). unfold is_i64. lia. Qed.
(** the left end after loading: 0 when the list is empty *)
Definition lstart (Ls : bytes -> Z) (S : sst) (k : bytes) : Z := match s_list S k with [] => 0 | _ => Ls k end.
Lemma lstart_meta Ls S k : match s_list S k with [] => LMeta 0 0 | _ => LMeta (Ls k) (Ls k + llen (s_list S k)) end
  = LMeta (lstart Ls S k) (lstart Ls S k + llen (s_list S k)).
Proof. unfold lstart. destruct (s_list S k); reflexivity. Qed.
Lemma lstart_with S Ls k d : want S Ls d = with_list (want S Ls) k (lstart Ls S k) (s_list S k) d.
Proof.
  rewrite <- (with_list_want S Ls k d) at 1. unfold lstart. destruct (s_list S k) eqn:E; [apply with_list_nil | reflexivity].
Qed.
Lemma push_finish S Ls k L l d : l <> [] ->
  kupd (with_list (want S Ls) k L l) (KLM k) (Some (mk (lmeta_val (LMeta L (L + llen l))))) d = want (put_list S k l) (lupd Ls k L) d.
Proof.
  intros N. rewrite want_put_list. unfold kupd. destruct d; cbn [kind_eqb with_list]; try reflexivity.
  unfold lm_of. destruct l; [congruence|]. destruct (bytes_eqb k0 k); reflexivity.
Qed.
Lemma push_spec P k lft vs S : good_prefix P ->
  sspec P (llen vs) (listPush P k lft vs) S (Ok tt) (put_list S k (if lft then rev vs ++ s_list S k else s_list S k ++ vs)).
Proof.
  intros G. destruct vs as [|v vs].
  - eapply sspec_eq; [apply sspec_ret | reflexivity|]. split; [reflexivity|]. split; [reflexivity|].
    intros j. cbn [put_list s_list rev app]. rewrite app_nil_r. destruct (bytes_eqb j k) eqn:E; [|reflexivity].
    apply bytes_eqb_eq in E. subst. destruct lft; reflexivity.
  - apply sspec_of; [exact G|]. intros Ls n B Hn. unfold listPush. set (vals := v :: vs) in *.
    pose proof (llen_nonneg vals) as N1. pose proof (llen_nonneg (s_list S k)) as N2.
    pose proof (bounds_i64 n S Ls k B ltac:(lia)) as [R1 R2]. pose proof (proj1 B k) as Bk.
    assert (Bs : - n <= lstart Ls S k /\ lstart Ls S k + llen (s_list S k) <= n).
    { unfold lstart. destruct (s_list S k) eqn:E; [|lia]. unfold llen in *. cbn [length Z.of_nat] in *. lia. }
    set (L' := if lft then lstart Ls S k - llen vals else lstart Ls S k).
    set (l' := if lft then rev vals ++ s_list S k else s_list S k ++ vals).
    assert (E1 : L' + llen l' = if lft then lstart Ls S k + llen (s_list S k) else lstart Ls S k + llen (s_list S k) + llen vals).
    { unfold L', l'. destruct lft; rewrite llen_app; [replace (llen (rev vals)) with (llen vals) by (unfold llen; rewrite rev_length; reflexivity)|]; lia. }
    assert (NN : l' <> []).
    { unfold l', vals. destruct lft; intros H; apply app_eq_nil in H; destruct H as [H1 H2]; [|discriminate].
      apply (f_equal (@length bytes)) in H1. rewrite rev_length in H1. discriminate. }
    exists (lupd Ls k L'), (want (put_list S k l') (lupd Ls k L')). split; [|split; [reflexivity|]].
    2:{ eapply bounds_put_list; [exact B | lia | unfold L'; destruct lft; lia | rewrite E1; destruct lft; lia | pose proof (proj1 B k); unfold l'; destruct lft; rewrite llen_app; [unfold llen at 1; rewrite rev_length; fold (llen vals)|]; lia]. }
    eapply wspec_bind; [eapply (orEmpty_w true P _ k (Ls k) (s_list S k)); [reflexivity | exact R1 | exact R2]|].
    rewrite lstart_meta. eapply wspec_start; [intros d _; apply lstart_with with (k := k)|].
    destruct lft.
    + eapply wspec_bind; [apply push_left_w; [exact G | lia | lia]|].
      eapply wspec_eq; [apply (wspec_tset P _ (KLM k)); [exact G | exact I] | reflexivity|].
      intros d V. rewrite <- push_finish by exact NN. fold L' l'. rewrite E1. reflexivity.
    + eapply wspec_bind; [apply push_right_w; [exact G | lia | lia]|].
      eapply wspec_eq; [apply (wspec_tset P _ (KLM k)); [exact G | exact I] | reflexivity|].
      intros d V. rewrite <- push_finish by exact NN. fold L' l'. rewrite E1. reflexivity.
Qed.

(** ** pop *)
Lemma wspec_tget_some w P W d e : valid d -> W d = Some e -> wspec w P (tget (ek P d)) W (Ok (e_val e)) W.
Proof. intros V H. pose proof (wspec_tget w P W d V) as X. rewrite H in X. exact X. Qed.
Lemma LPop_spec P k S : good_prefix P ->
  sspec P 0 (LPop P k) S (match s_list S k with [] => Err ErrKeyNotFound | x :: _ => Ok x end)
    (match s_list S k with [] => S | _ :: l => put_list S k l end).
Proof.
  intros G. apply sspec_of; [exact G|]. intros Ls n B Hn. rewrite Z.add_0_r in *.
  pose proof (bounds_i64 n S Ls k B Hn) as [R1 R2]. pose proof (proj1 B k) as Bk.
  pose proof (loadListMeta_w true P (want S Ls) k (Ls k) (s_list S k) eq_refl R1 R2) as X.
  destruct (s_list S k) as [|x l] eqn:El.
  - exists Ls, (want S Ls). split; [unfold LPop, listPop; apply wspec_bind_err; exact X|]. split; [reflexivity | exact B].
  - rewrite llen_cons in *. pose proof (llen_nonneg l) as N.
    exists (lupd Ls k (Ls k + 1)), (want (put_list S k l) (lupd Ls k (Ls k + 1))). split; [|split; [reflexivity|]].
    2:{ eapply bounds_put_list; [exact B | lia | lia | lia | lia]. }
    unfold LPop, listPop. eapply wspec_bind; [exact X|]. cbn [li ri].
    rewrite to_i64_id by (unfold is_i64 in *; lia).
    eapply wspec_start with (W0 := with_list (want S Ls) k (Ls k) (x :: l)).
    { intros d _. rewrite <- (with_list_want S Ls k d), El. reflexivity. }
    eapply wspec_bind.
    { eapply (wspec_tget_some true P _ (KLD k (Ls k))); [exact R1|]. cbn [with_list]. rewrite bytes_eqb_refl. unfold ld_of.
      replace (Ls k <=? Ls k) with true by lia. rewrite Z.sub_diag. reflexivity. }
    eapply wspec_bind; [apply (wspec_tdel P _ (KLD k (Ls k))); [exact G | exact R1]|].
    eapply wspec_start with (W0 := with_list (want S Ls) k (Ls k + 1) l).
    { intros d _. unfold kupd. destruct d; cbn [kind_eqb with_list]; try reflexivity. destruct (bytes_eqb k0 k); cbn [andb]; [|reflexivity].
      pose proof (ld_cons (Ls k + 1) x l i) as H. replace (Ls k + 1 - 1) with (Ls k) in H by lia. rewrite H.
      destruct (Z.eqb_spec i (Ls k)) as [Ei|Ei]; [|reflexivity]. unfold ld_of. replace (Ls k + 1 <=? i) with false by lia. reflexivity. }
    cbn [e_val mk]. eapply wspec_bind; [|apply wspec_ret]. destruct l as [|y l].
    + unfold llen. cbn [length Z.of_nat]. replace (Ls k + (0 + 1) <=? Ls k + 1) with true by lia. cbn [negb].
      eapply wspec_eq; [apply (wspec_tdel P _ (KLM k)); [exact G | exact I] | reflexivity|].
      intros d V. rewrite want_put_list. unfold kupd. destruct d; cbn [kind_eqb with_list]; try reflexivity.
    + rewrite llen_cons in N. pose proof (llen_nonneg l). replace (Ls k + (llen (y :: l) + 1) <=? Ls k + 1) with false by (rewrite llen_cons in *; lia). cbn [negb].
      eapply wspec_eq; [apply (wspec_tset P _ (KLM k)); [exact G | exact I] | reflexivity|].
      intros d V. rewrite <- push_finish by discriminate. replace (Ls k + (llen (y :: l) + 1)) with (Ls k + 1 + llen (y :: l)) by lia. reflexivity.
Qed.
Lemma RPop_spec P k S : good_prefix P ->
  sspec P 0 (RPop P k) S (match rev (s_list S k) with [] => Err ErrKeyNotFound | x :: _ => Ok x end)
    (match rev (s_list S k) with [] => S | _ :: l => put_list S k (rev l) end).
Proof.
  intros G. apply sspec_of; [exact G|]. intros Ls n B Hn. rewrite Z.add_0_r in *.
  pose proof (bounds_i64 n S Ls k B Hn) as [R1 R2]. pose proof (proj1 B k) as Bk.
  pose proof (loadListMeta_w true P (want S Ls) k (Ls k) (s_list S k) eq_refl R1 R2) as X.
  destruct (rev (s_list S k)) as [|x rl] eqn:Er.
  - assert (El : s_list S k = []) by (apply (f_equal (@rev bytes)) in Er; rewrite rev_involutive in Er; exact Er).
    rewrite El in X. exists Ls, (want S Ls). split; [unfold RPop, listPop; apply wspec_bind_err; exact X|]. split; [reflexivity | exact B].
  - assert (El : s_list S k = rev rl ++ [x]) by (apply (f_equal (@rev bytes)) in Er; rewrite rev_involutive in Er; exact Er).
    set (l := rev rl) in *. assert (Ln : llen (s_list S k) = llen l + 1) by (rewrite El, llen_app; reflexivity).
    pose proof (llen_nonneg l) as N. rewrite Ln in *.
    exists (lupd Ls k (Ls k)), (want (put_list S k l) (lupd Ls k (Ls k))). split; [|split; [reflexivity|]].
    2:{ eapply bounds_put_list; [exact B | lia | lia | lia | lia]. }
    unfold RPop, listPop. eapply (wspec_bind true P _ _ _ (LMeta (Ls k) (Ls k + (llen l + 1)))).
    { rewrite El in X. destruct (l ++ [x]) as [|a b] eqn:E; [apply app_eq_nil in E; destruct E; discriminate|]. exact X. }
    cbn [li ri]. replace (Ls k + (llen l + 1) - 1) with (Ls k + llen l) by lia.
    rewrite to_i64_id by (unfold is_i64 in *; lia).
    assert (V1 : is_i64 (Ls k + llen l)) by (unfold is_i64 in *; lia).
    eapply wspec_start with (W0 := with_list (want S Ls) k (Ls k) (l ++ [x])).
    { intros d _. rewrite <- (with_list_want S Ls k d), El. reflexivity. }
    eapply wspec_bind.
    { eapply (wspec_tget_some true P _ (KLD k (Ls k + llen l))); [exact V1|]. cbn [with_list]. rewrite bytes_eqb_refl, ld_snoc, Z.eqb_refl. reflexivity. }
    eapply wspec_bind; [apply (wspec_tdel P _ (KLD k (Ls k + llen l))); [exact G | exact V1]|].
    eapply wspec_start with (W0 := with_list (want S Ls) k (Ls k) l).
    { intros d _. unfold kupd. destruct d; cbn [kind_eqb with_list]; try reflexivity. destruct (bytes_eqb k0 k); cbn [andb]; [|reflexivity].
      rewrite ld_snoc. destruct (Z.eqb_spec i (Ls k + llen l)) as [Ei|Ei]; [|reflexivity]. unfold ld_of.
      replace (Ls k <=? i) with true by lia. rewrite (proj2 (nth_error_None l _)) by (unfold llen in Ei; lia). reflexivity. }
    cbn [e_val mk]. eapply wspec_bind; [|apply wspec_ret]. destruct l as [|y l0] eqn:E0.
    + unfold llen. cbn [length Z.of_nat]. rewrite Z.add_0_r. replace (Ls k <=? Ls k) with true by lia. cbn [negb].
      eapply wspec_eq; [apply (wspec_tdel P _ (KLM k)); [exact G | exact I] | reflexivity|].
      intros d V. rewrite want_put_list. unfold kupd. destruct d; cbn [kind_eqb with_list]; try reflexivity.
    + pose proof (llen_nonneg l0). replace (Ls k + llen (y :: l0) <=? Ls k) with false by (rewrite llen_cons in *; lia). cbn [negb].
      eapply wspec_eq; [apply (wspec_tset P _ (KLM k)); [exact G | exact I] | reflexivity|].
      intros d V. rewrite <- push_finish by discriminate. reflexivity.
Qed.

(** ** reads *)
Lemma LLen_read P k S : sread P (LLen P k) S (Ok (llen (s_list S k))).
Proof.
  apply sread_of. intros w Ls n M B L St. pose proof (bounds_i64 n S Ls k B L) as [R1 R2]. pose proof (proj1 B k) as Bk.
  unfold LLen. eapply spec_try; [apply (loadListMeta_spec w P M (want S Ls) k (Ls k) (s_list S k) eq_refl R1 R2 St) | destruct (s_list S k); discriminate|].
  pose proof (llen_nonneg (s_list S k)). destruct (s_list S k) as [|x l] eqn:E; [apply spec_ret|]. cbn [li ri].
  replace (Ls k + llen (x :: l) - Ls k) with (llen (x :: l)) by lia.
  rewrite to_i64_id by (unfold is_i64; lia). apply spec_ret.
Qed.
Lemma ld_get w P M S Ls k i : stores P M (want S Ls) -> Ls k <= i < Ls k + llen (s_list S k) -> is_i64 i ->
  exists x, nth_error (s_list S k) (Z.to_nat (i - Ls k)) = Some x /\ spec w (tget (encodeListDataKey P k i)) M (Ok x) M.
Proof.
  intros St R V. pose proof (get_stores w P M _ (KLD k i) V St) as X. cbn [want ek] in X. replace (Ls k <=? i) with true in X by lia.
  destruct (nth_error (s_list S k) (Z.to_nat (i - Ls k))) as [x|] eqn:E; [exists x; split; [reflexivity | exact X]|].
  apply nth_error_None in E. unfold llen in R. lia.
Qed.
Lemma firstn_snoc {A} (l : list A) n x : nth_error l n = Some x -> firstn (S n) l = firstn n l ++ [x].
Proof.
  revert n. induction l as [|a l IH]; intros [|n] H; try discriminate.
  - inversion H. reflexivity.
  - cbn [nth_error] in H. change (firstn (S (S n)) (a :: l)) with (a :: firstn (S n) l). rewrite (IH n H). reflexivity.
Qed.
Lemma getall_loop_spec w P M S Ls k : stores P M (want S Ls) -> - two63 < Ls k -> Ls k + llen (s_list S k) < two63 ->
  forall n, Z.of_nat n <= llen (s_list S k) ->
  spec w (getall_loop P k n (Ls k + Z.of_nat n - 1)) M (Ok (rev (firstn n (s_list S k)))) M.
Proof.
  intros St H1 H2. induction n as [|n IH]; intros Hn; [apply spec_ret|]. cbn [getall_loop].
  replace (Ls k + Z.of_nat (Datatypes.S n) - 1) with (Ls k + Z.of_nat n) by lia.
  destruct (ld_get w P M S Ls k (Ls k + Z.of_nat n) St) as (x & E & X); [lia | unfold is_i64; lia|].
  eapply spec_bind; [exact X|]. replace (Z.to_nat (Ls k + Z.of_nat n - Ls k)) with n in E by lia.
  rewrite to_i64_id by (unfold is_i64; lia). eapply spec_bind; [apply IH; lia|].
  rewrite (firstn_snoc _ _ _ E), rev_app_distr. apply spec_ret.
Qed.
Lemma LGetAll_read P k S : sread P (LGetAll P k) S (Ok (rev (s_list S k))).
Proof.
  apply sread_of. intros w Ls n M B L St. pose proof (bounds_i64 n S Ls k B L) as [R1 R2]. pose proof (proj1 B k) as Bk.
  unfold LGetAll. eapply spec_try; [apply (loadListMeta_spec w P M (want S Ls) k (Ls k) (s_list S k) eq_refl R1 R2 St) | destruct (s_list S k); discriminate|].
  pose proof (llen_nonneg (s_list S k)) as N. pose proof (getall_loop_spec w P M S Ls k St ltac:(lia) ltac:(lia) (length (s_list S k))) as X.
  destruct (s_list S k) as [|x l] eqn:E; [apply spec_ret|]. cbn [li ri]. rewrite <- E in *.
  replace (Ls k + llen (s_list S k) - Ls k) with (llen (s_list S k)) by lia.
  rewrite (to_i64_id (llen (s_list S k))) by (unfold is_i64; lia). replace (llen (s_list S k) <? 0) with false by lia.
  rewrite firstn_all in X. unfold llen at 1. rewrite Nat2Z.id. rewrite to_i64_id by (unfold is_i64; lia). apply X. unfold llen. lia.
Qed.

(** the position a (possibly negative) index denotes in a list of length n *)
Definition lpos (len index : Z) : option nat :=
  let i := if 0 <=? index then index else index + len in
  if (0 <=? i) && (i <? len) then Some (Z.to_nat i) else None.
Lemma adjust_pos L len index : is_i64 index -> is_i64 L -> is_i64 (L + len) -> 0 <= len ->
  let i := adjustIndex index L (L + len) in
  if (L <=? i) && (i <? L + len) then lpos len index = Some (Z.to_nat (i - L)) else lpos len index = None.
Proof.
  intros R R1 R2 N i. unfold i, adjustIndex, lpos, to_i64, is_i64 in *. rewrite two64_val, two63_val in *.
  destruct (0 <=? index) eqn:E.
  - assert (C : (index + L + 9223372036854775808) mod 18446744073709551616 - 9223372036854775808 = index + L \/
                (index + L >= 9223372036854775808 /\ (index + L + 9223372036854775808) mod 18446744073709551616 - 9223372036854775808 = index + L - 18446744073709551616)) by lia.
    destruct C as [C|[C1 C]]; rewrite C.
    + destruct ((L <=? index + L) && (index + L <? L + len)) eqn:F.
      * replace ((0 <=? index) && (index <? len)) with true by lia. do 2 f_equal. lia.
      * replace ((0 <=? index) && (index <? len)) with false by lia. reflexivity.
    + replace ((L <=? index + L - 18446744073709551616) && (index + L - 18446744073709551616 <? L + len)) with false by lia.
      replace ((0 <=? index) && (index <? len)) with false by lia. reflexivity.
  - assert (C : (index + (L + len) + 9223372036854775808) mod 18446744073709551616 - 9223372036854775808 = index + (L + len) \/
                (index + (L + len) < - 9223372036854775808 /\ (index + (L + len) + 9223372036854775808) mod 18446744073709551616 - 9223372036854775808 = index + (L + len) + 18446744073709551616)) by lia.
    destruct C as [C|[C1 C]]; rewrite C.
    + destruct ((L <=? index + (L + len)) && (index + (L + len) <? L + len)) eqn:F.
      * replace ((0 <=? index + len) && (index + len <? len)) with true by lia. do 2 f_equal. lia.
      * replace ((0 <=? index + len) && (index + len <? len)) with false by lia. reflexivity.
    + replace ((L <=? index + (L + len) + 18446744073709551616) && (index + (L + len) + 18446744073709551616 <? L + len)) with false by lia.
      replace ((0 <=? index + len) && (index + len <? len)) with false by lia. reflexivity.
Qed.
Definition lindex_res (l : list bytes) (index : Z) : result bytes :=
  match l with
  | [] => Err ErrKeyNotFound
  | _ => match lpos (llen l) index with Some i => Ok (nth i l []) | None => Ok [] end
  end.
Lemma LIndex_read P k index S : is_i64 index -> sread P (LIndex P k index) S (lindex_res (s_list S k) index).
Proof.
  intros Ri. apply sread_of. intros w Ls n M B L St. pose proof (bounds_i64 n S Ls k B L) as [R1 R2]. pose proof (proj1 B k) as Bk.
  unfold LIndex. pose proof (loadListMeta_spec w P M _ k (Ls k) (s_list S k) eq_refl R1 R2 St) as X. unfold lindex_res.
  pose proof (llen_nonneg (s_list S k)) as N. pose proof (adjust_pos (Ls k) (llen (s_list S k)) index Ri R1 R2 N) as A.
  cbv zeta in A. set (i := adjustIndex index (Ls k) (Ls k + llen (s_list S k))) in *.
  pose proof (ld_get w P M S Ls k i St) as D.
  destruct (s_list S k) as [|x l] eqn:E; [apply spec_bind_err; exact X|]. eapply spec_bind; [exact X|]. cbn [li ri]. fold i.
  destruct ((Ls k <=? i) && (i <? Ls k + llen (x :: l))) eqn:F.
  - rewrite A. destruct D as (y & Ey & Y); [lia | unfold is_i64 in *; lia|]. rewrite (nth_error_nth _ _ [] Ey). exact Y.
  - rewrite A. apply spec_ret.
Qed.

(** ** LSet *)
Fixpoint lupdate (l : list bytes) (i : nat) (v : bytes) : list bytes :=
  match l, i with
  | [], _ => []
  | _ :: l', O => v :: l'
  | x :: l', S i' => x :: lupdate l' i' v
  end.
Lemma lupdate_length l i v : length (lupdate l i v) = length l.
Proof. revert i. induction l as [|x l IH]; intros [|i]; cbn [lupdate length]; try reflexivity. rewrite IH. reflexivity. Qed.
Lemma lupdate_nth l i v j : (i < length l)%nat -> nth_error (lupdate l i v) j = if Nat.eqb j i then Some v else nth_error l j.
Proof.
  revert i j. induction l as [|x l IH]; intros [|i] [|j] H; cbn [lupdate nth_error Nat.eqb length] in *; try reflexivity; try lia.
  apply IH. lia.
Qed.
Definition lset_res (l : list bytes) (index : Z) : result unit :=
  match lpos (llen l) index with Some _ => Ok tt | None => Err ErrKeyNotFound end.
Definition lset_list (l : list bytes) (index : Z) (v : bytes) : list bytes :=
  match lpos (llen l) index with Some i => lupdate l i v | None => l end.
Lemma LSet_spec P k index v S : good_prefix P -> is_i64 index ->
  sspec P 0 (LSet P k index v) S (lset_res (s_list S k) index) (put_list S k (lset_list (s_list S k) index v)).
Proof.
  intros G Ri. apply sspec_of; [exact G|]. intros Ls n B Hn. rewrite Z.add_0_r in *.
  pose proof (bounds_i64 n S Ls k B Hn) as [R1 R2]. pose proof (proj1 B k) as Bk.
  pose proof (loadListMeta_w true P (want S Ls) k (Ls k) (s_list S k) eq_refl R1 R2) as X.
  pose proof (llen_nonneg (s_list S k)) as N. pose proof (adjust_pos (Ls k) (llen (s_list S k)) index Ri R1 R2 N) as A.
  cbv zeta in A. set (i := adjustIndex index (Ls k) (Ls k + llen (s_list S k))) in *.
  assert (Same : forall d, want S Ls d = want (put_list S k (s_list S k)) (lupd Ls k (Ls k)) d).
  { intros d. rewrite want_put_list. destruct d; try reflexivity; destruct (bytes_eqb k0 k) eqn:E; try reflexivity;
    apply bytes_eqb_eq in E; subst; unfold lm_of, ld_of; cbn [want]; reflexivity. }
  exists (lupd Ls k (Ls k)), (want (put_list S k (lset_list (s_list S k) index v)) (lupd Ls k (Ls k))).
  assert (Lq : llen (lset_list (s_list S k) index v) = llen (s_list S k)).
  { unfold lset_list. destruct (lpos _ index); [|reflexivity]. unfold llen. rewrite lupdate_length. reflexivity. }
  split; [|split; [reflexivity | eapply bounds_put_list; [exact B | lia | lia | lia | lia]]].
  unfold LSet, lset_res, lset_list. destruct (s_list S k) as [|x l] eqn:E.
  - unfold lpos. change (llen []) with 0. replace (_ && _) with false by (destruct (0 <=? index) eqn:?; lia).
    eapply wspec_eq; [apply wspec_bind_err; exact X | reflexivity | intros d _; apply Same].
  - eapply wspec_bind; [exact X|]. cbn [li ri]. fold i.
    destruct ((Ls k <=? i) && (i <? Ls k + llen (x :: l))) eqn:F; rewrite A.
    + eapply wspec_eq; [apply (wspec_tset P _ (KLD k i)); [exact G | cbn [valid]; unfold is_i64 in *; lia] | reflexivity|].
      intros d V. rewrite want_put_list. unfold kupd.
      assert (Hi : (Z.to_nat (i - Ls k) < length (x :: l))%nat) by (unfold llen in F; lia).
      destruct d; cbn [kind_eqb]; try reflexivity.
      * destruct (bytes_eqb k0 k) eqn:Ek; [|reflexivity]. apply bytes_eqb_eq in Ek. subst. cbn [want]. rewrite E. unfold lm_of.
        destruct (lupdate (x :: l) (Z.to_nat (i - Ls k)) v) as [|y l'] eqn:E2; [apply (f_equal (@length bytes)) in E2; rewrite lupdate_length in E2; discriminate|].
        unfold llen. rewrite <- E2, lupdate_length. reflexivity.
      * destruct (bytes_eqb k0 k) eqn:Ek; cbn [andb]; [|reflexivity]. apply bytes_eqb_eq in Ek. subst. unfold ld_of. rewrite lupdate_nth by exact Hi.
        cbn [want]. rewrite E. destruct (Z.eqb_spec i0 i) as [->|Ne].
        -- rewrite Nat.eqb_refl. replace (Ls k <=? i) with true by lia. reflexivity.
        -- destruct (Ls k <=? i0) eqn:F2; [|reflexivity]. destruct (Nat.eqb_spec (Z.to_nat (i0 - Ls k)) (Z.to_nat (i - Ls k))); [lia | reflexivity].
    + eapply wspec_eq; [apply wspec_fail | reflexivity | intros d _; apply Same].
Qed.

(** ** LClear *)
Lemma lclear_loop_w P k : good_prefix P -> forall n L W, - two63 <= L -> L + Z.of_nat n < two63 ->
  wspec true P (lclear_loop P k n L) W (Ok tt)
    (fun d => match d with KLD j i => if bytes_eqb j k && ((L <=? i) && (i <? L + Z.of_nat n)) then None else W d | _ => W d end).
Proof.
  intros G. induction n as [|n IH]; intros L W H1 H2; cbn [lclear_loop].
  - eapply wspec_eq; [apply wspec_ret | reflexivity|]. intros d _. destruct d; try reflexivity.
    replace ((L <=? i) && (i <? L + Z.of_nat 0)) with false by lia. rewrite andb_false_r. reflexivity.
  - eapply wspec_bind; [apply (wspec_tdel P _ (KLD k L)); [exact G | cbn [valid]; unfold is_i64; lia]|].
    rewrite to_i64_id by (unfold is_i64; lia). eapply wspec_eq; [apply IH; lia | reflexivity|].
    intros d _. unfold kupd. destruct d; cbn [kind_eqb]; try reflexivity. destruct (bytes_eqb k0 k); cbn [andb]; [|reflexivity].
    destruct (Z.eqb_spec i L) as [->|Ne].
    + replace ((L + 1 <=? L) && _) with false by lia. replace ((L <=? L) && _) with true by lia. reflexivity.
    + replace ((L + 1 <=? i) && (i <? L + 1 + Z.of_nat n)) with ((L <=? i) && (i <? L + Z.of_nat (S n))) by lia. reflexivity.
Qed.
Lemma LClear_spec P k S : good_prefix P -> sspec P 0 (LClear P k) S (Ok tt) (put_list S k []).
Proof.
  intros G. apply sspec_of; [exact G|]. intros Ls n B Hn. rewrite Z.add_0_r in *.
  pose proof (bounds_i64 n S Ls k B Hn) as [R1 R2]. pose proof (proj1 B k) as Bk.
  pose proof (loadListMeta_w true P (want S Ls) k (Ls k) (s_list S k) eq_refl R1 R2) as X.
  pose proof (llen_nonneg (s_list S k)) as N.
  exists (lupd Ls k (Ls k)), (want (put_list S k []) (lupd Ls k (Ls k))).
  split; [|split; [reflexivity | eapply bounds_put_list; [exact B | lia | lia | change (llen []) with 0; lia | change (llen []) with 0; lia]]].
  unfold LClear. eapply wspec_try; [exact X | destruct (s_list S k); discriminate|].
  destruct (s_list S k) as [|x l] eqn:E.
  - eapply wspec_eq; [apply wspec_ret | reflexivity|]. intros d _. rewrite want_put_list.
    destruct d; try reflexivity; destruct (bytes_eqb k0 k) eqn:Ek; try reflexivity; apply bytes_eqb_eq in Ek; subst; cbn [want]; rewrite E; reflexivity.
  - rewrite <- E in *. cbn [li ri]. replace (Ls k + llen (s_list S k) - Ls k) with (llen (s_list S k)) by lia.
    eapply wspec_bind; [apply lclear_loop_w; [exact G | unfold is_i64 in *; lia | unfold llen in *; rewrite Nat2Z.id; unfold is_i64 in *; lia]|].
    eapply wspec_eq; [apply (wspec_tdel P _ (KLM k)); [exact G | exact I] | reflexivity|].
    intros d _. rewrite want_put_list. unfold kupd. destruct d; cbn [kind_eqb]; try reflexivity.
    destruct (bytes_eqb k0 k) eqn:Ek; cbn [andb]; [|reflexivity]. apply bytes_eqb_eq in Ek. subst.
    unfold ld_of. replace (nth_error (@nil bytes) (Z.to_nat (i - Ls k))) with (@None bytes) by (destruct (Z.to_nat (i - Ls k)); reflexivity).
    cbn [option_map want]. rewrite Z2Nat.id by lia.
    destruct (Ls k <=? i) eqn:F; cbn [andb]; [|reflexivity]. destruct (i <? Ls k + llen (s_list S k)) eqn:F2; [reflexivity|].
    rewrite (proj2 (nth_error_None _ _)) by (unfold llen in F2; lia). reflexivity.
Qed.
