(** Model of kv/key.go and lemmas about it. *)
From Verif Require Import Bytes.

(** Key.Next, kv/key.go:12-17 *)
Definition Next (k : bytes) : bytes := k ++ [z2b 0].

(** the increment loop of PrefixNext, kv/key.go:34-39, on the reversed key (the Go loop
    walks the index from len-1 down to 0): increments bytes modulo 256 until one does not
    become 0; None = the loop ran off the front (i == -1) *)
Fixpoint pn_loop (r : bytes) : option bytes :=
  match r with
  | [] => None
  | x :: r' =>
      let x' := z2b (b2z x + 1) in
      if negb (b2z x' =? 0) then Some (x' :: r')
      else match pn_loop r' with
           | Some s => Some (x' :: s)
           | None => None
           end
  end.

(** Key.PrefixNext, kv/key.go:30-45 *)
Definition PrefixNext (k : bytes) : bytes :=
  match pn_loop (rev k) with
  | Some r => rev r
  | None => k ++ [z2b 0]
  end.

(** Key.Cmp, Key.HasPrefix, kv/key.go:48-55 *)
Definition Cmp (k another : bytes) : comparison := bytes_cmp k another.
Definition HasPrefix (k p : bytes) : bool := has_prefix k p.

(** loop of IsPoint for equal lengths, kv/key.go:90-106, on the reversed keys *)
Fixpoint ip_loop (s e : bytes) : bool :=
  match s, e with
  | x :: s', y :: e' =>
      if negb (b2z x =? 255)
      then ((b2z x + 1) mod 256 =? b2z y) && bytes_eqb s' e'
      else if negb (b2z y =? 0) then false else ip_loop s' e'
  | _, _ => false
  end.

(** KeyRange.IsPoint, kv/key.go:76-107. EndKey[startLen] is only evaluated when
    startLen+1 == len(EndKey), so it never panics. *)
Definition IsPoint (s e : bytes) : bool :=
  if negb (Nat.eqb (length s) (length e)) then
    Nat.eqb (length s + 1) (length e)
    && (b2z (nth (length s) e Byte.x00) =? 0)
    && bytes_eqb s (firstn (length s) e)
  else ip_loop (rev s) (rev e).

(** * Specification-level notions *)
Definition all_ff (k : bytes) : Prop := Forall (fun b => b2z b = 255) k.

(** * Lemmas *)

Lemma byte255 b : b2z b = 255 -> b = z2b 255.
Proof. intros H. rewrite <- (z2b_b2z b), H. reflexivity. Qed.

Lemma all_ff_repeat k : all_ff k -> k = repeat (z2b 255) (length k).
Proof.
  induction 1 as [|x k Hx Hk IH]; [reflexivity|]. cbn. f_equal; [apply byte255; exact Hx | exact IH].
Qed.

(** every key is all 0xFF or q ++ x :: 0xFF^n with x <> 0xFF *)
Lemma key_decomp k : all_ff k \/
  exists q x n, k = q ++ x :: repeat (z2b 255) n /\ b2z x < 255.
Proof.
  induction k as [|y k IH]; [left; constructor|].
  destruct IH as [IH|(q & x & n & -> & Hx)].
  - destruct (Z.eq_dec (b2z y) 255) as [E|E].
    + left. constructor; assumption.
    + right. exists [], y, (length k). pose proof (b2z_range y).
      cbn [app]. rewrite <- all_ff_repeat by exact IH. split; [reflexivity | lia].
  - right. exists (y :: q), x, n. split; [reflexivity | exact Hx].
Qed.

Lemma pn_loop_ff n r : pn_loop (repeat (z2b 255) n ++ r) =
  match pn_loop r with Some s => Some (repeat (z2b 0) n ++ s) | None => None end.
Proof.
  induction n as [|n IH]; [cbn; destruct (pn_loop r); reflexivity|].
  cbn [repeat app pn_loop]. rewrite IH. change (b2z (z2b 255)) with 255. cbn [Z.add].
  change (z2b (255 + 1)) with (z2b 0). change (b2z (z2b 0) =? 0) with true. cbn [negb].
  destruct (pn_loop r); reflexivity.
Qed.

Lemma rev_repeat {A} (x : A) n : rev (repeat x n) = repeat x n.
Proof.
  induction n as [|n IH]; [reflexivity|]. cbn [repeat rev]. rewrite IH.
  clear IH. induction n as [|n IH]; [reflexivity|]. cbn [repeat app]. f_equal. exact IH.
Qed.

Lemma pn_loop_nonff x r : b2z x < 255 -> pn_loop (x :: r) = Some (z2b (b2z x + 1) :: r).
Proof.
  intros H. cbn [pn_loop]. rewrite b2z_z2b. pose proof (b2z_range x).
  rewrite Z.mod_small by lia. destruct (Z.eqb_spec (b2z x + 1) 0); [lia | reflexivity].
Qed.

Lemma PrefixNext_form q x n : b2z x < 255 ->
  PrefixNext (q ++ x :: repeat (z2b 255) n) = q ++ z2b (b2z x + 1) :: repeat (z2b 0) n.
Proof.
  intros H. unfold PrefixNext. rewrite rev_app_distr. cbn [rev]. rewrite rev_repeat, <- app_assoc. cbn [app].
  rewrite pn_loop_ff, pn_loop_nonff by exact H.
  rewrite rev_app_distr, rev_repeat. cbn [rev]. rewrite rev_involutive, <- app_assoc. reflexivity.
Qed.

Lemma PrefixNext_ff k : all_ff k -> PrefixNext k = k ++ [z2b 0].
Proof.
  intros H. unfold PrefixNext. rewrite (all_ff_repeat k H), rev_repeat.
  rewrite <- (app_nil_r (repeat (z2b 255) (length k))) at 1. rewrite pn_loop_ff. reflexivity.
Qed.

Lemma prefix_lt_PrefixNext p k : ~ all_ff p -> has_prefix k p = true -> bytes_lt k (PrefixNext p).
Proof.
  intros N. destruct (key_decomp p) as [F|(q & x & n & -> & Hx)]; [contradiction|].
  rewrite has_prefix_spec. intros [s ->]. rewrite PrefixNext_form by exact Hx.
  unfold bytes_lt. rewrite <- app_assoc, bytes_cmp_app_l. cbn [app bytes_cmp].
  rewrite b2z_z2b. pose proof (b2z_range x). rewrite Z.mod_small by lia.
  destruct (Z.compare_spec (b2z x) (b2z x + 1)); try lia. reflexivity.
Qed.

Lemma zeros_le n k : bytes_lt k (repeat (z2b 0) n) -> exists m, (m < n)%nat /\ k = repeat (z2b 0) m.
Proof.
  revert k. induction n as [|n IH]; intros [|y k]; unfold bytes_lt; cbn [repeat bytes_cmp]; try discriminate.
  - intros _. exists 0%nat. split; [lia | reflexivity].
  - change (b2z (z2b 0)) with 0. pose proof (b2z_range y).
    destruct (Z.compare_spec (b2z y) 0) as [E|E|E]; try discriminate; try lia.
    intros L. apply IH in L. destruct L as (m & Hm & ->). exists (S m). split; [lia|].
    cbn. f_equal. rewrite <- (z2b_b2z y), E. reflexivity.
Qed.

(** exactly which keys lie in [p, PrefixNext p) *)
Lemma PrefixNext_range q x n k : b2z x < 255 ->
  let p := q ++ x :: repeat (z2b 255) n in
  (bytes_le p k /\ bytes_lt k (PrefixNext p)) <->
  (has_prefix k p = true \/ exists m, (m < n)%nat /\ k = q ++ z2b (b2z x + 1) :: repeat (z2b 0) m).
Proof.
  intros Hx p. split.
  - intros [H1 H2]. destruct (has_prefix k p) eqn:E; [left; reflexivity | right].
    unfold p in H2. rewrite PrefixNext_form in H2 by exact Hx.
    assert (Hq : has_prefix k q = true).
    { apply (prefix_interval q p k (q ++ z2b (b2z x + 1) :: repeat (z2b 0) n)).
      - unfold p. apply has_prefix_app. - apply has_prefix_app. - exact H1.
      - apply bytes_le_lteq. left. exact H2. }
    apply has_prefix_spec in Hq. destruct Hq as [k' ->].
    unfold p in E, H1. unfold bytes_le, bytes_lt in *. rewrite bytes_cmp_app_l in H1, H2.
    rewrite has_prefix_app_iff in E.
    destruct k' as [|y k']; [cbn in H1; congruence|]. cbn [bytes_cmp has_prefix] in *.
    rewrite b2z_z2b in H2. pose proof (b2z_range x). rewrite Z.mod_small in H2 by lia.
    destruct (Z.compare_spec (b2z y) (b2z x + 1)) as [F|F|F]; try discriminate.
    + apply zeros_le in H2. destruct H2 as (m & Hm & ->). exists m. split; [exact Hm|].
      f_equal. f_equal. rewrite <- (z2b_b2z y), F. reflexivity.
    + destruct (Z.compare_spec (b2z x) (b2z y)) as [G|G|G]; try congruence; try lia.
      apply b2z_inj in G. subst y. rewrite byte_eqb_refl in E. cbn [andb] in E.
      (* k' >= FF^n without having it as prefix: impossible *)
      exfalso. clear - H1 E. revert n H1 E. induction k' as [|y k' IH]; intros [|n]; cbn; try congruence.
      change (b2z (z2b 255)) with 255. pose proof (b2z_range y) as R.
      destruct (Z.compare_spec 255 (b2z y)) as [G|G|G]; try congruence; try lia.
      unfold byte_eqb. change (b2z (z2b 255)) with 255. rewrite <- G. apply IH.
  - intros [H|(m & Hm & ->)].
    + split; [apply prefix_ge; exact H|]. apply prefix_lt_PrefixNext; [|exact H].
      intros F. unfold p, all_ff in F. rewrite Forall_forall in F. specialize (F x).
      rewrite F in Hx; [lia|]. apply in_or_app. right. left. reflexivity.
    + unfold p. rewrite PrefixNext_form by exact Hx. pose proof (b2z_range x). split.
      * unfold bytes_le. rewrite bytes_cmp_app_l. cbn [bytes_cmp]. rewrite b2z_z2b, Z.mod_small by lia.
        destruct (Z.compare_spec (b2z x) (b2z x + 1)); try lia. discriminate.
      * unfold bytes_lt. rewrite bytes_cmp_app_l. cbn [bytes_cmp]. rewrite Z.compare_refl.
        replace n with (m + (n - m))%nat by lia. rewrite repeat_app.
        apply bytes_lt_app_r. destruct (n - m)%nat eqn:E; [lia | discriminate].
Qed.

Lemma PrefixNext_gt p : bytes_lt p (PrefixNext p).
Proof.
  destruct (key_decomp p) as [F|(q & x & n & -> & Hx)].
  - rewrite PrefixNext_ff by exact F. apply bytes_lt_app_r. discriminate.
  - apply (PrefixNext_range q x n _ Hx). left. apply has_prefix_refl.
Qed.

Lemma Next_succ k j : bytes_lt k j <-> bytes_le (Next k) j.
Proof.
  unfold Next. split.
  - revert j. induction k as [|x k IH]; intros [|y j]; unfold bytes_lt, bytes_le; cbn [app bytes_cmp]; try discriminate.
    + change (b2z (z2b 0)) with 0. pose proof (b2z_range y). intros _.
      destruct (Z.compare_spec 0 (b2z y)); try discriminate; try lia. destruct j; discriminate.
    + destruct (b2z x ?= b2z y); try discriminate. apply IH.
  - intros H. eapply bytes_lt_le_trans; [|exact H]. apply bytes_lt_app_r. discriminate.
Qed.

Lemma ip_loop_spec s e : ip_loop s e = true <->
  (exists x r n, s = repeat (z2b 255) n ++ x :: r /\ b2z x < 255 /\
                 e = repeat (z2b 0) n ++ z2b (b2z x + 1) :: r).
Proof.
  split.
  - revert e. induction s as [|x s IH]; intros [|y e]; cbn [ip_loop]; try discriminate.
    destruct (Z.eqb_spec (b2z x) 255) as [E|E]; cbn [negb].
    + destruct (Z.eqb_spec (b2z y) 0) as [F|F]; cbn [negb]; [|discriminate].
      intros H. apply IH in H. destruct H as (z & r & n & -> & Hz & ->).
      exists z, r, (S n). cbn [repeat app]. repeat split; [|exact Hz|].
      * f_equal. rewrite <- (z2b_b2z x), E. reflexivity.
      * f_equal. rewrite <- (z2b_b2z y), F. reflexivity.
    + rewrite andb_true_iff, Z.eqb_eq, bytes_eqb_eq. intros [H ->].
      pose proof (b2z_range x). exists x, e, 0%nat. cbn [repeat app]. repeat split; [lia|].
      f_equal. rewrite <- (z2b_b2z y), <- H. apply b2z_inj. rewrite !b2z_z2b. lia.
  - intros (x & r & n & -> & Hx & ->). induction n as [|n IH].
    + cbn [repeat app ip_loop]. pose proof (b2z_range x).
      destruct (Z.eqb_spec (b2z x) 255); [lia|]. cbn [negb].
      rewrite b2z_z2b, Z.eqb_refl, bytes_eqb_refl. reflexivity.
    + cbn [repeat app ip_loop]. exact IH.
Qed.

Lemma IsPoint_spec s e : IsPoint s e = true <->
  e = Next s \/ (~ all_ff s /\ e = PrefixNext s).
Proof.
  unfold IsPoint. destruct (Nat.eqb_spec (length s) (length e)) as [L|L]; cbn [negb].
  - rewrite ip_loop_spec. split.
    + intros (x & r & n & Hs & Hx & He). right.
      apply (f_equal (@rev _)) in Hs, He. rewrite rev_involutive in Hs, He.
      rewrite rev_app_distr in Hs, He. cbn [rev] in Hs, He. rewrite rev_repeat, <- app_assoc in Hs, He. cbn [app] in Hs, He.
      split.
      * intros F. rewrite Hs in F. unfold all_ff in F. rewrite Forall_forall in F.
        specialize (F x). rewrite F in Hx; [lia|]. apply in_or_app. right. left. reflexivity.
      * rewrite Hs, PrefixNext_form by exact Hx. exact He.
    + intros [->|[N ->]].
      * unfold Next in L. rewrite app_length in L. cbn in L. lia.
      * destruct (key_decomp s) as [F|(q & x & n & -> & Hx)]; [contradiction|].
        exists x, (rev q), n. rewrite PrefixNext_form by exact Hx.
        rewrite !rev_app_distr. cbn [rev]. rewrite !rev_repeat, <- !app_assoc. cbn [app]. repeat split. exact Hx.
  - rewrite !andb_true_iff, Nat.eqb_eq, Z.eqb_eq, bytes_eqb_eq. split.
    + intros [[H1 H2] H3]. left. unfold Next. rewrite H3 at 1.
      rewrite <- (firstn_skipn (length s) e) at 1. f_equal.
      assert (K : length (skipn (length s) e) = 1%nat) by (rewrite skipn_length; lia).
      rewrite <- (firstn_skipn (length s) e) in H2.
      rewrite app_nth2 in H2 by (rewrite firstn_length; lia).
      rewrite firstn_length, Nat.min_l, Nat.sub_diag in H2 by lia.
      destruct (skipn (length s) e) as [|z [|]]; cbn in K; try lia. cbn in H2.
      f_equal. rewrite <- (z2b_b2z z), H2. reflexivity.
    + intros [->|[N ->]].
      * unfold Next. rewrite app_length. cbn [length]. rewrite app_nth2, Nat.sub_diag by lia.
        rewrite firstn_app, firstn_all, Nat.sub_diag. cbn [firstn nth]. rewrite app_nil_r.
        repeat split; reflexivity.
      * exfalso. destruct (key_decomp s) as [F|(q & x & n & -> & Hx)]; [contradiction|].
        rewrite PrefixNext_form in L by exact Hx. rewrite !app_length in L. cbn [length] in L.
        rewrite !repeat_length in L. lia.
Qed.

Lemma IsPoint_unique s e : IsPoint s e = true ->
  forall k, length k = length s -> (bytes_le s k /\ bytes_lt k e <-> k = s).
Proof.
  rewrite IsPoint_spec. intros H k L. split.
  - intros [H1 H2]. destruct H as [->|[N ->]].
    + rewrite bytes_le_lteq, Next_succ in H1. destruct H1 as [H1|H1]; [|congruence].
      exfalso. apply bytes_not_lt in H1. apply H1. exact H2.
    + destruct (key_decomp s) as [F|(q & x & n & -> & Hx)]; [contradiction|].
      destruct (proj1 (PrefixNext_range q x n k Hx) (conj H1 H2)) as [P|(m & Hm & ->)].
      * apply has_prefix_spec in P. destruct P as [t ->]. rewrite app_length in L.
        destruct t; [apply app_nil_r | cbn in L; lia].
      * rewrite !app_length in L. cbn [length] in L. rewrite !repeat_length in L. lia.
  - intros ->. split; [apply bytes_le_refl|]. destruct H as [->|[_ ->]].
    + apply Next_succ, bytes_le_refl.
    + apply PrefixNext_gt.
Qed.
