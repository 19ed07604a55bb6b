(** Lemmas about the memcomparable codecs. *)
From Verif Require Import Bytes Memcmp.

Lemma firstn_app_exact {A} n (a b : list A) : length a = n -> firstn n (a ++ b) = a.
Proof. intros <-. rewrite firstn_app, firstn_all, Nat.sub_diag. cbn. apply app_nil_r. Qed.
Lemma skipn_app_exact {A} n (a b : list A) : length a = n -> skipn n (a ++ b) = b.
Proof. intros <-. rewrite skipn_app, skipn_all, Nat.sub_diag. reflexivity. Qed.

Lemma DOk_inj {A} l l' (v v' : A) : DOk l v = DOk l' v' -> l = l' /\ v = v'.
Proof. intros H. inversion H. auto. Qed.

(** ** EncodeBytes unfolded *)

Definition enc (data : bytes) : bytes := EncodeBytes [] data.

Lemma EncodeBytes_app b data : EncodeBytes b data = b ++ enc data.
Proof. reflexivity. Qed.

Definition marker (pad : nat) : byte := z2b (255 - Z.of_nat pad).

Lemma enc_short data : (length data < 8)%nat ->
  enc data = data ++ repeat encPad (8 - length data) ++ [marker (8 - length data)].
Proof.
  intros H. unfold enc, EncodeBytes. change encGroupSize with 8%nat.
  rewrite Nat.div_small by lia. cbn [app Nat.add enc_loop]. change encGroupSize with 8%nat.
  destruct (Nat.leb_spec 8 (length data)); [lia|]. reflexivity.
Qed.

Lemma enc_long g data : length g = 8%nat -> enc (g ++ data) = g ++ marker 0 :: enc data.
Proof.
  intros H. unfold enc, EncodeBytes. change encGroupSize with 8%nat. cbn [app].
  rewrite app_length, H.
  replace ((8 + length data) / 8 + 1)%nat with (S (length data / 8 + 1))%nat
    by (replace (8 + length data)%nat with (length data + 1 * 8)%nat by lia;
        rewrite Nat.div_add by lia; lia).
  cbn [enc_loop]. change encGroupSize with 8%nat.
  rewrite app_length, H. destruct (Nat.leb_spec 8 (8 + length data)); [|lia].
  rewrite firstn_app_exact, skipn_app_exact by exact H.
  reflexivity.
Qed.

(** induction principle by groups *)
Lemma group_ind (P : bytes -> Prop) :
  (forall d, (length d < 8)%nat -> P d) ->
  (forall g d, length g = 8%nat -> P d -> P (g ++ d)) ->
  forall d, P d.
Proof.
  intros H1 H2 d. remember (length d) as n eqn:Hn. revert d Hn.
  induction n as [n IH] using lt_wf_ind. intros d ->.
  destruct (Nat.ltb_spec (length d) 8) as [L|L]; [apply H1; exact L|].
  rewrite <- (firstn_skipn 8 d). apply H2.
  - rewrite firstn_length. lia.
  - eapply IH; [|reflexivity]. rewrite skipn_length. lia.
Qed.

Lemma b2z_marker p : (p <= 8)%nat -> b2z (marker p) = 255 - Z.of_nat p.
Proof. intros H. unfold marker. rewrite b2z_z2b. lia. Qed.
Lemma b2z_pad : b2z encPad = 0.
Proof. reflexivity. Qed.

Lemma enc_length data : length (enc data) = (9 * (length data / 8 + 1))%nat.
Proof.
  induction data as [d H|g d H IH] using group_ind.
  - rewrite enc_short by exact H. rewrite !app_length, repeat_length. cbn [length].
    rewrite Nat.div_small by lia. lia.
  - rewrite enc_long by exact H. rewrite !app_length. cbn [length]. rewrite IH, H.
    replace (8 + length d)%nat with (length d + 1 * 8)%nat by lia.
    rewrite Nat.div_add by lia. lia.
Qed.

Lemma enc_nonempty data : enc data <> [].
Proof. intros H. pose proof (enc_length data) as L. rewrite H in L. cbn [length] in L. lia. Qed.

Lemma EncodedBytesLength_ok data :
  Z.of_nat (length (enc data)) = EncodedBytesLength (Z.of_nat (length data)).
Proof.
  rewrite enc_length. unfold EncodedBytesLength.
  rewrite Z.rem_mod_nonneg, Z.quot_div_nonneg by lia.
  rewrite Nat2Z.inj_mul, Nat2Z.inj_add, Nat2Z.inj_div. lia.
Qed.

(** ** Order *)

Lemma pad_lt n b ma mb x y :
  (length b <= n)%nat -> b2z ma < b2z mb ->
  bytes_cmp (repeat encPad n ++ ma :: x) (b ++ repeat encPad (n - length b) ++ mb :: y) = Lt.
Proof.
  revert b. induction n as [|n IH]; intros b Hb Hm.
  - destruct b; [|cbn in Hb; lia]. cbn [length Nat.sub repeat app bytes_cmp].
    apply Z.compare_lt_iff in Hm. rewrite Hm. reflexivity.
  - destruct b as [|v b].
    + cbn [length Nat.sub repeat app bytes_cmp]. rewrite Z.compare_refl.
      specialize (IH [] ltac:(cbn; lia) Hm). cbn [length app] in IH. rewrite Nat.sub_0_r in IH. exact IH.
    + cbn [length] in *. cbn [Nat.sub repeat app bytes_cmp]. rewrite b2z_pad.
      destruct (Z.compare_spec 0 (b2z v)) as [E|E|E].
      * apply IH; [lia | exact Hm].
      * reflexivity.
      * pose proof (b2z_range v). lia.
Qed.

Lemma group_cmp n a b x y :
  (n <= 8)%nat -> (length a <= n)%nat -> (length b <= n)%nat ->
  bytes_cmp (a ++ repeat encPad (n - length a) ++ marker (n - length a) :: x)
            (b ++ repeat encPad (n - length b) ++ marker (n - length b) :: y)
  = then_cmp (bytes_cmp a b) (bytes_cmp x y).
Proof.
  intros Hn Ha Hb. revert a b Ha Hb. induction n as [|n IH]; intros a b Ha Hb.
  - destruct a; [|cbn in Ha; lia]. destruct b; [|cbn in Hb; lia]. cbn [length Nat.sub repeat app bytes_cmp].
    rewrite Z.compare_refl. reflexivity.
  - destruct a as [|u a], b as [|v b].
    + cbn [length Nat.sub app]. rewrite bytes_cmp_app_l. cbn [bytes_cmp]. rewrite Z.compare_refl. reflexivity.
    + change (length (@nil byte)) with 0%nat. rewrite Nat.sub_0_r.
      cbn [bytes_cmp then_cmp]. rewrite (app_nil_l (repeat _ _ ++ _)).
      apply pad_lt; [exact Hb|]. cbn [length] in Hb.
      rewrite !b2z_marker by lia. cbn [length]. lia.
    + change (length (@nil byte)) with 0%nat. rewrite Nat.sub_0_r.
      rewrite (app_nil_l (repeat _ _ ++ _)).
      rewrite bytes_cmp_antisym. rewrite pad_lt; [reflexivity | exact Ha |].
      cbn [length] in Ha. rewrite !b2z_marker by lia. cbn [length]. lia.
    + cbn [length Nat.sub app bytes_cmp] in *.
      destruct (b2z u ?= b2z v); [|reflexivity..].
      apply IH; lia.
Qed.

Lemma cmp_longer_l a b r :
  (length b <= length a)%nat -> a <> b -> bytes_cmp (a ++ r) b = bytes_cmp a b.
Proof.
  revert b. induction a as [|x a IH]; intros [|y b] L N; cbn in *; try lia; try congruence.
  destruct (Z.compare_spec (b2z x) (b2z y)) as [E|E|E]; [|reflexivity..].
  apply b2z_inj in E. subst. apply IH; [lia | congruence].
Qed.

Lemma cmp_neq a b : a <> b -> forall c, then_cmp (bytes_cmp a b) c = bytes_cmp a b.
Proof. intros H c. destruct (bytes_cmp a b) eqn:E; [|reflexivity..]. apply bytes_cmp_eq in E. congruence. Qed.

Lemma enc_cmp a b x y :
  bytes_cmp (enc a ++ x) (enc b ++ y) = then_cmp (bytes_cmp a b) (bytes_cmp x y).
Proof.
  revert b. induction a as [a Ha|g a Hg IH] using group_ind; intros b;
  destruct (Nat.ltb_spec (length b) 8) as [Lb|Lb].
  - rewrite !enc_short by assumption. rewrite <- !app_assoc. cbn [app].
    apply group_cmp; lia.
  - rewrite <- (firstn_skipn 8 b). set (h := firstn 8 b). set (r := skipn 8 b).
    assert (Hh : length h = 8%nat) by (unfold h; rewrite firstn_length; lia).
    rewrite (enc_short a), (enc_long h r) by assumption. rewrite <- !app_assoc. cbn [app].
    assert (N : h <> a) by (intros ->; lia).
    rewrite <- (app_nil_l (marker 0 :: enc r ++ y)).
    replace (@nil byte) with (repeat encPad (8 - length h)) at 1 by (rewrite Hh; reflexivity).
    replace (marker 0) with (marker (8 - length h)) by (rewrite Hh; reflexivity).
    rewrite group_cmp by lia.
    rewrite cmp_neq by congruence.
    rewrite (bytes_cmp_antisym (h ++ r) a), cmp_longer_l by (try exact N; lia).
    rewrite <- bytes_cmp_antisym. rewrite cmp_neq by congruence. reflexivity.
  - rewrite (enc_long g a), (enc_short b) by assumption. rewrite <- !app_assoc. cbn [app].
    assert (N : g <> b) by (intros ->; lia).
    rewrite <- (app_nil_l (marker 0 :: enc a ++ x)).
    replace (@nil byte) with (repeat encPad (8 - length g)) at 1 by (rewrite Hg; reflexivity).
    replace (marker 0) with (marker (8 - length g)) by (rewrite Hg; reflexivity).
    rewrite group_cmp by lia.
    rewrite cmp_neq by congruence.
    rewrite cmp_longer_l by (try exact N; lia). rewrite cmp_neq by exact N. reflexivity.
  - rewrite <- (firstn_skipn 8 b). set (h := firstn 8 b). set (r := skipn 8 b).
    assert (Hh : length h = 8%nat) by (unfold h; rewrite firstn_length; lia).
    rewrite !enc_long by assumption. rewrite <- !app_assoc. cbn [app].
    rewrite !bytes_cmp_app_len by lia. cbn [bytes_cmp]. rewrite Z.compare_refl, IH.
    destruct (bytes_cmp g h); reflexivity.
Qed.

Lemma then_cmp_eq c d : then_cmp c d = Eq -> c = Eq /\ d = Eq.
Proof. destruct c; cbn; intros H; try discriminate. split; [reflexivity | exact H]. Qed.

Lemma enc_inj_app a b x y : enc a ++ x = enc b ++ y -> a = b /\ x = y.
Proof.
  intros H. apply bytes_cmp_eq in H. rewrite enc_cmp in H. apply then_cmp_eq in H.
  destruct H as [H1 H2]. apply bytes_cmp_eq in H1, H2. auto.
Qed.
Lemma enc_inj a b : enc a = enc b -> a = b.
Proof. intros H. apply (enc_inj_app a b [] []). rewrite H. reflexivity. Qed.

(** prefix freedom *)
Lemma enc_prefix_free a b x : has_prefix (enc a ++ x) (enc b) = true -> a = b.
Proof. rewrite has_prefix_spec. intros [s H]. apply enc_inj_app in H. tauto. Qed.

(** ** reverseBytes is bytewise complement on every platform *)

Lemma be_compl8 b : length b = 8%nat -> be_bytes 8 (two64 - 1 - be_val b) = map bcompl b.
Proof.
  intros H.
  assert (K : be_val (map bcompl b) = 256 ^ Z.of_nat (length b) - 1 - be_val b).
  { clear H. induction b as [|x b IH] using rev_ind; [reflexivity|].
    rewrite map_app. cbn [map]. rewrite !be_val_snoc, IH, b2z_bcompl, app_length.
    cbn [length]. rewrite Nat2Z.inj_add. change (Z.of_nat 1) with 1. rewrite Z.pow_add_r by lia. lia. }
  rewrite H, pow256_8 in K. rewrite <- K.
  rewrite <- (be_bytes_val (map bcompl b)) at 2. rewrite map_length, H. reflexivity.
Qed.

Lemma reverse_words_compl w b : (w * 8 <= length b)%nat ->
  reverse_words w b = map bcompl (firstn (w * 8) b).
Proof.
  revert b. induction w as [|w IH]; intros b H; [reflexivity|].
  cbn [reverse_words]. rewrite be_compl8 by (rewrite firstn_length; lia).
  rewrite IH by (rewrite skipn_length; lia). rewrite <- map_app. f_equal.
  replace (S w * 8)%nat with (8 + w * 8)%nat by lia.
  rewrite <- (firstn_skipn 8 b) at 3. rewrite firstn_app.
  rewrite (firstn_all2 (n := 8 + w * 8) (firstn 8 b)) by (rewrite firstn_length; lia).
  f_equal. f_equal. rewrite firstn_length. lia.
Qed.

Lemma reverseBytes_compl p b : reverseBytes p b = compl b.
Proof.
  destruct p; [|reflexivity]. cbn [reverseBytes]. unfold fastReverseBytes, compl.
  pose proof (Nat.mul_div_le (length b) 8 ltac:(lia)).
  rewrite reverse_words_compl by lia. rewrite <- map_app, firstn_skipn. reflexivity.
Qed.

Lemma EncodeBytesDesc_compl p b data : EncodeBytesDesc p b data = b ++ compl (enc data).
Proof.
  unfold EncodeBytesDesc. rewrite EncodeBytes_app, reverseBytes_compl.
  rewrite firstn_app, firstn_all, Nat.sub_diag. cbn [firstn]. rewrite app_nil_r.
  rewrite skipn_app, skipn_all, Nat.sub_diag. reflexivity.
Qed.

(** ** Desc order *)
Lemma compl_cmp_noprefix a b x y :
  has_prefix a b = false -> has_prefix b a = false ->
  bytes_cmp (compl a ++ x) (compl b ++ y) = CompOpp (bytes_cmp a b).
Proof.
  revert b. induction a as [|u a IH]; intros [|v b]; cbn [has_prefix]; try discriminate.
  cbn [compl map app bytes_cmp]. rewrite !b2z_bcompl. intros H1 H2.
  assert (G : (255 - b2z u ?= 255 - b2z v) = CompOpp (b2z u ?= b2z v)).
  { rewrite <- Z.compare_antisym. destruct (Z.compare_spec (b2z v) (b2z u));
    [apply Z.compare_eq_iff | apply Z.compare_lt_iff | apply Z.compare_gt_iff]; lia. }
  rewrite G. destruct (Z.compare_spec (b2z u) (b2z v)) as [E|E|E]; cbn [CompOpp]; [|reflexivity..].
  apply b2z_inj in E. subst v. rewrite byte_eqb_refl in H1, H2. apply IH; assumption.
Qed.

Lemma enc_desc_cmp a b x y :
  bytes_cmp (compl (enc a) ++ x) (compl (enc b) ++ y)
  = then_cmp (CompOpp (bytes_cmp a b)) (bytes_cmp x y).
Proof.
  destruct (bytes_eq_dec a b) as [->|N].
  - rewrite bytes_cmp_app_l, bytes_cmp_refl. reflexivity.
  - rewrite compl_cmp_noprefix.
    + pose proof (enc_cmp a b [] []) as H. rewrite !app_nil_r in H. rewrite H.
      cbn [bytes_cmp]. destruct (bytes_cmp a b) eqn:E; try reflexivity.
      apply bytes_cmp_eq in E. congruence.
    + destruct (has_prefix (enc a) (enc b)) eqn:E; [|reflexivity].
      rewrite <- (app_nil_r (enc a)) in E. apply enc_prefix_free in E. congruence.
    + destruct (has_prefix (enc b) (enc a)) eqn:E; [|reflexivity].
      rewrite <- (app_nil_r (enc b)) in E. apply enc_prefix_free in E. congruence.
Qed.

(** ** Decoding *)


(** one iteration of the decoder on a 9-byte group [g ++ [m]] *)
Definition pad_of (rev : bool) (m : byte) : Z := if rev then b2z m else 255 - b2z m.
Definition pad_byte (rev : bool) : byte := if rev then z2b 255 else encPad.

Lemma dec_loop_step fuel rev g m rest buf :
  length g = 8%nat ->
  dec_loop (S fuel) rev (g ++ m :: rest) buf =
    let p := pad_of rev m in
    if 8 <? p then DErr EInvalidMarker
    else if negb (p =? 0) then
      if forallb (fun v => byte_eqb v (pad_byte rev)) (skipn (Z.to_nat (8 - p)) g)
      then DOk rest (buf ++ firstn (Z.to_nat (8 - p)) g)
      else DErr EInvalidPadding
    else dec_loop fuel rev rest (buf ++ g).
Proof.
  intros H. cbn [dec_loop]. change (encGroupSize + 1)%nat with 9%nat. change encGroupSize with 8%nat.
  rewrite app_length. cbn [length]. destruct (Nat.ltb_spec (length g + S (length rest)) 9); [lia|].
  replace (g ++ m :: rest) with ((g ++ [m]) ++ rest) by (rewrite <- app_assoc; reflexivity).
  assert (H9 : length (g ++ [m]) = 9%nat) by (rewrite app_length; cbn; lia).
  rewrite firstn_app_exact, skipn_app_exact, firstn_app_exact by assumption.
  rewrite app_nth2, H by lia. rewrite Nat.sub_diag. cbn [nth].
  assert (P : (if rev then b2z m else (encMarker - b2z m) mod 256) = pad_of rev m).
  { unfold pad_of, encMarker. pose proof (b2z_range m). destruct rev; lia. }
  rewrite P. cbv zeta. change (if rev then z2b encMarker else encPad) with (pad_byte rev).
  destruct (8 <? pad_of rev m); [reflexivity|].
  destruct (Z.eqb_spec (pad_of rev m) 0) as [E|E]; cbn [negb]; [|reflexivity].
  rewrite E. change (Z.to_nat (8 - 0)) with 8%nat. rewrite <- H, firstn_all. reflexivity.
Qed.

Lemma dec_loop_short fuel rev b buf :
  (length b < 9)%nat -> dec_loop (S fuel) rev b buf = DErr EInsufficient.
Proof.
  intros H. cbn [dec_loop]. change (encGroupSize + 1)%nat with 9%nat.
  destruct (Nat.ltb_spec (length b) 9); [reflexivity | lia].
Qed.

(** direction-parametric encoding *)
Definition encd (rev : bool) (d : bytes) : bytes := if rev then compl (enc d) else enc d.
Definition flip (rev : bool) (d : bytes) : bytes := if rev then compl d else d.

Lemma flip_length rev d : length (flip rev d) = length d.
Proof. destruct rev; [apply compl_length | reflexivity]. Qed.
Lemma flip_invol rev d : flip rev (flip rev d) = d.
Proof. destruct rev; [apply compl_invol | reflexivity]. Qed.
Lemma flip_app rev a b : flip rev (a ++ b) = flip rev a ++ flip rev b.
Proof. destruct rev; [apply compl_app | reflexivity]. Qed.

Lemma encd_flip rev d : encd rev d = flip rev (enc d).
Proof. destruct rev; reflexivity. Qed.

Definition bflip (rev : bool) (b : byte) : byte := if rev then bcompl b else b.
Lemma flip_cons rev x d : flip rev (x :: d) = bflip rev x :: flip rev d.
Proof. destruct rev; reflexivity. Qed.
Lemma flip_repeat rev n : flip rev (repeat encPad n) = repeat (pad_byte rev) n.
Proof.
  destruct rev; [|reflexivity]. cbn. induction n as [|n IH]; [reflexivity|].
  cbn [repeat map compl]. f_equal. exact IH.
Qed.
Lemma pad_of_marker rev p : (p <= 8)%nat -> pad_of rev (bflip rev (marker p)) = Z.of_nat p.
Proof.
  intros H. destruct rev; cbn [pad_of bflip]; rewrite ?b2z_bcompl, b2z_marker by exact H; lia.
Qed.
Lemma forallb_repeat_pad n pb : forallb (fun v => byte_eqb v pb) (repeat pb n) = true.
Proof. induction n as [|n IH]; [reflexivity|]. cbn. rewrite byte_eqb_refl. exact IH. Qed.

Lemma dec_loop_enc rev d : forall fuel buf rest,
  (length d < fuel)%nat ->
  dec_loop fuel rev (encd rev d ++ rest) buf = DOk rest (buf ++ flip rev d).
Proof.
  induction d as [d H|g d H IH] using group_ind; intros fuel buf rest Hf.
  - destruct fuel as [|fuel]; [lia|]. rewrite encd_flip, enc_short by exact H.
    rewrite !flip_app, flip_cons, flip_repeat.
    replace (flip rev []) with (@nil byte) by (destruct rev; reflexivity).
    rewrite <- !app_assoc. cbn [app]. rewrite app_assoc.
    rewrite dec_loop_step by (rewrite app_length, flip_length, repeat_length; lia).
    rewrite pad_of_marker by lia. cbv zeta.
    destruct (Z.ltb_spec 8 (Z.of_nat (8 - length d))); [lia|].
    destruct (Z.eqb_spec (Z.of_nat (8 - length d)) 0); [lia|]. cbn [negb].
    replace (Z.to_nat (8 - Z.of_nat (8 - length d))) with (length (flip rev d)) by (rewrite flip_length; lia).
    rewrite skipn_app_exact, firstn_app_exact by reflexivity.
    rewrite forallb_repeat_pad. reflexivity.
  - destruct fuel as [|fuel]; [lia|]. rewrite encd_flip, enc_long by exact H.
    rewrite flip_app, flip_cons. rewrite <- app_assoc. cbn [app].
    rewrite dec_loop_step by (rewrite flip_length; exact H).
    rewrite pad_of_marker by lia. change (Z.of_nat 0) with 0. cbv zeta. cbn [Z.ltb Z.compare Z.eqb negb].
    rewrite <- encd_flip. rewrite IH by (rewrite app_length in Hf; lia).
    rewrite flip_app, app_assoc. reflexivity.
Qed.

Lemma decodeBytes_enc p rev d rest : decodeBytes p rev (encd rev d ++ rest) = DOk rest d.
Proof.
  unfold decodeBytes. rewrite dec_loop_enc.
  - cbn [app]. destruct rev; cbn [flip]; [rewrite reverseBytes_compl, compl_invol|]; reflexivity.
  - rewrite app_length, encd_flip, flip_length, enc_length.
    pose proof (Nat.div_mod (length d) 8 ltac:(lia)).
    pose proof (Nat.mod_upper_bound (length d) 8 ltac:(lia)). lia.
Qed.

Lemma split9 (b : bytes) : (9 <= length b)%nat ->
  exists g m rest, length g = 8%nat /\ b = g ++ m :: rest.
Proof.
  intros H. exists (firstn 8 b).
  destruct (skipn 8 b) as [|m rest] eqn:E.
  - pose proof (skipn_length 8 b) as L. rewrite E in L. cbn in L. lia.
  - exists m, rest. split; [rewrite firstn_length; lia|]. rewrite <- E. symmetry. apply firstn_skipn.
Qed.

Lemma forallb_pad_repeat l pb : forallb (fun v => byte_eqb v pb) l = true -> l = repeat pb (length l).
Proof.
  induction l as [|x l IH]; cbn; [reflexivity|]. rewrite andb_true_iff, byte_eqb_spec.
  intros [-> H]. f_equal. apply IH. exact H.
Qed.

Lemma bflip_marker_of rev m p : pad_of rev m = Z.of_nat p -> (p <= 8)%nat -> m = bflip rev (marker p).
Proof.
  intros H Hp. apply b2z_inj. destruct rev; cbn [pad_of bflip] in *; rewrite ?b2z_bcompl, b2z_marker by exact Hp; lia.
Qed.

Lemma dec_loop_canonical rev : forall fuel b buf lft data,
  dec_loop fuel rev b buf = DOk lft data ->
  exists d, data = buf ++ flip rev d /\ b = encd rev d ++ lft.
Proof.
  induction fuel as [|fuel IH]; intros b buf lft data; [discriminate|].
  destruct (Nat.ltb_spec (length b) 9) as [L|L]; [rewrite dec_loop_short by exact L; discriminate|].
  destruct (split9 b L) as (g & m & rest & Hg & ->).
  rewrite dec_loop_step by exact Hg. cbv zeta.
  assert (P0 : 0 <= pad_of rev m) by (unfold pad_of; pose proof (b2z_range m); destruct rev; lia).
  destruct (Z.ltb_spec 8 (pad_of rev m)) as [|P8]; [discriminate|].
  assert (HP : exists p, pad_of rev m = Z.of_nat p /\ (p <= 8)%nat) by (exists (Z.to_nat (pad_of rev m)); lia).
  destruct HP as (p & HP & Hp8). pose proof (bflip_marker_of rev m p HP Hp8) as Hm. rewrite HP.
  destruct (Z.eqb_spec (Z.of_nat p) 0) as [E|E]; cbn [negb].
  - intros H. apply IH in H. destruct H as (d & -> & ->).
    exists (flip rev g ++ d). rewrite flip_app, flip_invol, <- app_assoc. split; [reflexivity|].
    rewrite (encd_flip rev (_ ++ _)), enc_long by (rewrite flip_length; exact Hg).
    rewrite flip_app, flip_invol, flip_cons, <- encd_flip, <- app_assoc. cbn [app].
    rewrite Hm. replace p with 0%nat by lia. reflexivity.
  - replace (Z.to_nat (8 - Z.of_nat p)) with (8 - p)%nat by lia.
    destruct (forallb _ _) eqn:F; [|discriminate]. intros H. inversion H. subst lft data. clear H.
    apply forallb_pad_repeat in F. rewrite skipn_length, Hg in F.
    replace (8 - (8 - p))%nat with p in F by lia.
    exists (flip rev (firstn (8 - p) g)). rewrite flip_invol. split; [reflexivity|].
    rewrite encd_flip. assert (Lf : length (firstn (8 - p) g) = (8 - p)%nat) by (rewrite firstn_length; lia).
    rewrite enc_short by (rewrite flip_length, Lf; lia).
    rewrite !flip_app, flip_cons, flip_repeat, flip_invol, flip_length, Lf.
    replace (8 - (8 - p))%nat with p by lia. rewrite <- F.
    replace (flip rev []) with (@nil byte) by (destruct rev; reflexivity).
    rewrite <- !app_assoc. cbn [app]. rewrite app_assoc, firstn_skipn, <- Hm. reflexivity.
Qed.

Lemma decodeBytes_canonical p rev b lft data :
  decodeBytes p rev b = DOk lft data -> b = encd rev data ++ lft.
Proof.
  unfold decodeBytes. destruct (dec_loop (S (length b)) rev b []) as [l d|e] eqn:E; [|discriminate].
  intros H. injection H as <- <-. apply dec_loop_canonical in E. destruct E as (d' & -> & ->).
  cbn [app]. destruct rev; cbn [flip]; [rewrite reverseBytes_compl, compl_invol|]; reflexivity.
Qed.

Lemma dec_loop_fuel rev : forall fuel b buf,
  (length b < fuel)%nat -> dec_loop fuel rev b buf <> DErr EOutOfFuel.
Proof.
  induction fuel as [|fuel IH]; intros b buf H; [lia|].
  destruct (Nat.ltb_spec (length b) 9) as [L|L]; [rewrite dec_loop_short by exact L; discriminate|].
  destruct (split9 b L) as (g & m & rest & Hg & ->).
  rewrite dec_loop_step by exact Hg. cbv zeta.
  destruct (8 <? pad_of rev m); [discriminate|].
  destruct (negb _); [destruct (forallb _ _); discriminate|].
  apply IH. rewrite app_length in H. cbn in H. lia.
Qed.

Lemma decodeBytes_total p rev b : decodeBytes p rev b <> DErr EOutOfFuel.
Proof.
  unfold decodeBytes. pose proof (dec_loop_fuel rev (S (length b)) b [] ltac:(lia)) as H.
  destruct (dec_loop (S (length b)) rev b []); congruence.
Qed.

(** ** Integers *)

Lemma lxor_sign v : is_u64 v -> Z.lxor v signMask = (v + two63) mod two64.
Proof.
  unfold is_u64, signMask. rewrite two63_val, two64_val. intros H.
  destruct (Z.ltb_spec v 9223372036854775808) as [L|L].
  - rewrite Z.mod_small by lia. rewrite Z.add_nocarry_lxor; [reflexivity|].
    apply Z.bits_inj'. intros n Hn. rewrite Z.land_spec, Z.bits_0.
    change 9223372036854775808 with (2 ^ 63).
    destruct (Z.eq_dec n 63) as [->|N].
    + replace (Z.testbit v 63) with false; [reflexivity|]. symmetry.
      apply Z.bits_above_log2; [lia|]. destruct (Z.eq_dec v 0) as [->|]; [reflexivity|].
      apply Z.log2_lt_pow2; [lia|]. exact L.
    + rewrite (Z.pow2_bits_false 63 n) by lia. apply andb_false_r.
  - assert (E : v = Z.lxor (v - 9223372036854775808) 9223372036854775808).
    { rewrite <- Z.add_nocarry_lxor; [lia|].
      apply Z.bits_inj'. intros n Hn. rewrite Z.land_spec, Z.bits_0.
      change 9223372036854775808 with (2 ^ 63).
      destruct (Z.eq_dec n 63) as [->|N].
      - replace (Z.testbit (v - 2 ^ 63) 63) with false; [reflexivity|]. symmetry.
        destruct (Z.eq_dec (v - 2 ^ 63) 0) as [E|NE]; [rewrite E; reflexivity|].
        apply Z.bits_above_log2; [lia|].
        apply Z.log2_lt_pow2; [lia|]. lia.
      - rewrite (Z.pow2_bits_false 63 n) by lia. apply andb_false_r. }
    rewrite E at 1. rewrite Z.lxor_assoc, Z.lxor_nilpotent, Z.lxor_0_r. lia.
Qed.

Lemma EncodeInt64ToUint64_val v : is_i64 v -> EncodeInt64ToUint64 v = v + two63.
Proof.
  intros H. unfold EncodeInt64ToUint64. rewrite lxor_sign by apply to_u64_range.
  unfold is_i64, to_u64 in *. rewrite two63_val, two64_val in *. lia.
Qed.
Lemma DecodeUint64ToInt64_val u : is_u64 u -> DecodeUint64ToInt64 u = u - two63.
Proof.
  intros H. unfold DecodeUint64ToInt64. rewrite lxor_sign by exact H.
  unfold is_u64, to_i64 in *. rewrite two63_val, two64_val in *. lia.
Qed.

Lemma DecodeUint64_enc v rest : is_u64 v -> DecodeUint64 (be_bytes 8 v ++ rest) = DOk rest v.
Proof.
  intros H. unfold DecodeUint64. rewrite app_length, be_bytes_length.
  destruct (Nat.ltb_spec (8 + length rest) 8); [lia|].
  rewrite skipn_app_exact, firstn_app_exact by apply be_bytes_length.
  rewrite be_val_bytes by (rewrite pow256_8; exact H). reflexivity.
Qed.
Lemma DecodeUint64_inv b l v : DecodeUint64 b = DOk l v -> is_u64 v /\ b = be_bytes 8 v ++ l.
Proof.
  unfold DecodeUint64. destruct (Nat.ltb_spec (length b) 8) as [L|L]; [discriminate|].
  intros H. apply DOk_inj in H. destruct H as [<- <-].
  assert (E : length (firstn 8 b) = 8%nat) by (rewrite firstn_length; lia). split.
  - pose proof (be_val_range (firstn 8 b)) as R. rewrite E, pow256_8 in R. exact R.
  - pose proof (be_bytes_val (firstn 8 b)) as K. rewrite E in K. rewrite K, firstn_skipn. reflexivity.
Qed.
Lemma u64_not_range u : is_u64 u -> is_u64 (u64_not u).
Proof. unfold is_u64, u64_not. lia. Qed.
Lemma u64_not_invol u : u64_not (u64_not u) = u.
Proof. unfold u64_not. lia. Qed.
Lemma i64_enc_range v : is_i64 v -> is_u64 (EncodeInt64ToUint64 v).
Proof. intros H. rewrite EncodeInt64ToUint64_val by exact H. unfold is_i64, is_u64 in *. rewrite two63_val, two64_val in *. lia. Qed.
Lemma i64_roundtrip v : is_i64 v -> DecodeUint64ToInt64 (EncodeInt64ToUint64 v) = v.
Proof.
  intros H. rewrite DecodeUint64ToInt64_val by (apply i64_enc_range; exact H).
  rewrite EncodeInt64ToUint64_val by exact H. lia.
Qed.
Lemma DecodeInt64_enc v rest : is_i64 v -> DecodeInt64 (EncodeInt64 [] v ++ rest) = DOk rest v.
Proof.
  intros H. unfold DecodeInt64, EncodeInt64, EncodeUint64. cbn [app].
  rewrite DecodeUint64_enc by (apply i64_enc_range; exact H). rewrite i64_roundtrip by exact H. reflexivity.
Qed.
Lemma EncodeInt64_app b v : EncodeInt64 b v = b ++ EncodeInt64 [] v.
Proof. reflexivity. Qed.
Lemma EncodeInt64_length v : length (EncodeInt64 [] v) = 8%nat.
Proof. reflexivity. Qed.
Lemma be8_cmp v w x y : is_u64 v -> is_u64 w ->
  bytes_cmp (be_bytes 8 v ++ x) (be_bytes 8 w ++ y) = then_cmp (v ?= w) (bytes_cmp x y).
Proof.
  intros Hv Hw. rewrite bytes_cmp_app_len by (rewrite !be_bytes_length; reflexivity).
  rewrite be_bytes_cmp by (rewrite pow256_8; assumption). reflexivity.
Qed.
Lemma EncodeInt64_cmp v w x y : is_i64 v -> is_i64 w ->
  bytes_cmp (EncodeInt64 [] v ++ x) (EncodeInt64 [] w ++ y) = then_cmp (v ?= w) (bytes_cmp x y).
Proof.
  intros Hv Hw. unfold EncodeInt64, EncodeUint64. cbn [app].
  rewrite be8_cmp by (apply i64_enc_range; assumption).
  rewrite !EncodeInt64ToUint64_val by assumption. f_equal.
  destruct (Z.compare_spec v w); [apply Z.compare_eq_iff | apply Z.compare_lt_iff | apply Z.compare_gt_iff]; lia.
Qed.
Lemma EncodeInt64_inj v w x y : is_i64 v -> is_i64 w ->
  EncodeInt64 [] v ++ x = EncodeInt64 [] w ++ y -> v = w /\ x = y.
Proof.
  intros Hv Hw H. apply bytes_cmp_eq in H. rewrite EncodeInt64_cmp in H by assumption.
  apply then_cmp_eq in H. destruct H as [H1 H2]. split; [apply Z.compare_eq; exact H1 | apply bytes_cmp_eq; exact H2].
Qed.
