(** Lemmas about the protocol buffer model. *)
From Verif Require Import Bytes Compact Pb.

Lemma len_app a b : len (a ++ b) = len a + len b.
Proof. unfold len. rewrite app_length. lia. Qed.
Lemma len_cons a b : len (a :: b) = 1 + len b.
Proof. unfold len. cbn [length]. lia. Qed.
Lemma len_nil : len [] = 0. Proof. reflexivity. Qed.
Lemma len_nonneg b : 0 <= len b. Proof. unfold len. lia. Qed.
Lemma len_skipn n b : (n <= length b)%nat -> len (skipn n b) = len b - Z.of_nat n.
Proof. intros. unfold len. rewrite skipn_length. lia. Qed.
Lemma len_firstn n b : (n <= length b)%nat -> len (firstn n b) = Z.of_nat n.
Proof. intros. unfold len. rewrite firstn_length. lia. Qed.

Lemma to_i32_id z : is_i32 z -> to_i32 z = z.
Proof. unfold is_i32, to_i32. change (2^31) with 2147483648. change (2^32) with 4294967296. lia. Qed.
Lemma to_u32_id z : is_u32 z -> to_u32 z = z.
Proof. unfold is_u32, to_u32. change (2^32) with 4294967296. lia. Qed.
Lemma to_i32_u64 z : is_i32 z -> to_i32 (to_u64 z) = z.
Proof. unfold is_i32, to_i32, to_u64. rewrite two64_val. change (2^31) with 2147483648. change (2^32) with 4294967296. lia. Qed.
Lemma to_u32_u64 z : is_u32 z -> to_u32 (to_u64 z) = z.
Proof. unfold is_u32, to_u32, to_u64. rewrite two64_val. change (2^32) with 4294967296. lia. Qed.
Lemma to_i64_i z : is_i64 z -> to_i64 (to_u64 z) = z.
Proof. intros. rewrite to_i64_u64. apply to_i64_id. assumption. Qed.
Lemma to_u64_u z : is_u64 z -> to_u64 (to_u64 z) = z.
Proof. intros. rewrite !to_u64_id; try assumption. reflexivity. rewrite to_u64_id; assumption. Qed.
#[global] Opaque to_i32 to_u32.

Lemma POk_inj {A} (a b : A) : POk a = POk b -> a = b.
Proof. congruence. Qed.

(** * Varints *)
Lemma land127_lor128 v : 0 <= v -> Z.lor (Z.land v 127) 128 = v mod 128 + 128.
Proof.
  intros H. assert (E : Z.land v 127 = v mod 128) by (change 127 with (Z.ones 7); rewrite Z.land_ones by lia; reflexivity).
  rewrite E.
  pose proof (sweep256 (fun z => Z.lor (z mod 128) 128 =? z mod 128 + 128) ltac:(vm_compute; reflexivity) (v mod 128) ltac:(lia)) as F.
  apply Z.eqb_eq in F. rewrite Z.mod_mod in F by lia. exact F.
Qed.

Lemma read_varint_enc fuel : forall v s x rest,
  0 <= v -> v < 2 ^ (64 - s) -> 0 <= s -> s + 7 * Z.of_nat fuel = 70 -> (0 < fuel)%nat ->
  0 <= x < 2 ^ s ->
  read_varint (encode_varint fuel v ++ rest) s x = POk (x + v * 2 ^ s, rest).
Proof.
  induction fuel as [|fuel IH]; intros v s x rest Hv Hv2 Hs0 Hi Hf Hx; [lia|].
  cbn [encode_varint].
  assert (Hs : 0 <= s <= 63) by lia.
  assert (P64 : 2 ^ 64 = 2 ^ (64 - s) * 2 ^ s) by (rewrite <- pow_split by lia; f_equal; lia).
  assert (Ps : 0 < 2 ^ s) by (apply Z.pow_pos_nonneg; lia).
  destruct (Z.leb_spec 128 v) as [L|L].
  - rewrite land127_lor128 by exact Hv. cbn [app read_varint].
    destruct (Z.leb_spec 64 s); [lia|]. rewrite b2z_z2b.
    rewrite (Z.mod_small (v mod 128 + 128)) by lia.
    destruct (Z.ltb_spec (v mod 128 + 128) 128); [lia|].
    rewrite land127 by lia. replace ((v mod 128 + 128) mod 128) with (v mod 128) by lia.
    assert (S57 : s + 7 <= 63).
    { destruct (Z.leb_spec s 56) as [L2|L2]; [lia|]. exfalso.
      assert (E : s = 63) by lia. rewrite E in Hv2. change (2 ^ (64 - 63)) with 2 in Hv2. lia. }
    assert (P1 : 2 ^ (64 - s) = 128 * 2 ^ (57 - s)).
    { replace (64 - s) with (7 + (57 - s)) by lia. rewrite pow_split by lia. reflexivity. }
    assert (P2 : 2 ^ (s + 7) = 128 * 2 ^ s) by (rewrite pow_split by lia; lia).
    assert (T : to_u64 (Z.shiftl (v mod 128) s) = Z.shiftl (v mod 128) s).
    { apply to_u64_id. unfold is_u64. change two64 with (2 ^ 64). rewrite Z.shiftl_mul_pow2 by lia. nia. }
    rewrite T, lor_shift by lia.
    rewrite Z.shiftr_div_pow2 by lia. change (2 ^ 7) with 128.
    rewrite IH; try lia.
    + rewrite P2. f_equal. f_equal. pose proof (Z.div_mod v 128 ltac:(lia)). nia.
    + replace (64 - (s + 7)) with (57 - s) by lia. apply Z.div_lt_upper_bound; lia.
    + rewrite P2. nia.
  - cbn [app read_varint]. destruct (Z.leb_spec 64 s); [lia|].
    rewrite b2z_z2b, Z.mod_small by lia.
    destruct (Z.ltb_spec v 128); [|lia].
    rewrite land127 by lia. rewrite (Z.mod_small v 128) by lia.
    assert (T : to_u64 (Z.shiftl v s) = Z.shiftl v s).
    { apply to_u64_id. unfold is_u64. change two64 with (2 ^ 64). rewrite Z.shiftl_mul_pow2 by lia. nia. }
    rewrite T, lor_shift by lia. reflexivity.
Qed.
Lemma readVarint_enc v rest : is_u64 v -> readVarint (encodeVarint v ++ rest) = POk (v, rest).
Proof.
  unfold is_u64. change two64 with (2^64). intros H. unfold readVarint, encodeVarint.
  rewrite read_varint_enc; try lia. all: change (2 ^ (64-0)) with (2^64); try lia. 
  change (2^0) with 1. f_equal. f_equal. lia.
Qed.

Lemma skip_varint_enc fuel : forall v s rest,
  0 <= v -> v < 2 ^ (64 - s) -> 0 <= s -> s + 7 * Z.of_nat fuel = 70 -> (0 < fuel)%nat ->
  skip_varint (encode_varint fuel v ++ rest) s = POk rest.
Proof.
  induction fuel as [|fuel IH]; intros v s rest Hv Hv2 Hs0 Hi Hf; [lia|].
  cbn [encode_varint]. assert (Hs : 0 <= s <= 63) by lia.
  destruct (Z.leb_spec 128 v) as [L|L]; cbn [app skip_varint]; (destruct (Z.leb_spec 64 s); [lia|]); rewrite b2z_z2b.
  - rewrite land127_lor128 by exact Hv. rewrite Z.mod_small by lia.
    destruct (Z.ltb_spec (v mod 128 + 128) 128); [lia|].
    assert (S57 : s + 7 <= 63).
    { destruct (Z.leb_spec s 56) as [L2|L2]; [lia|]. exfalso.
      assert (E : s = 63) by lia. rewrite E in Hv2. change (2 ^ (64 - 63)) with 2 in Hv2. lia. }
    rewrite Z.shiftr_div_pow2 by lia. change (2 ^ 7) with 128.
    apply IH; try lia.
    replace (64 - (s + 7)) with (57 - s) by lia. apply Z.div_lt_upper_bound; [lia|].
    assert (P1 : 2 ^ (64 - s) = 128 * 2 ^ (57 - s)).
    { replace (64 - s) with (7 + (57 - s)) by lia. rewrite pow_split by lia. reflexivity. }
    lia.
  - rewrite Z.mod_small by lia. destruct (Z.ltb_spec v 128); [reflexivity|lia].
Qed.

Lemma sov_len fuel : forall v, 0 <= v -> v < 2 ^ (7 * Z.of_nat fuel) ->
  (0 < fuel)%nat -> sov_loop fuel v = len (encode_varint fuel v).
Proof.
  induction fuel as [|fuel IH]; intros v Hv H Hf; [lia|].
  cbn [sov_loop encode_varint]. rewrite Z.shiftr_div_pow2 by lia. change (2 ^ 7) with 128.
  destruct (Z.leb_spec 128 v) as [L|L].
  - rewrite len_cons. destruct (Z.eqb_spec (v / 128) 0); [lia|].
    destruct fuel as [|fuel].
    { change (2 ^ (7 * Z.of_nat 1)) with 128 in H. lia. }
    rewrite IH; try lia.
    apply Z.div_lt_upper_bound; [lia|].
    replace (7 * Z.of_nat (S (S fuel))) with (7 + 7 * Z.of_nat (S fuel)) in H by lia.
    rewrite pow_split in H by lia. exact H.
  - replace (v / 128) with 0 by lia. reflexivity.
Qed.
Lemma sov_enc v : is_u64 v -> sov v = len (encodeVarint v).
Proof.
  unfold is_u64. change two64 with (2^64). intros H. apply sov_len; [lia| |lia].
  change (7 * Z.of_nat 10) with 70. assert (2^64 < 2^70) by reflexivity. lia.
Qed.
Lemma encode_varint_nonnil f v : (0 < f)%nat -> encode_varint f v <> [].
Proof. destruct f; [lia|]. cbn. destruct (128 <=? v); discriminate. Qed.
Lemma encodeVarint_pos v : 1 <= len (encodeVarint v).
Proof.
  pose proof (encode_varint_nonnil 10 v ltac:(lia)). unfold encodeVarint. destruct (encode_varint 10 v); [congruence|].
  rewrite len_cons. pose proof (len_nonneg l). lia.
Qed.

(** ** reading is local: a consumed prefix decides the result *)
Lemma read_varint_inv b : forall s acc v r, read_varint b s acc = POk (v, r) ->
  exists p, b = p ++ r /\ (1 <= length p)%nat /\ (forall e, read_varint (p ++ e) s acc = POk (v, e)) /\
    Forall (fun c => 128 <= b2z c) (removelast p).
Proof.
  induction b as [|c b IH]; intros s acc v r H; cbn [read_varint] in H;
    destruct (64 <=? s) eqn:E64; try discriminate.
  destruct (b2z c <? 128) eqn:Ec.
  - injection H as Hv Hr. subst. exists [c]. repeat split; [cbn; lia| |constructor].
    intros e. cbn [app read_varint]. rewrite E64, Ec. reflexivity.
  - apply IH in H. destruct H as (p & -> & Hl & He & Hf). exists (c :: p). repeat split; [cbn; lia| |].
    + intros e. cbn [app read_varint]. rewrite E64, Ec. apply He.
    + cbn [removelast]. destruct p; [constructor|]. constructor; [lia|exact Hf].
Qed.
Lemma readVarint_inv b v r : readVarint b = POk (v, r) ->
  exists p, b = p ++ r /\ (1 <= length p)%nat /\ (forall e, readVarint (p ++ e) = POk (v, e)) /\
    Forall (fun c => 128 <= b2z c) (removelast p).
Proof. apply read_varint_inv. Qed.
Lemma readVarint_ext b v r e : readVarint b = POk (v, r) -> readVarint (b ++ e) = POk (v, r ++ e).
Proof. intros H. apply readVarint_inv in H. destruct H as (p & -> & _ & He & _). rewrite <- app_assoc. apply He. Qed.
Lemma readVarint_len b v r : readVarint b = POk (v, r) -> len r < len b.
Proof. intros H. apply readVarint_inv in H. destruct H as (p & -> & Hl & _). rewrite len_app. unfold len at 2. lia. Qed.

Lemma read_varint_range b : forall s acc v r, read_varint b s acc = POk (v, r) -> 0 <= s -> is_u64 acc -> is_u64 v.
Proof.
  induction b as [|c b IH]; intros s acc v r H Hs Ha; cbn [read_varint] in H;
    destruct (64 <=? s) eqn:E64; try discriminate.
  assert (R : is_u64 (Z.lor acc (to_u64 (Z.shiftl (Z.land (b2z c) 127) s)))).
  { pose proof (to_u64_range (Z.shiftl (Z.land (b2z c) 127) s)) as T. unfold is_u64 in *.
    change two64 with (2^64) in *. set (y := to_u64 _) in *. clearbody y.
    split; [apply Z.lor_nonneg; lia|].
    destruct (Z.eq_dec (Z.lor acc y) 0) as [->|N]; [lia|].
    apply Z.log2_lt_pow2; [pose proof (Z.lor_nonneg acc y); lia|].
    rewrite Z.log2_lor by lia.
    assert (G : forall z, 0 <= z < 2^64 -> Z.log2 z < 64).
    { intros z Hz. destruct (Z.eq_dec z 0) as [->|]; [reflexivity|]. apply Z.log2_lt_pow2; lia. }
    pose proof (G acc Ha). pose proof (G y T). lia. }
  destruct (b2z c <? 128).
  - injection H as Hv Hr. subst. exact R.
  - eapply IH; [exact H|lia|exact R].
Qed.
Lemma u64_0 : is_u64 0.
Proof. unfold is_u64. rewrite two64_val. lia. Qed.
Lemma readVarint_range b v r : readVarint b = POk (v, r) -> is_u64 v.
Proof. intros H. eapply read_varint_range; [exact H|lia|apply u64_0]. Qed.

(** value bound by the number of groups read *)
Lemma read_varint_bound b : forall s acc v r, read_varint b s acc = POk (v, r) -> 0 <= s -> 0 <= acc < 2 ^ s ->
  v < 2 ^ (s + 7 * (len b - len r)) /\ 0 <= v.
Proof.
  induction b as [|c b IH]; intros s acc v r H Hs Ha; cbn [read_varint] in H;
    destruct (64 <=? s) eqn:E64; try discriminate.
  assert (Ps : 0 < 2 ^ s) by (apply Z.pow_pos_nonneg; lia).
  pose proof (b2z_range c) as Rc.
  rewrite (land127 (b2z c)) in H by lia.
  assert (R : 0 <= Z.lor acc (to_u64 (Z.shiftl (b2z c mod 128) s)) < 2 ^ (s + 7)).
  { set (y := to_u64 _). assert (Hy : 0 <= y < 2 ^ (s+7)).
    { unfold y, to_u64. rewrite Z.shiftl_mul_pow2 by lia. rewrite pow_split by lia. change (2^7) with 128.
      pose proof (Z.mod_pos_bound (b2z c mod 128 * 2 ^ s) two64 ltac:(rewrite two64_val; lia)).
      pose proof (Z.mod_le (b2z c mod 128 * 2 ^ s) two64 ltac:(nia) ltac:(rewrite two64_val; lia)). nia. }
    clearbody y. assert (Hacc : acc < 2 ^ (s+7)). { rewrite pow_split by lia. change (2^7) with 128. nia. }
    split; [apply Z.lor_nonneg; lia|].
    destruct (Z.eq_dec (Z.lor acc y) 0) as [->|N]; [lia|].
    apply Z.log2_lt_pow2; [pose proof (Z.lor_nonneg acc y); lia|].
    rewrite Z.log2_lor by lia.
    assert (G : forall z, 0 <= z < 2^(s+7) -> Z.log2 z < s+7).
    { intros z Hz. destruct (Z.eq_dec z 0) as [->|]; [change (Z.log2 0) with 0; lia|]. apply Z.log2_lt_pow2; lia. }
    pose proof (G acc ltac:(lia)). pose proof (G y Hy). lia. }
  rewrite len_cons.
  destruct (b2z c <? 128).
  - injection H as Hv Hr. subst. replace (s + 7 * (1 + len r - len r)) with (s + 7) by lia. lia.
  - assert (Hlt : len r < len b).
    { apply read_varint_inv in H. destruct H as (p & -> & Hl & _). rewrite len_app. unfold len at 2. lia. }
    apply IH in H; [|lia|exact R]. destruct H as [H1 H2].
    replace (s + 7 * (1 + len b - len r)) with (s + 7 + 7 * (len b - len r)) by lia. split; assumption.
Qed.

(** * No run of eight continuation bytes *)
Definition short_varints (d : bytes) : Prop :=
  forall a p b, d = a ++ p ++ b -> Forall (fun c => 128 <= b2z c) p -> (length p < 8)%nat.
Lemma short_app_r a b : short_varints (a ++ b) -> short_varints b.
Proof. intros H x p y E F. apply (H (a ++ x) p y); [|exact F]. rewrite E. rewrite <- app_assoc. reflexivity. Qed.
Lemma short_app_l a b : short_varints (a ++ b) -> short_varints a.
Proof. intros H x p y E F. apply (H x p (y ++ b)); [|exact F]. rewrite E. rewrite <- !app_assoc. reflexivity. Qed.
Lemma short_skipn n d : short_varints d -> short_varints (skipn n d).
Proof. rewrite <- (firstn_skipn n d) at 1. apply short_app_r. Qed.
Lemma short_firstn n d : short_varints d -> short_varints (firstn n d).
Proof. rewrite <- (firstn_skipn n d) at 1. apply short_app_l. Qed.
Lemma short_few d : (length d < 8)%nat -> short_varints d.
Proof. intros H a p b E _. subst. rewrite !app_length in H. lia. Qed.

Lemma removelast_length {A} (l : list A) : length (removelast l) = (length l - 1)%nat.
Proof. induction l as [|a [|b l] IH]; [reflexivity..|]. change (removelast (a :: b :: l)) with (a :: removelast (b :: l)). cbn [length]. rewrite IH. cbn [length]. lia. Qed.
Lemma short_read d v r : short_varints d -> readVarint d = POk (v, r) -> 0 <= v < 2 ^ 56 /\ short_varints r.
Proof.
  intros Hs H. pose proof H as H0. apply readVarint_inv in H. destruct H as (p & -> & Hl & _ & Hf).
  split; [|eapply short_app_r; exact Hs].
  assert (L : (length p <= 8)%nat).
  { assert (K : p = removelast p ++ [last p Byte.x00]) by (apply app_removelast_last; destruct p; [cbn in Hl; lia|discriminate]).
    pose proof (Hs [] (removelast p) ([last p Byte.x00] ++ r)) as H1. cbn [app] in H1.
    rewrite K in H1 at 1. rewrite <- app_assoc in H1. specialize (H1 eq_refl Hf).
    rewrite removelast_length in H1. lia. }
  apply read_varint_bound in H0; [|lia|cbn; lia]. rewrite len_app in H0.
  destruct H0 as [B1 B2]. split; [exact B2|].
  eapply Z.lt_le_trans; [exact B1|]. apply Z.pow_le_mono_r; [lia|]. unfold len. lia.
Qed.

(** * skipMondis *)
Lemma skip_varint_inv b : forall s r, skip_varint b s = POk r ->
  exists p, b = p ++ r /\ (1 <= length p)%nat /\ forall e, skip_varint (p ++ e) s = POk e.
Proof.
  induction b as [|c b IH]; intros s r H; cbn [skip_varint] in H; destruct (64 <=? s) eqn:E64; try discriminate.
  destruct (b2z c <? 128) eqn:Ec.
  - injection H as ->. exists [c]. repeat split; [cbn; lia|]. intros e. cbn. rewrite E64, Ec. reflexivity.
  - apply IH in H. destruct H as (p & -> & Hl & He). exists (c :: p). repeat split; [cbn; lia|].
    intros e. cbn [app skip_varint]. rewrite E64, Ec. apply He.
Qed.
Lemma skip_varint_not b : forall s, skip_varint b s <> PPanic /\ skip_varint b s <> PErr PFuel.
Proof.
  induction b as [|c b IH]; intros s; cbn [skip_varint]; destruct (64 <=? s); try (split; discriminate).
  destruct (b2z c <? 128); [split; discriminate|apply IH].
Qed.
Lemma read_varint_not b : forall s acc, read_varint b s acc <> PPanic /\ read_varint b s acc <> PErr PFuel.
Proof.
  induction b as [|c b IH]; intros s acc; cbn [read_varint]; destruct (64 <=? s); try (split; discriminate).
  destruct (b2z c <? 128); [split; discriminate|apply IH].
Qed.

(** more fuel does not change an answer other than PFuel *)
Lemma skip_mono f : (forall d f', (f <= f')%nat -> skip f d <> PErr PFuel -> skip f' d = skip f d) /\
  (forall d i f', (f <= f')%nat -> skip_group f d i <> PErr PFuel -> skip_group f' d i = skip_group f d i).
Proof.
  induction f as [|f [IH1 IH2]]; [split; intros; cbn in *; congruence|]. split.
  - intros d f' Hf. destruct f' as [|f']; [lia|]. cbn [skip]. destruct d as [|c d]; [reflexivity|].
    destruct (readVarint (c :: d)) as [[wire r]|e|]; cbn [pbind]; try reflexivity.
    destruct (wire mod 8) as [|[[[|[]|]|[|[]|]|]|[[|[]|]|[|[]|]|]|]|]; try reflexivity.
    intros H. apply IH2; [lia|exact H].
  - intros d i f' Hf. destruct f' as [|f']; [lia|]. cbn [skip_group].
    destruct (len d <=? i); [reflexivity|]. destruct (i <? 0); [reflexivity|].
    destruct (readVarint (skipn (Z.to_nat i) d)) as [[wire r]|e|]; cbn [pbind]; try reflexivity.
    destruct (wire mod 8 =? 4); [reflexivity|].
    intros H. destruct (skip f (skipn (Z.to_nat i) d)) as [n|e|] eqn:E; cbn [pbind] in H |- *.
    + rewrite (IH1 _ f') by (try lia; rewrite E; discriminate). rewrite E. cbn [pbind]. apply IH2; [lia|exact H].
    + rewrite (IH1 _ f') by (try lia; rewrite E; congruence). rewrite E. reflexivity.
    + rewrite (IH1 _ f') by (try lia; rewrite E; congruence). rewrite E. reflexivity.
Qed.

(** result of skip: a positive count or a wrapped, very negative one *)
Definition two62 : Z := 2 ^ 62.
Lemma two62_val : two62 = 4611686018427387904. Proof. reflexivity. Qed.
Global Opaque two62.
Lemma skip_count f : (forall d n, len d < two62 -> skip f d = POk n -> is_i64 n /\ (1 <= n \/ n < - two62)) /\
  (forall d i n, len d < two62 -> 0 <= i -> skip_group f d i = POk n -> is_i64 n /\ 1 <= n).
Proof.
  induction f as [|f [IH1 IH2]]; [split; intros; cbn in *; congruence|]. split.
  - intros d n Hd. cbn [skip]. destruct d as [|c d]; [discriminate|].
    destruct (readVarint (c :: d)) as [[wire r]|e|] eqn:Er; cbn [pbind]; try discriminate.
    pose proof (readVarint_len _ _ _ Er) as Hl. pose proof (len_nonneg r) as Hr0.
    assert (G3 : skip_group f (c :: d) (len (c :: d) - len r) = POk n -> is_i64 n /\ (1 <= n \/ n < - two62)).
    { intros H. apply IH2 in H; [tauto|exact Hd|lia]. }
    assert (G0 : pbind (skip_varint r 0) (fun r' => POk (len (c :: d) - len r')) = POk n -> is_i64 n /\ (1 <= n \/ n < - two62)).
    { destruct (skip_varint r 0) as [r'|e|] eqn:Es; cbn [pbind]; try discriminate. intros H. apply POk_inj in H; subst.
      apply skip_varint_inv in Es. destruct Es as (p & -> & _ & _). rewrite len_app in *. pose proof (len_nonneg p). pose proof (len_nonneg r').
      unfold is_i64. rewrite two63_val. rewrite two62_val in *. lia. }
    assert (G2 : pbind (readVarint r) (fun '(v, r') =>
                   if to_i64 v <? 0 then PErr PInvalidLength else POk (to_i64 (len (c :: d) - len r' + to_i64 v))) = POk n -> is_i64 n /\ (1 <= n \/ n < - two62)).
    { destruct (readVarint r) as [[v r']|e|] eqn:Ev; cbn [pbind]; try discriminate.
      destruct (Z.ltb_spec (to_i64 v) 0) as [L|L]; [discriminate|]. intros H. apply POk_inj in H; subst.
      pose proof (readVarint_len _ _ _ Ev) as Hl2.
      pose proof (to_i64_range v) as R. unfold is_i64 in R.
      pose proof (len_nonneg r'). split; [apply to_i64_range|].
      set (w := to_i64 v) in *. clearbody w. set (q := len (c :: d) - len r') in *.
      assert (0 < q < two62) by (subst q; rewrite two62_val in *; lia). clearbody q.
      unfold to_i64. rewrite two62_val in *. rewrite two63_val, two64_val in *. lia. }
    destruct (wire mod 8) as [|[[[|[]|]|[|[]|]|]|[[|[]|]|[|[]|]|]|]|]; try discriminate; try assumption;
      intros H; apply POk_inj in H; subst; unfold is_i64; rewrite two63_val; rewrite two62_val in *; lia.
  - intros d i n Hd Hi. cbn [skip_group].
    destruct (Z.leb_spec (len d) i) as [L|L]; [discriminate|]. destruct (i <? 0); [discriminate|].
    set (s := skipn (Z.to_nat i) d). assert (Hs : len s = len d - i) by (unfold s; rewrite len_skipn; unfold len in *; lia).
    destruct (readVarint s) as [[wire r]|e|] eqn:Er; cbn [pbind]; try discriminate.
    pose proof (readVarint_len _ _ _ Er) as Hl. pose proof (len_nonneg r).
    destruct (wire mod 8 =? 4); [intros H1; apply POk_inj in H1; subst; unfold is_i64; rewrite two63_val; rewrite two62_val in *; lia|].
    destruct (skip f s) as [n1|e|] eqn:E; cbn [pbind]; try discriminate.
    intros H1. 
    destruct (Z.leb_spec 0 (to_i64 (i + n1))) as [L2|L2]; [eapply IH2; [exact Hd| |exact H1]; lia|].
    destruct f; [discriminate|]. cbn [skip_group] in H1.
    destruct (len d <=? to_i64 (i + n1)); [discriminate|].
    destruct (Z.ltb_spec (to_i64 (i + n1)) 0); [discriminate|lia].
Qed.
Lemma next_index i n d : 0 <= i -> i < len d -> len d < two62 -> is_i64 n -> (1 <= n \/ n < - two62) ->
  (to_i64 (i + n) = i + n /\ 1 <= n) \/ to_i64 (i + n) < 0.
Proof.
  unfold is_i64, to_i64. rewrite two62_val, two63_val, two64_val. intros H1 H2 H3 H4 H5. lia.
Qed.

Lemma skip_no_fuel f : (forall d, len d < two62 -> (2 * length d <= f)%nat -> (0 < f)%nat -> skip f d <> PErr PFuel) /\
  (forall d i, len d < two62 -> 2 * (len d - i) + 1 <= Z.of_nat f \/ i < 0 -> (0 < f)%nat -> skip_group f d i <> PErr PFuel).
Proof.
  induction f as [|f [IH1 IH2]]; [split; intros; lia|]. split.
  - intros d Hd Hf _. cbn [skip]. destruct d as [|c d]; [discriminate|].
    destruct (readVarint (c :: d)) as [[wire r]|e|] eqn:Er; cbn [pbind]; try discriminate.
    2: { intros H. injection H as ->. apply (proj2 (read_varint_not (c :: d) 0 0)). exact Er. }
    pose proof (readVarint_len _ _ _ Er) as Hl.
    assert (G3 : skip_group f (c :: d) (len (c :: d) - len r) <> PErr PFuel).
    { apply IH2; [exact Hd| |cbn [length] in Hf; lia]. unfold len in *. cbn [length] in *. lia. }
    assert (G0 : pbind (skip_varint r 0) (fun r' => POk (len (c :: d) - len r')) <> PErr PFuel).
    { destruct (skip_varint r 0) as [r'|e|] eqn:Es; cbn [pbind]; try discriminate. intros H. injection H as ->.
      apply (proj2 (skip_varint_not r 0)). exact Es. }
    assert (G2 : pbind (readVarint r) (fun '(v, r') =>
                   if to_i64 v <? 0 then PErr PInvalidLength else POk (to_i64 (len (c :: d) - len r' + to_i64 v))) <> PErr PFuel).
    { destruct (readVarint r) as [[v r']|e|] eqn:Ev; cbn [pbind]; try discriminate.
      - destruct (to_i64 v <? 0); discriminate.
      - intros H. injection H as ->. apply (proj2 (read_varint_not r 0 0)). exact Ev. }
    destruct (wire mod 8) as [|[[[|[]|]|[|[]|]|]|[[|[]|]|[|[]|]|]|]|]; try discriminate; assumption.
  - intros d i Hd Hf _. cbn [skip_group].
    destruct (Z.leb_spec (len d) i) as [L|L]; [discriminate|]. destruct (Z.ltb_spec i 0) as [L0|L0]; [discriminate|].
    set (s := skipn (Z.to_nat i) d). assert (Hs : len s = len d - i) by (unfold s; rewrite len_skipn; unfold len in *; lia).
    destruct (readVarint s) as [[wire r]|e|] eqn:Er; cbn [pbind]; try discriminate.
    2: { intros H. injection H as ->. apply (proj2 (read_varint_not s 0 0)). exact Er. }
    pose proof (readVarint_len _ _ _ Er) as Hl.
    destruct (wire mod 8 =? 4); [discriminate|].
    assert (F1 : skip f s <> PErr PFuel).
    { apply IH1; [lia| |lia]. unfold len in *. lia. }
    destruct (skip f s) as [n1|e|] eqn:E; cbn [pbind]; try discriminate; [|exact F1].
    apply (proj1 (skip_count f)) in E; [|lia].
    destruct (next_index i n1 d) as [[E1 E2]|E1]; try tauto; try lia.
    + rewrite E1. apply IH2; lia.
    + apply IH2; lia.
Qed.

(** the fuel given by [skipMondis] is enough: any larger amount gives the same answer *)
Lemma skipMondis_fuel f d : len d < two62 -> (2 * length d + 2 <= f)%nat -> skip f d = skipMondis d.
Proof. intros Hd Hf. apply skip_mono; [exact Hf|]. apply skip_no_fuel; [exact Hd|lia|lia]. Qed.
Lemma skipMondis_not_fuel d : len d < two62 -> skipMondis d <> PErr PFuel.
Proof. intros Hd. apply skip_no_fuel; [exact Hd|lia|lia]. Qed.

(** trailing bytes do not change the count *)
Lemma skip_ext f : (forall d n e, skip f d = POk n -> skip f (d ++ e) = POk n) /\
  (forall d i n e, skip_group f d i = POk n -> skip_group f (d ++ e) i = POk n).
Proof.
  induction f as [|f [IH1 IH2]]; [split; intros; cbn in *; congruence|]. split.
  - intros d n e. cbn [skip]. destruct d as [|c d]; [discriminate|]. cbn [app].
    change (c :: d ++ e) with ((c :: d) ++ e).
    destruct (readVarint (c :: d)) as [[wire r]|x|] eqn:Er; cbn [pbind]; try discriminate.
    rewrite (readVarint_ext _ _ _ e Er). cbn [pbind].
    replace (len ((c :: d) ++ e) - len (r ++ e)) with (len (c :: d) - len r) by (rewrite !len_app; lia).
    assert (G3 : skip_group f (c :: d) (len (c :: d) - len r) = POk n -> skip_group f ((c :: d) ++ e) (len (c :: d) - len r) = POk n) by apply IH2.
    assert (G0 : pbind (skip_varint r 0) (fun r' => POk (len (c :: d) - len r')) = POk n ->
                 pbind (skip_varint (r ++ e) 0) (fun r' => POk (len ((c :: d) ++ e) - len r')) = POk n).
    { destruct (skip_varint r 0) as [r'|x|] eqn:Es; cbn [pbind]; try discriminate. intros H. apply POk_inj in H; subst.
      apply skip_varint_inv in Es. destruct Es as (p & -> & _ & Hp). rewrite <- app_assoc, Hp. cbn [pbind].
      rewrite !len_app. f_equal. lia. }
    assert (G2 : pbind (readVarint r) (fun '(v, r') =>
                   if to_i64 v <? 0 then PErr PInvalidLength else POk (to_i64 (len (c :: d) - len r' + to_i64 v))) = POk n ->
                 pbind (readVarint (r ++ e)) (fun '(v, r') =>
                   if to_i64 v <? 0 then PErr PInvalidLength else POk (to_i64 (len ((c :: d) ++ e) - len r' + to_i64 v))) = POk n).
    { destruct (readVarint r) as [[v r']|x|] eqn:Ev; cbn [pbind]; try discriminate.
      rewrite (readVarint_ext _ _ _ e Ev). cbn [pbind]. rewrite !len_app.
      destruct (to_i64 v <? 0); [discriminate|]. intros H. rewrite <- H. f_equal. f_equal. lia. }
    destruct (wire mod 8) as [|[[[|[]|]|[|[]|]|]|[[|[]|]|[|[]|]|]|]|]; try discriminate; try assumption; tauto.
  - intros d i n e. cbn [skip_group].
    destruct (Z.leb_spec (len d) i) as [L|L]; [discriminate|]. destruct (Z.ltb_spec i 0) as [L0|L0]; [discriminate|].
    destruct (Z.leb_spec (len (d ++ e)) i) as [L1|L1]; [rewrite len_app in L1; pose proof (len_nonneg e); lia|].
    assert (Es : skipn (Z.to_nat i) (d ++ e) = skipn (Z.to_nat i) d ++ e).
    { rewrite skipn_app. f_equal. unfold len in L. replace (Z.to_nat i - length d)%nat with 0%nat by lia. reflexivity. }
    rewrite Es. set (s := skipn (Z.to_nat i) d) in *.
    destruct (readVarint s) as [[wire r]|x|] eqn:Er; cbn [pbind]; try discriminate.
    rewrite (readVarint_ext _ _ _ e Er). cbn [pbind].
    destruct (wire mod 8 =? 4); [intros H; rewrite <- H, !len_app; f_equal; lia|].
    destruct (skip f s) as [n1|x|] eqn:E; cbn [pbind]; try discriminate.
    rewrite (IH1 _ _ e E). cbn [pbind]. apply IH2.
Qed.
Lemma skipMondis_ext d n e : len (d ++ e) < two62 -> skipMondis d = POk n -> skipMondis (d ++ e) = POk n.
Proof.
  intros Hl H. rewrite <- (skipMondis_fuel (2 * length (d ++ e) + 2) (d ++ e)) by (exact Hl || lia).
  apply skip_ext. rewrite app_length.
  rewrite skipMondis_fuel; [exact H| |lia]. rewrite len_app in Hl. pose proof (len_nonneg e). lia.
Qed.

(** no panic without long varints; the count is then small *)
Lemma skip_short f : (forall d, d <> [] -> short_varints d -> len d < two62 ->
    skip f d <> PPanic /\ forall n, skip f d = POk n -> 1 <= n < len d + 2 ^ 57) /\
  (forall d i, 0 <= i < two62 + two62 -> short_varints d -> len d < two62 -> skip_group f d i <> PPanic /\ forall n, skip_group f d i = POk n -> n <= len d).
Proof.
  induction f as [|f [IH1 IH2]]; [split; intros; cbn in *; split; congruence|]. split.
  - intros d Hne Hs Hd. cbn [skip]. destruct d as [|c d]; [congruence|].
    destruct (readVarint (c :: d)) as [[wire r]|e|] eqn:Er; cbn [pbind]; try (split; discriminate).
    2: { exfalso. apply (proj1 (read_varint_not (c :: d) 0 0)). exact Er. }
    pose proof (readVarint_len _ _ _ Er) as Hl. pose proof (len_nonneg r) as Hr0.
    destruct (short_read _ _ _ Hs Er) as [_ Hsr].
    set (Q := fun x : pres Z => x <> PPanic /\ forall n, x = POk n -> 1 <= n < len (c :: d) + 2 ^ 57).
    assert (G3 : Q (skip_group f (c :: d) (len (c :: d) - len r))).
    { destruct (IH2 (c :: d) (len (c :: d) - len r)) as [A B]; [lia|exact Hs|exact Hd|]. split; [exact A|].
      intros n Hn. pose proof (B n Hn). apply (proj2 (skip_count f)) in Hn; [|exact Hd|lia]. lia. }
    assert (G0 : Q (pbind (skip_varint r 0) (fun r' => POk (len (c :: d) - len r')))).
    { unfold Q. destruct (skip_varint r 0) as [r'|e|] eqn:Es; cbn [pbind]; [|split; discriminate|exfalso; apply (proj1 (skip_varint_not r 0)); exact Es].
      split; [discriminate|]. intros n H. apply POk_inj in H; subst.
      apply skip_varint_inv in Es. destruct Es as (p & -> & _ & _). rewrite len_app in *. pose proof (len_nonneg p). pose proof (len_nonneg r').
      rewrite two62_val in *. change (2^57) with 144115188075855872. lia. }
    assert (G2 : Q (pbind (readVarint r) (fun '(v, r') =>
                   if to_i64 v <? 0 then PErr PInvalidLength else POk (to_i64 (len (c :: d) - len r' + to_i64 v))))).
    { unfold Q. destruct (readVarint r) as [[v r']|e|] eqn:Ev; cbn [pbind]; [|split; discriminate|exfalso; apply (proj1 (read_varint_not r 0 0)); exact Ev].
      destruct (short_read _ _ _ Hsr Ev) as [Bv _]. change (2^56) with 72057594037927936 in Bv. change (2^57) with 144115188075855872.
      pose proof (readVarint_len _ _ _ Ev) as Hl2. pose proof (len_nonneg r').
      rewrite (to_i64_id v) by (unfold is_i64; rewrite two63_val; lia).
      destruct (Z.ltb_spec v 0) as [L|L]; [lia|]. split; [discriminate|]. intros n H1. apply POk_inj in H1; subst.
      rewrite two62_val in *. rewrite to_i64_id by (unfold is_i64; rewrite two63_val; lia). lia. }
    assert (G1 : forall k, 0 <= k <= 8 -> Q (POk (len (c :: d) - len r + k))).
    { intros k Hk. split; [discriminate|]. intros n H. apply POk_inj in H; subst. rewrite two62_val in *. change (2^57) with 144115188075855872. lia. }
    assert (G4 : Q (POk (len (c :: d) - len r))).
    { rewrite <- (Z.add_0_r (len (c :: d) - len r)). apply G1. lia. }
    destruct (wire mod 8) as [|[[[|[]|]|[|[]|]|]|[[|[]|]|[|[]|]|]|]|]; try (split; discriminate); try assumption; apply G1; lia.
  - intros d i Hi Hsd Hd. cbn [skip_group].
    destruct (Z.leb_spec (len d) i) as [L|L]; [split; discriminate|]. destruct (Z.ltb_spec i 0) as [L0|L0]; [lia|].
    set (s := skipn (Z.to_nat i) d). assert (Hs : len s = len d - i) by (unfold s; rewrite len_skipn; unfold len in *; lia).
    destruct (readVarint s) as [[wire r]|e|] eqn:Er; cbn [pbind]; [|split; discriminate|exfalso; apply (proj1 (read_varint_not s 0 0)); exact Er].
    pose proof (readVarint_len _ _ _ Er) as Hl. pose proof (len_nonneg r).
    destruct (wire mod 8 =? 4); [split; [discriminate|]; intros n Hn; apply POk_inj in Hn; subst; lia|].
    destruct (IH1 s) as [A B]; [intros Es; rewrite Es, len_nil in Hs; lia|apply short_skipn; exact Hsd|lia|].
    destruct (skip f s) as [n1|e|] eqn:E; cbn [pbind]; [|split; discriminate|congruence].
    specialize (B n1 eq_refl). change (2^57) with 144115188075855872 in B.
    apply IH2; [|exact Hsd|exact Hd]. rewrite two62_val in *. rewrite to_i64_id by (unfold is_i64; rewrite two63_val; lia). lia.
Qed.
