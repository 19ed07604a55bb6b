(** Model of kv/memcomparable/float.go and lemmas. A float64 is its 64-bit pattern
    (math.Float64bits), a number in [0, 2^64). *)
From Verif Require Import Bytes Memcmp MemcmpProofs.

(** * IEEE-754 double precision, read off the bit pattern (specification) *)
Definition f_sign (u : Z) : bool := two63 <=? u.
Definition f_exp (u : Z) : Z := u mod two63 / 2 ^ 52.
Definition f_mant (u : Z) : Z := u mod 2 ^ 52.
Definition is_nan (u : Z) : bool := (f_exp u =? 2047) && negb (f_mant u =? 0).
(** magnitude in units of 2^-1074 (subnormals: mantissa; normals: (2^52+m)*2^(e-1));
    infinity gets the value 2^2098, larger than every finite one *)
Definition f_mag (u : Z) : Z :=
  if f_exp u =? 0 then f_mant u else (2 ^ 52 + f_mant u) * 2 ^ (f_exp u - 1).
Definition fval (u : Z) : Z := if f_sign u then - f_mag u else f_mag u.
Definition neg_zero : Z := two63.

(** encodeFloat64ToUint64, float.go:5-17. The Go test `f >= 0` is false on NaN. *)
Definition encodeFloat64ToUint64 (u : Z) : Z :=
  if negb (is_nan u) && (0 <=? fval u) then Z.lor u signMask else u64_not u.
(** decodeUint64ToFloat64, float.go:19-26 *)
Definition decodeUint64ToFloat64 (u : Z) : Z :=
  if 0 <? Z.land u signMask then Z.land u (u64_not signMask) else u64_not u.

(** EncodeFloat64 .. DecodeFloat64Desc, float.go:29-50 (on error the float result is
    meaningless and dropped here) *)
Definition EncodeFloat64 (b : bytes) (v : Z) : bytes := EncodeUint64 b (encodeFloat64ToUint64 v).
Definition DecodeFloat64 (b : bytes) : dec_res Z :=
  match DecodeUint64 b with DOk l u => DOk l (decodeUint64ToFloat64 u) | DErr e => DErr e end.
Definition EncodeFloat64Desc (b : bytes) (v : Z) : bytes := EncodeUint64Desc b (encodeFloat64ToUint64 v).
Definition DecodeFloat64Desc (b : bytes) : dec_res Z :=
  match DecodeUint64Desc b with DOk l u => DOk l (decodeUint64ToFloat64 u) | DErr e => DErr e end.

(** * Lemmas *)
Lemma land_sign u : is_u64 u -> (0 <? Z.land u signMask) = (two63 <=? u).
Proof.
  intros H. unfold signMask. unfold is_u64 in H.
  assert (E : Z.land u two63 = if Z.testbit u 63 then two63 else 0).
  { apply Z.bits_inj'. intros n Hn. rewrite Z.land_spec. change two63 with (2 ^ 63).
    destruct (Z.eq_dec n 63) as [->|N].
    - destruct (Z.testbit u 63); [reflexivity|]. rewrite Z.bits_0. reflexivity.
    - rewrite Z.pow2_bits_false by lia. rewrite andb_false_r.
      destruct (Z.testbit u 63); [rewrite Z.pow2_bits_false by lia|rewrite Z.bits_0]; reflexivity. }
  rewrite E. rewrite Z.testbit_odd, Z.shiftr_div_pow2 by lia. change (2 ^ 63) with two63.
  rewrite two63_val, two64_val in *.
  destruct (Z.leb_spec 9223372036854775808 u) as [L|L].
  - replace (u / 9223372036854775808) with 1 by lia. reflexivity.
  - replace (u / 9223372036854775808) with 0 by lia. reflexivity.
Qed.
Lemma land_notsign u : is_u64 u -> Z.land u (u64_not signMask) = u mod two63.
Proof.
  intros H. unfold u64_not, signMask. replace (two64 - 1 - two63) with (Z.ones 63) by reflexivity.
  rewrite Z.land_ones by lia. reflexivity.
Qed.
Lemma lor_sign u : is_u64 u -> Z.lor u signMask = if two63 <=? u then u else u + two63.
Proof.
  intros H. unfold signMask. unfold is_u64 in H. destruct (Z.leb_spec two63 u) as [G|G].
  - apply Z.bits_inj'. intros n Hn. rewrite Z.lor_spec. change two63 with (2 ^ 63).
    destruct (Z.eq_dec n 63) as [->|N].
    + rewrite Z.testbit_odd, Z.shiftr_div_pow2 by lia. change (2 ^ 63) with two63.
      rewrite two63_val, two64_val in *. replace (u / 9223372036854775808) with 1 by lia. reflexivity.
    + rewrite Z.pow2_bits_false by lia. apply orb_false_r.
  - assert (D : Z.land u two63 = 0).
    { pose proof (land_sign u H) as L. unfold signMask in L.
      destruct (Z.leb_spec two63 u); [lia|].
      assert (0 <= Z.land u two63) by (apply Z.land_nonneg; lia). lia. }
    rewrite <- Z.lxor_lor by exact D. rewrite <- Z.add_nocarry_lxor by exact D. reflexivity.
Qed.

Definition absbits (u : Z) : Z := u mod two63.

Lemma f_parts u : is_u64 u -> 0 <= f_exp u < 2048 /\ 0 <= f_mant u < 2 ^ 52 /\
  absbits u = f_exp u * 2 ^ 52 + f_mant u.
Proof.
  unfold is_u64, f_exp, f_mant, absbits. rewrite two63_val, two64_val.
  change (2 ^ 52) with 4503599627370496. intros H. lia.
Qed.

Lemma f_mag_nonneg u : is_u64 u -> 0 <= f_mag u.
Proof.
  intros H. destruct (f_parts u H) as (He & Hm & _). unfold f_mag.
  destruct (Z.eqb_spec (f_exp u) 0); [lia|].
  apply Z.mul_nonneg_nonneg; [lia | apply Z.pow_nonneg; lia].
Qed.

Lemma f_mag_lt u v : is_u64 u -> is_u64 v -> absbits u < absbits v -> f_mag u < f_mag v.
Proof.
  intros Hu Hv. destruct (f_parts u Hu) as (Eu & Mu & ->). destruct (f_parts v Hv) as (Ev & Mv & ->).
  unfold f_mag. set (C := 2 ^ 52) in *. assert (HC : 0 < C) by (unfold C; lia).
  intros L. assert (LE : f_exp u <= f_exp v) by nia.
  destruct (Z.eqb_spec (f_exp u) 0) as [E|E], (Z.eqb_spec (f_exp v) 0) as [F|F].
  - rewrite E, F in L. lia.
  - assert (1 <= 2 ^ (f_exp v - 1)) by (pose proof (Z.pow_pos_nonneg 2 (f_exp v - 1)); lia). nia.
  - lia.
  - destruct (Z.eq_dec (f_exp u) (f_exp v)) as [G|G].
    + rewrite G in *. pose proof (Z.pow_pos_nonneg 2 (f_exp v - 1)). nia.
    + assert (P : 2 ^ f_exp u <= 2 ^ (f_exp v - 1)) by (apply Z.pow_le_mono_r; lia).
      assert (Q : 2 ^ f_exp u = 2 * 2 ^ (f_exp u - 1)).
      { rewrite <- Z.pow_succ_r by lia. f_equal. lia. }
      pose proof (Z.pow_pos_nonneg 2 (f_exp u - 1)). nia.
Qed.
Lemma f_mag_cmp u v : is_u64 u -> is_u64 v -> (f_mag u ?= f_mag v) = (absbits u ?= absbits v).
Proof.
  intros Hu Hv. destruct (Z.compare_spec (absbits u) (absbits v)) as [E|E|E].
  - destruct (f_parts u Hu) as (Eu & Mu & Au). destruct (f_parts v Hv) as (Ev & Mv & Av).
    change (2 ^ 52) with 4503599627370496 in *.
    assert (f_exp u = f_exp v) by lia. assert (f_mant u = f_mant v) by lia.
    unfold f_mag. rewrite H, H0. apply Z.compare_refl.
  - apply Z.compare_lt_iff. apply f_mag_lt; assumption.
  - apply Z.compare_gt_iff. apply f_mag_lt; assumption.
Qed.
Lemma f_mag_zero u : is_u64 u -> (f_mag u = 0 <-> absbits u = 0).
Proof.
  intros H. assert (Z0 : is_u64 0) by (unfold is_u64; rewrite two64_val; lia).
  pose proof (f_mag_cmp u 0 H Z0) as C. change (f_mag 0) with 0 in C. change (absbits 0) with 0 in C.
  rewrite <- !Z.compare_eq_iff. rewrite C. reflexivity.
Qed.

Lemma absbits_split u : is_u64 u -> u = absbits u + (if f_sign u then two63 else 0) /\ 0 <= absbits u < two63.
Proof.
  unfold is_u64, absbits, f_sign. rewrite two63_val, two64_val. intros H.
  destruct (Z.leb_spec 9223372036854775808 u); lia.
Qed.

(** a non-NaN encodes as 2^63 + |bits| or 2^63 - 1 - |bits| *)
Lemma enc_float_val u : is_u64 u -> is_nan u = false ->
  encodeFloat64ToUint64 u =
    if f_sign u && negb (absbits u =? 0) then two63 - 1 - absbits u else two63 + absbits u.
Proof.
  intros H N. unfold encodeFloat64ToUint64. rewrite N. cbn [negb andb].
  pose proof (f_mag_nonneg u H) as G. pose proof (f_mag_zero u H) as Z0.
  destruct (absbits_split u H) as [S A]. unfold fval. pose proof (lor_sign u H) as LS.
  destruct (f_sign u) eqn:FS.
  - destruct (Z.eqb_spec (absbits u) 0) as [E|E]; cbn [negb andb].
    + rewrite (proj2 Z0 E). cbn [Z.opp Z.leb Z.compare]. rewrite LS. unfold f_sign in FS. rewrite FS. lia.
    + assert (f_mag u <> 0) by tauto. destruct (Z.leb_spec 0 (- f_mag u)); [lia|].
      unfold u64_not. rewrite two63_val, two64_val in *. lia.
  - cbn [andb]. destruct (Z.leb_spec 0 (f_mag u)); [|lia]. rewrite LS. unfold f_sign in FS. rewrite FS. lia.
Qed.

Lemma enc_float_range u : is_u64 u -> is_u64 (encodeFloat64ToUint64 u).
Proof.
  intros H. unfold encodeFloat64ToUint64. destruct (_ && _); [|apply u64_not_range; exact H].
  rewrite lor_sign by exact H. unfold is_u64 in *. rewrite two63_val, two64_val in *.
  destruct (Z.leb_spec 9223372036854775808 u); lia.
Qed.

Lemma enc_float_cmp u v : is_u64 u -> is_u64 v -> is_nan u = false -> is_nan v = false ->
  (encodeFloat64ToUint64 u ?= encodeFloat64ToUint64 v) = (fval u ?= fval v).
Proof.
  intros Hu Hv Nu Nv. rewrite !enc_float_val by assumption.
  pose proof (f_mag_cmp u v Hu Hv) as C.
  pose proof (f_mag_zero u Hu) as Zu. pose proof (f_mag_zero v Hv) as Zv.
  pose proof (f_mag_nonneg u Hu). pose proof (f_mag_nonneg v Hv).
  destruct (absbits_split u Hu) as [_ Au]. destruct (absbits_split v Hv) as [_ Av].
  unfold fval.
  destruct (Z.compare_spec (absbits u) (absbits v)) as [E|E|E];
  [apply Z.compare_eq in C | apply -> Z.compare_lt_iff in C | apply -> Z.compare_gt_iff in C];
  destruct (f_sign u), (f_sign v); cbn [andb];
  destruct (Z.eqb_spec (absbits u) 0) as [F|F], (Z.eqb_spec (absbits v) 0) as [G|G]; cbn [negb];
  match goal with |- (?a ?= ?b) = (?c ?= ?d) =>
    destruct (Z.compare_spec a b), (Z.compare_spec c d); try reflexivity; exfalso; lia end.
Qed.

Lemma float_roundtrip u : is_u64 u -> is_nan u = false ->
  decodeUint64ToFloat64 (encodeFloat64ToUint64 u) = if u =? neg_zero then 0 else u.
Proof.
  intros H N. pose proof (enc_float_range u H) as R. unfold decodeUint64ToFloat64.
  rewrite land_sign, land_notsign by exact R. rewrite enc_float_val in * by assumption.
  destruct (absbits_split u H) as [S A]. unfold neg_zero, u64_not. rewrite two63_val, two64_val in *.
  destruct (f_sign u); cbn [andb]; destruct (Z.eqb_spec (absbits u) 0) as [F|F]; cbn [negb];
  match goal with |- (if 9223372036854775808 <=? ?x then _ else _) = (if ?a =? ?b then _ else _) =>
    destruct (Z.leb_spec 9223372036854775808 x), (Z.eqb_spec a b); lia end.
Qed.
