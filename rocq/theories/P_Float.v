(** C06/C07: the reading of the 64-bit patterns used in Float.v (is_nan, fval) is that of IEEE 754, as Flocq
    decodes the patterns and the standard library's SpecFloat compares the numbers. *)
From Coq Require Import SpecFloat.
From Flocq Require Import IEEE754.Bits IEEE754.Binary.
From Verif Require Import Bytes Memcmp MemcmpProofs Float.

(** * Specification (independent of Float.v): Flocq's decoder of binary64 patterns (52 bits of mantissa, 11 of exponent) *)
Definition ieee (u : Z) : spec_float := FF2SF (binary_float_of_bits_aux 52 11 u).

(** * Proof *)
Lemma ieee_val u : is_u64 u -> ieee u =
  if f_exp u =? 0 then (if f_mant u =? 0 then S754_zero (f_sign u) else S754_finite (f_sign u) (Z.to_pos (f_mant u)) (-1074))
  else if f_exp u =? 2047 then (if f_mant u =? 0 then S754_infinity (f_sign u) else S754_nan)
  else S754_finite (f_sign u) (Z.to_pos (2 ^ 52 + f_mant u)) (f_exp u - 1075).
Proof.
  intros H. destruct (f_parts u H) as (E & M & _).
  unfold ieee, binary_float_of_bits_aux, split_bits.
  assert (X1 : (u / 2 ^ 52) mod 2 ^ 11 = f_exp u).
  { unfold f_exp. unfold is_u64 in H. rewrite two63_val, two64_val in *. change (2 ^ 52) with 4503599627370496. change (2 ^ 11) with 2048. lia. }
  assert (X2 : u mod 2 ^ 52 = f_mant u) by reflexivity.
  assert (X3 : (2 ^ 52 * 2 ^ 11 <=? u) = f_sign u) by (unfold f_sign; rewrite two63_val; reflexivity).
  rewrite X1, X2, X3. change (2 ^ 11 - 1) with 2047. change (SpecFloat.emin (52 + 1) (2 ^ (11 - 1))) with (-1074).
  change (Zeq_bool (f_exp u) 0) with (Zeq_bool (f_exp u) 0).
  assert (ZB : forall a b, Zeq_bool a b = (a =? b)).
  { intros a b. destruct (Zeq_bool a b) eqn:Q; [apply Zeq_bool_eq in Q | apply Zeq_bool_neq in Q]; lia. }
  rewrite !ZB. change (2 ^ 52) with 4503599627370496 in *.
  destruct (f_exp u =? 0) eqn:E0.
  - destruct (f_mant u) eqn:Mu; [reflexivity | reflexivity | lia].
  - destruct (f_exp u =? 2047) eqn:E1.
    + destruct (f_mant u) eqn:Mu; [reflexivity | reflexivity | lia].
    + rewrite (Z.add_comm 4503599627370496). destruct (f_mant u + 4503599627370496) eqn:Mu; [lia | | lia].
      cbn [FF2SF Z.to_pos]. f_equal. lia.
Qed.
(** the NaNs are exactly the patterns Go calls NaN: both ranges above the infinities *)
Theorem C06_nan_is_ieee_nan : forall u, is_u64 u ->
  (is_nan u = true <-> ieee u = S754_nan) /\
  (is_nan u = true <-> 0x7FF0000000000000 < u < 0x8000000000000000 \/ 0xFFF0000000000000 < u).
Proof.
  intros u H. split.
  - rewrite (ieee_val u H). unfold is_nan. destruct (f_exp u =? 2047) eqn:E.
    + replace (f_exp u =? 0) with false by lia. destruct (f_mant u =? 0); cbn [andb negb]; split; congruence.
    + cbn [andb]. split; [discriminate|]. destruct (f_exp u =? 0); [destruct (f_mant u =? 0)|]; discriminate.
  - unfold is_nan, f_exp, f_mant. unfold is_u64 in H. rewrite two63_val, two64_val in *. change (2 ^ 52) with 4503599627370496.
    rewrite andb_true_iff, negb_true_iff, Z.eqb_eq, Z.eqb_neq. lia.
Qed.
Print Assumptions C06_nan_is_ieee_nan.
Lemma fval_sign u : fval u = if f_sign u then - f_mag u else f_mag u. Proof. reflexivity. Qed.
Definition sfmag (u : Z) : Z := absbits u.
Lemma cmp_opp a b : (- a ?= - b) = CompOpp (a ?= b).
Proof. rewrite Z.compare_opp. apply Z.compare_antisym. Qed.
(** fval orders the patterns the way IEEE 754 compares the numbers; a comparison with a NaN has no answer *)
Theorem C06_order_is_ieee_order : forall u v, is_u64 u -> is_u64 v -> is_nan u = false -> is_nan v = false ->
  SFcompare (ieee u) (ieee v) = Some (fval u ?= fval v).
Proof.
  intros u v Hu Hv Nu Nv. rewrite !fval_sign.
  pose proof (f_mag_cmp u v Hu Hv) as C. pose proof (f_mag_nonneg u Hu) as Gu. pose proof (f_mag_nonneg v Hv) as Gv.
  pose proof (f_mag_zero u Hu) as Zu. pose proof (f_mag_zero v Hv) as Zv.
  rewrite (ieee_val u Hu), (ieee_val v Hv).
  destruct (f_parts u Hu) as (Eu & Mu & Au). destruct (f_parts v Hv) as (Ev & Mv & Av). unfold is_nan in *.
  change (2 ^ 52) with 4503599627370496 in *.
  set (eu := f_exp u) in *. set (ev := f_exp v) in *. set (mu := f_mant u) in *. set (mv := f_mant v) in *.
  set (a := absbits u) in *. set (b := absbits v) in *. set (x := f_mag u) in *. set (y := f_mag v) in *.
  clearbody eu ev mu mv a b x y.
  assert (SG : ((if f_sign u then - x else x) ?= (if f_sign v then - y else y)) =
    match f_sign u, f_sign v with
    | false, false => a ?= b | true, true => CompOpp (a ?= b)
    | true, false => if (a =? 0) && (b =? 0) then Eq else Lt
    | false, true => if (a =? 0) && (b =? 0) then Eq else Gt end).
  { destruct (f_sign u), (f_sign v).
    - rewrite cmp_opp, C. reflexivity.
    - destruct (Z.eqb_spec a 0), (Z.eqb_spec b 0); cbn [andb]; [apply Z.compare_eq_iff | apply Z.compare_lt_iff ..]; lia.
    - destruct (Z.eqb_spec a 0), (Z.eqb_spec b 0); cbn [andb]; [apply Z.compare_eq_iff | apply Z.compare_gt_iff ..]; lia.
    - exact C. }
  etransitivity; [|apply f_equal; symmetry; exact SG]. clear SG C Gu Gv Zu Zv.
  assert (LT : a < b -> (a ?= b) = Lt) by apply Z.compare_lt_iff. assert (GT : a > b -> (a ?= b) = Gt) by (intros; apply Z.compare_gt_iff; lia).
  assert (EQ : a = b -> (a ?= b) = Eq) by apply Z.compare_eq_iff.
  assert (PC : forall p q, 0 < p -> 0 < q -> Pos.compare_cont Eq (Z.to_pos p) (Z.to_pos q) = (p ?= q)) by (intros p q P Q; destruct p; try lia; destruct q; try lia; reflexivity).
  assert (FIN : forall p q e f, 0 < p -> 0 < q -> match e ?= f with Lt => Lt | Gt => Gt | Eq => p ?= q end = (a ?= b) ->
    SFcompare (S754_finite (f_sign u) (Z.to_pos p) e) (S754_finite (f_sign v) (Z.to_pos q) f) =
    Some match f_sign u, f_sign v with false, false => a ?= b | true, true => CompOpp (a ?= b) | true, false => Lt | false, true => Gt end).
  { intros p q e f P Q R. cbn [SFcompare]. rewrite (PC p q P Q), <- R. destruct (f_sign u), (f_sign v); try reflexivity. destruct (e ?= f); reflexivity. }
  destruct (Z.eqb_spec eu 0) as [Eu0|Eu0]; [destruct (Z.eqb_spec mu 0) as [Mu0|Mu0] | destruct (Z.eqb_spec eu 2047) as [Eu1|Eu1]; [destruct (Z.eqb_spec mu 0) as [Mu0|Mu0]; [|discriminate Nu]|]];
  (destruct (Z.eqb_spec ev 0) as [Ev0|Ev0]; [destruct (Z.eqb_spec mv 0) as [Mv0|Mv0] | destruct (Z.eqb_spec ev 2047) as [Ev1|Ev1]; [destruct (Z.eqb_spec mv 0) as [Mv0|Mv0]; [|discriminate Nv]|]]);
  try (replace ((a =? 0) && (b =? 0)) with false by lia);
  try (replace ((a =? 0) && (b =? 0)) with true by lia);
  first [ rewrite FIN; [reflexivity | lia | lia |]
        | cbn [SFcompare]; first [rewrite LT by lia | rewrite EQ by lia | rewrite GT by lia]; destruct (f_sign u), (f_sign v); reflexivity ].
  - rewrite Z.compare_refl. destruct (Z.compare_spec mu mv); symmetry; [apply EQ | apply LT | apply GT]; lia.
  - destruct (Z.compare_spec (-1074) (ev - 1075)); [|symmetry; apply LT; lia | lia]. destruct (Z.compare_spec mu (4503599627370496 + mv)); symmetry; [apply EQ | apply LT | apply GT]; lia.
  - destruct (Z.compare_spec (eu - 1075) (-1074)); [|lia | symmetry; apply GT; lia]. destruct (Z.compare_spec (4503599627370496 + mu) mv); symmetry; [apply EQ | apply LT | apply GT]; lia.
  - destruct (Z.compare_spec (eu - 1075) (ev - 1075)); [|symmetry; apply LT; lia | symmetry; apply GT; lia]. destruct (Z.compare_spec (4503599627370496 + mu) (4503599627370496 + mv)); symmetry; [apply EQ | apply LT | apply GT]; lia.
Qed.
Print Assumptions C06_order_is_ieee_order.

(** C06 in terms of IEEE 754 alone: encoded numbers compare as the numbers do *)
From Verif Require Import P_Codec.
Theorem C06_float_order_ieee : forall u v x y c, is_u64 u -> is_u64 v -> SFcompare (ieee u) (ieee v) = Some c ->
  bytes_cmp (EncodeFloat64 [] u ++ x) (EncodeFloat64 [] v ++ y) = match c with Eq => bytes_cmp x y | _ => c end /\
  bytes_cmp (EncodeFloat64Desc [] u ++ x) (EncodeFloat64Desc [] v ++ y) = match c with Eq => bytes_cmp x y | _ => CompOpp c end.
Proof.
  intros u v x y c Hu Hv H.
  assert (NN : is_nan u = false /\ is_nan v = false).
  { split; apply not_true_is_false; intros N; [apply (proj1 (C06_nan_is_ieee_nan u Hu)) in N | apply (proj1 (C06_nan_is_ieee_nan v Hv)) in N]; rewrite N in H; [discriminate H|]. destruct (ieee u); discriminate H. }
  destruct NN as [Nu Nv]. rewrite (C06_order_is_ieee_order u v Hu Hv Nu Nv) in H. injection H as <-.
  destruct (C06_float_order u v x y Hu Hv Nu Nv) as [A B]. rewrite A, B. rewrite (Z.compare_antisym (fval u) (fval v)). destruct (fval u ?= fval v); split; reflexivity.
Qed.
Print Assumptions C06_float_order_ieee.
(** ... and every number comes back as itself (minus zero as plus zero); NaN is no number, see C07 *)
Theorem C06_float_roundtrip_ieee : forall u rest, is_u64 u -> ieee u <> S754_nan -> exists v,
  DecodeFloat64 (EncodeFloat64 [] u ++ rest) = DOk rest v /\ DecodeFloat64Desc (EncodeFloat64Desc [] u ++ rest) = DOk rest v /\
  ieee v = match ieee u with S754_zero _ => S754_zero false | n => n end.
Proof.
  intros u rest Hu N. assert (Nu : is_nan u = false) by (apply not_true_is_false; intros X; apply N; apply (C06_nan_is_ieee_nan u Hu); exact X).
  destruct (C06_float_roundtrip u rest Hu Nu) as [A B]. exists (if u =? neg_zero then 0 else u). split; [exact A|]. split; [exact B|].
  destruct (Z.eqb_spec u neg_zero) as [->|D]; [reflexivity|]. destruct (ieee u) as [s| | |] eqn:I; try reflexivity. destruct s; [|reflexivity]. exfalso. apply D.
  rewrite (ieee_val u Hu) in I. pose proof (f_parts u Hu) as (_ & _ & P). destruct (absbits_split u Hu) as [Q _].
  destruct (f_exp u =? 0) eqn:E; [|destruct (f_exp u =? 2047); [destruct (f_mant u =? 0)|]; discriminate I]. destruct (f_mant u =? 0) eqn:M; [|discriminate I].
  injection I as I. rewrite I in Q. unfold neg_zero. change (2 ^ 52) with 4503599627370496 in P. lia.
Qed.
Print Assumptions C06_float_roundtrip_ieee.
(** infinities, zeros, subnormals and normal numbers are all numbers *)
Example C06_ieee_example :
  ieee 0x7FF0000000000000 = S754_infinity false /\ ieee 0xFFF0000000000000 = S754_infinity true /\ ieee neg_zero = S754_zero true /\
  ieee 1 = S754_finite false 1 (-1074) /\ ieee 0xBFF0000000000000 = S754_finite true 4503599627370496 (-52) /\ ieee 0x7FF8000000000001 = S754_nan /\
  SFcompare (ieee 0xFFF0000000000000) (ieee 0xBFF0000000000000) = Some Lt /\ SFcompare (ieee neg_zero) (ieee 0) = Some Eq.
Proof. vm_compute. repeat split. Qed.
