(** Model of kv/compact (varints) and lemmas. *)
From Verif Require Import Bytes Memcmp MemcmpProofs.

(** binary.PutUvarint (Go standard library): x >= 0x80 emits byte(x)|0x80 and shifts by 7.
    10 bytes (MaxVarintLen64) suffice for a uint64. *)
Fixpoint put_uvarint (fuel : nat) (x : Z) : bytes :=
  match fuel with
  | O => []
  | S f => if 128 <=? x
           then z2b (Z.lor (x mod 256) 128) :: put_uvarint f (Z.shiftr x 7)
           else [z2b x]
  end.
Definition PutUvarint (x : Z) : bytes := put_uvarint 10 x.

(** binary.Uvarint: None n = (0, n<=0). [i] is the index, s = 7*i the shift.
    (Go >= 1.17 additionally stops with an overflow at i = 10; both variants fail there.) *)
Inductive uv_res := UVok (v : Z) (n : nat) | UVoverflow | UVshort.
Fixpoint uvarint (b : bytes) (i : nat) (x : Z) : uv_res :=
  match b with
  | [] => UVshort
  | c :: b' =>
      let s := 7 * Z.of_nat i in
      if b2z c <? 128 then
        if Nat.ltb 9 i || (Nat.eqb i 9 && (1 <? b2z c)) then UVoverflow
        else UVok (Z.lor x (to_u64 (Z.shiftl (b2z c) s))) (S i)
      else uvarint b' (S i) (Z.lor x (to_u64 (Z.shiftl (Z.land (b2z c) 127) s)))
  end.
Definition Uvarint (b : bytes) : uv_res := uvarint b 0 0.

(** binary.PutVarint / binary.Varint zig-zag *)
Definition zigzag (x : Z) : Z :=
  let ux := to_u64 (Z.shiftl (to_u64 x) 1) in if x <? 0 then u64_not ux else ux.
Definition unzigzag (ux : Z) : Z :=
  let x := to_i64 (Z.shiftr ux 1) in
  if negb (Z.land ux 1 =? 0) then - x - 1 else x.

Inductive cerr := CTooLarge | CInsufficient.
(** outcome of a compact decoder: a value, an error, or a Go run-time panic *)
Inductive cres (A : Type) := COk (leftover : bytes) (v : A) | CErr (e : cerr) | CPanic.
Arguments COk {A}. Arguments CErr {A}. Arguments CPanic {A}.

(** EncodeUvarint / DecodeUvarint, kv/compact/number.go:29-34, 37-46 *)
Definition EncodeUvarint (b : bytes) (v : Z) : bytes := b ++ PutUvarint v.
Definition DecodeUvarint (b : bytes) : cres Z :=
  match Uvarint b with
  | UVok v n => COk (skipn n b) v
  | UVoverflow => CErr CTooLarge
  | UVshort => CErr CInsufficient
  end.
(** EncodeVarint / DecodeVarint, kv/compact/number.go:9-14, 17-26 *)
Definition EncodeVarint (b : bytes) (v : Z) : bytes := b ++ PutUvarint (zigzag v).
Definition DecodeVarint (b : bytes) : cres Z :=
  match DecodeUvarint b with
  | COk l u => COk l (unzigzag u)
  | CErr e => CErr e
  | CPanic => CPanic
  end.

(** EncodeBytes, kv/compact/bytes.go:11-15 *)
Definition CEncodeBytes (b data : bytes) : bytes :=
  EncodeVarint b (Z.of_nat (length data)) ++ data.
(** DecodeBytes, kv/compact/bytes.go:18-27: b[n:] and b[:n] panic for negative n *)
Definition CDecodeBytes (b : bytes) : cres bytes :=
  match DecodeVarint b with
  | COk b' n =>
      if Z.of_nat (length b') <? n then CErr CInsufficient
      else if n <? 0 then CPanic
      else COk (skipn (Z.to_nat n) b') (firstn (Z.to_nat n) b')
  | CErr e => CErr e
  | CPanic => CPanic
  end.

(** * Lemmas *)

Lemma sweep256 (P : Z -> bool) :
  forallb (fun n => P (Z.of_nat n)) (seq 0 256) = true -> forall z, 0 <= z < 256 -> P z = true.
Proof.
  intros H z Hz. rewrite forallb_forall in H. specialize (H (Z.to_nat z)).
  rewrite Z2Nat.id in H by lia. apply H, in_seq. lia.
Qed.
Lemma lor128 x : 0 <= x -> Z.lor (x mod 256) 128 = x mod 128 + 128.
Proof.
  intros H. pose proof (sweep256 (fun z => Z.lor z 128 =? z mod 128 + 128) ltac:(vm_compute; reflexivity) (x mod 256) ltac:(lia)) as E.
  apply Z.eqb_eq in E. rewrite E. lia.
Qed.
Lemma land127 x : 0 <= x < 256 -> Z.land x 127 = x mod 128.
Proof.
  intros H. pose proof (sweep256 (fun z => Z.land z 127 =? z mod 128) ltac:(vm_compute; reflexivity) x H) as E.
  apply Z.eqb_eq. exact E.
Qed.
Lemma lor_shift x y s : 0 <= x < 2 ^ s -> 0 <= s -> 0 <= y -> Z.lor x (Z.shiftl y s) = x + y * 2 ^ s.
Proof.
  intros Hx Hs Hy. rewrite <- Z.shiftl_mul_pow2 by exact Hs.
  assert (D : Z.land x (Z.shiftl y s) = 0).
  { apply Z.bits_inj'. intros n Hn. rewrite Z.land_spec, Z.bits_0.
    destruct (Z.ltb_spec n s) as [L|L].
    - rewrite Z.shiftl_spec_low by exact L. apply andb_false_r.
    - replace (Z.testbit x n) with false; [reflexivity|]. symmetry.
      destruct (Z.eq_dec x 0) as [->|N]; [apply Z.bits_0|].
      apply Z.bits_above_log2; [lia|]. apply Z.log2_lt_pow2; [lia|].
      eapply Z.lt_le_trans; [apply Hx|]. apply Z.pow_le_mono_r; lia. }
  rewrite <- Z.lxor_lor by exact D. rewrite <- Z.add_nocarry_lxor by exact D. reflexivity.
Qed.

Lemma pow_split a b : 0 <= a -> 0 <= b -> 2 ^ (a + b) = 2 ^ a * 2 ^ b.
Proof. intros. apply Z.pow_add_r; assumption. Qed.

(** decoding an encoding, started at group i with accumulated x *)
Lemma uvarint_put fuel : forall v i x rest,
  0 <= v -> v < 2 ^ (64 - 7 * Z.of_nat i) -> (fuel + i = 10)%nat -> (0 < fuel)%nat ->
  0 <= x < 2 ^ (7 * Z.of_nat i) ->
  uvarint (put_uvarint fuel v ++ rest) i x =
    UVok (x + v * 2 ^ (7 * Z.of_nat i)) (i + length (put_uvarint fuel v)).
Proof.
  induction fuel as [|fuel IH]; intros v i x rest Hv Hv2 Hi Hf Hx; [lia|].
  cbn [put_uvarint]. set (s := 7 * Z.of_nat i) in *.
  assert (Hs : 0 <= s <= 63) by (unfold s; lia).
  assert (P64 : 2 ^ 64 = 2 ^ (64 - s) * 2 ^ s) by (rewrite <- pow_split by lia; f_equal; lia).
  assert (Ps : 0 < 2 ^ s) by (apply Z.pow_pos_nonneg; lia).
  destruct (Z.leb_spec 128 v) as [L|L].
  - rewrite lor128 by exact Hv. cbn [app uvarint length]. fold s. rewrite b2z_z2b.
    rewrite (Z.mod_small (v mod 128 + 128)) by lia.
    destruct (Z.ltb_spec (v mod 128 + 128) 128); [lia|].
    rewrite land127 by lia. replace ((v mod 128 + 128) mod 128) with (v mod 128) by lia.
    assert (S57 : s + 7 <= 63).
    { destruct (Z.leb_spec s 56) as [L2|L2]; [lia|]. exfalso.
      assert (E : s = 63) by (unfold s in *; lia). rewrite E in Hv2. change (2 ^ (64 - 63)) with 2 in Hv2. lia. }
    assert (P1 : 2 ^ (64 - s) = 128 * 2 ^ (57 - s)).
    { replace (64 - s) with (7 + (57 - s)) by lia. rewrite pow_split by lia. reflexivity. }
    assert (P2 : 2 ^ (s + 7) = 128 * 2 ^ s) by (rewrite pow_split by lia; lia).
    assert (T : to_u64 (Z.shiftl (v mod 128) s) = Z.shiftl (v mod 128) s).
    { apply to_u64_id. unfold is_u64. change two64 with (2 ^ 64). rewrite Z.shiftl_mul_pow2 by lia. nia. }
    rewrite T, lor_shift by lia.
    rewrite Z.shiftr_div_pow2 by lia. change (2 ^ 7) with 128.
    rewrite IH; try lia.
    + replace (7 * Z.of_nat (S i)) with (s + 7) by (unfold s; lia). rewrite P2. f_equal; [|lia].
      pose proof (Z.div_mod v 128 ltac:(lia)). nia.
    + replace (64 - 7 * Z.of_nat (S i)) with (57 - s) by (unfold s; lia). apply Z.div_lt_upper_bound; lia.
    + replace (7 * Z.of_nat (S i)) with (s + 7) by (unfold s; lia). rewrite P2. nia.
  - cbn [app uvarint length]. fold s. rewrite b2z_z2b, Z.mod_small by lia.
    destruct (Z.ltb_spec v 128); [|lia].
    assert (O1 : (Nat.ltb 9 i || (Nat.eqb i 9 && (1 <? v))) = false).
    { destruct (Nat.ltb_spec 9 i); [lia|]. destruct (Nat.eqb_spec i 9) as [E|E]; [|reflexivity].
      cbn [orb andb]. unfold s in Hv2. rewrite E in Hv2. change (2 ^ (64 - 7 * Z.of_nat 9)) with 2 in Hv2. lia. }
    rewrite O1.
    assert (T : to_u64 (Z.shiftl v s) = Z.shiftl v s).
    { apply to_u64_id. unfold is_u64. change two64 with (2 ^ 64). rewrite Z.shiftl_mul_pow2 by lia. nia. }
    rewrite T, lor_shift by lia. f_equal. lia.
Qed.

Lemma Uvarint_put v rest : is_u64 v ->
  Uvarint (PutUvarint v ++ rest) = UVok v (length (PutUvarint v)).
Proof.
  intros [H1 H2]. unfold Uvarint, PutUvarint.
  rewrite uvarint_put; try lia; [|exact H2].
  change (7 * Z.of_nat 0) with 0. change (2 ^ 0) with 1. rewrite Z.mul_1_r. reflexivity.
Qed.

Lemma DecodeUvarint_enc v rest : is_u64 v -> DecodeUvarint (EncodeUvarint [] v ++ rest) = COk rest v.
Proof.
  intros H. unfold DecodeUvarint, EncodeUvarint. cbn [app]. rewrite Uvarint_put by exact H.
  rewrite skipn_app_exact by reflexivity. reflexivity.
Qed.

Lemma put_uvarint_length fuel v : (length (put_uvarint fuel v) <= fuel)%nat.
Proof.
  revert v. induction fuel as [|fuel IH]; intros v; cbn [put_uvarint length]; [lia|].
  destruct (128 <=? v); cbn [length]; [specialize (IH (Z.shiftr v 7)); lia | lia].
Qed.
Lemma PutUvarint_length v : (1 <= length (PutUvarint v) <= 10)%nat.
Proof.
  split; [|apply put_uvarint_length]. unfold PutUvarint. cbn [put_uvarint].
  destruct (128 <=? v); cbn [length]; lia.
Qed.

Lemma zigzag_range x : is_i64 x -> is_u64 (zigzag x).
Proof.
  unfold zigzag, is_i64, is_u64, u64_not, to_u64. rewrite two63_val, two64_val. intros H.
  destruct (Z.ltb_spec x 0); lia.
Qed.
Lemma zigzag_val x : is_i64 x -> zigzag x = if x <? 0 then - 2 * x - 1 else 2 * x.
Proof.
  unfold zigzag, is_i64, u64_not, to_u64. rewrite Z.shiftl_mul_pow2 by lia. change (2 ^ 1) with 2.
  rewrite two63_val, two64_val. intros H. destruct (Z.ltb_spec x 0); lia.
Qed.
Lemma unzigzag_val u : is_u64 u -> unzigzag u = if u mod 2 =? 0 then u / 2 else - (u / 2) - 1.
Proof.
  intros H. unfold unzigzag. rewrite Z.shiftr_div_pow2 by lia. change (2 ^ 1) with 2.
  change 1 with (Z.ones 1) at 1. rewrite Z.land_ones by lia. change (2 ^ 1) with 2.
  rewrite to_i64_id by (unfold is_i64, is_u64 in *; rewrite two63_val, two64_val in *; lia).
  destruct (Z.eqb_spec (u mod 2) 0); reflexivity.
Qed.
Lemma unzigzag_zigzag x : is_i64 x -> unzigzag (zigzag x) = x.
Proof.
  intros H. rewrite unzigzag_val by (apply zigzag_range; exact H). rewrite zigzag_val by exact H.
  destruct (Z.ltb_spec x 0).
  - destruct (Z.eqb_spec ((-2 * x - 1) mod 2) 0); lia.
  - destruct (Z.eqb_spec ((2 * x) mod 2) 0); lia.
Qed.

Lemma DecodeVarint_enc v rest : is_i64 v -> DecodeVarint (EncodeVarint [] v ++ rest) = COk rest v.
Proof.
  intros H. unfold DecodeVarint, EncodeVarint.
  pose proof (DecodeUvarint_enc (zigzag v) rest (zigzag_range v H)) as E. unfold EncodeUvarint in E.
  rewrite E, unzigzag_zigzag by exact H. reflexivity.
Qed.

Lemma CDecodeBytes_enc d rest : Z.of_nat (length d) < two63 ->
  CDecodeBytes (CEncodeBytes [] d ++ rest) = COk rest d.
Proof.
  intros H. unfold CDecodeBytes, CEncodeBytes. rewrite <- app_assoc.
  rewrite DecodeVarint_enc by (unfold is_i64; rewrite two63_val in *; lia).
  rewrite app_length. destruct (Z.ltb_spec (Z.of_nat (length d + length rest)) (Z.of_nat (length d))); [lia|].
  destruct (Z.ltb_spec (Z.of_nat (length d)) 0); [lia|]. rewrite Nat2Z.id.
  rewrite skipn_app_exact, firstn_app_exact by reflexivity. reflexivity.
Qed.

(** truncated encodings are rejected *)
Lemma uvarint_trunc fuel : forall v i x k,
  (k < length (put_uvarint fuel v))%nat -> 0 <= v ->
  uvarint (firstn k (put_uvarint fuel v)) i x = UVshort.
Proof.
  induction fuel as [|fuel IH]; intros v i x k Hk Hv; cbn [put_uvarint] in *; [cbn in Hk; lia|].
  destruct (Z.leb_spec 128 v) as [L|L].
  - destruct k as [|k]; [reflexivity|]. cbn [firstn uvarint]. rewrite lor128 by exact Hv.
    rewrite b2z_z2b, Z.mod_small by lia. destruct (Z.ltb_spec (v mod 128 + 128) 128); [lia|].
    apply IH; [cbn [length] in Hk; lia|]. rewrite Z.shiftr_div_pow2 by lia. apply Z.div_pos; lia.
  - cbn [length] in Hk. replace k with 0%nat by lia. reflexivity.
Qed.

(** the decoded length prefix is always an int64 *)
Lemma uvarint_val b : forall i x v n, 0 <= x < two64 -> uvarint b i x = UVok v n -> 0 <= v < two64.
Proof.
  assert (LOR : forall a c, 0 <= a < two64 -> 0 <= c < two64 -> 0 <= Z.lor a c < two64).
  { intros a c Ha Hc. split; [apply Z.lor_nonneg; lia|]. change two64 with (2 ^ 64) in *.
    destruct (Z.eq_dec (Z.lor a c) 0) as [->|N]; [lia|].
    apply Z.log2_lt_cancel. rewrite Z.log2_pow2 by lia.
    rewrite Z.log2_lor by lia.
    assert (B : forall w, 0 <= w < 2 ^ 64 -> Z.log2 w < 64).
    { intros w Hw. destruct (Z.eq_dec w 0) as [->|]; [reflexivity|]. apply Z.log2_lt_pow2; lia. }
    pose proof (B a Ha). pose proof (B c Hc). lia. }
  induction b as [|c b IH]; intros i x v n Hx; cbn [uvarint]; [discriminate|].
  destruct (b2z c <? 128).
  - destruct (_ || _); [discriminate|]. intros H. inversion H. apply LOR; [exact Hx | apply to_u64_range].
  - apply IH. apply LOR; [exact Hx | apply to_u64_range].
Qed.

(** exactly when DecodeBytes panics: a complete varint with a negative value *)
Lemma CDecodeBytes_panic b :
  CDecodeBytes b = CPanic <-> exists l n, DecodeVarint b = COk l n /\ n < 0.
Proof.
  unfold CDecodeBytes. split.
  - destruct (DecodeVarint b) as [l n|e|] eqn:E; try discriminate.
    + destruct (Z.of_nat (length l) <? n); [discriminate|].
      destruct (Z.ltb_spec n 0); [|discriminate]. intros _. exists l, n. auto.
    + unfold DecodeVarint, DecodeUvarint in E. destruct (Uvarint b); discriminate.
  - intros (l & n & -> & H). destruct (Z.ltb_spec (Z.of_nat (length l)) n); [lia|].
    destruct (Z.ltb_spec n 0); [reflexivity | lia].
Qed.
