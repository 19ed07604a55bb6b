(** Properties C01-C12: codecs and keys. Only property theorems, examples showing that
    hypotheses are met, and Print Assumptions. *)
From Verif Require Import Bytes Memcmp MemcmpProofs KeyModel Numeric Float Compact.

(** C01 *)
Theorem C01_bytes_roundtrip : forall amd64 buf data rest,
  (exists e, EncodeBytes buf data = buf ++ e /\ DecodeBytes amd64 (e ++ rest) = DOk rest data) /\
  (exists e, EncodeBytesDesc amd64 buf data = buf ++ e /\ DecodeBytesDesc amd64 (e ++ rest) = DOk rest data).
Proof.
  intros p buf data rest. split.
  - exists (enc data). split; [reflexivity | exact (decodeBytes_enc p false data rest)].
  - exists (compl (enc data)). split; [apply EncodeBytesDesc_compl | exact (decodeBytes_enc p true data rest)].
Qed.
Print Assumptions C01_bytes_roundtrip.
Example C01_example : DecodeBytes true (EncodeBytes [] (map z2b [1;2;3;4;5;6;7;8]) ++ [z2b 9])
  = DOk [z2b 9] (map z2b [1;2;3;4;5;6;7;8]).
Proof. vm_compute. reflexivity. Qed.

(** C02 *)
Theorem C02_bytes_order : forall amd64 a b,
  bytes_cmp (EncodeBytes [] a) (EncodeBytes [] b) = bytes_cmp a b /\
  bytes_cmp (EncodeBytesDesc amd64 [] a) (EncodeBytesDesc amd64 [] b) = bytes_cmp b a.
Proof.
  intros p a b. split.
  - pose proof (enc_cmp a b [] []) as H. rewrite !app_nil_r in H. unfold enc in H. rewrite H.
    destruct (bytes_cmp a b); reflexivity.
  - rewrite !EncodeBytesDesc_compl. pose proof (enc_desc_cmp a b [] []) as H. rewrite !app_nil_r in H.
    cbn [app]. rewrite H, (bytes_cmp_antisym a b). destruct (bytes_cmp a b); reflexivity.
Qed.
Print Assumptions C02_bytes_order.

(** C03 *)
Theorem C03_bytes_composite : forall amd64 a b x y,
  bytes_cmp (EncodeBytes [] a ++ x) (EncodeBytes [] b ++ y)
    = match bytes_cmp a b with Eq => bytes_cmp x y | c => c end /\
  bytes_cmp (EncodeBytesDesc amd64 [] a ++ x) (EncodeBytesDesc amd64 [] b ++ y)
    = match bytes_cmp b a with Eq => bytes_cmp x y | c => c end /\
  (HasPrefix (EncodeBytes [] a ++ x) (EncodeBytes [] b) = true -> a = b) /\
  (HasPrefix (EncodeBytesDesc amd64 [] a ++ x) (EncodeBytesDesc amd64 [] b) = true -> a = b) /\
  (EncodeBytes [] a ++ x = EncodeBytes [] b ++ y -> a = b /\ x = y).
Proof.
  intros p a b x y. rewrite !EncodeBytesDesc_compl. cbn [app]. repeat split.
  - exact (enc_cmp a b x y).
  - rewrite (bytes_cmp_antisym a b). exact (enc_desc_cmp a b x y).
  - exact (enc_prefix_free a b x).
  - unfold HasPrefix. rewrite has_prefix_spec. intros [s H]. apply bytes_cmp_eq in H.
    rewrite enc_desc_cmp in H. apply then_cmp_eq in H. destruct H as [H _].
    apply bytes_cmp_eq. destruct (bytes_cmp a b); try discriminate. reflexivity.
  - exact (proj1 (enc_inj_app a b x y H)).
  - exact (proj2 (enc_inj_app a b x y H)).
Qed.
Print Assumptions C03_bytes_composite.

(** C04: canonical, total (the fuel of the model is never exhausted, no slice access is
    out of range by construction), exact length *)
Theorem C04_bytes_decoder_canonical : forall amd64 b,
  (forall rest data, DecodeBytes amd64 b = DOk rest data -> b = EncodeBytes [] data ++ rest) /\
  (forall rest data, DecodeBytesDesc amd64 b = DOk rest data -> b = EncodeBytesDesc amd64 [] data ++ rest) /\
  DecodeBytes amd64 b <> DErr EOutOfFuel /\ DecodeBytesDesc amd64 b <> DErr EOutOfFuel /\
  Z.of_nat (length (EncodeBytes [] b)) = EncodedBytesLength (Z.of_nat (length b)) /\
  Z.of_nat (length (EncodeBytesDesc amd64 [] b)) = EncodedBytesLength (Z.of_nat (length b)).
Proof.
  intros p b. repeat split.
  - intros rest data. exact (decodeBytes_canonical p false b rest data).
  - intros rest data H. rewrite EncodeBytesDesc_compl. exact (decodeBytes_canonical p true b rest data H).
  - exact (decodeBytes_total p false b).
  - exact (decodeBytes_total p true b).
  - exact (EncodedBytesLength_ok b).
  - rewrite EncodeBytesDesc_compl. cbn [app]. rewrite compl_length. exact (EncodedBytesLength_ok b).
Qed.
Print Assumptions C04_bytes_decoder_canonical.
Example C04_rejects : DecodeBytes true (map z2b [1;2;3;0;0;0;7;0;250]) = DErr EInvalidPadding
  /\ DecodeBytes true (map z2b [1;2;3;0;0;0;7;0;200]) = DErr EInvalidMarker.
Proof. vm_compute. split; reflexivity. Qed.

(** C05 *)
Theorem C05_integers_roundtrip : forall buf rest,
  (forall v, is_i64 v -> exists e, EncodeInt64 buf v = buf ++ e /\ length e = 8%nat /\ DecodeInt64 (e ++ rest) = DOk rest v) /\
  (forall v, is_i64 v -> exists e, EncodeInt64Desc buf v = buf ++ e /\ length e = 8%nat /\ DecodeInt64Desc (e ++ rest) = DOk rest v) /\
  (forall v, is_u64 v -> exists e, EncodeUint64 buf v = buf ++ e /\ length e = 8%nat /\ DecodeUint64 (e ++ rest) = DOk rest v) /\
  (forall v, is_u64 v -> exists e, EncodeUint64Desc buf v = buf ++ e /\ length e = 8%nat /\ DecodeUint64Desc (e ++ rest) = DOk rest v) /\
  (forall v, exists e, EncodeUint8 buf v = buf ++ e /\ length e = 1%nat /\ DecodeUint8 (e ++ rest) = DOk rest v) /\
  (forall v, exists e, EncodeUint8Desc buf v = buf ++ e /\ length e = 1%nat /\ DecodeUint8Desc (e ++ rest) = DOk rest v).
Proof.
  intros buf rest.
  split; [|split; [|split; [|split; [|split]]]]; intros v; try intros H; eexists; (split; [reflexivity|split; [reflexivity|]]).
  - exact (DecodeInt64_enc v rest H).
  - unfold DecodeInt64Desc. rewrite DecodeUint64_enc by (apply u64_not_range, i64_enc_range, H).
    rewrite u64_not_invol, i64_roundtrip by exact H. reflexivity.
  - exact (DecodeUint64_enc v rest H).
  - unfold DecodeUint64Desc. rewrite DecodeUint64_enc by (apply u64_not_range, H).
    rewrite u64_not_invol. reflexivity.
  - reflexivity.
  - unfold DecodeUint8Desc. cbn [app DecodeUint8]. rewrite bcompl_invol. reflexivity.
Qed.
Print Assumptions C05_integers_roundtrip.

Theorem C05_integers_order : forall x y,
  (forall v w, is_i64 v -> is_i64 w ->
     bytes_cmp (EncodeInt64 [] v ++ x) (EncodeInt64 [] w ++ y) = match v ?= w with Eq => bytes_cmp x y | c => c end /\
     bytes_cmp (EncodeInt64Desc [] v ++ x) (EncodeInt64Desc [] w ++ y) = match w ?= v with Eq => bytes_cmp x y | c => c end) /\
  (forall v w, is_u64 v -> is_u64 w ->
     bytes_cmp (EncodeUint64 [] v ++ x) (EncodeUint64 [] w ++ y) = match v ?= w with Eq => bytes_cmp x y | c => c end /\
     bytes_cmp (EncodeUint64Desc [] v ++ x) (EncodeUint64Desc [] w ++ y) = match w ?= v with Eq => bytes_cmp x y | c => c end) /\
  (forall v w,
     bytes_cmp (EncodeUint8 [] v ++ x) (EncodeUint8 [] w ++ y) = match b2z v ?= b2z w with Eq => bytes_cmp x y | c => c end /\
     bytes_cmp (EncodeUint8Desc [] v ++ x) (EncodeUint8Desc [] w ++ y) = match b2z w ?= b2z v with Eq => bytes_cmp x y | c => c end).
Proof.
  assert (NOT : forall a b, (u64_not a ?= u64_not b) = (b ?= a)).
  { intros a b. unfold u64_not. destruct (Z.compare_spec b a);
    [apply Z.compare_eq_iff | apply Z.compare_lt_iff | apply Z.compare_gt_iff]; lia. }
  intros x y. repeat split.
  - exact (EncodeInt64_cmp v w x y H H0).
  - unfold EncodeInt64Desc, EncodeUint64. cbn [app].
    rewrite be8_cmp by (apply u64_not_range, i64_enc_range; assumption). rewrite NOT.
    rewrite !EncodeInt64ToUint64_val by assumption. unfold then_cmp.
    replace (w + two63 ?= v + two63) with (w ?= v); [reflexivity|].
    destruct (Z.compare_spec w v); symmetry; [apply Z.compare_eq_iff | apply Z.compare_lt_iff | apply Z.compare_gt_iff]; lia.
  - exact (be8_cmp v w x y H H0).
  - unfold EncodeUint64Desc, EncodeUint64. cbn [app]. rewrite be8_cmp by (apply u64_not_range; assumption).
    rewrite NOT. reflexivity.
  - cbn [EncodeUint8Desc EncodeUint8 app bytes_cmp]. rewrite !b2z_bcompl.
    replace (255 - b2z v ?= 255 - b2z w) with (b2z w ?= b2z v); [reflexivity|].
    destruct (Z.compare_spec (b2z w) (b2z v)); symmetry; [apply Z.compare_eq_iff | apply Z.compare_lt_iff | apply Z.compare_gt_iff]; lia.
Qed.
Print Assumptions C05_integers_order.

Theorem C05_integers_decoders_total : forall b,
  ((exists e, DecodeUint64 b = DErr e) <-> (length b < 8)%nat) /\
  ((exists e, DecodeInt64 b = DErr e) <-> (length b < 8)%nat) /\
  ((exists e, DecodeUint64Desc b = DErr e) <-> (length b < 8)%nat) /\
  ((exists e, DecodeInt64Desc b = DErr e) <-> (length b < 8)%nat) /\
  ((exists e, DecodeUint8 b = DErr e) <-> (length b < 1)%nat) /\
  ((exists e, DecodeUint8Desc b = DErr e) <-> (length b < 1)%nat) /\
  (forall rest v, DecodeInt64 b = DOk rest v -> is_i64 v /\ b = EncodeInt64 [] v ++ rest) /\
  (forall rest v, DecodeUint64 b = DOk rest v -> is_u64 v /\ b = EncodeUint64 [] v ++ rest).
Proof.
  intros b.
  assert (G : (exists e, DecodeUint64 b = DErr e) <-> (length b < 8)%nat).
  { unfold DecodeUint64. destruct (Nat.ltb_spec (length b) 8) as [L|L].
    - split; [intros _; exact L | intros _; eexists; reflexivity].
    - split; [intros [e H]; discriminate | lia]. }
  split; [exact G|].
  split; [|split; [|split; [|split; [|split; [|split]]]]].
  - rewrite <- G. unfold DecodeInt64. destruct (DecodeUint64 b); split; intros [e' H]; try discriminate; eexists; reflexivity.
  - rewrite <- G. unfold DecodeUint64Desc. destruct (DecodeUint64 b); split; intros [e' H]; try discriminate; eexists; reflexivity.
  - rewrite <- G. unfold DecodeInt64Desc. destruct (DecodeUint64 b); split; intros [e' H]; try discriminate; eexists; reflexivity.
  - destruct b as [|c b]; cbn; (split; [intros [e' H]; try discriminate; lia | intros H; try lia; eexists; reflexivity]).
  - destruct b as [|c b]; cbn; (split; [intros [e' H]; try discriminate; lia | intros H; try lia; eexists; reflexivity]).
  - intros rest v. unfold DecodeInt64. destruct (DecodeUint64 b) as [l u|e] eqn:E; [|discriminate].
    intros H. apply DOk_inj in H. destruct H as [<- <-]. apply DecodeUint64_inv in E. destruct E as [R ->].
    assert (RI : is_i64 (DecodeUint64ToInt64 u)).
    { rewrite DecodeUint64ToInt64_val by exact R. unfold is_i64, is_u64 in *. rewrite two63_val, two64_val in *. lia. }
    split; [exact RI|]. unfold EncodeInt64, EncodeUint64. cbn [app]. do 2 f_equal.
    rewrite EncodeInt64ToUint64_val by exact RI. rewrite DecodeUint64ToInt64_val by exact R. lia.
  - intros rest v H. exact (DecodeUint64_inv b rest v H).
Qed.
Print Assumptions C05_integers_decoders_total.
Example C05_example : is_i64 (-5) /\ is_u64 18446744073709551615.
Proof. unfold is_i64, is_u64. rewrite two63_val, two64_val. lia. Qed.

(** C06 *)
Theorem C06_float_order : forall u v x y, is_u64 u -> is_u64 v -> is_nan u = false -> is_nan v = false ->
  bytes_cmp (EncodeFloat64 [] u ++ x) (EncodeFloat64 [] v ++ y)
    = match fval u ?= fval v with Eq => bytes_cmp x y | c => c end /\
  bytes_cmp (EncodeFloat64Desc [] u ++ x) (EncodeFloat64Desc [] v ++ y)
    = match fval v ?= fval u with Eq => bytes_cmp x y | c => c end.
Proof.
  intros u v x y Hu Hv Nu Nv. unfold EncodeFloat64, EncodeFloat64Desc, EncodeUint64Desc, EncodeUint64. cbn [app]. split.
  - rewrite be8_cmp by (apply enc_float_range; assumption). rewrite enc_float_cmp by assumption. reflexivity.
  - rewrite be8_cmp by (apply u64_not_range, enc_float_range; assumption).
    rewrite <- (enc_float_cmp v u) by assumption. unfold u64_not, then_cmp.
    match goal with |- match ?a with _ => _ end = match ?b with _ => _ end => replace a with b; [reflexivity|] end.
    destruct (Z.compare_spec (encodeFloat64ToUint64 v) (encodeFloat64ToUint64 u)); symmetry;
    [apply Z.compare_eq_iff | apply Z.compare_lt_iff | apply Z.compare_gt_iff]; lia.
Qed.
Print Assumptions C06_float_order.
Theorem C06_float_roundtrip : forall u rest, is_u64 u -> is_nan u = false ->
  DecodeFloat64 (EncodeFloat64 [] u ++ rest) = DOk rest (if u =? neg_zero then 0 else u) /\
  DecodeFloat64Desc (EncodeFloat64Desc [] u ++ rest) = DOk rest (if u =? neg_zero then 0 else u).
Proof.
  intros u rest Hu Nu. unfold DecodeFloat64, DecodeFloat64Desc, DecodeUint64Desc,
    EncodeFloat64, EncodeFloat64Desc, EncodeUint64Desc, EncodeUint64. cbn [app]. split.
  - rewrite DecodeUint64_enc by (apply enc_float_range; exact Hu). rewrite float_roundtrip by assumption. reflexivity.
  - rewrite DecodeUint64_enc by (apply u64_not_range, enc_float_range; exact Hu).
    rewrite u64_not_invol, float_roundtrip by assumption. reflexivity.
Qed.
Print Assumptions C06_float_roundtrip.
(** 1.5 < 2.0, -1.0 < smallest subnormal: real patterns meeting the hypotheses *)
Example C06_example : is_nan 0x3FF8000000000000 = false /\ is_nan 0x4000000000000000 = false /\
  is_nan 0xBFF0000000000000 = false /\ fval 0x3FF8000000000000 = 3 * 2 ^ 1073 /\ fval 1 = 1 /\
  fval 0xBFF0000000000000 = - 2 ^ 1074.
Proof. vm_compute. repeat split. Qed.

(** C07: refuted. A NaN comes back as a (finite) number, the encoding of a NaN coincides
    with that of a finite number; exactly the NaNs with sign bit clear are affected. *)
Theorem C07_float_nan_refuted : exists u, is_u64 u /\ is_nan u = true /\
  (exists v, DecodeFloat64 (EncodeFloat64 [] u) = DOk [] v /\ is_nan v = false) /\
  (exists v, is_u64 v /\ is_nan v = false /\ EncodeFloat64 [] u = EncodeFloat64 [] v).
Proof.
  exists 0x7FF8000000000001. split; [unfold is_u64; rewrite two64_val; lia|]. split; [reflexivity|]. split.
  - exists 0x0007FFFFFFFFFFFE. vm_compute. split; reflexivity.
  - exists 0x0007FFFFFFFFFFFE. split; [unfold is_u64; rewrite two64_val; lia|]. vm_compute. split; reflexivity.
Qed.
Print Assumptions C07_float_nan_refuted.
Theorem C07_float_nan_partial : forall u rest, is_u64 u -> is_nan u = true -> f_sign u = true ->
  DecodeFloat64 (EncodeFloat64 [] u ++ rest) = DOk rest u.
Proof.
  intros u rest Hu Nu Su. unfold DecodeFloat64, EncodeFloat64, EncodeUint64. cbn [app].
  rewrite DecodeUint64_enc by (apply enc_float_range; exact Hu).
  unfold encodeFloat64ToUint64. rewrite Nu. cbn [negb andb]. unfold decodeUint64ToFloat64.
  rewrite land_sign by (apply u64_not_range; exact Hu). unfold f_sign, is_u64, u64_not in *.
  rewrite two63_val, two64_val in *.
  destruct (Z.leb_spec 9223372036854775808 (18446744073709551616 - 1 - u)); [lia|]. f_equal. lia.
Qed.
Print Assumptions C07_float_nan_partial.

(** C08 *)
Theorem C08_varint_roundtrip : forall rest,
  (forall v, is_i64 v -> DecodeVarint (EncodeVarint [] v ++ rest) = COk rest v) /\
  (forall v, is_u64 v -> DecodeUvarint (EncodeUvarint [] v ++ rest) = COk rest v) /\
  (forall d, Z.of_nat (length d) < two63 -> CDecodeBytes (CEncodeBytes [] d ++ rest) = COk rest d) /\
  (forall b v, (length b < length (EncodeVarint b v) <= length b + 10)%nat /\
               (length b < length (EncodeUvarint b v) <= length b + 10)%nat) /\
  (forall v k, is_u64 v -> (k < length (EncodeUvarint [] v))%nat ->
     DecodeUvarint (firstn k (EncodeUvarint [] v)) = CErr CInsufficient) /\
  (forall v k, is_i64 v -> (k < length (EncodeVarint [] v))%nat ->
     DecodeVarint (firstn k (EncodeVarint [] v)) = CErr CInsufficient).
Proof.
  intros rest. split; [|split; [|split; [|split; [|split]]]].
  - intros v. exact (DecodeVarint_enc v rest).
  - intros v. exact (DecodeUvarint_enc v rest).
  - intros d. exact (CDecodeBytes_enc d rest).
  - intros b v. unfold EncodeVarint, EncodeUvarint. rewrite !app_length.
    pose proof (PutUvarint_length v). pose proof (PutUvarint_length (zigzag v)). lia.
  - intros v k Hv Hk. unfold EncodeUvarint, DecodeUvarint, Uvarint in *. cbn [app] in *.
    unfold PutUvarint in *. rewrite uvarint_trunc by (try exact Hk; apply Hv). reflexivity.
  - intros v k Hv Hk. unfold EncodeVarint, DecodeVarint, DecodeUvarint, Uvarint in *. cbn [app] in *.
    unfold PutUvarint in *. rewrite uvarint_trunc by (try exact Hk; apply zigzag_range; exact Hv). reflexivity.
Qed.
Print Assumptions C08_varint_roundtrip.

(** C09: refuted by the one-byte input 0x01 (varint -1); exact characterisation *)
Theorem C09_compact_decode_total_refuted : exists b, CDecodeBytes b = CPanic.
Proof. exists [z2b 1]. vm_compute. reflexivity. Qed.
Print Assumptions C09_compact_decode_total_refuted.
Theorem C09_compact_decode_total_partial : forall b,
  (CDecodeBytes b = CPanic <-> exists l n, DecodeVarint b = COk l n /\ n < 0) /\
  DecodeVarint b <> CPanic /\ DecodeUvarint b <> CPanic.
Proof.
  intros b. split; [exact (CDecodeBytes_panic b)|].
  unfold DecodeVarint, DecodeUvarint. split; destruct (Uvarint b); discriminate.
Qed.
Print Assumptions C09_compact_decode_total_partial.

(** C10 *)
Theorem C10_numeric_roundtrip :
  (forall v, is_i64 v -> DecodeFromHuman (Some (Encode2Human v)) = NOk v /\ decimal (Encode2Human v) = Some v) /\
  (forall s n, DecodeFromHuman (Some s) = NOk n <-> decimal s = Some n /\ is_i64 n) /\
  (forall n, DecodeFromHuman None <> NOk n) /\
  (forall v buf, is_u64 v -> exists e, Encode2Binary v buf = buf ++ e /\ DecodeFromBinary e = Some v) /\
  (forall b, DecodeFromBinary b = None <-> length b <> 8%nat) /\
  (forall b v, DecodeFromBinary b = Some v -> b = Encode2Binary v []).
Proof.
  split; [|split; [|split; [|split; [|split]]]].
  - intros v H. split; [exact (human_roundtrip v H) | exact (decimal_FormatInt v H)].
  - exact DecodeFromHuman_spec.
  - discriminate.
  - intros v buf H. exists (be_bytes 8 v). split; [reflexivity | exact (DecodeFromBinary_enc v H)].
  - intros b. unfold DecodeFromBinary. destruct (Nat.eqb_spec (length b) 8); split; congruence.
  - intros b v H. exact (proj2 (DecodeFromBinary_inv b v H)).
Qed.
Print Assumptions C10_numeric_roundtrip.
Example C10_example : Encode2Human (-9223372036854775808) = str "-9223372036854775808"
  /\ DecodeFromHuman (Some (str "9223372036854775808")) = NErr ERange
  /\ DecodeFromHuman (Some (str "12a")) = NErr ESyntax.
Proof. vm_compute. repeat split. Qed.

(** C11. Full statement: for p not all 0xFF, HasPrefix k p <-> p <= k < PrefixNext p.
    Proved: the forward direction always; the backward direction for every key at least as long as
    the prefix (hence always when the last byte is not 0xFF); the exact set otherwise; least
    bound when the last byte is not 0xFF. *)
Theorem C11_prefix_next_partial : forall p, ~ all_ff p ->
  (forall k, HasPrefix k p = true -> Cmp p k <> Gt /\ Cmp k (PrefixNext p) = Lt) /\
  (forall k, (length p <= length k)%nat -> Cmp p k <> Gt -> Cmp k (PrefixNext p) = Lt -> HasPrefix k p = true) /\
  length (PrefixNext p) = length p.
Proof.
  intros p N. destruct (key_decomp p) as [F|(q & x & n & -> & Hx)]; [contradiction|].
  unfold HasPrefix, Cmp. pose proof (fun k => PrefixNext_range q x n k Hx) as R. cbn zeta in R. split; [|split].
  - intros k H. apply R. left. exact H.
  - intros k L H1 H2. destruct (proj1 (R k) (conj H1 H2)) as [P|(m & Hm & ->)]; [exact P|].
    rewrite !app_length in L. cbn [length] in L. rewrite !repeat_length in L. lia.
  - rewrite PrefixNext_form by exact Hx. rewrite !app_length. cbn [length]. rewrite !repeat_length. reflexivity.
Qed.
Print Assumptions C11_prefix_next_partial.
Theorem C11_prefix_next_exact_partial : forall q x p, p = q ++ [x] -> b2z x <> 255 ->
  (forall k, HasPrefix k p = true <-> Cmp p k <> Gt /\ Cmp k (PrefixNext p) = Lt) /\
  (forall u, (forall k, HasPrefix k p = true -> Cmp k u = Lt) -> Cmp (PrefixNext p) u <> Gt).
Proof.
  intros q x p -> Hx'. assert (Hx : b2z x < 255) by (pose proof (b2z_range x); lia).
  pose proof (fun k => PrefixNext_range q x 0 k Hx) as R. cbn zeta in R. cbn [repeat] in R.
  assert (A : forall k, has_prefix k (q ++ [x]) = true <-> bytes_le (q ++ [x]) k /\ bytes_lt k (PrefixNext (q ++ [x]))).
  { intros k. rewrite (R k). split; [tauto|]. intros [H|(m & Hm & _)]; [exact H | lia]. }
  split; [exact A|]. intros u Hu. unfold Cmp in *.
  change (bytes_le (PrefixNext (q ++ [x])) u). apply bytes_not_lt. intros L.
  assert (P : has_prefix u (q ++ [x]) = true).
  { apply A. split; [|exact L]. specialize (Hu (q ++ [x]) (has_prefix_refl _)).
    apply bytes_le_lteq. left. exact Hu. }
  specialize (Hu u P). apply (bytes_lt_irrefl u). exact Hu.
Qed.
Print Assumptions C11_prefix_next_exact_partial.
(** what goes wrong otherwise: an all-0xFF prefix is not bounded; with trailing 0xFF bytes the
    interval contains a key without the prefix *)
Theorem C11_prefix_next_refuted :
  (exists p k, HasPrefix k p = true /\ Cmp k (PrefixNext p) <> Lt) /\
  (exists p k, ~ all_ff p /\ Cmp p k = Lt /\ Cmp k (PrefixNext p) = Lt /\ HasPrefix k p = false).
Proof.
  split.
  - exists [z2b 255], [z2b 255; z2b 1]. split; [reflexivity | discriminate].
  - exists [z2b 1; z2b 255], [z2b 2]. repeat split.
    intros H. inversion H as [|a l H1 _]. discriminate H1.
Qed.
Print Assumptions C11_prefix_next_refuted.
Example C11_example : ~ all_ff (str "rowkey1") /\ PrefixNext (str "rowkey1") = str "rowkey2".
Proof. split; [|reflexivity]. intros H. inversion H as [|a l H1 _]. discriminate H1. Qed.

(** C12 *)
Theorem C12_next_successor : forall k j, Cmp k j = Lt <-> Cmp (Next k) j <> Gt.
Proof. exact Next_succ. Qed.
Print Assumptions C12_next_successor.
Theorem C12_is_point : forall s e,
  (IsPoint s e = true <-> e = Next s \/ (~ all_ff s /\ e = PrefixNext s)) /\
  (IsPoint s e = true -> forall k, length k = length s -> (Cmp s k <> Gt /\ Cmp k e = Lt <-> k = s)).
Proof. intros s e. split; [exact (IsPoint_spec s e) | exact (IsPoint_unique s e)]. Qed.
Print Assumptions C12_is_point.
Example C12_example : IsPoint (map z2b [1;255;255]) (map z2b [2;0;0]) = true /\ IsPoint (str "a") (str "c") = false.
Proof. split; reflexivity. Qed.
(** concrete cases *)
Example C02_C03_example : bytes_cmp (EncodeBytes [] (str "ab")) (EncodeBytes [] (str "ab0")) = Lt /\ bytes_cmp (EncodeBytesDesc true [] (str "ab")) (EncodeBytesDesc true [] (str "ab0")) = Gt /\
  bytes_cmp (EncodeBytes [] (str "ab") ++ str "z") (EncodeBytes [] (str "ab0") ++ str "a") = Lt /\ HasPrefix (EncodeBytes [] (str "ab0")) (EncodeBytes [] (str "ab")) = false.
Proof. vm_compute. repeat split. Qed.
Example C08_example : is_i64 (-300) /\ DecodeVarint (EncodeVarint [] (-300) ++ str "x") = COk (str "x") (-300) /\ CDecodeBytes (CEncodeBytes [] (str "abc") ++ str "x") = COk (str "x") (str "abc").
Proof. split; [unfold is_i64; rewrite two63_val; lia | split; vm_compute; reflexivity]. Qed.
