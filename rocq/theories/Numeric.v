(** Model of kv/numeric (values stored as decimal text or 8 bytes) and lemmas. *)
From Verif Require Import Bytes.

(** ** Binary: kv/numeric/binary.go *)
(** Encode2Binary, binary.go:12-17 *)
Definition Encode2Binary (v : Z) (buf : bytes) : bytes := buf ++ be_bytes 8 v.
(** DecodeFromBinary, binary.go:20-29; None = errInvalidValueForBinary *)
Definition DecodeFromBinary (b : bytes) : option Z :=
  if Nat.eqb (length b) 8 then Some (be_val b) else None.

(** ** Decimal: kv/numeric/human.go *)

(** strconv.FormatInt(v, 10): least significant digit first into a buffer. Simplification:
    the standard library emits two digits per division from a table; the text is the same.
    20 digits suffice for a uint64. *)
Fixpoint fmt_loop (fuel : nat) (u : Z) (acc : bytes) : bytes :=
  match fuel with
  | O => acc
  | S f =>
      let acc' := z2b (48 + u mod 10) :: acc in
      if u <? 10 then acc' else fmt_loop f (u / 10) acc'
  end.
Definition FormatUint (u : Z) : bytes := fmt_loop 20 u [].
Definition FormatInt (v : Z) : bytes :=
  if v <? 0 then z2b 45 :: FormatUint (to_u64 (- v)) else FormatUint v.

(** Encode2Human, human.go:15-19 *)
Definition Encode2Human (v : Z) : bytes := FormatInt v.

Inductive num_err := ENil | ESyntax | ERange.
Inductive num_res := NOk (n : Z) | NErr (e : num_err).

(** strconv.ParseUint loop (base 10, 64 bits): a non-digit is a syntax error; cutoff
    maxUint64/10+1 and maxVal overflow checks are range errors *)
Fixpoint pu_loop (s : bytes) (n : Z) : num_res :=
  match s with
  | [] => NOk n
  | c :: s' =>
      let d := b2z c - 48 in
      if (d <? 0) || (9 <? d) then NErr ESyntax
      else if (two64 - 1) / 10 + 1 <=? n then NErr ERange
      else let n1 := n * 10 + d in
           if two64 - 1 <? n1 then NErr ERange else pu_loop s' n1
  end.
Definition ParseUint (s : bytes) : num_res :=
  match s with [] => NErr ESyntax | _ => pu_loop s 0 end.
(** strconv.ParseInt(s, 10, 64) *)
Definition ParseInt (s : bytes) : num_res :=
  match s with
  | [] => NErr ESyntax
  | c :: s' =>
      let neg := b2z c =? 45 in
      let body := if (b2z c =? 43) || neg then s' else s in
      match ParseUint body with
      | NErr e => NErr e
      | NOk un =>
          if negb neg && (two63 <=? un) then NErr ERange
          else if neg && (two63 <? un) then NErr ERange
          else NOk (if neg then - un else un)
      end
  end.

(** DecodeFromHuman, human.go:22-29; the argument None is a nil slice *)
Definition DecodeFromHuman (b : option bytes) : num_res :=
  match b with None => NErr ENil | Some s => ParseInt s end.

(** * Specification: decimal notation *)
Definition is_digit (c : byte) : bool := (48 <=? b2z c) && (b2z c <=? 57).
Definition dec_nat (s : bytes) : Z := fold_left (fun n c => n * 10 + (b2z c - 48)) s 0.
(** [+|-] digits+ *)
Definition decimal (s : bytes) : option Z :=
  match s with
  | [] => None
  | c :: s' =>
      let body := if (b2z c =? 43) || (b2z c =? 45) then s' else s in
      match body with
      | [] => None
      | _ => if forallb is_digit body
             then Some (if b2z c =? 45 then - dec_nat body else dec_nat body)
             else None
      end
  end.

(** * Lemmas *)
Lemma DecodeFromBinary_enc v : is_u64 v -> DecodeFromBinary (Encode2Binary v []) = Some v.
Proof.
  intros H. unfold DecodeFromBinary, Encode2Binary. rewrite app_nil_l, be_bytes_length. cbn [Nat.eqb].
  rewrite be_val_bytes by (rewrite pow256_8; exact H). reflexivity.
Qed.
Lemma DecodeFromBinary_inv b v : DecodeFromBinary b = Some v -> is_u64 v /\ b = Encode2Binary v [].
Proof.
  unfold DecodeFromBinary. destruct (Nat.eqb_spec (length b) 8) as [L|L]; [|discriminate].
  intros H. inversion H as [H']. clear H. split.
  - pose proof (be_val_range b) as R. rewrite L, pow256_8 in R. exact R.
  - unfold Encode2Binary. rewrite app_nil_l. rewrite <- L. rewrite be_bytes_val. reflexivity.
Qed.

Lemma fmt_loop_spec fuel : forall u acc, 0 <= u < 10 ^ Z.of_nat fuel -> (0 < fuel)%nat ->
  exists ds, fmt_loop fuel u acc = ds ++ acc /\ ds <> [] /\ forallb is_digit ds = true /\ dec_nat ds = u.
Proof.
  induction fuel as [|fuel IH]; intros u acc Hu Hf; [lia|].
  cbn [fmt_loop]. assert (HD : b2z (z2b (48 + u mod 10)) = 48 + u mod 10) by (rewrite b2z_z2b; lia).
  assert (Hd : is_digit (z2b (48 + u mod 10)) = true) by (unfold is_digit; rewrite HD; lia).
  destruct (Z.ltb_spec u 10) as [L|L].
  - exists [z2b (48 + u mod 10)]. cbn [app forallb]. rewrite Hd. repeat split; [discriminate|].
    unfold dec_nat. cbn [fold_left]. rewrite HD. lia.
  - rewrite Nat2Z.inj_succ, Z.pow_succ_r in Hu by lia.
    destruct fuel as [|fuel']; [cbn in Hu; lia|].
    destruct (IH (u / 10) (z2b (48 + u mod 10) :: acc)) as (ds & E & N & D & V); [lia | lia |].
    rewrite E. exists (ds ++ [z2b (48 + u mod 10)]). rewrite <- app_assoc. cbn [app].
    repeat split.
    + destruct ds; discriminate.
    + rewrite forallb_app, D. cbn [forallb]. rewrite Hd. reflexivity.
    + unfold dec_nat in *. rewrite fold_left_app. cbn [fold_left]. rewrite V, HD. lia.
Qed.

Lemma FormatUint_spec u : is_u64 u ->
  FormatUint u <> [] /\ forallb is_digit (FormatUint u) = true /\ dec_nat (FormatUint u) = u.
Proof.
  unfold is_u64. rewrite two64_val. intros H. unfold FormatUint.
  destruct (fmt_loop_spec 20 u []) as (ds & E & N & D & V); [|lia|].
  - change (10 ^ Z.of_nat 20) with 100000000000000000000. lia.
  - rewrite app_nil_r in E. rewrite E. auto.
Qed.

Lemma dec_nat_nonneg_from s n : 0 <= n -> forallb is_digit s = true ->
  n <= fold_left (fun n c => n * 10 + (b2z c - 48)) s n.
Proof.
  revert n. induction s as [|c s IH]; intros n Hn; cbn [fold_left forallb]; [lia|].
  rewrite andb_true_iff. unfold is_digit at 1. intros [H1 H2].
  specialize (IH (n * 10 + (b2z c - 48)) ltac:(lia) H2). lia.
Qed.

Lemma pu_loop_ok s : forall n, 0 <= n ->
  forall m, pu_loop s n = NOk m <->
    forallb is_digit s = true /\ m = fold_left (fun n c => n * 10 + (b2z c - 48)) s n /\ (s <> [] -> m < two64).
Proof.
  induction s as [|c s IH]; intros n Hn m; cbn [pu_loop fold_left forallb].
  - split; [intros H; inversion H; repeat split; congruence | intros (_ & -> & _); reflexivity].
  - destruct ((b2z c - 48 <? 0) || (9 <? b2z c - 48)) eqn:E1.
    { split; [discriminate|]. intros (H & _). apply andb_true_iff in H. unfold is_digit in H. exfalso. lia. }
    assert (D : is_digit c = true) by (unfold is_digit; lia). rewrite D. cbn [andb].
    assert (R : 0 <= n * 10 + (b2z c - 48)) by lia.
    destruct (Z.leb_spec ((two64 - 1) / 10 + 1) n) as [E2|E2].
    { split; [discriminate|]. intros (H & -> & Hm). specialize (Hm ltac:(discriminate)).
      pose proof (dec_nat_nonneg_from s _ R H). rewrite two64_val in *. exfalso. lia. }
    destruct (Z.ltb_spec (two64 - 1) (n * 10 + (b2z c - 48))) as [E3|E3].
    { split; [discriminate|]. intros (H & -> & Hm). specialize (Hm ltac:(discriminate)).
      pose proof (dec_nat_nonneg_from s _ R H). exfalso. lia. }
    rewrite IH by lia. split.
    + intros (H & -> & Hm). repeat split; [exact H|]. intros _. destruct s as [|c' s']; [cbn; lia | apply Hm; discriminate].
    + intros (H & -> & Hm). repeat split; [exact H|]. intros _. apply Hm. discriminate.
Qed.

Lemma ParseUint_ok s m : ParseUint s = NOk m <->
  s <> [] /\ forallb is_digit s = true /\ m = dec_nat s /\ m < two64.
Proof.
  destruct s as [|c s]; cbn [ParseUint].
  - split; [discriminate | intros [H _]; congruence].
  - rewrite pu_loop_ok by lia. split; [intros (H1 & H2 & H3) | intros (H0 & H1 & H2 & H3)].
    + repeat split; [discriminate | exact H1 | exact H2 | apply H3; discriminate].
    + repeat split; auto.
Qed.

Lemma DecodeFromHuman_spec s n :
  DecodeFromHuman (Some s) = NOk n <-> decimal s = Some n /\ is_i64 n.
Proof.
  cbn [DecodeFromHuman]. unfold ParseInt, decimal. destruct s as [|c s]; [split; [discriminate | intros [H _]; discriminate]|].
  cbv zeta. set (neg := b2z c =? 45). set (body := if (b2z c =? 43) || neg then s else c :: s).
  assert (G : forall r, ParseUint body = NOk r \/ ParseUint body <> NOk r) by
    (intros r; destruct (ParseUint body) as [m|e]; [destruct (Z.eq_dec m r) as [->|]; [left | right]; congruence | right; discriminate]).
  unfold is_i64.
  destruct body as [|d body'] eqn:EB.
  { cbn. split; [discriminate | intros [H _]; discriminate]. }
  destruct (ParseUint (d :: body')) as [un|e] eqn:P.
  - apply ParseUint_ok in P. destruct P as (_ & D & V & B). rewrite D.
    assert (N0 : 0 <= un) by (rewrite V; apply (dec_nat_nonneg_from (d :: body') 0 ltac:(lia) D)).
    rewrite <- V. rewrite two63_val, two64_val in *. destruct neg; cbn [negb andb].
    + destruct (Z.ltb_spec 9223372036854775808 un).
      * split; [discriminate|]. intros [H1 H2]. inversion H1. lia.
      * split; [intros H'; inversion H'; split; [reflexivity | lia] | intros [H1 H2]; inversion H1; reflexivity].
    + destruct (Z.leb_spec 9223372036854775808 un).
      * split; [discriminate|]. intros [H1 H2]. inversion H1. lia.
      * split; [intros H'; inversion H'; split; [reflexivity | lia] | intros [H1 H2]; inversion H1; reflexivity].
  - split; [discriminate|]. intros [H1 H2]. exfalso.
    destruct (forallb is_digit (d :: body')) eqn:D; [|discriminate].
    assert (K : ParseUint (d :: body') = NOk (dec_nat (d :: body'))).
    { apply ParseUint_ok. repeat split; [discriminate | exact D|]. inversion H1 as [H3].
      rewrite two63_val, two64_val in *. destruct neg; lia. }
    congruence.
Qed.

Lemma decimal_FormatInt v : is_i64 v -> decimal (FormatInt v) = Some v.
Proof.
  unfold is_i64. intros H. unfold FormatInt. destruct (Z.ltb_spec v 0) as [L|L].
  - assert (U : is_u64 (to_u64 (- v))) by apply to_u64_range.
    destruct (FormatUint_spec _ U) as (N & D & V). unfold decimal.
    change (b2z (z2b 45)) with 45. cbn [Z.eqb Pos.eqb orb]. cbv zeta.
    destruct (FormatUint (to_u64 (- v))) as [|c s] eqn:E; [congruence|].
    rewrite D, V. f_equal. unfold to_u64. rewrite two63_val, two64_val in *. lia.
  - assert (U : is_u64 v) by (unfold is_u64; rewrite two63_val, two64_val in *; lia).
    destruct (FormatUint_spec _ U) as (N & D & V). unfold decimal.
    destruct (FormatUint v) as [|c s] eqn:E; [congruence|].
    assert (Dc : is_digit c = true) by (cbn [forallb] in D; apply andb_true_iff in D; tauto).
    unfold is_digit in Dc. destruct (Z.eqb_spec (b2z c) 43); [lia|]. destruct (Z.eqb_spec (b2z c) 45); [lia|].
    cbn [orb]. cbv zeta. rewrite D, V. reflexivity.
Qed.

Lemma human_roundtrip v : is_i64 v -> DecodeFromHuman (Some (Encode2Human v)) = NOk v.
Proof. intros H. apply DecodeFromHuman_spec. split; [apply decimal_FormatInt; exact H | exact H]. Qed.
Lemma human_nonempty v : Encode2Human v <> [].
Proof.
  unfold Encode2Human, FormatInt. destruct (v <? 0); [discriminate|].
  unfold FormatUint. cbn [fmt_loop]. destruct (v <? 10); [discriminate|].
  assert (G : forall fuel u acc, acc <> [] -> fmt_loop fuel u acc <> []).
  { induction fuel as [|fuel IH]; intros u acc H; [exact H|]. cbn [fmt_loop].
    destruct (u <? 10); [discriminate|]. apply IH. discriminate. }
  apply (G 19%nat). discriminate.
Qed.
Lemma human_inj v w : is_i64 v -> is_i64 w -> Encode2Human v = Encode2Human w -> v = w.
Proof.
  intros Hv Hw E. pose proof (human_roundtrip v Hv) as H. rewrite E, human_roundtrip in H by exact Hw. congruence.
Qed.
Lemma DecodeFromHuman_range b n : DecodeFromHuman b = NOk n -> is_i64 n.
Proof. destruct b; [|discriminate]. intros H. apply DecodeFromHuman_spec in H. tauto. Qed.
