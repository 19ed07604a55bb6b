(** Bytes, byte strings, their order, and fixed-width integer arithmetic.
    Everything here is a model of Go language / standard library primitives
    used throughout /repo: the types byte, []byte, int64, uint64 and the functions
    bytes.Compare, bytes.Equal, bytes.HasPrefix. *)
From Coq Require Export List ZArith Lia Bool Arith.
From Coq Require Export ZifyBool ZifyNat ZifyN.
From Coq Require Strings.Byte.
Export ListNotations.
Open Scope Z_scope.
Ltac Zify.zify_post_hook ::= Z.div_mod_to_equations.

Notation byte := Coq.Init.Byte.byte.
Notation bytes := (list Coq.Init.Byte.byte).

(** * Bytes *)

(** value of a byte (Go: int(b)) *)
Definition b2z (b : byte) : Z := Z.of_N (Coq.Strings.Byte.to_N b).
(** Go conversion byte(z): reduction modulo 256 *)
Definition z2b (z : Z) : byte :=
  match Coq.Strings.Byte.of_N (Z.to_N (z mod 256)) with
  | Some b => b
  | None => Byte.x00
  end.

Arguments b2z _ : simpl never.
Arguments z2b _ : simpl never.

Lemma b2z_range b : 0 <= b2z b < 256.
Proof. unfold b2z. pose proof (Coq.Strings.Byte.to_N_bounded b). lia. Qed.

Lemma z2b_b2z b : z2b (b2z b) = b.
Proof.
  unfold z2b. rewrite Z.mod_small by apply b2z_range.
  unfold b2z. rewrite N2Z.id, Coq.Strings.Byte.of_to_N. reflexivity.
Qed.

Lemma b2z_z2b z : b2z (z2b z) = z mod 256.
Proof.
  unfold z2b. assert (H : 0 <= z mod 256 < 256) by (apply Z.mod_pos_bound; lia).
  destruct (Coq.Strings.Byte.of_N (Z.to_N (z mod 256))) as [b|] eqn:E.
  - apply Coq.Strings.Byte.to_of_N in E. unfold b2z. rewrite E. lia.
  - apply Coq.Strings.Byte.of_N_None_iff in E. lia.
Qed.

Lemma b2z_inj a b : b2z a = b2z b -> a = b.
Proof. intros H. rewrite <- (z2b_b2z a), <- (z2b_b2z b), H. reflexivity. Qed.

Definition byte_eqb (a b : byte) : bool := b2z a =? b2z b.
Lemma byte_eqb_spec a b : byte_eqb a b = true <-> a = b.
Proof.
  unfold byte_eqb. rewrite Z.eqb_eq. split; [apply b2z_inj | intros ->; reflexivity].
Qed.
Lemma byte_eqb_refl a : byte_eqb a a = true.
Proof. apply byte_eqb_spec. reflexivity. Qed.
Lemma byte_eq_dec (a b : byte) : {a = b} + {a <> b}.
Proof.
  destruct (byte_eqb a b) eqn:E.
  - left. apply byte_eqb_spec. exact E.
  - right. intros H. apply byte_eqb_spec in H. congruence.
Qed.

(** Go: ^b on a byte *)
Definition bcompl (b : byte) : byte := z2b (255 - b2z b).
Lemma b2z_bcompl b : b2z (bcompl b) = 255 - b2z b.
Proof. unfold bcompl. rewrite b2z_z2b. pose proof (b2z_range b). apply Z.mod_small. lia. Qed.
Lemma bcompl_invol b : bcompl (bcompl b) = b.
Proof. apply b2z_inj. rewrite !b2z_bcompl. lia. Qed.

(** * Byte strings and their order *)

(** bytes.Compare *)
Fixpoint bytes_cmp (a b : bytes) : comparison :=
  match a, b with
  | [], [] => Eq
  | [], _ :: _ => Lt
  | _ :: _, [] => Gt
  | x :: a', y :: b' =>
      match b2z x ?= b2z y with
      | Eq => bytes_cmp a' b'
      | c => c
      end
  end.

Definition bytes_lt (a b : bytes) : Prop := bytes_cmp a b = Lt.
Definition bytes_le (a b : bytes) : Prop := bytes_cmp a b <> Gt.
Definition bytes_ltb (a b : bytes) : bool :=
  match bytes_cmp a b with Lt => true | _ => false end.
Definition bytes_leb (a b : bytes) : bool :=
  match bytes_cmp a b with Gt => false | _ => true end.
(** bytes.Equal (which does not distinguish nil from empty) *)
Definition bytes_eqb (a b : bytes) : bool :=
  match bytes_cmp a b with Eq => true | _ => false end.

Lemma bytes_cmp_refl a : bytes_cmp a a = Eq.
Proof. induction a as [|x a IH]; [reflexivity|]. cbn. rewrite Z.compare_refl. exact IH. Qed.

Lemma bytes_cmp_eq a b : bytes_cmp a b = Eq <-> a = b.
Proof.
  split; [|intros ->; apply bytes_cmp_refl].
  revert b. induction a as [|x a IH]; intros [|y b]; cbn; try discriminate; [reflexivity|].
  destruct (b2z x ?= b2z y) eqn:E; try discriminate.
  apply Z.compare_eq, b2z_inj in E. intros H. f_equal; [exact E | apply IH, H].
Qed.

Lemma bytes_cmp_antisym a b : bytes_cmp b a = CompOpp (bytes_cmp a b).
Proof.
  revert b. induction a as [|x a IH]; intros [|y b]; cbn; try reflexivity.
  rewrite Z.compare_antisym. destruct (b2z x ?= b2z y); cbn; [apply IH | reflexivity..].
Qed.

Lemma bytes_cmp_lt_trans a b c : bytes_cmp a b = Lt -> bytes_cmp b c = Lt -> bytes_cmp a c = Lt.
Proof.
  revert b c. induction a as [|x a IH]; intros [|y b] [|z c]; cbn; try discriminate; try reflexivity.
  destruct (Z.compare_spec (b2z x) (b2z y)) as [E|E|E]; try discriminate;
  destruct (Z.compare_spec (b2z y) (b2z z)) as [F|F|F]; try discriminate; intros H1 H2.
  - rewrite E, F, Z.compare_refl. eauto.
  - rewrite E. apply Z.compare_lt_iff in F. rewrite F. reflexivity.
  - rewrite <- F. apply Z.compare_lt_iff in E. rewrite E. reflexivity.
  - assert (G : b2z x < b2z z) by lia. apply Z.compare_lt_iff in G. rewrite G. reflexivity.
Qed.

Lemma bytes_lt_irrefl a : ~ bytes_lt a a.
Proof. unfold bytes_lt. rewrite bytes_cmp_refl. discriminate. Qed.
Lemma bytes_lt_trans a b c : bytes_lt a b -> bytes_lt b c -> bytes_lt a c.
Proof. apply bytes_cmp_lt_trans. Qed.
Lemma bytes_lt_asym a b : bytes_lt a b -> ~ bytes_lt b a.
Proof. intros H1 H2. exact (bytes_lt_irrefl a (bytes_lt_trans _ _ _ H1 H2)). Qed.
Lemma bytes_cmp_gt a b : bytes_cmp a b = Gt <-> bytes_lt b a.
Proof.
  unfold bytes_lt. rewrite (bytes_cmp_antisym a b). destruct (bytes_cmp a b); cbn; split; congruence.
Qed.
Lemma bytes_le_lteq a b : bytes_le a b <-> bytes_lt a b \/ a = b.
Proof.
  unfold bytes_le, bytes_lt. rewrite <- (bytes_cmp_eq a b). destruct (bytes_cmp a b); intuition congruence.
Qed.
Lemma bytes_le_refl a : bytes_le a a.
Proof. apply bytes_le_lteq. right. reflexivity. Qed.
Lemma bytes_le_trans a b c : bytes_le a b -> bytes_le b c -> bytes_le a c.
Proof.
  rewrite !bytes_le_lteq. intros [H| ->] [K| <-]; eauto using bytes_lt_trans.
Qed.
Lemma bytes_lt_le_trans a b c : bytes_lt a b -> bytes_le b c -> bytes_lt a c.
Proof. rewrite bytes_le_lteq. intros H [K| <-]; eauto using bytes_lt_trans. Qed.
Lemma bytes_le_lt_trans a b c : bytes_le a b -> bytes_lt b c -> bytes_lt a c.
Proof. rewrite bytes_le_lteq. intros [H| ->] K; eauto using bytes_lt_trans. Qed.
Lemma bytes_not_lt a b : ~ bytes_lt a b <-> bytes_le b a.
Proof.
  unfold bytes_lt, bytes_le. rewrite (bytes_cmp_antisym a b). destruct (bytes_cmp a b); cbn; intuition congruence.
Qed.
Lemma bytes_not_le a b : ~ bytes_le a b <-> bytes_lt b a.
Proof.
  unfold bytes_lt, bytes_le. rewrite (bytes_cmp_antisym a b). destruct (bytes_cmp a b); cbn; intuition congruence.
Qed.
Lemma bytes_le_antisym a b : bytes_le a b -> bytes_le b a -> a = b.
Proof.
  rewrite !bytes_le_lteq. intros [H|H] [K|K]; auto. exfalso. exact (bytes_lt_asym _ _ H K).
Qed.
Lemma bytes_total a b : bytes_lt a b \/ a = b \/ bytes_lt b a.
Proof.
  destruct (bytes_cmp a b) eqn:E.
  - right. left. apply bytes_cmp_eq. exact E.
  - left. exact E.
  - right. right. apply bytes_cmp_gt. exact E.
Qed.
Lemma bytes_le_nil a : bytes_le [] a.
Proof. unfold bytes_le. destruct a; cbn; discriminate. Qed.

Lemma bytes_ltb_lt a b : bytes_ltb a b = true <-> bytes_lt a b.
Proof. unfold bytes_ltb, bytes_lt. destruct (bytes_cmp a b); split; congruence. Qed.
Lemma bytes_leb_le a b : bytes_leb a b = true <-> bytes_le a b.
Proof. unfold bytes_leb, bytes_le. destruct (bytes_cmp a b); split; congruence. Qed.
Lemma bytes_ltb_nlt a b : bytes_ltb a b = false <-> bytes_le b a.
Proof. rewrite <- bytes_not_lt, <- bytes_ltb_lt. destruct (bytes_ltb a b); intuition congruence. Qed.
Lemma bytes_leb_nle a b : bytes_leb a b = false <-> bytes_lt b a.
Proof. rewrite <- bytes_not_le, <- bytes_leb_le. destruct (bytes_leb a b); intuition congruence. Qed.
Lemma bytes_eqb_eq a b : bytes_eqb a b = true <-> a = b.
Proof. unfold bytes_eqb. rewrite <- bytes_cmp_eq. destruct (bytes_cmp a b); split; congruence. Qed.
Lemma bytes_eqb_refl a : bytes_eqb a a = true.
Proof. apply bytes_eqb_eq. reflexivity. Qed.
Lemma bytes_eqb_neq a b : bytes_eqb a b = false <-> a <> b.
Proof. rewrite <- bytes_eqb_eq. destruct (bytes_eqb a b); split; congruence. Qed.
Lemma bytes_eq_dec (a b : bytes) : {a = b} + {a <> b}.
Proof. apply list_eq_dec, byte_eq_dec. Qed.

(** ** Comparison and concatenation *)

Lemma bytes_cmp_app_l p a b : bytes_cmp (p ++ a) (p ++ b) = bytes_cmp a b.
Proof. induction p as [|x p IH]; cbn; [reflexivity|]. rewrite Z.compare_refl. exact IH. Qed.

Definition then_cmp (c d : comparison) : comparison := match c with Eq => d | Lt => Lt | Gt => Gt end.

Lemma bytes_cmp_app_len a b x y :
  length a = length b ->
  bytes_cmp (a ++ x) (b ++ y) = then_cmp (bytes_cmp a b) (bytes_cmp x y).
Proof.
  revert b. induction a as [|u a IH]; intros [|v b] H; cbn in *; try discriminate; [reflexivity|].
  destruct (b2z u ?= b2z v); cbn; [apply IH; lia | reflexivity..].
Qed.

Lemma bytes_lt_app_r a x : x <> [] -> bytes_lt a (a ++ x).
Proof.
  intros H. unfold bytes_lt. rewrite <- (app_nil_r a) at 1. rewrite bytes_cmp_app_l.
  destruct x; [congruence | reflexivity].
Qed.
Lemma bytes_le_app_r a x : bytes_le a (a ++ x).
Proof.
  destruct x as [|b x]; [rewrite app_nil_r; apply bytes_le_refl|].
  apply bytes_le_lteq. left. apply bytes_lt_app_r. discriminate.
Qed.

(** ** bytes.HasPrefix *)
Fixpoint has_prefix (k p : bytes) {struct p} : bool :=
  match p, k with
  | [], _ => true
  | _ :: _, [] => false
  | x :: p', y :: k' => byte_eqb x y && has_prefix k' p'
  end.

Lemma has_prefix_spec k p : has_prefix k p = true <-> exists s, k = p ++ s.
Proof.
  revert k. induction p as [|x p IH]; intros k; cbn.
  - split; [intros _; exists k; reflexivity | reflexivity].
  - destruct k as [|y k].
    + split; [discriminate | intros [s H]; discriminate].
    + rewrite andb_true_iff, byte_eqb_spec, IH. split.
      * intros [-> [s ->]]. exists s. reflexivity.
      * intros [s H]. injection H as -> ->. split; [reflexivity | exists s; reflexivity].
Qed.
Lemma has_prefix_app p s : has_prefix (p ++ s) p = true.
Proof. apply has_prefix_spec. exists s. reflexivity. Qed.
Lemma has_prefix_refl p : has_prefix p p = true.
Proof. rewrite <- (app_nil_r p) at 1. apply has_prefix_app. Qed.
Lemma has_prefix_nil k : has_prefix k [] = true.
Proof. destruct k; reflexivity. Qed.
Lemma has_prefix_app_iff p q k : has_prefix (p ++ k) (p ++ q) = has_prefix k q.
Proof. induction p as [|x p IH]; cbn; [reflexivity|]. rewrite byte_eqb_refl. exact IH. Qed.

(** prefixed keys form an interval *)
Lemma prefix_ge k p : has_prefix k p = true -> bytes_le p k.
Proof. rewrite has_prefix_spec. intros [s ->]. apply bytes_le_app_r. Qed.

Lemma prefix_interval p a b c :
  has_prefix a p = true -> has_prefix c p = true ->
  bytes_le a b -> bytes_le b c -> has_prefix b p = true.
Proof.
  rewrite (has_prefix_spec a), (has_prefix_spec c). intros [s ->] [t ->]. unfold bytes_le.
  revert b. induction p as [|x p IH]; intros b; [intros; apply has_prefix_nil|].
  destruct b as [|y b]; cbn; [congruence|].
  destruct (Z.compare_spec (b2z x) (b2z y)) as [E|E|E]; try congruence.
  - rewrite E, Z.compare_refl. apply b2z_inj in E. subst y. rewrite byte_eqb_refl. apply IH.
  - intros _. assert (G : (b2z y ?= b2z x) = Gt) by (apply Z.compare_gt_iff; lia). rewrite G. congruence.
Qed.

(** a key at or above p without prefix p is above everything with prefix p *)
Lemma no_prefix_above p k c :
  bytes_le p k -> has_prefix k p = false -> has_prefix c p = true -> bytes_lt c k.
Proof.
  intros H1 H2 H3. destruct (bytes_ltb c k) eqn:E; [apply bytes_ltb_lt; exact E|].
  apply bytes_ltb_nlt in E.
  rewrite (prefix_interval p p k c) in H2; try assumption; [discriminate | apply has_prefix_refl].
Qed.
Lemma no_prefix_below p k c :
  bytes_lt k p -> has_prefix c p = true -> bytes_lt k c.
Proof. intros H1 H2. eapply bytes_lt_le_trans; [exact H1 | apply prefix_ge; exact H2]. Qed.

(** * Bitwise complement of byte strings (reverseBytes) *)
Definition compl (b : bytes) : bytes := map bcompl b.
Lemma compl_invol b : compl (compl b) = b.
Proof.
  unfold compl. rewrite map_map. rewrite <- (map_id b) at 2. apply map_ext, bcompl_invol.
Qed.
Lemma compl_length b : length (compl b) = length b.
Proof. apply map_length. Qed.
Lemma compl_app a b : compl (a ++ b) = compl a ++ compl b.
Proof. apply map_app. Qed.
Lemma bytes_cmp_compl a b :
  length a = length b -> bytes_cmp (compl a) (compl b) = CompOpp (bytes_cmp a b).
Proof.
  revert b. induction a as [|x a IH]; intros [|y b] H; cbn in *; try discriminate; [reflexivity|].
  rewrite !b2z_bcompl.
  assert (G : (255 - b2z x ?= 255 - b2z y) = CompOpp (b2z x ?= b2z y)).
  { rewrite <- Z.compare_antisym. destruct (Z.compare_spec (b2z y) (b2z x));
    [apply Z.compare_eq_iff | apply Z.compare_lt_iff | apply Z.compare_gt_iff]; lia. }
  rewrite G. destruct (b2z x ?= b2z y); cbn; [apply IH; lia | reflexivity..].
Qed.

(** * Machine integers *)
Definition two63 : Z := 2 ^ 63.
Definition two64 : Z := 2 ^ 64.
(** conversion to int64 (two's complement wrap) *)
Definition to_i64 (z : Z) : Z := (z + two63) mod two64 - two63.
(** conversion to uint64 *)
Definition to_u64 (z : Z) : Z := z mod two64.
Definition is_i64 (z : Z) : Prop := - two63 <= z < two63.
Definition is_u64 (z : Z) : Prop := 0 <= z < two64.

Lemma to_i64_range z : is_i64 (to_i64 z).
Proof. unfold is_i64, to_i64, two63, two64. lia. Qed.
Lemma to_u64_range z : is_u64 (to_u64 z).
Proof. unfold is_u64, to_u64, two64. lia. Qed.
Lemma to_i64_id z : is_i64 z -> to_i64 z = z.
Proof. unfold is_i64, to_i64, two63, two64. lia. Qed.
Lemma to_u64_id z : is_u64 z -> to_u64 z = z.
Proof. unfold is_u64, to_u64, two64. lia. Qed.
Lemma to_i64_u64 z : to_i64 (to_u64 z) = to_i64 z.
Proof. unfold to_i64, to_u64, two63, two64. lia. Qed.
Lemma to_u64_i64 z : to_u64 (to_i64 z) = to_u64 z.
Proof. unfold to_i64, to_u64, two63, two64. lia. Qed.
Lemma to_i64_add_l x y : to_i64 (to_i64 x + y) = to_i64 (x + y).
Proof. unfold to_i64, two63, two64. lia. Qed.
Lemma to_i64_add_r x y : to_i64 (x + to_i64 y) = to_i64 (x + y).
Proof. unfold to_i64, two63, two64. lia. Qed.
Lemma to_i64_sub_l x y : to_i64 (to_i64 x - y) = to_i64 (x - y).
Proof. unfold to_i64, two63, two64. lia. Qed.
Global Opaque two63 two64.
Lemma two63_val : two63 = 9223372036854775808. Proof. reflexivity. Qed.
Lemma two64_val : two64 = 18446744073709551616. Proof. reflexivity. Qed.

(** * Big-endian fixed-width integers (binary.BigEndian) *)

(** the n low-order bytes of v, most significant first *)
Fixpoint be_bytes (n : nat) (v : Z) : bytes :=
  match n with
  | O => []
  | S n' => be_bytes n' (v / 256) ++ [z2b v]
  end.
(** value of a byte string read as big-endian digits *)
Definition be_val (b : bytes) : Z := fold_left (fun acc x => acc * 256 + b2z x) b 0.

Lemma be_bytes_length n v : length (be_bytes n v) = n.
Proof. revert v. induction n as [|n IH]; intros v; cbn; [reflexivity|]. rewrite app_length, IH. cbn. lia. Qed.

Lemma be_val_snoc b x : be_val (b ++ [x]) = be_val b * 256 + b2z x.
Proof. unfold be_val. rewrite fold_left_app. reflexivity. Qed.

Lemma be_val_range b : 0 <= be_val b < 256 ^ Z.of_nat (length b).
Proof.
  induction b as [|x b IH] using rev_ind; [cbn; lia|].
  rewrite be_val_snoc, app_length. cbn [length].
  rewrite Nat2Z.inj_add. change (Z.of_nat 1) with 1. rewrite Z.pow_add_r by lia.
  pose proof (b2z_range x). lia.
Qed.

Lemma be_val_bytes n v : 0 <= v < 256 ^ Z.of_nat n -> be_val (be_bytes n v) = v.
Proof.
  revert v. induction n as [|n IH]; intros v H; [cbn in *; lia|].
  cbn [be_bytes]. rewrite be_val_snoc, b2z_z2b.
  rewrite Nat2Z.inj_succ, Z.pow_succ_r in H by lia.
  rewrite IH by lia. lia.
Qed.

Lemma be_bytes_val b : be_bytes (length b) (be_val b) = b.
Proof.
  induction b as [|x b IH] using rev_ind; [reflexivity|].
  rewrite app_length, Nat.add_comm. cbn [length Nat.add be_bytes].
  rewrite be_val_snoc. pose proof (b2z_range x).
  replace ((be_val b * 256 + b2z x) / 256) with (be_val b) by lia.
  rewrite IH. f_equal. f_equal. apply b2z_inj. rewrite b2z_z2b. lia.
Qed.

Lemma be_bytes_cmp n v w :
  0 <= v < 256 ^ Z.of_nat n -> 0 <= w < 256 ^ Z.of_nat n ->
  bytes_cmp (be_bytes n v) (be_bytes n w) = (v ?= w).
Proof.
  revert v w. induction n as [|n IH]; intros v w Hv Hw.
  - cbn in *. symmetry. apply Z.compare_eq_iff. lia.
  - rewrite Nat2Z.inj_succ, Z.pow_succ_r in Hv, Hw by lia.
    cbn [be_bytes]. rewrite bytes_cmp_app_len by (rewrite !be_bytes_length; reflexivity).
    rewrite IH by lia. cbn [bytes_cmp]. rewrite !b2z_z2b.
    destruct (Z.compare_spec (v / 256) (w / 256)) as [E|E|E]; cbn [then_cmp].
    + destruct (Z.compare_spec (v mod 256) (w mod 256)) as [F|F|F]; cbn; symmetry;
      [apply Z.compare_eq_iff | apply Z.compare_lt_iff | apply Z.compare_gt_iff]; lia.
    + symmetry. apply Z.compare_lt_iff. lia.
    + symmetry. apply Z.compare_gt_iff. lia.
Qed.

Lemma be_bytes_inj n v w :
  0 <= v < 256 ^ Z.of_nat n -> 0 <= w < 256 ^ Z.of_nat n ->
  be_bytes n v = be_bytes n w -> v = w.
Proof. intros Hv Hw E. rewrite <- (be_val_bytes n v Hv), E. apply be_val_bytes. exact Hw. Qed.

Lemma pow256_8 : 256 ^ Z.of_nat 8 = two64.
Proof. reflexivity. Qed.

(** * Go string literals as byte lists: [str "abc"] *)
Inductive lit := Lit (l : list byte).
Definition lit_of_bytes (l : list byte) : lit := Lit l.
Definition lit_to_bytes (x : lit) : list byte := match x with Lit l => l end.
Declare Scope lit_scope.
Delimit Scope lit_scope with lit.
String Notation lit lit_of_bytes lit_to_bytes : lit_scope.
Definition str (x : lit) : bytes := lit_to_bytes x.
Arguments str x%lit.
