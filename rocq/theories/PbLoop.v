(** The Unmarshal loop: locality, composition, termination, absence of panics, round trips. *)
From Verif Require Import Bytes Compact Pb PbProofs.

(** * Wire format of single fields (specification, independent of the decoder).
    A field is a tag (field number, wire type) followed by a payload: a varint, 8 bytes,
    a length-delimited string, 4 bytes, or a group of fields closed by an end tag. *)
Definition tag (num wt : Z) : bytes := encodeVarint (num * 8 + wt).
Definition fieldnum (n : Z) : Prop := 0 < n < 2 ^ 29.
Inductive wire_field : Z -> bytes -> Prop :=
| wf_varint n v : fieldnum n -> is_u64 v -> wire_field n (tag n 0 ++ encodeVarint v)
| wf_fixed64 n b : fieldnum n -> length b = 8%nat -> wire_field n (tag n 1 ++ b)
| wf_bytes n v : fieldnum n -> len v < two62 -> wire_field n (tag n 2 ++ encodeVarint (len v) ++ v)
| wf_group n body : fieldnum n -> wire_fields body -> wire_field n (tag n 3 ++ body ++ tag n 4)
| wf_fixed32 n b : fieldnum n -> length b = 4%nat -> wire_field n (tag n 5 ++ b)
with wire_fields : bytes -> Prop :=
| wfs_nil : wire_fields []
| wfs_cons n x y : wire_field n x -> wire_fields y -> wire_fields (x ++ y).
Scheme wire_field_mut := Induction for wire_field Sort Prop
with wire_fields_mut := Induction for wire_fields Sort Prop.
Combined Scheme wire_ind from wire_field_mut, wire_fields_mut.

Lemma tag_read n wt e : fieldnum n -> 0 <= wt < 8 -> readVarint (tag n wt ++ e) = POk (n * 8 + wt, e).
Proof.
  unfold fieldnum. change (2^29) with 536870912. intros H H2. apply readVarint_enc. unfold is_u64. rewrite two64_val. lia.
Qed.
Lemma tag_pos n wt : 1 <= len (tag n wt).
Proof. apply encodeVarint_pos. Qed.
Lemma tag_mod n wt : 0 <= wt < 8 -> (n * 8 + wt) mod 8 = wt.
Proof. lia. Qed.

Lemma skip_step_raw f d wire r : d <> [] -> readVarint d = POk (wire, r) ->
  skip (S f) d =
    let i := len d - len r in
    match wire mod 8 with
    | 0 => pbind (skip_varint r 0) (fun r' => POk (len d - len r'))
    | 1 => POk (i + 8)
    | 2 => pbind (readVarint r) (fun '(v, r') =>
             let length := to_i64 v in
             let i' := to_i64 (len d - len r' + length) in
             if length <? 0 then PErr PInvalidLength else POk i')
    | 3 => skip_group f d i
    | 4 => POk i
    | 5 => POk (i + 4)
    | _ => PErr PIllegalWireType
    end.
Proof. intros Hd E. cbn [skip]. rewrite E. destruct d; [congruence|]. reflexivity. Qed.

Lemma is_u64_len v : len v < two62 -> is_u64 (len v).
Proof. pose proof (len_nonneg v). unfold is_u64. rewrite two64_val, two62_val. lia. Qed.
Lemma is_i64_len v : len v < two62 -> is_i64 (len v).
Proof. pose proof (len_nonneg v). unfold is_i64. rewrite two63_val, two62_val. lia. Qed.

Lemma wire_skip :
  (forall n x, wire_field n x ->
     (forall e, exists wt r, 0 <= wt < 8 /\ wt <> 4 /\ readVarint (x ++ e) = POk (n * 8 + wt, r)) /\ fieldnum n /\
     forall e, len (x ++ e) < two62 -> exists f0, forall f, (f0 <= f)%nat -> skip f (x ++ e) = POk (len x)) /\
  (forall y, wire_fields y -> forall pre n e, fieldnum n -> len (pre ++ y ++ tag n 4 ++ e) < two62 ->
     exists f0, forall f, (f0 <= f)%nat ->
       skip_group f (pre ++ y ++ tag n 4 ++ e) (len pre) = POk (len (pre ++ y ++ tag n 4))).
Proof.
  assert (NE : forall n wt e, tag n wt ++ e <> []).
  { intros n wt e H. pose proof (tag_pos n wt) as T. apply app_eq_nil in H. destruct H as [H _]. rewrite H, len_nil in T. lia. }
  apply wire_ind.
  - intros n v Hn Hv. split; [|split; [exact Hn|]].
    { intros e. exists 0, (encodeVarint v ++ e). rewrite <- app_assoc. split; [lia|]. split; [lia|]. apply tag_read; [exact Hn|lia]. }
    intros e Hl. exists 1%nat. intros [|f] Hf; [lia|]. rewrite <- app_assoc.
    rewrite (skip_step_raw f _ (n * 8 + 0) (encodeVarint v ++ e)) by (apply NE || (apply tag_read; [exact Hn|lia])).
    rewrite tag_mod by lia. cbv beta iota zeta.
    unfold encodeVarint at 1. unfold is_u64 in Hv. change two64 with (2^64) in Hv.
    rewrite skip_varint_enc by (first [lia | change (2^(64-0)) with (2^64); lia]).
    cbn [pbind]. rewrite !len_app. f_equal. lia.
  - intros n b Hn Hb. split; [|split; [exact Hn|]].
    { intros e. exists 1, (b ++ e). rewrite <- app_assoc. split; [lia|]. split; [lia|]. apply tag_read; [exact Hn|lia]. }
    intros e Hl. exists 1%nat. intros [|f] Hf; [lia|]. rewrite <- app_assoc.
    rewrite (skip_step_raw f _ (n * 8 + 1) (b ++ e)) by (apply NE || (apply tag_read; [exact Hn|lia])).
    rewrite tag_mod by lia. cbv beta iota zeta. rewrite !len_app. assert (Hlb : len b = Z.of_nat (length b)) by reflexivity. rewrite Hb in Hlb. f_equal. lia.
  - intros n v Hn Hv. split; [|split; [exact Hn|]].
    { intros e. exists 2, (encodeVarint (len v) ++ v ++ e). rewrite <- !app_assoc. split; [lia|]. split; [lia|]. apply tag_read; [exact Hn|lia]. }
    intros e Hl. exists 1%nat. intros [|f] Hf; [lia|]. rewrite <- !app_assoc.
    rewrite (skip_step_raw f _ (n * 8 + 2) (encodeVarint (len v) ++ v ++ e)) by (apply NE || (apply tag_read; [exact Hn|lia])).
    rewrite tag_mod by lia. cbv beta iota zeta.
    rewrite readVarint_enc by (apply is_u64_len; exact Hv). cbn [pbind].
    rewrite (to_i64_id (len v)) by (apply is_i64_len; exact Hv).
    pose proof (len_nonneg v). destruct (Z.ltb_spec (len v) 0); [lia|].
    rewrite !len_app in *. pose proof (len_nonneg e). pose proof (tag_pos n 2). pose proof (encodeVarint_pos (len v)).
    rewrite to_i64_id; [f_equal; lia|]. unfold is_i64. rewrite two62_val, ?two63_val in *. lia.
  - intros n body Hn _ IH. split; [|split; [exact Hn|]].
    { intros e. exists 3, (body ++ tag n 4 ++ e). rewrite <- !app_assoc. split; [lia|]. split; [lia|]. apply tag_read; [exact Hn|lia]. }
    intros e Hl. rewrite <- !app_assoc in *.
    destruct (IH (tag n 3) n e Hn Hl) as [f0 H0]. exists (S f0). intros [|f] Hf; [lia|].
    rewrite (skip_step_raw f _ (n * 8 + 3) (body ++ tag n 4 ++ e)) by (apply NE || (apply tag_read; [exact Hn|lia])).
    rewrite tag_mod by lia. cbv beta iota zeta.
    replace (len (tag n 3 ++ body ++ tag n 4 ++ e) - len (body ++ tag n 4 ++ e)) with (len (tag n 3)) by (rewrite !len_app; lia).
    apply H0. lia.
  - intros n b Hn Hb. split; [|split; [exact Hn|]].
    { intros e. exists 5, (b ++ e). rewrite <- app_assoc. split; [lia|]. split; [lia|]. apply tag_read; [exact Hn|lia]. }
    intros e Hl. exists 1%nat. intros [|f] Hf; [lia|]. rewrite <- app_assoc.
    rewrite (skip_step_raw f _ (n * 8 + 5) (b ++ e)) by (apply NE || (apply tag_read; [exact Hn|lia])).
    rewrite tag_mod by lia. cbv beta iota zeta. rewrite !len_app. assert (Hlb : len b = Z.of_nat (length b)) by reflexivity. rewrite Hb in Hlb. f_equal. lia.
  - intros pre n e Hn Hl. cbn [app] in *. exists 1%nat. intros [|f] Hf; [lia|]. cbn [skip_group].
    pose proof (len_nonneg pre). pose proof (tag_pos n 4). pose proof (len_nonneg e).
    destruct (Z.leb_spec (len (pre ++ tag n 4 ++ e)) (len pre)) as [L|L]; [rewrite !len_app in L; lia|].
    destruct (Z.ltb_spec (len pre) 0); [lia|].
    replace (skipn (Z.to_nat (len pre)) (pre ++ tag n 4 ++ e)) with (tag n 4 ++ e).
    2: { unfold len. rewrite Nat2Z.id, skipn_app, skipn_all, Nat.sub_diag. reflexivity. }
    rewrite tag_read by (exact Hn || lia). cbn [pbind]. rewrite tag_mod by lia. change (4 =? 4) with true. cbv iota.
    rewrite !len_app. f_equal. lia.
  - intros k x y Hx (Hr & Hk & IHx) Hy IHy pre n e Hn Hl. rewrite <- !app_assoc in *.
    destruct (IHx (y ++ tag n 4 ++ e)) as [f1 H1].
    { rewrite len_app in Hl. pose proof (len_nonneg pre). lia. }
    destruct (IHy (pre ++ x) n e Hn) as [f2 H2]; [rewrite <- app_assoc; exact Hl|].
    exists (S (Nat.max f1 f2)). intros [|f] Hf; [lia|]. cbn [skip_group].
    destruct (Hr (y ++ tag n 4 ++ e)) as (wt & r & Hwt & Hwt4 & Er).
    pose proof (len_nonneg pre). pose proof (tag_pos n 4). pose proof (len_nonneg e). pose proof (len_nonneg x). pose proof (len_nonneg y).
    destruct (Z.leb_spec (len (pre ++ x ++ y ++ tag n 4 ++ e)) (len pre)) as [L|L]; [rewrite !len_app in L; lia|].
    destruct (Z.ltb_spec (len pre) 0); [lia|].
    replace (skipn (Z.to_nat (len pre)) (pre ++ x ++ y ++ tag n 4 ++ e)) with (x ++ y ++ tag n 4 ++ e).
    2: { unfold len. rewrite Nat2Z.id, skipn_app, skipn_all, Nat.sub_diag. reflexivity. }
    rewrite Er. cbn [pbind]. rewrite tag_mod by lia. destruct (Z.eqb_spec wt 4); [lia|].
    rewrite H1 by lia. cbn [pbind].
    rewrite to_i64_id by (unfold is_i64; rewrite !len_app in *; rewrite two62_val, ?two63_val in *; lia).
    replace (len pre + len x) with (len (pre ++ x)) by (rewrite len_app; reflexivity).
    replace (pre ++ x ++ y ++ tag n 4 ++ e) with ((pre ++ x) ++ y ++ tag n 4 ++ e) by (rewrite <- !app_assoc; reflexivity).
    rewrite H2 by lia. rewrite <- !app_assoc. reflexivity.
Qed.
Lemma wire_skipMondis n x e : wire_field n x -> len (x ++ e) < two62 -> skipMondis (x ++ e) = POk (len x).
Proof.
  intros H Hl. destruct (proj1 wire_skip n x H) as (_ & _ & Hs). destruct (Hs e Hl) as [f0 H0].
  rewrite <- (skipMondis_fuel (Nat.max f0 (2 * length (x ++ e) + 2)) (x ++ e)) by (exact Hl || lia).
  apply H0. lia.
Qed.
Lemma wire_read n x e : wire_field n x -> exists wt r, 0 <= wt < 8 /\ wt <> 4 /\ readVarint (x ++ e) = POk (n * 8 + wt, r).
Proof. intros H. destruct (proj1 wire_skip n x H) as (Hs & _ & _). apply Hs. Qed.
Lemma wire_num n x : wire_field n x -> fieldnum n.
Proof. intros H. destruct (proj1 wire_skip n x H) as (_ & Hs & _). exact Hs. Qed.
Lemma wire_pos n x : wire_field n x -> 1 <= len x.
Proof. destruct 1; rewrite !len_app; pose proof (tag_pos n 0); pose proof (tag_pos n 1); pose proof (tag_pos n 2); pose proof (tag_pos n 3); pose proof (tag_pos n 5); repeat match goal with |- context [len ?x] => lazymatch goal with H : 0 <= len x |- _ => fail | _ => pose proof (len_nonneg x) end end; lia. Qed.

(** * take_len *)
Lemma take_len_inv l r n a b : 0 <= n < two63 -> len r <= l < two62 -> take_len l r n = POk (a, b) ->
  n <= len r /\ r = a ++ b /\ len a = n.
Proof.
  intros Hn Hl. unfold take_len.
  destruct (Z.ltb_spec l (to_i64 (l - len r + n))) as [L|L]; [discriminate|].
  destruct (Z.ltb_spec (to_i64 (l - len r + n)) (l - len r)) as [L2|L2]; [discriminate|].
  intros H. assert (Ha : firstn (Z.to_nat n) r = a) by congruence. assert (Hb : skipn (Z.to_nat n) r = b) by congruence.
  pose proof (len_nonneg r).
  assert (N : n <= len r).
  { revert L L2. unfold to_i64. rewrite two63_val in *. rewrite two64_val. rewrite two62_val in Hl. lia. }
  split; [exact N|]. subst a b. rewrite firstn_skipn. split; [reflexivity|].
  rewrite len_firstn by (unfold len in *; lia). lia.
Qed.
Lemma take_len_ok l v e : len (v ++ e) <= l < two62 -> take_len l (v ++ e) (len v) = POk (v, e).
Proof.
  intros Hl. unfold take_len. rewrite len_app in *. pose proof (len_nonneg v). pose proof (len_nonneg e).
  rewrite to_i64_id by (unfold is_i64; rewrite two62_val in Hl; rewrite two63_val; lia).
  destruct (Z.ltb_spec l (l - (len v + len e) + len v)); [lia|].
  destruct (Z.ltb_spec (l - (len v + len e) + len v) (l - (len v + len e))); [lia|].
  unfold len. rewrite Nat2Z.id, firstn_app, firstn_all, Nat.sub_diag, skipn_app, skipn_all, Nat.sub_diag.
  cbn [firstn skipn]. rewrite app_nil_r. reflexivity.
Qed.
Lemma take_len_not l r n : take_len l r n <> PErr PFuel.
Proof. unfold take_len. destruct (_ <? _); [discriminate|]. destruct (_ <? _); discriminate. Qed.
Lemma take_len_safe l r n : 0 <= n < two62 -> len r <= l < two62 -> take_len l r n <> PPanic.
Proof.
  intros Hn Hl. unfold take_len. destruct (_ <? _); [discriminate|].
  pose proof (len_nonneg r).
  rewrite to_i64_id by (unfold is_i64; rewrite two62_val in *; rewrite two63_val; lia).
  destruct (Z.ltb_spec (l - len r + n) (l - len r)); [lia|discriminate].
Qed.

Lemma read_lendelim_inv l r v r' : len r <= l < two62 -> read_lendelim l r = POk (v, r') ->
  exists p, r = p ++ v ++ r' /\ (forall e l', len (r ++ e) <= l' < two62 -> read_lendelim l' (r ++ e) = POk (v, r' ++ e)).
Proof.
  intros Hl. unfold read_lendelim. destruct (readVarint r) as [[n s]|e|] eqn:E; cbn [pbind]; try discriminate.
  pose proof (readVarint_len _ _ _ E) as Hs.
  destruct (Z.ltb_spec (to_i64 n) 0) as [L|L]; [discriminate|]. intros H.
  pose proof (to_i64_range n) as R. unfold is_i64 in R.
  apply take_len_inv in H; [|lia|lia]. destruct H as (H1 & H2 & H3).
  pose proof E as E0. apply readVarint_inv in E. destruct E as (p & E1 & _). exists p. split; [congruence|].
  intros e l' Hl'. rewrite (readVarint_ext _ _ _ e E0). cbn [pbind].
  destruct (Z.ltb_spec (to_i64 n) 0); [lia|]. rewrite <- H3, H2, <- app_assoc. apply take_len_ok.
  rewrite !len_app in *. rewrite H2, len_app in Hs. pose proof (len_nonneg e). lia.
Qed.
Lemma read_lendelim_enc l v e : len v < two62 -> len (encodeVarint (len v) ++ v ++ e) <= l < two62 ->
  read_lendelim l (encodeVarint (len v) ++ v ++ e) = POk (v, e).
Proof.
  intros Hv Hl. unfold read_lendelim. rewrite readVarint_enc by (apply is_u64_len; exact Hv). cbn [pbind].
  rewrite to_i64_id by (apply is_i64_len; exact Hv). pose proof (len_nonneg v). destruct (Z.ltb_spec (len v) 0); [lia|].
  apply take_len_ok. rewrite len_app in Hl. pose proof (len_nonneg (encodeVarint (len v))). lia.
Qed.
Lemma read_lendelim_not l r : read_lendelim l r <> PErr PFuel.
Proof.
  unfold read_lendelim. destruct (readVarint r) as [[n s]|e|] eqn:E; cbn [pbind]; try discriminate.
  - destruct (_ <? _); [discriminate|]. apply take_len_not.
  - intros H. injection H as ->. apply (proj2 (read_varint_not r 0 0)). exact E.
Qed.
Lemma read_lendelim_safe l r : short_varints r -> len r <= l < two62 -> read_lendelim l r <> PPanic.
Proof.
  intros Hs Hl. unfold read_lendelim. destruct (readVarint r) as [[n s]|e|] eqn:E; cbn [pbind]; try discriminate.
  - destruct (short_read _ _ _ Hs E) as [B _]. change (2^56) with 72057594037927936 in B.
    pose proof (readVarint_len _ _ _ E).
    rewrite to_i64_id by (unfold is_i64; rewrite two63_val; lia).
    destruct (n <? 0); [discriminate|]. apply take_len_safe; [rewrite two62_val; lia|lia].
  - exfalso. apply (proj1 (read_varint_not r 0 0)). exact E.
Qed.

(** * Properties of field decoders *)
Section Props.
  Context {M : Type}.
  Definition f_local (f : field M) : Prop := forall m l r m' r', len r <= l < two62 ->
    f_dec f m l r = POk (m', r') ->
    (exists p, r = p ++ r') /\
    forall e l', len (r ++ e) <= l' < two62 -> f_dec f m l' (r ++ e) = POk (m', r' ++ e).
  Definition f_quiet (f : field M) : Prop := forall m l r, len r <= l < two62 -> f_dec f m l r <> PErr PFuel.
  Definition f_safe (f : field M) : Prop := forall m l r, len r <= l < two62 -> short_varints r -> f_dec f m l r <> PPanic.
  (** the field decoder looks at and changes only what [known] keeps *)
  Definition f_resp {K} (known : M -> K) (f : field M) : Prop := forall m n l r m' r',
    known m = known n -> f_dec f m l r = POk (m', r') ->
    exists n', f_dec f n l r = POk (n', r') /\ known m' = known n'.
  Definition f_good {K} (known : M -> K) f := f_local f /\ f_quiet f /\ f_safe f /\ f_resp known f.

  Definition u_quiet (u : M -> bytes -> pres M) : Prop := forall m d, len d < two62 -> u m d <> PErr PFuel.
  Definition u_safe (u : M -> bytes -> pres M) : Prop := forall m d, len d < two62 -> short_varints d -> u m d <> PPanic.
End Props.

Section FieldProps.
  Context {M K : Type} (known : M -> K).
  Lemma f_bytes_good num set : (forall m n v, known m = known n -> known (set m v) = known (set n v)) -> f_good known (f_bytes num set).
  Proof.
    intros Hset. split; [|split; [|split]].
    - intros m l r m' r' Hl. cbn [f_dec f_bytes]. destruct (read_lendelim l r) as [[v s]|e|] eqn:E; cbn [pbind]; try discriminate.
      intros H. assert (set m v = m' /\ s = r') as [<- <-] by (split; congruence).
      apply read_lendelim_inv in E; [|exact Hl]. destruct E as (p & E1 & E2).
      split; [exists (p ++ v); rewrite <- app_assoc; exact E1|].
      intros e l' Hl'. rewrite (E2 e l' Hl'). reflexivity.
    - intros m l r Hl. cbn [f_dec f_bytes]. pose proof (read_lendelim_not l r). destruct (read_lendelim l r) as [[v s]|e|]; cbn [pbind]; congruence.
    - intros m l r Hl Hs. cbn [f_dec f_bytes]. pose proof (read_lendelim_safe l r Hs Hl). destruct (read_lendelim l r) as [[v s]|e|]; cbn [pbind]; congruence.
    - intros m n l r m' r' Hk. cbn [f_dec f_bytes]. destruct (read_lendelim l r) as [[v s]|e|] eqn:E; cbn [pbind]; try discriminate.
      intros H. exists (set n v). split; [congruence|]. assert (set m v = m') as <- by congruence. apply Hset, Hk.
  Qed.
  Lemma f_varint_good num conv set : (forall m n v, known m = known n -> known (set m v) = known (set n v)) -> f_good known (f_varint num conv set).
  Proof.
    intros Hset. split; [|split; [|split]].
    - intros m l r m' r' Hl. cbn [f_dec f_varint]. destruct (readVarint r) as [[v s]|e|] eqn:E; cbn [pbind]; try discriminate.
      intros H. assert (set m (conv v) = m' /\ s = r') as [<- <-] by (split; congruence).
      split; [apply readVarint_inv in E; destruct E as (p & E1 & _); exists p; exact E1|].
      intros e l' Hl'. rewrite (readVarint_ext _ _ _ e E). reflexivity.
    - intros m l r Hl. cbn [f_dec f_varint]. pose proof (proj2 (read_varint_not r 0 0)) as H. unfold readVarint. destruct (read_varint r 0 0) as [[v s]|e|]; cbn [pbind]; congruence.
    - intros m l r Hl Hs. cbn [f_dec f_varint]. pose proof (proj1 (read_varint_not r 0 0)) as H. unfold readVarint. destruct (read_varint r 0 0) as [[v s]|e|]; cbn [pbind]; congruence.
    - intros m n l r m' r' Hk. cbn [f_dec f_varint]. destruct (readVarint r) as [[v s]|e|] eqn:E; cbn [pbind]; try discriminate.
      intros H. exists (set n (conv v)). split; [congruence|]. assert (set m (conv v) = m') as <- by congruence. apply Hset, Hk.
  Qed.
  Lemma f_bool_good num set : (forall m n v, known m = known n -> known (set m v) = known (set n v)) -> f_good known (f_bool num set).
  Proof.
    intros Hset.
    pose proof (f_varint_good num (fun v => v) (fun m v => set m (negb (to_i64 v =? 0))) (fun m n v H => Hset m n _ H)) as H.
    exact H.
  Qed.
  Lemma f_msg_good {S} num (get : M -> option S) set empty (unm : S -> bytes -> pres S) :
    u_quiet unm -> u_safe unm ->
    (forall m n v, known m = known n -> known (set m v) = known (set n v)) ->
    (forall m n, known m = known n -> get m = get n) -> f_good known (f_msg num get set empty unm).
  Proof.
    intros Hq Hu Hset Hget. split; [|split; [|split]].
    - intros m l r m' r' Hl. cbn [f_dec f_msg]. destruct (read_lendelim l r) as [[v s]|e|] eqn:E; cbn [pbind]; try discriminate.
      destruct (unm _ v) as [x|e|] eqn:Ex; cbn [pbind]; try discriminate.
      intros H. assert (set m x = m' /\ s = r') as [<- <-] by (split; congruence).
      apply read_lendelim_inv in E; [|exact Hl]. destruct E as (p & E1 & E2).
      split; [exists (p ++ v); rewrite <- app_assoc; exact E1|].
      intros e l' Hl'. rewrite (E2 e l' Hl'). cbn [pbind]. rewrite Ex. reflexivity.
    - intros m l r Hl. cbn [f_dec f_msg]. pose proof (read_lendelim_not l r). destruct (read_lendelim l r) as [[v s]|e|] eqn:E; cbn [pbind]; try congruence.
      apply read_lendelim_inv in E; [|exact Hl]. destruct E as (p & E1 & _).
      set (s0 := match get m with Some s0 => s0 | None => empty end). clearbody s0.
      assert (Hv : len v < two62). { rewrite E1, !len_app in Hl. pose proof (len_nonneg p). pose proof (len_nonneg s). lia. }
      pose proof (Hq s0 v Hv) as H1. destruct (unm s0 v); cbn [pbind]; congruence.
    - intros m l r Hl Hs. cbn [f_dec f_msg]. pose proof (read_lendelim_safe l r Hs Hl). destruct (read_lendelim l r) as [[v s]|e|] eqn:E; cbn [pbind]; try congruence.
      apply read_lendelim_inv in E; [|exact Hl]. destruct E as (p & E1 & _).
      set (s0 := match get m with Some s0 => s0 | None => empty end). clearbody s0.
      assert (Hv : len v < two62). { rewrite E1, !len_app in Hl. pose proof (len_nonneg p). pose proof (len_nonneg s). lia. }
      assert (Hv2 : short_varints v). { subst r. eapply short_app_l, short_app_r, Hs. }
      pose proof (Hu s0 v Hv Hv2) as H1. destruct (unm s0 v); cbn [pbind]; congruence.
    - intros m n l r m' r' Hk. cbn [f_dec f_msg]. rewrite (Hget m n Hk).
      destruct (read_lendelim l r) as [[v s]|e|] eqn:E; cbn [pbind]; try discriminate.
      destruct (unm _ v) as [x|e|] eqn:Ex; cbn [pbind]; try discriminate.
      intros H. exists (set n x). split; [congruence|]. assert (set m x = m') as <- by congruence. apply Hset, Hk.
  Qed.
  Lemma f_rep_good {S} num add (empty : S) (unm : S -> bytes -> pres S) :
    u_quiet unm -> u_safe unm ->
    (forall m n v, known m = known n -> known (add m v) = known (add n v)) -> f_good known (f_rep num add empty unm).
  Proof.
    intros Hq Hu Hset. 
    pose proof (f_msg_good num (fun _ => None) add empty unm Hq Hu Hset (fun _ _ _ => eq_refl)) as H. exact H.
  Qed.
End FieldProps.

(** * The loop *)
Section Loop.
  Context {M K : Type} (known : M -> K) (tbl : list (field M)) (add : M -> bytes -> M).
  Hypothesis Good : Forall (f_good known) tbl.
  Notation step := (unmarshal_step tbl add).
  Notation loop := (unmarshal_loop tbl add).
  Notation unm := (unmarshal tbl add).

  Lemma find_good num f : find (fun f => f_num f =? num) tbl = Some f -> f_good known f.
  Proof. intros H. apply find_some in H. rewrite Forall_forall in Good. apply Good, H. Qed.

  Lemma step_local m l d m' d' : d <> [] -> len d <= l < two62 -> step m l d = POk (m', d') ->
    (exists p, d = p ++ d' /\ 1 <= len p) /\
    forall e l', len (d ++ e) <= l' < two62 -> step m l' (d ++ e) = POk (m', d' ++ e).
  Proof.
    intros Hd Hl. unfold unmarshal_step. destruct (readVarint d) as [[wire r]|e|] eqn:E; cbn [pbind]; try discriminate.
    destruct (Z.eqb_spec (wire mod 8) 4) as [W|W]; [discriminate|].
    destruct (to_i32 (Z.shiftr wire 3) <=? 0) eqn:W2; [discriminate|].
    pose proof E as E0. apply readVarint_inv in E. destruct E as (p & -> & Hp & _).
    destruct (find (fun f => f_num f =? to_i32 (Z.shiftr wire 3)) tbl) as [f|] eqn:F.
    - apply find_good in F as G. destruct G as (Hloc & _).
      destruct (negb (wire mod 8 =? f_wt f)) eqn:W3; [discriminate|]. intros H.
      assert (Hlr : len r <= l) by (rewrite len_app in Hl; pose proof (len_nonneg p); lia).
      apply Hloc in H; [|lia]. destruct H as ((q & Hq) & Hext).
      split.
      + exists (p ++ q). rewrite <- app_assoc, <- Hq. split; [reflexivity|]. rewrite len_app. pose proof (len_nonneg q). unfold len at 1. lia.
      + intros e l' Hl'. rewrite (readVarint_ext _ _ _ e E0). cbn [pbind].
        destruct (Z.eqb_spec (wire mod 8) 4); [congruence|]. rewrite W2, F, W3. apply Hext.
        rewrite !len_app in *. pose proof (len_nonneg p). lia.
    - destruct (skipMondis (p ++ r)) as [n|e|] eqn:S; cbn [pbind]; try discriminate.
      destruct (Z.ltb_spec n 0) as [L|L]; [discriminate|].
      destruct (take_len l (p ++ r) n) as [[u s]|e|] eqn:T; cbn [pbind]; try discriminate.
      intros H. assert (add m u = m' /\ s = d') as [<- <-] by (split; congruence).
      assert (Sc := S). apply (proj1 (skip_count _)) in Sc; [|lia]. destruct Sc as [Sc1 Sc2].
      assert (N1 : 1 <= n). { destruct Sc2 as [?|Sc2]; [assumption|]. rewrite two62_val in Sc2. lia. }
      apply take_len_inv in T; [|unfold is_i64 in Sc1; lia|exact Hl]. destruct T as (T1 & T2 & T3).
      split; [exists u; split; [exact T2|lia]|].
      intros e l' Hl'. rewrite (readVarint_ext _ _ _ e E0). cbn [pbind].
      destruct (Z.eqb_spec (wire mod 8) 4); [congruence|]. rewrite W2, F.
      rewrite (skipMondis_ext (p ++ r) n e (proj2 (conj I (Z.le_lt_trans _ _ _ (proj1 Hl') (proj2 Hl')))) S). cbn [pbind]. destruct (Z.ltb_spec n 0); [lia|].
      rewrite T2, <- T3, <- app_assoc. rewrite take_len_ok; [reflexivity|].
      rewrite T2, !len_app in Hl'. rewrite !len_app. lia.
  Qed.
  Lemma step_quiet m l d : len d <= l < two62 -> step m l d <> PErr PFuel.
  Proof.
    intros Hl. unfold unmarshal_step. destruct (readVarint d) as [[wire r]|e|] eqn:E; cbn [pbind]; try discriminate.
    2: { intros H. injection H as ->. apply (proj2 (read_varint_not d 0 0)). exact E. }
    destruct (_ =? 4); [discriminate|]. destruct (_ <=? 0); [discriminate|].
    destruct (find _ tbl) as [f|] eqn:F.
    - apply find_good in F. destruct F as (_ & Hq & _). destruct (negb _); [discriminate|]. apply Hq.
      pose proof (readVarint_len _ _ _ E). lia.
    - pose proof (skipMondis_not_fuel d ltac:(lia)). destruct (skipMondis d) as [n|e|]; cbn [pbind]; try congruence.
      destruct (n <? 0); [discriminate|]. pose proof (take_len_not l d n). destruct (take_len l d n) as [[u s]|e|]; cbn [pbind]; congruence.
  Qed.
  Lemma step_safe m l d : d <> [] -> len d <= l < two62 -> short_varints d -> step m l d <> PPanic.
  Proof.
    intros Hd Hl Hs. unfold unmarshal_step. destruct (readVarint d) as [[wire r]|e|] eqn:E; cbn [pbind]; try discriminate.
    2: { exfalso. apply (proj1 (read_varint_not d 0 0)). exact E. }
    destruct (_ =? 4); [discriminate|]. destruct (_ <=? 0); [discriminate|].
    destruct (find _ tbl) as [f|] eqn:F.
    - apply find_good in F. destruct F as (_ & _ & Hq & _). destruct (negb _); [discriminate|]. apply Hq.
      + pose proof (readVarint_len _ _ _ E). lia.
      + apply (short_read _ _ _ Hs E).
    - destruct (proj1 (skip_short (2 * length d + 2)) d Hd Hs ltac:(lia)) as [S1 S2].
      fold (skipMondis d) in S1, S2.
      destruct (skipMondis d) as [n|e|]; cbn [pbind]; try congruence.
      specialize (S2 n eq_refl). change (2^57) with 144115188075855872 in S2.
      destruct (n <? 0); [discriminate|].
      assert (T : take_len l d n <> PPanic).
      { unfold take_len. destruct (_ <? _); [discriminate|]. pose proof (len_nonneg d).
        rewrite to_i64_id by (unfold is_i64; rewrite two62_val in *; rewrite two63_val; lia).
        destruct (Z.ltb_spec (l - len d + n) (l - len d)); [lia|discriminate]. }
      destruct (take_len l d n) as [[u s]|e|]; cbn [pbind]; congruence.
  Qed.

  Lemma loop_cons f m l d : d <> [] -> loop (S f) m l d = pbind (step m l d) (fun '(m', d') => loop f m' l d').
  Proof. destruct d; [congruence|]. reflexivity. Qed.
  Lemma loop_nil f m l : loop f m l [] = POk m.
  Proof. destruct f; reflexivity. Qed.

  Lemma loop_fuel f : forall m l d f', len d <= l < two62 -> (length d <= f)%nat -> (length d <= f')%nat -> loop f m l d = loop f' m l d.
  Proof.
    induction f as [|f IH]; intros m l d f' Hl H1 H2.
    - destruct d; [|cbn in H1; lia]. rewrite !loop_nil. reflexivity.
    - destruct d as [|c d]; [rewrite !loop_nil; reflexivity|]. destruct f' as [|f']; [cbn in H2; lia|].
      rewrite !loop_cons by discriminate. destruct (step m l (c :: d)) as [[m' d']|e|] eqn:E; cbn [pbind]; try reflexivity.
      apply step_local in E; [|discriminate|exact Hl]. destruct E as ((p & Hp & Hp1) & _).
      assert (L : (length d' < length (c :: d))%nat) by (rewrite Hp, app_length; unfold len in Hp1; lia).
      apply IH; [|lia|lia]. unfold len in *. lia.
  Qed.
  Lemma loop_quiet f : forall m l d, len d <= l < two62 -> (length d <= f)%nat -> loop f m l d <> PErr PFuel.
  Proof.
    induction f as [|f IH]; intros m l d Hl H1.
    - destruct d; [rewrite loop_nil; discriminate|cbn in H1; lia].
    - destruct d as [|c d]; [rewrite loop_nil; discriminate|].
      rewrite loop_cons by discriminate. pose proof (step_quiet m l (c :: d) Hl).
      destruct (step m l (c :: d)) as [[m' d']|e|] eqn:E; cbn [pbind]; try congruence.
      apply step_local in E; [|discriminate|exact Hl]. destruct E as ((p & Hp & Hp1) & _).
      assert (L : (length d' < length (c :: d))%nat) by (rewrite Hp, app_length; unfold len in Hp1; lia).
      apply IH; [|lia]. unfold len in *. lia.
  Qed.
  Lemma loop_safe f : forall m l d, len d <= l < two62 -> short_varints d -> loop f m l d <> PPanic.
  Proof.
    induction f as [|f IH]; intros m l d Hl H1.
    - destruct d; discriminate.
    - destruct d as [|c d]; [rewrite loop_nil; discriminate|].
      rewrite loop_cons by discriminate. pose proof (step_safe m l (c :: d) ltac:(discriminate) Hl H1).
      destruct (step m l (c :: d)) as [[m' d']|e|] eqn:E; cbn [pbind]; try congruence.
      apply step_local in E; [|discriminate|exact Hl]. destruct E as ((p & Hp & Hp1) & _).
      apply IH; [|rewrite Hp in H1; eapply short_app_r; exact H1]. rewrite Hp, len_app in Hl. lia.
  Qed.
  Lemma unm_quiet : u_quiet unm.
  Proof. intros m d Hd. apply loop_quiet; lia. Qed.
  Lemma unm_safe : u_safe unm.
  Proof. intros m d Hd Hs. apply loop_safe; [lia|exact Hs]. Qed.

  (** decoding a, then continuing with b *)
  Lemma loop_app f : forall m l a m1, len a <= l < two62 -> (length a <= f)%nat -> loop f m l a = POk m1 ->
    forall b l' f', len (a ++ b) <= l' < two62 -> (length (a ++ b) <= f')%nat ->
    loop f' m l' (a ++ b) = loop f' m1 l' b.
  Proof.
    induction f as [|f IH]; intros m l a m1 Hl Hf H b l' f' Hl' Hf'.
    - destruct a; [|cbn in Hf; lia]. rewrite loop_nil in H. apply POk_inj in H. subst. reflexivity.
    - destruct a as [|c a]; [rewrite loop_nil in H; apply POk_inj in H; subst; reflexivity|].
      rewrite loop_cons in H by discriminate.
      destruct (step m l (c :: a)) as [[m' d']|e|] eqn:E; cbn [pbind] in H; try discriminate.
      apply step_local in E; [|discriminate|exact Hl]. destruct E as ((p & Hp & Hp1) & Hext).
      assert (L : (length d' < length (c :: a))%nat) by (rewrite Hp, app_length; unfold len in Hp1; lia).
      rewrite app_length in Hf'. destruct f' as [|f']; [cbn in Hf'; lia|].
      rewrite loop_cons by discriminate. rewrite (Hext b l' Hl'). cbn [pbind].
      rewrite (IH m' l d' m1); [| |lia|exact H| |].
      + apply loop_fuel; [|lia|lia]. rewrite len_app in Hl'. pose proof (len_nonneg (c :: a)). lia.
      + unfold len in Hl |- *. lia.
      + unfold len in *. rewrite app_length in *. lia.
      + rewrite app_length. lia.
  Qed.
  Lemma unm_app m a m1 b m2 : len (a ++ b) < two62 -> unm m a = POk m1 -> unm m1 b = POk m2 -> unm m (a ++ b) = POk m2.
  Proof.
    intros Hl Ha Hb. unfold unmarshal in *. pose proof (len_nonneg a). pose proof (len_nonneg b). pose proof Hl as Hl'. rewrite len_app in Hl'.
    rewrite (loop_app (length a) m (len a) a m1) by (lia || exact Ha).
    pose proof (loop_app (length b) m1 (len b) b m2 ltac:(lia) (le_n _) Hb [] (len (a ++ b)) (length (a ++ b))) as R.
    rewrite app_nil_r in R. rewrite R; [apply loop_nil|rewrite len_app; lia|rewrite app_length; lia].
  Qed.
  Lemma unm_app_inv m a m1 b m2 : len (a ++ b) < two62 -> unm m a = POk m1 -> unm m (a ++ b) = POk m2 -> unm m1 b = POk m2.
  Proof.
    intros Hl Ha Hab. unfold unmarshal in *. pose proof (len_nonneg a). pose proof (len_nonneg b). pose proof Hl as Hl'. rewrite len_app in Hl'.
    rewrite (loop_app (length a) m (len a) a m1) in Hab by (lia || exact Ha).
    assert (B : (length b <= length (a ++ b))%nat) by (rewrite app_length; lia).
    assert (Hbl : len b <= len (a ++ b) < two62) by (rewrite len_app; lia).
    pose proof (loop_app _ m1 _ b m2 Hbl B Hab [] (len b) (length b)) as R.
    rewrite app_nil_r in R. rewrite R by lia. apply loop_nil.
  Qed.
  Lemma unm_nil m : unm m [] = POk m.
  Proof. reflexivity. Qed.

  (** ** one encoded field *)
  Lemma unm_one m l p m1 : l = len p -> p <> [] -> len p < two62 -> step m l p = POk (m1, []) -> unm m p = POk m1.
  Proof.
    intros -> Hp Hl H. unfold unmarshal. destruct p as [|c p]; [congruence|]. cbn [length].
    rewrite loop_cons by discriminate. rewrite H. cbn [pbind]. apply loop_nil.
  Qed.
  Lemma step_known m num wt r f : 0 < num < 16 -> 0 <= wt < 8 -> wt <> 4 ->
    find (fun f => f_num f =? num) tbl = Some f -> f_wt f = wt ->
    step m (len (z2b (num * 8 + wt) :: r)) (z2b (num * 8 + wt) :: r) = f_dec f m (len (z2b (num * 8 + wt) :: r)) r.
  Proof.
    intros Hn Hw Hw4 F W. unfold unmarshal_step.
    assert (E : readVarint (z2b (num * 8 + wt) :: r) = POk (num * 8 + wt, r)).
    { replace (z2b (num * 8 + wt) :: r) with (encodeVarint (num * 8 + wt) ++ r).
      - apply readVarint_enc. unfold is_u64. rewrite two64_val. lia.
      - unfold encodeVarint. cbn [encode_varint]. destruct (Z.leb_spec 128 (num * 8 + wt)); [lia|reflexivity]. }
    rewrite E. cbn [pbind]. rewrite tag_mod by lia.
    destruct (Z.eqb_spec wt 4); [congruence|].
    rewrite Z.shiftr_div_pow2 by lia. change (2^3) with 8. replace ((num * 8 + wt) / 8) with num by lia.
    rewrite to_i32_id by (unfold is_i32; change (2^31) with 2147483648; lia).
    destruct (Z.leb_spec num 0); [lia|]. rewrite F, W, Z.eqb_refl. reflexivity.
  Qed.
  Lemma unm_bytes m num set v : 0 < num < 16 -> find (fun f => f_num f =? num) tbl = Some (f_bytes num set) ->
    len (w_bytes (num * 8 + 2) v) < two62 -> (v = [] -> set m v = m) ->
    unm m (w_bytes (num * 8 + 2) v) = POk (set m v).
  Proof.
    intros Hn F Hl He. unfold w_bytes in *. destruct v as [|c v]; [rewrite unm_nil, He; reflexivity|].
    apply unm_one with (l := len (z2b (num * 8 + 2) :: encodeVarint (len (c :: v)) ++ c :: v)); [reflexivity|discriminate|exact Hl|].
    rewrite (step_known m num 2 _ _ Hn ltac:(lia) ltac:(lia) F eq_refl). cbn [f_dec f_bytes].
    rewrite len_cons, len_app in Hl. pose proof (encodeVarint_pos (len (c :: v))).
    pose proof (read_lendelim_enc (len (z2b (num * 8 + 2) :: encodeVarint (len (c :: v)) ++ c :: v)) (c :: v) []) as R.
    rewrite app_nil_r in R. rewrite R; [reflexivity|lia|]. rewrite !len_cons, !len_app, !len_cons in *. pose proof (len_nonneg v). lia.
  Qed.
  Lemma unm_varint m num conv set v : 0 < num < 16 -> find (fun f => f_num f =? num) tbl = Some (f_varint num conv set) ->
    (v = 0 -> set m v = m) -> conv (to_u64 v) = v ->
    unm m (w_varint (num * 8) v) = POk (set m v).
  Proof.
    intros Hn F He Hc. unfold w_varint. destruct (Z.eqb_spec v 0) as [E|E]; [rewrite unm_nil, He by exact E; reflexivity|].
    assert (L : len (encodeVarint (to_u64 v)) <= 10).
    { unfold encodeVarint. assert (G : forall f x, len (encode_varint f x) <= Z.of_nat f).
      { induction f as [|f IH]; intros x; [cbn; lia|]. cbn [encode_varint]. destruct (128 <=? x); rewrite len_cons; [specialize (IH (Z.shiftr x 7)); lia|rewrite len_nil; lia]. }
      apply G. }
    rewrite <- (Z.add_0_r (num * 8)).
    apply unm_one with (l := len (z2b (num * 8 + 0) :: encodeVarint (to_u64 v))); [reflexivity|discriminate|rewrite len_cons, two62_val; lia|].
    rewrite (step_known m num 0 _ _ Hn ltac:(lia) ltac:(lia) F eq_refl). cbn [f_dec f_varint].
    rewrite <- (app_nil_r (encodeVarint (to_u64 v))), readVarint_enc by apply to_u64_range. cbn [pbind]. rewrite Hc. reflexivity.
  Qed.
  Lemma unm_bool m num set v : 0 < num < 16 -> find (fun f => f_num f =? num) tbl = Some (f_bool num set) ->
    (v = false -> set m v = m) -> unm m (w_bool (num * 8) v) = POk (set m v).
  Proof.
    intros Hn F He. unfold w_bool. destruct v; [|rewrite unm_nil, He; reflexivity].
    rewrite <- (Z.add_0_r (num * 8)).
    apply unm_one with (l := len [z2b (num * 8 + 0); z2b 1]); [reflexivity|discriminate|rewrite !len_cons, len_nil, two62_val; lia|].
    rewrite (step_known m num 0 _ _ Hn ltac:(lia) ltac:(lia) F eq_refl). cbn [f_dec f_bool]. reflexivity.
  Qed.
  Lemma unm_msg {S} m num (get : M -> option S) set empty (u : S -> bytes -> pres S) (size : S -> Z) (mt : S -> bytes) s s' :
    0 < num < 16 -> find (fun f => f_num f =? num) tbl = Some (f_msg num get set empty u) ->
    size s = len (mt s) -> len (z2b (num * 8 + 2) :: encodeVarint (size s) ++ mt s) < two62 ->
    u (match get m with Some x => x | None => empty end) (mt s) = POk s' ->
    unm m (z2b (num * 8 + 2) :: encodeVarint (size s) ++ mt s) = POk (set m s').
  Proof.
    intros Hn F Hs Hl Hu. rewrite Hs in *.
    apply unm_one with (l := len (z2b (num * 8 + 2) :: encodeVarint (len (mt s)) ++ mt s)); [reflexivity|discriminate|exact Hl|].
    rewrite (step_known m num 2 _ _ Hn ltac:(lia) ltac:(lia) F eq_refl). cbn [f_dec f_msg].
    rewrite len_cons, len_app in Hl. pose proof (encodeVarint_pos (len (mt s))).
    pose proof (read_lendelim_enc (len (z2b (num * 8 + 2) :: encodeVarint (len (mt s)) ++ mt s)) (mt s) []) as R.
    rewrite app_nil_r in R. rewrite R; [|lia|rewrite !len_cons, !len_app; pose proof (len_nonneg (mt s)); lia].
    cbn [pbind]. rewrite Hu. reflexivity.
  Qed.
  Lemma unm_rep1 {S} m num addr (empty : S) (u : S -> bytes -> pres S) (size : S -> Z) (mt : S -> bytes) s s' :
    0 < num < 16 -> find (fun f => f_num f =? num) tbl = Some (f_rep num addr empty u) ->
    size s = len (mt s) -> len (z2b (num * 8 + 2) :: encodeVarint (size s) ++ mt s) < two62 ->
    u empty (mt s) = POk s' ->
    unm m (z2b (num * 8 + 2) :: encodeVarint (size s) ++ mt s) = POk (addr m s').
  Proof. intros Hn F Hs Hl Hu. apply (unm_msg m num (fun _ => None) addr empty u size mt s s' Hn F Hs Hl Hu). Qed.

  (** ** an unknown field *)
  Lemma unm_unknown m num x : wire_field num x -> (forall f, In f tbl -> f_num f <> num) -> len x < two62 ->
    unm m x = POk (add m x).
  Proof.
    intros Hx Hn Hl. pose proof (wire_num _ _ Hx) as Hnum. unfold fieldnum in Hnum. change (2^29) with 536870912 in Hnum.
    pose proof (wire_pos _ _ Hx) as Hp.
    apply unm_one with (l := len x); [reflexivity| |exact Hl|].
    { intros ->. rewrite len_nil in Hp. lia. }
    unfold unmarshal_step. destruct (wire_read _ _ [] Hx) as (wt & r & Hwt & Hwt4 & E). rewrite app_nil_r in E. rewrite E. cbn [pbind].
    rewrite tag_mod by lia. destruct (Z.eqb_spec wt 4); [congruence|].
    rewrite Z.shiftr_div_pow2 by lia. change (2^3) with 8. replace ((num * 8 + wt) / 8) with num by lia.
    rewrite to_i32_id by (unfold is_i32; change (2^31) with 2147483648; lia).
    destruct (Z.leb_spec num 0); [lia|].
    replace (find (fun f => f_num f =? num) tbl) with (@None (field M)).
    2: { symmetry.
         destruct (find (fun f => f_num f =? num) tbl) as [f|] eqn:F; [|reflexivity].
         apply find_some in F. destruct F as [F1 F2]. exfalso. apply (Hn f F1). apply Z.eqb_eq. exact F2. }
    pose proof (wire_skipMondis num x [] Hx) as S. rewrite app_nil_r in S. rewrite (S Hl). cbn [pbind].
    destruct (Z.ltb_spec (len x) 0); [lia|].
    pose proof (take_len_ok (len x) x []) as T. rewrite app_nil_r in T. rewrite T by lia. reflexivity.
  Qed.

  (** ** insensitivity to unknown fields *)
  Hypothesis Kadd : forall m u, known (add m u) = known m.
  Lemma step_resp m n l d m' d' : known m = known n -> step m l d = POk (m', d') ->
    exists n', step n l d = POk (n', d') /\ known m' = known n'.
  Proof.
    intros Hk. unfold unmarshal_step. destruct (readVarint d) as [[wire r]|e|] eqn:E; cbn [pbind]; try discriminate.
    destruct (_ =? 4); [discriminate|]. destruct (_ <=? 0); [discriminate|].
    destruct (find _ tbl) as [f|] eqn:F.
    - apply find_good in F. destruct F as (_ & _ & _ & Hr). destruct (negb _); [discriminate|]. apply Hr. exact Hk.
    - destruct (skipMondis d) as [k|e|]; cbn [pbind]; try discriminate. destruct (k <? 0); [discriminate|].
      destruct (take_len l d k) as [[u s]|e|]; cbn [pbind]; try discriminate.
      intros H. exists (add n u). split; [congruence|]. assert (add m u = m') as <- by congruence. rewrite !Kadd. exact Hk.
  Qed.
  Lemma loop_resp f : forall m n l d m', known m = known n -> loop f m l d = POk m' ->
    exists n', loop f n l d = POk n' /\ known m' = known n'.
  Proof.
    induction f as [|f IH]; intros m n l d m' Hk H.
    - destruct d; [|discriminate]. cbn in H. apply POk_inj in H. subst. exists n. split; [reflexivity|exact Hk].
    - destruct d as [|c d]; [rewrite loop_nil in *; apply POk_inj in H; subst; exists n; split; [reflexivity|exact Hk]|].
      rewrite loop_cons in H by discriminate. destruct (step m l (c :: d)) as [[m1 d1]|e|] eqn:E; cbn [pbind] in H; try discriminate.
      destruct (step_resp _ _ _ _ _ _ Hk E) as (n1 & E1 & K1).
      destruct (IH _ _ _ _ _ K1 H) as (n' & E2 & K2). exists n'. split; [|exact K2].
      rewrite loop_cons by discriminate. rewrite E1. exact E2.
  Qed.
  (** inserting an unknown field at a field boundary *)
  Lemma unm_insert m a b m1 m2 num u : wire_field num u -> (forall f, In f tbl -> f_num f <> num) ->
    len (a ++ u ++ b) < two62 -> unm m a = POk m1 -> unm m (a ++ b) = POk m2 ->
    exists m2', unm m (a ++ u ++ b) = POk m2' /\ known m2' = known m2.
  Proof.
    intros Hu Hn Hl Ha Hab. rewrite !len_app in Hl. pose proof (len_nonneg a). pose proof (len_nonneg b). pose proof (len_nonneg u).
    apply (unm_app_inv m a m1 b m2) in Hab; [|rewrite len_app; lia|exact Ha].
    destruct (loop_resp _ m1 (add m1 u) _ _ _ (eq_sym (Kadd m1 u)) Hab) as (m2' & E & Kn).
    exists m2'. split; [|congruence].
    apply (unm_app m a m1); [rewrite !len_app; lia|exact Ha|].
    apply (unm_app m1 u (add m1 u)); [rewrite len_app; lia| |exact E].
    apply (unm_unknown m1 num u Hu Hn). lia.
  Qed.
End Loop.
