(** Model of the key layout of the document layers: /repo/document/keys.go and
    /repo/document/dml/keys.go (the same functions, plus DecodeCollectionDocumentKey). *)
From Verif Require Import Bytes SMap Memcmp MemcmpProofs Compact Provider Sequence OldSequence.
From Coq Require Import Permutation Sorted.

(** keyspace/keyspace.go:3-17 *)
Definition CollectionPrefix : bytes := str "_md_c".
(** document/keys.go:16-36 *)
Definition documentPrefix : bytes := str "_d".
Definition indexDataPrefix : bytes := str "_id".
Definition columnsIndexedPrefix : bytes := str "_ci".
Definition indexNamePrefix : bytes := str "_in".
(** AppendCollectionDocumentPrefix, document/keys.go:45-53 (nil buffer) *)
Definition docPrefix (cid : Z) : bytes := EncodeInt64 CollectionPrefix cid ++ documentPrefix.
(** EncodeCollectionDocumentKey, 56-64 *)
Definition docKey (cid did : Z) : bytes := EncodeInt64 (docPrefix cid) did.
(** AppendCollectionIndexDataPrefix, 67-75 *)
Definition indexDataPrefixOf (cid : Z) : bytes := EncodeInt64 CollectionPrefix cid ++ indexDataPrefix.
(** AppendCollectionIndexNamePrefix 144-152, EncodeCollectionIndexName2IDKey 155-164 *)
Definition indexNamePrefixOf (cid : Z) : bytes := EncodeInt64 CollectionPrefix cid ++ indexNamePrefix.
Definition indexNameKey (cid : Z) (iname : bytes) : bytes := EncodeBytes (EncodeInt64 CollectionPrefix cid ++ indexNamePrefix) iname.
(** EncodeMetaCollectionName2IDKey 124-131, EncodeMetaIndexKey 134-141 *)
Definition cnameKey (cname : bytes) : bytes := EncodeBytes (MetaPrefix ++ str "_cn2id") cname.
Definition metaIndexKey (iid : Z) : bytes := EncodeInt64 (MetaPrefix ++ str "_i") iid.

(** IndexField, collection.go:369-372 *)
Record field := Field { f_name : bytes; f_desc : bool }.
(** sort.Slice by name, keys.go:92-94. Modelled as insertion sort, which is what Go runs for slices
    of at most 12 elements; for distinct names every sort gives this result. *)
Fixpoint finsert (x : field) (l : list field) : list field :=
  match l with
  | [] => [x]
  | y :: l' => if bytes_leb (f_name x) (f_name y) then x :: l else y :: finsert x l'
  end.
Fixpoint fsort (l : list field) : list field := match l with [] => [] | x :: l' => finsert x (fsort l') end.
(** EncodeCollectionColumnsIndexedKey, 78-111; a single field loses its direction *)
Definition norm_fields (fields : list field) : list field :=
  match fields with [f] => [Field (f_name f) false] | _ => fsort fields end.
Definition enc_field (buf : bytes) (f : field) : bytes := CEncodeBytes (EncodeUvarint buf (if f_desc f then 1 else 0)) (f_name f).
Definition columnsKey (cid : Z) (fields : list field) : bytes :=
  fold_left enc_field (norm_fields fields) (EncodeInt64 CollectionPrefix cid ++ columnsIndexedPrefix).

(** DecodeCollectionDocumentKey, dml/keys.go:142-171. The named results keep what was decoded; only
    success matters to callers except GetDidRange, which returns the error. *)
Definition decodeDocKey (key : bytes) : result (Z * Z) :=
  if (length key <? length CollectionPrefix + 8 + length documentPrefix + 8)%nat then Err EDecode
  else if negb (has_prefix key CollectionPrefix) then Err EDecode
  else match DecodeInt64 (skipn (length CollectionPrefix) key) with
       | DErr _ => Err EDecode
       | DOk key1 cid =>
           if negb (has_prefix key1 documentPrefix) then Err EDecode
           else match DecodeInt64 (skipn (length documentPrefix) key1) with
                | DErr _ => Err EDecode
                | DOk _ did => Ok (cid, did)
                end
       end.
(** DecodeCollectionIndexName2IDKey, keys.go:175-212 *)
Definition decodeIndexNameKey (key : bytes) : result (Z * bytes) :=
  if (length key <=? length CollectionPrefix + 8 + length indexNamePrefix)%nat then Err EDecode
  else if negb (has_prefix key CollectionPrefix) then Err EDecode
  else match DecodeInt64 (skipn (length CollectionPrefix) key) with
       | DErr _ => Err EDecode
       | DOk key1 cid =>
           if negb (has_prefix key1 indexNamePrefix) then Err EDecode
           else match DecodeBytes true (skipn (length indexNamePrefix) key1) with
                | DErr _ => Err EDecode
                | DOk lft iname => match lft with [] => Ok (cid, iname) | _ => Err EDecode end
                end
       end.

(** * Lemmas *)
Lemma DecodeInt64_inv b l v : DecodeInt64 b = DOk l v -> is_i64 v /\ b = EncodeInt64 [] v ++ l.
Proof.
  unfold DecodeInt64. destruct (DecodeUint64 b) as [l' u|e] eqn:E; [|discriminate]. intros H. apply DOk_inj in H. destruct H as [<- <-].
  apply DecodeUint64_inv in E. destruct E as [U ->]. rewrite DecodeUint64ToInt64_val by exact U.
  assert (I : is_i64 (u - two63)) by (unfold is_i64, is_u64 in *; pose proof two63_val; pose proof two64_val; lia).
  split; [exact I|]. unfold EncodeInt64, EncodeUint64. rewrite EncodeInt64ToUint64_val by exact I. cbn [app].
  replace (u - two63 + two63) with u by lia. reflexivity.
Qed.
Lemma docKey_app cid did : docKey cid did = CollectionPrefix ++ EncodeInt64 [] cid ++ documentPrefix ++ EncodeInt64 [] did.
Proof. unfold docKey, docPrefix. rewrite (EncodeInt64_app (EncodeInt64 CollectionPrefix cid ++ documentPrefix) did), (EncodeInt64_app CollectionPrefix cid), <- !app_assoc. reflexivity. Qed.
Lemma docPrefix_app cid : docPrefix cid = CollectionPrefix ++ EncodeInt64 [] cid ++ documentPrefix.
Proof. unfold docPrefix. rewrite (EncodeInt64_app CollectionPrefix cid), <- !app_assoc. reflexivity. Qed.
Lemma docKey_prefix cid did : docKey cid did = docPrefix cid ++ EncodeInt64 [] did.
Proof. reflexivity. Qed.
Lemma docKey_inj c d c' d' : is_i64 c -> is_i64 d -> is_i64 c' -> is_i64 d' -> docKey c d = docKey c' d' -> c = c' /\ d = d'.
Proof.
  intros Hc Hd Hc' Hd'. rewrite !docKey_app. intros E. apply app_inv_head in E. apply EncodeInt64_inj in E; try assumption. destruct E as [-> E].
  apply app_inv_head in E. split; [reflexivity|]. apply (EncodeInt64_inj d d' [] []); [assumption|assumption|rewrite !app_nil_r; exact E].
Qed.
Lemma docPrefix_inj c c' x y : is_i64 c -> is_i64 c' -> docPrefix c ++ x = docPrefix c' ++ y -> c = c' /\ x = y.
Proof.
  intros Hc Hc'. rewrite !docPrefix_app, <- !app_assoc. intros E. apply app_inv_head in E. apply EncodeInt64_inj in E; try assumption. destruct E as [-> E].
  apply app_inv_head in E. auto.
Qed.
Lemma docKey_has_prefix c d c' : is_i64 c -> is_i64 c' -> has_prefix (docKey c d) (docPrefix c') = true <-> c = c'.
Proof.
  intros Hc Hc'. rewrite has_prefix_spec, docKey_prefix. split.
  - intros [s E]. apply docPrefix_inj in E; tauto.
  - intros ->. eexists. reflexivity.
Qed.
Lemma docKey_cmp c d c' d' : is_i64 c -> is_i64 d -> is_i64 c' -> is_i64 d' ->
  bytes_cmp (docKey c d) (docKey c' d') = then_cmp (c ?= c') (d ?= d').
Proof.
  intros Hc Hd Hc' Hd'. rewrite !docKey_app.
  rewrite bytes_cmp_app_len by reflexivity. replace (bytes_cmp CollectionPrefix CollectionPrefix) with Eq by reflexivity. cbn [then_cmp].
  rewrite EncodeInt64_cmp by assumption. f_equal. rewrite bytes_cmp_app_len by reflexivity. replace (bytes_cmp documentPrefix documentPrefix) with Eq by reflexivity. cbn [then_cmp].
  rewrite <- (app_nil_r (EncodeInt64 [] d)), <- (app_nil_r (EncodeInt64 [] d')), EncodeInt64_cmp by assumption. destruct (d ?= d'); reflexivity.
Qed.
Lemma decodeDocKey_enc c d rest : is_i64 c -> is_i64 d -> decodeDocKey (docKey c d ++ rest) = Ok (c, d).
Proof.
  intros Hc Hd. unfold decodeDocKey. rewrite docKey_app.
  replace ((length ((CollectionPrefix ++ EncodeInt64 [] c ++ documentPrefix ++ EncodeInt64 [] d) ++ rest) <? length CollectionPrefix + 8 + length documentPrefix + 8)%nat) with false
    by (symmetry; apply Nat.ltb_ge; rewrite !app_length, !EncodeInt64_length; lia).
  rewrite <- !app_assoc, has_prefix_app. cbn [negb]. rewrite skipn_app_exact by reflexivity. rewrite DecodeInt64_enc by exact Hc.
  rewrite has_prefix_app. cbn [negb]. rewrite skipn_app_exact by reflexivity. rewrite DecodeInt64_enc by exact Hd. reflexivity.
Qed.
Lemma decodeDocKey_inv key c d : decodeDocKey key = Ok (c, d) -> is_i64 c /\ is_i64 d /\ exists rest, key = docKey c d ++ rest.
Proof.
  unfold decodeDocKey. destruct (length key <? _)%nat; [discriminate|]. destruct (has_prefix key CollectionPrefix) eqn:P1; [|discriminate]. cbn [negb].
  apply has_prefix_spec in P1. destruct P1 as [k ->]. rewrite skipn_app_exact by reflexivity.
  destruct (DecodeInt64 k) as [k1 c1|e] eqn:E1; [|discriminate]. apply DecodeInt64_inv in E1. destruct E1 as [I1 ->].
  destruct (has_prefix k1 documentPrefix) eqn:P2; [|discriminate]. cbn [negb]. apply has_prefix_spec in P2. destruct P2 as [k2 ->]. rewrite skipn_app_exact by reflexivity.
  destruct (DecodeInt64 k2) as [k3 d1|e] eqn:E2; [|discriminate]. apply DecodeInt64_inv in E2. destruct E2 as [I2 ->]. intros H. inversion H. subst c1 d1.
  split; [exact I1|]. split; [exact I2|]. exists k3. rewrite docKey_app, <- !app_assoc. reflexivity.
Qed.
Lemma indexNameKey_app c n : indexNameKey c n = CollectionPrefix ++ EncodeInt64 [] c ++ indexNamePrefix ++ enc n.
Proof. unfold indexNameKey. rewrite EncodeBytes_app, (EncodeInt64_app CollectionPrefix c), <- !app_assoc. reflexivity. Qed.
Lemma decodeIndexNameKey_iff key c n : decodeIndexNameKey key = Ok (c, n) <-> is_i64 c /\ key = indexNameKey c n.
Proof.
  split.
  - unfold decodeIndexNameKey. destruct (length key <=? _)%nat; [discriminate|]. destruct (has_prefix key CollectionPrefix) eqn:P1; [|discriminate]. cbn [negb].
    apply has_prefix_spec in P1. destruct P1 as [k ->]. rewrite skipn_app_exact by reflexivity.
    destruct (DecodeInt64 k) as [k1 c1|e] eqn:E1; [|discriminate]. apply DecodeInt64_inv in E1. destruct E1 as [I1 ->].
    destruct (has_prefix k1 indexNamePrefix) eqn:P2; [|discriminate]. cbn [negb]. apply has_prefix_spec in P2. destruct P2 as [k2 ->]. rewrite skipn_app_exact by reflexivity.
    unfold DecodeBytes. destruct (decodeBytes true false k2) as [k3 n1|e] eqn:E2; [|discriminate]. apply decodeBytes_canonical in E2. subst k2.
    destruct k3; [|discriminate]. intros H. inversion H. subst c1 n1. split; [exact I1|]. rewrite indexNameKey_app, app_nil_r. reflexivity.
  - intros [Hc ->]. rewrite indexNameKey_app. unfold decodeIndexNameKey.
    replace ((length (CollectionPrefix ++ EncodeInt64 [] c ++ indexNamePrefix ++ enc n) <=? length CollectionPrefix + 8 + length indexNamePrefix)%nat) with false.
    + rewrite has_prefix_app. cbn [negb]. rewrite skipn_app_exact by reflexivity. rewrite DecodeInt64_enc by exact Hc. rewrite has_prefix_app. cbn [negb].
      rewrite skipn_app_exact by reflexivity. unfold DecodeBytes. rewrite <- (app_nil_r (enc n)). change (enc n) with (encd false n). rewrite (decodeBytes_enc true false n []). reflexivity.
    + symmetry. apply Nat.leb_gt. rewrite !app_length, !EncodeInt64_length. pose proof (enc_nonempty n). destruct (enc n); [congruence | cbn [length]; lia].
Qed.

(** ** index columns *)
Lemma enc_field_app b f : enc_field b f = b ++ enc_field [] f.
Proof. unfold enc_field, CEncodeBytes, EncodeVarint, EncodeUvarint. rewrite <- !app_assoc. reflexivity. Qed.
Lemma fold_enc_app l b : fold_left enc_field l b = b ++ concat (map (enc_field []) l).
Proof.
  revert b. induction l as [|f l IH]; intros b; cbn [fold_left map concat]; [rewrite app_nil_r; reflexivity|].
  rewrite IH, (enc_field_app b f), <- app_assoc. reflexivity.
Qed.
Lemma enc_field_inj f g x y : Z.of_nat (length (f_name f)) < two63 -> Z.of_nat (length (f_name g)) < two63 ->
  enc_field [] f ++ x = enc_field [] g ++ y -> f = g /\ x = y.
Proof.
  intros Lf Lg E. unfold enc_field, CEncodeBytes, EncodeVarint in E.
  assert (S : forall h z, (EncodeUvarint [] (if f_desc h then 1 else 0) ++ PutUvarint (zigzag (Z.of_nat (length (f_name h)))) ) ++ f_name h ++ z =
      EncodeUvarint [] (if f_desc h then 1 else 0) ++ (CEncodeBytes [] (f_name h) ++ z)).
  { intros h z. unfold CEncodeBytes, EncodeVarint. rewrite <- !app_assoc. reflexivity. }
  rewrite <- !app_assoc in E. rewrite (app_assoc (EncodeUvarint [] _)) in E. rewrite (app_assoc (EncodeUvarint [] (if f_desc g then 1 else 0))) in E. rewrite !S in E.
  assert (U : forall b : bool, is_u64 (if b then 1 else 0)) by (intros []; unfold is_u64; rewrite two64_val; lia).
  pose proof (DecodeUvarint_enc (if f_desc f then 1 else 0) (CEncodeBytes [] (f_name f) ++ x) (U _)) as D1.
  rewrite E, (DecodeUvarint_enc _ _ (U _)) in D1.
  assert (D : (if f_desc g then 1 else 0) = (if f_desc f then 1 else 0) /\ CEncodeBytes [] (f_name g) ++ y = CEncodeBytes [] (f_name f) ++ x) by (inversion D1; auto).
  destruct D as [Dd De]. pose proof (CDecodeBytes_enc (f_name f) x Lf) as D2. rewrite <- De, (CDecodeBytes_enc (f_name g) y Lg) in D2.
  destruct f as [fn fd], g as [gn gd]; cbn [f_name f_desc] in *. inversion D2. subst. split; [|reflexivity]. f_equal. destruct fd, gd; congruence.
Qed.
Lemma enc_field_nonempty f : enc_field [] f <> [].
Proof.
  unfold enc_field, CEncodeBytes, EncodeVarint, EncodeUvarint. intros E. apply (f_equal (@length byte)) in E. rewrite !app_length in E. cbn [length] in E.
  pose proof (PutUvarint_length (if f_desc f then 1 else 0)). lia.
Qed.
Definition small_names (l : list field) : Prop := Forall (fun f => Z.of_nat (length (f_name f)) < two63) l.
Lemma enc_fields_inj l : forall l', small_names l -> small_names l' -> concat (map (enc_field []) l) = concat (map (enc_field []) l') -> l = l'.
Proof.
  induction l as [|f l IH]; intros [|g l'] S S' E; cbn [map concat] in E.
  - reflexivity.
  - symmetry in E. apply app_eq_nil in E. destruct E as [E _]. destruct (enc_field_nonempty _ E).
  - apply app_eq_nil in E. destruct E as [E _]. destruct (enc_field_nonempty _ E).
  - inversion S. inversion S'. subst. apply enc_field_inj in E; try assumption. destruct E as [-> E]. f_equal. apply IH; assumption.
Qed.
Lemma columnsKey_app cid l : columnsKey cid l = CollectionPrefix ++ EncodeInt64 [] cid ++ columnsIndexedPrefix ++ concat (map (enc_field []) (norm_fields l)).
Proof. unfold columnsKey. rewrite fold_enc_app, (EncodeInt64_app CollectionPrefix cid), <- !app_assoc. reflexivity. Qed.

Lemma finsert_perm x l : Permutation (x :: l) (finsert x l).
Proof.
  induction l as [|y l IH]; cbn [finsert]; [apply Permutation_refl|]. destruct (bytes_leb (f_name x) (f_name y)); [apply Permutation_refl|].
  eapply perm_trans; [apply perm_swap | apply perm_skip; exact IH].
Qed.
Lemma fsort_perm l : Permutation l (fsort l).
Proof. induction l as [|x l IH]; [constructor|]. cbn [fsort]. eapply perm_trans; [apply perm_skip; exact IH | apply finsert_perm]. Qed.

(** Sorting by distinct names is a function of the set of fields. *)
Definition fle (a b : field) : Prop := bytes_leb (f_name a) (f_name b) = true.
Lemma bytes_leb_total a b : bytes_leb a b = true \/ bytes_leb b a = true.
Proof. unfold bytes_leb. rewrite (bytes_cmp_antisym b a). destruct (bytes_cmp b a); cbn; auto. Qed.
Lemma finsert_sorted x l : StronglySorted fle l -> StronglySorted fle (finsert x l).
Proof.
  intros S. induction S as [|y l S IH F]; cbn [finsert]; [repeat constructor|].
  destruct (bytes_leb (f_name x) (f_name y)) eqn:E.
  - constructor; [constructor; assumption|]. constructor; [exact E|]. eapply Forall_impl; [|exact F]. intros z Hz. unfold fle in *. apply bytes_leb_le in E. apply bytes_leb_le in Hz. apply bytes_leb_le. eapply bytes_le_trans; eassumption.
  - constructor; [exact IH|]. eapply (Permutation_Forall (finsert_perm x l)). constructor; [|exact F].
    unfold fle. destruct (bytes_leb_total (f_name y) (f_name x)) as [H|H]; [exact H|congruence].
Qed.
Lemma fsort_sorted l : StronglySorted fle (fsort l).
Proof. induction l as [|x l IH]; [constructor|]. apply finsert_sorted, IH. Qed.
Lemma sorted_unique l : forall l', StronglySorted fle l -> StronglySorted fle l' -> NoDup (map f_name l) -> Permutation l l' -> l = l'.
Proof.
  induction l as [|x l IH]; intros [|y l'] S S' N P.
  - reflexivity.
  - apply Permutation_length in P. discriminate P.
  - apply Permutation_length in P. discriminate P.
  - inversion S as [|? ? Sl Fl]; inversion S' as [|? ? Sl' Fl']; subst.
    assert (x = y).
    { assert (Iy : In y (x :: l)) by (apply (Permutation_in _ (Permutation_sym P)); left; reflexivity).
      assert (Ix : In x (y :: l')) by (apply (Permutation_in _ P); left; reflexivity).
      destruct Iy as [E|Iy]; [exact E|]. destruct Ix as [E|Ix]; [symmetry; exact E|].
      rewrite Forall_forall in Fl, Fl'. pose proof (Fl _ Iy) as A. pose proof (Fl' _ Ix) as B. unfold fle in A, B.
      apply bytes_leb_le in A. apply bytes_leb_le in B. pose proof (bytes_le_antisym _ _ A B) as En. cbn [map] in N. inversion N as [|? ? Nx _]. subst. exfalso. apply Nx. rewrite En. apply in_map. exact Iy. }
    subst y. f_equal. apply IH; try assumption.
    + cbn [map] in N. inversion N. assumption.
    + apply Permutation_cons_inv in P. exact P.
Qed.
Lemma fsort_ext l l' : NoDup (map f_name l) -> Permutation l l' -> fsort l = fsort l'.
Proof.
  intros N P. apply sorted_unique; try apply fsort_sorted.
  - eapply Permutation_NoDup; [|exact N]. apply Permutation_map, fsort_perm.
  - eapply perm_trans; [apply Permutation_sym, fsort_perm|]. eapply perm_trans; [exact P|]. apply fsort_perm.
Qed.
