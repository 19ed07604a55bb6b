(** C48 and the key part of C68: the key layout of the document layers. *)
From Verif Require Import Bytes SMap Memcmp MemcmpProofs Compact Provider Struct Sequence OldSequence DocKeys.
From Coq Require Import Permutation Sorted.

(** * Specification: what a key of the document layers is for *)
Inductive dkey :=
| KDoc (cid did : Z)                      (* a document *)
| KIndexData (cid : Z) (rest : bytes)     (* an entry of an index (only the prefix is fixed by the code) *)
| KColumns (cid : Z) (fields : list field)(* "these columns are indexed" *)
| KIndexName (cid : Z) (iname : bytes)    (* index name -> id *)
| KSequence (keyword : bytes)             (* an id counter *)
| KCollection (cname : bytes)             (* collection name -> id *)
| KIndex (iid : Z).                       (* index id -> definition *)
(** the key the code uses for it *)
Definition key_of (k : dkey) : bytes :=
  match k with
  | KDoc c d => docKey c d
  | KIndexData c r => indexDataPrefixOf c ++ r
  | KColumns c l => columnsKey c l
  | KIndexName c n => indexNameKey c n
  | KSequence w => EncodeMetaSequenceKey w
  | KCollection n => cnameKey n
  | KIndex i => metaIndexKey i
  end.
(** int64 ids; names of a length a Go string can have *)
Definition wf_dkey (k : dkey) : Prop :=
  match k with
  | KDoc c d => is_i64 c /\ is_i64 d
  | KIndexData c _ | KIndexName c _ => is_i64 c
  | KColumns c l => is_i64 c /\ small_names l
  | KIndex i => is_i64 i
  | _ => True
  end.
(** two column lists name the same index *)
Definition same_dkey (a b : dkey) : Prop :=
  match a, b with
  | KColumns c l, KColumns c' l' => c = c' /\ norm_fields l = norm_fields l'
  | _, _ => a = b
  end.

Lemma small_perm l l' : Permutation l l' -> small_names l -> small_names l'.
Proof. intros P. unfold small_names. apply Permutation_Forall, P. Qed.
Lemma small_norm l : small_names l -> small_names (norm_fields l).
Proof.
  intros S. destruct l as [|f [|g l]]; cbn [norm_fields]; [exact S| |].
  - inversion S. subst. constructor; [assumption|constructor].
  - eapply small_perm; [apply fsort_perm | exact S].
Qed.
Lemma columnsKey_inj c c' l l' : is_i64 c -> is_i64 c' -> small_names l -> small_names l' -> columnsKey c l = columnsKey c' l' -> c = c' /\ norm_fields l = norm_fields l'.
Proof.
  intros Hc Hc' Sl Sl'. rewrite !columnsKey_app. intros E. apply app_inv_head in E. apply EncodeInt64_inj in E; try assumption. destruct E as [-> E]. apply app_inv_head in E.
  split; [reflexivity|]. apply enc_fields_inj in E; [exact E | apply small_norm; assumption..].
Qed.
(** shape of the keys of one collection *)
Definition coll_tail (k : dkey) : option (Z * bytes) :=
  match k with
  | KDoc c d => Some (c, documentPrefix ++ EncodeInt64 [] d)
  | KIndexData c r => Some (c, indexDataPrefix ++ r)
  | KColumns c l => Some (c, columnsIndexedPrefix ++ concat (map (enc_field []) (norm_fields l)))
  | KIndexName c n => Some (c, indexNamePrefix ++ enc n)
  | _ => None
  end.
Lemma coll_tail_key k c t : coll_tail k = Some (c, t) -> key_of k = CollectionPrefix ++ EncodeInt64 [] c ++ t.
Proof.
  destruct k; cbn [coll_tail key_of]; intros E; try discriminate E; assert (E1 := f_equal (fun o => match o with Some p => fst p | None => c end) E);
    assert (E2 := f_equal (fun o => match o with Some p => snd p | None => t end) E); cbn [fst snd] in E1, E2; subst c t.
  - apply docKey_app.
  - unfold indexDataPrefixOf. rewrite (EncodeInt64_app CollectionPrefix cid), <- !app_assoc. reflexivity.
  - apply columnsKey_app.
  - apply indexNameKey_app.
Qed.

Lemma coll_tail_i64 k c t : wf_dkey k -> coll_tail k = Some (c, t) -> is_i64 c.
Proof. destruct k; cbn [coll_tail wf_dkey]; intros W E; try discriminate E; assert (E1 := f_equal (fun o => match o with Some p => fst p | None => c end) E); cbn [fst] in E1; subst c; tauto. Qed.
Lemma coll_tails_eq a b c t c' t' : wf_dkey a -> wf_dkey b -> coll_tail a = Some (c, t) -> coll_tail b = Some (c', t') -> key_of a = key_of b -> c = c' /\ t = t'.
Proof.
  intros Wa Wb Ta Tb E. rewrite (coll_tail_key _ _ _ Ta), (coll_tail_key _ _ _ Tb) in E. apply app_inv_head in E. apply EncodeInt64_inj in E; [exact E|..].
  - exact (coll_tail_i64 _ _ _ Wa Ta).
  - exact (coll_tail_i64 _ _ _ Wb Tb).
Qed.
Lemma enc_inj0 a b : enc a = enc b -> a = b.
Proof. apply enc_inj. Qed.

(** * C48 *)
(** Two keys coincide only if they are for the same thing: whatever the kinds, collections, ids, names. *)
Theorem C48_keys_never_collide : forall a b, wf_dkey a -> wf_dkey b -> (key_of a = key_of b <-> same_dkey a b).
Proof.
  intros a b Wa Wb. split.
  - intros E.
    destruct (coll_tail a) as [[c t]|] eqn:Ta, (coll_tail b) as [[c' t']|] eqn:Tb.
    + destruct (coll_tails_eq _ _ _ _ _ _ Wa Wb Ta Tb E) as [Ec Et]. subst c' t'. clear E.
      destruct a; [| | | |discriminate Ta..]; (destruct b; [| | | |discriminate Tb..]); rewrite <- Ta in Tb; clear Ta; cbn [coll_tail same_dkey wf_dkey] in *;
        assert (E1 := f_equal (fun o => match o with Some p => fst p | None => c end) Tb);
        assert (E2 := f_equal (fun o => match o with Some p => snd p | None => t end) Tb); cbn [fst snd] in E1, E2; clear Tb; subst;
        try discriminate E2; apply app_inv_head in E2.
      * pose proof (EncodeInt64_inj did0 did [] []) as I. rewrite !app_nil_r in I. destruct (I (proj2 Wb) (proj2 Wa) E2) as [-> _]. reflexivity.
      * subst. reflexivity.
      * split; [reflexivity|]. apply enc_fields_inj in E2; [symmetry; exact E2 | apply small_norm; tauto..].
      * apply enc_inj in E2. subst. reflexivity.
    + exfalso. rewrite (coll_tail_key _ _ _ Ta) in E. destruct b; discriminate Tb || discriminate E.
    + exfalso. rewrite (coll_tail_key _ _ _ Tb) in E. destruct a; discriminate Ta || discriminate E.
    + destruct a; [discriminate Ta..| | |]; (destruct b; [discriminate Tb..| | |]); try discriminate E; cbn [key_of wf_dkey same_dkey] in *.
      * unfold EncodeMetaSequenceKey in E. apply app_inv_head in E. apply app_inv_head in E. subst. reflexivity.
      * unfold cnameKey in E. rewrite !(EncodeBytes_app (MetaPrefix ++ str "_cn2id")) in E. apply app_inv_head in E. apply enc_inj in E. subst. reflexivity.
      * unfold metaIndexKey in E. rewrite (EncodeInt64_app (MetaPrefix ++ str "_i") iid), (EncodeInt64_app (MetaPrefix ++ str "_i") iid0) in E. apply app_inv_head in E.
        pose proof (EncodeInt64_inj iid iid0 [] []) as I. rewrite !app_nil_r in I. destruct (I Wa Wb E) as [-> _]. reflexivity.
  - destruct a; (destruct b); cbn [same_dkey key_of]; intros E; try discriminate E; try (inversion E; subst; reflexivity).
    destruct E as [-> E]. rewrite !columnsKey_app, E. reflexivity.
Qed.

(** No key of a collection is a key the catalogue (a Structure under the metadata prefix, whose names do not
    begin with an underscore: see meta.go:20-60) uses, and neither are the counters and name maps. *)
Lemma enc_head n name : exists t, enc (n :: name) = n :: t.
Proof.
  unfold enc, EncodeBytes. cbn [app]. rewrite Nat.add_1_r. cbn [enc_loop]. destruct (length (n :: name)); [|destruct (_ <=? _)%nat]; cbn; eauto.
Qed.
Theorem C48_catalogue_keys_disjoint : forall k n name tail,
  b2z n <> 95 -> key_of k <> EncodeBytes MetaPrefix (n :: name) ++ tail.
Proof.
  intros k n name tail Hn E. rewrite EncodeBytes_app in E. destruct (enc_head n name) as [t Et]. rewrite Et in E.
  destruct (coll_tail k) as [[c u]|] eqn:T.
  - rewrite (coll_tail_key _ _ _ T) in E. discriminate E.
  - assert (P : exists x, key_of k = MetaPrefix ++ z2b 95 :: x).
    { destruct k; try discriminate T; cbn [key_of]; eexists; unfold EncodeMetaSequenceKey, cnameKey, metaIndexKey; [reflexivity| |].
      - rewrite (EncodeBytes_app (MetaPrefix ++ str "_cn2id")), <- app_assoc. reflexivity.
      - rewrite (EncodeInt64_app (MetaPrefix ++ str "_i") iid), <- app_assoc. reflexivity. }
    destruct P as [x P]. rewrite P, <- app_assoc in E. apply app_inv_head in E. cbn [app] in E. inversion E as [[E1 E2]]. subst n. apply Hn. reflexivity.
Qed.

(** Document keys of one collection sort by id, and collections are contiguous, in id order. *)
Theorem C48_document_keys_ordered : forall c d c' d', is_i64 c -> is_i64 d -> is_i64 c' -> is_i64 d' ->
  bytes_cmp (docKey c d) (docKey c' d') = match c ?= c' with Eq => d ?= d' | o => o end.
Proof. intros. rewrite docKey_cmp by assumption. destruct (c ?= c'); reflexivity. Qed.
(** The document prefix of a collection selects exactly that collection's documents. *)
Theorem C48_document_prefix_exact : forall c k, is_i64 c -> wf_dkey k ->
  (has_prefix (key_of k) (docPrefix c) = true <-> exists d, k = KDoc c d).
Proof.
  intros c k Hc W. rewrite has_prefix_spec. split.
  - intros [x E]. rewrite docPrefix_app, <- !app_assoc in E.
    destruct (coll_tail k) as [[c' t]|] eqn:T.
    + rewrite (coll_tail_key _ _ _ T) in E. apply app_inv_head in E. apply EncodeInt64_inj in E; [|exact (coll_tail_i64 _ _ _ W T)|exact Hc]. destruct E as [-> ->].
      destruct k; cbn [coll_tail] in T; try discriminate T. exists did. inversion T. reflexivity.
    + destruct k; discriminate T || discriminate E.
  - intros [d ->]. exists (EncodeInt64 [] d). apply docKey_prefix.
Qed.

(** Decoding inverts encoding; the index-name decoder accepts nothing else. *)
Theorem C48_decoders : forall c d n, is_i64 c -> is_i64 d ->
  decodeDocKey (docKey c d) = Ok (c, d) /\ decodeIndexNameKey (indexNameKey c n) = Ok (c, n).
Proof.
  intros c d n Hc Hd. split.
  - rewrite <- (app_nil_r (docKey c d)). apply decodeDocKey_enc; assumption.
  - apply decodeIndexNameKey_iff. auto.
Qed.
Theorem C48_index_name_decoder_exact : forall key c n, decodeIndexNameKey key = Ok (c, n) -> key = indexNameKey c n.
Proof. intros key c n H. apply decodeIndexNameKey_iff in H. tauto. Qed.
(** The document-key decoder accepts exactly the keys that extend a document key ... *)
Theorem C48_document_decoder_accepts : forall key c d, decodeDocKey key = Ok (c, d) <->
  is_i64 c /\ is_i64 d /\ exists rest, key = docKey c d ++ rest.
Proof.
  intros key c d. split; [apply decodeDocKey_inv|]. intros (Hc & Hd & rest & ->). apply decodeDocKey_enc; assumption.
Qed.
(** ... so it does not reject every other key. *)
Theorem C48_document_decoder_exact_refuted : ~ (forall key c d, decodeDocKey key = Ok (c, d) -> key = docKey c d).
Proof.
  intros H. assert (I : is_i64 1) by (unfold is_i64; rewrite two63_val; lia).
  pose proof (H (docKey 1 1 ++ [z2b 0]) 1 1 (decodeDocKey_enc 1 1 [z2b 0] I I)) as E. apply (f_equal (@length byte)) in E. rewrite app_length in E. cbn [length] in E. lia.
Qed.
Example C48_nonvacuous : key_of (KDoc 7 (-3)) <> key_of (KDoc 7 3) /\ key_of (KColumns 7 []) <> key_of (KIndexData 7 []) /\
  bytes_lt (docKey 7 (-3)) (docKey 7 3) /\ bytes_lt (docKey 7 1000) (docKey 8 (-5)).
Proof. repeat split; vm_compute; congruence. Qed.

(** * C68, key part (old package) *)
(** the description of an index that matters: for a single column the direction does not *)
Definition index_columns (l : list field) : list field := match l with [f] => [Field (f_name f) false] | _ => l end.
(** Columns with distinct names: the recorded key is the same exactly for the same set of columns. *)
Theorem C68_columns_key_is_the_set_of_columns : forall c c' l l', is_i64 c -> is_i64 c' -> small_names l -> small_names l' ->
  NoDup (map f_name l) ->
  (columnsKey c l = columnsKey c' l' <-> c = c' /\ Permutation (index_columns l) (index_columns l')).
Proof.
  intros c c' l l' Hc Hc' Sl Sl' N.
  assert (NP : forall l, Permutation (index_columns l) (norm_fields l)).
  { intros [|f [|g k]]; cbn [index_columns norm_fields]; [apply Permutation_refl..|apply fsort_perm]. }
  split.
  - intros E. apply columnsKey_inj in E; try assumption. destruct E as [-> E]. split; [reflexivity|].
    eapply perm_trans; [apply NP|]. rewrite E. apply Permutation_sym, NP.
  - intros [-> P]. rewrite !columnsKey_app. f_equal. f_equal. f_equal. f_equal. f_equal.
    assert (L : length l = length l') by (apply Permutation_length in P; destruct l as [|? [|? ?]], l' as [|? [|? ?]]; cbn in P |- *; lia).
    destruct l as [|f [|g l]], l' as [|f' [|g' l']]; try discriminate L; cbn [index_columns norm_fields] in *.
    + reflexivity.
    + apply Permutation_length_1 in P. congruence.
    + apply fsort_ext; assumption.
Qed.
(** With a repeated column name the order of the duplicates still shows (the sort is by name only). *)
Theorem C68_columns_key_ignores_order_refuted : ~ (forall c l l', is_i64 c -> Permutation l l' -> columnsKey c l = columnsKey c l').
Proof.
  intros H. assert (I : is_i64 1) by (unfold is_i64; rewrite two63_val; lia).
  specialize (H 1 [Field (str "a") false; Field (str "a") true] [Field (str "a") true; Field (str "a") false] I (perm_swap _ _ _)). vm_compute in H. discriminate H.
Qed.
Example C68_nonvacuous : columnsKey 1 [Field (str "b") true; Field (str "a") false] = columnsKey 1 [Field (str "a") false; Field (str "b") true] /\
  columnsKey 1 [Field (str "b") true; Field (str "a") false] <> columnsKey 1 [Field (str "b") false; Field (str "a") false].
Proof. split; vm_compute; congruence. Qed.

Print Assumptions C48_keys_never_collide.
Print Assumptions C48_catalogue_keys_disjoint.
Print Assumptions C48_document_keys_ordered.
Print Assumptions C48_document_prefix_exact.
Print Assumptions C48_decoders.
Print Assumptions C48_index_name_decoder_exact.
Print Assumptions C48_document_decoder_accepts.
Print Assumptions C48_document_decoder_exact_refuted.
Print Assumptions C68_columns_key_is_the_set_of_columns.
Print Assumptions C68_columns_key_ignores_order_refuted.
