(** Proofs about the index catalogue of the older document package (OldIndex.v). *)
From Verif Require Import Bytes SMap Memcmp MemcmpProofs KeyModel Compact Provider ProviderProofs World Numeric UtilTxn TxPost Sequence SequenceProofs OldSequence DocKeys P_DocKeys OldDoc InsertWorld DdlSys OldInsert OldIndex.
From Coq Require Import Sorted.
Notation xK := reservedKeywordIndex.

(** * Keys *)
Lemma columns_app c l : columnsKey c l = CollectionPrefix ++ EncodeInt64 [] c ++ columnsIndexedPrefix ++ concat (map (enc_field []) (norm_fields l)).
Proof. apply columnsKey_app. Qed.
Lemma namePrefix_app c : indexNamePrefixOf c = CollectionPrefix ++ EncodeInt64 [] c ++ indexNamePrefix.
Proof. unfold indexNamePrefixOf. rewrite (EncodeInt64_app CollectionPrefix c), <- !app_assoc. reflexivity. Qed.
Lemma nameKey_prefix c n : has_prefix (indexNameKey c n) (indexNamePrefixOf c) = true.
Proof. apply has_prefix_spec. exists (enc n). rewrite indexNameKey_app, namePrefix_app, <- !app_assoc. reflexivity. Qed.
Lemma columns_no_prefix c l c' : is_i64 c -> is_i64 c' -> has_prefix (columnsKey c l) (indexNamePrefixOf c') = false.
Proof.
  intros Hc Hc'. destruct (has_prefix (columnsKey c l) (indexNamePrefixOf c')) eqn:E; [|reflexivity]. exfalso. apply has_prefix_spec in E. destruct E as [s E].
  rewrite columns_app, namePrefix_app, <- !app_assoc in E. apply app_inv_head in E. apply EncodeInt64_inj in E; [|assumption..]. destruct E as [_ E]. discriminate E.
Qed.
Lemma metaIndex_no_prefix i c : has_prefix (metaIndexKey i) (indexNamePrefixOf c) = false.
Proof. destruct (has_prefix (metaIndexKey i) (indexNamePrefixOf c)) eqn:E; [|reflexivity]. exfalso. apply has_prefix_spec in E. destruct E as [s E]. rewrite namePrefix_app, <- !app_assoc in E. unfold metaIndexKey in E. rewrite EncodeInt64_app, <- app_assoc in E. discriminate E. Qed.
Lemma seq_no_prefix K c : has_prefix (EncodeMetaSequenceKey K) (indexNamePrefixOf c) = false.
Proof. destruct (has_prefix (EncodeMetaSequenceKey K) (indexNamePrefixOf c)) eqn:E; [|reflexivity]. exfalso. apply has_prefix_spec in E. destruct E as [s E]. rewrite namePrefix_app, <- !app_assoc in E. discriminate E. Qed.
Lemma namePrefix_inj c c' n : is_i64 c -> is_i64 c' -> has_prefix (indexNameKey c' n) (indexNamePrefixOf c) = true -> c = c'.
Proof.
  intros Hc Hc' E. apply has_prefix_spec in E. destruct E as [s E]. rewrite indexNameKey_app, namePrefix_app, <- !app_assoc in E. apply app_inv_head in E. apply EncodeInt64_inj in E; [|assumption..]. symmetry. apply E.
Qed.
Lemma nameKey_inj c c' n n' : is_i64 c -> is_i64 c' -> indexNameKey c n = indexNameKey c' n' -> c = c' /\ n = n'.
Proof. intros Hc Hc' E. apply (C48_keys_never_collide (KIndexName c n) (KIndexName c' n') Hc Hc') in E. cbn in E. split; congruence. Qed.
Lemma metaIndex_inj i i' : is_i64 i -> is_i64 i' -> metaIndexKey i = metaIndexKey i' -> i = i'.
Proof. intros Hi Hi' E. apply (C48_keys_never_collide (KIndex i) (KIndex i') Hi Hi') in E. cbn in E. congruence. Qed.
Lemma name_columns c n c' l : is_i64 c -> is_i64 c' -> indexNameKey c n <> columnsKey c' l.
Proof. intros Hc Hc' E. pose proof (nameKey_prefix c n) as X. rewrite E, columns_no_prefix in X; [discriminate | assumption..]. Qed.
Lemma name_metaIndex c n i : indexNameKey c n <> metaIndexKey i.
Proof. intros E. pose proof (nameKey_prefix c n) as X. rewrite E, metaIndex_no_prefix in X. discriminate. Qed.
Lemma columns_metaIndex c l i : columnsKey c l <> metaIndexKey i.
Proof. rewrite columns_app. unfold metaIndexKey. rewrite EncodeInt64_app, <- app_assoc. discriminate. Qed.
Lemma name_seq K c n : indexNameKey c n <> EncodeMetaSequenceKey K.
Proof. intros E. pose proof (nameKey_prefix c n) as X. rewrite E, seq_no_prefix in X. discriminate. Qed.
Lemma columns_seq K c l : columnsKey c l <> EncodeMetaSequenceKey K.
Proof. rewrite columns_app. discriminate. Qed.
Lemma metaIndex_seq K i : is_i64 i -> metaIndexKey i <> EncodeMetaSequenceKey K.
Proof. intros Hi E. apply (C48_keys_never_collide (KIndex i) (KSequence K) Hi I) in E. discriminate E. Qed.
Lemma name_nonempty c n : indexNameKey c n <> [].
Proof. rewrite indexNameKey_app. discriminate. Qed.
Lemma columns_nonempty c l : columnsKey c l <> [].
Proof. rewrite columns_app. discriminate. Qed.
Lemma metaIndex_nonempty i : metaIndexKey i <> [].
Proof. unfold metaIndexKey. rewrite EncodeInt64_app, <- app_assoc. discriminate. Qed.
Lemma varint_inj a b : is_i64 a -> is_i64 b -> EncodeVarint [] a = EncodeVarint [] b -> a = b.
Proof. intros Ha Hb E. pose proof (DecodeVarint_enc a [] Ha) as X. rewrite app_nil_r, E, <- (app_nil_r (EncodeVarint [] b)), (DecodeVarint_enc b [] Hb) in X. congruence. Qed.

(** * Rows *)
Section proofs.
Context (bm : idef -> bytes) (bu : bytes -> option idef) (OK : bson_ok bm bu).
Definition rows := Z -> bytes -> option (Z * idef).
Record catalog (m : smap ent) (R : rows) : Prop := {
  ct_name : forall c n, is_i64 c -> get m (indexNameKey c n) = option_map (fun p => mk (EncodeVarint [] (fst p))) (R c n);
  ct_row : forall c n i x, is_i64 c -> R c n = Some (i, x) ->
    is_i64 i /\ i_name x = n /\ n <> [] /\ small_names (i_fields x) /\
    get m (metaIndexKey i) = Some (mk (bm x)) /\ get m (columnsKey c (i_fields x)) = Some (mk n);
  ct_one : forall c n i x c' n' x', is_i64 c -> is_i64 c' -> R c n = Some (i, x) -> R c' n' = Some (i, x') -> c = c' /\ n = n';
  ct_only : forall c k e, is_i64 c -> get m k = Some e -> has_prefix k (indexNamePrefixOf c) = true -> exists n, k = indexNameKey c n }.
(** nothing else is left in the store *)
Definition no_orphan (m : smap ent) (R : rows) : Prop :=
  (forall c l e, is_i64 c -> small_names l -> get m (columnsKey c l) = Some e -> exists n i x, R c n = Some (i, x) /\ norm_fields (i_fields x) = norm_fields l) /\
  (forall i e, is_i64 i -> get m (metaIndexKey i) = Some e -> exists c n x, is_i64 c /\ R c n = Some (i, x)).
Definition rset (R : rows) (cid : Z) (n : bytes) (v : option (Z * idef)) : rows := fun c m => if (c =? cid) && bytes_eqb m n then v else R c m.
Lemma rset_eq R c n v : rset R c n v c n = v.
Proof. unfold rset. rewrite Z.eqb_refl, bytes_eqb_refl. reflexivity. Qed.
Lemma rset_ne R c n v c' n' : (c', n') <> (c, n) -> rset R c n v c' n' = R c' n'.
Proof. intros N. unfold rset. destruct ((c' =? c) && bytes_eqb n' n) eqn:E; [|reflexivity]. apply andb_prop in E. destruct E as [E1 E2]. apply Z.eqb_eq in E1. apply bytes_eqb_eq in E2. congruence. Qed.
Lemma rset_cases R c n v c' n' : (c' = c /\ n' = n /\ rset R c n v c' n' = v) \/ ((c', n') <> (c, n) /\ rset R c n v c' n' = R c' n').
Proof.
  destruct (Z.eq_dec c' c) as [->|N]; [destruct (list_eq_dec Byte.byte_eq_dec n' n) as [->|N2]|].
  - left. rewrite rset_eq. auto.
  - right. split; [congruence | apply rset_ne; congruence].
  - right. split; [congruence | apply rset_ne; congruence].
Qed.
(** what the commit of a CreateIndex or DropIndex does to the store *)
Definition three (m m' : smap ent) (cid : Z) (n : bytes) (iid : Z) (l : list field) (vn vm vc : option ent) : Prop :=
  forall k, get m' k = if bytes_eqb k (metaIndexKey iid) then vm else if bytes_eqb k (indexNameKey cid n) then vn else if bytes_eqb k (columnsKey cid l) then vc else get m k.
Lemma three_name m m' cid n iid l vn vm vc c' n' : three m m' cid n iid l vn vm vc -> is_i64 cid -> is_i64 c' ->
  get m' (indexNameKey c' n') = if (c' =? cid) && bytes_eqb n' n then vn else get m (indexNameKey c' n').
Proof.
  intros T Hc Hc'. rewrite T. rewrite (proj2 (bytes_eqb_neq _ _) (name_metaIndex c' n' iid)), (proj2 (bytes_eqb_neq _ _) (name_columns c' n' cid l Hc' Hc)).
  destruct (bytes_eqb (indexNameKey c' n') (indexNameKey cid n)) eqn:E.
  - apply bytes_eqb_eq in E. destruct (nameKey_inj c' cid n' n Hc' Hc E) as [-> ->]. rewrite Z.eqb_refl, bytes_eqb_refl. reflexivity.
  - destruct ((c' =? cid) && bytes_eqb n' n) eqn:E2; [|reflexivity]. apply andb_prop in E2. destruct E2 as [E1 E2]. apply Z.eqb_eq in E1. apply bytes_eqb_eq in E2. subst. rewrite bytes_eqb_refl in E. discriminate.
Qed.
Lemma three_meta m m' cid n iid l vn vm vc i : three m m' cid n iid l vn vm vc -> is_i64 iid -> is_i64 i ->
  get m' (metaIndexKey i) = if i =? iid then vm else get m (metaIndexKey i).
Proof.
  intros T Hi Hi'. rewrite T. rewrite (proj2 (bytes_eqb_neq (metaIndexKey i) (indexNameKey cid n)) (fun E => name_metaIndex cid n i (eq_sym E))), (proj2 (bytes_eqb_neq (metaIndexKey i) (columnsKey cid l)) (fun E => columns_metaIndex cid l i (eq_sym E))).
  destruct (Z.eqb_spec i iid) as [->|N]; [rewrite bytes_eqb_refl; reflexivity|]. rewrite (proj2 (bytes_eqb_neq (metaIndexKey i) (metaIndexKey iid)) (fun E => N (metaIndex_inj _ _ Hi' Hi E))). reflexivity.
Qed.
Lemma three_columns m m' cid n iid l vn vm vc c' l' : three m m' cid n iid l vn vm vc -> is_i64 cid -> is_i64 c' ->
  get m' (columnsKey c' l') = if bytes_eqb (columnsKey c' l') (columnsKey cid l) then vc else get m (columnsKey c' l').
Proof.
  intros T Hc Hc'. rewrite T. rewrite (proj2 (bytes_eqb_neq _ _) (columns_metaIndex c' l' iid)), (proj2 (bytes_eqb_neq (columnsKey c' l') (indexNameKey cid n)) (fun E => name_columns cid n c' l' Hc Hc' (eq_sym E))). reflexivity.
Qed.
Lemma three_only m m' cid n iid l vn vm vc R : three m m' cid n iid l vn vm vc -> is_i64 cid -> catalog m R ->
  forall c k e, is_i64 c -> get m' k = Some e -> has_prefix k (indexNamePrefixOf c) = true -> exists n, k = indexNameKey c n.
Proof.
  intros T Hc Ct c k e Hc' G P. rewrite T in G.
  destruct (bytes_eqb k (metaIndexKey iid)) eqn:E1; [apply bytes_eqb_eq in E1; subst k; rewrite metaIndex_no_prefix in P; discriminate|].
  destruct (bytes_eqb k (indexNameKey cid n)) eqn:E2; [apply bytes_eqb_eq in E2; subst k; exists n; rewrite (namePrefix_inj c cid n Hc' Hc P); reflexivity|].
  destruct (bytes_eqb k (columnsKey cid l)) eqn:E3; [apply bytes_eqb_eq in E3; subst k; rewrite columns_no_prefix in P; [discriminate | assumption..]|].
  exact (ct_only _ _ Ct c k e Hc' G P).
Qed.
(** CreateIndex commits: its columns belong to no row, its id to none *)
Lemma catalog_put m m' R cid x iid : catalog m R -> is_i64 cid -> is_i64 iid -> i_name x <> [] -> small_names (i_fields x) ->
  (forall n, n <> [] -> get m (columnsKey cid (i_fields x)) <> Some (mk n)) ->
  (forall c n y, is_i64 c -> R c n <> Some (iid, y)) ->
  three m m' cid (i_name x) iid (i_fields x) (Some (mk (EncodeVarint [] iid))) (Some (mk (bm x))) (Some (mk (i_name x))) ->
  catalog m' (rset R cid (i_name x) (Some (iid, x))).
Proof.
  intros Ct Hc Hi Nn Sm Ncol Fr T. destruct Ct as [C1 C2 C3 C4]. split.
  - intros c n Hc'. rewrite (three_name _ _ _ _ _ _ _ _ _ c n T Hc Hc'). unfold rset. destruct ((c =? cid) && bytes_eqb n (i_name x)); [reflexivity | apply C1; exact Hc'].
  - intros c n i y Hc' E. destruct (rset_cases R cid (i_name x) (Some (iid, x)) c n) as [(-> & -> & X)|[N X]]; rewrite X in E.
    + inversion E. subst i y. split; [exact Hi|]. split; [reflexivity|]. split; [exact Nn|]. split; [exact Sm|].
      rewrite (three_meta _ _ _ _ _ _ _ _ _ iid T Hi Hi), Z.eqb_refl, (three_columns _ _ _ _ _ _ _ _ _ cid (i_fields x) T Hc Hc), bytes_eqb_refl. auto.
    + destruct (C2 c n i y Hc' E) as (R1 & R2 & R3 & R4 & R5 & R6). split; [exact R1|]. split; [exact R2|]. split; [exact R3|]. split; [exact R4|]. split.
      * rewrite (three_meta _ _ _ _ _ _ _ _ _ i T Hi R1). destruct (Z.eqb_spec i iid) as [->|Ni]; [destruct (Fr c n y Hc' E) | exact R5].
      * rewrite (three_columns _ _ _ _ _ _ _ _ _ c (i_fields y) T Hc Hc'). destruct (bytes_eqb (columnsKey c (i_fields y)) (columnsKey cid (i_fields x))) eqn:Ek; [|exact R6].
        apply bytes_eqb_eq in Ek. rewrite Ek in R6. destruct (Ncol n R3 R6).
  - intros c n i y c' n' y' Hc1 Hc2 E1 E2. destruct (rset_cases R cid (i_name x) (Some (iid, x)) c n) as [(-> & -> & X)|[N X]]; rewrite X in E1;
      (destruct (rset_cases R cid (i_name x) (Some (iid, x)) c' n') as [(-> & -> & X')|[N' X']]; rewrite X' in E2).
    + auto.
    + inversion E1. subst i. destruct (Fr c' n' y' Hc2 E2).
    + inversion E2. subst i. destruct (Fr c n y Hc1 E1).
    + exact (C3 c n i y c' n' y' Hc1 Hc2 E1 E2).
  - eapply three_only; [exact T | exact Hc | split; eassumption].
Qed.
Lemma no_orphan_put m m' R cid x iid : no_orphan m R -> is_i64 cid -> is_i64 iid -> small_names (i_fields x) -> R cid (i_name x) = None ->
  three m m' cid (i_name x) iid (i_fields x) (Some (mk (EncodeVarint [] iid))) (Some (mk (bm x))) (Some (mk (i_name x))) ->
  no_orphan m' (rset R cid (i_name x) (Some (iid, x))).
Proof.
  intros [B1 B2] Hc Hi Sm Nr T. split.
  - intros c l e Hc' Sl G. rewrite (three_columns _ _ _ _ _ _ _ _ _ c l T Hc Hc') in G. destruct (bytes_eqb (columnsKey c l) (columnsKey cid (i_fields x))) eqn:Ek.
    + apply bytes_eqb_eq in Ek. destruct (columnsKey_inj c cid l (i_fields x) Hc' Hc Sl Sm Ek) as [-> En]. exists (i_name x), iid, x. rewrite rset_eq. auto.
    + destruct (B1 c l e Hc' Sl G) as (n & i & y & Ry & En). exists n, i, y. split; [|exact En]. rewrite rset_ne; [exact Ry | intros X; inversion X; subst; congruence].
  - intros i e Hi' G. rewrite (three_meta _ _ _ _ _ _ _ _ _ i T Hi Hi') in G. destruct (Z.eqb_spec i iid) as [->|Ni].
    + exists cid, (i_name x), x. rewrite rset_eq. auto.
    + destruct (B2 i e Hi' G) as (c & n & y & Hc' & Ry). exists c, n, y. split; [exact Hc'|]. rewrite rset_ne; [exact Ry | intros X; inversion X; subst; congruence].
Qed.
(** DropIndex commits the removal of a row it has read *)
Lemma catalog_drop m m' R cid n x iid : catalog m R -> is_i64 cid -> R cid n = Some (iid, x) ->
  three m m' cid n iid (i_fields x) None None None -> catalog m' (rset R cid n None).
Proof.
  intros Ct Hc Rn T. pose proof Ct as [C1 C2 C3 C4]. destruct (C2 cid n iid x Hc Rn) as (Hi & _ & _ & Sm & _ & Col). split.
  - intros c n' Hc'. rewrite (three_name _ _ _ _ _ _ _ _ _ c n' T Hc Hc'). unfold rset. destruct ((c =? cid) && bytes_eqb n' n); [reflexivity | apply C1; exact Hc'].
  - intros c n' i y Hc' E. destruct (rset_cases R cid n None c n') as [(-> & -> & X)|[N X]]; rewrite X in E; [discriminate|].
    destruct (C2 c n' i y Hc' E) as (R1 & R2 & R3 & R4 & R5 & R6). split; [exact R1|]. split; [exact R2|]. split; [exact R3|]. split; [exact R4|]. split.
    + rewrite (three_meta _ _ _ _ _ _ _ _ _ i T Hi R1). destruct (Z.eqb_spec i iid) as [->|Ni]; [|exact R5]. destruct (C3 c n' iid y cid n x Hc' Hc E Rn). congruence.
    + rewrite (three_columns _ _ _ _ _ _ _ _ _ c (i_fields y) T Hc Hc'). destruct (bytes_eqb (columnsKey c (i_fields y)) (columnsKey cid (i_fields x))) eqn:Ek; [|exact R6].
      apply bytes_eqb_eq in Ek. destruct (columnsKey_inj c cid _ _ Hc' Hc R4 Sm Ek) as [-> _]. rewrite Ek, Col in R6. unfold mk in R6. congruence.
  - intros c n1 i y c' n2 y' Hc1 Hc2 E1 E2. destruct (rset_cases R cid n None c n1) as [(-> & -> & X)|[N X]]; rewrite X in E1; [discriminate|].
    destruct (rset_cases R cid n None c' n2) as [(-> & -> & X')|[N' X']]; rewrite X' in E2; [discriminate|]. exact (C3 c n1 i y c' n2 y' Hc1 Hc2 E1 E2).
  - eapply three_only; [exact T | exact Hc | exact Ct].
Qed.
Lemma no_orphan_drop m m' R cid n x iid : catalog m R -> no_orphan m R -> is_i64 cid -> R cid n = Some (iid, x) ->
  three m m' cid n iid (i_fields x) None None None -> no_orphan m' (rset R cid n None).
Proof.
  intros Ct [B1 B2] Hc Rn T. destruct (ct_row _ _ Ct cid n iid x Hc Rn) as (Hi & _ & _ & Sm & _ & Col). split.
  - intros c l e Hc' Sl G. rewrite (three_columns _ _ _ _ _ _ _ _ _ c l T Hc Hc') in G. destruct (bytes_eqb (columnsKey c l) (columnsKey cid (i_fields x))) eqn:Ek; [discriminate|].
    destruct (B1 c l e Hc' Sl G) as (n' & i & y & Ry & En). exists n', i, y. split; [|exact En]. rewrite rset_ne; [exact Ry|]. intros X. inversion X. subst c n'.
    apply bytes_eqb_neq in Ek. apply Ek. rewrite Rn in Ry. inversion Ry. subst i y. unfold columnsKey. rewrite En. reflexivity.
  - intros i e Hi' G. rewrite (three_meta _ _ _ _ _ _ _ _ _ i T Hi Hi') in G. destruct (Z.eqb_spec i iid) as [->|Ni]; [discriminate|].
    destruct (B2 i e Hi' G) as (c & n' & y & Hc' & Ry). exists c, n', y. split; [exact Hc'|]. rewrite rset_ne; [exact Ry|]. intros X. inversion X. subst. congruence.
Qed.
(** a store with the same index keys *)
Definition same_keys (m m' : smap ent) : Prop :=
  (forall c k, is_i64 c -> has_prefix k (indexNamePrefixOf c) = true -> get m' k = get m k) /\
  (forall c l, is_i64 c -> get m' (columnsKey c l) = get m (columnsKey c l)) /\ (forall i, is_i64 i -> get m' (metaIndexKey i) = get m (metaIndexKey i)).
Lemma catalog_same m m' R : same_keys m m' -> catalog m R -> catalog m' R.
Proof.
  intros (S1 & S2 & S3) [C1 C2 C3 C4]. split; [|intros c n i x Hc E|exact C3|].
  - intros c n Hc. rewrite (S1 c _ Hc (nameKey_prefix c n)). apply C1. exact Hc.
  - destruct (C2 c n i x Hc E) as (R1 & R2 & R3 & R4 & R5 & R6). rewrite S2, S3; auto 10.
  - intros c k e Hc G P. rewrite (S1 c k Hc P) in G. exact (C4 c k e Hc G P).
Qed.
Lemma no_orphan_same m m' R : same_keys m m' -> no_orphan m R -> no_orphan m' R.
Proof. intros (S1 & S2 & S3) [B1 B2]. split; [intros c l e Hc Sl; rewrite S2 by exact Hc; apply B1; assumption | intros i e Hi; rewrite S3 by exact Hi; apply B2; exact Hi]. Qed.

(** * getIndexes *)
Lemma nameKey_cmp c n n' : bytes_cmp (indexNameKey c n) (indexNameKey c n') = bytes_cmp n n'.
Proof.
  rewrite !indexNameKey_app, !app_assoc. rewrite bytes_cmp_app_len by reflexivity. rewrite (proj2 (bytes_cmp_eq _ _) eq_refl). cbn [then_cmp].
  rewrite <- (app_nil_r (enc n)), <- (app_nil_r (enc n')), enc_cmp. destruct (bytes_cmp n n'); reflexivity.
Qed.
Lemma Forall2_flip {A B} (P : A -> B -> Prop) l l' : Forall2 P l l' -> Forall2 (fun b a => P a b) l' l.
Proof. induction 1; constructor; assumption. Qed.
Lemma gi_loop M R c : is_i64 c ->
  (forall n i x, R c n = Some (i, x) -> is_i64 i /\ get M (metaIndexKey i) = Some (mk (bm x))) ->
  forall (L : list (bytes * ent)) acc,
  (forall k e, In (k, e) L -> exists n i x, k = indexNameKey c n /\ R c n = Some (i, x) /\ e = mk (EncodeVarint [] i)) ->
  exists l, spec false (scan_loop L (gi_cb bu c) (acc, None)) M (Ok (acc ++ l, None)) M /\
    Forall2 (fun p x => exists n i, fst p = indexNameKey c n /\ R c n = Some (i, x)) L l.
Proof.
  intros Hc HR. induction L as [|[k e] L IH]; intros acc HL.
  - exists []. rewrite app_nil_r. split; [apply spec_ret | constructor].
  - destruct (HL k e (or_introl eq_refl)) as (n & i & x & -> & Rn & ->). destruct (HR n i x Rn) as [Hi Gm].
    destruct (IH (acc ++ [x])) as (l & Sp & F); [intros k' e' H; apply HL; right; exact H|]. exists (x :: l). split; [|constructor; [exists n, i; auto | exact F]].
    rewrite <- app_assoc in Sp. eapply DmlProofs.spec_scan_cons with (b := true); [|exact Sp].
    unfold gi_cb. rewrite (proj2 (decodeIndexNameKey_iff _ c n) (conj Hc eq_refl)), Z.eqb_refl. cbn [negb mk e_val fst].
    rewrite <- (app_nil_r (EncodeVarint [] i)), (DecodeVarint_enc i [] Hi). cbv iota.
    eapply spec_try; [apply spec_tget; apply metaIndex_nonempty | rewrite Gm; discriminate|]. rewrite Gm. cbn [mk e_val]. rewrite (OK x). apply spec_ret.
Qed.
Lemma getIndexes_lists d R c : catalog (d_kv d) R -> is_i64 c ->
  exists l, run_view d (getIndexes bu c) = Ok l /\ listing (fun n => option_map snd (R c n)) l.
Proof.
  intros Ct Hc. set (M := view (new_txn d false [])). set (L := filter (fun p => has_prefix (fst p) (indexNamePrefixOf c)) (entries M)).
  assert (GM : forall k v, get (d_kv d) k = Some (mk v) -> get M k = Some (mk v)) by (intros k v G; exact (get_view_fresh d false [] k (Some v) G)).
  assert (GM' : forall k e, get M k = Some e -> get (d_kv d) k = Some e).
  { intros k e. unfold M. rewrite get_view. cbn [new_txn t_pend t_snap]. rewrite get_empty. destruct (get (d_kv d) k) as [e0|]; [|discriminate]. destruct (live _ e0); [congruence | discriminate]. }
  assert (HL : forall k e, In (k, e) L -> exists n i x, k = indexNameKey c n /\ R c n = Some (i, x) /\ e = mk (EncodeVarint [] i)).
  { intros k e H. apply filter_In in H. destruct H as [H P]. cbn [fst] in P. apply get_in, GM' in H. destruct (ct_only _ _ Ct c k e Hc H P) as [n ->].
    rewrite (ct_name _ _ Ct c n Hc) in H. destruct (R c n) as [[i x]|] eqn:E; [|discriminate]. cbn [option_map fst] in H. exists n, i, x. split; [reflexivity|]. split; [exact E | congruence]. }
  destruct (gi_loop M R c Hc) with (L := L) (acc := @nil idef) as (l & Sp & F).
  - intros n i x E. destruct (ct_row _ _ Ct c n i x Hc E) as (Hi & _ & _ & _ & Gm & _). split; [exact Hi | apply GM; exact Gm].
  - exact HL.
  - exists l. split.
    + assert (S2 : spec false (getIndexes bu c) M (Ok l) M).
      { unfold getIndexes. eapply spec_bind; [eapply spec_tscan; [apply scan_prefix | exact Sp]|]. cbn [snd fst app]. apply spec_ret. }
      unfold run_view. destruct (S2 (new_txn d false []) (okt_new d false [] (fun _ => eq_refl)) eq_refl) as (t' & -> & _). reflexivity.
    + split.
      * assert (SL : sortedb L = true) by (apply sorted_filter, sm_ok). clear -F SL Ct Hc OK. revert SL. induction F as [|[k e] x L l (n & i & Ek & En) F IH]; intros SL; [constructor|].
        apply sortedb_cons in SL. destruct SL as [S1 S2]. constructor; [apply IH; exact S2|]. apply Forall_forall. intros y Hy.
        apply (Forall2_flip) in F. assert (exists p, In p L /\ exists n i, fst p = indexNameKey c n /\ R c n = Some (i, y)) as (p & Hp & n' & i' & Ep & En').
        { clear -F Hy. induction F as [|y0 p l L H F IH]; [destruct Hy|]. destruct Hy as [<-|Hy]; [exists p; split; [left; reflexivity | exact H] | destruct (IH Hy) as (q & Hq & X); exists q; split; [right; exact Hq | exact X]]. }
        destruct p as [k' e']. cbn [fst] in *. pose proof (S1 k' e' Hp) as Lt. subst k k'. unfold bytes_lt in *. rewrite nameKey_cmp in Lt.
        destruct (ct_row _ _ Ct c n i x Hc En) as (_ & -> & _). destruct (ct_row _ _ Ct c n' i' y Hc En') as (_ & -> & _). exact Lt.
      * intros x. split.
        -- intros Hx. apply Forall2_flip in F. assert (exists p, In p L /\ exists n i, fst p = indexNameKey c n /\ R c n = Some (i, x)) as (p & Hp & n & i & Ep & En).
           { clear -F Hx. induction F as [|y0 p l L H F IH]; [destruct Hx|]. destruct Hx as [<-|Hy]; [exists p; split; [left; reflexivity | exact H] | destruct (IH Hy) as (q & Hq & X); exists q; split; [right; exact Hq | exact X]]. }
           destruct (ct_row _ _ Ct c n i x Hc En) as (_ & -> & _). rewrite En. reflexivity.
        -- intros Hx. destruct (R c (i_name x)) as [[i y]|] eqn:E; [|discriminate]. cbn in Hx. inversion Hx. subst y.
           assert (Hp : In (indexNameKey c (i_name x), mk (EncodeVarint [] i)) L).
           { apply filter_In. split; [|apply nameKey_prefix]. apply get_in, GM. rewrite (ct_name _ _ Ct c (i_name x) Hc), E. reflexivity. }
           clear -F Hp E Hc. induction F as [|p y L l (n & j & Ep & En) F IH]; [destruct Hp|]. destruct Hp as [->|Hp]; [|right; exact (IH Hp)].
           left. cbn [fst] in Ep. destruct (nameKey_inj c c _ _ Hc Hc Ep) as [_ <-]. congruence.
Qed.
End proofs.
