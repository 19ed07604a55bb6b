(** Invariant of the index catalogue (OldIndex.v) under any schedule. *)
From Verif Require Import Bytes SMap Memcmp MemcmpProofs KeyModel Compact Provider ProviderProofs World Numeric UtilTxn TxPost Sequence SequenceProofs OldSequence DocKeys P_DocKeys OldDoc InsertWorld DdlSys OldInsert OldIndex OldIndexProofs.
From Coq Require Import Sorted.

(** * What histories are allowed to do *)
(** Other transactions leave the index id counter and the index keys alone; CreateIndex is not hit by the store
    refusing its second Set (whose error it does not look at). [strict]: and no index name is created again while it
    is in the catalogue. *)
Definition x_allowed (strict : bool) (C : cat) (w : xworld) (e : xev) : Prop :=
  match e with
  | XCreate _ cid x lim => is_i64 cid /\ small_names (i_fields x) /\ nth 1 lim false = false
  | XDrop _ cid _ _ | XOpen _ cid => is_i64 cid
  | XPut n _ => strict = true -> match nth_error (xw_has w) n with Some (c, _) => C (xc_cid c) (i_name (xc_def c)) = None | None => True end
  | XOther t _ => get (t_pend t) (EncodeMetaSequenceKey xK) = None /\
      (forall c k, is_i64 c -> has_prefix k (indexNamePrefixOf c) = true -> get (t_pend t) k = None) /\
      (forall c l, is_i64 c -> get (t_pend t) (columnsKey c l) = None) /\ (forall i, is_i64 i -> get (t_pend t) (metaIndexKey i) = None)
  | _ => True
  end.
Fixpoint xallowed (bm : idef -> bytes) (bu : bytes -> option idef) (strict : bool) (C : cat) (w : xworld) (es : list xev) : Prop :=
  match es with
  | [] => True
  | e :: es' => x_allowed strict C w e /\ xallowed bm bu strict (cat_step C (snd (xstep bm bu w e))) (fst (xstep bm bu w e)) es'
  end.
(** a store without indexes, whose index id counter is at c0 *)
Definition no_index (d : db) : Prop :=
  (forall c k, is_i64 c -> has_prefix k (indexNamePrefixOf c) = true -> get (d_kv d) k = None) /\
  (forall c l, is_i64 c -> get (d_kv d) (columnsKey c l) = None) /\ (forall i, is_i64 i -> get (d_kv d) (metaIndexKey i) = None).

Lemma name_key_err c n : key_err (indexNameKey c n) = None.
Proof. rewrite indexNameKey_app. reflexivity. Qed.
Lemma columns_key_err c l : key_err (columnsKey c l) = None.
Proof. rewrite columns_app. reflexivity. Qed.
Lemma metaIndex_key_err i : key_err (metaIndexKey i) = None.
Proof. unfold metaIndexKey. rewrite EncodeInt64_app, <- app_assoc. reflexivity. Qed.
Lemma tset_runs k v t l : t_upd t = true -> t_open t = true -> key_err k = None -> t_lim t = l -> hd false l = false -> tset k v t = (put k (Some (mk v)) (tl l) t, Ok tt).
Proof. intros U O Ke L H. unfold tset, tsetm, map_err, modify. rewrite U, O, Ke, L. cbn [negb entry_of]. destruct l as [|[|] l]; [reflexivity | discriminate | reflexivity]. Qed.
Lemma tdel_ok k t t' a : tdel k t = (t', Ok a) -> exists l, t' = put k None l t.
Proof. intros H. unfold tdel in H. destruct (modify_post _ _ _ _ _ H) as [[_ X]|(e & X & _)]; [exact X | discriminate]. Qed.
Lemma nodup_drop {A B} (f : A -> B) l : forall n, NoDup (map f l) -> NoDup (map f (drop_nth n l)).
Proof.
  induction l as [|a l IH]; intros [|n] N; cbn [drop_nth map] in *; auto; inversion N; subst; auto. constructor; [|apply IH; assumption].
  intros X. apply in_map_iff in X. destruct X as (y & E & X). apply drop_in in X. apply (in_map f) in X. rewrite E in X. contradiction.
Qed.
Lemma nodup_taken {A B} (f : A -> B) l : forall n a, nth_error l n = Some a -> NoDup (map f l) -> ~ In (f a) (map f (drop_nth n l)).
Proof.
  induction l as [|b l IH]; intros [|n] a E N; cbn [nth_error drop_nth map] in *; try discriminate.
  - inversion E. subst. inversion N. assumption.
  - inversion N. subst. intros [X|X]; [|eapply IH; eassumption]. apply nth_error_In in E. apply (in_map f) in E. rewrite <- X in E. contradiction.
Qed.

Section proofs.
Context (bm : idef -> bytes) (bu : bytes -> option idef) (OK : bson_ok bm bu).
Notation BW := indexIDBandWidth.
Notation catalog := (catalog bm).
(** a CreateIndex that passed its check *)
Record call_ok (d : db) (c : xcall) : Prop := {
  co_cid : is_i64 (xc_cid c);
  co_small : small_names (i_fields (xc_def c));
  co_name : i_name (xc_def c) <> [];
  co_upd : t_upd (xc_t c) = true;
  co_open : t_open (xc_t c) = true;
  co_lim : nth 1 (t_lim (xc_t c)) false = false;
  co_pend : t_pend (xc_t c) = empty;
  co_tx : tx_ok d (xc_t c);
  co_read : In (columnsKey (xc_cid c) (i_fields (xc_def c))) (t_reads (xc_t c));
  co_free : forall n, n <> [] -> get (t_snap (xc_t c)) (columnsKey (xc_cid c) (i_fields (xc_def c))) <> Some (mk n) }.
(** a DropIndex about to commit *)
Record drop_ok (d : db) (x : xdrop) : Prop := {
  do_cid : is_i64 (xd_cid x);
  do_tx : tx_ok d (xd_t x);
  do_name : i_name (xd_def x) = xd_name x;
  do_row : exists iid, is_i64 iid /\
    In (indexNameKey (xd_cid x) (xd_name x)) (t_reads (xd_t x)) /\ In (metaIndexKey iid) (t_reads (xd_t x)) /\
    get (t_snap (xd_t x)) (indexNameKey (xd_cid x) (xd_name x)) = Some (mk (EncodeVarint [] iid)) /\
    get (t_snap (xd_t x)) (metaIndexKey iid) = Some (mk (bm (xd_def x))) /\
    forall k, get (t_pend (xd_t x)) k = if bytes_eqb k (metaIndexKey iid) then Some None else if bytes_eqb k (indexNameKey (xd_cid x) (xd_name x)) then Some None
                                        else if bytes_eqb k (columnsKey (xd_cid x) (i_fields (xd_def x))) then Some None else None }.
Lemma call_ok_mono d d' c : (forall t, tx_ok d t -> tx_ok d' t) -> call_ok d c -> call_ok d' c.
Proof. intros M []. split; auto. Qed.
Lemma drop_ok_mono d d' x : (forall t, tx_ok d t -> tx_ok d' t) -> drop_ok d x -> drop_ok d' x.
Proof. intros M []. split; auto. Qed.
Record xinv (strict : bool) (rem : Z) (w : xworld) (used : list Z) (c : Z) (R : rows) : Prop := {
  xi_o : oinv BW xK rem (xw_o w) used c;
  xi_c : c + BW * rem < two63;
  xi_pos : forall v, In v used -> 0 <= v;
  xi_cat : catalog (d_kv (xw_db w)) R;
  xi_ids : forall cid n i x, is_i64 cid -> R cid n = Some (i, x) -> In i used;
  xi_nd : NoDup (map snd (xw_has w));
  xi_has : forall k i, In (k, i) (xw_has w) -> In i used /\ call_ok (xw_db w) k /\ forall cid n x, is_i64 cid -> R cid n <> Some (i, x);
  xi_beg : forall k, In k (xw_beg w) -> call_ok (xw_db w) k;
  xi_wait : forall i k, xw_wait w i = Some k -> call_ok (xw_db w) k;
  xi_drop : forall x, In x (xw_drop w) -> drop_ok (xw_db w) x;
  xi_orphan : strict = true -> no_orphan (d_kv (xw_db w)) R }.

Lemma xinv_rem strict rem w used c R : 0 <= rem -> xinv strict (rem + 1) w used c R -> xinv strict rem w used c R.
Proof. intros Hr []. split; auto; [apply oinv_rem; [reflexivity | exact Hr | assumption] | unfold BW in *; lia]. Qed.
(** a step of the store or the sequences which leaves the index keys alone *)
Lemma xinv_o strict rem w used c R oe : 0 <= rem -> xinv strict (rem + 1) w used c R -> o_allowed BW xK oe ->
  match oe with OForeign _ _ => same_keys (d_kv (xw_db w)) (d_kv (ow_db (fst (ostep xK (xw_o w) oe)))) | _ => True end ->
  (forall v, In v (ids1 (snd (ostep xK (xw_o w) oe))) -> ~ In v used /\ 0 <= v < two63) /\
  exists c', xinv strict rem (xset_o w (fst (ostep xK (xw_o w) oe))) (ids1 (snd (ostep xK (xw_o w) oe)) ++ used) c' R.
Proof.
  intros Hr [I1 I2 I3 I4 I5 I6 I7 I8 I9 I10 I11] A Sk.
  assert (SK : same_keys (d_kv (xw_db w)) (d_kv (ow_db (fst (ostep xK (xw_o w) oe))))).
  { assert (NF : match oe with OForeign _ _ => False | _ => True end -> same_keys (d_kv (xw_db w)) (d_kv (ow_db (fst (ostep xK (xw_o w) oe))))).
    { intros NF. pose proof (fun k => ostep_frame BW (rem + 1) xK (xw_o w) used c oe k I1 NF) as F. split; [|split].
      - intros cid k Hc P. apply F. intros ->. rewrite seq_no_prefix in P. discriminate.
      - intros cid l Hc. apply F. apply columns_seq.
      - intros i Hi. apply F. apply metaIndex_seq. exact Hi. }
    destruct oe; try (apply NF; exact I). exact Sk. }
  assert (TX : forall t, tx_ok (xw_db w) t -> tx_ok (ow_db (fst (ostep xK (xw_o w) oe))) t) by (intros t; apply (ostep_txok BW (rem + 1) xK (xw_o w) used c oe t I1)).
  destruct (ostep_inv BW xK ltac:(reflexivity) rem (xw_o w) used c oe Hr I1 A) as ((N1 & F1) & c' & Lc & I1').
  assert (Po : forall v, In v (ids1 (snd (ostep xK (xw_o w) oe))) -> 0 <= v).
  { intros v. pose proof (ids_end xK (xw_o w) oe) as X. destruct oe; try (rewrite X; intros []). apply ids_pos. }
  split.
  - intros v Hv. split; [apply F1; exact Hv|]. split; [apply Po; exact Hv|].
    destruct (oi_used _ _ _ _ _ _ I1' v ltac:(apply in_or_app; left; exact Hv)) as [Lv _]. unfold BW in *. lia.
  - exists c'. split; cbn [xset_o xw_o xw_beg xw_wait xw_has xw_drop xw_todo xw_mem xw_db].
    + exact I1'.
    + unfold BW in *. lia.
    + intros v Hv. apply in_app_or in Hv. destruct Hv; auto.
    + eapply catalog_same; eassumption.
    + intros cid n i x Hc E. apply in_or_app. right. eapply I5; eassumption.
    + exact I6.
    + intros k i H. destruct (I7 k i H) as (X & Y & Z). split; [apply in_or_app; right; exact X|]. split; [eapply call_ok_mono; eassumption | exact Z].
    + intros k H. eapply call_ok_mono; [exact TX | apply I8; exact H].
    + intros i k H. eapply call_ok_mono; [exact TX | eapply I9; exact H].
    + intros x H. eapply drop_ok_mono; [exact TX | apply I10; exact H].
    + intros St. eapply no_orphan_same; [exact SK | apply I11; exact St].
Qed.
(** ci_check that passes *)
Lemma check_post cid x d lim t : i_name x <> [] -> is_i64 cid -> small_names (i_fields x) -> nth 1 lim false = false ->
  ci_check cid x (new_txn d true lim) = (t, Ok tt) -> forall i, call_ok d (XC i cid x t).
Proof.
  intros Nn Hc Sm Li H i. unfold ci_check in H. apply try_ok in H. destruct H as (t1 & r & H1 & _ & H2).
  apply tget_post in H1; [|reflexivity | apply columns_nonempty]. destruct H1 as [-> ->].
  set (k := columnsKey cid (i_fields x)) in *. pose proof (ext_track k (new_txn d true lim)) as E.
  assert (T : t = track k (new_txn d true lim)).
  { destruct (get (view (new_txn d true lim)) k) as [e|]; [destruct (e_val e)|]; unfold ret, fail in H2; inversion H2; reflexivity. }
  assert (LT : t_lim t = lim) by (subst t; unfold track, add_read; cbn [new_txn t_pend]; rewrite get_empty; reflexivity).
  split; cbn [xc_cid xc_def xc_t]; try assumption.
  - subst t. destruct E as (_ & _ & _ & -> & _). reflexivity.
  - subst t. destruct E as (_ & _ & _ & _ & -> & _). reflexivity.
  - rewrite LT. exact Li.
  - subst t. rewrite pend_track. reflexivity.
  - subst t. eapply tx_ok_ext; [exact E | apply tx_ok_new].
  - subst t. apply reads_track; [reflexivity | apply get_empty].
  - intros n Hn. subst t. destruct E as (-> & _). cbn [new_txn t_snap]. intros G.
    pose proof (get_view_fresh d true lim k (Some n) G) as V. rewrite V in H2. cbn [option_map mk e_val] in H2. destruct n; [congruence | discriminate H2].
Qed.
(** ci_put that passes: the three writes *)
Lemma put_post d c iid t : call_ok d c -> is_i64 iid -> ci_put bm (xc_cid c) (xc_def c) iid (xc_t c) = (t, Ok tt) ->
  ext (xc_t c) t /\ forall k, get (t_pend t) k =
    if bytes_eqb k (metaIndexKey iid) then Some (Some (mk (bm (xc_def c)))) else if bytes_eqb k (indexNameKey (xc_cid c) (i_name (xc_def c))) then Some (Some (mk (EncodeVarint [] iid)))
    else if bytes_eqb k (columnsKey (xc_cid c) (i_fields (xc_def c))) then Some (Some (mk (i_name (xc_def c)))) else None.
Proof.
  intros [Hc Sm Nn Up Op Li Pe Tx Re Fr] Hi H. unfold ci_put in H. apply bind_ok in H. destruct H as (t1 & a & H1 & H2).
  assert (L1 : exists l, t1 = put (columnsKey (xc_cid c) (i_fields (xc_def c))) (Some (mk (i_name (xc_def c)))) l (xc_t c) /\ hd false l = false).
  { unfold tset, tsetm, map_err, modify in H1. rewrite Up, Op, columns_key_err in H1. cbn [negb entry_of] in H1. destruct (t_lim (xc_t c)) as [|[|] l]; inversion H1; eexists; (split; [reflexivity|]); [reflexivity|].
    destruct l; [reflexivity | exact Li]. }
  destruct L1 as (l & -> & Hl). unfold try in H2. erewrite tset_runs in H2 by (first [exact Up | exact Op | apply name_key_err | reflexivity | exact Hl]).
  apply tset_ok in H2. destruct H2 as (l2 & ->). split; [eapply ext_trans; [apply ext_put|]; eapply ext_trans; apply ext_put|].
  intros k. rewrite !get_put, Pe, get_empty. reflexivity.
Qed.
Lemma three_commit d t io d' t' cid n iid l (vn vm vc : option ent) : commit d t io = (d', t', Ok tt) ->
  (forall k, get (t_pend t) k = if bytes_eqb k (metaIndexKey iid) then Some vm else if bytes_eqb k (indexNameKey cid n) then Some vn else if bytes_eqb k (columnsKey cid l) then Some vc else None) ->
  three (d_kv d) (d_kv d') cid n iid l vn vm vc /\ conflict d t = false.
Proof.
  intros Ec P. destruct (commit_cases _ _ _ _ _ _ Ec) as [(_ & Kv & Cf)|[X _]]; [|congruence]. split.
  - intros k. rewrite Kv, P. destruct (bytes_eqb k (metaIndexKey iid)); [reflexivity|]. destruct (bytes_eqb k (indexNameKey cid n)); [reflexivity|]. destruct (bytes_eqb k (columnsKey cid l)); reflexivity.
  - apply Cf. intros E. specialize (P (metaIndexKey iid)). rewrite bytes_eqb_refl, (smap_eq (t_pend t) empty E), get_empty in P. discriminate.
Qed.
Lemma dropread_post d R cid n lim : catalog (d_kv d) R -> is_i64 cid ->
  exists t, di_read bu cid n (new_txn d true lim) = (t, Ok (R cid n)) /\ t_pend t = empty /\ ext (new_txn d true lim) t /\
    forall iid x, R cid n = Some (iid, x) -> In (indexNameKey cid n) (t_reads t) /\ In (metaIndexKey iid) (t_reads t).
Proof.
  intros Ct Hc. unfold di_read, try. set (t0 := new_txn d true lim). destruct (tget (indexNameKey cid n) t0) as [t1 r1] eqn:E1.
  apply tget_post in E1; [|reflexivity | apply name_nonempty]. destruct E1 as [-> ->]. pose proof (ct_name _ _ _ Ct cid n Hc) as G.
  assert (V : get (view t0) (indexNameKey cid n) = option_map mk (option_map (fun p => EncodeVarint [] (fst p)) (R cid n))).
  { apply get_view_fresh. rewrite G. destruct (R cid n); reflexivity. }
  rewrite V. destruct (R cid n) as [[iid x]|] eqn:Rn; cbn [option_map fst mk e_val].
  - destruct (ct_row _ _ _ Ct cid n iid x Hc Rn) as (Hi & _ & _ & _ & Gm & _).
    rewrite <- (app_nil_r (EncodeVarint [] iid)), (DecodeVarint_enc iid [] Hi). unfold bind.
    destruct (tget (metaIndexKey iid) (track (indexNameKey cid n) t0)) as [t2 r2] eqn:E2.
    pose proof (ext_track (indexNameKey cid n) t0) as X1. assert (Op : t_open (track (indexNameKey cid n) t0) = true) by (destruct X1 as (_ & _ & _ & _ & -> & _); reflexivity).
    apply tget_post in E2; [|exact Op | apply metaIndex_nonempty]. destruct E2 as [-> ->]. pose proof (ext_track (metaIndexKey iid) (track (indexNameKey cid n) t0)) as X2.
    assert (V2 : get (view (track (indexNameKey cid n) t0)) (metaIndexKey iid) = Some (mk (bm x))).
    { assert (Y : get (view t0) (metaIndexKey iid) = Some (mk (bm x))) by (apply (get_view_fresh d true lim _ (Some (bm x))); exact Gm).
      rewrite get_view, pend_track in *. destruct X1 as (-> & _ & -> & _). exact Y. }
    rewrite V2. cbn [mk e_val]. rewrite (OK x). exists (track (metaIndexKey iid) (track (indexNameKey cid n) t0)). split; [reflexivity|]. split; [rewrite !pend_track; reflexivity|]. split; [eapply ext_trans; eassumption|].
    intros iid0 x0 Ei. inversion Ei. subst iid0 x0. split.
    + destruct X2 as (_ & _ & _ & _ & _ & I2). apply I2. apply reads_track; [reflexivity | apply get_empty].
    + apply reads_track; [destruct X1 as (_ & _ & _ & -> & _); reflexivity | rewrite pend_track; apply get_empty].
  - exists (track (indexNameKey cid n) t0). split; [reflexivity|]. split; [rewrite pend_track; reflexivity|]. split; [apply ext_track|]. discriminate.
Qed.
Lemma dropdel_post cid n iid x t t' : t_pend t = empty -> di_del cid n iid x t = (t', Ok tt) ->
  ext t t' /\ forall k, get (t_pend t') k = if bytes_eqb k (metaIndexKey iid) then Some None else if bytes_eqb k (indexNameKey cid n) then Some None
                                        else if bytes_eqb k (columnsKey cid (i_fields x)) then Some None else None.
Proof.
  intros P H. unfold di_del in H. apply bind_ok in H. destruct H as (t1 & a & H1 & H2). apply bind_ok in H2. destruct H2 as (t2 & b & H2 & H3).
  apply tdel_ok in H1. destruct H1 as (l1 & ->). apply tdel_ok in H2. destruct H2 as (l2 & ->). apply tdel_ok in H3. destruct H3 as (l3 & ->).
  split; [eapply ext_trans; [apply ext_put|]; eapply ext_trans; apply ext_put|].
  intros k. rewrite !get_put, P, get_empty. destruct (bytes_eqb k (indexNameKey cid n)) eqn:E1, (bytes_eqb k (metaIndexKey iid)) eqn:E2; reflexivity.
Qed.
(** the catalogue of rows *)
Definition cat_of (R : rows) : cat := fun c n => option_map snd (R c n).
Definition cat_eq (C D : cat) : Prop := forall c n, is_i64 c -> C c n = D c n.
(** what is reported of a step *)
Definition step_good (R : rows) (o : xobs) : Prop :=
  match o with
  | XoCreate cid x (Ok iid) => forall n y, cat_of R cid n = Some y -> ~ same_columns x y
  | XoDrop cid n (Ok b) => b = match cat_of R cid n with Some _ => true | None => false end
  | _ => True
  end.
Lemma rset_cat R cid n v c m : cat_of (rset R cid n v) c m = cat_set (cat_of R) cid n (option_map snd v) c m.
Proof. unfold cat_of, rset, cat_set. destruct ((c =? cid) && bytes_eqb m n); reflexivity. Qed.

Lemma commit_ok_db w t io d' t' r : commit (xw_db w) t io = (d', t', r) -> ow_db (fst (ostep xK (xw_o w) (OForeign t io))) = d'.
Proof. intros E. cbn [ostep]. unfold xw_db in E. rewrite E. reflexivity. Qed.
(** an index transaction commits *)
Lemma xinv_commit strict rem w used c R t io d' t' R' has' drop' todo' : 0 <= rem -> xinv strict (rem + 1) w used c R ->
  commit (xw_db w) t io = (d', t', Ok tt) -> get (t_pend t) (EncodeMetaSequenceKey xK) = None ->
  catalog (d_kv d') R' -> (strict = true -> no_orphan (d_kv d') R') ->
  (forall cid n i x, is_i64 cid -> R' cid n = Some (i, x) -> In i used) ->
  NoDup (map snd has') -> (forall k i, In (k, i) has' -> In (k, i) (xw_has w) /\ forall cid n x, is_i64 cid -> R' cid n <> Some (i, x)) ->
  (forall x, In x drop' -> In x (xw_drop w)) ->
  exists c', xinv strict rem (XW (fst (ostep xK (xw_o w) (OForeign t io))) (xw_beg w) (xw_wait w) has' drop' todo' (xw_mem w)) used c' R'.
Proof.
  intros Hr [I1 I2 I3 I4 I5 I6 I7 I8 I9 I10 I11] Ec Pk Ct Or Ids Nd Hh Hd.
  assert (TX : forall tj, tx_ok (xw_db w) tj -> tx_ok (ow_db (fst (ostep xK (xw_o w) (OForeign t io)))) tj) by (intros tj; apply (ostep_txok BW (rem + 1) xK (xw_o w) used c (OForeign t io) tj I1)).
  destruct (ostep_inv BW xK ltac:(reflexivity) rem (xw_o w) used c (OForeign t io) Hr I1 Pk) as (_ & c' & Lc & I1').
  rewrite (ids_end xK (xw_o w) (OForeign t io)) in I1'. cbn [app] in I1'. exists c'.
  split; cbn [xw_o xw_beg xw_wait xw_has xw_drop xw_todo xw_mem]; unfold xw_db; cbn [xw_o]; try (rewrite (commit_ok_db w t io d' t' _ Ec)); try assumption.
  - unfold BW in *. lia.
  - intros k i H. destruct (Hh k i H) as [X Y]. destruct (I7 k i X) as (Z1 & Z2 & _). split; [exact Z1|]. split; [|exact Y]. rewrite <- (commit_ok_db w t io d' t' _ Ec). eapply call_ok_mono; eassumption.
  - intros k H. rewrite <- (commit_ok_db w t io d' t' _ Ec). eapply call_ok_mono; [exact TX | apply I8; exact H].
  - intros i k H. rewrite <- (commit_ok_db w t io d' t' _ Ec). eapply call_ok_mono; [exact TX | eapply I9; exact H].
  - intros x H. rewrite <- (commit_ok_db w t io d' t' _ Ec). eapply drop_ok_mono; [exact TX | apply I10, Hd; exact H].
Qed.

Lemma xstep_inv strict rem w used c R C e : 0 <= rem -> xinv strict (rem + 1) w used c R -> cat_eq C (cat_of R) -> x_allowed strict C w e ->
  exists used' c' R', incl used used' /\ xinv strict rem (fst (xstep bm bu w e)) used' c' R' /\ step_good R (snd (xstep bm bu w e)) /\
    cat_eq (cat_step C (snd (xstep bm bu w e))) (cat_of R').
Proof.
  intros Hr I CE A. pose proof (xinv_rem _ _ _ _ _ _ Hr I) as I0.
  assert (SAME : forall o, step_good R o -> cat_step C o = C -> exists used' c' R', incl used used' /\ xinv strict rem w used' c' R' /\ step_good R o /\ cat_eq (cat_step C o) (cat_of R')).
  { intros o G S. exists used, c, R. rewrite S. split; [apply incl_refl | auto]. }
  assert (QUIET : forall oe, o_allowed BW xK oe -> match oe with OForeign _ _ => same_keys (d_kv (xw_db w)) (d_kv (ow_db (fst (ostep xK (xw_o w) oe)))) | _ => True end ->
     exists used' c' R', incl used used' /\ xinv strict rem (xset_o w (fst (ostep xK (xw_o w) oe))) used' c' R' /\ True /\ cat_eq C (cat_of R')).
  { intros oe Ha Sk. destruct (xinv_o strict rem w used c R oe Hr I Ha Sk) as (_ & c' & J). eexists. exists c', R. split; [apply incl_appr, incl_refl|]. split; [exact J | auto]. }
  assert (LISTS : forall w', xw_o w' = xw_o w -> (forall k, In k (xw_beg w') -> call_ok (xw_db w) k) -> (forall i k, xw_wait w' i = Some k -> call_ok (xw_db w) k) ->
     NoDup (map snd (xw_has w')) -> (forall k i, In (k, i) (xw_has w') -> In (k, i) (xw_has w)) -> (forall x, In x (xw_drop w') -> drop_ok (xw_db w) x) ->
     xinv strict rem w' used c R).
  { intros w' Eo H1 H2 H3 H4 H5. destruct I0 as [J1 J2 J3 J4 J5 J6 J7 J8 J9 J10 J11]. unfold xw_db in *. split; unfold xw_db; rewrite ?Eo; auto. }
  pose proof (xi_beg _ _ _ _ _ _ I) as Hbeg. pose proof (xi_wait _ _ _ _ _ _ I) as Hwait. pose proof (xi_drop _ _ _ _ _ _ I) as Hdrop. pose proof (xi_nd _ _ _ _ _ _ I) as Hnd. pose proof (xi_cat _ _ _ _ _ _ I) as Hcat.
  destruct e as [i|i|i lim io|i cid x lim|n|n io|i cid nm lim|n io|n|i cid|who|t io|n]; cbn [xstep].
  - destruct (ow_seq (xw_o w) i); [apply SAME; [exact Logic.I | reflexivity]|]. apply QUIET; [cbn; unfold BW; lia | exact Logic.I].
  - apply QUIET; exact Logic.I.
  - destruct (xinv_o strict rem w used c R (OEnd i lim io) Hr I Logic.I Logic.I) as (Fr & c' & J).
    destruct (ostep xK (xw_o w) (OEnd i lim io)) as [o r]. cbn [fst snd] in *. destruct J as [J1 J2 J3 J4 J5 J6 J7 J8 J9 J10 J11].
    assert (Q : forall wait', (forall j k, wait' j = Some k -> xw_wait w j = Some k) -> forall ob, step_good R ob -> cat_step C ob = C -> exists used' c' R', incl used used' /\
       xinv strict rem (XW o (xw_beg w) wait' (xw_has w) (xw_drop w) (xw_todo w) (xw_mem w)) used' c' R' /\ step_good R ob /\ cat_eq (cat_step C ob) (cat_of R')).
    { intros wait' Hw ob G S. exists (ids1 r ++ used), c', R. rewrite S. split; [apply incl_appr, incl_refl|]. split; [|auto]. unfold xset_o, xw_db in *. split; cbn [xw_o xw_beg xw_wait xw_has xw_drop xw_todo xw_mem] in *; auto. intros j k E. eapply J9, Hw. exact E. }
    assert (FU : forall j k, fupd (xw_wait w) i None j = Some k -> xw_wait w j = Some k).
    { intros j k. unfold fupd. destruct (Nat.eqb j i); [discriminate | auto]. }
    destruct (xw_wait w i) as [k|] eqn:Ew; [|apply (Q (xw_wait w)); [auto | exact Logic.I | reflexivity]].
    destruct r as [[v|er|]|]; try (apply (Q (fupd (xw_wait w) i None)); [exact FU | exact Logic.I | reflexivity]); [|apply (Q (xw_wait w)); [auto | exact Logic.I | reflexivity]].
    destruct (Fr v (or_introl eq_refl)) as [Nv Rv]. rewrite to_i64_id by (unfold is_i64; rewrite two63_val in *; lia). cbn [fst snd cat_step step_good].
    exists (v :: used), c', R. split; [apply incl_tl, incl_refl|]. split; [|auto]. unfold xset_o, xw_db in *. cbn [ids1 app] in *. split; cbn [xw_o xw_beg xw_wait xw_has xw_drop xw_todo xw_mem map snd] in *; try assumption.
    + constructor; [|exact J6]. intros X. apply in_map_iff in X. destruct X as ([k' i'] & E & X). cbn in E. subst i'. destruct (xi_has _ _ _ _ _ _ I k' v X) as [U _]. exact (Nv U).
    + intros k' i' [E|H]; [|apply J7; exact H]. inversion E. subst k' i'. split; [left; reflexivity|]. split; [eapply J9; exact Ew|].
      intros cid n x Hc E2. apply Nv. exact (xi_ids _ _ _ _ _ _ I cid n v x Hc E2).
    + intros j k' E. eapply J9, FU. exact E.
  - cbn [x_allowed] in A. destruct A as (Hc & Sm & Li). destruct (i_name x) as [|b0 nm'] eqn:En; [apply SAME; [exact Logic.I | reflexivity]|].
    destruct (i_fields x) as [|f0 fs] eqn:Ef; [apply SAME; [exact Logic.I | reflexivity]|].
    destruct (ci_check cid x (new_txn (xw_db w) true lim)) as [t [[]|er|]] eqn:Ek; try (apply SAME; [exact Logic.I | reflexivity]).
    cbn [fst snd]. exists used, c, R. split; [apply incl_refl|]. split; [|split; [exact Logic.I | exact CE]]. apply LISTS; cbn [xw_o xw_beg xw_wait xw_has xw_drop]; auto.
    intros k [<-|H]; [|apply Hbeg; exact H]. rewrite <- Ef in Sm. eapply check_post; try eassumption. rewrite En. discriminate.
  - destruct (nth_error (xw_beg w) n) as [k|] eqn:En; [|apply SAME; [exact Logic.I | reflexivity]].
    destruct (xw_wait w (xc_i k)) eqn:Ew; [apply SAME; [exact Logic.I | reflexivity]|]. destruct (ow_call (xw_o w) (xc_i k)); [apply SAME; [exact Logic.I | reflexivity]|]. destruct (ow_seq (xw_o w) (xc_i k)); [|apply SAME; [exact Logic.I | reflexivity]].
    destruct (QUIET (OBegin (xc_i k) OcNext) Logic.I Logic.I) as (u' & c' & R' & Iu & J & _ & CE'). exists u', c', R'. cbn [fst snd step_good cat_step]. split; [exact Iu|]. split; [|auto].
    destruct J as [J1 J2 J3 J4 J5 J6 J7 J8 J9 J10 J11]. unfold xset_o, xw_db in *. split; cbn [xw_o xw_beg xw_wait xw_has xw_drop xw_todo xw_mem] in *; try assumption.
    + intros k' H. apply J8. eapply drop_in; exact H.
    + intros j k'. unfold fupd. destruct (Nat.eqb j (xc_i k)); [|apply J9]. intros E. inversion E. subst k'. apply J8. eapply nth_error_In; exact En.
  - destruct (nth_error (xw_has w) n) as [[k iid]|] eqn:En; [|apply SAME; [exact Logic.I | reflexivity]].
    destruct (xi_has _ _ _ _ _ _ I k iid (nth_error_In _ _ En)) as (Us & Ck & Fr). pose proof Ck as [Hc Sm Nn Up Op Li Pe Tx Re Free].
    assert (Hi : is_i64 iid).
    { pose proof (xi_pos _ _ _ _ _ _ I iid Us) as P. destruct (oi_used _ _ _ _ _ _ (xi_o _ _ _ _ _ _ I) iid Us) as [Lv _]. pose proof (xi_c _ _ _ _ _ _ I) as Cv. unfold is_i64; unfold BW in Cv; rewrite two63_val in *; lia. }
    assert (REST : forall o, step_good R o -> cat_step C o = C -> exists used' c' R', incl used used' /\ xinv strict rem (XW (xw_o w) (xw_beg w) (xw_wait w) (drop_nth n (xw_has w)) (xw_drop w) (xw_todo w) (xw_mem w)) used' c' R' /\ step_good R o /\ cat_eq (cat_step C o) (cat_of R')).
    { intros o G S. exists used, c, R. rewrite S. split; [apply incl_refl|]. split; [|auto]. apply LISTS; cbn [xw_o xw_beg xw_wait xw_has xw_drop]; auto; [apply nodup_drop; exact Hnd | intros k' i' H; eapply drop_in; exact H]. }
    destruct (ci_put bm (xc_cid k) (xc_def k) iid (xc_t k)) as [t [[]|er|]] eqn:Ep; try (apply REST; [exact Logic.I | reflexivity]).
    destruct (commit (xw_db w) t io) as [[d2 t2] [[]|er|]] eqn:Ec; try (apply REST; [exact Logic.I | reflexivity]).
    destruct (put_post _ _ _ _ Ck Hi Ep) as [Ex Pp]. destruct (three_commit _ _ _ _ _ _ _ _ _ _ _ _ Ec Pp) as [T3 Cf].
    assert (Fcol : forall n0, n0 <> [] -> get (d_kv (xw_db w)) (columnsKey (xc_cid k) (i_fields (xc_def k))) <> Some (mk n0)).
    { intros n0 Hn0. assert (Txt : tx_ok (xw_db w) t) by (eapply tx_ok_ext; [exact Ex | exact Tx]). destruct Ex as (Es & _ & _ & _ & _ & Ei).
      rewrite (conflict_free (xw_db w) t _ Txt Cf (Ei _ Re)), Es. apply Free. exact Hn0. }
    set (R' := rset R (xc_cid k) (i_name (xc_def k)) (Some (iid, xc_def k))).
    destruct (xinv_commit strict rem w used c R t io d2 t2 R' (drop_nth n (xw_has w)) (xw_drop w) ((xc_i k, xc_cid k, i_name (xc_def k), Some (normed (xc_def k))) :: xw_todo w) Hr I Ec) as (c' & J).
    + rewrite Pp. rewrite (proj2 (bytes_eqb_neq (EncodeMetaSequenceKey xK) (metaIndexKey iid)) (fun E => metaIndex_seq xK iid Hi (eq_sym E))), (proj2 (bytes_eqb_neq (EncodeMetaSequenceKey xK) (indexNameKey _ _)) (fun E => name_seq xK _ _ (eq_sym E))),
        (proj2 (bytes_eqb_neq (EncodeMetaSequenceKey xK) (columnsKey _ _)) (fun E => columns_seq xK _ _ (eq_sym E))). reflexivity.
    + eapply catalog_put; try eassumption.
    + intros St. eapply no_orphan_put; try eassumption; [exact (xi_orphan _ _ _ _ _ _ I St)|]. specialize (A St). rewrite En in A. rewrite (CE _ _ Hc) in A. unfold cat_of in A. destruct (R (xc_cid k) (i_name (xc_def k))); [discriminate | reflexivity].
    + intros cid0 n0 i0 x0 Hc0 E. destruct (rset_cases R (xc_cid k) (i_name (xc_def k)) (Some (iid, xc_def k)) cid0 n0) as [(-> & -> & X)|[N X]]; unfold R' in E; rewrite X in E; [inversion E; subst; exact Us | exact (xi_ids _ _ _ _ _ _ I _ _ _ _ Hc0 E)].
    + apply nodup_drop. exact Hnd.
    + intros k' i' H. split; [eapply drop_in; exact H|]. intros cid0 n0 x0 Hc0 E. destruct (rset_cases R (xc_cid k) (i_name (xc_def k)) (Some (iid, xc_def k)) cid0 n0) as [(-> & -> & X)|[N X]]; unfold R' in E; rewrite X in E.
      * inversion E. subst i'. apply (nodup_taken snd _ _ _ En Hnd). apply (in_map snd) in H. exact H.
      * destruct (xi_has _ _ _ _ _ _ I k' i' (drop_in _ _ _ H)) as (_ & _ & Y). exact (Y _ _ _ Hc0 E).
    + auto.
    + exists used, c', R'. cbn [fst snd]. split; [apply incl_refl|]. split; [exact J|]. split.
      * cbn [step_good]. intros n0 y Hy Sc. unfold cat_of in Hy. destruct (R (xc_cid k) n0) as [[j y']|] eqn:Er; [|discriminate]. cbn in Hy. inversion Hy. subst y'.
        destruct (ct_row _ _ _ Hcat _ _ _ _ Hc Er) as (_ & _ & Nn0 & _ & _ & G). apply (Fcol n0 Nn0). unfold columnsKey in *. rewrite Sc. exact G.
      * cbn [cat_step]. intros c1 n1 Hc1. unfold R'. rewrite rset_cat. unfold cat_set. cbn [option_map snd]. destruct ((c1 =? xc_cid k) && bytes_eqb n1 (i_name (xc_def k))); [reflexivity | apply CE; exact Hc1].
  - cbn [x_allowed] in A. destruct nm as [|b0 nm']; [apply SAME; [exact Logic.I | reflexivity]|]. set (nm := b0 :: nm') in *.
    destruct (dropread_post (xw_db w) R cid nm lim Hcat A) as (t & Er & Pe & Ex & Rd). rewrite Er. destruct (R cid nm) as [[iid x]|] eqn:Rn.
    + destruct (di_del cid nm iid x t) as [t' [[]|er|]] eqn:Ed; try (apply SAME; [exact Logic.I | reflexivity]). cbn [fst snd]. exists used, c, R. split; [apply incl_refl|]. split; [|split; [exact Logic.I | exact CE]].
      apply LISTS; cbn [xw_o xw_beg xw_wait xw_has xw_drop]; auto. intros y [<-|H]; [|apply Hdrop; exact H].
      destruct (dropdel_post _ _ _ _ _ _ Pe Ed) as [Ex2 Pp]. destruct (Rd iid x eq_refl) as [Rd1 Rd2]. destruct (ct_row _ _ _ Hcat cid nm iid x A Rn) as (Hi & Nm & _ & _ & Gm & _).
      pose proof (ext_trans _ _ _ Ex Ex2) as Ex3. destruct Ex3 as (Es & _). split; cbn [xd_cid xd_name xd_def xd_t].
      * exact A.
      * eapply tx_ok_ext; [exact (ext_trans _ _ _ Ex Ex2) | apply tx_ok_new].
      * exact Nm.
      * exists iid. split; [exact Hi|]. destruct Ex2 as (_ & _ & _ & _ & _ & Ei). split; [apply Ei; exact Rd1|]. split; [apply Ei; exact Rd2|]. rewrite Es. cbn [new_txn t_snap].
        split; [rewrite (ct_name _ _ _ Hcat cid nm A), Rn; reflexivity|]. split; [exact Gm | exact Pp].
    + apply SAME; [|reflexivity]. unfold step_good, cat_of. cbn [snd]. rewrite Rn. reflexivity.
  - destruct (nth_error (xw_drop w) n) as [x|] eqn:En; [|apply SAME; [exact Logic.I | reflexivity]].
    assert (REST : forall o, step_good R o -> cat_step C o = C -> exists used' c' R', incl used used' /\ xinv strict rem (XW (xw_o w) (xw_beg w) (xw_wait w) (xw_has w) (drop_nth n (xw_drop w)) (xw_todo w) (xw_mem w)) used' c' R' /\ step_good R o /\ cat_eq (cat_step C o) (cat_of R')).
    { intros o G S. exists used, c, R. rewrite S. split; [apply incl_refl|]. split; [|auto]. apply LISTS; cbn [xw_o xw_beg xw_wait xw_has xw_drop]; auto. intros y H. apply Hdrop. eapply drop_in; exact H. }
    destruct (commit (xw_db w) (xd_t x) io) as [[d2 t2] [[]|er|]] eqn:Ec; try (apply REST; [exact Logic.I | reflexivity]).
    destruct (Hdrop x (nth_error_In _ _ En)) as [Hc Tx Nm (iid & Hi & Rd1 & Rd2 & S1 & S2 & Pp)].
    destruct (three_commit _ _ _ _ _ _ _ _ _ _ _ _ Ec Pp) as [T3 Cf].
    assert (Rn : R (xd_cid x) (xd_name x) = Some (iid, xd_def x)).
    { pose proof (conflict_free _ _ _ Tx Cf Rd1) as G1. pose proof (conflict_free _ _ _ Tx Cf Rd2) as G2. rewrite S1, (ct_name _ _ _ Hcat _ _ Hc) in G1.
      destruct (R (xd_cid x) (xd_name x)) as [[j y]|] eqn:Er; [|discriminate]. destruct (ct_row _ _ _ Hcat _ _ _ _ Hc Er) as (Hj & _ & _ & _ & Gm & _).
      cbn [option_map fst] in G1. unfold mk in G1. assert (Ej : EncodeVarint [] j = EncodeVarint [] iid) by congruence. apply varint_inj in Ej; [|assumption..]. subst j.
      rewrite S2, Gm in G2. unfold mk in G2. assert (Eb : bm y = bm (xd_def x)) by congruence. assert (Ey : Some y = Some (xd_def x)) by (rewrite <- (OK y), <- (OK (xd_def x)), Eb; reflexivity). congruence. }
    set (R' := rset R (xd_cid x) (xd_name x) None).
    destruct (xinv_commit strict rem w used c R (xd_t x) io d2 t2 R' (xw_has w) (drop_nth n (xw_drop w)) ((xd_i x, xd_cid x, i_name (xd_def x), None) :: xw_todo w) Hr I Ec) as (c' & J).
    + rewrite Pp. rewrite (proj2 (bytes_eqb_neq (EncodeMetaSequenceKey xK) (metaIndexKey iid)) (fun E => metaIndex_seq xK iid Hi (eq_sym E))), (proj2 (bytes_eqb_neq (EncodeMetaSequenceKey xK) (indexNameKey _ _)) (fun E => name_seq xK _ _ (eq_sym E))),
        (proj2 (bytes_eqb_neq (EncodeMetaSequenceKey xK) (columnsKey _ _)) (fun E => columns_seq xK _ _ (eq_sym E))). reflexivity.
    + eapply catalog_drop; eassumption.
    + intros St. eapply no_orphan_drop; try eassumption. exact (xi_orphan _ _ _ _ _ _ I St).
    + intros cid0 n0 i0 x0 Hc0 E. destruct (rset_cases R (xd_cid x) (xd_name x) None cid0 n0) as [(-> & -> & X)|[N X]]; unfold R' in E; rewrite X in E; [discriminate | exact (xi_ids _ _ _ _ _ _ I _ _ _ _ Hc0 E)].
    + exact Hnd.
    + intros k' i' H. split; [exact H|]. intros cid0 n0 x0 Hc0 E. destruct (rset_cases R (xd_cid x) (xd_name x) None cid0 n0) as [(-> & -> & X)|[N X]]; unfold R' in E; rewrite X in E; [discriminate|].
      destruct (xi_has _ _ _ _ _ _ I k' i' H) as (_ & _ & Y). exact (Y _ _ _ Hc0 E).
    + intros y H. eapply drop_in; exact H.
    + exists used, c', R'. cbn [fst snd]. split; [apply incl_refl|]. split; [exact J|]. split.
      * cbn [step_good]. unfold cat_of. rewrite Rn. reflexivity.
      * cbn [cat_step]. intros c1 n1 Hc1. unfold R'. rewrite rset_cat. unfold cat_set. cbn [option_map]. destruct ((c1 =? xd_cid x) && bytes_eqb n1 (xd_name x)); [reflexivity | apply CE; exact Hc1].
  - destruct (nth_error (xw_todo w) n) as [[[[i0 cid0] nm0] v0]|]; [|apply SAME; [exact Logic.I | reflexivity]]. exists used, c, R. cbn [fst snd]. split; [apply incl_refl|]. split; [|split; [exact Logic.I | exact CE]]. apply LISTS; cbn [xw_o xw_beg xw_wait xw_has xw_drop]; auto.
  - destruct (xw_mem w i cid); [apply SAME; [exact Logic.I | reflexivity]|]. destruct (run_view (xw_db w) (getIndexes bu cid)); try (apply SAME; [exact Logic.I | reflexivity]).
    exists used, c, R. cbn [fst snd]. split; [apply incl_refl|]. split; [|split; [exact Logic.I | exact CE]]. apply LISTS; cbn [xw_o xw_beg xw_wait xw_has xw_drop]; auto.
  - destruct (QUIET (OCrash who) Logic.I Logic.I) as (u' & c' & R' & Iu & J & _ & CE'). exists u', c', R'. cbn [fst snd step_good cat_step]. split; [exact Iu|]. split; [|auto].
    destruct J as [J1 J2 J3 J4 J5 J6 J7 J8 J9 J10 J11]. unfold xset_o, xw_db in *. split; cbn [xw_o xw_beg xw_wait xw_has xw_drop xw_todo xw_mem] in *; try assumption.
    + clear -J6. induction (xw_has w) as [|p l IH]; [constructor|]. cbn [filter map] in *. inversion J6. subst. destruct (negb (who (xc_i (fst p)))); [|auto]. cbn [map]. constructor; [|auto].
      intros X. apply in_map_iff in X. destruct X as (q & E & X). apply filter_In in X. destruct X as [X _]. apply (in_map snd) in X. rewrite E in X. contradiction.
    + intros k' i' H. apply filter_In in H. apply J7. apply H.
    + intros k' H. apply filter_In in H. apply J8. apply H.
    + intros j k'. destruct (who j); [discriminate | apply J9].
    + intros y H. apply filter_In in H. apply J10. apply H.
  - destruct A as (A1 & A2 & A3 & A4). apply QUIET; [exact A1|]. destruct (commit (xw_db w) t io) as [[d2 t2] r2] eqn:Ec. rewrite (commit_ok_db w t io _ _ _ Ec).
    destruct (commit_cases _ _ _ _ _ _ Ec) as [(_ & Kv & _)|[_ ->]]; [|repeat split; reflexivity]. split; [|split].
    + intros cid k Hc P. rewrite Kv, (A2 cid k Hc P). reflexivity.
    + intros cid l Hc. rewrite Kv, (A3 cid l Hc). reflexivity.
    + intros j Hj. rewrite Kv, (A4 j Hj). reflexivity.
  - apply QUIET; exact Logic.I.
Qed.
Lemma cat_after_eq os : forall C D, cat_eq C D -> cat_eq (cat_after C os) (cat_after D os).
Proof.
  induction os as [|o os IH]; intros C D E; [exact E|]. cbn [cat_after fold_left]. apply IH. intros c n Hc.
  destruct o as [|cid x [i|e|]|cid m [[|]|e|]]; cbn [cat_step]; try (apply E; exact Hc); unfold cat_set; destruct ((c =? cid) && _); try reflexivity; apply E; exact Hc.
Qed.
Lemma xrun_inv es : forall strict rem w used c R C, 0 <= rem -> xinv strict (rem + Z.of_nat (length es)) w used c R -> cat_eq C (cat_of R) -> xallowed bm bu strict C w es ->
  exists used' c' R', xinv strict rem (fst (xrun bm bu w es)) used' c' R' /\ cat_eq (cat_after C (snd (xrun bm bu w es))) (cat_of R').
Proof.
  induction es as [|e es IH]; intros strict rem w used c R C Hr I CE A.
  - exists used, c, R. cbn [length] in I. rewrite Z.add_0_r in I. auto.
  - cbn [length] in I. replace (rem + Z.of_nat (S (length es))) with (rem + Z.of_nat (length es) + 1) in I by lia. destruct A as [A1 A2].
    destruct (xstep_inv strict (rem + Z.of_nat (length es)) w used c R C e ltac:(lia) I CE A1) as (used1 & c1 & R1 & _ & I1 & _ & CE1).
    cbn [xrun]. destruct (xstep bm bu w e) as [w1 r]. cbn [fst snd] in *. destruct (IH strict rem w1 used1 c1 R1 _ Hr I1 CE1 A2) as (used2 & c2 & R2 & I2 & CE2).
    destruct (xrun bm bu w1 es) as [w2 rs]. cbn [fst snd] in *. exists used2, c2, R2. split; [exact I2 | exact CE2].
Qed.
(** the ids returned by CreateIndex *)
Definition xids (os : list xobs) : list Z := flat_map (fun o => match o with XoCreate _ _ (Ok i) => [i] | _ => [] end) os.
Lemma xstep_has strict rem w used c R e : 0 <= rem -> xinv strict (rem + 1) w used c R ->
  (forall k i, In (k, i) (xw_has (fst (xstep bm bu w e))) -> In (k, i) (xw_has w) \/ ~ In i used) /\
  (forall i, In i (xids [snd (xstep bm bu w e)]) -> In i (map snd (xw_has w)) /\ ~ In i (map snd (xw_has (fst (xstep bm bu w e))))).
Proof.
  intros Hr I.
  destruct e as [i|i|i lim io|i cid x lim|n|n io|i cid nm lim|n io|n|i cid|who|t io|n]; cbn [xstep]; try (split; [intros k j H; left; exact H | intros j []]).
  - destruct (ow_seq (xw_o w) i); (split; [intros k j H; left; exact H | intros j []]).
  - destruct (xinv_o strict rem w used c R (OEnd i lim io) Hr I Logic.I Logic.I) as (Fr & _).
    destruct (ostep xK (xw_o w) (OEnd i lim io)) as [o r]. cbn [fst snd] in *. destruct (xw_wait w i) as [k|]; [|split; [intros k' j H; left; exact H | intros j []]].
    destruct r as [[v|er|]|]; try (split; [intros k' j H; left; exact H | intros j []]). destruct (Fr v (or_introl eq_refl)) as [Nv Rv].
    rewrite to_i64_id by (unfold is_i64; rewrite two63_val in *; lia). split; [|intros j []]. cbn [fst xw_has]. intros k' j [E|H]; [|left; exact H]. right. congruence.
  - destruct (i_name x), (i_fields x); try (split; [intros k' j H; left; exact H | intros j []]).
    destruct (ci_check cid x (new_txn (xw_db w) true lim)) as [t [[]|er|]]; (split; [intros k' j H; left; exact H | intros j []]).
  - destruct (nth_error (xw_beg w) n) as [k|]; [|split; [intros k' j H; left; exact H | intros j []]].
    destruct (xw_wait w (xc_i k)); [split; [intros k' j H; left; exact H | intros j []]|]. destruct (ow_call (xw_o w) (xc_i k)); [split; [intros k' j H; left; exact H | intros j []]|].
    destruct (ow_seq (xw_o w) (xc_i k)); (split; [intros k' j H; left; exact H | intros j []]).
  - destruct (nth_error (xw_has w) n) as [[k iid]|] eqn:En; [|split; [intros k' j H; left; exact H | intros j []]].
    destruct (ci_put bm (xc_cid k) (xc_def k) iid (xc_t k)) as [t [[]|er|]]; try (solve [split; [cbn [fst xw_has]; intros k' j H; left; eapply drop_in; exact H | intros j []]]).
    destruct (commit (xw_db w) t io) as [[d2 t2] [[]|er|]]; try (solve [split; [cbn [fst xw_has]; intros k' j H; left; eapply drop_in; exact H | intros j []]]).
    cbn [fst snd xw_has]. split; [intros k' j H; left; eapply drop_in; exact H|]. intros j [<-|[]]. split.
    + apply nth_error_In in En. apply (in_map snd) in En. exact En.
    + exact (nodup_taken snd _ _ _ En (xi_nd _ _ _ _ _ _ I)).
  - destruct nm; [split; [intros k' j H; left; exact H | intros j []]|].
    destruct (di_read bu cid (b :: nm) (new_txn (xw_db w) true lim)) as [t [[[iid x]|]|er|]]; try (split; [intros k' j H; left; exact H | intros j []]).
    destruct (di_del cid (b :: nm) iid x t) as [t' [[]|er|]]; (split; [intros k' j H; left; exact H | intros j []]).
  - destruct (nth_error (xw_drop w) n) as [x|]; [|split; [intros k' j H; left; exact H | intros j []]].
    destruct (commit (xw_db w) (xd_t x) io) as [[d2 t2] [[]|er|]]; (split; [intros k' j H; left; exact H | intros j []]).
  - destruct (nth_error (xw_todo w) n) as [[[[i0 cid0] nm0] v0]|]; (split; [intros k' j H; left; exact H | intros j []]).
  - destruct (xw_mem w i cid), (run_view (xw_db w) (getIndexes bu cid)); (split; [intros k' j H; left; exact H | intros j []]).
  - split; [|intros j []]. cbn [fst xw_has]. intros k j H. apply filter_In in H. left. apply H.
Qed.
Lemma xids_cons o os : xids (o :: os) = xids [o] ++ xids os.
Proof. unfold xids. cbn [flat_map]. rewrite app_nil_r. reflexivity. Qed.
Lemma xids_fresh es : forall strict rem w used c R C given, 0 <= rem -> xinv strict (rem + Z.of_nat (length es)) w used c R -> cat_eq C (cat_of R) -> xallowed bm bu strict C w es ->
  NoDup given -> (forall v, In v given -> In v used /\ ~ In v (map snd (xw_has w))) -> NoDup (rev (xids (snd (xrun bm bu w es))) ++ given).
Proof.
  induction es as [|e es IH]; intros strict rem w used c R C given Hr I CE A Nd G; [exact Nd|].
  cbn [length] in I. replace (rem + Z.of_nat (S (length es))) with (rem + Z.of_nat (length es) + 1) in I by lia. destruct A as [A1 A2].
  destruct (xstep_inv strict (rem + Z.of_nat (length es)) w used c R C e ltac:(lia) I CE A1) as (used1 & c1 & R1 & Iu & I1 & _ & CE1).
  destruct (xstep_has strict (rem + Z.of_nat (length es)) w used c R e ltac:(lia) I) as [H1 H2].
  pose proof (xi_has _ _ _ _ _ _ I) as Hh. cbn [xrun]. destruct (xstep bm bu w e) as [w1 r]. cbn [fst snd] in *.
  specialize (IH strict rem w1 used1 c1 R1 (cat_step C r) (rev (xids [r]) ++ given) Hr I1 CE1 A2). destruct (xrun bm bu w1 es) as [w2 rs]. cbn [fst snd] in *.
  rewrite xids_cons, rev_app_distr, <- app_assoc. apply IH.
  - destruct r as [|cid x [i|er|]|cid n rr]; cbn [xids flat_map app rev]; try exact Nd. cbn [xids flat_map app rev] in H2. constructor; [|exact Nd].
    intros X. apply (proj2 (G i X)). apply H2. left. reflexivity.
  - assert (OLD : forall v, In v used -> ~ In v (map snd (xw_has w1)) \/ In v (map snd (xw_has w))).
    { intros v Hv. destruct (in_dec Z.eq_dec v (map snd (xw_has w1))) as [X|X]; [right | left; exact X]. apply in_map_iff in X. destruct X as ([k j] & E & X). cbn in E. subst j.
      destruct (H1 k v X) as [Y|Y]; [apply (in_map snd) in Y; exact Y | contradiction]. }
    intros v Hv. apply in_app_or in Hv. destruct Hv as [Hv|Hv].
    + apply in_rev in Hv. destruct (H2 v Hv) as [X Y]. split; [|exact Y]. apply Iu. apply in_map_iff in X. destruct X as ([k j] & E & X). cbn in E. subst j. apply (Hh k v X).
    + destruct (G v Hv) as [X Y]. split; [apply Iu; exact X|]. destruct (OLD v X); [assumption | contradiction].
Qed.
Lemma xinv_start strict rem d c0 : 0 <= rem -> db_ok d -> ocell xK d c0 -> 0 <= c0 -> c0 + BW * rem < two63 -> no_index d -> xinv strict rem (xstart d) [] c0 (fun _ _ => None).
Proof.
  intros Hr Dk Ce P0 Lc (N1 & N2 & N3). split; unfold xw_db; cbn [xstart xw_o xw_beg xw_wait xw_has xw_drop ow_db ow_seq ow_call map]; try (intros; contradiction); try (intros; discriminate); try exact Lc.
  - split; cbn [ow_db ow_seq ow_call]; try assumption; try (intros; discriminate); [|intros v []]. split; [exact P0|]. rewrite two63_val in Lc. rewrite two64_val. lia.
  - split; try (intros; discriminate). + intros c n Hc. rewrite (N1 c _ Hc (nameKey_prefix c n)). reflexivity.
    + intros c k e Hc G P. rewrite (N1 c k Hc P) in G. discriminate.
  - constructor.
  - intros _. split; [intros c l e Hc _ G; rewrite (N2 c l Hc) in G; discriminate | intros i e Hi G; rewrite (N3 i Hi) in G; discriminate].
Qed.
End proofs.
