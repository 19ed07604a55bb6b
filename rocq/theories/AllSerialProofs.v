(** Proofs for AllSerial.v (C93) *)
From Verif Require Import Bytes SMap Provider ProviderProofs World Memcmp MemcmpProofs Numeric KvUtil KeyModel Struct
  StructProofs StructHash StructList UtilTxn Sequence SequenceProofs Model Meta MetaCodec MetaSpec MetaProofs MetaOps MetaRun Schema DocTxn DocKeys Dml Wrote Ddl DdlSpec DdlProofs DdlWorker DdlSys DdlIndex DdlMore Domain DomainProofs.
From Verif Require P_Schema P_Meta P_Ddl SerialProofs MetaWrites DocLifeProofs ProcessProofs ProcessIds DocSerialProofs.
From Verif Require Import P_Domain DdlSerial DdlSerialProofs P_DdlSerial DomSerial DomSerialProofs DocSerial AllSerial DocLifeSpec.
From Coq Require Import Permutation.
Notation lookup := ProcessIds.lookup.

(** * A document transaction writes neither metadata nor anything that expires, and refers to collections its cache shows *)
Definition doc_write (k : bytes) (o : option ent) : Prop := has_prefix k MetaPrefix = false /\ forall e, o = Some e -> e_exp e = 0.
Definition tx_inv (x : dtxn) : Prop := (forall k o, get (t_pend (dt_t x)) k = Some o -> doc_write k o) /\ refers (dt_start x) (dt_refs x).
Lemma doc_write_key c did o : (forall e, o = Some e -> e_exp e = 0) -> doc_write (docKey c did) o.
Proof. intros H. split; [|exact H]. apply (DocLifeProofs.doc_not_meta c). apply docKey_self. Qed.
Lemma mk_exp v : forall e, Some (mk v) = Some e -> e_exp e = 0.
Proof. intros e E. assert (X : e = mk v) by congruence. rewrite X. reflexivity. Qed.
Lemma none_exp : forall e : ent, None = Some e -> e_exp e = 0.
Proof. discriminate. Qed.
Lemma wr_doc c o : wr doc_write (op_tx c o).
Proof.
  assert (G : forall did, wr doc_write (doc_get c did)).
  { intros did. unfold doc_get. apply wr_try; [apply wr_tget|]. intros [a|e|]; [apply wr_ret | destruct e; apply wr_fail | apply wr_panic]. }
  destruct o as [did v|did v|did v|did|did|dids| | | |]; cbn [op_tx].
  - apply wr_bind; [apply wr_update, doc_write_key, mk_exp | intros; apply wr_ret].
  - apply wr_bind; [apply wr_update, doc_write_key, mk_exp | intros; apply wr_ret].
  - apply wr_bind; [apply wr_update, doc_write_key, mk_exp | intros; apply wr_ret].
  - apply wr_bind; [apply wr_tdel, doc_write_key, none_exp | intros; apply wr_ret].
  - apply wr_bind; [apply G | intros; apply wr_ret].
  - apply wr_bind; [|intros; apply wr_ret]. set (acc := @nil bytes). clearbody acc. generalize dids at 1. intros l. revert acc. induction l as [|d l IH]; intros acc; cbn [doc_getmany]; [apply wr_ret|].
    apply wr_try; [apply G|]. intros [a|e|]; [apply IH | apply wr_ret | apply wr_panic].
  - apply wr_bind; [|intros; apply wr_ret]. unfold doc_getall. apply wr_tscan. intros. apply wr_ret.
  - apply wr_bind; [|intros; apply wr_ret]. unfold doc_count. apply wr_tscan. intros. apply wr_ret.
  - apply wr_bind; [|intros; apply wr_ret]. unfold doc_deleteall. apply wr_bind.
    + apply wr_tscan. intros k e Hk s. apply wr_try; [apply wr_tdel; split; [exact (DocLifeProofs.doc_not_meta c k Hk) | exact none_exp]|]. intros [a|x|]; [apply wr_ret | apply wr_ret | apply wr_panic].
    + intros [n [e|]]; [apply wr_fail | apply wr_ret].
  - apply wr_bind; [|intros; apply wr_ret]. unfold doc_range.
    assert (R : forall o s, wr doc_write (tscan o range_cb s)) by (intros; apply wr_tscan; intros; apply wr_ret).
    assert (F : forall r : result Z, wr doc_write (of_result r)) by (intros [a|e|]; [apply wr_ret | apply wr_fail | apply wr_panic]).
    apply wr_bind; [apply R|]. intros a. apply wr_bind; [apply F|]. intros a'. apply wr_bind; [apply R|]. intros b. apply wr_bind; [apply F|]. intros b'. apply wr_ret.
Qed.
Lemma tx_inv_new h d u : tx_inv (NewTxn h d u []).
Proof. split; [|intros x []]. intros k o X. cbn [NewTxn dt_t new_txn t_pend] in X. rewrite get_empty in X. discriminate. Qed.
Lemma resolve_seen s dbn coll cid : resolve s dbn coll = Some cid -> exists c, cacheCollectionInfo (option_map c_val s) dbn coll = Some c /\ ci_id c = cid.
Proof. unfold resolve. destruct (cacheCollectionInfo _ dbn coll) as [c|]; [|discriminate]. cbn [option_map]. intros E. exists c. split; [reflexivity | congruence]. Qed.
Lemma tx_inv_marked (mark : bool) x dbn coll cid : resolve (dt_start x) dbn coll = Some cid -> tx_inv x -> tx_inv (if mark then ReferredCollections x [cid] else x).
Proof.
  intros R [H1 H2]. destruct mark; [|split; assumption]. split; [exact H1|]. cbn [ReferredCollections dt_start dt_refs]. intros y Y. apply in_app_iff in Y. destruct Y as [Y|[<-|[]]]; [exact (H2 y Y)|].
  destruct (resolve_seen _ _ _ _ R) as (c & E1 & E2). eauto.
Qed.
Lemma tx_inv_wrote x t : tx_inv x -> Wrote.wrote doc_write (dt_t x) t -> tx_inv (with_t x t).
Proof. intros [H1 H2] [_ W]. split; [|exact H2]. cbn [with_t dt_t]. intros k o X. destruct (W k) as [Y|(o' & Y & Q)]; [rewrite Y in X; exact (H1 k o X) | assert (o' = o) by congruence; subst o'; exact Q]. Qed.
Lemma call_fields c x x' r : call_exec x c = (x', r) -> tx_inv x -> tx_inv x' /\ dt_start x' = dt_start x /\ dt_upd x' = dt_upd x.
Proof.
  intros E I. destruct c as [mark dbn coll o|mark dbn coll did data f]; cbn [call_exec] in E.
  - unfold with_coll in E. destruct (resolve (dt_start x) dbn coll) as [cid|] eqn:R; [|assert (x' = x) by congruence; subst; auto]. pose proof (tx_inv_marked mark x dbn coll cid R I) as I1. cbv zeta in E.
    destruct (op_tx cid o _) as [t v] eqn:Et. pose proof (wr_doc cid o _ _ _ Et) as W. assert (x' = with_t (if mark then ReferredCollections x [cid] else x) t) by congruence. subst x'.
    split; [apply tx_inv_wrote; assumption|]. destruct mark; auto.
  - destruct (resolve (dt_start x) dbn coll) as [cid|] eqn:R; [|assert (x' = x) by congruence; subst; auto]. pose proof (tx_inv_marked mark x dbn coll cid R I) as I1. cbv zeta in E.
    set (x1 := if mark then ReferredCollections x [cid] else x) in *. destruct (tset (docKey cid did) data (dt_t x1)) as [t v] eqn:Et.
    assert (W : Wrote.wrote doc_write (dt_t x1) t) by (eapply wr_tset; [apply doc_write_key, mk_exp | exact Et]). pose proof (tx_inv_wrote x1 t I1 W) as I2.
    assert (S1 : dt_start x1 = dt_start x /\ dt_upd x1 = dt_upd x) by (unfold x1; destruct mark; auto). destruct S1 as [S1 S2]. unfold AddCancelFunc in E. destruct (negb (dt_upd (with_t x1 t))).
    + assert (x' = with_t x1 t) by congruence. subst x'. split; [exact I2|]. cbn [with_t dt_start dt_upd]. auto.
    + match type of E with (?a, _) = _ => assert (x' = a) by congruence end. subst x'. split; [exact I2|]. cbn [with_t dt_start dt_upd]. auto.
Qed.

Section WithJson.
Variable J : json.
Hypothesis JO : json_ok J.

(** * Schema transactions, as the document transactions see them *)
Definition other_ok (t : txn) : Prop :=
  (forall c k, is_i64 c -> has_prefix k (docPrefix c) = true -> get (t_pend t) k = None) /\ (forall k e, get (t_pend t) k = Some (Some e) -> e_exp e = 0).
Definition moved (d d' : db) : Prop := d' = d \/ exists t io, other_ok t /\ d' = fst (fst (commit d t io)).
Lemma meta_other d t : Wrote.wrote meta_key (new_txn d true []) t -> (forall k e, get (t_pend t) k = Some (Some e) -> e_exp e = 0) -> other_ok t.
Proof.
  intros W E. split; [|exact E]. intros c k _ H. destruct (get (t_pend t) k) as [o|] eqn:G; [|reflexivity]. pose proof (MetaWrites.wrote_meta _ _ _ W k o G) as M. unfold meta_key in M.
  rewrite (DocLifeProofs.doc_not_meta c k H) in M. discriminate.
Qed.
Lemma update_moved {X} (m : Tx X) d0 d io : wr meta_key m -> (forall t a, m (new_txn d0 true []) = (t, Ok a) -> forall k e, get (t_pend t) k = Some (Some e) -> e_exp e = 0) ->
  moved d (fst (run_update d0 d m [] io)).
Proof.
  intros W E. destruct (run_update d0 d m [] io) as [d' r] eqn:U. cbn [fst]. destruct (run_update_cases _ _ _ _ _ _ _ U) as [(t & t' & a & _ & F & C)|[_ ->]]; [|left; reflexivity].
  right. exists t, io. rewrite C. split; [|reflexivity]. eapply meta_other; [exact (W _ _ _ F) | exact (E _ _ F)].
Qed.
Lemma covers_exp {X} (full core : Tx X) d0 t a : covers full core -> SerialProofs.eternal (d_kv d0) -> full (new_txn d0 true []) = (t, Ok a) -> forall k e, get (t_pend t) k = Some (Some e) -> e_exp e = 0.
Proof.
  intros C E0 H. destruct (C _ _ _ H eq_refl) as [M F]. destruct (F (new_txn d0 true [])) as (t2 & _ & _ & (_ & _ & T3) & _); [repeat split | split; [exact E0|]; split; [exact E0 | intros k e0 Q; discriminate Q] | reflexivity | exact T3].
Qed.
Lemma kend_moved T y D R st A n c d0 v io : kinv J T y D R st A -> k_open y n = Some (c, d0, v) -> moved (k_db y) (k_db (kend J (set_open y n None) c d0 v io)).
Proof.
  intros I H. destruct (ki_open _ _ _ _ _ _ _ I _ _ _ _ H) as ([_ E0] & _). destruct c as [i|i|p o|a b s|a b s]; cbn [kend set_open k_db k_vars k_open k_jobs].
  - destruct (ValidateCreateSchema i) as [e|]; [left; reflexivity|]. destruct (run_update d0 (k_db y) (CreateSchemaTx J i) [] io) as [d r] eqn:E. cbn [k_db]. change d with (fst (d, r)). rewrite <- E.
    apply update_moved; [apply MetaWrites.wr_CreateSchemaTx|]. intros t a F. exact (covers_exp _ _ d0 t a (covers_create J i) E0 F).
  - destruct (run_update d0 (k_db y) (AddIndexTx J i) [] io) as [d r] eqn:E. cbn [k_db]. change d with (fst (d, r)). rewrite <- E.
    apply update_moved; [apply MetaWrites.wr_AddIndexTx|]. intros t a F. exact (covers_exp _ _ d0 t a (covers_index J i) E0 F).
  - unfold iteration_at. destruct (iter_body J o v (new_txn d0 true [])) as [t r] eqn:E. destruct r as [x|e|]; [|left; reflexivity | left; reflexivity].
    destruct (i_res x) as [u|e|]; [|left; reflexivity | left; reflexivity]. right. exists t, io. split; [|destruct (commit (k_db y) t io) as [[d1 t1] [u1|e|]]; reflexivity].
    eapply meta_other; [exact (MetaWrites.wr_iter J o v _ _ _ E) | exact (proj1 (settled_pend _ d0 t _ (settled_iter J o v) E0 E))].
  - apply update_moved; [apply wr_loc_inc|]. intros t x F. exact (proj1 (settled_pend _ d0 t _ (settled_steady (fun _ => False) _ (steady_inc a b s)) E0 F)).
  - apply update_moved; [apply wr_loc_set|]. intros t x F. exact (proj1 (settled_pend _ d0 t _ (settled_steady (fun _ => False) _ (steady_put a b s)) E0 F)).
Qed.
Lemma kstep_moved T y D R st A e : kinv J T y D R st A -> gev_ok (GDdl e) -> moved (k_db y) (k_db (kstep J y e)).
Proof.
  intros I K. destruct e as [n c|n io|n|p|t io]; cbn [kstep]; try (left; reflexivity).
  - destruct (k_open y n) as [[[c d0] v]|] eqn:H; [exact (kend_moved T y D R st A n c d0 v io I H) | left; reflexivity].
  - cbn [gev_ok kev_ok] in K. destruct K as [K1 K2]. right. exists t, io. split; [|reflexivity]. split; [exact K2|]. intros k e G. exact (proj2 (K1 k _ G) e eq_refl).
Qed.

(** * The processes, as DomSerial.v sees them *)
Definition ftxn (o : option (nat * dtxn * option handle)) : option (nat * option cref) :=
  match o with Some (p, x, None) => Some (p, dt_start x) | _ => None end.
Definition fnew (g : gsys) (n : nat) : option (nat * option cref) := match g_new g n with Some (p, h) => Some (p, h_val h) | None => ftxn (g_tx g n) end.
Definition fof (g : gsys) : fsys := FSys (g_k g) (g_h g) (g_rel g) (fnew g) (g_next g).
Lemma finv_ext T G f f' D R st A : finv J T G f D R st A -> f_k f' = f_k f -> f_h f' = f_h f -> f_rel f' = f_rel f -> f_next f' = f_next f ->
  (forall n z, f_txn f' n = Some z -> f_txn f n = Some z) -> finv J T G f' D R st A.
Proof.
  intros [I1 I2 I3 I4 I5 I6 I7] E1 E2 E3 E4 E5. split; rewrite ?E1, ?E2, ?E3, ?E4; try assumption. intros n p s X. exact (I7 n p s (E5 n _ X)).
Qed.

(** * The logs *)
Definition like (e : entry) (d : deed) : Prop := n_sees e = shown_by (s_h d) /\ n_upd e = s_upd d /\ n_seen e = s_seen d /\ n_calls e = s_calls d.
Definition like_at (p : nat * entry) (q : nat * deed) : Prop := fst p = fst q /\ like (snd p) (snd q).
Record same_log (j : glog) (k : journal) : Prop := { sl_open : Forall2 like_at (l_open j) (j_open k); sl_done : Forall2 like (l_done j) (j_done k); sl_rest : Forall2 like (l_rest j) (j_rest k) }.
Lemma like_len {X Y} (P : X -> Y -> Prop) l l' : Forall2 P l l' -> length l = length l'.
Proof. induction 1; cbn [length]; congruence. Qed.
Lemma same_find n l l' : Forall2 like_at l l' -> match lfind n l, find_tx n l' with Some e, Some d => like e d | None, None => True | _, _ => False end.
Proof.
  unfold lfind, find_tx. induction 1 as [|[a e] [b d] l l' [E L] F IH]; cbn [find option_map]; [exact Logic.I|]. cbn [fst snd] in *. subst b. destruct (Nat.eqb n a); [exact L | exact IH].
Qed.
Lemma same_forget n l l' : Forall2 like_at l l' -> Forall2 like_at (lforget n l) (forget n l').
Proof.
  unfold lforget, forget. induction 1 as [|[a e] [b d] l l' [E L] F IH]; cbn [filter]; [constructor|]. cbn [fst snd] in *. subst b. destruct (negb (Nat.eqb n a)); [|exact IH]. constructor; [split; [reflexivity | exact L] | exact IH].
Qed.
Lemma same_left n l l' : Forall2 like_at l l' -> Forall2 like (lleft n l) (left_over n l').
Proof.
  intros F. pose proof (same_find n _ _ F) as X. unfold lleft, left_over. destruct (lfind n l), (find_tx n l'); try (destruct X; fail); [constructor; [exact X | constructor] | constructor].
Qed.
Lemma same_changed e d : like e d -> nchanged e = changed d.
Proof.
  intros (E1 & _ & _ & E4). unfold nchanged, changed. rewrite E1, E4. clear E4. induction (s_calls d) as [|[c r] l IH]; [reflexivity|]. cbn [existsb]. rewrite IH. f_equal.
  destruct c as [m dbn coll o|m dbn coll did data f]; [destruct r; reflexivity|]. destruct r as [v|x|]; [|reflexivity | reflexivity]. cbn [nwrote DocSerial.wrote]. unfold shown_by, resolve. destruct (cacheCollectionInfo _ dbn coll); reflexivity.
Qed.
Lemma same_begin j k n p u h : same_log j k ->
  same_log (GLog ((n, Entry p (shown_by h) u (length (l_done j)) []) :: lforget n (l_open j)) (l_done j) (l_rest j ++ lleft n (l_open j)))
           (Journal ((n, Deed h u (length (j_done k)) []) :: forget n (j_open k)) (j_done k) (j_rest k ++ left_over n (j_open k))).
Proof.
  intros [H1 H2 H3]. split; cbn [l_open j_open l_done j_done l_rest j_rest].
  - constructor; [|apply same_forget; exact H1]. split; [reflexivity|]. cbn [snd]. split; [reflexivity|]. split; [reflexivity|]. split; [|reflexivity]. cbn [n_seen s_seen]. exact (like_len _ _ _ H2).
  - exact H2.
  - apply Forall2_app; [exact H3 | apply same_left; exact H1].
Qed.
Lemma same_drop j k n : same_log j k ->
  same_log (GLog (lforget n (l_open j)) (l_done j) (l_rest j ++ lleft n (l_open j))) (Journal (forget n (j_open k)) (j_done k) (j_rest k ++ left_over n (j_open k))).
Proof. intros [H1 H2 H3]. split; cbn [l_open j_open l_done j_done l_rest j_rest]; [apply same_forget; exact H1 | exact H2 | apply Forall2_app; [exact H3 | apply same_left; exact H1]]. Qed.
Lemma same_call j k n c r g : same_log j k -> same_log (lstep g j (GCall n c) (AVal r)) (jstep k (DCall n c, AVal r)).
Proof.
  intros S. pose proof S as [H1 H2 H3]. pose proof (same_find n _ _ H1) as X. cbn [lstep jstep]. destruct (lfind n (l_open j)) as [e|], (find_tx n (j_open k)) as [d|]; try (destruct X; fail); try exact S.
  destruct X as (X1 & X2 & X3 & X4). split; cbn [l_open j_open l_done j_done l_rest j_rest]; try assumption.
  constructor; [|apply same_forget; exact H1]. split; [reflexivity|]. cbn [snd]. split; [exact X1|]. split; [exact X2|]. split; [exact X3|]. cbn [n_calls s_calls]. rewrite X4. reflexivity.
Qed.
Lemma same_commit j k n io h r g : same_log j k -> same_log (lstep g j (GCommit n io) (ADone r)) (jstep k (DCommit h n io, ADone r)).
Proof.
  intros S. pose proof S as [H1 H2 H3]. cbn [lstep jstep]. destruct r as [u|e|]; [|apply same_drop; exact S | apply same_drop; exact S].
  pose proof (same_find n _ _ H1) as X. destruct (lfind n (l_open j)) as [e|], (find_tx n (j_open k)) as [d|]; try (destruct X; fail); try exact S.
  rewrite (same_changed e d X). destruct (changed d); split; cbn [l_open j_open l_done j_done l_rest j_rest]; try assumption; try (apply same_forget; exact H1); (apply Forall2_app; [assumption|]; constructor; [exact X | constructor]).
Qed.

(** * The invariant *)
Variable now : Z.
Variable clamp : bool.
Definition w0 : dworld := dfresh now clamp.
Record ginv (T : Z) (es : list gev) (g : gsys) (j : glog) (des : list dev) (G : list (db * list Job)) (D R : list Job) (st : hstat) (A : mst) : Prop := {
  gi_f : finv J T G (fof g) D R st A;
  gi_tx : forall n p x o, g_tx g n = Some (p, x, o) -> tx_inv x /\ dw_tx (fst (dhist w0 des)) n = Some x /\ (o <> None -> dt_upd x = true) /\ g_new g n = None;
  gi_new : forall n p h, g_new g n = Some (p, h) -> cinv (applied D R st) h;
  gi_db : dw_db (fst (dhist w0 des)) = g_db g;
  gi_log : same_log j (journal_of w0 des);
  gi_begin : forall h i u, In (DBegin h i u) des -> cinv (applied D R st) h /\ In (GBegin i u) es;
  gi_call : forall i c, In (DCall i c) des -> In (GCall i c) es;
  gi_other : forall t io, In (DOther t io) des -> other_ok t
}.
(** nothing happens to the documents *)
Lemma ginv_skip T T' es e g g' j j' des G G' D R st A D' R' st' A' : ginv T es g j des G D R st A -> finv J T' G' (fof g') D' R' st' A' -> (exists l, applied D' R' st' = applied D R st ++ l) ->
  g_db g' = g_db g -> (forall n z, g_tx g' n = Some z -> g_tx g n = Some z) -> (forall n z, g_new g' n = Some z -> g_new g n = Some z) -> j' = j -> ginv T' (es ++ [e]) g' j' des G' D' R' st' A'.
Proof.
  intros [H1 H2 H0 H3 H4 H5 H6 H7] F (l & L) E1 E2 E3 ->. split.
  - exact F.
  - intros n p x o X. destruct (H2 n p x o (E2 n _ X)) as (Y1 & Y2 & Y3 & Y4). repeat (split; [assumption|]). destruct (g_new g' n) as [z|] eqn:Z; [apply E3 in Z; congruence | reflexivity].
  - intros n p h X. rewrite L. apply cinv_more. exact (H0 n p h (E3 n _ X)).
  - rewrite E1. exact H3.
  - exact H4.
  - intros h i u X. destruct (H5 h i u X) as [C P]. rewrite L. split; [apply cinv_more; exact C|]. apply in_or_app. auto.
  - intros i c X. apply in_or_app. left. exact (H6 i c X).
  - exact H7.
Qed.
(** one step of DocSerial.v *)
Lemma ginv_add T T' es e g g' j j' des G G' D R st A D' R' st' A' (de : dev) : ginv T es g j des G D R st A -> finv J T' G' (fof g') D' R' st' A' -> (exists l, applied D' R' st' = applied D R st ++ l) ->
  let w := fst (dhist w0 des) in
  dw_db (fst (dstep w de)) = g_db g' -> (forall n p x o, g_tx g' n = Some (p, x, o) -> tx_inv x /\ dw_tx (fst (dstep w de)) n = Some x /\ (o <> None -> dt_upd x = true) /\ g_new g' n = None) ->
  (forall n p h, g_new g' n = Some (p, h) -> g_new g n = Some (p, h) \/ cinv (applied D' R' st') h) ->
  same_log j' (jstep (journal_of w0 des) (de, snd (dstep w de))) ->
  match de with
  | DBegin h i u => cinv (applied D' R' st') h /\ e = GBegin i u
  | DCall i c => e = GCall i c
  | DOther t _ => other_ok t
  | _ => True
  end -> ginv T' (es ++ [e]) g' j' (des ++ [de]) G' D' R' st' A'.
Proof.
  intros [H1 H2 H0 H3 H4 H5 H6 H7] F (l & L) w E1 E2 EN E3 E4. split; rewrite ?DocSerialProofs.dhist_snoc, ?DocSerialProofs.journal_snoc; try assumption.
  - intros n p h X. destruct (EN n p h X) as [Y|Y]; [|exact Y]. rewrite L. apply cinv_more. exact (H0 n p h Y).
  - intros h i u X. apply in_app_iff in X. destruct X as [X|[X|[]]].
    + destruct (H5 h i u X) as [C P]. rewrite L. split; [apply cinv_more; exact C|]. apply in_or_app. auto.
    + rewrite X in E4. destruct E4 as [E4 ->]. split; [exact E4|]. apply in_or_app. right. left. reflexivity.
  - intros i c X. apply in_app_iff in X. apply in_or_app. destruct X as [X|[X|[]]]; [left; exact (H6 i c X)|]. rewrite X in E4. right. left. exact E4.
  - intros t io X. apply in_app_iff in X. destruct X as [X|[X|[]]]; [exact (H7 t io X)|]. rewrite X in E4. exact E4.
Qed.
Lemma survives_some p o z : survives p o = Some z -> o = Some z.
Proof. destruct o as [[[q x] h]|]; [|auto]. cbn [survives]. destruct (Nat.eqb q p); [discriminate | auto]. Qed.
Lemma stays_some p o z : stays p o = Some z -> o = Some z.
Proof. destruct o as [[q h]|]; [|auto]. cbn [stays]. destruct (Nat.eqb q p); [discriminate | auto]. Qed.
Lemma set_db_same k : set_db k (k_db k) = k.
Proof. destruct k. reflexivity. Qed.

Lemma gstep_inv T es g j des G D R st A e : ginv T es g j des G D R st A -> gev_ok e -> T + gweight g e < two63 ->
  exists des' G' D' R' st' A', ginv (T + gweight g e) (es ++ [e]) (fst (gstep J g e)) (lstep g j e (snd (gstep J g e))) des' G' D' R' st' A'.
Proof.
  intros I K LT. pose proof I as [H1 H2 H0 H3 H4 H5 H6 H7]. set (w := fst (dhist w0 des)) in *. destruct e as [e|p|p|n p|n u|n c|n|n io|n]; cbn [gweight] in *; rewrite ?Z.add_0_r in *.
  - assert (KE : kev_ok e) by (destruct e; cbn [gev_ok] in K; try exact K; apply K).
    destruct (fstep_inv J JO T G (fof g) D R st A (FDdl e) H1) as (D' & R' & st' & A' & F & GL & _ & _); [intros k Ek; assert (e = k) by congruence; subst k; exact KE | exact Logic.I | exact LT|].
    cbn [fweight fof f_k] in F.
    assert (F' : finv J (T + kweight (g_k g) e) (G ++ [(k_db (f_k (fstep J (fof g) (FDdl e))), applied D' R' st')]) (fof (fst (gstep J g (GDdl e)))) D' R' st' A').
    { eapply finv_ext; [exact F | ..]; cbn [fstep gstep fst]; destruct e as [n c|n io|n|p|t io]; try reflexivity; cbn [fof f_txn g_tx]; try (intros n0 z0 X0; exact X0).
      intros n z. unfold fnew at 1. cbn [g_new g_tx fof f_txn]. unfold gone, stays, survives, fnew. destruct (g_tx g n) as [[[q0 x0] o0]|] eqn:E0.
      - pose proof (H2 n q0 x0 o0 E0) as (_ & _ & _ & N0). rewrite N0. cbn [ftxn]. destruct o0 as [h0|]; destruct (Nat.eqb q0 p); try discriminate; auto.
      - destruct (g_new g n) as [[q h]|]; [destruct (Nat.eqb q p); [discriminate | auto] | discriminate]. }
    assert (TX : forall n z, g_tx (fst (gstep J g (GDdl e))) n = Some z -> g_tx g n = Some z).
    { intros n z. cbn [gstep fst]. destruct e; cbn [g_tx]; auto. apply survives_some. }
    assert (NW : forall n z, g_new (fst (gstep J g (GDdl e))) n = Some z -> g_new g n = Some z).
    { intros n z. cbn [gstep fst]. destruct e; cbn [g_new]; auto. apply stays_some. }
    assert (DB : g_db (fst (gstep J g (GDdl e))) = k_db (kstep J (g_k g) e)) by (cbn [gstep fst]; destruct e; reflexivity).
    assert (LG : lstep g j (GDdl e) (snd (gstep J g (GDdl e))) = j) by (destruct e; reflexivity).
    destruct (kstep_moved T (g_k g) D R st A e (fi_k _ _ _ _ _ _ _ _ H1) K) as [M|(t & io & M1 & M2)].
    + exists des, (G ++ [(k_db (f_k (fstep J (fof g) (FDdl e))), applied D' R' st')]), D', R', st', A'. eapply ginv_skip; [exact I | exact F' | exact GL | rewrite DB, M; reflexivity | exact TX | exact NW | exact LG].
    + exists (des ++ [DOther t io]), (G ++ [(k_db (f_k (fstep J (fof g) (FDdl e))), applied D' R' st')]), D', R', st', A'.
      assert (SD : dw_db (fst (dstep w (DOther t io))) = fst (fst (commit (dw_db w) t io)) /\ dw_tx (fst (dstep w (DOther t io))) = dw_tx w) by (cbn [dstep]; destruct (commit (dw_db w) t io) as [[d1 t1] r1]; auto).
      destruct SD as [SD1 SD2]. eapply ginv_add; [exact I | exact F' | exact GL | | | intros m q h X; left; exact (NW m _ X) | | exact M1]; fold w.
      * rewrite SD1, DB, M2, H3. reflexivity.
      * rewrite SD2. intros n p x o X. apply TX in X. destruct (H2 n p x o X) as (Y1 & Y2 & Y3 & Y4). repeat (split; [assumption|]). destruct (g_new (fst (gstep J g (GDdl e))) n) as [z|] eqn:Z; [apply NW in Z; congruence | reflexivity].
      * rewrite LG. exact H4.
  - destruct (fstep_inv J JO T G (fof g) D R st A (FReload p) H1) as (D' & R' & st' & A' & F & GL & _ & _); [discriminate | exact Logic.I | cbn [fweight]; lia|]. cbn [fweight] in F. rewrite Z.add_0_r in F.
    exists des, (G ++ [(k_db (f_k (fstep J (fof g) (FReload p))), applied D' R' st')]), D', R', st', A'. eapply ginv_skip; [exact I | | exact GL | | | | reflexivity].
    + eapply finv_ext; [exact F | ..]; cbn [fstep gstep fst fof f_rel]; destruct (g_rel g p); auto.
    + cbn [gstep fst]. destruct (g_rel g p); reflexivity.
    + cbn [gstep fst]. destruct (g_rel g p); auto.
    + cbn [gstep fst]. destruct (g_rel g p); auto.
  - destruct (fstep_inv J JO T G (fof g) D R st A (FReloaded p) H1) as (D' & R' & st' & A' & F & GL & _ & _); [discriminate | exact Logic.I | cbn [fweight]; lia|]. cbn [fweight] in F. rewrite Z.add_0_r in F.
    exists des, (G ++ [(k_db (f_k (fstep J (fof g) (FReloaded p))), applied D' R' st')]), D', R', st', A'. eapply ginv_skip; [exact I | | exact GL | | | | reflexivity].
    + eapply finv_ext; [exact F | ..]; cbn [fstep gstep fst fof f_rel f_h f_next]; destruct (g_rel g p) as [d|]; auto; destruct (reloadSchema J d (g_h g p) (g_next g)) as [h r]; auto.
    + cbn [gstep fst]. destruct (g_rel g p) as [d|]; [|reflexivity]. destruct (reloadSchema J d (g_h g p) (g_next g)) as [h r]. reflexivity.
    + cbn [gstep fst]. destruct (g_rel g p) as [d|]; [|auto]. destruct (reloadSchema J d (g_h g p) (g_next g)) as [h r]. auto.
    + cbn [gstep fst]. destruct (g_rel g p) as [d|]; [|auto]. destruct (reloadSchema J d (g_h g p) (g_next g)) as [h r]. auto.
  - destruct (fstep_inv J JO T G (fof g) D R st A (FTxn n p) H1) as (D' & R' & st' & A' & F & (l & GL) & _ & _); [discriminate | exact Logic.I | cbn [fweight]; lia|]. cbn [fweight] in F. rewrite Z.add_0_r in F.
    exists (des ++ [DDiscard n]), (G ++ [(k_db (f_k (fstep J (fof g) (FTxn n p))), applied D' R' st')]), D', R', st', A'. eapply ginv_add; [exact I | | exists l; exact GL | | | | |]; fold w; cbn [gstep dstep fst snd].
    + eapply finv_ext; [exact F | ..]; try reflexivity. cbn [fof fstep f_txn f_h]. intros m z. unfold fnew. cbn [g_new g_tx]. unfold upd. destruct (Nat.eqb m n); auto.
    + exact H3.
    + intros m q x o. cbn [g_tx g_new dw_tx]. unfold upd, dw_upd. destruct (Nat.eqb m n); [discriminate | apply H2].
    + intros m q h. cbn [g_new]. unfold upd. destruct (Nat.eqb m n); [|auto]. intros X. assert (h = g_h g p) by congruence. subst h. right. destruct (fi_h _ _ _ _ _ _ _ _ H1 p) as (_ & C & _). rewrite GL. apply cinv_more. exact C.
    + apply same_drop. exact H4.
    + exact Logic.I.
  - cbn [gstep fst snd]. destruct (g_new g n) as [[p h]|] eqn:Nw.
    2:{ exists des, G, D, R, st, A. eapply ginv_skip; [exact I | exact H1 | apply grew | reflexivity | auto | auto |]. cbn [lstep]. rewrite Nw. reflexivity. }
    exists (des ++ [DBegin h n u]), G, D, R, st, A. eapply ginv_add; [exact I | | apply grew | | | | |]; fold w; cbn [dstep fst snd].
    + eapply finv_ext; [exact H1 | ..]; try reflexivity. cbn [fof f_txn]. intros m z. unfold fnew. cbn [g_new g_tx]. unfold upd. destruct (Nat.eqb_spec m n) as [->|]; [|auto]. rewrite Nw. cbn [ftxn NewTxn dt_start]. auto.
    + exact H3.
    + intros m q x o. cbn [g_tx g_new dw_tx]. unfold upd, dw_upd. destruct (Nat.eqb m n); [|apply H2]. intros X. assert (X' : q = p /\ x = NewTxn h (g_db g) u [] /\ o = None) by (repeat split; congruence). destruct X' as (-> & -> & ->).
      split; [apply tx_inv_new|]. split; [rewrite H3; reflexivity | split; [congruence | reflexivity]].
    + intros m q h'. cbn [g_new]. unfold upd. destruct (Nat.eqb m n); [discriminate | auto].
    + cbn [lstep]. rewrite Nw. apply same_begin. exact H4.
    + split; [exact (H0 n p h Nw) | reflexivity].
  - cbn [gstep]. destruct (g_tx g n) as [[[p x] [h|]]|] eqn:E.
    1,3: (exists des, G, D, R, st, A; eapply ginv_skip; [exact I | exact H1 | apply grew | reflexivity | auto | auto | reflexivity]).
    destruct (H2 n p x None E) as (X1 & X2 & X3 & X4). destruct (call_exec x c) as [x' r] eqn:Ec. destruct (call_fields c x x' r Ec X1) as (Y1 & Y2 & Y3). cbn [fst snd].
    assert (SD : dstep w (DCall n c) = (DW (dw_db w) (dw_upd (dw_tx w) n (Some x')), AVal r)) by (cbn [dstep]; rewrite X2, Ec; reflexivity).
    exists (des ++ [DCall n c]), G, D, R, st, A. eapply ginv_add; [exact I | | apply grew | | | cbn [set_tx g_new]; auto | |]; fold w; rewrite ?SD; cbn [fst snd].
    + eapply finv_ext; [exact H1 | ..]; try reflexivity. cbn [fof f_txn]. intros m z. unfold fnew. cbn [set_tx g_tx g_new]. unfold upd. destruct (Nat.eqb_spec m n) as [->|]; [|auto]. rewrite X4, E. cbn [ftxn]. rewrite Y2. auto.
    + exact H3.
    + intros m q y o. cbn [set_tx g_tx dw_tx]. unfold upd, dw_upd. destruct (Nat.eqb_spec m n) as [->|]; [|apply H2]. intros X. assert (X' : y = x' /\ o = None) by (split; congruence). destruct X' as (-> & ->).
      split; [exact Y1|]. split; [reflexivity|]. split; [congruence | exact X4].
    + apply same_call. exact H4.
    + reflexivity.
  - cbn [gstep]. destruct (g_tx g n) as [[[p x] [h|]]|] eqn:E.
    1,3: (exists des, G, D, R, st, A; eapply ginv_skip; [exact I | exact H1 | apply grew | reflexivity | auto | auto | reflexivity]).
    destruct (H2 n p x None E) as (X1 & X2 & X3 & X4). destruct (dt_upd x) eqn:U; cbn [fst snd].
    2:{ exists des, G, D, R, st, A; eapply ginv_skip; [exact I | exact H1 | apply grew | reflexivity | auto | auto | reflexivity]. }
    assert (Ef : f_txn (fof g) n = Some (p, dt_start x)) by (cbn [fof f_txn]; unfold fnew; rewrite X4, E; reflexivity).
    destruct (fstep_inv J JO T G (fof g) D R st A (FCheck n false (dt_refs x)) H1) as (D' & R' & st' & A' & F & (l & GL) & _ & _); [discriminate | cbn [fev_ok]; rewrite Ef; exact (proj2 X1) | cbn [fweight]; lia|]. cbn [fweight] in F. rewrite Z.add_0_r in F.
    exists des, (G ++ [(k_db (f_k (fstep J (fof g) (FCheck n false (dt_refs x)))), applied D' R' st')]), D', R', st', A'.
    assert (F' : finv J T (G ++ [(k_db (f_k (fstep J (fof g) (FCheck n false (dt_refs x)))), applied D' R' st')])
                   (fof (GSys (g_k g) (upd (g_h g) p (fst (Check (g_h g p) false (dt_start x) (dt_refs x)))) (g_rel g) (upd (g_tx g) n (Some (p, x, Some (g_h g p)))) (g_new g) (g_next g))) D' R' st' A').
    { eapply finv_ext; [exact F | ..]; cbn [fstep]; rewrite Ef; try reflexivity. cbn [fof f_txn]. intros m z. unfold fnew. cbn [g_tx g_new]. unfold upd. destruct (Nat.eqb_spec m n) as [->|]; [rewrite X4; discriminate | auto]. }
    split; cbn [g_tx]; try assumption.
    + intros m q y o. unfold upd. destruct (Nat.eqb_spec m n) as [->|]; [|apply H2]. intros X. assert (X' : y = x) by congruence. subst y. split; [exact X1|]. split; [exact X2|]. split; [intros _; exact U | exact X4].
    + intros m q h X. rewrite GL. apply cinv_more. exact (H0 m q h X).
    + intros h i u X. destruct (H5 h i u X) as [C P]. rewrite GL. split; [apply cinv_more; exact C|]. apply in_or_app. auto.
    + intros i c X. apply in_or_app. left. exact (H6 i c X).
  - cbn [gstep]. destruct (g_tx g n) as [[[p x] [h|]]|] eqn:E.
    3: (exists des, G, D, R, st, A; eapply ginv_skip; [exact I | exact H1 | apply grew | reflexivity | auto | auto | reflexivity]).
    + destruct (H2 n p x (Some h) E) as (X1 & X2 & X3 & X4). specialize (X3 ltac:(discriminate)).
      assert (DC : snd (fst (fst (fst (dcommit h (g_db g) io x)))) = g_db g \/ snd (fst (fst (fst (dcommit h (g_db g) io x)))) = fst (fst (commit (g_db g) (dt_t x) io))).
      { unfold dcommit. rewrite X3. cbn [negb]. destruct (Check h false (dt_start x) (dt_refs x)) as [h1 [[|]| |]]; auto. destruct (commit (g_db g) (dt_t x) io) as [[d1 t1] [u|e|]]; auto. }
      assert (SD : dstep w (DCommit h n io) = (DW (snd (fst (fst (fst (dcommit h (g_db g) io x))))) (dw_upd (dw_tx w) n None), ADone (snd (fst (dcommit h (g_db g) io x))))).
      { cbn [dstep]. rewrite X2, H3. destruct (dcommit h (g_db g) io x) as [[[[h1 d1] x1] r] ran]. reflexivity. }
      destruct (dcommit h (g_db g) io x) as [[[[h1 d1] x1] r] ran] eqn:Ed. cbn [fst snd] in DC, SD |- *.
      assert (FF : exists G' D' R' st' A', finv J T G' (fof (GSys (set_db (g_k g) d1) (g_h g) (g_rel g) (upd (g_tx g) n None) (g_new g) (g_next g))) D' R' st' A' /\ exists l, applied D' R' st' = applied D R st ++ l).
      { destruct DC as [->| ->].
        - exists G, D, R, st, A. split; [|apply grew]. change (g_db g) with (k_db (g_k g)). rewrite set_db_same. eapply finv_ext; [exact H1 | ..]; try reflexivity. cbn [fof f_txn]. intros m z. unfold fnew. cbn [g_tx g_new]. unfold upd. destruct (g_new g m); [auto|]. destruct (Nat.eqb m n); [discriminate | auto].
        - destruct (fstep_inv J JO T G (fof g) D R st A (FDdl (KOther (dt_t x) io)) H1) as (D' & R' & st' & A' & F & GL & _ & _); [intros k Ek; assert (Ek' : KOther (dt_t x) io = k) by congruence; subst k; exact (proj1 X1) | exact Logic.I | cbn [fweight kweight]; lia|].
          cbn [fweight kweight] in F. rewrite Z.add_0_r in F. exists (G ++ [(k_db (f_k (fstep J (fof g) (FDdl (KOther (dt_t x) io)))), applied D' R' st')]), D', R', st', A'. split; [|exact GL].
          eapply finv_ext; [exact F | ..]; try reflexivity. cbn [fof fstep f_txn]. intros m z. unfold fnew. cbn [g_tx g_new]. unfold upd. destruct (g_new g m); [auto|]. destruct (Nat.eqb m n); [discriminate | auto]. }
      destruct FF as (G' & D' & R' & st' & A' & F & GL). exists (des ++ [DCommit h n io]), G', D', R', st', A'. eapply ginv_add; [exact I | exact F | exact GL | | | cbn [g_new]; auto | | exact Logic.I]; fold w; rewrite ?SD; cbn [fst snd].
      * reflexivity.
      * intros m q y o. cbn [g_tx dw_tx]. unfold upd, dw_upd. destruct (Nat.eqb m n); [discriminate | apply H2].
      * apply same_commit. exact H4.
    + destruct (H2 n p x None E) as (X1 & X2 & _ & X4). destruct (dt_upd x) eqn:U; cbn [fst snd].
      { exists des, G, D, R, st, A; eapply ginv_skip; [exact I | exact H1 | apply grew | reflexivity | auto | auto | reflexivity]. }
      assert (SD : dstep w (DCommit NewHandle n io) = (DW (dw_db w) (dw_upd (dw_tx w) n None), ADone (Ok tt))) by (cbn [dstep]; rewrite X2; unfold dcommit; rewrite U; reflexivity).
      exists (des ++ [DCommit NewHandle n io]), G, D, R, st, A. eapply ginv_add; [exact I | | apply grew | | | cbn [set_tx g_new]; auto | | exact Logic.I]; fold w; rewrite ?SD; cbn [fst snd].
      * eapply finv_ext; [exact H1 | ..]; try reflexivity. cbn [fof f_txn]. intros m z. unfold fnew. cbn [set_tx g_tx g_new]. unfold upd. destruct (g_new g m); [auto|]. destruct (Nat.eqb m n); [discriminate | auto].
      * exact H3.
      * intros m q y o. cbn [set_tx g_tx dw_tx]. unfold upd, dw_upd. destruct (Nat.eqb m n); [discriminate | apply H2].
      * apply same_commit. exact H4.
  - cbn [gstep]. exists (des ++ [DDiscard n]), G, D, R, st, A. eapply ginv_add; [exact I | | apply grew | | | cbn [set_tx g_new]; auto | | exact Logic.I]; fold w; cbn [dstep fst snd].
    + eapply finv_ext; [exact H1 | ..]; try reflexivity. cbn [fof f_txn]. intros m z. unfold fnew. cbn [set_tx g_tx g_new]. unfold upd. destruct (g_new g m); [auto|]. destruct (Nat.eqb m n); [discriminate | auto].
    + exact H3.
    + intros m q y o. cbn [set_tx g_tx dw_tx]. unfold upd, dw_upd. destruct (Nat.eqb m n); [discriminate | apply H2].
    + apply same_drop. exact H4.
Qed.

Lemma gweight_nonneg g e : 0 <= gweight g e.
Proof. destruct e; cbn [gweight]; try lia. apply kweight_nonneg. Qed.
Lemma gload_nonneg es : forall g, 0 <= gload J g es.
Proof. induction es as [|e es IH]; intros g; cbn [gload]; [lia|]. pose proof (gweight_nonneg g e). pose proof (IH (fst (gstep J g e))). lia. Qed.
Lemma worked_inv es' : forall T es g j des G D R st A, ginv T es g j des G D R st A -> Forall gev_ok es' -> T + gload J g es' < two63 ->
  exists des' G' D' R' st' A', ginv (T + gload J g es') (es ++ es') (fst (worked J g j es')) (snd (worked J g j es')) des' G' D' R' st' A'.
Proof.
  induction es' as [|e es' IH]; intros T es g j des G D R st A I F LT; cbn [gload worked] in *.
  { exists des, G, D, R, st, A. rewrite Z.add_0_r, app_nil_r. exact I. }
  inversion F as [|? ? F1 F2]; subst. pose proof (gload_nonneg es' (fst (gstep J g e))) as L0.
  destruct (gstep_inv T es g j des G D R st A e I F1 ltac:(lia)) as (des1 & G1 & D1 & R1 & st1 & A1 & I1). destruct (gstep J g e) as [g1 a]. cbn [fst snd] in *.
  destruct (IH _ _ _ _ _ _ _ _ _ _ I1 F2 ltac:(lia)) as (des2 & G2 & D2 & R2 & st2 & A2 & I2). exists des2, G2, D2, R2, st2, A2. rewrite <- app_assoc in I2. rewrite Z.add_assoc. exact I2.
Qed.
Lemma gstart_inv : ginv 0 [] (gstart (db_init now clamp)) log0 [] [(db_init now clamp, [])] [] [] HFresh m_empty.
Proof.
  split.
  - eapply finv_ext; [apply (fstart_inv J (db_init now clamp)); [apply P_Ddl.empty_holds; [apply db_ok_init | intros k _; reflexivity] | intros k e X; discriminate X] | ..]; try reflexivity. cbn [fof f_txn]. intros n z. unfold fnew. cbn [gstart g_new g_tx ftxn]. discriminate.
  - discriminate.
  - discriminate.
  - reflexivity.
  - split; constructor.
  - intros h i u [].
  - intros i c [].
  - intros t io [].
Qed.

(** * Names and ids *)
Lemma lookup_range T y D R st A a b k : kinv J T y D R st A -> T < two63 -> lookup (applied D R st) a b = Some k -> is_i64 (ci_id k).
Proof.
  intros I LT H. unfold ProcessIds.lookup in H. destruct (find (by_name a) (dbs_of (applied D R st))) as [x|] eqn:F; [|discriminate]. apply ProcessIds.find_by_name in F. destruct F as [F _].
  apply (ProcessProofs.applied_range J _ _ _ _ _ _ (di_id x) (ci_id k) (ki_sys _ _ _ _ _ _ _ I) LT). apply ProcessProofs.seqs_in. exists x, k. split; [exact F|]. split; [|auto].
  destruct (di_colls x) as [m|]; [|discriminate H]. cbn [mget] in H. cbn [vals]. apply get_in in H. apply (in_map snd) in H. exact H.
Qed.
Definition agree (L : list Job) (D : dstore) (N : ndocs) : Prop := forall a b k, lookup L a b = Some k -> D (ci_id k) = N a b.
Definition ids_apart (L : list Job) : Prop := forall a b a' b' k k', lookup L a b = Some k -> lookup L a' b' = Some k' -> ci_id k = ci_id k' -> a = a' /\ b = b'.
Lemma cached_lookup L h a b c : cinv L h -> resolve (h_val h) a b = Some c -> exists k, lookup L a b = Some k /\ ci_id k = c.
Proof.
  intros C H. destruct (resolve_seen _ _ _ _ H) as (ci & E & <-). destruct (ProcessIds.seen_prefix L h a b ci C E) as (L0 & L1 & k & -> & _ & K & Ei). exists k. split; [apply ProcessIds.lookup_more; exact K | auto].
Qed.
Lemma shown_resolve h a b : shown_by h a b = match resolve (h_val h) a b with Some _ => true | None => false end.
Proof. unfold shown_by, resolve. destruct (cacheCollectionInfo _ a b); reflexivity. Qed.
Lemma agree_upd L D N a b k m : ids_apart L -> agree L D N -> lookup L a b = Some k -> agree L (dupd D (ci_id k) m) (nupd N a b m).
Proof.
  intros AP H K a' b' k' K'. unfold dupd, nupd. destruct (Z.eqb_spec (ci_id k') (ci_id k)) as [E|NE].
  - destruct (AP _ _ _ _ _ _ K' K E) as [-> ->]. rewrite !bytes_eqb_refl. reflexivity.
  - destruct (bytes_eqb a' a && bytes_eqb b' b) eqn:E; [|apply H; exact K']. apply andb_true_iff in E. destruct E as [E1 E2]. apply bytes_eqb_eq in E1, E2. subst a' b'. congruence.
Qed.
Lemma call_names L h D N c : ids_apart L -> cinv L h -> agree L D N ->
  fst (ncall_spec (shown_by h) N c) = fst (call_spec h D c) /\ agree L (snd (call_spec h D c)) (snd (ncall_spec (shown_by h) N c)).
Proof.
  intros AP C H. destruct c as [m a b o|m a b did data f]; cbn [ncall_spec call_spec].
  - unfold nop. rewrite shown_resolve. destruct (resolve (h_val h) a b) as [c|] eqn:R; cbn [store_spec]; [|split; [reflexivity | exact H]].
    destruct (cached_lookup _ _ _ _ _ C R) as (k & K & <-). rewrite (H a b k K). destruct (doc_spec (N a b) o) as [r x]. cbn [fst snd]. split; [reflexivity | apply agree_upd; assumption].
  - rewrite shown_resolve. destruct (resolve (h_val h) a b) as [c|] eqn:R; cbn [fst snd]; [|split; [reflexivity | exact H]]. split; [reflexivity|].
    destruct (cached_lookup _ _ _ _ _ C R) as (k & K & <-). rewrite (H a b k K). apply agree_upd; assumption.
Qed.
Lemma calls_names L h l : ids_apart L -> cinv L h -> forall D N, agree L D N ->
  fst (ncalls_spec (shown_by h) N l) = fst (calls_spec h D l) /\ agree L (snd (calls_spec h D l)) (snd (ncalls_spec (shown_by h) N l)).
Proof.
  intros AP C. induction l as [|c l IH]; intros D N H; cbn [ncalls_spec calls_spec]; [auto|]. destruct (call_names L h D N c AP C H) as [E1 H1]. destruct (call_spec h D c) as [r D1], (ncall_spec (shown_by h) N c) as [r' N1]. cbn [fst snd] in *. subst r'.
  destruct (IH D1 N1 H1) as [E2 H2]. destruct (calls_spec h D1 l) as [rs D2], (ncalls_spec (shown_by h) N1 l) as [rs' N2]. cbn [fst snd] in *. subst rs'. auto.
Qed.
Lemma like_calls e d : like e d -> e_calls e = calls d /\ e_answers e = answers d.
Proof. intros (_ & _ & _ & E). unfold e_calls, calls, e_answers, answers. rewrite E. auto. Qed.
Lemma entry_names L e d D N : ids_apart L -> cinv L (s_h d) -> like e d -> agree L D N ->
  (e_answers e = fst (ncalls_spec (n_sees e) N (e_calls e)) <-> answers d = fst (calls_spec (s_h d) D (calls d))) /\ agree L (snd (calls_spec (s_h d) D (calls d))) (snd (ncalls_spec (n_sees e) N (e_calls e))).
Proof.
  intros AP C K H. destruct (like_calls e d K) as [-> ->]. rewrite (proj1 K). destruct (calls_names L (s_h d) (calls d) AP C D N H) as [-> H']. split; [tauto | exact H'].
Qed.
Lemma replays_names L l l' : ids_apart L -> Forall2 like l l' -> (forall d, In d l' -> cinv L (s_h d)) -> forall D N, agree L D N -> replays D l' -> nreplays N l.
Proof.
  intros AP F. induction F as [|e d l l' K F IH]; intros C D N H X; [exact Logic.I|]. cbn [replays nreplays] in *. destruct X as [X1 X2]. destruct (entry_names L e d D N AP (C d (or_introl eq_refl)) K H) as [[_ Q] H']. split; [exact (Q X1)|].
  eapply IH; [intros x Ix; apply C; right; exact Ix | exact H' | exact X2].
Qed.
Lemma after_names L l l' : ids_apart L -> Forall2 like l l' -> (forall d, In d l' -> cinv L (s_h d)) -> forall D N, agree L D N ->
  agree L (fold_left (fun D d => snd (calls_spec (s_h d) D (calls d))) l' D) (fold_left (fun N e => snd (ncalls_spec (n_sees e) N (e_calls e))) l N).
Proof.
  intros AP F. induction F as [|e d l l' K F IH]; intros C D N H; [exact H|]. cbn [fold_left]. destruct (entry_names L e d D N AP (C d (or_introl eq_refl)) K H) as [_ H']. apply IH; [intros x Ix; apply C; right; exact Ix | exact H'].
Qed.
Lemma forall2_firstn {X Y} (P : X -> Y -> Prop) n : forall l l', Forall2 P l l' -> Forall2 P (firstn n l) (firstn n l').
Proof. induction n as [|n IH]; intros l l' F; [constructor|]. destruct F; cbn [firstn]; constructor; auto. Qed.
Lemma forall2_in {X Y} (P : X -> Y -> Prop) l l' x : Forall2 P l l' -> In x l -> exists y, In y l' /\ P x y.
Proof. induction 1 as [|a b l l' K F IH]; intros I; [destruct I|]. destruct I as [<-|I]; [exists b; cbn; auto|]. destruct (IH I) as (y & Y1 & Y2). exists y. cbn; auto. Qed.
Lemma forall2_nth {X Y} (P : X -> Y -> Prop) l l' : Forall2 P l l' -> forall n x, nth_error l n = Some x -> exists y, nth_error l' n = Some y /\ P x y.
Proof. induction 1 as [|a b l l' K F IH]; intros [|n] x E; try discriminate E; cbn [nth_error] in *; [exists b; split; [reflexivity|]; assert (x = a) by congruence; subst; exact K | apply IH; exact E]. Qed.
Lemma forall2_sym {X Y} (P : X -> Y -> Prop) l l' : Forall2 P l l' -> Forall2 (fun y x => P x y) l' l.
Proof. induction 1; constructor; auto. Qed.

(** every transaction of a journal began *)
Definition began (des : list dev) (d : deed) : Prop := exists i, In (DBegin (s_h d) i (s_upd d)) des.
Lemma began_more des e d : began des d -> began (des ++ [e]) d.
Proof. intros (i & H). exists i. apply in_or_app. auto. Qed.
Lemma find_in n l d : find_tx n l = Some d -> In (n, d) l.
Proof.
  unfold find_tx. destruct (find _ l) as [[m x]|] eqn:F; [|discriminate]. apply find_some in F. destruct F as [F E]. cbn [fst] in E. apply Nat.eqb_eq in E. subst m. cbn [option_map snd]. intros X. assert (x = d) by congruence. subst x. exact F.
Qed.
Lemma forget_in n l x : In x (forget n l) -> In x l.
Proof. unfold forget. rewrite filter_In. tauto. Qed.
Lemma journal_began w des : (forall i d, In (i, d) (j_open (journal_of w des)) -> began des d) /\ forall d, In d (j_rest (journal_of w des) ++ j_done (journal_of w des)) -> began des d.
Proof.
  induction des as [|e des [IH1 IH2]] using rev_ind; [split; [intros i d [] | intros d []]|]. rewrite DocSerialProofs.journal_snoc. set (k := journal_of w des) in *. set (a := snd (dstep (fst (dhist w des)) e)). clearbody a.
  assert (K1 : forall i d, In (i, d) (j_open k) -> began (des ++ [e]) d) by (intros i d X; apply began_more; eapply IH1; exact X).
  assert (K2 : forall d, In d (j_rest k) \/ In d (j_done k) -> began (des ++ [e]) d) by (intros d X; apply began_more, IH2, in_app_iff; exact X).
  assert (KF : forall n i d, In (i, d) (forget n (j_open k)) -> began (des ++ [e]) d) by (intros n i d X; apply forget_in in X; eapply K1; exact X).
  assert (KL : forall n d, In d (left_over n (j_open k)) -> began (des ++ [e]) d).
  { intros n d X. unfold left_over in X. destruct (find_tx n (j_open k)) as [y|] eqn:Y; [|destruct X]. destruct X as [<-|[]]. apply find_in in Y. eapply K1. exact Y. }
  assert (SAME : (forall i d, In (i, d) (j_open k) -> began (des ++ [e]) d) /\ forall d, In d (j_rest k ++ j_done k) -> began (des ++ [e]) d) by (split; [exact K1 | intros d X; apply K2, in_app_iff; exact X]).
  assert (DROP : forall n, (forall i d, In (i, d) (forget n (j_open k)) -> began (des ++ [e]) d) /\ forall d, In d ((j_rest k ++ left_over n (j_open k)) ++ j_done k) -> began (des ++ [e]) d).
  { intros n. split; [apply KF|]. intros d X. rewrite !in_app_iff in X. destruct X as [[X|X]|X]; [apply K2; auto | eapply KL; exact X | apply K2; auto]. }
  destruct e as [h i u|i c|h i io|i|t io|n]; cbn [jstep]; try exact SAME.
  - cbn [j_open j_rest j_done]. split; [|apply DROP]. intros m d [X|X]; [|eapply KF; exact X]. assert (X' : d = Deed h u (length (j_done k)) []) by congruence. subst d. exists i. cbn [s_h s_upd]. apply in_or_app. right. left. reflexivity.
  - destruct a as [r|r|]; try exact SAME. destruct (find_tx i (j_open k)) as [y|] eqn:Y; [|exact SAME]. cbn [j_open j_rest j_done]. split; [|apply SAME]. intros m d [X|X]; [|eapply KF; exact X]. apply find_in in Y. pose proof (K1 _ _ Y) as B.
    assert (X' : d = Deed (s_h y) (s_upd y) (s_seen y) (s_calls y ++ [(c, r)])) by congruence. subst d. exact B.
  - destruct a as [r|[r|r|]|]; try apply DROP; try exact SAME. destruct (find_tx i (j_open k)) as [y|] eqn:Y; [|exact SAME]. apply find_in in Y. pose proof (K1 _ _ Y) as B.
    destruct (changed y); cbn [j_open j_rest j_done]; (split; [apply KF|]); intros d X; rewrite !in_app_iff in X.
    + destruct X as [X|[X|[<-|[]]]]; [apply K2; auto | apply K2; auto | exact B].
    + destruct X as [[X|[<-|[]]]|X]; [apply K2; auto | exact B | apply K2; auto].
  - apply DROP.
Qed.

(** * Everything together *)
Record named (es : list gev) (j : glog) (des : list dev) (L : list Job) : Prop := {
  nm_hist : history_ok des;
  nm_log : same_log j (journal_of w0 des);
  nm_ids : ids_apart L;
  nm_open : forall n d, find_tx n (j_open (journal_of w0 des)) = Some d -> cinv L (s_h d);
  nm_done : forall d, In d (j_rest (journal_of w0 des) ++ j_done (journal_of w0 des)) -> cinv L (s_h d)
}.
Lemma named_now es : world_ok J (db_init now clamp) es -> let g := fst (worked J (gstart (db_init now clamp)) log0 es) in
  exists des L, named es (snd (worked J (gstart (db_init now clamp)) log0 es)) des L /\
  (forall n p x o, g_tx g n = Some (p, x, o) -> dw_tx (fst (dhist w0 des)) n = Some x) /\ dw_db (fst (dhist w0 des)) = g_db g.
Proof.
  intros (F & RO & LT) g. destruct (worked_inv es 0 _ _ _ _ _ _ _ _ _ gstart_inv F ltac:(lia)) as (des & G & D & R & st & A & I). rewrite Z.add_0_l, app_nil_l in I. set (L := applied D R st) in *. exists des, L.
  destruct I as [H1 H2 H0 H3 H4 H5 H6 H7]. split; [|split; [intros n p x o X; exact (proj1 (proj2 (H2 n p x o X))) | exact H3]]. pose proof (fi_k _ _ _ _ _ _ _ _ H1) as K.
  assert (OK : forall i c, In (GCall i c) es -> gev_ok (GCall i c)) by (intros i c X; rewrite Forall_forall in F; apply F; exact X).
  destruct (journal_began w0 des) as [B1 B2]. split.
  - split.
    + intros h i u X dbn coll c Rs. destruct (H5 h i u X) as [C _]. destruct (cached_lookup L h dbn coll c C Rs) as (k & Kk & <-). eapply lookup_range; [exact K | exact LT | exact Kk].
    + intros i c X. apply (OK i c (H6 i c X)).
    + intros i c X. apply (OK i c (H6 i c X)).
    + intros h i c X Y. destruct (H5 h i false X) as [_ P]. exact (RO i c P (H6 i c Y)).
    + exact H7.
  - exact H4.
  - intros a b a' b' k k' K1 K2 E. eapply ProcessIds.lookup_inj; [|exact K1 | exact K2 | exact E]. exact (ProcessProofs.applied_ids J _ _ _ _ _ _ (ki_sys _ _ _ _ _ _ _ K)).
  - intros n d X. apply find_in in X. destruct (B1 _ _ X) as (i & Y). exact (proj1 (H5 _ _ _ Y)).
  - intros d X. destruct (B2 d X) as (i & Y). exact (proj1 (H5 _ _ _ Y)).
Qed.
Lemma named_run es : world_ok J (db_init now clamp) es -> exists des L, named es (snd (worked J (gstart (db_init now clamp)) log0 es)) des L.
Proof. intros H. destruct (named_now es H) as (des & L & N & _). exists des, L. exact N. Qed.
Lemma agree_none L : agree L (fun _ => []) no_docs.
Proof. intros a b k _. reflexivity. Qed.
Lemma scan_like l l' : Forall2 like l l' -> scan_free l -> forall d, In d l' -> forallb (fun c => negb (scans c)) (calls d) = true.
Proof.
  intros F H d I. destruct (forall2_in _ _ _ d (forall2_sym _ _ _ F) I) as (e & Ie & K). destruct (like_calls e d K) as [<- _]. exact (H e Ie).
Qed.
End WithJson.

(** * The part of a history DomSerial.v has *)
Section Caches.
Variable J : json.
Definition grun (g : gsys) (es : list gev) : gsys := fold_left (fun g e => fst (gstep J g e)) es g.
Lemma worked_fst es : forall g j, fst (worked J g j es) = grun g es.
Proof. induction es as [|e es IH]; intros g j; [reflexivity|]. unfold grun. cbn [worked fold_left]. destruct (gstep J g e) as [g1 a]. cbn [fst]. rewrite IH. reflexivity. Qed.
Lemma grun_app g es es' : grun g (es ++ es') = grun (grun g es) es'.
Proof. apply fold_left_app. Qed.
Definition tinv (g : gsys) : Prop := forall n p x o, g_tx g n = Some (p, x, o) -> tx_inv x /\ (o <> None -> dt_upd x = true) /\ g_new g n = None.
Record frel (g : gsys) (f : fsys) : Prop := {
  fr_k : f_k f = g_k g; fr_h : f_h f = g_h g; fr_rel : f_rel f = g_rel g; fr_next : f_next f = g_next g;
  fr_tx : forall n z, fnew g n = Some z -> f_txn f n = Some z }.
Definition gproj (g : gsys) (e : gev) : list fev :=
  match e with
  | GDdl e => [FDdl e]
  | GReload p => [FReload p]
  | GReloaded p => [FReloaded p]
  | GGet n p => [FTxn n p]
  | GCheck n => match g_tx g n with Some (_, x, None) => if dt_upd x then [FCheck n false (dt_refs x)] else [] | _ => [] end
  | GCommit n io =>
      match g_tx g n with
      | Some (_, x, Some h) => match snd (Check h false (dt_start x) (dt_refs x)) with CkRes true => [FDdl (KOther (dt_t x) io)] | _ => [] end
      | _ => []
      end
  | _ => []
  end.
Lemma tinv_step g e : tinv g -> tinv (fst (gstep J g e)).
Proof.
  intros H. destruct e as [e|p|p|n p|n u|n c|n|n io|n]; cbn [gstep].
  - destruct e as [m c|m io|m|q|t io]; try exact H. intros n p x o. cbn [fst g_tx g_new]. intros X. apply survives_some in X. destruct (H n p x o X) as (Y1 & Y2 & Y3). rewrite Y3. auto.
  - destruct (g_rel g p); exact H.
  - destruct (g_rel g p) as [d|]; [|exact H]. destruct (reloadSchema J d (g_h g p) (g_next g)). exact H.
  - intros m q x o. cbn [fst g_tx g_new]. unfold upd. destruct (Nat.eqb m n); [discriminate | apply H].
  - destruct (g_new g n) as [[p h]|]; [|exact H]. intros m q x o. cbn [fst g_tx g_new]. unfold upd. destruct (Nat.eqb m n); [|apply H]. intros X. assert (X' : x = NewTxn h (g_db g) u [] /\ o = None) by (split; congruence). destruct X' as [-> ->]. split; [apply tx_inv_new | split; [congruence | reflexivity]].
  - destruct (g_tx g n) as [[[p x] [h|]]|] eqn:E; try exact H. destruct (call_exec x c) as [x' r] eqn:Ec. destruct (call_fields c x x' r Ec (proj1 (H _ _ _ _ E))) as (Y1 & _). intros m q y o. cbn [fst set_tx g_tx]. unfold upd.
    destruct (Nat.eqb_spec m n) as [->|]; [|apply H]. intros X. assert (X' : y = x' /\ o = None) by (split; congruence). destruct X' as [-> ->]. split; [exact Y1 | split; [congruence | exact (proj2 (proj2 (H _ _ _ _ E)))]].
  - destruct (g_tx g n) as [[[p x] [h|]]|] eqn:E; try exact H. destruct (dt_upd x) eqn:U; [|exact H]. intros m q y o. cbn [fst g_tx g_new]. unfold upd. destruct (Nat.eqb_spec m n) as [->|]; [|apply H]. intros X. assert (y = x) by congruence. subst y. split; [exact (proj1 (H _ _ _ _ E)) | split; [auto | exact (proj2 (proj2 (H _ _ _ _ E)))]].
  - destruct (g_tx g n) as [[[p x] [h|]]|] eqn:E; try exact H.
    + destruct (dcommit h (g_db g) io x) as [[[[h1 d1] x1] r] ran]. intros m q y o. cbn [fst g_tx]. unfold upd. destruct (Nat.eqb m n); [discriminate | apply H].
    + destruct (dt_upd x); [exact H|]. intros m q y o. cbn [fst set_tx g_tx]. unfold upd. destruct (Nat.eqb m n); [discriminate | apply H].
  - intros m q y o. cbn [fst set_tx g_tx]. unfold upd. destruct (Nat.eqb m n); [discriminate | apply H].
Qed.
Lemma gproj_step g f e : tinv g -> frel g f -> gev_ok e ->
  frel (fst (gstep J g e)) (frun J f (gproj g e)) /\ fok J f (gproj g e) /\ Forall kev_ok (ddl_of (gproj g e)) /\ kload J (f_k f) (ddl_of (gproj g e)) = gweight g e.
Proof.
  intros H [F1 F2 F3 F4 F5] K. destruct e as [e|p|p|n p|n u|n c|n|n io|n]; cbn [gproj gstep gweight].
  - assert (KE : kev_ok e) by (destruct e; cbn [gev_ok] in K; try exact K; apply K). split; [|split; [repeat split|]; split; [constructor; [exact KE | constructor] | cbn [ddl_of flat_map app kload]; rewrite F1; lia]].
    unfold frun. cbn [fold_left fstep]. rewrite F1, F2, F3, F4. destruct e as [m c|m io|m|q|t io]; split; cbn [fst f_k f_h f_rel f_next f_txn g_k g_h g_rel g_next g_tx]; try reflexivity; try exact F5.
    intros n z X. unfold gone. unfold fnew in X. cbn [g_new g_tx] in X. destruct (g_tx g n) as [[[r x] o]|] eqn:E.
    2:{ destruct (g_new g n) as [[r h]|] eqn:E1; [|discriminate X]. cbn [stays] in X. destruct (Nat.eqb r q) eqn:Q; [discriminate X|]. rewrite (F5 n (r, h_val h)) by (unfold fnew; rewrite E1; reflexivity). rewrite Q. exact X. }
    destruct (H _ _ _ _ E) as (_ & _ & E1). rewrite E1 in X. cbn [stays survives] in X. destruct (Nat.eqb r q) eqn:Q; [discriminate X|]. destruct o as [h|]; [discriminate X|]. cbn [ftxn] in X.
    rewrite (F5 n (r, dt_start x)) by (unfold fnew; rewrite E1, E; reflexivity). rewrite Q. exact X.
  - split; [|repeat split; constructor]. unfold frun. cbn [fold_left fstep]. rewrite F3. destruct (g_rel g p) eqn:E; cbn [fst]; [split; assumption|]. split; cbn [f_k f_h f_rel f_next f_txn g_k g_h g_rel g_next g_tx]; try assumption. unfold g_db. rewrite F1. rewrite <- F3. reflexivity.
  - split; [|repeat split; constructor]. unfold frun. cbn [fold_left fstep]. rewrite F2, F3, F4. destruct (g_rel g p) as [d|] eqn:E; cbn [fst]; [|split; assumption]. destruct (reloadSchema J d (g_h g p) (g_next g)) as [h r]. split; cbn [fst f_k f_h f_rel f_next f_txn g_k g_h g_rel g_next g_tx]; try assumption; try reflexivity.
  - split; [|repeat split; constructor]. unfold frun. cbn [fold_left fstep]. split; cbn [fst f_k f_h f_rel f_next f_txn g_k g_h g_rel g_next]; try assumption. intros m z. unfold fnew. cbn [g_new g_tx]. unfold upd. destruct (Nat.eqb m n); [|apply F5]. rewrite F2. auto.
  - split; [|repeat split; constructor]. cbn [frun fold_left]. destruct (g_new g n) as [[p h]|] eqn:E; cbn [fst]; [|split; assumption]. split; cbn [f_k f_h f_rel f_next f_txn g_k g_h g_rel g_next]; try assumption.
    intros m z. unfold fnew. cbn [g_new g_tx]. unfold upd. destruct (Nat.eqb_spec m n) as [->|]; [|apply F5]. cbn [ftxn NewTxn dt_start]. intros X. apply F5. unfold fnew. rewrite E. exact X.
  - split; [|repeat split; constructor]. cbn [frun fold_left]. destruct (g_tx g n) as [[[p x] [h|]]|] eqn:E; cbn [fst]; try (split; assumption). destruct (call_exec x c) as [x' r] eqn:Ec. destruct (call_fields c x x' r Ec (proj1 (H _ _ _ _ E))) as (_ & Y2 & _). pose proof (proj2 (proj2 (H _ _ _ _ E))) as E1.
    split; cbn [fst set_tx f_k f_h f_rel f_next f_txn g_k g_h g_rel g_next g_tx]; try assumption. intros m z. unfold fnew. cbn [set_tx g_new g_tx]. unfold upd. destruct (Nat.eqb_spec m n) as [->|]; [|exact (F5 m z)]. rewrite E1. cbn [ftxn]. rewrite Y2. intros X. apply F5. unfold fnew. rewrite E1, E. exact X.
  - destruct (g_tx g n) as [[[p x] [h|]]|] eqn:E; try (split; [cbn [frun fold_left fst]; split; assumption | repeat split; constructor]). destruct (dt_upd x) eqn:U; [|split; [cbn [frun fold_left fst]; split; assumption | repeat split; constructor]].
    assert (Ef : f_txn f n = Some (p, dt_start x)) by (apply F5; unfold fnew; rewrite (proj2 (proj2 (H _ _ _ _ E))), E; reflexivity). split; [|split; [split; [cbn [fev_ok]; rewrite Ef; exact (proj2 (proj1 (H _ _ _ _ E))) | exact Logic.I]|]; split; [constructor | reflexivity]].
    unfold frun. cbn [fold_left fstep]. rewrite Ef, F2. split; cbn [fst f_k f_h f_rel f_next f_txn g_k g_h g_rel g_next g_tx]; try assumption; try reflexivity. intros m z. unfold fnew. cbn [g_new g_tx]. unfold upd. destruct (Nat.eqb_spec m n) as [->|]; [rewrite (proj2 (proj2 (H _ _ _ _ E))); discriminate | apply F5].
  - destruct (g_tx g n) as [[[p x] [h|]]|] eqn:E.
    3: (split; [cbn [frun fold_left fst]; split; assumption | repeat split; constructor]).
    + destruct (H _ _ _ _ E) as (X1 & X3 & X4). specialize (X3 ltac:(discriminate)). unfold dcommit. rewrite X3. cbn [negb].
      assert (SAME : forall r : result unit, frel (fst (GSys (set_db (g_k g) (g_db g)) (g_h g) (g_rel g) (upd (g_tx g) n None) (g_new g) (g_next g), ADone r)) f).
      { intros r. unfold g_db. rewrite set_db_same. split; cbn [fst f_k f_h f_rel f_next f_txn g_k g_h g_rel g_next g_tx]; try assumption. intros m z. unfold fnew. cbn [set_tx g_new g_tx]. unfold upd. destruct (g_new g m) eqn:E9; [intros X; apply F5; unfold fnew; rewrite E9; exact X|]. destruct (Nat.eqb m n); [discriminate|]. intros X. apply F5. unfold fnew. rewrite E9. exact X. }
      destruct (Check h false (dt_start x) (dt_refs x)) as [h1 [[|]| |]]; cbn [snd]; try (split; [apply SAME | repeat split; constructor]).
      split; [|split; [repeat split|]; split; [constructor; [exact (proj1 X1) | constructor] | reflexivity]]. unfold frun. cbn [fold_left fstep kstep].
      assert (Y : forall d t r, commit (g_db g) (dt_t x) io = (d, t, r) -> frel (GSys (set_db (g_k g) d) (g_h g) (g_rel g) (upd (g_tx g) n None) (g_new g) (g_next g)) (FSys (KSys (fst (fst (commit (k_db (f_k f)) (dt_t x) io))) (k_vars (f_k f)) (k_open (f_k f)) (k_jobs (f_k f))) (f_h f) (f_rel f) (f_txn f) (f_next f))).
      { intros d t r C. rewrite F1. change (k_db (g_k g)) with (g_db g). rewrite C. split; cbn [fst f_k f_h f_rel f_next f_txn g_k g_h g_rel g_next g_tx]; try assumption; try reflexivity. intros m z. unfold fnew. cbn [set_tx g_new g_tx]. unfold upd. destruct (g_new g m) eqn:E9; [intros X; apply F5; unfold fnew; rewrite E9; exact X|]. destruct (Nat.eqb m n); [discriminate|]. intros X. apply F5. unfold fnew. rewrite E9. exact X. }
      destruct (commit (g_db g) (dt_t x) io) as [[d t] [r|r|]] eqn:C; cbn [fst]; eapply Y; exact C || reflexivity.
    + split; [|repeat split; constructor]. cbn [frun fold_left]. destruct (dt_upd x); cbn [fst]; [split; assumption|]. split; cbn [fst set_tx f_k f_h f_rel f_next f_txn g_k g_h g_rel g_next g_tx]; try assumption. intros m z. unfold fnew. cbn [set_tx g_new g_tx]. unfold upd. destruct (g_new g m) eqn:E9; [intros X; apply F5; unfold fnew; rewrite E9; exact X|]. destruct (Nat.eqb m n); [discriminate|]. intros X. apply F5. unfold fnew. rewrite E9. exact X.
  - split; [|repeat split; constructor]. cbn [frun fold_left]. split; cbn [fst set_tx f_k f_h f_rel f_next f_txn g_k g_h g_rel g_next g_tx]; try assumption. intros m z. unfold fnew. cbn [set_tx g_new g_tx]. unfold upd. destruct (g_new g m) eqn:E9; [intros X; apply F5; unfold fnew; rewrite E9; exact X|]. destruct (Nat.eqb m n); [discriminate|]. intros X. apply F5. unfold fnew. rewrite E9. exact X.
Qed.
Fixpoint gprojs (g : gsys) (es : list gev) : list fev := match es with [] => [] | e :: es' => gproj g e ++ gprojs (fst (gstep J g e)) es' end.
Lemma gprojs_app es : forall g es', gprojs g (es ++ es') = gprojs g es ++ gprojs (grun g es) es'.
Proof. induction es as [|e es IH]; intros g es'; cbn [app gprojs]; [reflexivity|]. rewrite IH, app_assoc. reflexivity. Qed.
Lemma gprojs_run es : forall g f, tinv g -> frel g f -> Forall gev_ok es ->
  frel (grun g es) (frun J f (gprojs g es)) /\ fok J f (gprojs g es) /\ Forall kev_ok (ddl_of (gprojs g es)) /\ kload J (f_k f) (ddl_of (gprojs g es)) = gload J g es.
Proof.
  induction es as [|e es IH]; intros g f H F K; cbn [gprojs gload]; [repeat split; try apply F; constructor|]. inversion K as [|? ? K1 K2]; subst. destruct (gproj_step g f e H F K1) as (S1 & S2 & S3 & S4).
  destruct (IH _ _ (tinv_step g e H) S1 K2) as (R1 & R2 & R3 & R4). rewrite frun_app, ddl_of_app, kload_app, fok_app, Forall_app. unfold grun. cbn [fold_left]. split; [exact R1|]. split; [auto|]. split; [auto|]. rewrite S4. rewrite frun_k in R4. rewrite R4. reflexivity.
Qed.
Lemma gproj_in g e x : In x (gproj g e) -> match x with FDdl (KCrash p) => e = GDdl (KCrash p) | FReloaded p => e = GReloaded p | _ => True end.
Proof.
  destruct e as [e|p|p|n p|n u|n c|n|n io|n]; cbn [gproj]; intros H.
  - destruct H as [<-|[]]. destruct e; auto.
  - destruct H as [<-|[]]; auto.
  - destruct H as [<-|[]]; auto.
  - destruct H as [<-|[]]; auto.
  - destruct H.
  - destruct H.
  - destruct (g_tx g n) as [[[p y] [h|]]|]; try (destruct H; fail). destruct (dt_upd y); [|destruct H]. destruct H as [<-|[]]. exact Logic.I.
  - destruct (g_tx g n) as [[[p y] [h|]]|]; try (destruct H; fail). destruct (snd (Check h false (dt_start y) (dt_refs y))) as [[|]| |]; try (destruct H; fail). destruct H as [<-|[]]. exact Logic.I.
  - destruct H.
Qed.
Lemma gprojs_in x es : forall g, In x (gprojs g es) -> match x with FDdl (KCrash p) => In (GDdl (KCrash p)) es | FReloaded p => In (GReloaded p) es | _ => True end.
Proof.
  induction es as [|e es IH]; intros g H; [destruct H|]. cbn [gprojs] in H. apply in_app_iff in H. destruct H as [H|H].
  - apply gproj_in in H. destruct x as [[m c|m io|m|q|t io]|q|q|m q|m b refs]; try exact Logic.I; left; exact H.
  - apply IH in H. destruct x as [[m c|m io|m|q|t io]|q|q|m q|m b refs]; try exact Logic.I; right; exact H.
Qed.
End Caches.

(** * A transaction stays open until its Commit *)
Definition ko {A} (m : Tx A) : Prop := forall t t' r, m t = (t', r) -> t_open t' = t_open t.
Lemma ko_const {A} (r : result A) : ko (fun t => (t, r)).
Proof. intros t t' r' E. inversion E. reflexivity. Qed.
Lemma ko_bind {A B} (m : Tx A) (k : A -> Tx B) : ko m -> (forall a, ko (k a)) -> ko (bind m k).
Proof. intros H1 H2 t t' r E. unfold bind in E. destruct (m t) as [t1 [a|e|]] eqn:E1; apply H1 in E1; [apply H2 in E; congruence | congruence | congruence]. Qed.
Lemma ko_try {A B} (m : Tx A) (k : result A -> Tx B) : ko m -> (forall a, ko (k a)) -> ko (try m k).
Proof. intros H1 H2 t t' r E. unfold try in E. destruct (m t) as [t1 [a|e|]] eqn:E1; apply H1 in E1; [apply H2 in E; congruence | apply H2 in E; congruence | congruence]. Qed.
Lemma ko_map_err {A} f (m : Tx A) : ko m -> ko (map_err f m).
Proof. intros H t t' r E. unfold map_err in E. destruct (m t) as [t1 [a|e|]] eqn:E1; apply H in E1; congruence. Qed.
Lemma ko_add_read k t : t_open (add_read k t) = t_open t.
Proof. unfold add_read. destruct (t_upd t); reflexivity. Qed.
Lemma ko_bget k : ko (bget k).
Proof.
  intros t t' r E. unfold bget in E. destruct k as [|c k]; [congruence|]. destruct (negb (t_open t)); [congruence|]. assert (t' = track (c :: k) t) by congruence. subst t'. unfold track. destruct (get (t_pend t) (c :: k)); [reflexivity | apply ko_add_read].
Qed.
Lemma ko_modify k o : ko (map_err too_big (modify k o)).
Proof.
  intros t t' r X. destruct (TxPost.modify_post _ _ _ _ _ X) as [(_ & l & ->)|(e & _ & [-> |(l & ->)])]; reflexivity.
Qed.
Lemma ko_tset k v : ko (tset k v).
Proof. intros t t' r X. unfold tset, tsetm in X. cbn [entry_of] in X. eapply ko_modify. exact X. Qed.
Lemma ko_tdel k : ko (tdel k).
Proof. apply ko_modify. Qed.
Lemma ko_tget k : ko (tget k).
Proof. unfold tget, tgetm. apply ko_bind; [apply ko_map_err, ko_bget | intros; apply ko_const]. Qed.
Lemma ko_texists k : ko (texists k).
Proof. unfold texists. apply ko_try; [apply ko_bget|]. intros [a|e|]; [apply ko_const | destruct e; apply ko_const | apply ko_const]. Qed.
Lemma ko_scan_loop {S} (fn : bytes -> ent -> S -> Tx (S * bool)) l : (forall k e s, ko (fn k e s)) -> forall s, ko (scan_loop l fn s).
Proof.
  intros H. induction l as [|[k e] l IH]; intros s; cbn [scan_loop]; [apply ko_const|]. intros t t' r X. rewrite <- (ko_add_read k t). revert X. apply ko_bind; [apply H|]. intros [s1 b]. cbn [fst snd]. destruct b; [apply IH | apply ko_const].
Qed.
Lemma ko_tscan {S} o (fn : bytes -> ent -> S -> Tx (S * bool)) s : (forall k e s, ko (fn k e s)) -> ko (tscan o fn s).
Proof. intros H t t' r. unfold tscan. destruct (negb (t_open t)); [apply ko_const|]. apply ko_scan_loop. exact H. Qed.
Lemma ko_op c o : ko (op_tx c o).
Proof.
  assert (G : forall did, ko (doc_get c did)) by (intros did; unfold doc_get; apply ko_try; [apply ko_tget|]; intros [a|e|]; [apply ko_const | destruct e; apply ko_const | apply ko_const]).
  assert (U : forall md did v, ko (doc_update md c did v)).
  { intros md did v. unfold doc_update. apply ko_bind; [apply ko_texists|]. intros ex. assert (Q : forall b : bool * bool, ko (tset (docKey c did) v ;;; ret b)) by (intros b; apply ko_bind; [apply ko_tset | intros; apply ko_const]).
    destruct md; [destruct ex; [apply Q | apply ko_const] | apply Q | destruct ex; [apply ko_const | apply Q]]. }
  destruct o as [did v|did v|did v|did|did|dids| | | |]; cbn [op_tx]; try (apply ko_bind; [apply U | intros; apply ko_const]).
  - apply ko_bind; [apply ko_tdel | intros; apply ko_const].
  - apply ko_bind; [apply G | intros; apply ko_const].
  - apply ko_bind; [|intros; apply ko_const]. set (acc := @nil bytes). clearbody acc. revert acc. induction dids as [|d l IH]; intros acc; cbn [doc_getmany]; [apply ko_const|]. apply ko_try; [apply G|]. intros [a|e|]; [apply IH | apply ko_const | apply ko_const].
  - apply ko_bind; [|intros; apply ko_const]. unfold doc_getall. apply ko_tscan. intros. apply ko_const.
  - apply ko_bind; [|intros; apply ko_const]. unfold doc_count. apply ko_tscan. intros. apply ko_const.
  - apply ko_bind; [|intros; apply ko_const]. unfold doc_deleteall. apply ko_bind.
    + apply ko_tscan. intros k e s. apply ko_try; [apply ko_tdel|]. intros [a|x|]; apply ko_const.
    + intros [n [e|]]; apply ko_const.
  - apply ko_bind; [|intros; apply ko_const]. unfold doc_range.
    assert (R : forall o s, ko (tscan o range_cb s)) by (intros; apply ko_tscan; intros; apply ko_const).
    assert (F : forall r : result Z, ko (of_result r)) by (intros [a|e|]; apply ko_const).
    apply ko_bind; [apply R|]. intros a. apply ko_bind; [apply F|]. intros a'. apply ko_bind; [apply R|]. intros b. apply ko_bind; [apply F|]. intros b'. apply ko_const.
Qed.
Lemma call_open c x x' r : call_exec x c = (x', r) -> t_open (dt_t x') = t_open (dt_t x) /\ dt_start x' = dt_start x /\ dt_upd x' = dt_upd x.
Proof.
  intros E. destruct c as [mark dbn coll o|mark dbn coll did data f]; cbn [call_exec] in E.
  - unfold with_coll in E. destruct (resolve (dt_start x) dbn coll) as [cid|] eqn:R; [|assert (x' = x) by congruence; subst; auto]. cbv zeta in E.
    destruct (op_tx cid o _) as [t v] eqn:Et. apply ko_op in Et. assert (x' = with_t (if mark then ReferredCollections x [cid] else x) t) by congruence. subst x'. destruct mark; auto.
  - destruct (resolve (dt_start x) dbn coll) as [cid|] eqn:R; [|assert (x' = x) by congruence; subst; auto]. cbv zeta in E.
    set (x1 := if mark then ReferredCollections x [cid] else x) in *. destruct (tset (docKey cid did) data (dt_t x1)) as [t v] eqn:Et. apply ko_tset in Et.
    assert (S1 : t_open (dt_t x1) = t_open (dt_t x) /\ dt_start x1 = dt_start x /\ dt_upd x1 = dt_upd x) by (unfold x1; destruct mark; auto). destruct S1 as (S0 & S1 & S2). unfold AddCancelFunc in E. destruct (negb (dt_upd (with_t x1 t))).
    + assert (x' = with_t x1 t) by congruence. subst x'. cbn [with_t dt_t dt_start dt_upd]. split; [congruence | auto].
    + match type of E with (?a, _) = _ => assert (x' = a) by congruence end. subst x'. cbn [with_t dt_t dt_start dt_upd]. split; [congruence | auto].
Qed.
