(** Which keys a computation may write. Used for computations of the code models, whatever their outcome. *)
From Verif Require Import Bytes SMap KeyModel Provider ProviderProofs World Numeric KvUtil Struct StructProofs UtilTxn TxPost Sequence SequenceProofs DocKeys Dml DmlProofs.

(** * The keys a computation writes *)
Definition wrote (P : bytes -> option ent -> Prop) (t t' : txn) : Prop :=
  (t_snap t' = t_snap t /\ t_now t' = t_now t /\ t_upd t' = t_upd t) /\
  forall k, get (t_pend t') k = get (t_pend t) k \/ exists o, get (t_pend t') k = Some o /\ P k o.
Definition wr {A} (P : bytes -> option ent -> Prop) (m : Tx A) : Prop := forall t t' r, m t = (t', r) -> wrote P t t'.
Lemma wrote_refl P t : wrote P t t.
Proof. unfold wrote. auto. Qed.
Lemma wrote_trans P a b c : wrote P a b -> wrote P b c -> wrote P a c.
Proof.
  intros ((A1 & A2 & A4) & A3) ((B1 & B2 & B4) & B3). split; [repeat split; congruence|]. intros k.
  destruct (B3 k) as [E|E]; [rewrite E; apply A3 | right; exact E].
Qed.
Lemma wrote_weaken (P Q : bytes -> option ent -> Prop) a b : (forall k o, P k o -> Q k o) -> wrote P a b -> wrote Q a b.
Proof. intros H (A1 & A3). split; [exact A1|]. intros k. destruct (A3 k) as [E|(o & E & X)]; [auto | right; eauto]. Qed.
Lemma wrote_pend P t t' : t_snap t' = t_snap t -> t_now t' = t_now t -> t_upd t' = t_upd t -> t_pend t' = t_pend t -> wrote P t t'.
Proof. intros E1 E2 E4 E3. split; [auto|]. rewrite E3. auto. Qed.
Lemma wrote_add_read P k t : wrote P t (add_read k t).
Proof. apply wrote_pend; unfold add_read; destruct (t_upd t) eqn:E; cbn; congruence. Qed.
Lemma wrote_track P k t : wrote P t (track k t).
Proof. apply wrote_pend; unfold track, add_read; destruct (get (t_pend t) k); try reflexivity; destruct (t_upd t) eqn:E; cbn; congruence. Qed.
Section wr.
Context (P : bytes -> option ent -> Prop).
Lemma wr_ret {A} (a : A) : wr P (ret a).
Proof. intros t t' r H. inversion H. apply wrote_refl. Qed.
Lemma wr_fail {A} e : wr P (@fail A e).
Proof. intros t t' r H. inversion H. apply wrote_refl. Qed.
Lemma wr_panic {A} : wr P (@gopanic A).
Proof. intros t t' r H. inversion H. apply wrote_refl. Qed.
Lemma wr_bind {A B} (m : Tx A) (k : A -> Tx B) : wr P m -> (forall a, wr P (k a)) -> wr P (bind m k).
Proof.
  intros H1 H2 t t' r. unfold bind. destruct (m t) as [t1 [a|e|]] eqn:E; intros X; [|inversion X; subst; eapply H1; exact E ..].
  eapply wrote_trans; [eapply H1; exact E | eapply H2; exact X].
Qed.
Lemma wr_try {A B} (m : Tx A) (k : result A -> Tx B) : wr P m -> (forall a, wr P (k a)) -> wr P (try m k).
Proof.
  intros H1 H2 t t' r. unfold try. destruct (m t) as [t1 [a|e|]] eqn:E; intros X; [| |inversion X; subst; eapply H1; exact E].
  - eapply wrote_trans; [eapply H1; exact E | eapply H2; exact X].
  - eapply wrote_trans; [eapply H1; exact E | eapply H2; exact X].
Qed.
Lemma wr_modify k o : P k o -> wr P (map_err too_big (modify k o)).
Proof.
  intros H t t' r X. destruct (modify_post _ _ _ _ _ X) as [(_ & l & ->)|(e & _ & [-> |(l & ->)])]; [|apply wrote_refl | apply wrote_pend; reflexivity].
  split; [repeat split|]. intros j. rewrite get_put. destruct (bytes_eqb j k) eqn:E; [|auto]. apply bytes_eqb_eq in E. subst j. right. eauto.
Qed.
Lemma wr_tset k v : P k (Some (mk v)) -> wr P (tset k v).
Proof. intros H t t' r X. unfold tset, tsetm in X. cbn [entry_of] in X. eapply wr_modify; [|exact X]. exact H. Qed.
Lemma wr_tdel k : P k None -> wr P (tdel k).
Proof. apply wr_modify. Qed.
Lemma wr_bget k : wr P (bget k).
Proof.
  intros t t' r. unfold bget. destruct k as [|c k]; [intros X; inversion X; apply wrote_refl|]. destruct (negb (t_open t)); intros X; inversion X; [apply wrote_refl | apply wrote_track].
Qed.
Lemma wr_map_err {A} f (m : Tx A) : wr P m -> wr P (map_err f m).
Proof. intros H t t' r. unfold map_err. destruct (m t) as [t1 [a|e|]] eqn:E; intros X; inversion X; subst; eapply H; exact E. Qed.
Lemma wr_tget k : wr P (tget k).
Proof. unfold tget, tgetm. apply wr_bind; [apply wr_map_err, wr_bget | intros; apply wr_ret]. Qed.
Lemma wr_texists k : wr P (texists k).
Proof. unfold texists. apply wr_try; [apply wr_bget|]. intros [a|e|]; [apply wr_ret | destruct e; try apply wr_fail; apply wr_ret | apply wr_panic]. Qed.
Lemma wr_scan_loop {S} l (fn : bytes -> ent -> S -> Tx (S * bool)) : (forall k e, In (k, e) l -> forall s, wr P (fn k e s)) -> forall s, wr P (scan_loop l fn s).
Proof.
  induction l as [|[k e] l IH]; intros H s; cbn [scan_loop]; [apply wr_ret|]. intros t t' r X.
  eapply wrote_trans; [apply (wrote_add_read P k t)|]. revert X. apply wr_bind.
  - apply H. left. reflexivity.
  - intros [s1 b]. cbn [fst snd]. destruct b; [apply IH; intros; apply H; right; assumption | apply wr_ret].
Qed.
Lemma takeWhile_in {A} (f : A -> bool) l x : In x (takeWhile f l) -> f x = true.
Proof. induction l as [|a l IH]; cbn [takeWhile]; [intros []|]. destruct (f a) eqn:E; [|intros []]. intros [<-|H]; auto. Qed.
Lemma wr_tscan {S} o (fn : bytes -> ent -> S -> Tx (S * bool)) s : (forall k e, has_prefix k (so_prefix o) = true -> forall s, wr P (fn k e s)) -> wr P (tscan o fn s).
Proof.
  intros H t t' r. unfold tscan. destruct (negb (t_open t)); [intros X; inversion X; apply wrote_refl|]. apply wr_scan_loop.
  intros k e I. apply H. unfold scan_items in I. apply takeWhile_in in I. exact I.
Qed.
End wr.
(** operations on documents *)
Definition op_may (c : Z) (o : docop) (k : bytes) (v : option ent) : Prop :=
  has_prefix k (docPrefix c) = true /\
  match o with
  | ODelete _ | ODeleteAll => v = None
  | OUpdate did _ | OUpsert did _ | OInsert did _ => k = docKey c did
  | _ => False
  end.
Lemma docKey_self c d : has_prefix (docKey c d) (docPrefix c) = true.
Proof. rewrite docKey_prefix. apply has_prefix_app. Qed.
Lemma wr_update (P : bytes -> option ent -> Prop) md c did v : P (docKey c did) (Some (mk v)) -> wr P (doc_update md c did v).
Proof.
  intros H. unfold doc_update. apply wr_bind; [apply wr_texists|]. intros ex.
  assert (S : forall b : bool * bool, wr P (tset (docKey c did) v ;;; ret b)) by (intros b; apply wr_bind; [apply wr_tset; exact H | intros; apply wr_ret]).
  destruct md; [destruct ex; [apply S | apply wr_ret] | apply S | destruct ex; [apply wr_fail | apply S]].
Qed.
Lemma wr_op c o : wr (op_may c o) (op_tx c o).
Proof.
  assert (G : forall did, wr (op_may c o) (doc_get c did)).
  { intros did. unfold doc_get. apply wr_try; [apply wr_tget|]. intros [a|e|]; [apply wr_ret | destruct e; apply wr_fail | apply wr_panic]. }
  destruct o as [did v|did v|did v|did|did|dids| | | |]; cbn [op_tx].
  - apply wr_bind; [apply wr_update; split; [apply docKey_self | reflexivity] | intros; apply wr_ret].
  - apply wr_bind; [apply wr_update; split; [apply docKey_self | reflexivity] | intros; apply wr_ret].
  - apply wr_bind; [apply wr_update; split; [apply docKey_self | reflexivity] | intros; apply wr_ret].
  - apply wr_bind; [apply wr_tdel; split; [apply docKey_self | reflexivity] | intros; apply wr_ret].
  - apply wr_bind; [apply G | intros; apply wr_ret].
  - apply wr_bind; [|intros; apply wr_ret]. set (acc := @nil bytes). clearbody acc. generalize dids at 2. intros l. revert acc. induction l as [|d l IH]; intros acc; cbn [doc_getmany]; [apply wr_ret|].
    apply wr_try; [apply G|]. intros [a|e|]; [apply IH | apply wr_ret | apply wr_panic].
  - apply wr_bind; [|intros; apply wr_ret]. unfold doc_getall. apply wr_tscan. intros. apply wr_ret.
  - apply wr_bind; [|intros; apply wr_ret]. unfold doc_count. apply wr_tscan. intros. apply wr_ret.
  - apply wr_bind; [|intros; apply wr_ret]. unfold doc_deleteall. apply wr_bind.
    + apply wr_tscan. intros k e Hk s. apply wr_try; [apply wr_tdel; split; [exact Hk | reflexivity]|]. intros [a|x|]; [apply wr_ret | apply wr_ret | apply wr_panic].
    + intros [n [e|]]; [apply wr_fail | apply wr_ret].
  - apply wr_bind; [|intros; apply wr_ret]. unfold doc_range.
    assert (R : forall o s, wr (op_may c ORange) (tscan o range_cb s)) by (intros; apply wr_tscan; intros; apply wr_ret).
    assert (F : forall r : result Z, wr (op_may c ORange) (of_result r)) by (intros [a|e|]; [apply wr_ret | apply wr_fail | apply wr_panic]).
    apply wr_bind; [apply R|]. intros a. apply wr_bind; [apply F|]. intros a'. apply wr_bind; [apply R|]. intros b. apply wr_bind; [apply F|]. intros b'. apply wr_ret.
Qed.
Lemma update_existing c did v t t' r : op_tx c (OUpdate did v) t = (t', r) -> t_pend t' = t_pend t \/ get (view t) (docKey c did) <> None.
Proof.
  cbn [op_tx]. unfold doc_update, bind. set (k := docKey c did). destruct (texists k t) as [t1 [ex|e|]] eqn:E.
  - assert (X : t_pend t1 = t_pend t /\ (ex = true -> get (view t) k <> None)).
    { unfold texists, try, bget in E. destruct k as [|b k']; [cbn in E; discriminate|]. destruct (negb (t_open t)); [cbn in E; discriminate|].
      destruct (get (view t) (b :: k')) as [e|]; cbn in E; inversion E; subst; (split; [apply pend_track | try discriminate; intros _; discriminate]). }
    destruct X as [X1 X2]. destruct ex; [intros _; right; apply X2; reflexivity|]. intros Y. inversion Y. subst. left. exact X1.
  - intros Y. inversion Y. subst. left. unfold texists, try, bget in E. destruct k as [|b k']; [cbn in E; inversion E; reflexivity|]. destruct (negb (t_open t)); [cbn in E; inversion E; reflexivity|].
    destruct (get (view t) (b :: k')); cbn in E; inversion E; apply pend_track.
  - intros Y. inversion Y. subst. left. unfold texists, try, bget in E. destruct k as [|b k']; [cbn in E; discriminate|]. destruct (negb (t_open t)); [cbn in E; discriminate|].
    destruct (get (view t) (b :: k')); cbn in E; discriminate.
Qed.
(** the transactions of sequences write metadata keys only *)
Definition meta_key (k : bytes) (o : option ent) : Prop := has_prefix k MetaPrefix = true.
Lemma meta_ek d o : meta_key (ek MetaPrefix d) o.
Proof. exact (ek_prefix MetaPrefix d). Qed.
Lemma wr_updateHash {A} key field (fn : option bytes -> result (bytes * A)) : wr meta_key (updateHash MetaPrefix key field fn).
Proof.
  pose proof (meta_ek (KHD key field)) as K1. pose proof (meta_ek (KHM key)) as K2. cbn [ek] in K1, K2.
  unfold updateHash. apply wr_try; [apply wr_tget|]. intros r. cbv zeta.
  assert (C : forall (isNew : bool) (old : bytes), wr meta_key (match fn (nil_of old) with
      | Ok (newValue, a) => if bequal old newValue then ret a else tset (encodeHashDataKey MetaPrefix key field) newValue ;;;
            if negb isNew then ret a else n <- try (loadHashMeta MetaPrefix key) (fun r => match r with
                    | Ok n => ret n | Err ErrKeyNotFound => ret 0 | Err e => fail e | Panic => gopanic end) ;;
              tset (encodeHashMetaKey MetaPrefix key) (hmeta_val (to_i64 (n + 1))) ;;; ret a
      | Err e => fail e | Panic => gopanic end)).
  { intros isNew old. destruct (fn (nil_of old)) as [[nv a]|e|]; [|apply wr_fail | apply wr_panic]. destruct (bequal old nv); [apply wr_ret|].
    apply wr_bind; [apply wr_tset, K1|]. intros _. destruct (negb isNew); [apply wr_ret|]. apply wr_bind.
    - apply wr_try; [|intros [n|e|]; [apply wr_ret | destruct e; first [apply wr_ret | apply wr_fail] | apply wr_panic]].
      unfold loadHashMeta. apply wr_bind; [apply wr_tget|]. intros v. destruct (DecodeFromBinary v); [apply wr_ret | apply wr_fail].
    - intros n. apply wr_bind; [apply wr_tset, K2 | intros; apply wr_ret]. }
  destruct r as [old|e|]; [apply C | destruct e; first [apply C | apply wr_fail] | apply wr_panic].
Qed.
Lemma wr_loc_inc L step : wr meta_key (loc_inc L step).
Proof.
  destruct L as [k|k f]; cbn [loc_inc]; [|apply wr_updateHash]. pose proof (meta_ek (KS k)) as K. cbn [ek] in K.
  unfold SInc, IncInt64. apply wr_try; [apply wr_tget|]. intros [v|e|].
  - apply wr_bind; [unfold parse_int; destruct (DecodeFromHuman (nil_of v)); [apply wr_ret | apply wr_fail]|]. intros n. apply wr_bind; [apply wr_tset, K | intros; apply wr_ret].
  - destruct e; first [apply wr_fail | apply wr_bind; [apply wr_tset, K | intros; apply wr_ret]].
  - apply wr_panic.
Qed.
Lemma wr_loc_set L v : wr meta_key (loc_set L v).
Proof. destruct L as [k|k f]; cbn [loc_set]; [|apply wr_updateHash]. apply wr_tset. exact (meta_ek (KS k) _). Qed.
(** so they leave every other key as it is *)
Lemma run_update_frame {A} P d0 d1 (f : Tx A) lim io k : wr P f -> (forall o, ~ P k o) -> get (d_kv (fst (run_update d0 d1 f lim io))) k = get (d_kv d1) k.
Proof.
  intros W N. destruct (run_update d0 d1 f lim io) as [d' r] eqn:E.
  destruct (run_update_cases _ _ _ _ _ _ _ E) as [(t & t' & a & _ & F & C)|[_ ->]]; [|reflexivity]. cbn [fst].
  destruct (commit_cases _ _ _ _ _ _ C) as [(_ & Kv & _)|[X _]]; [|congruence]. rewrite Kv.
  destruct (W _ _ _ F) as (_ & G). destruct (G k) as [H|(o & _ & H)]; [|exfalso; exact (N _ H)]. rewrite H. cbn [new_txn t_pend]. rewrite get_empty. reflexivity.
Qed.
Definition keepsk (k : bytes) (d d' : db) : Prop := get (d_kv d') k = get (d_kv d) k.
Lemma renewLease_frame d0 d1 lim io s n k : (forall o, ~ meta_key k o) -> keepsk k d1 (fst (fst (renewLease d0 d1 lim io s n))).
Proof.
  intros N. unfold renewLease, keepsk. set (st := if n =? 0 then q_bw s else n). pose proof (run_update_frame meta_key d0 d1 (loc_inc (q_loc s) st) lim io k (wr_loc_inc _ _) N) as H.
  destruct (run_update d0 d1 (loc_inc (q_loc s) st) lim io) as [d' [a|e|]]; exact H.
Qed.
Lemma updateLeased_frame d0 d1 lim io s k : (forall o, ~ meta_key k o) -> keepsk k d1 (fst (fst (updateLeased d0 d1 lim io s))).
Proof.
  intros N. unfold updateLeased, keepsk. pose proof (run_update_frame meta_key d0 d1 (loc_set (q_loc s) (q_next s)) lim io k (wr_loc_set _ _) N) as H.
  destruct (run_update d0 d1 (loc_set (q_loc s) (q_next s)) lim io) as [d' [a|e|]]; exact H.
Qed.
Lemma q_exec_frame d0 d1 lim io s o k : (forall x, ~ meta_key k x) -> o <> QClear -> keepsk k d1 (fst (fst (q_exec d0 d1 lim io s o))).
Proof.
  intros N NC. assert (R : forall n, keepsk k d1 (fst (fst (renewLease d0 d1 lim io s n)))) by (intros; apply renewLease_frame; exact N).
  assert (U : forall s, keepsk k d1 (fst (fst (releaseRemaining d0 d1 lim io s)))).
  { intros s1. unfold releaseRemaining. destruct (q_leased s1 =? q_next s1); [reflexivity | apply updateLeased_frame; exact N]. }
  assert (D : forall x, fst (fst (done x)) = fst (fst x)) by (intros [[? ?] ?]; reflexivity).
  destruct o as [|n| | |rel|]; cbn [q_exec].
  - destruct (q_closed s); [reflexivity|]. unfold q_Next. destruct (rev (q_put s)); [|reflexivity].
    destruct (q_leased s <=? q_next s); [|reflexivity]. specialize (R 0). destruct (renewLease d0 d1 lim io s 0) as [[d2 s2] [a|e|]]; exact R.
  - assert (X : keepsk k d1 (fst (fst (q_NextN d0 d1 lim io s n)))).
    { unfold q_NextN. destruct (to_i64 (q_next s + n) <=? q_leased s); [reflexivity|]. cbv zeta.
      match goal with |- context [renewLease d0 d1 lim io s ?m] => specialize (R m); destruct (renewLease d0 d1 lim io s m) as [[d2 s2] [a|e|]] end; exact R. }
    destruct n; [reflexivity | |]; (destruct (q_closed s); [reflexivity | exact X]).
  - destruct (q_closed s); [reflexivity|]. rewrite D. apply R.
  - destruct (q_closed s); [reflexivity|]. rewrite D. apply U.
  - destruct (q_closed s); [reflexivity|]. destruct rel; [rewrite D; apply U | reflexivity].
  - congruence.
Qed.
Lemma newSeq_frame d0 d1 lim io L bw k : (forall x, ~ meta_key k x) -> keepsk k d1 (fst (fst (newSeq d0 d1 lim io L bw))).
Proof.
  intros N. unfold newSeq.
  assert (R : keepsk k d1 (fst (fst (match renewLease d0 d1 lim io (Seq L bw false 0 0 []) 0 with
            | (d, s, Ok _) => (d, Some s, Ok tt)
            | (d, _, r) => (d, None, r)
            end)))).
  { pose proof (renewLease_frame d0 d1 lim io (Seq L bw false 0 0 []) 0 k N) as H. destruct (renewLease d0 d1 lim io (Seq L bw false 0 0 []) 0) as [[d2 s2] [a|e|]]; exact H. }
  destruct L as [[|b0 k0]|[|b0 k0] [|b1 f0]]; cbn beta iota; try reflexivity; (destruct (bw =? 0); [reflexivity | exact R]).
Qed.
Lemma docKey_not_meta c d o : ~ meta_key (docKey c d) o.
Proof. unfold meta_key. rewrite docKey_app. cbn. discriminate. Qed.
