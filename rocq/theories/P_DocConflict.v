(** Document transactions are refused only for documents they share: C97. Histories are those of DocSerial.v. *)
From Verif Require Import Bytes SMap KeyModel Provider ProviderProofs World UtilTxn Model Schema DocTxn DocKeys Dml DmlProofs Wrote DocSerial DocSerialProofs.
From Verif Require DocLifeProofs P_DocSerial.

(** * Specification *)
(** the collection a call is about, in the schema of handle [h] *)
Definition target (h : handle) (c : call) : option Z :=
  match c with Op _ dbn coll _ | InsertOne _ dbn coll _ _ _ => resolve (h_val h) dbn coll end.
(** calls whose answer depends on documents *)
Definition looks (c : call) : bool :=
  match c with InsertOne _ _ _ _ _ _ | Op _ _ _ (ODelete _) => false | _ => true end.
(** call [c] (of a transaction with handle [h]) looks at a document that call [fst p], answered [snd p], reports as changed:
    both are about one collection, and name the same id or one of them goes through the whole collection *)
Definition shares (h : handle) (c : call) (h' : handle) (p : call * result docval) : Prop :=
  looks c = true /\ wrote h' p = true /\ (exists col, target h c = Some col /\ target h' (fst p) = Some col) /\
  (scans c = true \/ scans (fst p) = true \/ exists id, In id (call_ids c) /\ In id (call_ids (fst p))).

(** * The keys of a call *)
Definition op_ids (o : docop) : list Z := call_ids (Op true [] [] o).
Definition op_scans (o : docop) : bool := scans (Op true [] [] o).
Definition opkey (cid : Z) (o : docop) (k : bytes) : Prop :=
  (exists id, In id (op_ids o) /\ k = docKey cid id) \/ op_scans o = true /\ has_prefix k (docPrefix cid) = true.
Lemma rd_weaken {A} (P Q : bytes -> Prop) (m : Tx A) : (forall k, P k -> Q k) -> DocLifeProofs.rd P m -> DocLifeProofs.rd Q m.
Proof. intros H R t t' r E k I. destruct (R _ _ _ E k I); auto. Qed.
Lemma rd_key c o : o <> ORange -> DocLifeProofs.rd (fun k => (forall d, o <> ODelete d) /\ opkey c o k) (op_tx c o).
Proof.
  intros NR.
  assert (S : op_scans o = true -> DocLifeProofs.rd (fun k => (forall d, o <> ODelete d) /\ opkey c o k) (op_tx c o)).
  { intros S. eapply rd_weaken; [|apply DocLifeProofs.rd_op; exact NR]. intros k Hk. split; [intros d ->; discriminate S | right; auto]. }
  assert (U : forall (P : bytes -> Prop) md did v, P (docKey c did) -> DocLifeProofs.rd P (doc_update md c did v)).
  { intros P md did v H. unfold doc_update. cbv zeta. apply DocLifeProofs.rd_bind; [apply DocLifeProofs.rd_texists, H|]. intros ex. destruct md; [destruct ex| |destruct ex]; first [apply DocLifeProofs.rd_ret | apply DocLifeProofs.rd_fail | apply DocLifeProofs.rd_bind; [apply DocLifeProofs.rd_tset | intros; apply DocLifeProofs.rd_ret]]. }
  destruct o as [did v|did v|did v|did|did|dids| | | |]; try (apply S; reflexivity); cbn [op_tx].
  1-3: apply DocLifeProofs.rd_bind; [apply U | intros; apply DocLifeProofs.rd_ret]; (split; [discriminate|]); left; exists did; split; [left; reflexivity | reflexivity].
  - apply DocLifeProofs.rd_bind; [apply DocLifeProofs.rd_tdel | intros; apply DocLifeProofs.rd_ret].
  - apply DocLifeProofs.rd_bind; [apply DocLifeProofs.rd_doc_get | intros; apply DocLifeProofs.rd_ret]. split; [discriminate|]. left. exists did. split; [left; reflexivity | reflexivity].
  - apply DocLifeProofs.rd_bind; [|intros; apply DocLifeProofs.rd_ret].
    assert (G : forall l acc, (forall x, In x l -> In x dids) -> DocLifeProofs.rd (fun k => (forall d, OGetMany dids <> ODelete d) /\ opkey c (OGetMany dids) k) (doc_getmany c l acc)).
    { induction l as [|d l IH]; intros acc H; cbn [doc_getmany]; [apply DocLifeProofs.rd_ret|]. apply DocLifeProofs.rd_try.
      - apply DocLifeProofs.rd_doc_get. split; [discriminate|]. left. exists d. split; [apply H; left; reflexivity | reflexivity].
      - intros [a|e|]; [apply IH; intros x Hx; apply H; right; exact Hx | apply DocLifeProofs.rd_ret | apply DocLifeProofs.rd_panic]. }
    apply G. auto.
Qed.
Lemma wr_key c o : wr (fun k _ => opkey c o k) (op_tx c o).
Proof.
  assert (W : forall did, wr (fun k _ => opkey c o k) (doc_get c did)).
  { intros did. unfold doc_get. apply wr_try; [apply wr_tget|]. intros [a|e|]; [apply wr_ret | destruct e; apply wr_fail | apply wr_panic]. }
  destruct o as [did v|did v|did v|did|did|dids| | | |]; cbn [op_tx].
  1-3: apply wr_bind; [apply wr_update; left; exists did; split; [left; reflexivity | reflexivity] | intros; apply wr_ret].
  - apply wr_bind; [apply wr_tdel; left; exists did; split; [left; reflexivity | reflexivity] | intros; apply wr_ret].
  - apply wr_bind; [apply W | intros; apply wr_ret].
  - apply wr_bind; [|intros; apply wr_ret]. assert (G : forall l acc, wr (fun k _ => opkey c (OGetMany dids) k) (doc_getmany c l acc)); [|apply G]. induction l as [|d l IH]; intros acc; cbn [doc_getmany]; [apply wr_ret|].
    apply wr_try; [apply W|]. intros [a|e|]; [apply IH | apply wr_ret | apply wr_panic].
  - apply wr_bind; [|intros; apply wr_ret]. unfold doc_getall. apply wr_tscan. intros. apply wr_ret.
  - apply wr_bind; [|intros; apply wr_ret]. unfold doc_count. apply wr_tscan. intros. apply wr_ret.
  - apply wr_bind; [|intros; apply wr_ret]. unfold doc_deleteall. apply wr_bind.
    + apply wr_tscan. intros k e Hk s. apply wr_try; [apply wr_tdel; right; split; [reflexivity | exact Hk]|]. intros [a|x|]; [apply wr_ret | apply wr_ret | apply wr_panic].
    + intros [n [e|]]; [apply wr_fail | apply wr_ret].
  - apply wr_bind; [|intros; apply wr_ret]. unfold doc_range. apply wr_bind; [apply wr_tscan; intros; apply wr_ret|]. intros a. apply wr_bind; [destruct a; [apply wr_ret | apply wr_fail | apply wr_panic]|]. intros a1.
    apply wr_bind; [apply wr_tscan; intros; apply wr_ret|]. intros a2. apply wr_bind; [destruct a2; [apply wr_ret | apply wr_fail | apply wr_panic]|]. intros; apply wr_ret.
Qed.
(** * What calls leave alone *)
Definition firm {A} (m : Tx A) : Prop := forall t t' r, m t = (t', r) -> t_rts t' = t_rts t /\ t_upd t' = t_upd t /\ t_open t' = t_open t /\ (t_lim t = [] -> t_lim t' = []).
Lemma firm_const {A} (r : result A) : firm (fun t => (t, r)).
Proof. intros t t' r' E. assert (t' = t) by congruence. subst. auto. Qed.
Lemma firm_bind {A B} (m : Tx A) (k : A -> Tx B) : firm m -> (forall a, firm (k a)) -> firm (bind m k).
Proof.
  intros H1 H2 t t' r E. unfold bind in E. destruct (m t) as [t1 r1] eqn:Em. destruct (H1 _ _ _ Em) as (X1 & X2 & X3 & X4). destruct r1 as [a|e|]; [|assert (t' = t1) by congruence; subst; auto ..].
  destruct (H2 _ _ _ _ E) as (Y1 & Y2 & Y3 & Y4). repeat split; try congruence. auto.
Qed.
Lemma firm_try {A B} (m : Tx A) (k : result A -> Tx B) : firm m -> (forall a, firm (k a)) -> firm (try m k).
Proof.
  intros H1 H2 t t' r E. unfold try in E. destruct (m t) as [t1 r1] eqn:Em. destruct (H1 _ _ _ Em) as (X1 & X2 & X3 & X4).
  destruct r1 as [a|e|]; [| |assert (t' = t1) by congruence; subst; auto]; destruct (H2 _ _ _ _ E) as (Y1 & Y2 & Y3 & Y4); repeat split; try congruence; auto.
Qed.
Lemma firm_map_err {A} f (m : Tx A) : firm m -> firm (map_err f m).
Proof. intros H t t' r E. unfold map_err in E. destruct (m t) as [t1 r1] eqn:Em. pose proof (H _ _ _ Em). destruct r1; assert (t' = t1) by congruence; subst; assumption. Qed.
Lemma firm_modify k o : firm (modify k o).
Proof.
  intros t t' r E. unfold modify in E. destruct (negb (t_upd t)); [assert (t' = t) by congruence; subst; auto|]. destruct (negb (t_open t)); [assert (t' = t) by congruence; subst; auto|]. destruct (key_err k); [assert (t' = t) by congruence; subst; auto|].
  destruct (t_lim t) as [|[|] l] eqn:L; inversion E; subst; cbn [put set_lim t_rts t_upd t_open t_lim]; repeat split; congruence.
Qed.
Lemma add_read_firm k t : t_rts (add_read k t) = t_rts t /\ t_upd (add_read k t) = t_upd t /\ t_open (add_read k t) = t_open t /\ t_lim (add_read k t) = t_lim t.
Proof. unfold add_read. destruct (t_upd t) eqn:U; cbn [t_rts t_upd t_open t_lim]; auto. Qed.
Lemma firm_bget k : firm (bget k).
Proof.
  intros t t' r E. unfold bget in E. destruct k as [|b k]; [assert (t' = t) by congruence; subst; auto|]. destruct (negb (t_open t)); [assert (t' = t) by congruence; subst; auto|].
  replace t' with (track (b :: k) t) by congruence. unfold track. destruct (get (t_pend t) (b :: k)); [auto|]. destruct (add_read_firm (b :: k) t) as (X1 & X2 & X3 & X4). rewrite X4. auto.
Qed.
Lemma firm_tset k v : firm (tset k v).
Proof. intros t t' r E. unfold tset, tsetm in E. exact (firm_map_err _ _ (firm_modify k _) _ _ _ E). Qed.
Lemma firm_tdel k : firm (tdel k). Proof. apply firm_map_err, firm_modify. Qed.
Lemma firm_tget k : firm (tget k).
Proof. unfold tget, tgetm. apply firm_bind; [apply firm_map_err, firm_bget | intros; apply firm_const]. Qed.
Lemma firm_texists k : firm (texists k).
Proof. unfold texists. apply firm_try; [apply firm_bget|]. intros [a|[]|]; apply firm_const. Qed.
Lemma firm_tscan {S} o (fn : bytes -> ent -> S -> Tx (S * bool)) s : (forall k e s, firm (fn k e s)) -> firm (tscan o fn s).
Proof.
  intros H t t' r E. unfold tscan in E. destruct (negb (t_open t)); [assert (t' = t) by congruence; subst; auto|]. revert E. generalize (scan_items (t_clamp t) (view t) o). intros l. revert s t.
  induction l as [|[k e] l IH]; intros s t E; cbn [scan_loop] in E; [exact (firm_const _ _ _ _ E)|]. destruct (add_read_firm k t) as (X1 & X2 & X3 & X4).
  unfold bind in E. destruct (fn k e s (add_read k t)) as [t1 r1] eqn:F. destruct (H _ _ _ _ _ _ F) as (Y1 & Y2 & Y3 & Y4). rewrite X1, X2, X3, X4 in *. destruct r1 as [[s1 b]|er|]; [|assert (t' = t1) by congruence; subst; auto ..].
  cbn [fst snd] in E. destruct b; [|assert (t' = t1) by (unfold ret in E; congruence); subst; auto]. destruct (IH _ _ E) as (Z1 & Z2 & Z3 & Z4). repeat split; try congruence. auto.
Qed.
Lemma firm_get c did : firm (doc_get c did).
Proof. unfold doc_get. apply firm_try; [apply firm_tget|]. intros [a|[]|]; apply firm_const. Qed.
Lemma firm_op c o : firm (op_tx c o).
Proof.
  assert (U : forall md did v, firm (doc_update md c did v)).
  { intros md did v. unfold doc_update. cbv zeta. apply firm_bind; [apply firm_texists|]. intros ex. destruct md; [destruct ex| |destruct ex]; try apply firm_const; (apply firm_bind; [apply firm_tset | intros; apply firm_const]). }
  destruct o as [did v|did v|did v|did|did|dids| | | |]; cbn [op_tx]; try (apply firm_bind; [apply U | intros; apply firm_const]).
  - apply firm_bind; [apply firm_tdel | intros; apply firm_const].
  - apply firm_bind; [apply firm_get | intros; apply firm_const].
  - apply firm_bind; [|intros; apply firm_const]. generalize (@nil bytes). induction dids as [|d l IH]; intros acc; cbn [doc_getmany]; [apply firm_const|]. apply firm_try; [apply firm_get|]. intros [a|e|]; [apply IH | apply firm_const | apply firm_const].
  - apply firm_bind; [apply firm_tscan; intros; apply firm_const | intros; apply firm_const].
  - apply firm_bind; [apply firm_tscan; intros; apply firm_const | intros; apply firm_const].
  - apply firm_bind; [|intros; apply firm_const]. unfold doc_deleteall. apply firm_bind; [apply firm_tscan; intros; apply firm_try; [apply firm_tdel | intros [a|e0|]; apply firm_const]|]. intros [n [e|]]; apply firm_const.
  - apply firm_bind; [|intros; apply firm_const]. unfold doc_range. apply firm_bind; [apply firm_tscan; intros; apply firm_const|]. intros a. apply firm_bind; [destruct a; apply firm_const|]. intros a1.
    apply firm_bind; [apply firm_tscan; intros; apply firm_const|]. intros a2. apply firm_bind; [destruct a2; apply firm_const|]. intros; apply firm_const.
Qed.
(** DeleteAll in an update transaction does not fail *)
Definition able (t : txn) : Prop := t_upd t = true /\ t_open t = true /\ t_lim t = [].
Lemma able_firm {A} (m : Tx A) t t' r : firm m -> m t = (t', r) -> able t -> able t'.
Proof. intros F E (A1 & A2 & A3). destruct (F _ _ _ E) as (_ & X2 & X3 & X4). split; [congruence|]. split; [congruence | auto]. Qed.
Lemma prefix_good c k : has_prefix k (docPrefix c) = true -> key_err k = None.
Proof.
  intros H. apply has_prefix_spec in H. destruct H as [s ->]. rewrite docPrefix_app. reflexivity.
Qed.
Lemma del_able c k t : able t -> has_prefix k (docPrefix c) = true -> exists t', tdel k t = (t', Ok tt).
Proof. intros (A1 & A2 & A3) H. unfold tdel, map_err, modify. rewrite A1, A2, (prefix_good c k H), A3. cbn [negb]. eexists. reflexivity. Qed.
Lemma deleteall_able c t t' r : able t -> doc_deleteall c t = (t', r) -> exists n, r = Ok n.
Proof.
  intros A E. unfold doc_deleteall in E. fold del_cb in E.
  change (fun (k : bytes) (_ : ent) (s : nat * option err) => try (tdel k) (fun r => match r with Ok _ => ret (S (fst s), None, true) | Err e => ret (fst s, Some e, false) | Panic => gopanic end)) with del_cb in E.
  unfold bind in E at 1. unfold tscan in E. replace (negb (t_open t)) with false in E by (destruct A as (_ & -> & _); reflexivity).
  assert (P : forall k e, In (k, e) (scan_items (t_clamp t) (view t) (ScanOpt false (docPrefix c) [])) -> has_prefix k (docPrefix c) = true) by (intros k e X; unfold scan_items in X; apply takeWhile_in in X; exact X).
  assert (L : forall l n t, (forall k e, In (k, e) l -> has_prefix k (docPrefix c) = true) -> able t -> exists t' n', scan_loop l del_cb (n, None) t = (t', Ok (n', None))).
  { clear. induction l as [|[k e] l IH]; intros n t P A; cbn [scan_loop]; [eexists _, _; reflexivity|]. assert (A' : able (add_read k t)) by (destruct (add_read_firm k t) as (_ & X2 & X3 & X4); unfold able in *; rewrite X2, X3, X4; exact A).
    destruct (del_able c k (add_read k t) A' (P k e (or_introl eq_refl))) as (t1 & D). pose proof (able_firm _ _ _ _ (firm_tdel k) D A') as A1. unfold bind, del_cb at 1, try. rewrite D. cbn [fst snd ret]. apply IH; [intros k0 e0 X; apply (P k0 e0); right; exact X | exact A1]. }
  destruct (L _ 0%nat t P A) as (t1 & n' & X). rewrite X in E. cbn [fst snd] in E. unfold ret in E. exists n'. congruence.
Qed.
(** * One call *)
Definition call_key (cid : Z) (c : call) (k : bytes) : Prop :=
  (exists id, In id (call_ids c) /\ k = docKey cid id) \/ scans c = true /\ has_prefix k (docPrefix cid) = true.
Definition lkey (h : handle) (c : call) (k : bytes) : Prop := looks c = true /\ exists cid, target h c = Some cid /\ call_key cid c k.
Definition ckey (h : handle) (p : call * result docval) (k : bytes) : Prop := wrote h p = true /\ exists cid, target h (fst p) = Some cid /\ call_key cid (fst p) k.
Lemma opkey_call m dbn coll cid o k : opkey cid o k -> call_key cid (Op m dbn coll o) k.
Proof. exact (fun H => H). Qed.
Lemma call_touches h c x x' r : dt_start x = h_val h -> dt_upd x = true -> able (dt_t x) -> call_ok c -> call_exec x c = (x', r) ->
  dt_start x' = dt_start x /\ dt_upd x' = true /\ able (dt_t x') /\ t_rts (dt_t x') = t_rts (dt_t x) /\
  (forall k, In k (t_reads (dt_t x')) -> In k (t_reads (dt_t x)) \/ lkey h c k) /\
  (forall k, get (t_pend (dt_t x')) k <> None -> get (t_pend (dt_t x)) k <> None \/ ckey h (c, r) k).
Proof.
  intros St Up AB CO E. destruct c as [m dbn coll o|m dbn coll did data f]; cbn [call_exec] in E.
  - unfold with_coll in E. rewrite St in E. destruct (resolve (h_val h) dbn coll) as [cid|] eqn:Rs; [|assert (x' = x) by congruence; subst x'; repeat split; auto; apply AB].
    assert (Et : dt_t (if m then ReferredCollections x [cid] else x) = dt_t x) by (destruct m; reflexivity). rewrite Et in E. destruct (op_tx cid o (dt_t x)) as [t r1] eqn:Eo. assert (r1 = r) by congruence. subst r1.
    assert (X' : x' = with_t (if m then ReferredCollections x [cid] else x) t) by congruence. subst x'. clear E.
    assert (F : dt_start (with_t (if m then ReferredCollections x [cid] else x) t) = dt_start x /\ dt_upd (with_t (if m then ReferredCollections x [cid] else x) t) = dt_upd x) by (destruct m; split; reflexivity).
    destruct F as [F1 F2]. cbn [with_t dt_t]. destruct (firm_op cid o _ _ _ Eo) as (R1 & _). split; [rewrite <- F1; destruct m; reflexivity|]. split; [rewrite <- Up, <- F2; destruct m; reflexivity|]. split; [exact (able_firm _ _ _ _ (firm_op cid o) Eo AB)|]. split; [exact R1|]. split.
    + intros k Hk. assert (NR : o <> ORange) by (intros ->; destruct CO as [_ N]; exact (N m dbn coll eq_refl)). destruct (rd_key cid o NR _ _ _ Eo k Hk) as [Y|[Y1 Y2]]; [auto|]. right. split; [destruct o; try reflexivity; exfalso; exact (Y1 _ eq_refl)|]. exists cid. split; [exact Rs | exact Y2].
    + intros k Hk. destruct (wrote h (Op m dbn coll o, r)) eqn:W.
      * destruct (wr_key cid o _ _ _ Eo) as [_ Y]. destruct (Y k) as [Z|(v & _ & Z)]; [left; congruence|]. right. split; [exact W|]. exists cid. split; [exact Rs | exact Z].
      * left. assert (Lv : leaves false (dt_t x) t).
        { apply (op_leaves cid o (dt_t x) t r false Eo); [|symmetry; destruct r; [exact W | reflexivity | reflexivity]]. intros ->. cbn [op_tx] in Eo. unfold bind in Eo. destruct (doc_deleteall cid (dt_t x)) as [t1 r1] eqn:Ed. destruct (deleteall_able cid _ _ _ AB Ed) as (n & ->). unfold ret in Eo. exists (VNum n). congruence. }
        cbn [leaves] in Lv. unfold leaves in Lv. rewrite Lv in Hk. exact Hk.
  - rewrite St in E. destruct (resolve (h_val h) dbn coll) as [cid|] eqn:Rs; [|assert (x' = x) by congruence; subst x'; repeat split; auto; apply AB].
    assert (Et : dt_t (if m then ReferredCollections x [cid] else x) = dt_t x) by (destruct m; reflexivity). rewrite Et in E. destruct (tset (docKey cid did) data (dt_t x)) as [t r1] eqn:Eo. unfold AddCancelFunc in E.
    replace (dt_upd (with_t (if m then ReferredCollections x [cid] else x) t)) with true in E by (destruct m; symmetry; exact Up). cbn [negb] in E.
    assert (X' : x' = DT t (dt_start x) (dt_refs (if m then ReferredCollections x [cid] else x)) (dt_cancels x ++ [f]) true /\ r = match r1 with Ok _ => Ok VUnit | Err e => Err e | Panic => Panic end).
    { destruct m; cbn [ReferredCollections with_t dt_t dt_start dt_refs dt_cancels dt_upd] in *; try rewrite Up in E; split; congruence. }
    destruct X' as [-> Er]. cbn [dt_start dt_upd dt_t]. destruct (firm_tset _ _ _ _ _ Eo) as (R1 & _). split; [reflexivity|]. split; [reflexivity|]. split; [exact (able_firm _ _ _ _ (firm_tset _ _) Eo AB)|]. split; [exact R1|]. split.
    + intros k Hk. destruct (DocLifeProofs.rd_tset (fun _ => False) _ _ _ _ _ Eo k Hk) as [Y|[]]. auto.
    + intros k Hk. pose proof (set_pend _ _ _ _ _ Eo) as SP. destruct r1 as [u|e|]; [|left; congruence ..]. destruct (wr_tset (fun k _ => k = docKey cid did) (docKey cid did) data eq_refl _ _ _ Eo) as [_ Y].
      destruct (Y k) as [Z|(v & _ & Z)]; [left; congruence|]. right. split; [cbn [wrote]; rewrite Er, Rs; reflexivity|]. exists cid. split; [exact Rs|]. left. exists did. split; [left; reflexivity | exact Z].
Qed.
(** keys that meet *)
Lemma doc_key_of (h : handle) c k cid : call_key cid c k -> has_prefix k (docPrefix cid) = true.
Proof. intros [(id & _ & ->)|[_ H]]; [apply docKey_self | exact H]. Qed.
Lemma prefix_one c c' k : is_i64 c -> is_i64 c' -> has_prefix k (docPrefix c) = true -> has_prefix k (docPrefix c') = true -> c = c'.
Proof. intros H H' A B. apply has_prefix_spec in A. apply has_prefix_spec in B. destruct A as [s A], B as [s' B]. rewrite A in B. apply docPrefix_inj in B; tauto. Qed.
Lemma keys_meet h c h' p k : handle_ok h -> handle_ok h' -> call_ok c -> call_ok (fst p) -> lkey h c k -> ckey h' p k -> shares h c h' p.
Proof.
  intros H H' C C' [L (cid & T & K)] [W (cid' & T' & K')]. assert (I : is_i64 cid) by (destruct c; eapply H; exact T). assert (I' : is_i64 cid') by (destruct p as [[|] r]; cbn [fst target] in T'; eapply H'; exact T').
  pose proof (prefix_one cid cid' k I I' (doc_key_of h c k cid K) (doc_key_of h (fst p) k cid' K')) as ->. split; [exact L|]. split; [exact W|]. split; [exists cid'; auto|].
  destruct K as [(id & A & ->)|[A _]]; [|auto]. destruct K' as [(id' & B & E)|[B _]]; [|auto]. right. right. exists id. split; [exact A|].
  destruct C as [C _], C' as [C' _]. rewrite Forall_forall in C, C'. apply docKey_inj in E; auto. destruct E as [_ ->]. exact B.
Qed.

(** * Histories *)
Definition deed_ok (d : deed) : Prop := handle_ok (s_h d) /\ Forall call_ok (calls d).
Record follows (w : dworld) (J : journal) (d : deed) (x : dtxn) : Prop := {
  fo_start : dt_start x = h_val (s_h d);
  fo_ok : deed_ok d;
  fo_seen : (s_seen d <= length (j_done J))%nat;
  fo_tx : dt_upd x = true ->
    able (dt_t x) /\
    (forall k, In k (t_reads (dt_t x)) -> exists c, In c (calls d) /\ lkey (s_h d) c k) /\
    (forall k, get (t_pend (dt_t x)) k <> None -> exists p, In p (s_calls d) /\ ckey (s_h d) p k) /\
    (t_rts (dt_t x) <= d_ts (dw_db w))%nat /\
    forall k ts cid, is_i64 cid -> has_prefix k (docPrefix cid) = true -> get (d_last (dw_db w)) k = Some ts -> (t_rts (dt_t x) < ts)%nat ->
      exists d', In d' (skipn (s_seen d) (j_done J)) /\ deed_ok d' /\ exists p, In p (s_calls d') /\ ckey (s_h d') p k
}.
Record cinv (w : dworld) (J : journal) : Prop := {
  ci_last : db_ok (dw_db w);
  ci_tx : forall i x, dw_tx w i = Some x -> exists d, find_tx i (j_open J) = Some d /\ follows w J d x
}.
Lemma skip_more {X} n (l l' : list X) x : In x (skipn n l) -> In x (skipn n (l ++ l')).
Proof. intros H. rewrite skipn_app. apply in_or_app. auto. Qed.
(** the store is the same, or someone wrote what is not a document; more may be committed *)
Lemma follows_more w J d x w' J' l : follows w J d x -> j_done J' = j_done J ++ l -> (d_ts (dw_db w) <= d_ts (dw_db w'))%nat ->
  (forall k ts cid, is_i64 cid -> has_prefix k (docPrefix cid) = true -> get (d_last (dw_db w')) k = Some ts -> get (d_last (dw_db w)) k = Some ts \/
     exists d', In d' l /\ deed_ok d' /\ exists p, In p (s_calls d') /\ ckey (s_h d') p k) -> follows w' J' d x.
Proof.
  intros [A B C D] E T L. split; [exact A | exact B | rewrite E, app_length; lia|]. intros U. destruct (D U) as (D1 & D2 & D3 & D4 & D5). split; [exact D1|]. split; [exact D2|]. split; [exact D3|]. split; [lia|].
  intros k ts cid I P G Lt. rewrite E. destruct (L k ts cid I P G) as [G'|(d' & X1 & X2)].
  - destruct (D5 k ts cid I P G' Lt) as (d' & X1 & X2). exists d'. split; [apply skip_more; exact X1 | exact X2].
  - exists d'. split; [|exact X2]. rewrite skipn_app. replace (s_seen d - length (j_done J))%nat with 0%nat by lia. cbn [skipn]. apply in_or_app. auto.
Qed.
Lemma publish_last d t k ts : get (d_last (publish d t)) k = Some ts -> get (d_last d) k = Some ts \/ get (t_pend t) k <> None.
Proof.
  cbn [publish d_last]. rewrite get_last_fold. destruct (existsb _ _) eqn:X; [|auto]. intros _. right. apply existsb_exists in X. destruct X as ([j o] & X1 & X2). cbn [fst] in X2. apply bytes_eqb_eq in X2. subst j. apply get_in in X1. congruence.
Qed.
Lemma step_cinv es w J e : cinv w J -> history_ok (es ++ [e]) -> cinv (fst (dstep w e)) (jstep J (e, snd (dstep w e))).
Proof.
  intros [K T] OK. assert (IN : In e (es ++ [e])) by (apply in_or_app; right; left; reflexivity).
  assert (DROP : forall i rest, cinv (DW (dw_db w) (dw_upd (dw_tx w) i None)) (Journal (forget i (j_open J)) (j_done J) rest)).
  { intros i rest. split; [exact K|]. intros j x X. cbn [dw_tx j_open] in *. unfold dw_upd in X. destruct (Nat.eqb j i) eqn:Ej; [discriminate X|]. destruct (T j x X) as (d & F1 & F2). exists d. split; [rewrite find_forget, Ej; exact F1|].
    apply (follows_more w J d x _ _ [] F2); [cbn [j_done]; rewrite app_nil_r; reflexivity | cbn [dw_db]; lia | auto]. }
  destruct e as [h i u|i c|h i io|i|t io|n]; cbn [dstep].
  - cbn [fst snd jstep]. split; [exact K|]. intros j x X. cbn [dw_tx j_open] in *. unfold dw_upd in X. rewrite find_cons. destruct (Nat.eqb j i) eqn:Ej.
    + assert (x = NewTxn h (dw_db w) u []) by congruence. subst x. eexists. split; [reflexivity|]. split; cbn [NewTxn dt_start dt_upd dt_t s_h s_seen s_calls j_done].
      * reflexivity.
      * split; [exact (ok_schema _ OK h i u IN) | constructor].
      * lia.
      * intros ->. split; [split; [reflexivity|]; split; reflexivity|]. split; [intros k []|]. split; [intros k G; exfalso; apply G; reflexivity|]. cbn [new_txn t_rts dw_db]. split; [lia|]. intros k ts cid _ _ G Lt. apply K in G. lia.
    + destruct (T j x X) as (d & F1 & F2). exists d. split; [rewrite find_forget, Ej; exact F1|]. apply (follows_more w J d x _ _ [] F2); [cbn [j_done]; rewrite app_nil_r; reflexivity | cbn [dw_db]; lia | auto].
  - destruct (dw_tx w i) as [x|] eqn:Ex; [|split; assumption]. destruct (call_exec x c) as [x' r] eqn:Ec. cbn [fst snd jstep]. destruct (T i x Ex) as (d & F1 & F2). rewrite F1. split; [exact K|]. intros j y Y. cbn [dw_tx j_open] in *. unfold dw_upd in Y. rewrite find_cons. destruct (Nat.eqb j i) eqn:Ej.
    + assert (y = x') by congruence. subst y. eexists. split; [reflexivity|]. destruct F2 as [A B C D]. assert (CO : call_ok c) by (split; [exact (ok_ids _ OK i c IN) | exact (ok_range _ OK i c IN)]).
      assert (UP : dt_upd x' = dt_upd x /\ dt_start x' = dt_start x).
      { clear -Ec. destruct c as [m dbn coll o|m dbn coll did data f]; cbn [call_exec] in Ec.
        - unfold with_coll in Ec. destruct (resolve (dt_start x) dbn coll) as [cid|]; [|assert (x' = x) by congruence; subst; auto]. destruct (op_tx cid o _) as [t r1]. assert (E : x' = with_t (if m then ReferredCollections x [cid] else x) t) by congruence. rewrite E. destruct m; split; reflexivity.
        - destruct (resolve (dt_start x) dbn coll) as [cid|]; [|assert (x' = x) by congruence; subst; auto]. destruct (tset (docKey cid did) data _) as [t r1]. unfold AddCancelFunc in Ec. destruct (negb _) eqn:N.
          + assert (E : x' = with_t (if m then ReferredCollections x [cid] else x) t) by congruence. rewrite E. destruct m; split; reflexivity.
          + assert (E : x' = DT (dt_t (with_t (if m then ReferredCollections x [cid] else x) t)) (dt_start (with_t (if m then ReferredCollections x [cid] else x) t)) (dt_refs (with_t (if m then ReferredCollections x [cid] else x) t)) (dt_cancels (with_t (if m then ReferredCollections x [cid] else x) t) ++ [f]) (dt_upd (with_t (if m then ReferredCollections x [cid] else x) t))) by congruence. rewrite E. destruct m; split; reflexivity. }
      destruct UP as [UP SP]. split; cbn [s_h s_seen s_calls j_done].
      * congruence.
      * destruct B as [B1 B2]. split; [exact B1|]. unfold calls. cbn [s_calls]. rewrite map_app. apply Forall_app. split; [exact B2 | constructor; [exact CO | constructor]].
      * exact C.
      * intros U. rewrite UP in U. destruct (D U) as (D1 & D2 & D3 & D4 & D5). destruct (call_touches (s_h d) c x x' r A U D1 CO Ec) as (_ & _ & Q3 & Q4 & Q5 & Q6). split; [exact Q3|]. rewrite Q4. unfold calls. cbn [s_calls]. rewrite map_app. split; [|split; [|split; [exact D4 | exact D5]]].
        -- intros k Hk. destruct (Q5 k Hk) as [Z|Z]; [|exists c; split; [apply in_or_app; right; left; reflexivity | exact Z]]. destruct (D2 k Z) as (c0 & Z1 & Z2). exists c0. split; [apply in_or_app; left; exact Z1 | exact Z2].
        -- intros k Hk. destruct (Q6 k Hk) as [Z|Z]; [|exists (c, r); split; [apply in_or_app; right; left; reflexivity | exact Z]]. destruct (D3 k Z) as (c0 & Z1 & Z2). exists c0. split; [apply in_or_app; left; exact Z1 | exact Z2].
    + destruct (T j y Y) as (d1 & G1 & G2). exists d1. split; [rewrite find_forget, Ej; exact G1|]. apply (follows_more w J d1 y _ _ [] G2); [cbn [j_done]; rewrite app_nil_r; reflexivity | cbn [dw_db]; lia | auto].
  - destruct (dw_tx w i) as [x|] eqn:Ex.
    2:{ cbn [fst snd jstep]. pose proof (DROP i (j_rest J ++ left_over i (j_open J))) as [D1 D2]. split; [exact K|]. intros j x X. assert (Y : dw_upd (dw_tx w) i None j = Some x) by (unfold dw_upd; destruct (Nat.eqb_spec j i) as [->|]; [congruence | exact X]). destruct (D2 j x Y) as (d & F1 & [A B C D]). exists d. split; [exact F1|]. split; [exact A | exact B | exact C | exact D]. }
    destruct (T i x Ex) as (d & F1 & [A B C D]). unfold dcommit. destruct (dt_upd x) eqn:U; cbn [negb].
    2:{ cbn [fst snd jstep]. rewrite F1. destruct (changed d) eqn:CH; [|apply DROP]. split; [exact K|]. intros j y Y. cbn [dw_tx j_open] in *. unfold dw_upd in Y. destruct (Nat.eqb j i) eqn:Ej; [discriminate Y|]. destruct (T j y Y) as (d1 & G1 & G2). exists d1. split; [rewrite find_forget, Ej; exact G1|].
        apply (follows_more w J d1 y _ _ [d] G2); [reflexivity | cbn [dw_db]; lia | auto]. }
    destruct (D eq_refl) as (D1 & D2 & D3 & D4 & D5). destruct (Check h false (dt_start x) (dt_refs x)) as [h1 [[|]| |]]; cbn [fst snd jstep]; try apply DROP.
    destruct (commit (dw_db w) (dt_t x) io) as [[d1 t1] r] eqn:Ecm. unfold commit in Ecm. destruct D1 as (_ & OP & _). rewrite OP in Ecm. cbn [negb] in Ecm.
    assert (SAME : forall rest, d1 = dw_db w -> cinv (DW d1 (dw_upd (dw_tx w) i None)) (Journal (forget i (j_open J)) (j_done J) rest)) by (intros rest ->; apply DROP).
    assert (KEPT : d1 = dw_db w -> r = Ok tt -> cinv (DW d1 (dw_upd (dw_tx w) i None)) (if changed d then Journal (forget i (j_open J)) (j_done J ++ [d]) (j_rest J) else Journal (forget i (j_open J)) (j_done J) (j_rest J ++ [d]))).
    { intros -> _. destruct (changed d); [|apply DROP]. split; [exact K|]. intros j y Y. cbn [dw_tx j_open] in *. unfold dw_upd in Y. destruct (Nat.eqb j i) eqn:Ej; [discriminate Y|]. destruct (T j y Y) as (d2 & G1 & G2). exists d2. split; [rewrite find_forget, Ej; exact G1|].
      apply (follows_more w J d2 y _ _ [d] G2); [reflexivity | cbn [dw_db]; lia | auto]. }
    destruct (entries (t_pend (dt_t x))) as [|p0 l0] eqn:Ep.
    { assert (d1 = dw_db w /\ r = Ok tt) as [E1 ->] by (split; congruence). cbn [fst snd jstep]. rewrite F1. exact (KEPT E1 eq_refl). }
    destruct (conflict (dw_db w) (dt_t x)).
    { assert (d1 = dw_db w /\ r = Err EConflict) as [E1 ->] by (split; congruence). cbn [fst snd jstep]. exact (SAME _ E1). }
    destruct io.
    { assert (d1 = dw_db w /\ r = Err EIO) as [E1 ->] by (split; congruence). cbn [fst snd jstep]. exact (SAME _ E1). }
    assert (d1 = publish (dw_db w) (dt_t x) /\ r = Ok tt) as [-> ->] by (split; congruence). cbn [fst snd jstep]. rewrite F1.
    assert (CH : changed d = true).
    { assert (G : get (t_pend (dt_t x)) (fst p0) <> None) by (destruct p0 as [k0 o0]; cbn [fst]; assert (X : In (k0, o0) (entries (t_pend (dt_t x)))) by (rewrite Ep; left; reflexivity); apply get_in in X; congruence).
      destruct (D3 _ G) as (p & P1 & [P2 _]). unfold changed. apply existsb_exists. exists p. auto. }
    rewrite CH. split; [apply db_ok_publish; exact K|]. intros j y Y. cbn [dw_tx j_open] in *. unfold dw_upd in Y. destruct (Nat.eqb j i) eqn:Ej; [discriminate Y|]. destruct (T j y Y) as (d2 & G1 & G2). exists d2. split; [rewrite find_forget, Ej; exact G1|].
    apply (follows_more w J d2 y _ _ [d] G2); [reflexivity | cbn [dw_db publish d_ts]; lia|]. intros k ts cid I P G. cbn [dw_db] in G. destruct (publish_last _ _ _ _ G) as [Z|Z]; [auto|]. right. exists d. split; [left; reflexivity|]. split; [exact B|]. exact (D3 k Z).
  - cbn [fst snd jstep]. apply DROP.
  - destruct (commit (dw_db w) t io) as [[d1 t1] r] eqn:Ecm. cbn [fst snd jstep]. destruct (ok_other _ OK t io IN) as [O1 O2].
    assert (X : d1 = dw_db w \/ d1 = publish (dw_db w) t).
    { unfold commit in Ecm. destruct (negb (t_open t)); [left; congruence|]. destruct (entries (t_pend t)); [left; congruence|]. destruct (conflict (dw_db w) t); [left; congruence|]. destruct io; [left; congruence | right; congruence]. }
    destruct X as [->| ->]; [split; [exact K|]; intros j y Y; cbn [dw_tx] in Y; destruct (T j y Y) as (d2 & G1 & G2); exists d2; split; [exact G1|]; apply (follows_more w J d2 y _ _ [] G2); [rewrite app_nil_r; reflexivity | cbn [dw_db]; lia | auto]|].
    split; [apply db_ok_publish; exact K|]. intros j y Y. cbn [dw_tx] in Y. destruct (T j y Y) as (d2 & G1 & G2). exists d2. split; [exact G1|]. apply (follows_more w J d2 y _ _ [] G2); [rewrite app_nil_r; reflexivity | cbn [dw_db publish d_ts]; lia|].
    intros k ts cid I P G. cbn [dw_db] in G. destruct (publish_last _ _ _ _ G) as [Z|Z]; [auto|]. exfalso. apply Z. exact (O1 cid k I P).
  - cbn [fst snd jstep]. split; [exact K|]. intros j y Y. cbn [dw_tx] in Y. destruct (T j y Y) as (d2 & G1 & G2). exists d2. split; [exact G1|]. apply (follows_more w J d2 y _ _ [] G2); [rewrite app_nil_r; reflexivity | cbn [dw_db d_ts]; lia | auto].
Qed.
Lemma run_cinv now clamp es : history_ok es -> cinv (fst (dhist (dfresh now clamp) es)) (journal_of (dfresh now clamp) es).
Proof.
  induction es as [|e es IH] using rev_ind; intros H.
  - split; [apply db_ok_init | intros i x X; discriminate X].
  - rewrite dhist_snoc, journal_snoc. apply step_cinv with (es := es); [apply IH; exact (history_ok_snoc _ _ H) | exact H].
Qed.

(** * C97. Commit reports a conflict only if a transaction that committed changes since this one began changed a document
    that this one looked at *)
Theorem C97_conflicts_share_a_document : forall now clamp es h i io, history_ok es ->
  let w := fst (dhist (dfresh now clamp) es) in let J := journal_of (dfresh now clamp) es in
  snd (dstep w (DCommit h i io)) = ADone (Err EConflict) ->
  exists d d', find_tx i (j_open J) = Some d /\ In d' (skipn (s_seen d) (j_done J)) /\
  exists c p, In c (calls d) /\ In p (s_calls d') /\ shares (s_h d) c (s_h d') p.
Proof.
  intros now clamp es h i io H w J E. destruct (run_cinv now clamp es H) as [K T]. fold w J in K, T. cbn [dstep] in E. destruct (dw_tx w i) as [x|] eqn:Ex; [|discriminate E]. destruct (T i x Ex) as (d & F1 & [A B C D]).
  unfold dcommit in E. destruct (dt_upd x) eqn:U; cbn [negb] in E; [|discriminate E]. destruct (D eq_refl) as ((_ & OP & _) & D2 & D3 & D4 & D5).
  destruct (Check h false (dt_start x) (dt_refs x)) as [h1 [[|]| |]]; cbn [snd] in E; try discriminate E.
  unfold commit in E. rewrite OP in E. cbn [negb] in E. destruct (entries (t_pend (dt_t x))) as [|p0 l0]; [discriminate E|]. destruct (conflict (dw_db w) (dt_t x)) eqn:CF; [|destruct io; discriminate E]. clear E.
  unfold conflict in CF. apply existsb_exists in CF. destruct CF as (k & R & L). destruct (get (d_last (dw_db w)) k) as [ts|] eqn:G; [|discriminate L]. apply Nat.ltb_lt in L.
  destruct (D2 k R) as (c & C1 & C2). pose proof C2 as (_ & cid & C3 & C4). assert (I : is_i64 cid) by (destruct B as [B _]; destruct c; eapply B; exact C3).
  destruct (D5 k ts cid I (doc_key_of (s_h d) c k cid C4) G L) as (d' & P1 & [P2 P2'] & p & P3 & P4). exists d, d'. split; [exact F1|]. split; [exact P1|]. exists c, p. split; [exact C1|]. split; [exact P3|].
  destruct B as [B1 B2]. rewrite Forall_forall in B2, P2'. exact (keys_meet _ _ _ _ k B1 P2 (B2 c C1) (P2' _ (in_map fst _ _ P3)) C2 P4).
Qed.
Print Assumptions C97_conflicts_share_a_document.
(** transactions that only insert under ids of the allocators and delete are never refused for a conflict ... *)
Theorem C97_blind_writes_never_conflict : forall now clamp es h i io, history_ok es ->
  let w := fst (dhist (dfresh now clamp) es) in
  forall d, find_tx i (j_open (journal_of (dfresh now clamp) es)) = Some d -> (forall c, In c (calls d) -> looks c = false) ->
  snd (dstep w (DCommit h i io)) <> ADone (Err EConflict).
Proof.
  intros now clamp es h i io H w d F N E. destruct (C97_conflicts_share_a_document now clamp es h i io H E) as (d0 & d' & F0 & _ & c & p & C1 & _ & (L & _)). assert (d0 = d) by congruence. subst d0. rewrite (N c C1) in L. discriminate L.
Qed.
Print Assumptions C97_blind_writes_never_conflict.
(** ... nor is any transaction while no other commits changes to documents *)
Theorem C97_undisturbed_never_conflict : forall now clamp es h i io, history_ok es ->
  let w := fst (dhist (dfresh now clamp) es) in let J := journal_of (dfresh now clamp) es in
  forall d, find_tx i (j_open J) = Some d -> s_seen d = length (j_done J) -> snd (dstep w (DCommit h i io)) <> ADone (Err EConflict).
Proof.
  intros now clamp es h i io H w J d F N E. destruct (C97_conflicts_share_a_document now clamp es h i io H E) as (d0 & d' & F0 & I & _). assert (d0 = d) by (unfold J in F; congruence). subst d0. fold J in I. rewrite N, skipn_all in I. destruct I.
Qed.
Print Assumptions C97_undisturbed_never_conflict.

(** * Examples: in [busy] of P_DocSerial.v transaction 2 updates document 7 after 1 did and is refused; of two transactions
    about different documents of one collection both commit, and so does one that only inserts and deletes *)
Lemma history_ok_part es es' : incl es es' -> history_ok es' -> history_ok es.
Proof.
  intros I [A B C D E]. split; [intros h i u H; apply (A h i u), I, H | intros i c H; apply (B i c), I, H | intros i c H; apply (C i c), I, H | intros h i c H1 H2; apply (D h i c); apply I; assumption | intros t io H; apply (E t io), I, H].
Qed.
Definition early : list dev := firstn 11 P_DocSerial.busy.
Lemma early_ok : history_ok early.
Proof. apply (history_ok_part _ P_DocSerial.busy); [intros e H; rewrite <- (firstn_skipn 11 P_DocSerial.busy); apply in_or_app; left; exact H | exact P_DocSerial.busy_ok]. Qed.
Example C97_example_refused :
  snd (dstep (fst (dhist (dfresh 100 false) early)) (DCommit P_DocSerial.h87 2 false)) = ADone (Err EConflict) /\
  option_map (fun d => (calls d, map s_calls (skipn (s_seen d) (j_done (journal_of (dfresh 100 false) early))))) (find_tx 2%nat (j_open (journal_of (dfresh 100 false) early))) =
    Some ([P_DocSerial.on_a (OUpdate 7 (str "z")); P_DocSerial.on_b (OInsert 9 (str "w"))], [[(P_DocSerial.on_a (OUpdate 7 (str "y")), Ok (VBool true))]]) /\
  shares P_DocSerial.h87 (P_DocSerial.on_a (OUpdate 7 (str "z"))) P_DocSerial.h87 (P_DocSerial.on_a (OUpdate 7 (str "y")), Ok (VBool true)) /\
  ~ shares P_DocSerial.h87 (P_DocSerial.on_b (OInsert 9 (str "w"))) P_DocSerial.h87 (P_DocSerial.on_a (OUpdate 7 (str "y")), Ok (VBool true)).
Proof.
  split; [vm_compute; reflexivity|]. split; [vm_compute; reflexivity|]. split.
  - split; [reflexivity|]. split; [vm_compute; reflexivity|]. split; [exists 2; split; vm_compute; reflexivity|]. right. right. exists 7. split; left; reflexivity.
  - intros (_ & _ & (c & A & B) & _). assert (X : Some 2 = Some 3); [|discriminate X]. transitivity (Some c); [rewrite <- B; vm_compute; reflexivity | rewrite <- A; vm_compute; reflexivity].
Qed.
Definition apart : list dev :=
  [DBegin P_DocSerial.h87 0 true; DBegin P_DocSerial.h87 1 true; DBegin P_DocSerial.h87 2 true;
   DCall 0 (P_DocSerial.on_a (OInsert 7 (str "x"))); DCall 1 (P_DocSerial.on_a (OInsert 8 (str "y"))); DCall 2 (InsertOne true (str "db") (str "a") 9 (str "z") 1); DCall 2 (P_DocSerial.on_a (ODelete 7))].
Example C97_example_accepted :
  skipn 7 (snd (dhist (dfresh 100 false) (apart ++ [DCommit P_DocSerial.h87 0 false; DCommit P_DocSerial.h87 1 false; DCommit P_DocSerial.h87 2 false]))) = [ADone (Ok tt); ADone (Ok tt); ADone (Ok tt)].
Proof. vm_compute. reflexivity. Qed.
