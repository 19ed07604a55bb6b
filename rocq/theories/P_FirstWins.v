(** The first of two document transactions to commit wins: C99, the other half of C97. Histories are those of DocSerial.v. *)
From Verif Require Import Bytes SMap KeyModel Provider ProviderProofs World UtilTxn Model Schema DocTxn DocKeys Dml DmlProofs Wrote DocSerial DocSerialProofs P_DocConflict.
From Verif Require DocLifeProofs P_DocSerial.

(** * Specification *)
(** call [fst p], answered [snd p], looked up the document with id [id]. GetMany stops at the first document it does not find. *)
Definition looks_up (p : call * result docval) (id : Z) : Prop :=
  match p with
  | (Op _ _ _ (OUpdate d _), _) | (Op _ _ _ (OUpsert d _), _) | (Op _ _ _ (OInsert d _), _) | (Op _ _ _ (OGet d), _) => d = id
  | (Op _ _ _ (OGetMany l), Ok (VDocs found _)) => In id (firstn (S (length found)) l)
  | _ => False
  end.
(** call [fst p], answered [snd p], reports a change of document [id] of collection [cid] *)
Definition changes (h : handle) (p : call * result docval) (cid id : Z) : Prop :=
  wrote h p = true /\ target h (fst p) = Some cid /\ In id (call_ids (fst p)).
(** the same, or it went through the whole collection and reports changes in it *)
Definition may_change (h : handle) (p : call * result docval) (cid id : Z) : Prop :=
  wrote h p = true /\ target h (fst p) = Some cid /\ (scans (fst p) = true \/ In id (call_ids (fst p))).
(** the transaction looked up the document before it changed it itself *)
Definition looked_up (d : deed) (cid id : Z) : Prop :=
  exists pre c r post, s_calls d = pre ++ (c, r) :: post /\ looks_up (c, r) id /\ target (s_h d) c = Some cid /\
  forall p, In p pre -> ~ may_change (s_h d) p cid id.

(** * Reads and writes stay on the books *)
Definition keeps {A} (m : Tx A) : Prop := forall t t' r, m t = (t', r) -> incl (t_reads t) (t_reads t') /\ forall k, get (t_pend t) k <> None -> get (t_pend t') k <> None.
Lemma keeps_const {A} (r : result A) : keeps (fun t => (t, r)).
Proof. intros t t' r' E. assert (t' = t) by congruence. subst. split; [apply incl_refl | auto]. Qed.
Lemma keeps_bind {A B} (m : Tx A) (k : A -> Tx B) : keeps m -> (forall a, keeps (k a)) -> keeps (bind m k).
Proof.
  intros H1 H2 t t' r E. unfold bind in E. destruct (m t) as [t1 r1] eqn:Em. destruct (H1 _ _ _ Em) as (X1 & X2). destruct r1 as [a|e|]; [|assert (t' = t1) by congruence; subst; auto ..].
  destruct (H2 _ _ _ _ E) as (Y1 & Y2). split; [eapply incl_tran; eassumption | auto].
Qed.
Lemma keeps_try {A B} (m : Tx A) (k : result A -> Tx B) : keeps m -> (forall a, keeps (k a)) -> keeps (try m k).
Proof.
  intros H1 H2 t t' r E. unfold try in E. destruct (m t) as [t1 r1] eqn:Em. destruct (H1 _ _ _ Em) as (X1 & X2).
  destruct r1 as [a|e|]; [| |assert (t' = t1) by congruence; subst; auto]; destruct (H2 _ _ _ _ E) as (Y1 & Y2); (split; [eapply incl_tran; eassumption | auto]).
Qed.
Lemma keeps_map_err {A} f (m : Tx A) : keeps m -> keeps (map_err f m).
Proof. intros H t t' r E. unfold map_err in E. destruct (m t) as [t1 r1] eqn:Em. pose proof (H _ _ _ Em). destruct r1; assert (t' = t1) by congruence; subst; assumption. Qed.
Lemma set_some (m : smap (option ent)) k o k' : get m k' <> None -> get (set m k o) k' <> None.
Proof. intros H. rewrite get_set. destruct (bytes_eqb k' k); [discriminate | exact H]. Qed.
Lemma keeps_modify k o : keeps (modify k o).
Proof.
  intros t t' r E. unfold modify in E. destruct (negb (t_upd t)); [exact (keeps_const _ _ _ _ E)|]. destruct (negb (t_open t)); [exact (keeps_const _ _ _ _ E)|]. destruct (key_err k); [exact (keeps_const _ _ _ _ E)|].
  destruct (t_lim t) as [|[|] l] eqn:L; inversion E; subst; cbn [put set_lim t_reads t_pend]; (split; [apply incl_refl|]); intros k' H; try exact H; apply set_some; exact H.
Qed.
Lemma add_read_keeps k t : incl (t_reads t) (t_reads (add_read k t)) /\ t_pend (add_read k t) = t_pend t.
Proof. unfold add_read. destruct (t_upd t) eqn:U; cbn [t_reads t_pend]; split; auto using incl_refl, incl_tl. Qed.
Lemma keeps_bget k : keeps (bget k).
Proof.
  intros t t' r E. unfold bget in E. destruct k as [|b k]; [exact (keeps_const _ _ _ _ E)|]. destruct (negb (t_open t)); [exact (keeps_const _ _ _ _ E)|].
  replace t' with (track (b :: k) t) by congruence. unfold track. destruct (get (t_pend t) (b :: k)); [split; [apply incl_refl | auto]|]. destruct (add_read_keeps (b :: k) t) as (X1 & X2). rewrite X2. auto.
Qed.
Lemma keeps_tset k v : keeps (tset k v).
Proof. intros t t' r E. unfold tset, tsetm in E. exact (keeps_map_err _ _ (keeps_modify k _) _ _ _ E). Qed.
Lemma keeps_tdel k : keeps (tdel k). Proof. apply keeps_map_err, keeps_modify. Qed.
Lemma keeps_tget k : keeps (tget k).
Proof. unfold tget, tgetm. apply keeps_bind; [apply keeps_map_err, keeps_bget | intros; apply keeps_const]. Qed.
Lemma keeps_texists k : keeps (texists k).
Proof. unfold texists. apply keeps_try; [apply keeps_bget|]. intros [a|[]|]; apply keeps_const. Qed.
Lemma keeps_tscan {S} o (fn : bytes -> ent -> S -> Tx (S * bool)) s : (forall k e s, keeps (fn k e s)) -> keeps (tscan o fn s).
Proof.
  intros H t t' r E. unfold tscan in E. destruct (negb (t_open t)); [exact (keeps_const _ _ _ _ E)|]. revert E. generalize (scan_items (t_clamp t) (view t) o). intros l. revert s t.
  induction l as [|[k e] l IH]; intros s t E; cbn [scan_loop] in E; [exact (keeps_const _ _ _ _ E)|]. destruct (add_read_keeps k t) as (X1 & X2).
  unfold bind in E. destruct (fn k e s (add_read k t)) as [t1 r1] eqn:F. destruct (H _ _ _ _ _ _ F) as (Y1 & Y2). rewrite X2 in Y2. assert (Y : incl (t_reads t) (t_reads t1)) by (eapply incl_tran; eassumption). destruct r1 as [[s1 b]|er|]; [|assert (t' = t1) by congruence; subst; auto ..].
  cbn [fst snd] in E. destruct b; [|assert (t' = t1) by (unfold ret in E; congruence); subst; auto]. destruct (IH _ _ E) as (Z1 & Z2). split; [eapply incl_tran; eassumption | auto].
Qed.
Lemma keeps_get c did : keeps (doc_get c did).
Proof. unfold doc_get. apply keeps_try; [apply keeps_tget|]. intros [a|[]|]; apply keeps_const. Qed.
Lemma keeps_op c o : keeps (op_tx c o).
Proof.
  assert (U : forall md did v, keeps (doc_update md c did v)).
  { intros md did v. unfold doc_update. cbv zeta. apply keeps_bind; [apply keeps_texists|]. intros ex. destruct md; [destruct ex| |destruct ex]; try apply keeps_const; (apply keeps_bind; [apply keeps_tset | intros; apply keeps_const]). }
  destruct o as [did v|did v|did v|did|did|dids| | | |]; cbn [op_tx]; try (apply keeps_bind; [apply U | intros; apply keeps_const]).
  - apply keeps_bind; [apply keeps_tdel | intros; apply keeps_const].
  - apply keeps_bind; [apply keeps_get | intros; apply keeps_const].
  - apply keeps_bind; [|intros; apply keeps_const]. generalize (@nil bytes). induction dids as [|d l IH]; intros acc; cbn [doc_getmany]; [apply keeps_const|]. apply keeps_try; [apply keeps_get|]. intros [a|e|]; [apply IH | apply keeps_const | apply keeps_const].
  - apply keeps_bind; [apply keeps_tscan; intros; apply keeps_const | intros; apply keeps_const].
  - apply keeps_bind; [apply keeps_tscan; intros; apply keeps_const | intros; apply keeps_const].
  - apply keeps_bind; [|intros; apply keeps_const]. unfold doc_deleteall. apply keeps_bind; [apply keeps_tscan; intros; apply keeps_try; [apply keeps_tdel | intros [a|e0|]; apply keeps_const]|]. intros [n [e|]]; apply keeps_const.
  - apply keeps_bind; [|intros; apply keeps_const]. unfold doc_range. apply keeps_bind; [apply keeps_tscan; intros; apply keeps_const|]. intros a. apply keeps_bind; [destruct a; apply keeps_const|]. intros a1.
    apply keeps_bind; [apply keeps_tscan; intros; apply keeps_const|]. intros a2. apply keeps_bind; [destruct a2; apply keeps_const|]. intros; apply keeps_const.
Qed.
(** a document looked up and not written before goes on the list of keys read *)
Definition notes {A} (k : bytes) (m : Tx A) : Prop := forall t t' r, able t -> m t = (t', r) -> get (t_pend t) k = None -> In k (t_reads t').
Lemma notes_bind {A B} k (m : Tx A) (f : A -> Tx B) : notes k m -> (forall a, keeps (f a)) -> notes k (bind m f).
Proof.
  intros H1 H2 t t' r A0 E G. unfold bind in E. destruct (m t) as [t1 r1] eqn:Em. pose proof (H1 _ _ _ A0 Em G) as X. destruct r1 as [a|e|]; [|assert (t' = t1) by congruence; subst; auto ..].
  destruct (H2 _ _ _ _ E) as [Y _]. exact (Y _ X).
Qed.
Lemma notes_try {A B} k (m : Tx A) (f : result A -> Tx B) : notes k m -> (forall a, keeps (f a)) -> notes k (try m f).
Proof.
  intros H1 H2 t t' r A0 E G. unfold try in E. destruct (m t) as [t1 r1] eqn:Em. pose proof (H1 _ _ _ A0 Em G) as X.
  destruct r1 as [a|e|]; [| |assert (t' = t1) by congruence; subst; auto]; destruct (H2 _ _ _ _ E) as [Y _]; exact (Y _ X).
Qed.
Lemma notes_map_err {A} k f (m : Tx A) : notes k m -> notes k (map_err f m).
Proof. intros H t t' r A0 E G. unfold map_err in E. destruct (m t) as [t1 r1] eqn:Em. pose proof (H _ _ _ A0 Em G). destruct r1; assert (t' = t1) by congruence; subst; assumption. Qed.
Lemma notes_bget k : k <> [] -> notes k (bget k).
Proof.
  intros N t t' r (A1 & A2 & _) E G. unfold bget in E. destruct k as [|b k]; [destruct (N eq_refl)|]. rewrite A2 in E. cbn [negb] in E. replace t' with (track (b :: k) t) by congruence. unfold track. rewrite G. unfold add_read. rewrite A1. left. reflexivity.
Qed.
Lemma docKey_some c id : docKey c id <> [].
Proof. intros E. pose proof (prefix_good c _ (docKey_self c id)) as X. rewrite E in X. discriminate X. Qed.
Lemma notes_texists c id : notes (docKey c id) (texists (docKey c id)).
Proof. unfold texists. apply notes_try; [apply notes_bget, docKey_some|]. intros [a|[]|]; apply keeps_const. Qed.
Lemma notes_tget c id : notes (docKey c id) (tget (docKey c id)).
Proof. unfold tget, tgetm. apply notes_bind; [apply notes_map_err, notes_bget, docKey_some | intros; apply keeps_const]. Qed.
Lemma notes_get c id : notes (docKey c id) (doc_get c id).
Proof. unfold doc_get. apply notes_try; [apply notes_tget|]. intros [a|[]|]; apply keeps_const. Qed.
(** a key joins the list of keys read only while it is not among the writes *)
Definition fresh {A} (m : Tx A) : Prop := forall t t' r k, m t = (t', r) -> In k (t_reads t') -> In k (t_reads t) \/ get (t_pend t) k = None.
Lemma fresh_const {A} (r : result A) : fresh (fun t => (t, r)).
Proof. intros t t' r' k E. assert (t' = t) by congruence. subst. auto. Qed.
Lemma back {A} (m : Tx A) t t' r k : keeps m -> m t = (t', r) -> get (t_pend t') k = None -> get (t_pend t) k = None.
Proof. intros K E G. destruct (get (t_pend t) k) eqn:Q; [|reflexivity]. exfalso. apply (proj2 (K _ _ _ E) k); [congruence | exact G]. Qed.
Lemma fresh_bind {A B} (m : Tx A) (f : A -> Tx B) : fresh m -> keeps m -> (forall a, fresh (f a)) -> fresh (bind m f).
Proof.
  intros H1 K H2 t t' r k E I. unfold bind in E. destruct (m t) as [t1 r1] eqn:Em. destruct r1 as [a|e|]; [|assert (t' = t1) by congruence; subst; eauto ..].
  destruct (H2 _ _ _ _ k E I) as [X|X]; [eauto | right; eapply back; eassumption].
Qed.
Lemma fresh_try {A B} (m : Tx A) (f : result A -> Tx B) : fresh m -> keeps m -> (forall a, fresh (f a)) -> fresh (try m f).
Proof.
  intros H1 K H2 t t' r k E I. unfold try in E. destruct (m t) as [t1 r1] eqn:Em.
  destruct r1 as [a|e|]; [| |assert (t' = t1) by congruence; subst; eauto]; (destruct (H2 _ _ _ _ k E I) as [X|X]; [eauto | right; eapply back; eassumption]).
Qed.
Lemma fresh_map_err {A} f (m : Tx A) : fresh m -> fresh (map_err f m).
Proof. intros H t t' r k E I. unfold map_err in E. destruct (m t) as [t1 r1] eqn:Em. destruct r1; assert (t' = t1) by congruence; subst; eauto. Qed.
Lemma fresh_modify k o : fresh (modify k o).
Proof.
  intros t t' r k0 E I. unfold modify in E. destruct (negb (t_upd t)); [exact (fresh_const _ _ _ _ _ E I)|]. destruct (negb (t_open t)); [exact (fresh_const _ _ _ _ _ E I)|]. destruct (key_err k); [exact (fresh_const _ _ _ _ _ E I)|].
  left. destruct (t_lim t) as [|[|] l] eqn:L; inversion E; subst; exact I.
Qed.
Lemma fresh_bget k : fresh (bget k).
Proof.
  intros t t' r k0 E I. unfold bget in E. destruct k as [|b k]; [exact (fresh_const _ _ _ _ _ E I)|]. destruct (negb (t_open t)); [exact (fresh_const _ _ _ _ _ E I)|].
  assert (X : t' = track (b :: k) t) by congruence. rewrite X in I. unfold track in I. destruct (get (t_pend t) (b :: k)) eqn:G; [auto|]. unfold add_read in I. destruct (t_upd t); [|auto]. cbn [t_reads] in I. destruct I as [<-|I]; auto.
Qed.
Lemma fresh_tset k v : fresh (tset k v).
Proof. intros t t' r k0 E. unfold tset, tsetm in E. exact (fresh_map_err _ _ (fresh_modify k _) _ _ _ _ E). Qed.
Lemma fresh_get c id : fresh (doc_get c id).
Proof. unfold doc_get. apply fresh_try; [|apply keeps_tget | intros [a|[]|]; apply fresh_const]. unfold tget, tgetm. apply fresh_bind; [apply fresh_map_err, fresh_bget | apply keeps_map_err, keeps_bget | intros; apply fresh_const]. Qed.
Lemma get_same c id t t' r : doc_get c id t = (t', r) -> t_pend t' = t_pend t /\ r <> Panic.
Proof.
  assert (B : forall k t1 r1, bget k t = (t1, r1) -> t_pend t1 = t_pend t /\ r1 <> Panic).
  { intros k t1 r1 E. unfold bget in E. destruct k as [|b k]; [assert (t1 = t /\ r1 = Err EEmptyKey) as [-> ->] by (split; congruence); split; [reflexivity | discriminate]|]. destruct (negb (t_open t)); [assert (t1 = t /\ r1 = Err EDiscardedTxn) as [-> ->] by (split; congruence); split; [reflexivity | discriminate]|].
    assert (Q : t1 = track (b :: k) t) by congruence. split; [rewrite Q; unfold track; destruct (get (t_pend t) (b :: k)); [reflexivity | apply add_read_keeps]|]. destruct (get (view t) (b :: k)); assert (N : r1 <> Panic) by congruence; exact N. }
  intros E. unfold doc_get, try, tget, tgetm, bind, map_err in E. destruct (bget (docKey c id) t) as [t1 r1] eqn:Eb. destruct (B _ _ _ Eb) as [B1 B2]. destruct r1 as [v|e|]; [| |destruct (B2 eq_refl)]; unfold ret, fail in E.
  - assert (Q : t' = t1 /\ r <> Panic) by (split; congruence). destruct Q as [-> Q]. auto.
  - destruct e; cbn [not_found] in E; assert (Q : t' = t1 /\ r <> Panic) by (split; congruence); destruct Q as [-> Q]; auto.
Qed.
Lemma many_reads c : forall dids acc t t' r, able t -> doc_getmany c dids acc t = (t', r) -> exists l e, r = Ok (acc ++ l, e) /\
  (forall id, In id (firstn (S (length l)) dids) -> get (t_pend t) (docKey c id) = None -> In (docKey c id) (t_reads t')) /\
  (forall k, In k (t_reads t') -> In k (t_reads t) \/ get (t_pend t) k = None /\ exists id, In id (firstn (S (length l)) dids) /\ k = docKey c id).
Proof.
  induction dids as [|d dids IH]; intros acc t t' r AB E; cbn [doc_getmany] in E.
  - unfold ret in E. assert (t' = t /\ r = Ok (acc, None)) as [-> ->] by (split; congruence). exists [], None. rewrite app_nil_r. split; [reflexivity|]. split; [intros id [] | auto].
  - unfold try in E. destruct (doc_get c d t) as [t1 r1] eqn:Eg. destruct (get_same c d t t1 r1 Eg) as [P N]. pose proof (able_firm _ _ _ _ (firm_get c d) Eg AB) as AB1. pose proof (notes_get c d t t1 r1 AB Eg) as NG.
    assert (R : forall k, In k (t_reads t1) -> In k (t_reads t) \/ get (t_pend t) k = None /\ k = docKey c d).
    { intros k I. destruct (fresh_get c d t t1 r1 k Eg I) as [Q|Q]; [auto|]. destruct (DocLifeProofs.rd_doc_get (fun k => k = docKey c d) c d eq_refl t t1 r1 Eg k I) as [Q'|Q']; auto. }
    destruct r1 as [v|e|]; [| |destruct (N eq_refl)].
    + destruct (IH (acc ++ [v]) t1 t' r AB1 E) as (l & e & -> & I1 & I2). exists (v :: l), e. split; [rewrite <- app_assoc; reflexivity|]. cbn [length]. split.
      * intros id I G. rewrite firstn_cons in I. destruct I as [<-|I]; [|apply I1; [exact I | rewrite P; exact G]]. assert (K : keeps (doc_getmany c dids (acc ++ [v]))).
        { generalize (acc ++ [v]). clear. induction dids as [|d l IH]; intros acc; cbn [doc_getmany]; [apply keeps_const|]. apply keeps_try; [apply keeps_get|]. intros [a|e|]; [apply IH | apply keeps_const | apply keeps_const]. }
        exact (proj1 (K _ _ _ E) _ (NG G)).
      * intros k I. rewrite firstn_cons. destruct (I2 k I) as [Q|(Q & id & Q1 & Q2)]; [|right; rewrite <- P; split; [exact Q|]; exists id; split; [right; exact Q1 | exact Q2]]. destruct (R k Q) as [Z|[Z ->]]; [auto|]. right. split; [exact Z|]. exists d. split; [left; reflexivity | reflexivity].
    + unfold ret in E. assert (t' = t1 /\ r = Ok (acc, Some e)) as [-> ->] by (split; congruence). exists [], (Some e). rewrite app_nil_r. split; [reflexivity|]. cbn [length]. rewrite firstn_cons, firstn_O. split.
      * intros id [<-|[]] G. exact (NG G).
      * intros k I. destruct (R k I) as [Z|[Z ->]]; [auto|]. right. split; [exact Z|]. exists d. split; [left; reflexivity | reflexivity].
Qed.
Lemma many_op c dids t t' r : able t -> op_tx c (OGetMany dids) t = (t', r) -> exists l e, r = Ok (VDocs l e) /\
  (forall id, In id (firstn (S (length l)) dids) -> get (t_pend t) (docKey c id) = None -> In (docKey c id) (t_reads t')) /\
  (forall k, In k (t_reads t') -> In k (t_reads t) \/ get (t_pend t) k = None /\ exists id, In id (firstn (S (length l)) dids) /\ k = docKey c id).
Proof.
  intros AB E. cbn [op_tx] in E. unfold bind in E. destruct (doc_getmany c dids [] t) as [t1 r1] eqn:Em. destruct (many_reads c dids [] t t1 r1 AB Em) as (l & e & -> & I1 & I2). unfold ret in E. cbn [app fst snd] in E. assert (t' = t1 /\ r = Ok (VDocs l e)) as [-> ->] by (split; congruence). exists l, e. auto.
Qed.
Lemma notes_op c m dbn coll o id t t' r : able t -> op_tx c o t = (t', r) -> looks_up (Op m dbn coll o, r) id -> get (t_pend t) (docKey c id) = None -> In (docKey c id) (t_reads t').
Proof.
  assert (U : forall md did v, notes (docKey c did) (doc_update md c did v)).
  { intros md did v. unfold doc_update. cbv zeta. apply notes_bind; [apply notes_texists|]. intros ex. destruct md; [destruct ex| |destruct ex]; try apply keeps_const; (apply keeps_bind; [apply keeps_tset | intros; apply keeps_const]). }
  intros AB E L G. destruct o as [did v|did v|did v|did|did|dids| | | |]; try (cbn [looks_up] in L; destruct L; fail).
  1-3: cbn [looks_up] in L; subst did; cbn [op_tx] in E; eapply notes_bind; [apply U | intros; apply keeps_const | exact AB | exact E | exact G].
  - cbn [looks_up] in L; subst did; cbn [op_tx] in E. eapply notes_bind; [apply notes_get | intros; apply keeps_const | exact AB | exact E | exact G].
  - destruct (many_op c dids t t' r AB E) as (l & e & -> & I1 & _). exact (I1 id L G).
Qed.
(** a document a call reports as changed is among the writes *)
Lemma modify_puts k o t t' r : modify k o t = (t', Ok r) -> get (t_pend t') k <> None.
Proof.
  intros E. unfold modify in E. destruct (negb (t_upd t)); [discriminate E|]. destruct (negb (t_open t)); [discriminate E|]. destruct (key_err k); [discriminate E|].
  destruct (t_lim t) as [|[|] l]; try discriminate E; inversion E; subst; cbn [put t_pend]; rewrite get_set, bytes_eqb_refl; discriminate.
Qed.
Lemma tset_puts k v t t' r : tset k v t = (t', Ok r) -> get (t_pend t') k <> None.
Proof. intros E. unfold tset, tsetm, map_err in E. destruct (modify k _ t) as [t1 [u|e|]] eqn:M; inversion E; subst. exact (modify_puts _ _ _ _ _ M). Qed.
Lemma tdel_puts k t t' r : tdel k t = (t', Ok r) -> get (t_pend t') k <> None.
Proof. intros E. unfold tdel, map_err in E. destruct (modify k _ t) as [t1 [u|e|]] eqn:M; inversion E; subst. exact (modify_puts _ _ _ _ _ M). Qed.
Lemma op_puts h c m dbn coll o id t t' r : op_tx c o t = (t', r) -> wrote h (Op m dbn coll o, r) = true -> In id (call_ids (Op m dbn coll o)) -> get (t_pend t') (docKey c id) <> None.
Proof.
  intros E W I. destruct r as [v|e|]; [|discriminate W ..].
  assert (U : forall md did w r0, doc_update md c did w t = (t', Ok r0) -> (md = ForUpdate -> fst r0 = true) -> get (t_pend t') (docKey c did) <> None).
  { intros md did w r0 X Y. unfold doc_update, bind in X. cbv zeta in X. destruct (texists (docKey c did) t) as [t1 [ex|e|]]; [|discriminate X ..].
    assert (P : forall (b : bool * bool), (match tset (docKey c did) w t1 with (t2, Ok _) => ret b t2 | (t2, Err e) => (t2, Err e) | (t2, Panic) => (t2, Panic) end) = (t', Ok r0) -> get (t_pend t') (docKey c did) <> None).
    { intros b Z. destruct (tset (docKey c did) w t1) as [t2 [u|e|]] eqn:S; [|discriminate Z ..]. unfold ret in Z. assert (t2 = t') by congruence. subst t2. exact (tset_puts _ _ _ _ _ S). }
    destruct md; [destruct ex| |destruct ex]; try (exact (P _ X)); [|discriminate X]. unfold ret in X. assert (r0 = (false, false)) by congruence. subst r0. discriminate (Y eq_refl). }
  destruct o as [did w|did w|did w|did|did|dids| | | |]; cbn [op_tx call_ids wrote] in *; try discriminate W; try (destruct I as [<-|[]]); try destruct I.
  - unfold bind in E. destruct (doc_update ForUpdate c did w t) as [t1 [r0|e|]] eqn:D; [|discriminate E ..]. unfold ret in E. assert (t1 = t' /\ v = VBool (fst r0)) as [-> ->] by (split; congruence). apply (U ForUpdate did w r0 D). intros _. exact W.
  - unfold bind in E. destruct (doc_update ForUpsert c did w t) as [t1 [r0|e|]] eqn:D; [|discriminate E ..]. unfold ret in E. assert (t1 = t') by congruence. subst t1. apply (U ForUpsert did w r0 D). discriminate.
  - unfold bind in E. destruct (doc_update ForInsert c did w t) as [t1 [r0|e|]] eqn:D; [|discriminate E ..]. unfold ret in E. assert (t1 = t') by congruence. subst t1. apply (U ForInsert did w r0 D). discriminate.
  - unfold bind in E. destruct (tdel (docKey c did) t) as [t1 [u|e|]] eqn:D; [|discriminate E ..]. unfold ret in E. assert (t1 = t') by congruence. subst t1. exact (tdel_puts _ _ _ _ D).
Qed.
(** * One call *)
Lemma call_gives h c x x' r : dt_start x = h_val h -> dt_upd x = true -> able (dt_t x) -> call_exec x c = (x', r) ->
  incl (t_reads (dt_t x)) (t_reads (dt_t x')) /\
  (forall k, get (t_pend (dt_t x)) k <> None -> get (t_pend (dt_t x')) k <> None) /\
  (forall cid id, looks_up (c, r) id -> target h c = Some cid -> get (t_pend (dt_t x)) (docKey cid id) = None -> In (docKey cid id) (t_reads (dt_t x'))) /\
  (forall cid id, changes h (c, r) cid id -> get (t_pend (dt_t x')) (docKey cid id) <> None) /\
  (wrote h (c, r) = true -> exists k, get (t_pend (dt_t x')) k <> None).
Proof.
  intros St Up AB E. destruct c as [m dbn coll o|m dbn coll did data f]; cbn [call_exec] in E.
  - unfold with_coll in E. rewrite St in E. destruct (resolve (h_val h) dbn coll) as [cid|] eqn:Rs.
    2:{ assert (x' = x /\ r = Err ErrCollectionNotExists) as [-> ->] by (split; congruence). split; [apply incl_refl|]. split; [auto|]. split; [intros cid id _ T; cbn [target] in T; congruence|]. split; [intros cid id [W _]; discriminate W | intros W; discriminate W]. }
    assert (Et : dt_t (if m then ReferredCollections x [cid] else x) = dt_t x) by (destruct m; reflexivity). rewrite Et in E. destruct (op_tx cid o (dt_t x)) as [t r1] eqn:Eo. assert (r1 = r) by congruence. subst r1.
    assert (X' : x' = with_t (if m then ReferredCollections x [cid] else x) t) by congruence. subst x'. clear E. cbn [with_t dt_t]. destruct (keeps_op cid o _ _ _ Eo) as [K1 K2]. split; [exact K1|]. split; [exact K2|]. split; [|split].
    + intros cid' id L T G. cbn [target] in T. assert (cid' = cid) by congruence. subst cid'. exact (notes_op cid m dbn coll o id _ _ _ AB Eo L G).
    + intros cid' id (W & T & I). cbn [fst target] in T. assert (cid' = cid) by congruence. subst cid'. exact (op_puts h cid m dbn coll o id _ _ _ Eo W I).
    + intros W. assert (Lv : leaves true (dt_t x) t); [|exact Lv]. apply (op_leaves cid o (dt_t x) t r true Eo); [|symmetry; destruct r; [exact W | discriminate W | discriminate W]]. intros ->. destruct r as [v|e|]; [eauto | discriminate W | discriminate W].
  - rewrite St in E. destruct (resolve (h_val h) dbn coll) as [cid|] eqn:Rs.
    2:{ assert (x' = x) by congruence. subst x'. split; [apply incl_refl|]. split; [auto|]. split; [intros cid id []|]. split; [intros cid id (_ & T & _); cbn [fst target] in T; congruence|]. intros W. cbn [wrote] in W. destruct r; try discriminate W. rewrite Rs in W. discriminate W. }
    assert (Et : dt_t (if m then ReferredCollections x [cid] else x) = dt_t x) by (destruct m; reflexivity). rewrite Et in E. destruct (tset (docKey cid did) data (dt_t x)) as [t r1] eqn:Eo. unfold AddCancelFunc in E.
    replace (dt_upd (with_t (if m then ReferredCollections x [cid] else x) t)) with true in E by (destruct m; symmetry; exact Up). cbn [negb] in E.
    assert (X' : x' = DT t (dt_start x) (dt_refs (if m then ReferredCollections x [cid] else x)) (dt_cancels x ++ [f]) true /\ r = match r1 with Ok _ => Ok VUnit | Err e => Err e | Panic => Panic end).
    { destruct m; cbn [ReferredCollections with_t dt_t dt_start dt_refs dt_cancels dt_upd] in *; try rewrite Up in E; split; congruence. }
    destruct X' as [-> Er]. cbn [dt_t]. destruct (keeps_tset _ _ _ _ _ Eo) as [K1 K2]. split; [exact K1|]. split; [exact K2|]. split; [intros cid' id []|].
    assert (P : forall u, r = Ok u -> get (t_pend t) (docKey cid did) <> None) by (intros u Q; destruct r1 as [u1|e|]; [exact (tset_puts _ _ _ _ _ Eo) | congruence ..]).
    split.
    + intros cid' id (W & T & I). cbn [fst target call_ids] in T, I. assert (cid' = cid) by congruence. subst cid'. destruct I as [<-|[]]. destruct r as [u|e|]; [exact (P u eq_refl) | discriminate W | discriminate W].
    + intros W. destruct r as [u|e|]; [eexists; exact (P u eq_refl) | discriminate W | discriminate W].
Qed.
Lemma ckey_may h p cid id : handle_ok h -> call_ok (fst p) -> is_i64 cid -> is_i64 id -> ckey h p (docKey cid id) -> may_change h p cid id.
Proof.
  intros H C I Ii [W (cid' & T & K)]. assert (I' : is_i64 cid') by (destruct p as [[|] r]; cbn [fst target] in T; eapply H; exact T).
  pose proof (prefix_one cid cid' _ I I' (docKey_self cid id) (doc_key_of h (fst p) _ cid' K)) as <-. split; [exact W|]. split; [exact T|].
  destruct K as [(id' & A & E)|[A _]]; [|auto]. right. destruct C as [C _]. rewrite Forall_forall in C. apply docKey_inj in E; auto. destruct E as [_ ->]. exact A.
Qed.

(** * Histories *)
Lemma looks_ids p id : looks_up p id -> In id (call_ids (fst p)).
Proof.
  destruct p as [[m dbn coll o|m dbn coll did data f] r]; [|intros []]. intros L. destruct o; cbn [looks_up fst call_ids] in *; try (destruct L; fail); try (left; exact L). destruct r as [[|b|v|found er|n|mn mx]|e|]; try (destruct L; fail). rewrite <- (firstn_skipn (S (length found)) dids). apply in_or_app. left. exact L.
Qed.
Record fol (es : list dev) (w : dworld) (J : journal) (i : nat) (d : deed) (x : dtxn) : Prop := {
  fl_es : forall c, In c (calls d) -> In (DCall i c) es;
  fl_ro : dt_upd x = false -> exists h, In (DBegin h i false) es;
  fl_reads : dt_upd x = true -> forall cid id, is_i64 cid -> looked_up d cid id -> In (docKey cid id) (t_reads (dt_t x));
  fl_pend : dt_upd x = true -> forall p cid id, In p (s_calls d) -> changes (s_h d) p cid id -> get (t_pend (dt_t x)) (docKey cid id) <> None;
  fl_some : dt_upd x = true -> changed d = true -> exists k, get (t_pend (dt_t x)) k <> None;
  fl_last : dt_upd x = true -> forall d' p cid id, In d' (skipn (s_seen d) (j_done J)) -> In p (s_calls d') -> changes (s_h d') p cid id ->
    exists ts, get (d_last (dw_db w)) (docKey cid id) = Some ts /\ (t_rts (dt_t x) < ts)%nat
}.
Definition finv (es : list dev) (w : dworld) (J : journal) : Prop :=
  forall i x d, dw_tx w i = Some x -> find_tx i (j_open J) = Some d -> fol es w J i d x.
Lemma looked_snoc d c r cid id : looked_up (Deed (s_h d) (s_upd d) (s_seen d) (s_calls d ++ [(c, r)])) cid id ->
  looked_up d cid id \/ looks_up (c, r) id /\ target (s_h d) c = Some cid /\ forall p, In p (s_calls d) -> ~ may_change (s_h d) p cid id.
Proof.
  intros (pre & c0 & r0 & post & E & L & T & N). cbn [s_h s_calls] in *. destruct post as [|q post _] using rev_ind.
  - apply app_inj_tail in E. destruct E as [-> E]. assert (c0 = c /\ r0 = r) as [-> ->] by (split; congruence). auto.
  - left. assert (E' : s_calls d ++ [(c, r)] = (pre ++ (c0, r0) :: post) ++ [q]) by (rewrite E, <- app_assoc; reflexivity). apply app_inj_tail in E'. destruct E' as [E' _]. exists pre, c0, r0, post. auto.
Qed.
Lemma publish_marks d t k : get (t_pend t) k <> None -> get (d_last (publish d t)) k = Some (S (d_ts d)).
Proof.
  intros G. cbn [publish d_last]. rewrite get_last_fold. destruct (existsb _ _) eqn:X; [reflexivity|]. exfalso. destruct (get (t_pend t) k) as [o|] eqn:Q; [|exact (G eq_refl)].
  apply get_in in Q. assert (Y : existsb (fun p => bytes_eqb k (fst p)) (entries (t_pend t)) = true) by (apply existsb_exists; exists (k, o); split; [exact Q | apply bytes_eqb_refl]). congruence.
Qed.
Lemma publish_rises d t k ts : db_ok d -> get (d_last d) k = Some ts -> exists ts', get (d_last (publish d t)) k = Some ts' /\ (ts <= ts')%nat.
Proof.
  intros K G. cbn [publish d_last]. rewrite get_last_fold. destruct (existsb _ _); [|eauto]. eexists. split; [reflexivity|]. pose proof (K _ _ G). lia.
Qed.
(** the rest of the world moves on *)
Lemma fol_more es e w J i d x w' J' l : fol es w J i d x -> (s_seen d <= length (j_done J))%nat -> j_done J' = j_done J ++ l ->
  (forall k ts, get (d_last (dw_db w)) k = Some ts -> exists ts', get (d_last (dw_db w')) k = Some ts' /\ (ts <= ts')%nat) ->
  (dt_upd x = true -> forall d' p cid id, In d' l -> In p (s_calls d') -> changes (s_h d') p cid id -> exists ts, get (d_last (dw_db w')) (docKey cid id) = Some ts /\ (t_rts (dt_t x) < ts)%nat) ->
  fol (es ++ [e]) w' J' i d x.
Proof.
  intros [A B C D E F] SL J1 G L. split; auto.
  - intros c I. apply in_or_app. left. auto.
  - intros U. destruct (B U) as [h X]. exists h. apply in_or_app. auto.
  - intros U d' p cid id I Ip Q. rewrite J1, skipn_app in I. apply in_app_or in I. destruct I as [I|I].
    + destruct (F U d' p cid id I Ip Q) as (ts & T1 & T2). destruct (G _ _ T1) as (ts' & T3 & T4). exists ts'. split; [exact T3 | lia].
    + replace (s_seen d - length (j_done J))%nat with 0%nat in I by lia. eauto.
Qed.
Lemma same_last w w' : d_last (dw_db w') = d_last (dw_db w) -> forall k ts, get (d_last (dw_db w)) k = Some ts -> exists ts', get (d_last (dw_db w')) k = Some ts' /\ (ts <= ts')%nat.
Proof. intros E k ts G. rewrite E. eauto. Qed.
Lemma wrote_writes h p : wrote h p = true -> call_writes (fst p) = true.
Proof. destruct p as [[m dbn coll o|] [v|e|]]; cbn [fst call_writes wrote]; intros W; try discriminate W; [|reflexivity]. destruct o; try discriminate W; reflexivity. Qed.
Lemma entries_none {V} (m : smap V) k : entries m = [] -> get m k <> None -> False.
Proof. intros E G. destruct (get m k) as [v|] eqn:Q; [|exact (G eq_refl)]. apply get_in in Q. rewrite E in Q. destruct Q. Qed.
Lemma step_finv es w J e : cinv w J -> finv es w J -> history_ok (es ++ [e]) -> finv (es ++ [e]) (fst (dstep w e)) (jstep J (e, snd (dstep w e))).
Proof.
  intros [K T] H OK. assert (IN : In e (es ++ [e])) by (apply in_or_app; right; left; reflexivity).
  assert (SEEN : forall i x d, dw_tx w i = Some x -> find_tx i (j_open J) = Some d -> (s_seen d <= length (j_done J))%nat /\ (dt_upd x = true -> (t_rts (dt_t x) <= d_ts (dw_db w))%nat)).
  { intros i x d X F. destruct (T i x X) as (d0 & F0 & [_ _ S Q]). assert (d0 = d) by congruence. subst d0. split; [exact S|]. intros U. apply Q; exact U. }
  assert (DROP : forall i rest, finv (es ++ [e]) (DW (dw_db w) (dw_upd (dw_tx w) i None)) (Journal (forget i (j_open J)) (j_done J) rest)).
  { intros i rest j x d X F. cbn [dw_tx j_open] in *. unfold dw_upd in X. destruct (Nat.eqb j i) eqn:Ej; [discriminate X|]. rewrite find_forget, Ej in F.
    apply (fol_more es e w J j d x _ _ [] (H j x d X F)); [exact (proj1 (SEEN j x d X F)) | cbn [j_done]; rewrite app_nil_r; reflexivity | apply same_last; reflexivity | intros _ d' p cid id []]. }
  destruct e as [h i u|i c|h i io|i|t io|n]; cbn [dstep] in *.
  - intros j x d X F. cbn [fst snd jstep dw_tx j_open] in *. unfold dw_upd in X. rewrite find_cons in F. destruct (Nat.eqb_spec j i) as [->|Ej].
    + assert (x = NewTxn h (dw_db w) u []) by congruence. assert (d = Deed h u (length (j_done J)) []) by congruence. subst x d. split; cbn [s_h s_calls s_seen j_done]; unfold changed, calls; cbn [s_calls map existsb].
      * intros c [].
      * unfold NewTxn. cbn [dt_upd]. intros ->. eexists. exact IN.
      * intros _ cid id _ (pre & c & r & post & E & _). cbn [s_calls] in E. destruct pre; discriminate E.
      * intros _ p cid id [].
      * intros _ Q. discriminate Q.
      * intros _ d' p cid id I. rewrite skipn_all in I. destruct I.
    + rewrite find_forget in F. destruct (Nat.eqb_spec j i) as [Q|_]; [contradiction|]. apply (fol_more es _ w J j d x _ _ [] (H j x d X F)); [exact (proj1 (SEEN j x d X F)) | cbn [j_done]; rewrite app_nil_r; reflexivity | apply same_last; reflexivity | intros _ d' p cid id []].
  - destruct (dw_tx w i) as [x|] eqn:Ex.
    2:{ cbn [fst snd jstep]. intros j x d X F. apply (fol_more es _ w J j d x _ _ [] (H j x d X F)); [exact (proj1 (SEEN j x d X F)) | rewrite app_nil_r; reflexivity | apply same_last; reflexivity | intros _ d' p cid id []]. }
    destruct (call_exec x c) as [x' r] eqn:Ec. cbn [fst snd jstep]. destruct (T i x Ex) as (d & F1 & [A B C D]). rewrite F1. intros j y dj Y F. cbn [dw_tx j_open] in *. unfold dw_upd in Y. rewrite find_cons in F. destruct (Nat.eqb_spec j i) as [->|Ej].
    + assert (y = x') by congruence. subst y. assert (dj = Deed (s_h d) (s_upd d) (s_seen d) (s_calls d ++ [(c, r)])) by congruence. subst dj. destruct (H i x d Ex F1) as [G1 G2 G3 G4 G5 G6].
      assert (CO : call_ok c) by (split; [exact (ok_ids _ OK i c IN) | exact (ok_range _ OK i c IN)]).
      assert (UP : dt_upd x' = dt_upd x).
      { clear -Ec. destruct c as [m dbn coll o|m dbn coll did data f]; cbn [call_exec] in Ec.
        - unfold with_coll in Ec. destruct (resolve (dt_start x) dbn coll) as [cid|]; [|congruence]. destruct (op_tx cid o _) as [t r1]. assert (E : x' = with_t (if m then ReferredCollections x [cid] else x) t) by congruence. rewrite E. destruct m; reflexivity.
        - destruct (resolve (dt_start x) dbn coll) as [cid|]; [|congruence]. destruct (tset (docKey cid did) data _) as [t r1]. unfold AddCancelFunc in Ec. destruct (negb _) eqn:N.
          + assert (E : x' = with_t (if m then ReferredCollections x [cid] else x) t) by congruence. rewrite E. destruct m; reflexivity.
          + assert (E : x' = DT (dt_t (with_t (if m then ReferredCollections x [cid] else x) t)) (dt_start (with_t (if m then ReferredCollections x [cid] else x) t)) (dt_refs (with_t (if m then ReferredCollections x [cid] else x) t)) (dt_cancels (with_t (if m then ReferredCollections x [cid] else x) t) ++ [f]) (dt_upd (with_t (if m then ReferredCollections x [cid] else x) t))) by congruence. rewrite E. destruct m; reflexivity. }
      split; rewrite ?UP.
      * unfold calls. cbn [s_calls]. rewrite map_app. intros c0 I. apply in_app_or in I. destruct I as [I|[<-|[]]]; [apply in_or_app; left; exact (G1 c0 I) | exact IN].
      * intros U. destruct (G2 U) as [h X]. exists h. apply in_or_app. auto.
      * intros U cid id I6 L. destruct (D U) as (D1 & D2 & D3 & D4 & D5). destruct (call_gives (s_h d) c x x' r A U D1 Ec) as (Q1 & Q2 & Q3 & Q4 & Q5). apply looked_snoc in L. destruct L as [L|(L1 & L2 & L3)]; [exact (Q1 _ (G3 U cid id I6 L))|].
        apply Q3; [exact L1 | exact L2|]. destruct (get (t_pend (dt_t x)) (docKey cid id)) as [o|] eqn:Gp; [|reflexivity]. exfalso. destruct (D3 (docKey cid id) ltac:(congruence)) as (p & P1 & P2). apply (L3 p P1).
        destruct B as [B1 B2]. rewrite Forall_forall in B2. apply ckey_may; [exact B1 | exact (B2 _ (in_map fst _ _ P1)) | exact I6 | | exact P2]. destruct CO as [CO _]. rewrite Forall_forall in CO. apply CO. exact (looks_ids _ _ L1).
      * intros U p cid id I Q. cbn [s_h s_calls] in *. destruct (D U) as (D1 & _). destruct (call_gives (s_h d) c x x' r A U D1 Ec) as (Q1 & Q2 & Q3 & Q4 & Q5). apply in_app_or in I. destruct I as [I|[<-|[]]]; [exact (Q2 _ (G4 U p cid id I Q)) | exact (Q4 cid id Q)].
      * intros U Q. destruct (D U) as (D1 & _). destruct (call_gives (s_h d) c x x' r A U D1 Ec) as (Q1 & Q2 & Q3 & Q4 & Q5). unfold changed in Q. cbn [s_h s_calls] in Q. rewrite existsb_app in Q. apply Bool.orb_true_iff in Q. destruct Q as [Q|Q]; [destruct (G5 U Q) as [k X]; exists k; auto|]. apply Q5. cbn [existsb] in Q. rewrite Bool.orb_false_r in Q. exact Q.
      * intros U d' p cid id I Ip Q. destruct (D U) as (D1 & _). destruct (call_touches (s_h d) c x x' r A U D1 CO Ec) as (_ & _ & _ & R & _). rewrite R. exact (G6 U d' p cid id I Ip Q).
    + rewrite find_forget in F. destruct (Nat.eqb_spec j i) as [Q|_]; [contradiction|]. apply (fol_more es _ w J j dj y _ _ [] (H j y dj Y F)); [exact (proj1 (SEEN j y dj Y F)) | cbn [j_done]; rewrite app_nil_r; reflexivity | apply same_last; reflexivity | intros _ d' p cid id []].
  - destruct (dw_tx w i) as [x|] eqn:Ex.
    2:{ cbn [fst snd jstep]. intros j x d X F. assert (X' : dw_upd (dw_tx w) i None j = Some x) by (unfold dw_upd; destruct (Nat.eqb_spec j i) as [->|]; [congruence | exact X]). destruct (DROP i (j_rest J ++ left_over i (j_open J)) j x d X' F) as [Z1 Z2 Z3 Z4 Z5 Z6]. split; assumption. }
    destruct (T i x Ex) as (d & F1 & [A B C D]). destruct (H i x d Ex F1) as [G1 G2 G3 G4 G5 G6]. unfold dcommit. destruct (dt_upd x) eqn:U; cbn [negb].
    2:{ cbn [fst snd jstep]. rewrite F1. assert (CH : changed d = false); [|rewrite CH; apply DROP]. destruct (changed d) eqn:CH; [|reflexivity]. exfalso. unfold changed in CH. apply existsb_exists in CH. destruct CH as (p & P1 & P2). apply wrote_writes in P2. destruct (G2 eq_refl) as [h0 B0].
        rewrite (ok_ro _ OK h0 i (fst p)) in P2; [discriminate P2 | apply in_or_app; left; exact B0 | apply in_or_app; left; exact (G1 _ (in_map fst _ _ P1))]. }
    destruct (D eq_refl) as (D1 & D2 & D3 & D4 & D5). destruct (Check h false (dt_start x) (dt_refs x)) as [h1 [[|]| |]]; cbn [fst snd jstep]; try apply DROP.
    destruct (commit (dw_db w) (dt_t x) io) as [[d1 t1] r] eqn:Ecm. unfold commit in Ecm. destruct D1 as (_ & OP & _). rewrite OP in Ecm. cbn [negb] in Ecm.
    destruct (entries (t_pend (dt_t x))) as [|p0 l0] eqn:Ep.
    { assert (d1 = dw_db w /\ r = Ok tt) as [-> ->] by (split; congruence). cbn [fst snd jstep]. rewrite F1. assert (CH : changed d = false); [|rewrite CH; apply DROP]. destruct (changed d) eqn:CH; [|reflexivity]. exfalso. destruct (G5 eq_refl eq_refl) as [k X]. exact (entries_none _ _ Ep X). }
    destruct (conflict (dw_db w) (dt_t x)).
    { assert (d1 = dw_db w /\ r = Err EConflict) as [-> ->] by (split; congruence). cbn [fst snd jstep]. apply DROP. }
    destruct io.
    { assert (d1 = dw_db w /\ r = Err EIO) as [-> ->] by (split; congruence). cbn [fst snd jstep]. apply DROP. }
    assert (d1 = publish (dw_db w) (dt_t x) /\ r = Ok tt) as [-> ->] by (split; congruence). cbn [fst snd jstep]. rewrite F1.
    assert (CH : changed d = true).
    { assert (G : get (t_pend (dt_t x)) (fst p0) <> None) by (destruct p0 as [k0 o0]; cbn [fst]; assert (X : In (k0, o0) (entries (t_pend (dt_t x)))) by (rewrite Ep; left; reflexivity); apply get_in in X; congruence).
      destruct (D3 _ G) as (p & P1 & [P2 _]). unfold changed. apply existsb_exists. exists p. auto. }
    rewrite CH. intros j y dj Y F. cbn [dw_tx j_open] in *. unfold dw_upd in Y. destruct (Nat.eqb j i) eqn:Ej; [discriminate Y|]. rewrite find_forget, Ej in F. destruct (SEEN j y dj Y F) as [S1 S2].
    apply (fol_more es _ w J j dj y _ _ [d] (H j y dj Y F)); [exact S1 | reflexivity | cbn [dw_db]; intros k ts G; exact (publish_rises _ _ _ _ K G)|].
    intros Uy d' p cid id [<-|[]] Ip Q. exists (S (d_ts (dw_db w))). cbn [dw_db]. split; [apply publish_marks; exact (G4 eq_refl p cid id Ip Q)|]. pose proof (S2 Uy). lia.
  - cbn [fst snd jstep]. apply DROP.
  - destruct (commit (dw_db w) t io) as [[d1 t1] r] eqn:Ecm. cbn [fst snd jstep]. intros j y dj Y F. cbn [dw_tx] in Y.
    assert (X : d1 = dw_db w \/ d1 = publish (dw_db w) t).
    { unfold commit in Ecm. destruct (negb (t_open t)); [left; congruence|]. destruct (entries (t_pend t)); [left; congruence|]. destruct (conflict (dw_db w) t); [left; congruence|]. destruct io; [left; congruence | right; congruence]. }
    apply (fol_more es _ w J j dj y _ _ [] (H j y dj Y F)); [exact (proj1 (SEEN j y dj Y F)) | rewrite app_nil_r; reflexivity | | intros _ d' p cid id []].
    cbn [dw_db]. destruct X as [->| ->]; [apply (same_last w w); reflexivity | intros k ts G; exact (publish_rises _ _ _ _ K G)].
  - cbn [fst snd jstep]. intros j y dj Y F. cbn [dw_tx] in Y. apply (fol_more es _ w J j dj y _ _ [] (H j y dj Y F)); [exact (proj1 (SEEN j y dj Y F)) | rewrite app_nil_r; reflexivity | apply same_last; reflexivity | intros _ d' p cid id []].
Qed.
Lemma run_finv now clamp es : history_ok es -> finv es (fst (dhist (dfresh now clamp) es)) (journal_of (dfresh now clamp) es).
Proof.
  induction es as [|e es IH] using rev_ind; intros H.
  - intros i x d X. discriminate X.
  - rewrite dhist_snoc, journal_snoc. apply step_finv; [exact (run_cinv now clamp es (history_ok_snoc _ _ H)) | apply IH; exact (history_ok_snoc _ _ H) | exact H].
Qed.

(** only update transactions report changes *)
Lemma writes_upd now clamp es i x d : history_ok es -> let w := fst (dhist (dfresh now clamp) es) in let J := journal_of (dfresh now clamp) es in
  dw_tx w i = Some x -> find_tx i (j_open J) = Some d -> changed d = true -> dt_upd x = true.
Proof.
  intros H w J Ex F CH. destruct (run_finv now clamp es H i x d Ex F) as [G1 G2 _ _ _ _]. destruct (dt_upd x) eqn:U; [reflexivity|]. exfalso. unfold changed in CH. apply existsb_exists in CH. destruct CH as (q & P1 & P2). apply wrote_writes in P2. destruct (G2 eq_refl) as [h0 B0].
  rewrite (ok_ro _ H h0 i (fst q) B0 (G1 _ (in_map fst _ _ P1))) in P2. discriminate P2.
Qed.
(** * C99 *)
Theorem C99_first_committer_wins : forall now clamp es h i io, history_ok es ->
  let w := fst (dhist (dfresh now clamp) es) in let J := journal_of (dfresh now clamp) es in
  forall d cid id, find_tx i (j_open J) = Some d -> changed d = true -> looked_up d cid id ->
  forall d' p, In d' (skipn (s_seen d) (j_done J)) -> In p (s_calls d') -> changes (s_h d') p cid id ->
  snd (dstep w (DCommit h i io)) <> ADone (Ok tt) /\ dw_db (fst (dstep w (DCommit h i io))) = dw_db w /\
  (forall x, dw_tx w i = Some x -> snd (Check h false (dt_start x) (dt_refs x)) = CkRes true -> snd (dstep w (DCommit h i io)) = ADone (Err EConflict)).
Proof.
  intros now clamp es h i io H w J d cid id F CH L d' p I Ip Q. destruct (run_cinv now clamp es H) as [K T]. pose proof (run_finv now clamp es H) as R. fold w J in K, T, R. cbn [dstep]. destruct (dw_tx w i) as [x|] eqn:Ex; [|split; [discriminate|]; split; [reflexivity|]; intros x X; discriminate X].
  destruct (R i x d Ex F) as [G1 G2 G3 G4 G5 G6]. destruct (T i x Ex) as (d0 & F0 & [A B C D]). assert (d0 = d) by congruence. subst d0.
  assert (U : dt_upd x = true).
  { destruct (dt_upd x) eqn:U; [reflexivity|]. exfalso. unfold changed in CH. apply existsb_exists in CH. destruct CH as (q & P1 & P2). apply wrote_writes in P2. destruct (G2 eq_refl) as [h0 B0]. rewrite (ok_ro _ H h0 i (fst q) B0 (G1 _ (in_map fst _ _ P1))) in P2. discriminate P2. }
  unfold dcommit. rewrite U. cbn [negb]. destruct (D U) as ((_ & OP & _) & _).
  assert (Ic : is_i64 cid) by (destruct L as (pre & c & r & post & _ & _ & Tg & _); destruct B as [B _]; destruct c; eapply B; exact Tg).
  assert (CF : conflict (dw_db w) (dt_t x) = true).
  { unfold conflict. apply existsb_exists. exists (docKey cid id). split; [exact (G3 U cid id Ic L)|]. destruct (G6 U d' p cid id I Ip Q) as (ts & -> & Lt). apply Nat.ltb_lt. exact Lt. }
  assert (CM : commit (dw_db w) (dt_t x) io = (dw_db w, close (dt_t x), Err EConflict)).
  { unfold commit. rewrite OP, CF. cbn [negb]. destruct (G5 U CH) as [k X]. destruct (entries (t_pend (dt_t x))) eqn:Ep; [destruct (entries_none _ _ Ep X) | reflexivity]. }
  rewrite CM. destruct (Check h false (dt_start x) (dt_refs x)) as [h1 [[|]| |]] eqn:Ck; cbn [fst snd dw_db]; (split; [discriminate|]; split; [reflexivity|]); intros x0 X0; assert (x0 = x) by congruence; subst x0; rewrite Ck; cbn [snd]; intros X; try discriminate X; reflexivity.
Qed.
Print Assumptions C99_first_committer_wins.

(** * Exactly then, among transactions whose calls name their documents *)
Definition single (c : call) : bool := negb (scans c).
Definition by_id (d : deed) : Prop := forall c, In c (calls d) -> single c = true.
Lemma fresh_op c m dbn coll o t t' r k : single (Op m dbn coll o) = true -> able t -> op_tx c o t = (t', r) -> In k (t_reads t') -> In k (t_reads t) \/ get (t_pend t) k = None /\ forall id, In id (call_ids (Op m dbn coll o)) -> k = docKey c id -> (forall d, o <> ODelete d) -> exists id', k = docKey c id' /\ In id' (call_ids (Op m dbn coll o)) /\ looks_up (Op m dbn coll o, r) id'.
Proof.
  assert (X : forall k, fresh (texists k)) by (intros k0; unfold texists; apply fresh_try; [apply fresh_bget | apply keeps_bget|]; intros [a|[]|]; apply fresh_const).
  assert (U : forall md did v, fresh (doc_update md c did v) /\ keeps (doc_update md c did v)).
  { intros md did v. unfold doc_update. cbv zeta. split.
    - apply fresh_bind; [apply X | apply keeps_texists|]. intros ex. destruct md; [destruct ex| |destruct ex]; try apply fresh_const; (apply fresh_bind; [apply fresh_tset | apply keeps_tset | intros; apply fresh_const]).
    - apply keeps_bind; [apply keeps_texists|]. intros ex. destruct md; [destruct ex| |destruct ex]; try apply keeps_const; (apply keeps_bind; [apply keeps_tset | intros; apply keeps_const]). }
  intros S AB E I. destruct o as [did v|did v|did v|did|did|dids| | | |]; try discriminate S.
  1-3: (assert (F : fresh (op_tx c (OUpdate did v)) /\ fresh (op_tx c (OUpsert did v)) /\ fresh (op_tx c (OInsert did v))) by (cbn [op_tx]; repeat split; (apply fresh_bind; [apply U | apply U | intros; apply fresh_const])); destruct F as (F1 & F2 & F3));
    match type of E with op_tx _ ?o _ = _ => assert (F : fresh (op_tx c o)) by assumption end; destruct (F _ _ _ k E I) as [Q|Q]; [auto|]; right; split; [exact Q|]; intros id [<-|[]] -> _; exists did; split; [reflexivity|]; split; [left; reflexivity | reflexivity].
  - assert (F : fresh (op_tx c (ODelete did))) by (cbn [op_tx]; apply fresh_bind; [apply fresh_map_err, fresh_modify | apply keeps_tdel | intros; apply fresh_const]). destruct (F _ _ _ k E I) as [Q|Q]; [auto|]. right. split; [exact Q|]. intros id _ _ N. destruct (N did eq_refl).
  - assert (F : fresh (op_tx c (OGet did))) by (cbn [op_tx]; apply fresh_bind; [apply fresh_get | apply keeps_get | intros; apply fresh_const]). destruct (F _ _ _ k E I) as [Q|Q]; [auto|]. right. split; [exact Q|]. intros id [<-|[]] -> _. exists did. split; [reflexivity|]. split; [left; reflexivity | reflexivity].
  - destruct (many_op c dids t t' r AB E) as (l & e & -> & _ & I2). destruct (I2 k I) as [Q|(Q & id & Q1 & Q2)]; [auto|]. right. split; [exact Q|]. intros _ _ _ _. exists id. split; [exact Q2|]. assert (LU : looks_up (Op m dbn coll (OGetMany dids), Ok (VDocs l e)) id) by exact Q1. split; [exact (looks_ids _ _ LU) | exact LU].
Qed.
Lemma call_fresh h x c x' r k : dt_start x = h_val h -> single c = true -> able (dt_t x) -> call_exec x c = (x', r) -> In k (t_reads (dt_t x')) -> lkey h c k -> In k (t_reads (dt_t x)) \/
  get (t_pend (dt_t x)) k = None /\ exists cid id, target h c = Some cid /\ k = docKey cid id /\ In id (call_ids c) /\ looks_up (c, r) id.
Proof.
  intros St S AB E I (Lk & cid & Tg & CK). destruct c as [m dbn coll o|m dbn coll did data f]; [|discriminate Lk]. cbn [call_exec] in E. unfold with_coll in E. rewrite St in E. cbn [target] in Tg. rewrite Tg in E. assert (Et : dt_t (if m then ReferredCollections x [cid] else x) = dt_t x) by (destruct m; reflexivity). rewrite Et in E.
  destruct (op_tx cid o (dt_t x)) as [t r1] eqn:Eo. assert (r1 = r) by congruence. subst r1. assert (X' : x' = with_t (if m then ReferredCollections x [cid] else x) t) by congruence. subst x'. destruct (fresh_op cid m dbn coll o _ _ _ k S AB Eo I) as [Q|[Q1 Q2]]; [auto|]. right. split; [exact Q1|].
  destruct CK as [(id & Ii & Ek)|[Sc _]]; [|unfold single in S; rewrite Sc in S; discriminate S]. assert (ND : forall d, o <> ODelete d) by (intros d ->; discriminate Lk). destruct (Q2 id Ii Ek ND) as (id' & Z1 & Z2 & Z3). exists cid, id'. auto.
Qed.
Definition ginv (w : dworld) (J : journal) : Prop := forall i x d, dw_tx w i = Some x -> find_tx i (j_open J) = Some d -> dt_upd x = true -> by_id d ->
  forall k, In k (t_reads (dt_t x)) -> exists cid id, k = docKey cid id /\ is_i64 cid /\ is_i64 id /\ looked_up d cid id.
Lemma looked_more d c r cid id : looked_up d cid id -> looked_up (Deed (s_h d) (s_upd d) (s_seen d) (s_calls d ++ [(c, r)])) cid id.
Proof. intros (pre & c0 & r0 & post & E & L & T & N). exists pre, c0, r0, (post ++ [(c, r)]). cbn [s_h s_calls]. rewrite E, <- app_assoc. auto. Qed.
Lemma step_ginv es w J e : cinv w J -> finv es w J -> ginv w J -> history_ok (es ++ [e]) -> ginv (fst (dstep w e)) (jstep J (e, snd (dstep w e))).
Proof.
  intros [K T] FI H OK. assert (IN : In e (es ++ [e])) by (apply in_or_app; right; left; reflexivity).
  assert (DROP : forall i d1 done rest, ginv (DW d1 (dw_upd (dw_tx w) i None)) (Journal (forget i (j_open J)) done rest)).
  { intros i d1 done rest j x d X F. cbn [dw_tx j_open] in *. unfold dw_upd in X. destruct (Nat.eqb j i) eqn:Ej; [discriminate X|]. rewrite find_forget, Ej in F. exact (H j x d X F). }
  destruct e as [h i u|i c|h i io|i|t io|n]; cbn [dstep] in *.
  - intros j x d X F U B k I. cbn [fst snd jstep dw_tx j_open] in *. unfold dw_upd in X. rewrite find_cons in F. destruct (Nat.eqb j i) eqn:Ej.
    + assert (x = NewTxn h (dw_db w) u []) by congruence. subst x. destruct I.
    + rewrite find_forget, Ej in F. exact (H j x d X F U B k I).
  - destruct (dw_tx w i) as [x|] eqn:Ex; [|exact H]. destruct (call_exec x c) as [x' r] eqn:Ec. cbn [fst snd jstep]. destruct (T i x Ex) as (d & F1 & [A B C D]). rewrite F1. intros j y dj Y F U BI k I. cbn [dw_tx j_open] in *. unfold dw_upd in Y. rewrite find_cons in F. destruct (Nat.eqb j i) eqn:Ej.
    2:{ rewrite find_forget, Ej in F. exact (H j y dj Y F U BI k I). }
    assert (y = x') by congruence. subst y. assert (dj = Deed (s_h d) (s_upd d) (s_seen d) (s_calls d ++ [(c, r)])) by congruence. subst dj. clear Y F j Ej.
    assert (BI' : by_id d /\ single c = true) by (unfold by_id, calls in *; cbn [s_calls] in BI; rewrite map_app in BI; split; [intros c0 Q; apply BI, in_or_app; auto | apply BI, in_or_app; right; left; reflexivity]). destruct BI' as [B1 S].
    assert (CO : call_ok c) by (split; [exact (ok_ids _ OK i c IN) | exact (ok_range _ OK i c IN)]).
    assert (UX : dt_upd x = true).
    { destruct (dt_upd x) eqn:Q; [reflexivity|]. exfalso. clear -Ec U Q. destruct c as [m dbn coll o|m dbn coll did data f]; cbn [call_exec] in Ec.
      - unfold with_coll in Ec. destruct (resolve (dt_start x) dbn coll) as [cid|]; [|congruence]. destruct (op_tx cid o _) as [t r1]. assert (E : x' = with_t (if m then ReferredCollections x [cid] else x) t) by congruence. rewrite E in U. destruct m; cbn [with_t ReferredCollections dt_upd] in U; congruence.
      - destruct (resolve (dt_start x) dbn coll) as [cid|]; [|congruence]. destruct (tset (docKey cid did) data _) as [t r1]. unfold AddCancelFunc in Ec. replace (dt_upd (with_t (if m then ReferredCollections x [cid] else x) t)) with false in Ec by (destruct m; symmetry; exact Q). cbn [negb] in Ec.
        assert (E : x' = with_t (if m then ReferredCollections x [cid] else x) t) by congruence. rewrite E in U. destruct m; cbn [with_t ReferredCollections dt_upd] in U; congruence. }
    assert (OLD : In k (t_reads (dt_t x)) -> exists cid id, k = docKey cid id /\ is_i64 cid /\ is_i64 id /\ looked_up (Deed (s_h d) (s_upd d) (s_seen d) (s_calls d ++ [(c, r)])) cid id).
    { intros Q. destruct (H i x d Ex F1 UX B1 k Q) as (cid & id & Q1 & Q2 & Q3 & Q4). exists cid, id. auto using looked_more. }
    destruct (D UX) as (D1 & _). destruct (call_touches (s_h d) c x x' r A UX D1 CO Ec) as (_ & _ & _ & _ & Q5 & _). destruct (Q5 k I) as [Q|LK]; [exact (OLD Q)|].
    destruct (call_fresh (s_h d) x c x' r k A S D1 Ec I LK) as [Q|(G & cid & id & Tg & -> & Ii & LU)]; [exact (OLD Q)|]. exists cid, id. split; [reflexivity|]. destruct B as [Bh Bc]. split; [destruct c; eapply Bh; exact Tg|]. split; [destruct CO as [CO _]; rewrite Forall_forall in CO; exact (CO id Ii)|].
    exists (s_calls d), c, r, []. cbn [s_h s_calls]. split; [reflexivity|]. split; [exact LU|]. split; [exact Tg|].
    intros p Ip (W & Tp & M). apply (fl_pend _ _ _ _ _ _ (FI i x d Ex F1) UX p cid id Ip); [|exact G]. split; [exact W|]. split; [exact Tp|]. destruct M as [M|M]; [|exact M]. exfalso. pose proof (B1 _ (in_map fst _ _ Ip)) as Z. unfold single in Z. rewrite M in Z. discriminate Z.
  - destruct (dw_tx w i) as [x|] eqn:Ex.
    2:{ cbn [fst snd jstep]. intros j x d X F. apply (DROP i (dw_db w) (j_done J) (j_rest J ++ left_over i (j_open J)) j x d); [|exact F]. cbn [dw_tx]. unfold dw_upd. destruct (Nat.eqb_spec j i) as [->|]; [congruence | exact X]. }
    destruct (T i x Ex) as (d & F1 & _). destruct (dcommit h (dw_db w) io x) as [[[[h1 d1] x1] r] ran]. cbn [fst snd jstep]. destruct r as [u|e|]; try apply DROP. rewrite F1. destruct (changed d); apply DROP.
  - cbn [fst snd jstep]. apply DROP.
  - destruct (commit (dw_db w) t io) as [[d1 t1] r]. exact H.
  - exact H.
Qed.
Lemma run_ginv now clamp es : history_ok es -> ginv (fst (dhist (dfresh now clamp) es)) (journal_of (dfresh now clamp) es).
Proof.
  induction es as [|e es IH] using rev_ind; intros H.
  - intros i x d X. discriminate X.
  - pose proof (history_ok_snoc _ _ H) as H'. rewrite dhist_snoc, journal_snoc. apply step_ginv with (es := es); [exact (run_cinv now clamp es H') | exact (run_finv now clamp es H') | exact (IH H') | exact H].
Qed.
Lemma conflict_why now clamp es h i : history_ok es ->
  let w := fst (dhist (dfresh now clamp) es) in let J := journal_of (dfresh now clamp) es in
  forall d, find_tx i (j_open J) = Some d -> by_id d -> (forall d', In d' (skipn (s_seen d) (j_done J)) -> by_id d') ->
  snd (dstep w (DCommit h i false)) = ADone (Err EConflict) ->
  exists cid id d' p, looked_up d cid id /\ In d' (skipn (s_seen d) (j_done J)) /\ In p (s_calls d') /\ changes (s_h d') p cid id.
Proof.
  intros H w J d F BI BD E. destruct (run_cinv now clamp es H) as [K T]. pose proof (run_ginv now clamp es H) as R. fold w J in K, T, R. cbn [dstep] in E. destruct (dw_tx w i) as [x|] eqn:Ex; [|discriminate E]. destruct (T i x Ex) as (d0 & F0 & [A B C D]). assert (d0 = d) by congruence. subst d0.
  unfold dcommit in E. destruct (dt_upd x) eqn:U; cbn [negb] in E; [|discriminate E]. destruct (D eq_refl) as ((_ & OP & _) & D2 & D3 & D4 & D5).
  destruct (Check h false (dt_start x) (dt_refs x)) as [h1 [[|]| |]]; cbn [snd] in E; try discriminate E.
  unfold commit in E. rewrite OP in E. cbn [negb] in E. destruct (entries (t_pend (dt_t x))) as [|p0 l0]; [discriminate E|]. destruct (conflict (dw_db w) (dt_t x)) eqn:CF; [|discriminate E]. clear E.
  unfold conflict in CF. apply existsb_exists in CF. destruct CF as (k & Rd & L). destruct (get (d_last (dw_db w)) k) as [ts|] eqn:G; [|discriminate L]. apply Nat.ltb_lt in L.
  destruct (R i x d Ex F U BI k Rd) as (cid & id & -> & I1 & I2 & LU). destruct (D5 _ ts cid I1 (docKey_self cid id) G L) as (d' & P1 & [P2 P2'] & p & P3 & P4). exists cid, id, d', p. split; [exact LU|]. split; [exact P1|]. split; [exact P3|].
  rewrite Forall_forall in P2'. destruct (ckey_may (s_h d') p cid id P2 (P2' _ (in_map fst _ _ P3)) I1 I2 P4) as (W & Tp & M). split; [exact W|]. split; [exact Tp|]. destruct M as [M|M]; [|exact M]. exfalso. pose proof (BD d' P1 _ (in_map fst _ _ P3)) as Z. unfold single in Z. rewrite M in Z. discriminate Z.
Qed.
(** Commit, when the schema allows it and the store can write: a conflict if and only if a transaction that committed since this
    one began changed a document that this one had looked up; otherwise success *)
Theorem C99_conflict_iff : forall now clamp es h i x, history_ok es ->
  let w := fst (dhist (dfresh now clamp) es) in let J := journal_of (dfresh now clamp) es in
  dw_tx w i = Some x -> snd (Check h false (dt_start x) (dt_refs x)) = CkRes true ->
  forall d, find_tx i (j_open J) = Some d -> changed d = true -> by_id d -> (forall d', In d' (skipn (s_seen d) (j_done J)) -> by_id d') ->
  (snd (dstep w (DCommit h i false)) = ADone (Err EConflict) <->
   exists cid id d' p, looked_up d cid id /\ In d' (skipn (s_seen d) (j_done J)) /\ In p (s_calls d') /\ changes (s_h d') p cid id) /\
  (snd (dstep w (DCommit h i false)) = ADone (Err EConflict) \/ snd (dstep w (DCommit h i false)) = ADone (Ok tt)).
Proof.
  intros now clamp es h i x H w J Ex Ck d F CH BI BD. split; [split|].
  - intros E. exact (conflict_why now clamp es h i H d F BI BD E).
  - intros (cid & id & d' & p & L & I & Ip & Q). destruct (C99_first_committer_wins now clamp es h i false H d cid id F CH L d' p I Ip Q) as (_ & _ & X). exact (X x Ex Ck).
  - destruct (run_cinv now clamp es H) as [K T]. fold w J in K, T. destruct (T i x Ex) as (d0 & F0 & [A B C D]). cbn [dstep]. rewrite Ex. unfold dcommit. destruct (dt_upd x) eqn:U; cbn [negb]; [|right; reflexivity]. destruct (D eq_refl) as ((_ & OP & _) & _).
    destruct (Check h false (dt_start x) (dt_refs x)) as [h1 [[|]| |]]; cbn [snd] in Ck; try discriminate Ck. unfold commit. rewrite OP. cbn [negb]. destruct (entries (t_pend (dt_t x))); [right; reflexivity|]. destruct (conflict (dw_db w) (dt_t x)); [left; reflexivity | right; reflexivity].
Qed.
Print Assumptions C99_conflict_iff.
(** * Examples: in [early] of P_DocConflict.v transaction 2 looked up document 7, which 1 then changed; a transaction that
    deletes document 7 unseen and then inserts it anew commits although another changed it meanwhile *)
Definition dA : deed := Deed P_DocSerial.h87 true 1 [(P_DocSerial.on_a (OUpdate 7 (str "z")), Ok (VBool true)); (P_DocSerial.on_b (OInsert 9 (str "w")), Ok VUnit)].
Example C99_example_refused : let w := fst (dhist (dfresh 100 false) early) in let J := journal_of (dfresh 100 false) early in
  find_tx 2%nat (j_open J) = Some dA /\ changed dA = true /\ by_id dA /\ looked_up dA 2 7 /\ ~ looked_up dA 2 9 /\
  (exists d', skipn (s_seen dA) (j_done J) = [d'] /\ by_id d' /\ exists p, In p (s_calls d') /\ changes (s_h d') p 2 7) /\
  (exists x, dw_tx w 2%nat = Some x /\ snd (Check P_DocSerial.h87 false (dt_start x) (dt_refs x)) = CkRes true) /\
  snd (dstep w (DCommit P_DocSerial.h87 2 false)) = ADone (Err EConflict).
Proof.
  intros w J. split; [vm_compute; reflexivity|]. split; [vm_compute; reflexivity|]. split; [intros c [<-|[<-|[]]]; reflexivity|]. split.
  { exists [], (P_DocSerial.on_a (OUpdate 7 (str "z"))), (Ok (VBool true)), [(P_DocSerial.on_b (OInsert 9 (str "w")), Ok VUnit)]. split; [reflexivity|]. split; [reflexivity|]. split; [vm_compute; reflexivity | intros p []]. }
  split.
  { intros (pre & c & r & post & E & L & T & _). cbn [dA s_calls s_h] in *. destruct pre as [|q pre]; [cbn [app] in E; assert (Q : c = P_DocSerial.on_a (OUpdate 7 (str "z"))) by congruence; rewrite Q in L; discriminate L|]. destruct pre as [|q' pre].
    - cbn [app] in E. assert (Q : c = P_DocSerial.on_b (OInsert 9 (str "w"))) by congruence. rewrite Q in T. vm_compute in T. discriminate T.
    - apply (f_equal (@length _)) in E. rewrite app_length in E. cbn [length] in E. lia. }
  split.
  { exists (Deed P_DocSerial.h87 true 1 [(P_DocSerial.on_a (OUpdate 7 (str "y")), Ok (VBool true))]). split; [vm_compute; reflexivity|]. split; [intros c [<-|[]]; reflexivity|]. eexists. split; [left; reflexivity|]. split; [reflexivity|]. split; [vm_compute; reflexivity | left; reflexivity]. }
  split; [|vm_compute; reflexivity]. destruct (dw_tx w 2) as [x|] eqn:E; [|exfalso; vm_compute in E; discriminate E]. exists x. split; [reflexivity|].
  assert (X : option_map (fun x => snd (Check P_DocSerial.h87 false (dt_start x) (dt_refs x))) (dw_tx w 2) = Some (CkRes true)) by (vm_compute; reflexivity). rewrite E in X. cbn [option_map] in X. congruence.
Qed.
Definition blind : list dev :=
  [DBegin P_DocSerial.h87 0 true; DCall 0 (P_DocSerial.on_a (OInsert 7 (str "x"))); DCommit P_DocSerial.h87 0 false;
   DBegin P_DocSerial.h87 1 true; DBegin P_DocSerial.h87 2 true; DCall 1 (P_DocSerial.on_a (OUpdate 7 (str "y"))); DCall 2 (P_DocSerial.on_a (ODelete 7)); DCall 2 (P_DocSerial.on_a (OInsert 7 (str "z")))].
Example C99_example_accepted :
  skipn 8 (snd (dhist (dfresh 100 false) (blind ++ [DCommit P_DocSerial.h87 1 false; DCommit P_DocSerial.h87 2 false]))) = [ADone (Ok tt); ADone (Ok tt)].
Proof. vm_compute. reflexivity. Qed.
(** GetMany of documents 7, 8, 9 when only 7 exists looks up 7 and 8 *)
Definition many (other : Z) : list dev :=
  [DBegin P_DocSerial.h87 0 true; DCall 0 (P_DocSerial.on_a (OInsert 7 (str "x"))); DCommit P_DocSerial.h87 0 false;
   DBegin P_DocSerial.h87 1 true; DBegin P_DocSerial.h87 2 true; DCall 1 (P_DocSerial.on_a (OInsert other (str "y"))); DCall 2 (P_DocSerial.on_a (OGetMany [7; 8; 9])); DCall 2 (P_DocSerial.on_b (OInsert 1 (str "z")));
   DCommit P_DocSerial.h87 1 false; DCommit P_DocSerial.h87 2 false].
Example C99_example_many :
  skipn 6 (snd (dhist (dfresh 100 false) (many 8))) = [AVal (Ok (VDocs [str "x"] (Some ErrDocNotFound))); AVal (Ok VUnit); ADone (Ok tt); ADone (Err EConflict)] /\
  skipn 6 (snd (dhist (dfresh 100 false) (many 9))) = [AVal (Ok (VDocs [str "x"] (Some ErrDocNotFound))); AVal (Ok VUnit); ADone (Ok tt); ADone (Ok tt)] /\
  looks_up (P_DocSerial.on_a (OGetMany [7; 8; 9]), Ok (VDocs [str "x"] (Some ErrDocNotFound))) 8 /\ ~ looks_up (P_DocSerial.on_a (OGetMany [7; 8; 9]), Ok (VDocs [str "x"] (Some ErrDocNotFound))) 9.
Proof.
  split; [vm_compute; reflexivity|]. split; [vm_compute; reflexivity|]. split; [right; left; reflexivity|]. intros [H|[H|[]]]; discriminate H.
Qed.
