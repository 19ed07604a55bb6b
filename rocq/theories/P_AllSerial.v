(** Everything at once: documents by name while any number of processes change the schema, reload their caches, lease
    document ids, crash, and run document transactions, all overlapping: C93. encoding/json is a parameter J meeting
    the contract [json_ok] (MetaCodec.v has an instance). The model, the notes users take ([entry], [glog]) and the maps
    by names ([ncalls_spec]) are in AllSerial.v. *)
From Verif Require Import Bytes SMap Provider ProviderProofs World UtilTxn Model Meta MetaCodec MetaSpec MetaProofs Schema DocTxn DocKeys Dml Ddl DdlSpec DdlProofs Domain.
From Verif Require P_Ddl P_DocSerial P_Domain P_DomSerial.
From Verif Require Import DdlSerial DdlSerialProofs DomSerial DomSerialProofs DocSerial DocLifeSpec AllSerial AllSerialProofs P_DdlSerial.

(** * Specification *)
(** the log of a history on a new database *)
Definition log_of (J : json) (now : Z) (clamp : bool) (es : list gev) : glog := snd (worked J (gstart (db_init now clamp)) log0 es).

(** * The transactions that committed changes got the answers they would have got one after the other, in the order of
    their commits, on one map per database and collection name, each seeing the collections its process showed when it
    began *)
Theorem C93_named_documents_are_serial : forall J, json_ok J -> forall now clamp es, world_ok J (db_init now clamp) es ->
  let l := l_done (log_of J now clamp es) in scan_free l -> nreplays no_docs l.
Proof.
  intros J JO now clamp es H l SF. destruct (named_run J JO now clamp es H) as (des & L & N). fold (log_of J now clamp es) in N. destruct (nm_log _ _ _ _ _ _ N) as [_ SD _]. fold l in SD.
  eapply replays_names; [exact (nm_ids _ _ _ _ _ _ N) | exact SD | | apply agree_none |].
  - intros d I. apply (nm_done _ _ _ _ _ _ N), in_app_iff. auto.
  - apply P_DocSerial.C87_committed_transactions_are_serial; [exact (nm_hist _ _ _ _ _ _ N) | exact (scan_like _ _ SD SF)].
Qed.
Print Assumptions C93_named_documents_are_serial.
(** * Every transaction, also one that is under way, was discarded or refused, or whose process died, got its answers from
    the documents as the transactions committed before it began had left them, and its own changes *)
Theorem C93_every_transaction_reads_one_moment : forall J, json_ok J -> forall now clamp es, world_ok J (db_init now clamp) es ->
  let j := log_of J now clamp es in let l := l_done j in scan_free l ->
  forall e, (exists n, lfind n (l_open j) = Some e) \/ In e (l_rest j ++ l_done j) ->
  (n_seen e <= length l)%nat /\ e_answers e = fst (ncalls_spec (n_sees e) (ndocs_after (firstn (n_seen e) l)) (e_calls e)).
Proof.
  intros J JO now clamp es H j l SF e He. destruct (named_run J JO now clamp es H) as (des & L & N). fold (log_of J now clamp es) in N. fold j in N. pose proof (nm_log _ _ _ _ _ _ N) as [SO SD SR]. fold l in SD.
  assert (X : exists d, like e d /\ P_Domain.cinv L (s_h d) /\ ((exists i, find_tx i (j_open (journal_of (w0 now clamp) des)) = Some d) \/ In d (j_rest (journal_of (w0 now clamp) des) ++ j_done (journal_of (w0 now clamp) des)))).
  { destruct He as [(n & En)|Ie].
    - pose proof (same_find n _ _ SO) as X. rewrite En in X. destruct (find_tx n (j_open (journal_of (w0 now clamp) des))) as [d|] eqn:Fd; [|destruct X]. exists d. split; [exact X|]. split; [exact (nm_open _ _ _ _ _ _ N n d Fd) | left; eauto].
    - destruct (forall2_in _ _ _ e (Forall2_app SR SD) Ie) as (d & Id & K). exists d. split; [exact K|]. split; [exact (nm_done _ _ _ _ _ _ N d Id) | right; exact Id]. }
  destruct X as (d & K & C & Od).
  destruct (P_DocSerial.C87_every_transaction_reads_one_moment now clamp des (nm_hist _ _ _ _ _ _ N) (scan_like _ _ SD SF) d Od) as [S1 S2].
  pose proof K as (_ & _ & K3 & _). rewrite K3. pose proof (like_len _ _ _ SD) as LE. split; [unfold committed in S1; unfold w0 in LE; lia|].
  eapply (proj1 (entry_names L e d _ _ (nm_ids _ _ _ _ _ _ N) C K _)); [exact S2].
  Unshelve. eapply after_names; [exact (nm_ids _ _ _ _ _ _ N) | apply forall2_firstn; exact SD | | apply agree_none].
  intros x Ix. apply (nm_done _ _ _ _ _ _ N), in_app_iff. right. unfold committed, w0 in *. rewrite <- (firstn_skipn (s_seen d)). apply in_or_app. left. exact Ix.
Qed.
Print Assumptions C93_every_transaction_reads_one_moment.
(** * The order respects real time: a transaction comes after all those that had committed when it began *)
Theorem C93_order_respects_real_time : forall J, json_ok J -> forall now clamp es, world_ok J (db_init now clamp) es ->
  let l := l_done (log_of J now clamp es) in scan_free l -> forall n e, nth_error l n = Some e -> (n_seen e <= n)%nat.
Proof.
  intros J JO now clamp es H l SF n e En. destruct (named_run J JO now clamp es H) as (des & L & N). fold (log_of J now clamp es) in N. destruct (nm_log _ _ _ _ _ _ N) as [_ SD _]. fold l in SD.
  destruct (forall2_nth _ _ _ SD n e En) as (d & Ed & (_ & _ & -> & _)). exact (P_DocSerial.C87_order_respects_real_time now clamp des (nm_hist _ _ _ _ _ _ N) (scan_like _ _ SD SF) n d Ed).
Qed.
Print Assumptions C93_order_respects_real_time.
(** * A schema request that was answered can be used by every process that has started and ended a reload since: the
    transactions it begins see the new collections *)
Definition system (J : json) (now : Z) (clamp : bool) (es : list gev) : gsys := fst (worked J (gstart (db_init now clamp)) log0 es).
Definition stays_up (p : nat) (es : list gev) : Prop := ~ In (GDdl (KCrash p)) es.
(** event [e] begins or ends transaction [n] *)
Definition about (n : nat) (e : gev) : Prop :=
  match e with GGet m _ | GBegin m _ | GCheck m | GCommit m _ | GDiscard m => m = n | _ => False end.
Lemma still_new J n p h es : forall g, g_new g n = Some (p, h) -> stays_up p es -> (forall e, In e es -> ~ about n e) -> g_new (grun J g es) n = Some (p, h).
Proof.
  induction es as [|e es IH]; intros g E L N; [exact E|]. unfold grun. cbn [fold_left]. apply IH; [|intros Y; apply L; right; exact Y | intros e0 Y; apply N; right; exact Y].
  pose proof (N e (or_introl eq_refl)) as Ne. destruct e as [e|q|q|m q|m u|m c|m|m io|m]; cbn [gstep about] in *.
  - destruct e as [m c|m io|m|q|t io]; try exact E. cbn [fst g_new]. rewrite E. cbn [stays]. destruct (Nat.eqb_spec p q) as [->|]; [exfalso; apply L; left; reflexivity | reflexivity].
  - destruct (g_rel g q); exact E.
  - destruct (g_rel g q) as [d|]; [|exact E]. destruct (reloadSchema J d (g_h g q) (g_next g)). exact E.
  - cbn [fst g_new]. rewrite upd_other by congruence. exact E.
  - destruct (g_new g m) as [[q h0]|]; [|exact E]. cbn [fst g_new]. rewrite upd_other by congruence. exact E.
  - destruct (g_tx g m) as [[[q y] [h0|]]|]; try exact E. destruct (call_exec y c). exact E.
  - destruct (g_tx g m) as [[[q y] [h0|]]|]; try exact E. destruct (dt_upd y); exact E.
  - destruct (g_tx g m) as [[[q y] [h0|]]|]; try exact E.
    + destruct (dcommit h0 (g_db g) io y) as [[[[h1 d1] x1] r] ran]. exact E.
    + destruct (dt_upd y); exact E.
  - exact E.
Qed.
Lemma world_prefix J d es es' : world_ok J d (es ++ es') -> world_ok J d es.
Proof.
  intros (F & R & LT). split; [apply Forall_app in F; apply F|]. split; [intros n c A B; apply (R n c); apply in_or_app; left; assumption|].
  assert (X : forall l g0, gload J g0 l <= gload J g0 (l ++ es')).
  { induction l as [|y l Y]; intros g0; cbn [app gload]; [apply gload_nonneg|]. specialize (Y (fst (gstep J g0 y))). lia. }
  specialize (X es (gstart d)). lia.
Qed.
Theorem C93_created_collections_are_shown : forall J, json_ok J -> forall now clamp a b c m p n u j, let es := a ++ GReload p :: b ++ GReloaded p :: c in let begun := es ++ GGet n p :: m ++ [GBegin n u] in
  world_ok J (db_init now clamp) begun -> stays_up p m -> (forall e, In e m -> ~ about n e) ->
  g_rel (system J now clamp a) p = None -> stays_up p b -> ~ In (GReloaded p) b -> stays_up p c ->
  In j (k_jobs (g_k (system J now clamp a))) -> poll J (g_db (system J now clamp a)) (j_id j) false = Returned None ->
  exists x, j_arg j = ArgDB x /\
  forall coll ci, mget (di_colls x) coll = Some ci ->
  exists e, lfind n (l_open (log_of J now clamp begun)) = Some e /\ n_sees e (di_name x) coll = true.
Proof.
  intros J JO now clamp a b c m p n u j es begun H Lm Nm RN L1 N L2 Ij Pj. apply world_prefix in H. destruct H as (F & _ & LT'). unfold system in *. rewrite worked_fst in *. set (d := db_init now clamp) in *.
  assert (F0 : frel (gstart d) (fstart d)) by (split; try reflexivity; cbn [gstart g_tx ftxn]; discriminate).
  assert (T0 : tinv (gstart d)) by (intros m0 q x o X; discriminate X).
  destruct (gprojs_run J es (gstart d) (fstart d) T0 F0 F) as (R1 & R2 & R3 & R4).
  assert (SH : P_DomSerial.shared_ok J d (gprojs J (gstart d) es)).
  { split; [|exact R2]. split; [apply db_ok_init|]. split; [intros k _; reflexivity|]. split; [intros k e X; discriminate X|]. split; [exact R3|]. change (kstart d) with (f_k (fstart d)). rewrite R4. exact LT'. }
  assert (ES : gprojs J (gstart d) es = gprojs J (gstart d) a ++ FReload p :: gprojs J (grun J (gstart d) (a ++ [GReload p])) b ++ FReloaded p :: gprojs J (grun J (gstart d) (a ++ [GReload p] ++ b ++ [GReloaded p])) c).
  { unfold es. rewrite !gprojs_app. f_equal. cbn [gprojs gproj app]. rewrite grun_app. unfold grun at 3. cbn [fold_left]. f_equal. rewrite gprojs_app. f_equal. cbn [gprojs gproj app]. f_equal. f_equal. unfold grun. rewrite ?fold_left_app. cbn [app fold_left]. rewrite ?fold_left_app. reflexivity. }
  assert (Fa : Forall gev_ok a) by (unfold es in F; apply Forall_app in F; apply F).
  destruct (gprojs_run J a (gstart d) (fstart d) T0 F0 Fa) as ([A1 A2 A3 A4 A5] & _). unfold g_db in Pj. rewrite <- A1 in Ij, Pj. rewrite <- A3 in RN.
  rewrite ES in SH. destruct (P_DomSerial.C90_answered_requests_are_seen J JO d _ _ _ p j SH) as (x & y & E1 & E2 & E3).
  - unfold P_DomSerial.reloading, P_DomSerial.after. rewrite RN. auto.
  - intros X. apply gprojs_in in X. exact (L1 X).
  - intros X. apply gprojs_in in X. exact (N X).
  - intros X. apply gprojs_in in X. exact (L2 X).
  - exact Ij.
  - exact Pj.
  - cbv zeta in E2. rewrite <- ES in E2. unfold P_DomSerial.after in E2. rewrite (fr_h _ _ R1) in E2. exists x. split; [exact E1|]. intros coll ci Ec.
    set (G := grun J (gstart d) es) in *. set (G1 := fst (gstep J G (GGet n p))). set (G2 := grun J G1 m).
    assert (N2 : g_new G2 n = Some (p, g_h G p)) by (apply still_new; [cbn [G1 gstep fst g_new]; apply upd_same | exact Lm | exact Nm]).
    assert (SP : forall l1 l2 g l, worked J g l (l1 ++ l2) = worked J (fst (worked J g l l1)) (snd (worked J g l l1)) l2).
    { induction l1 as [|e l1 IH]; intros l2 g l; [reflexivity|]. cbn [app worked]. destruct (gstep J g e) as [g1 a1]. apply IH. }
    set (lg := snd (worked J G1 (lstep G (log_of J now clamp es) (GGet n p) ANone) m)).
    assert (EL : log_of J now clamp begun = lstep G2 lg (GBegin n u) ANone).
    { unfold log_of, begun, lg. fold d. rewrite SP. rewrite worked_fst. fold G. cbn [worked]. change (gstep J G (GGet n p)) with (G1, ANone). cbv iota. rewrite SP, worked_fst. fold G2. cbn [worked]. unfold log_of. fold d.
      cbn [gstep]. reflexivity. }
    rewrite EL. cbn [lstep]. rewrite N2. cbn [l_open]. unfold lfind. cbn [find fst]. rewrite Nat.eqb_refl. cbn [option_map snd]. eexists. split; [reflexivity|]. cbn [n_sees]. unfold shown_by, cacheCollectionInfo.
    unfold P_Domain.cached in E2. rewrite E2. destruct E3 as (_ & _ & _ & E3). specialize (E3 coll). rewrite Ec in E3. destruct (mget (di_colls y) coll); [reflexivity | destruct E3].
Qed.
Print Assumptions C93_created_collections_are_shown.
(** * The outcome of Commit: it fails when the process's schema had moved on by more than 100 changes between the
    beginning of the transaction and the check (or came into being in between); otherwise it succeeds, or fails on a
    conflict or on the store's write, and then changes nothing *)
Lemma kept_open J n p es : forall g x o, g_tx g n = Some (p, x, o) -> t_open (dt_t x) = true -> stays_up p es -> (forall e, In e es -> ~ about n e) ->
  exists x', g_tx (grun J g es) n = Some (p, x', o) /\ t_open (dt_t x') = true /\ dt_start x' = dt_start x /\ dt_upd x' = dt_upd x.
Proof.
  induction es as [|e es IH]; intros g x o E O L N; [exists x; auto|].
  assert (X : exists x', g_tx (fst (gstep J g e)) n = Some (p, x', o) /\ t_open (dt_t x') = true /\ dt_start x' = dt_start x /\ dt_upd x' = dt_upd x).
  { pose proof (N e (or_introl eq_refl)) as Ne. destruct e as [e|q|q|m q|m u|m c|m|m io|m]; cbn [gstep about] in *.
    - destruct e as [m c|m io|m|q|t io]; try (exists x; auto; fail). exists x. cbn [fst g_tx]. rewrite E. cbn [survives]. destruct (Nat.eqb_spec p q) as [->|]; [exfalso; apply L; left; reflexivity | auto].
    - destruct (g_rel g q); exists x; auto.
    - destruct (g_rel g q) as [d|]; [|exists x; auto]. destruct (reloadSchema J d (g_h g q) (g_next g)). exists x. auto.
    - exists x. cbn [fst g_tx]. rewrite upd_other by congruence. auto.
    - exists x. destruct (g_new g m) as [[q h0]|]; auto. cbn [fst g_tx]. rewrite upd_other by congruence. auto.
    - destruct (Nat.eqb_spec m n) as [->|D].
      + rewrite E. destruct o as [h|]; [exists x; auto|]. destruct (call_exec x c) as [x' r] eqn:Ec. destruct (call_open _ _ _ _ Ec) as (Y1 & Y2 & Y3). exists x'. cbn [fst set_tx g_tx]. rewrite upd_same. repeat split; congruence.
      + exists x. destruct (g_tx g m) as [[[q y] [h|]]|]; auto. destruct (call_exec y c). cbn [fst set_tx g_tx]. rewrite upd_other by congruence. auto.
    - exists x. destruct (g_tx g m) as [[[q y] [h|]]|]; auto. destruct (dt_upd y); auto. cbn [fst g_tx]. rewrite upd_other by congruence. auto.
    - exists x. destruct (g_tx g m) as [[[q y] [h|]]|]; auto.
      + destruct (dcommit h (g_db g) io y) as [[[[h1 d1] x1] r] ran]. cbn [fst g_tx]. rewrite upd_other by congruence. auto.
      + destruct (dt_upd y); auto. cbn [fst set_tx g_tx]. rewrite upd_other by congruence. auto.
    - exists x. cbn [fst set_tx g_tx]. rewrite upd_other by congruence. auto. }
  destruct X as (x1 & E1 & O1 & S1 & U1). unfold grun. cbn [fold_left]. destruct (IH _ _ _ E1 O1 (fun Y => L (or_intror Y)) (fun e0 Y => N e0 (or_intror Y))) as (x2 & E2 & O2 & S2 & U2). exists x2. repeat split; try congruence. exact E2.
Qed.
Lemma still_checked J n p h x es : forall g, g_tx g n = Some (p, x, Some h) -> stays_up p es -> (forall e, In e es -> ~ about n e) -> g_tx (grun J g es) n = Some (p, x, Some h).
Proof.
  induction es as [|e es IH]; intros g E L N; [exact E|]. unfold grun. cbn [fold_left]. apply IH; [|intros Y; apply L; right; exact Y | intros e0 Y; apply N; right; exact Y].
  pose proof (N e (or_introl eq_refl)) as Ne. destruct e as [e|q|q|m q|m u|m c|m|m io|m]; cbn [gstep about] in *.
  - destruct e as [m c|m io|m|q|t io]; try exact E. cbn [fst g_tx]. rewrite E. cbn [survives]. destruct (Nat.eqb_spec p q) as [->|]; [exfalso; apply L; left; reflexivity | reflexivity].
  - destruct (g_rel g q); exact E.
  - destruct (g_rel g q) as [d|]; [|exact E]. destruct (reloadSchema J d (g_h g q) (g_next g)). exact E.
  - cbn [fst g_tx]. rewrite upd_other by congruence. exact E.
  - destruct (g_new g m) as [[q h0]|]; [|exact E]. cbn [fst g_tx]. rewrite upd_other by congruence. exact E.
  - destruct (Nat.eqb_spec m n) as [->|D]; [rewrite E; exact E|]. destruct (g_tx g m) as [[[q y] [h0|]]|]; try exact E. destruct (call_exec y c). cbn [fst set_tx g_tx]. rewrite upd_other by congruence. exact E.
  - destruct (g_tx g m) as [[[q y] [h0|]]|]; try exact E. destruct (dt_upd y); [|exact E]. cbn [fst g_tx]. rewrite upd_other by congruence. exact E.
  - destruct (g_tx g m) as [[[q y] [h0|]]|]; try exact E.
    + destruct (dcommit h0 (g_db g) io y) as [[[[h1 d1] x1] r] ran]. cbn [fst g_tx]. rewrite upd_other by congruence. exact E.
    + destruct (dt_upd y); [exact E|]. cbn [fst set_tx g_tx]. rewrite upd_other by congruence. exact E.
  - cbn [fst set_tx g_tx]. rewrite upd_other by congruence. exact E.
Qed.
(** * What a process has under way ends with it *)
Lemma belongs J p n g e : (forall q, e <> GGet n q) -> (forall q x o, g_tx g n = Some (q, x, o) -> q = p) -> (forall q h, g_new g n = Some (q, h) -> q = p) ->
  (forall q x o, g_tx (fst (gstep J g e)) n = Some (q, x, o) -> q = p) /\ (forall q h, g_new (fst (gstep J g e)) n = Some (q, h) -> q = p).
Proof.
  intros NG T N.
  destruct e as [e|q|q|m q|m u|m c|m|m io|m]; cbn [gstep].
  - destruct e as [m c|m io|m|r|t io]; cbn [fst g_tx g_new]; try (split; assumption). split.
    + intros q x o H. destruct (g_tx g n) as [[[q1 x1] o1]|] eqn:E; cbn [survives] in H; [|discriminate H]. destruct (Nat.eqb q1 r); [discriminate H|]. assert (q1 = q) by congruence. subst q1. exact (T _ _ _ eq_refl).
    + intros q h H. destruct (g_new g n) as [[q1 h1]|] eqn:E; cbn [stays] in H; [|discriminate H]. destruct (Nat.eqb q1 r); [discriminate H|]. assert (q1 = q) by congruence. subst q1. exact (N _ _ eq_refl).
  - destruct (g_rel g q); split; assumption.
  - destruct (g_rel g q) as [d|]; [|split; assumption]. destruct (reloadSchema J d (g_h g q) (g_next g)). split; assumption.
  - cbn [fst g_tx g_new]. assert (D : n <> m) by (intros ->; exact (NG q eq_refl)). unfold upd. apply Nat.eqb_neq in D. rewrite D. split; assumption.
  - destruct (g_new g m) as [[q h]|] eqn:E; [|split; assumption]. cbn [fst g_tx g_new]. unfold upd. destruct (Nat.eqb_spec n m) as [->|D]; [|split; assumption]. split; [|discriminate]. intros q1 x o H. assert (q1 = q) by congruence. subst q1. exact (N _ _ E).
  - destruct (g_tx g m) as [[[q x] [h|]]|] eqn:E; try (split; assumption). destruct (call_exec x c) as [x' r]. cbn [fst set_tx g_tx g_new]. unfold upd. destruct (Nat.eqb_spec n m) as [->|D]; [|split; assumption]. split; [|exact N]. intros q1 y o H. assert (q1 = q) by congruence. subst q1. exact (T _ _ _ E).
  - destruct (g_tx g m) as [[[q x] [h|]]|] eqn:E; try (split; assumption). destruct (dt_upd x); [|split; assumption]. cbn [fst g_tx g_new]. unfold upd at 1. destruct (Nat.eqb_spec n m) as [->|D]; [|split; assumption]. split; [|exact N]. intros q1 y o H. assert (q1 = q) by congruence. subst q1. exact (T _ _ _ E).
  - destruct (g_tx g m) as [[[q x] [h|]]|] eqn:E; try (split; assumption).
    + destruct (dcommit h (g_db g) io x) as [[[[h1 d1] x1] r] ran]. cbn [fst g_tx g_new]. unfold upd. destruct (Nat.eqb n m); [split; [discriminate | exact N] | split; assumption].
    + destruct (dt_upd x); [split; assumption|]. cbn [fst set_tx g_tx g_new]. unfold upd. destruct (Nat.eqb n m); [split; [discriminate | exact N] | split; assumption].
  - cbn [fst set_tx g_tx g_new]. unfold upd. destruct (Nat.eqb n m); [split; [discriminate | exact N] | split; assumption].
Qed.
Lemma nobody J n g e : (forall q, e <> GGet n q) -> g_tx g n = None -> g_new g n = None -> g_tx (fst (gstep J g e)) n = None /\ g_new (fst (gstep J g e)) n = None.
Proof.
  intros NG T N. pose proof (belongs J 0 n g e NG ltac:(congruence) ltac:(congruence)) as A. pose proof (belongs J 1 n g e NG ltac:(congruence) ltac:(congruence)) as B. split.
  - destruct (g_tx (fst (gstep J g e)) n) as [[[q x] o]|]; [|reflexivity]. pose proof (proj1 A _ _ _ eq_refl). pose proof (proj1 B _ _ _ eq_refl). congruence.
  - destruct (g_new (fst (gstep J g e)) n) as [[q h]|]; [|reflexivity]. pose proof (proj2 A _ _ eq_refl). pose proof (proj2 B _ _ eq_refl). congruence.
Qed.
(** [n] was begun by process [p], in [a ++ GGet n p :: b]; the process dies, and later ([c]) nobody begins another transaction under
    that name: then no call, check or commit of it has an effect *)
Theorem C93_a_crash_ends_what_was_under_way : forall J now clamp a n p b c, (forall q, ~ In (GGet n q) (b ++ c)) ->
  let g := system J now clamp (a ++ GGet n p :: b ++ GDdl (KCrash p) :: c) in
  (forall u, gstep J g (GBegin n u) = (g, ANone)) /\ (forall k, gstep J g (GCall n k) = (g, ANone)) /\ gstep J g (GCheck n) = (g, ANone) /\ (forall io, gstep J g (GCommit n io) = (g, ANone)).
Proof.
  intros J now clamp a n p b c NG g.
  enough (H : g_tx g n = None /\ g_new g n = None).
  { destruct H as [T N]. cbn [gstep]. rewrite T, N. repeat split. }
  unfold g, system. rewrite worked_fst, grun_app. set (g0 := grun J (gstart (db_init now clamp)) a). clearbody g0. unfold grun. cbn [fold_left]. set (g1 := fst (gstep J g0 (GGet n p))).
  assert (I1 : (forall q x o, g_tx g1 n = Some (q, x, o) -> q = p) /\ (forall q h, g_new g1 n = Some (q, h) -> q = p)).
  { unfold g1. cbn [gstep fst g_tx g_new]. unfold upd. rewrite Nat.eqb_refl. split; [discriminate | intros q h H; congruence]. }
  clearbody g1. rewrite fold_left_app. cbn [fold_left]. set (g2 := fold_left (fun g e => fst (gstep J g e)) b g1).
  assert (I2 : (forall q x o, g_tx g2 n = Some (q, x, o) -> q = p) /\ (forall q h, g_new g2 n = Some (q, h) -> q = p)).
  { unfold g2. assert (NB : forall q, ~ In (GGet n q) b) by (intros q X; apply (NG q), in_or_app; auto). clear g2 NG. revert g1 I1. induction b as [|e b IH]; intros g1 I1; [exact I1|]. cbn [fold_left]. apply IH; [intros q X; apply (NB q); right; exact X|]. destruct I1 as [X Y]. apply belongs; [intros q ->; apply (NB q); left; reflexivity | exact X | exact Y]. }
  clearbody g2. set (g3 := fst (gstep J g2 (GDdl (KCrash p)))).
  assert (I3 : g_tx g3 n = None /\ g_new g3 n = None).
  { unfold g3. cbn [gstep fst g_tx g_new]. split.
    - destruct (g_tx g2 n) as [[[q x] o]|] eqn:E; cbn [survives]; [|reflexivity]. rewrite (proj1 I2 _ _ _ eq_refl), Nat.eqb_refl. reflexivity.
    - destruct (g_new g2 n) as [[q h]|] eqn:E; cbn [stays]; [|reflexivity]. rewrite (proj2 I2 _ _ eq_refl), Nat.eqb_refl. reflexivity. }
  clearbody g3. assert (NC : forall q, ~ In (GGet n q) c) by (intros q X; apply (NG q), in_or_app; auto). clear -I3 NC. revert g3 I3. induction c as [|e c IH]; intros g3 I3; [exact I3|]. cbn [fold_left]. apply IH; [intros q X; apply (NC q); right; exact X|].
  apply nobody; [intros q ->; apply (NC q); left; reflexivity | apply I3 | apply I3].
Qed.
Print Assumptions C93_a_crash_ends_what_was_under_way.
(** the schema moved on too far between versions [v0] and [v1] *)
Definition outdated (v0 v1 : Z) : Prop := v0 = 0 /\ v1 <> 0 \/ v1 - v0 > 100.
Theorem C93_commit_outcome : forall J, json_ok J -> forall now clamp a m b c n p io, let before := a ++ GGet n p :: m ++ GBegin n true :: b in let es := before ++ GCheck n :: c in
  world_ok J (db_init now clamp) es -> stays_up p (m ++ b ++ c) -> (forall e, In e (m ++ b ++ c) -> ~ about n e) ->
  let v0 := version_of (g_h (system J now clamp a) p) in
  let v1 := version_of (g_h (system J now clamp before) p) in
  let g := system J now clamp es in let '(g', r) := gstep J g (GCommit n io) in
  (outdated v0 v1 -> r = ADone (Err ErrDDLConflict)) /\
  (~ outdated v0 v1 -> r = ADone (Ok tt) \/ r = ADone (Err EConflict) \/ io = true /\ r = ADone (Err EIO)) /\
  (r <> ADone (Ok tt) -> g_db g' = g_db g).
Proof.
  intros J JO now clamp a m b c n p io before es H L N v0 v1 g. set (d := db_init now clamp) in *. set (ga := system J now clamp a) in *. set (gb := system J now clamp before) in *.
  assert (Ea : ga = grun J (gstart d) a) by (unfold ga, system; rewrite worked_fst; reflexivity).
  set (gm := grun J (fst (gstep J ga (GGet n p))) m).
  assert (Eb : gb = grun J (fst (gstep J gm (GBegin n true))) b).
  { unfold gb, system, before. rewrite worked_fst, grun_app. fold d. rewrite <- Ea. change (GGet n p :: m ++ GBegin n true :: b) with ([GGet n p] ++ m ++ GBegin n true :: b). rewrite !grun_app. reflexivity. }
  assert (Eg : g = grun J (fst (gstep J gb (GCheck n))) c).
  { unfold g, system, es. rewrite worked_fst, grun_app. unfold gb, system. rewrite worked_fst. reflexivity. }
  assert (Lm : stays_up p m) by (intros X; apply L, in_or_app; auto).
  assert (Lb : stays_up p b) by (intros X; apply L, in_or_app; right; apply in_or_app; auto). assert (Lc : stays_up p c) by (intros X; apply L, in_or_app; right; apply in_or_app; auto).
  assert (Nm : forall e, In e m -> ~ about n e) by (intros e X; apply N, in_or_app; auto).
  assert (Nb : forall e, In e b -> ~ about n e) by (intros e X; apply N, in_or_app; right; apply in_or_app; auto). assert (Nc : forall e, In e c -> ~ about n e) by (intros e X; apply N, in_or_app; right; apply in_or_app; auto).
  assert (Nw : g_new gm n = Some (p, g_h ga p)) by (apply still_new; [cbn [gstep fst g_new]; apply upd_same | exact Lm | exact Nm]).
  destruct (kept_open J n p b (fst (gstep J gm (GBegin n true))) (NewTxn (g_h ga p) (g_db gm) true []) None) as (x & Tx & Ox & Sx & Ux); [cbn [gstep]; rewrite Nw; cbn [fst g_tx]; apply upd_same | reflexivity | exact Lb | exact Nb |].
  rewrite <- Eb in Tx. cbn [NewTxn dt_start dt_upd] in Sx, Ux.
  assert (Tg : g_tx g n = Some (p, x, Some (g_h gb p))).
  { rewrite Eg. apply still_checked; [|exact Lc | exact Nc]. cbn [gstep]. rewrite Tx, Ux. cbn [fst g_tx]. apply upd_same. }
  assert (Hb : world_ok J d before) by (apply world_prefix with (es' := GCheck n :: c); exact H).
  pose proof Hb as Hb0. destruct Hb as (Fb & _ & LTb). destruct (worked_inv J JO now clamp _ 0 _ _ _ _ _ _ _ _ _ (gstart_inv J now clamp) Fb ltac:(fold d; lia)) as (des & G & D & R & st & A & I).
  rewrite app_nil_l in I. change (fst (worked J (gstart (db_init now clamp)) log0 before)) with gb in I.
  destruct (gi_tx _ _ _ _ _ _ _ _ _ _ _ _ _ I n p x None Tx) as ([_ RF] & _ & _ & Nx). pose proof (gi_f _ _ _ _ _ _ _ _ _ _ _ _ _ I) as FI.
  assert (ST : DomSerialProofs.started (applied D R st) (g_next gb) (dt_start x) (g_h gb p)).
  { apply (DomSerialProofs.fi_txn _ _ _ _ _ _ _ _ FI n p (dt_start x)). cbn [fof f_txn]. unfold fnew. rewrite Nx, Tx. reflexivity. }
  destruct (DomSerialProofs.fi_h _ _ _ _ _ _ _ _ FI p) as (_ & CI & _). cbn [fof f_h] in CI.
  pose proof (DomSerialProofs.check_result J _ _ _ _ _ _ _ _ _ _ (DomSerialProofs.fi_k _ _ _ _ _ _ _ _ FI) CI ST RF) as CK.
  assert (CA : exists L, P_Domain.cinv L (g_h ga p)).
  { assert (Ha : world_ok J d a) by (apply world_prefix with (es' := GGet n p :: m ++ GBegin n true :: b); exact Hb0). destruct Ha as (Fa & _ & LTa). destruct (worked_inv J JO now clamp _ 0 _ _ _ _ _ _ _ _ _ (gstart_inv J now clamp) Fa ltac:(fold d; lia)) as (des' & G' & D' & R' & st' & A' & I').
    exists (applied D' R' st'). destruct (DomSerialProofs.fi_h _ _ _ _ _ _ _ _ (gi_f _ _ _ _ _ _ _ _ _ _ _ _ _ I') p) as (_ & X & _). exact X. }
  destruct CA as (LA & CA).
  cbn [gstep]. rewrite Tg. unfold dcommit. rewrite Ux, CK. cbn [negb].
  assert (PO : DomSerialProofs.passes (dt_start x) (g_h gb p) = true <-> ~ outdated v0 v1).
  { unfold DomSerialProofs.passes, outdated, v0, v1, version_of. unfold P_Domain.cinv in CI. rewrite Sx in *.
    destruct (h_val (g_h ga p)) as [s|] eqn:Ev; destruct (h_val (g_h gb p)) as [s'|] eqn:Ew; cbn [option_map] in *.
    - destruct CI as [V1 _]. destruct ST as (cc & Ec & [Fo _] & _ & _ & L0 & l & _ & LL & _). rewrite Z.leb_le. assert (cc = s') by congruence. subst cc. split; [|lia]. intros Q [[Q1 Q2]|Q1]; [|lia].
      unfold P_Domain.cinv in CA. rewrite Ev in CA. destruct CA as [CA _]. lia.
    - destruct ST as (cc & Ec & _). congruence.
    - destruct CI as [V1 _]. split; [discriminate|]. intros Q. exfalso. apply Q. left. lia.
    - split; [lia | reflexivity]. }
  destruct (DomSerialProofs.passes (dt_start x) (g_h gb p)).
  - assert (NO : ~ outdated v0 v1) by (apply PO; reflexivity). unfold commit. rewrite Ox. cbn [negb].
    destruct (entries (t_pend (dt_t x))) as [|pe pl]; [|destruct (conflict (g_db g) (dt_t x)); [|destruct io]]; (split; [intros Q; contradiction|]); (split; [auto|]); cbn [g_db g_k set_db k_db]; auto; congruence.
  - split; [reflexivity|]. split; [intros Q; apply PO in Q; discriminate Q | reflexivity].
Qed.
Print Assumptions C93_commit_outcome.

(** * A concrete history *)
Definition made (n : nat) (i : CSI) : list gev := map GDdl [KBegin n (KCreate i); KEnd n false; KBegin n (KWork 0 P_Ddl.ident); KEnd n false; KBegin n (KWork 0 P_Ddl.ident); KEnd n false].
Definition orders (o : docop) : call := Op true (str "shop") (str "orders") o.
Definition posts (o : docop) : call := Op true (str "blog") (str "posts") o.
Definition inserts (dbn coll : bytes) (did : Z) (v : bytes) : call := InsertOne true dbn coll did v 0.
(** Process 0 makes "shop" and both processes reload. Transaction 1 of process 0 inserts order 1; transactions 2 (process 0) and 3 (process 1)
    overlap: both update the order, 2 commits first. Meanwhile "blog" is made; process 1 reloads. Transaction 4 of process 1
    sees it, transaction 5 of process 0 does not. Process 0 dies with transaction 6 open. *)
Definition day1 : list gev :=
  made 0 (P_Ddl.bare (str "shop") [str "orders"; str "users"]) ++ [GReload 0; GReload 1; GReloaded 1; GReloaded 0;
  GGet 1 0; GBegin 1 true; GCall 1 (inserts (str "shop") (str "orders") 1 (str "ink")); GCheck 1; GCommit 1 false;
  GGet 2 0; GGet 3 1; GBegin 3 true; GBegin 2 true; GCall 2 (orders (OUpdate 1 (str "pen"))); GCall 3 (orders (OUpdate 1 (str "cap"))); GCheck 3; GCheck 2; GCommit 2 false; GCommit 3 false].
Definition day2 : list gev :=
  [GReload 1; GReloaded 1; GGet 5 0; GGet 4 1; GGet 6 0; GBegin 4 true; GBegin 5 false; GBegin 6 true; GCall 4 (posts (OInsert 1 (str "hi"))); GCall 4 (orders (OGet 1)); GCall 6 (orders (ODelete 1));
  GCall 5 (posts (OGet 1)); GDdl (KCrash 0); GCheck 4; GCommit 4 false; GCommit 6 false; GGet 7 1; GBegin 7 false; GCall 7 (orders OGetAll); GCall 7 (posts OGetAll); GCommit 7 false].
Definition days : list gev := day1 ++ made 1 (P_Ddl.bare (str "blog") [str "posts"]) ++ day2.
Lemma days_calls : Forall gev_ok days.
Proof.
  assert (I1 : is_i64 1) by (apply P_DocSerial.i64_small; lia).
  unfold days, day1, day2, made. cbn [map app]. repeat (apply Forall_cons || apply Forall_nil);
    (exact Logic.I || (cbn [gev_ok]; apply kbare_ok; reflexivity) || exact P_Ddl.ident_ok || (split; [repeat (apply Forall_cons || apply Forall_nil); exact I1 | intros m dbn coll; discriminate])).
Qed.
Lemma days_reads : reads_only days.
Proof.
  intros n c H1 H2. assert (N : n = 5%nat \/ n = 7%nat).
  { unfold days, day1, day2, made in H1. cbn [map app In] in H1. repeat (destruct H1 as [H1|H1]; [solve [discriminate H1 | assert (X : forall m u m' u', GBegin m u = GBegin m' u' -> m = m') by congruence; apply X in H1; subst; auto]|]). destruct H1. }
  unfold days, day1, day2, made in H2. cbn [map app In] in H2.
  repeat (destruct H2 as [H2|H2]; [solve [discriminate H2 | assert (X : forall m q m' q', GCall m q = GCall m' q' -> m = m' /\ q = q') by (intros; split; congruence); apply X in H2; destruct H2 as [H2 <-]; subst n; destruct N as [N|N]; solve [discriminate N | reflexivity]]|]). destruct H2.
Qed.
Example C93_example : world_ok demo_json (db_init 100 false) days /\ let j := log_of demo_json 100 false days in
  scan_free (l_done j) /\
  map (fun e => (n_proc e, n_seen e, e_answers e)) (l_done j) = [(0%nat, 0%nat, [Ok VUnit]); (0%nat, 1%nat, [Ok (VBool true)]); (1%nat, 2%nat, [Ok VUnit; Ok (VDoc (str "pen"))])] /\
  map (fun e => (n_proc e, n_seen e, e_answers e)) (l_rest j) = [(1%nat, 1%nat, [Ok (VBool true)]); (1%nat, 3%nat, [Ok (VDocs [str "pen"] None); Ok (VDocs [str "hi"] None)])] /\
  map (fun e => (n_proc (snd e), n_seen (snd e), e_answers (snd e))) (l_open j) = [(0%nat, 2%nat, [Err ErrCollectionNotExists]); (0%nat, 2%nat, [Ok VUnit])] /\
  snd (gstep demo_json (system demo_json 100 false (firstn 24 days)) (GCommit 3 false)) = ADone (Err EConflict).
Proof.
  split; [split; [exact days_calls|]; split; [exact days_reads | vm_compute; reflexivity]|]. cbv zeta. split.
  - assert (X : forallb (fun e => forallb (fun c => negb (scans c)) (e_calls e)) (l_done (log_of demo_json 100 false days)) = true) by (vm_compute; reflexivity). rewrite forallb_forall in X. exact X.
  - repeat split; vm_compute; reflexivity.
Qed.
Example C93_example_shown : let a := day1 ++ made 1 (P_Ddl.bare (str "blog") [str "posts"]) in
  world_ok demo_json (db_init 100 false) ((a ++ GReload 1 :: [] ++ GReloaded 1 :: [GGet 5 0]) ++ GGet 4 1 :: [GGet 6 0] ++ [GBegin 4 true]) /\
  g_rel (system demo_json 100 false a) 1 = None /\
  exists j, In j (k_jobs (g_k (system demo_json 100 false a))) /\ poll demo_json (g_db (system demo_json 100 false a)) (j_id j) false = Returned None /\
  match j_arg j with ArgDB x => di_name x = str "blog" /\ mget (di_colls x) (str "posts") <> None | _ => False end.
Proof.
  intros a. split.
  - apply world_prefix with (es' := skipn 6 day2). replace (((a ++ GReload 1 :: [] ++ GReloaded 1 :: [GGet 5 0]) ++ GGet 4 1 :: [GGet 6 0] ++ [GBegin 4 true]) ++ skipn 6 day2) with days by (vm_compute; reflexivity).
    split; [exact days_calls|]. split; [exact days_reads | vm_compute; reflexivity].
  - split; [vm_compute; reflexivity|]. set (q := nth_error (k_jobs (g_k (system demo_json 100 false a))) 1). assert (E : exists j, q = Some j /\ poll demo_json (g_db (system demo_json 100 false a)) (j_id j) false = Returned None /\ match j_arg j with ArgDB x => di_name x = str "blog" /\ mget (di_colls x) (str "posts") <> None | _ => False end).
    { vm_compute in q. subst q. eexists. split; [reflexivity|]. split; [vm_compute; reflexivity|]. vm_compute. split; [reflexivity | discriminate]. }
    destruct E as (j & E & P). exists j. split; [|exact P]. exact (nth_error_In _ _ E).
Qed.
(** a transaction that reads the schema before its process has any is refused once it has one, although its snapshot is newer *)
Example C93_example_refused : let m := made 0 (P_Ddl.bare (str "shop") [str "orders"]) in let b := [GReload 1; GReloaded 1] in
  let before := [] ++ GGet 9 1 :: m ++ GBegin 9 true :: b in let es := before ++ GCheck 9 :: [GReload 1] in
  version_of (g_h (system demo_json 100 false []) 1) = 0 /\ version_of (g_h (system demo_json 100 false before) 1) = 1 /\
  (forall e, In e (m ++ b ++ [GReload 1]) -> ~ about 9 e /\ e <> GDdl (KCrash 1)) /\
  snd (gstep demo_json (system demo_json 100 false es) (GCommit 9 false)) = ADone (Err ErrDDLConflict).
Proof.
  intros m b before es. split; [reflexivity|]. split; [vm_compute; reflexivity|]. split; [|vm_compute; reflexivity].
  intros e H. unfold m, b, made in H. cbn [map app In] in H. repeat (destruct H as [<-|H]; [split; [intros [] | discriminate]|]). destruct H.
Qed.
