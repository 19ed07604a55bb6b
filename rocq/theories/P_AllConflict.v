(** Document transactions are refused only for documents they share, by names and while everything overlaps: C97 in the
    system of C93 (AllSerial.v). *)
From Verif Require Import Bytes SMap Provider ProviderProofs World UtilTxn Model Meta MetaCodec MetaSpec MetaProofs Schema DocTxn DocKeys Dml Ddl DdlSpec DdlProofs Domain.
From Verif Require P_Domain P_Ddl P_DocSerial P_DdlSerial.
From Verif Require Import DdlSerial DomSerial DocSerial AllSerial AllSerialProofs P_AllSerial P_DocConflict.

(** * Specification *)
(** the database and collection a call names *)
Definition names_of (c : call) : bytes * bytes := match c with Op _ dbn coll _ | InsertOne _ dbn coll _ _ _ => (dbn, coll) end.
(** call [c] of a transaction that sees the collections [sees] looks at a document that call [fst p], answered [snd p], of
    one that sees [sees'] reports as changed: both name one collection, which both see, and the same id, unless one of
    them goes through the whole collection *)
Definition nshares (sees : bytes -> bytes -> bool) (c : call) (sees' : bytes -> bytes -> bool) (p : call * result docval) : Prop :=
  looks c = true /\ nwrote sees' p = true /\ names_of c = names_of (fst p) /\
  sees (fst (names_of c)) (snd (names_of c)) = true /\ sees' (fst (names_of c)) (snd (names_of c)) = true /\
  (scans c = true \/ scans (fst p) = true \/ exists id, In id (call_ids c) /\ In id (call_ids (fst p))).
(** transaction [e] has such a call, and [e'] committed after [e] began *)
Definition disturbed (j : glog) (e : entry) : Prop :=
  exists e', In e' (skipn (n_seen e) (l_done j)) /\ exists c p, In c (e_calls e) /\ In p (n_calls e') /\ nshares (n_sees e) c (n_sees e') p.

Lemma forall2_skipn {X Y} (P : X -> Y -> Prop) n : forall l l', Forall2 P l l' -> Forall2 P (skipn n l) (skipn n l').
Proof. induction n as [|n IH]; intros l l' H; [exact H|]. destruct H; cbn [skipn]; [constructor | apply IH; assumption]. Qed.
Lemma wrote_names h p : nwrote (shown_by h) p = DocSerial.wrote h p.
Proof. destruct p as [[m dbn coll o|m dbn coll did data f] r]; destruct r as [v|x|]; try reflexivity. cbn [nwrote DocSerial.wrote]. rewrite shown_resolve. destruct (resolve (h_val h) dbn coll); reflexivity. Qed.
Lemma target_names h c : target h c = resolve (h_val h) (fst (names_of c)) (snd (names_of c)).
Proof. destruct c; reflexivity. Qed.

(** * C97 by names *)
Theorem C97_named_conflicts_share_a_document : forall J, json_ok J -> forall now clamp es n io, world_ok J (db_init now clamp) es ->
  snd (gstep J (system J now clamp es) (GCommit n io)) = ADone (Err EConflict) ->
  exists e, lfind n (l_open (log_of J now clamp es)) = Some e /\ disturbed (log_of J now clamp es) e.
Proof.
  intros J JO now clamp es n io H E. destruct (named_now J JO now clamp es H) as (des & L & N & TX & DB). fold (log_of J now clamp es) in N. fold (system J now clamp es) in TX, DB. set (g := system J now clamp es) in *.
  assert (X : exists h, snd (dstep (fst (dhist (dfresh now clamp) des)) (DCommit h n io)) = ADone (Err EConflict)).
  { cbn [gstep] in E. destruct (g_tx g n) as [[[p x] [h|]]|] eqn:Ex; [|destruct (dt_upd x); discriminate E | discriminate E]. exists h. cbn [dstep]. rewrite (TX _ _ _ _ eq_refl), DB || (pose proof (TX n p x (Some h) Ex) as Y; unfold w0 in Y, DB; rewrite Y, DB). destruct (dcommit h (g_db g) io x) as [[[[h1 d1] x1] r] ran]. exact E. }
  destruct X as (h & X). destruct (C97_conflicts_share_a_document now clamp des h n io (nm_hist _ _ _ _ _ _ N) X) as (d & d' & Fd & Id & c & p & Ic & Ip & S).
  pose proof (nm_log _ _ _ _ _ _ N) as [SO SD SR]. pose proof (same_find n _ _ SO) as LE. unfold w0 in LE. rewrite Fd in LE. destruct (lfind n (l_open (log_of J now clamp es))) as [e|]; [|destruct LE]. exists e. split; [reflexivity|].
  pose proof LE as (K1 & K2 & K3 & K4). assert (SK : Forall2 (fun d e => like e d) (skipn (n_seen e) (j_done (journal_of (dfresh now clamp) des))) (skipn (n_seen e) (l_done (log_of J now clamp es)))) by (apply forall2_sym, forall2_skipn; exact SD).
  rewrite <- K3 in Id. destruct (forall2_in _ _ _ _ SK Id) as (e' & Ie & (M1 & M2 & M3 & M4)). exists e'. split; [exact Ie|]. exists c, p. split; [unfold e_calls; rewrite K4; exact Ic|]. split; [rewrite M4; exact Ip|].
  destruct S as (S1 & S2 & (cid & S3 & S4) & S5). rewrite target_names in S3, S4. rewrite K1, M1.
  assert (C : P_Domain.cinv L (s_h d)) by exact (nm_open _ _ _ _ _ _ N n d Fd).
  assert (C' : P_Domain.cinv L (s_h d')) by (apply (nm_done _ _ _ _ _ _ N), in_or_app; right; unfold w0; rewrite <- (firstn_skipn (n_seen e)); apply in_or_app; right; exact Id).
  destruct (cached_lookup _ _ _ _ _ C S3) as (k & L1 & I1). destruct (cached_lookup _ _ _ _ _ C' S4) as (k' & L2 & I2).
  destruct (nm_ids _ _ _ _ _ _ N _ _ _ _ _ _ L1 L2 ltac:(congruence)) as [Q1 Q2]. assert (Q : names_of c = names_of (fst p)) by (rewrite (surjective_pairing (names_of c)), (surjective_pairing (names_of (fst p))); congruence).
  split; [exact S1|]. split; [rewrite wrote_names; exact S2|]. split; [exact Q|]. split; [rewrite shown_resolve, S3; reflexivity|]. split; [rewrite shown_resolve, Q, S4; reflexivity | exact S5].
Qed.
Print Assumptions C97_named_conflicts_share_a_document.
(** Commit of a transaction that shares no document with those committed since it began succeeds, unless the schema had moved
    on too far or the store fails to write *)
Theorem C97_named_commit_succeeds : forall J, json_ok J -> forall now clamp a m b c n p, let before := a ++ GGet n p :: m ++ GBegin n true :: b in let es := before ++ GCheck n :: c in
  world_ok J (db_init now clamp) es -> stays_up p (m ++ b ++ c) -> (forall e, In e (m ++ b ++ c) -> ~ about n e) ->
  ~ outdated (version_of (g_h (system J now clamp a) p)) (version_of (g_h (system J now clamp before) p)) ->
  (forall e, lfind n (l_open (log_of J now clamp es)) = Some e -> ~ disturbed (log_of J now clamp es) e) ->
  snd (gstep J (system J now clamp es) (GCommit n false)) = ADone (Ok tt).
Proof.
  intros J JO now clamp a m b c n p before es H S A O D. pose proof (C93_commit_outcome J JO now clamp a m b c n p false H S A) as X. cbv zeta in X. fold before es in X.
  pose proof (C97_named_conflicts_share_a_document J JO now clamp es n false H) as Y. destruct (gstep J (system J now clamp es) (GCommit n false)) as [g' r]. destruct X as (_ & X & _). cbn [snd] in *.
  destruct (X O) as [->|[->|[Q _]]]; [reflexivity | | discriminate Q]. destruct (Y eq_refl) as (e & E1 & E2). exfalso. exact (D e E1 E2).
Qed.
Print Assumptions C97_named_commit_succeeds.
(** * Examples: transaction 3 of P_AllSerial.v is refused because 2 updated order 1 meanwhile; transactions of two processes about
    orders 1 and 2 overlap and both succeed *)
Definition morning : list gev := firstn 24 days.
Example C97_named_example_refused : world_ok demo_json (db_init 100 false) morning /\
  snd (gstep demo_json (system demo_json 100 false morning) (GCommit 3 false)) = ADone (Err EConflict) /\
  option_map (fun e => (e_calls e, map n_calls (skipn (n_seen e) (l_done (log_of demo_json 100 false morning))))) (lfind 3 (l_open (log_of demo_json 100 false morning))) =
    Some ([orders (OUpdate 1 (str "cap"))], [[(orders (OUpdate 1 (str "pen")), Ok (VBool true))]]).
Proof.
  split; [|split; vm_compute; reflexivity]. apply world_prefix with (es' := skipn 24 days). unfold morning. rewrite firstn_skipn. split; [exact days_calls|]. split; [exact days_reads | vm_compute; reflexivity].
Qed.
Definition apart_a : list gev := made 0 (P_Ddl.bare (str "shop") [str "orders"]) ++ [GReload 0; GReload 1; GReloaded 1; GReloaded 0].
Definition apart_m : list gev := [GGet 2 0; GBegin 2 true].
Definition apart_b : list gev := [GCall 2 (inserts (str "shop") (str "orders") 1 (str "ink")); GCall 3 (orders (OInsert 2 (str "pen"))); GCheck 2].
Definition apart_es : list gev := (apart_a ++ GGet 3 1 :: apart_m ++ GBegin 3 true :: apart_b) ++ GCheck 3 :: [GCommit 2 false].
Example C97_named_example_succeeds : world_ok demo_json (db_init 100 false) apart_es /\ stays_up 1 (apart_m ++ apart_b ++ [GCommit 2 false]) /\ (forall e, In e (apart_m ++ apart_b ++ [GCommit 2 false]) -> ~ about 3 e) /\
  ~ outdated (version_of (g_h (system demo_json 100 false apart_a) 1)) (version_of (g_h (system demo_json 100 false (apart_a ++ GGet 3 1 :: apart_m ++ GBegin 3 true :: apart_b)) 1)) /\
  (forall e, lfind 3 (l_open (log_of demo_json 100 false apart_es)) = Some e -> ~ disturbed (log_of demo_json 100 false apart_es) e) /\
  length (l_done (log_of demo_json 100 false apart_es)) = 1%nat.
Proof.
  split; [split; [|split; [|vm_compute; reflexivity]]|].
  - assert (I1 : is_i64 1) by (apply P_DocSerial.i64_small; lia). assert (I2 : is_i64 2) by (apply P_DocSerial.i64_small; lia).
    unfold apart_es, apart_a, apart_m, apart_b, made. cbn [map app]. repeat (apply Forall_cons || apply Forall_nil);
    (exact Logic.I || (cbn [gev_ok]; apply P_DdlSerial.kbare_ok; reflexivity) || exact P_Ddl.ident_ok || (split; [repeat (apply Forall_cons || apply Forall_nil); assumption | intros m dbn coll; discriminate])).
  - intros n c H1. exfalso. unfold apart_es, apart_a, apart_m, apart_b, made in H1. cbn [map app In] in H1. repeat (destruct H1 as [H1|H1]; [discriminate H1|]). destruct H1.
  - split; [intros H; unfold apart_m, apart_b in H; cbn [app In] in H; repeat (destruct H as [H|H]; [discriminate H|]); destruct H|].
    split; [intros e H; unfold apart_m, apart_b in H; cbn [app In] in H; repeat (destruct H as [<-|H]; [cbn [about]; try discriminate; intros []|]); destruct H|].
    split; [intros H; assert (X : version_of (g_h (system demo_json 100 false apart_a) 1) = 1 /\ version_of (g_h (system demo_json 100 false (apart_a ++ GGet 3 1 :: apart_m ++ GBegin 3 true :: apart_b)) 1) = 1) by (split; vm_compute; reflexivity); destruct X as [X1 X2]; rewrite X1, X2 in H; destruct H as [[H _]|H]; lia|].
    split; [|vm_compute; reflexivity]. intros e E (e' & I1 & c & p & I2 & I3 & (_ & _ & _ & _ & _ & S)).
    assert (X : option_map (fun e => (e_calls e, map n_calls (skipn (n_seen e) (l_done (log_of demo_json 100 false apart_es))))) (lfind 3 (l_open (log_of demo_json 100 false apart_es))) = Some ([orders (OInsert 2 (str "pen"))], [[(inserts (str "shop") (str "orders") 1 (str "ink"), Ok VUnit)]])) by (vm_compute; reflexivity).
    rewrite E in X. cbn [option_map] in X. assert (X1 : e_calls e = [orders (OInsert 2 (str "pen"))]) by congruence. assert (X2 : map n_calls (skipn (n_seen e) (l_done (log_of demo_json 100 false apart_es))) = [[(inserts (str "shop") (str "orders") 1 (str "ink"), Ok VUnit)]]) by congruence.
    apply (in_map n_calls) in I1. rewrite X2 in I1. destruct I1 as [I1|[]]. rewrite <- I1 in I3. destruct I3 as [<-|[]]. rewrite X1 in I2. destruct I2 as [<-|[]]. destruct S as [S|[S|(id & S1 & S2)]]; [discriminate S | discriminate S|]. destruct S1 as [<-|[]]. destruct S2 as [S2|[]]. discriminate S2.
Qed.
