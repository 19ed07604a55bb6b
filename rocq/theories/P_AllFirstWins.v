(** Of two transactions about one document the first to commit wins, by names and while everything overlaps: C99 in the system
    of C93 (AllSerial.v). *)
From Verif Require Import Bytes SMap Provider ProviderProofs World UtilTxn Model Meta MetaCodec MetaSpec MetaProofs Schema DocTxn DocKeys Dml Ddl DdlSpec DdlProofs Domain.
From Verif Require P_Domain P_Ddl P_DocSerial P_DdlSerial.
From Verif Require Import DdlSerial DomSerial DocSerial AllSerial AllSerialProofs P_AllSerial P_DocConflict P_AllConflict P_FirstWins.

(** * Specification *)
(** call [fst p], answered [snd p], of a transaction that sees the collections [sees], reports a change of document [id] of
    collection [coll] of database [dbn] *)
Definition nchanges (sees : bytes -> bytes -> bool) (p : call * result docval) (dbn coll : bytes) (id : Z) : Prop :=
  nwrote sees p = true /\ names_of (fst p) = (dbn, coll) /\ sees dbn coll = true /\ In id (call_ids (fst p)).
(** the same, or it went through the whole collection and reports changes in it *)
Definition nmay_change (sees : bytes -> bytes -> bool) (p : call * result docval) (dbn coll : bytes) (id : Z) : Prop :=
  nwrote sees p = true /\ names_of (fst p) = (dbn, coll) /\ sees dbn coll = true /\ (scans (fst p) = true \/ In id (call_ids (fst p))).
(** the transaction looked up the document before it changed it itself *)
Definition nlooked_up (e : entry) (dbn coll : bytes) (id : Z) : Prop :=
  exists pre c r post, n_calls e = pre ++ (c, r) :: post /\ looks_up (c, r) id /\ names_of c = (dbn, coll) /\ n_sees e dbn coll = true /\
  forall p, In p pre -> ~ nmay_change (n_sees e) p dbn coll id.
(** a document [e] had looked up was changed by a transaction that committed since [e] began *)
Definition overtaken (j : glog) (e : entry) : Prop :=
  exists dbn coll id e' p, nlooked_up e dbn coll id /\ In e' (skipn (n_seen e) (l_done j)) /\ In p (n_calls e') /\ nchanges (n_sees e') p dbn coll id.
Definition nby_id (e : entry) : Prop := forall c, In c (e_calls e) -> single c = true.

(** * Names and ids *)
Lemma seen_resolve h a b : shown_by h a b = true -> exists c, resolve (h_val h) a b = Some c.
Proof. rewrite shown_resolve. destruct (resolve (h_val h) a b) as [c|]; [eauto | discriminate]. Qed.
Lemma one_id L h h' a b c c' : P_Domain.cinv L h -> P_Domain.cinv L h' -> resolve (h_val h) a b = Some c -> resolve (h_val h') a b = Some c' -> c = c'.
Proof. intros C C' R R'. destruct (cached_lookup _ _ _ _ _ C R) as (k & L1 & <-). destruct (cached_lookup _ _ _ _ _ C' R') as (k' & L2 & <-). congruence. Qed.
Lemma one_name L h h' a b a' b' c : ids_apart L -> P_Domain.cinv L h -> P_Domain.cinv L h' -> resolve (h_val h) a b = Some c -> resolve (h_val h') a' b' = Some c -> a = a' /\ b = b'.
Proof. intros A C C' R R'. destruct (cached_lookup _ _ _ _ _ C R) as (k & L1 & K1). destruct (cached_lookup _ _ _ _ _ C' R') as (k' & L2 & K2). exact (A _ _ _ _ _ _ L1 L2 ltac:(congruence)). Qed.
Lemma overtaken_names L e d j k : ids_apart L -> like e d -> P_Domain.cinv L (s_h d) -> Forall2 like (l_done j) (j_done k) -> (forall d', In d' (j_done k) -> P_Domain.cinv L (s_h d')) ->
  (overtaken j e <-> exists cid id d' p, looked_up d cid id /\ In d' (skipn (s_seen d) (j_done k)) /\ In p (s_calls d') /\ changes (s_h d') p cid id).
Proof.
  intros A (K1 & K2 & K3 & K4) C F CD. assert (SK : Forall2 like (skipn (n_seen e) (l_done j)) (skipn (s_seen d) (j_done k))) by (rewrite <- K3; apply forall2_skipn; exact F).
  assert (CS : forall d', In d' (skipn (s_seen d) (j_done k)) -> P_Domain.cinv L (s_h d')) by (intros d' I; apply CD; rewrite <- (firstn_skipn (s_seen d)); apply in_or_app; right; exact I).
  split.
  - intros (dbn & coll & id & e' & p & (pre & c & r & post & E & LU & N & S & NP) & I & Ip & (W & N' & S' & Ii)). destruct (forall2_in _ _ _ e' SK I) as (d' & Id & (M1 & M2 & M3 & M4)). rewrite K1 in S. rewrite M1 in S', W. destruct (seen_resolve _ _ _ S) as [cid R]. destruct (seen_resolve _ _ _ S') as [cid' R'].
    pose proof (one_id L _ _ _ _ _ _ C (CS d' Id) R R') as <-. exists cid, id, d', p. split; [|split; [exact Id|]; split; [rewrite <- M4; exact Ip|]; split; [rewrite <- wrote_names; exact W|]; split; [rewrite target_names, N'; exact R' | exact Ii]].
    exists pre, c, r, post. split; [rewrite <- K4; exact E|]. split; [exact LU|]. split; [rewrite target_names, N; exact R|]. intros q Iq (Wq & Tq & Mq). apply (NP q Iq). rewrite target_names in Tq. destruct (one_name L _ _ _ _ _ _ _ A C C Tq R) as [Q1 Q2].
    split; [rewrite K1, wrote_names; exact Wq|]. split; [rewrite (surjective_pairing (names_of (fst q))); congruence|]. split; [rewrite K1; exact S | exact Mq].
  - intros (cid & id & d' & p & (pre & c & r & post & E & LU & T & NP) & Id & Ip & (W & T' & Ii)). destruct (forall2_in _ _ _ d' (forall2_sym _ _ _ SK) Id) as (e' & I & (M1 & M2 & M3 & M4)). rewrite target_names in T, T'. destruct (one_name L _ _ _ _ _ _ _ A C (CS d' Id) T T') as [Q1 Q2].
    exists (fst (names_of c)), (snd (names_of c)), id, e', p. split.
    + exists pre, c, r, post. split; [rewrite K4; exact E|]. split; [exact LU|]. split; [apply surjective_pairing|]. split; [rewrite K1, shown_resolve, T; reflexivity|]. intros q Iq (Wq & Nq & Sq & Mq). apply (NP q Iq). split; [rewrite <- wrote_names, <- K1; exact Wq|]. split; [|exact Mq]. rewrite target_names, Nq. cbn [fst snd]. exact T.
    + split; [exact I|]. split; [rewrite M4; exact Ip|]. split; [rewrite M1, wrote_names; exact W|]. split; [rewrite (surjective_pairing (names_of (fst p))); congruence|]. split; [rewrite M1, shown_resolve, Q1, Q2, T'; reflexivity | exact Ii].
Qed.

(** * C99 by names *)
Theorem C99_named_first_committer_wins : forall J, json_ok J -> forall now clamp es n io, world_ok J (db_init now clamp) es ->
  forall e, lfind n (l_open (log_of J now clamp es)) = Some e -> nchanged e = true -> overtaken (log_of J now clamp es) e ->
  snd (gstep J (system J now clamp es) (GCommit n io)) <> ADone (Ok tt) /\ g_db (fst (gstep J (system J now clamp es) (GCommit n io))) = g_db (system J now clamp es).
Proof.
  intros J JO now clamp es n io H e Fe CH O. destruct (named_now J JO now clamp es H) as (des & L & N & TX & DB). fold (log_of J now clamp es) in N. fold (system J now clamp es) in TX, DB. set (g := system J now clamp es) in *.
  pose proof (nm_log _ _ _ _ _ _ N) as [SO SD SR]. pose proof (same_find n _ _ SO) as LE. unfold w0 in *. rewrite Fe in LE. destruct (find_tx n (j_open (journal_of (dfresh now clamp) des))) as [d|] eqn:Fd; [|destruct LE].
  assert (C : P_Domain.cinv L (s_h d)) by exact (nm_open _ _ _ _ _ _ N n d Fd).
  assert (CD : forall d', In d' (j_done (journal_of (dfresh now clamp) des)) -> P_Domain.cinv L (s_h d')) by (intros d' I; apply (nm_done _ _ _ _ _ _ N), in_or_app; right; exact I).
  apply (overtaken_names L e d _ _ (nm_ids _ _ _ _ _ _ N) LE C SD CD) in O. destruct O as (cid & id & d' & p & LU & Id & Ip & Q).
  assert (CH' : changed d = true).
  { destruct LE as (K1 & _ & _ & K4). unfold nchanged in CH. rewrite K1, K4 in CH. apply existsb_exists in CH. destruct CH as (q & Q1 & Q2). unfold changed. apply existsb_exists. exists q. split; [exact Q1 | rewrite <- wrote_names; exact Q2]. }
  cbn [gstep]. destruct (g_tx g n) as [[[pr x] [h|]]|] eqn:Ex; [| |split; [discriminate | reflexivity]].
  - destruct (C99_first_committer_wins now clamp des h n io (nm_hist _ _ _ _ _ _ N) d cid id Fd CH' LU d' p Id Ip Q) as (Z1 & Z2 & _). cbn [dstep] in Z1, Z2. rewrite (TX n pr x (Some h) Ex), DB in Z1, Z2. destruct (dcommit h (g_db g) io x) as [[[[h1 d1] x1] r] ran]. cbn [fst snd dw_db] in *. split; [exact Z1 | exact Z2].
  - rewrite (writes_upd now clamp des n x d (nm_hist _ _ _ _ _ _ N) (TX n pr x None Ex) Fd CH'). split; [discriminate | reflexivity].
Qed.
Print Assumptions C99_named_first_committer_wins.
(** among transactions whose calls name their documents: Commit answers a conflict if and only if the transaction was
    overtaken, and otherwise succeeds, unless the schema had moved on too far or the store fails to write *)
Theorem C99_named_conflict_iff : forall J, json_ok J -> forall now clamp a m b c n p, let before := a ++ GGet n p :: m ++ GBegin n true :: b in let es := before ++ GCheck n :: c in
  world_ok J (db_init now clamp) es -> stays_up p (m ++ b ++ c) -> (forall e, In e (m ++ b ++ c) -> ~ about n e) ->
  ~ outdated (version_of (g_h (system J now clamp a) p)) (version_of (g_h (system J now clamp before) p)) ->
  forall e, lfind n (l_open (log_of J now clamp es)) = Some e -> nchanged e = true -> nby_id e -> (forall e', In e' (skipn (n_seen e) (l_done (log_of J now clamp es))) -> nby_id e') ->
  let answer := snd (gstep J (system J now clamp es) (GCommit n false)) in
  (answer = ADone (Err EConflict) <-> overtaken (log_of J now clamp es) e) /\ (answer = ADone (Ok tt) <-> ~ overtaken (log_of J now clamp es) e).
Proof.
  intros J JO now clamp a m b c n p before es H S A O e Fe CH BE BD answer. pose proof (C93_commit_outcome J JO now clamp a m b c n p false H S A) as X. cbv zeta in X. fold before es in X.
  assert (Y : answer = ADone (Err EConflict) -> overtaken (log_of J now clamp es) e).
  { intros E. unfold answer in E. clear X. destruct (named_now J JO now clamp es H) as (des & L & N & TX & DB). fold (log_of J now clamp es) in N. fold (system J now clamp es) in TX, DB. set (g := system J now clamp es) in *.
    pose proof (nm_log _ _ _ _ _ _ N) as [SO SD SR]. pose proof (same_find n _ _ SO) as LE. unfold w0 in *. rewrite Fe in LE. destruct (find_tx n (j_open (journal_of (dfresh now clamp) des))) as [d|] eqn:Fd; [|destruct LE].
    assert (C : P_Domain.cinv L (s_h d)) by exact (nm_open _ _ _ _ _ _ N n d Fd).
    assert (CD : forall d', In d' (j_done (journal_of (dfresh now clamp) des)) -> P_Domain.cinv L (s_h d')) by (intros d' I; apply (nm_done _ _ _ _ _ _ N), in_or_app; right; exact I).
    apply (overtaken_names L e d _ _ (nm_ids _ _ _ _ _ _ N) LE C SD CD).
    assert (X : exists h, snd (dstep (fst (dhist (dfresh now clamp) des)) (DCommit h n false)) = ADone (Err EConflict)).
    { cbn [gstep] in E. destruct (g_tx g n) as [[[q x] [h|]]|] eqn:Ex; [|destruct (dt_upd x); discriminate E | discriminate E]. exists h. cbn [dstep]. rewrite (TX n q x (Some h) Ex), DB. destruct (dcommit h (g_db g) false x) as [[[[h1 d1] x1] r] ran]. exact E. }
    destruct X as (h & X). pose proof LE as (K1 & K2 & K3 & K4).
    apply (conflict_why now clamp des h n (nm_hist _ _ _ _ _ _ N) d Fd); [destruct (like_calls e d LE) as [Q _]; unfold by_id; rewrite <- Q; exact BE | | exact X].
    intros d' I. rewrite <- K3 in I. destruct (forall2_in _ _ _ d' (forall2_sym _ _ _ (forall2_skipn _ (n_seen e) _ _ SD)) I) as (e' & Ie & K'). destruct (like_calls e' d' K') as [Q _]. unfold by_id. rewrite <- Q. exact (BD e' Ie). }
  assert (Z : overtaken (log_of J now clamp es) e -> answer <> ADone (Ok tt)) by (intros Q; exact (proj1 (C99_named_first_committer_wins J JO now clamp es n false H e Fe CH Q))).
  assert (W : answer = ADone (Ok tt) \/ answer = ADone (Err EConflict)).
  { unfold answer. destruct (gstep J (system J now clamp es) (GCommit n false)) as [g' r]. destruct X as (_ & X & _). cbn [snd]. destruct (X O) as [->|[->|[Q _]]]; [auto | auto | discriminate Q]. }
  split; split.
  - exact Y.
  - intros Q. destruct W as [W|W]; [destruct (Z Q W) | exact W].
  - intros Q R. exact (Z R Q).
  - intros Q. destruct W as [W|W]; [exact W | destruct (Q (Y W))].
Qed.
Print Assumptions C99_named_conflict_iff.
(** * Examples: transactions 3 and 4 of two processes update order 1 and 4 commits first; in [apart_es] of P_AllConflict.v the
    transactions are about different orders *)
Definition race_a : list gev := apart_a ++ [GGet 2 0; GBegin 2 true; GCall 2 (orders (OInsert 1 (str "ink"))); GCheck 2; GCommit 2 false].
Definition race_m : list gev := [GGet 4 0; GBegin 4 true].
Definition race_b : list gev := [GCall 4 (orders (OUpdate 1 (str "pen"))); GCall 3 (orders (OUpdate 1 (str "cap"))); GCheck 4].
Definition race_before : list gev := race_a ++ GGet 3 1 :: race_m ++ GBegin 3 true :: race_b.
Definition race_es : list gev := race_before ++ GCheck 3 :: [GCommit 4 false].
Definition all_by_id (l : list entry) : bool := forallb (fun e => forallb single (e_calls e)) l.
Lemma all_by_id_ok l : all_by_id l = true -> forall e, In e l -> nby_id e.
Proof. intros H e I c Ic. unfold all_by_id in H. rewrite forallb_forall in H. pose proof (H e I) as Q. rewrite forallb_forall in Q. exact (Q c Ic). Qed.
Lemma some_inj {A} (a b : A) : Some a = Some b -> a = b.
Proof. intros E. injection E. exact (fun x => x). Qed.
Lemma pair_inj {A B} (a a' : A) (b b' : B) : (a, b) = (a', b') -> a = a' /\ b = b'.
Proof. intros E. split; [exact (f_equal fst E) | exact (f_equal snd E)]. Qed.
Lemma race_lost (lg : glog) : option_map (fun e => (nchanged e, all_by_id (e :: l_done lg), n_calls e, n_sees e (str "shop") (str "orders"), map (fun e' => (n_calls e', n_sees e' (str "shop") (str "orders"))) (skipn (n_seen e) (l_done lg)))) (lfind 3 (l_open lg)) =
    Some (true, true, [(orders (OUpdate 1 (str "cap")), Ok (VBool true))], true, [([(orders (OUpdate 1 (str "pen")), Ok (VBool true))], true)]) ->
  exists e, lfind 3 (l_open lg) = Some e /\ nchanged e = true /\ nby_id e /\ (forall e', In e' (skipn (n_seen e) (l_done lg)) -> nby_id e') /\ overtaken lg e.
Proof.
  intros X. destruct (lfind 3 (l_open lg)) as [e|]; [|discriminate X]. cbn [option_map] in X. apply some_inj in X. destruct (pair_inj _ _ _ _ X) as [Xa X5]. destruct (pair_inj _ _ _ _ Xa) as [Xb X4]. destruct (pair_inj _ _ _ _ Xb) as [Xc X3]. destruct (pair_inj _ _ _ _ Xc) as [X1 X2]. clear X Xa Xb Xc.
  exists e. split; [reflexivity|]. split; [exact X1|]. split; [apply (all_by_id_ok _ X2); left; reflexivity|]. split; [intros e' I; apply (all_by_id_ok _ X2); right; rewrite <- (firstn_skipn (n_seen e)); apply in_or_app; right; exact I|].
  destruct (skipn (n_seen e) (l_done lg)) as [|e' l] eqn:SK; [discriminate X5|]. cbn [map] in X5. apply (f_equal (@hd_error _)) in X5. cbn [hd_error] in X5. apply some_inj in X5. destruct (pair_inj _ _ _ _ X5) as [Y1 Y2].
  exists (str "shop"), (str "orders"), 1, e', (orders (OUpdate 1 (str "pen")), Ok (VBool true)). split; [|split; [rewrite SK; left; reflexivity|]; split; [rewrite Y1; left; reflexivity|]; split; [reflexivity|]; split; [reflexivity|]; split; [exact Y2 | left; reflexivity]].
  exists [], (orders (OUpdate 1 (str "cap"))), (Ok (VBool true)), []. split; [exact X3|]. split; [reflexivity|]. split; [reflexivity|]. split; [exact X4 | intros p []].
Qed.
Example C99_named_example : world_ok demo_json (db_init 100 false) race_es /\ stays_up 1 (race_m ++ race_b ++ [GCommit 4 false]) /\ (forall e, In e (race_m ++ race_b ++ [GCommit 4 false]) -> ~ about 3 e) /\
  ~ outdated (version_of (g_h (system demo_json 100 false race_a) 1)) (version_of (g_h (system demo_json 100 false race_before) 1)) /\
  (exists e, lfind 3 (l_open (log_of demo_json 100 false race_es)) = Some e /\ nchanged e = true /\ nby_id e /\ (forall e', In e' (skipn (n_seen e) (l_done (log_of demo_json 100 false race_es))) -> nby_id e') /\ overtaken (log_of demo_json 100 false race_es) e) /\
  snd (gstep demo_json (system demo_json 100 false race_es) (GCommit 3 false)) = ADone (Err EConflict) /\
  option_map (fun e => (nchanged e, all_by_id (e :: l_done (log_of demo_json 100 false apart_es)))) (lfind 3 (l_open (log_of demo_json 100 false apart_es))) = Some (true, true) /\
  snd (gstep demo_json (system demo_json 100 false apart_es) (GCommit 3 false)) = ADone (Ok tt).
Proof.
  split; [split; [|split; [|vm_compute; reflexivity]]|].
  - assert (I1 : is_i64 1) by (apply P_DocSerial.i64_small; lia).
    unfold race_es, race_before, race_a, apart_a, race_m, race_b, made. cbn [map app]. repeat (apply Forall_cons || apply Forall_nil);
    (exact Logic.I || (cbn [gev_ok]; apply P_DdlSerial.kbare_ok; reflexivity) || exact P_Ddl.ident_ok || (split; [repeat (apply Forall_cons || apply Forall_nil); assumption | intros m dbn coll; discriminate])).
  - intros n c H1. exfalso. unfold race_es, race_before, race_a, apart_a, race_m, race_b, made in H1. cbn [map app In] in H1. repeat (destruct H1 as [H1|H1]; [discriminate H1|]). destruct H1.
  - split; [intros H; unfold race_m, race_b in H; cbn [app In] in H; repeat (destruct H as [H|H]; [discriminate H|]); destruct H|].
    split; [intros e H; unfold race_m, race_b in H; cbn [app In] in H; repeat (destruct H as [<-|H]; [cbn [about]; try discriminate; intros []|]); destruct H|].
    split; [intros H; assert (X : version_of (g_h (system demo_json 100 false race_a) 1) = 1 /\ version_of (g_h (system demo_json 100 false race_before) 1) = 1) by (split; vm_compute; reflexivity); destruct X as [X1 X2]; rewrite X1, X2 in H; destruct H as [[H _]|H]; lia|].
    split; [|split; [vm_compute; reflexivity | split; vm_compute; reflexivity]].
    apply race_lost. vm_compute. reflexivity.
Qed.
