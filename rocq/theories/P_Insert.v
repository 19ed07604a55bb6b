(** C50 (InsertOne never destroys a document) and C52 (ids of failed inserts come back, others never).
    InsertWorld.v defines the runs: [irun] composes the code models, [icallers_ok] says what callers
    respect, [ghost_of]/[ids_fresh] is the bookkeeping of ids by observable outcomes. *)
From Verif Require Import Bytes SMap KeyModel Provider ProviderProofs World Numeric KvUtil Struct StructProofs UtilTxn TxPost Sequence SequenceProofs P_Sequence Model Schema DocTxn DocKeys Dml DmlProofs P_Dml Wrote InsertWorld.

(** a process that just started on a store: no transactions, no allocators *)
Definition start (d : db) : iworld := IW (fresh_world d) (fun _ => None) (fun _ => None) [] [].
(** the store: counter at [c0], documents of collection C have ids up to [c0] *)
Definition good_start (C : Z) (L : loc) (B c0 : Z) (d : db) (n : nat) : Prop :=
  is_i64 C /\ 0 < B /\ 0 <= c0 /\ cell L d c0 /\ db_ok d /\ c0 + B * Z.of_nat n < two63 /\
  forall v e, is_i64 v -> get (d_kv d) (docKey C v) = Some e -> v <= c0.
Lemma start_inv C L B c0 d rem : 0 <= c0 -> cell L d c0 -> db_ok d -> c0 + B * rem < two63 ->
  (forall v e, is_i64 v -> get (d_kv d) (docKey C v) = Some e -> v <= c0) -> iinv C L B c0 rem (start d) g_none [] c0.
Proof.
  intros P Ce K U D. split; cbn [start iw_q iw_tx iw_fn iw_back fresh_world qw_db g_none g_taken g_mine].
  - apply fresh_inv; assumption.
  - split; cbn [g_none g_mine g_taken]; [constructor | intros j v [] | intros i j v _ []].
  - intros v [].
  - reflexivity.
  - intros v e Hv He. left. exact (D v e Hv He).
  - discriminate.
  - split; [constructor | intros v []].
Qed.
Lemma run_world C L B c0 d es n : good_start C L B c0 d (length es + n) -> icallers_ok C L B c0 (start d) es ->
  ids_fresh g_none (snd (irun C L (start d) es)) /\
  exists used c, iinv C L B c0 (Z.of_nat n) (fst (irun C L (start d) es)) (ghost_of (snd (irun C L (start d) es))) used c.
Proof.
  intros (HC & HB & P & Ce & K & U & D) A. apply (irun_inv C L B c0 HB HC es _ _ _ [] c0); [lia| |exact A].
  apply start_inv; try assumption. replace (Z.of_nat n + Z.of_nat (length es)) with (Z.of_nat (length es + n)) by lia. exact U.
Qed.

(** * C50 *)
(** When an InsertOne returns id [did] without error - after any run, in whatever state the other
    transactions are - no committed document and no open transaction has a document with that id;
    afterwards the inserting transaction sees its document there and is otherwise unchanged.
    Hypotheses: the collection exists in the transaction's schema, one live allocator at a time (C42),
    application-chosen ids not above the stored counter. Missing: without the last one it is false. *)
Theorem C50_inserted_id_is_free_partial : forall C L B c0 d es i lim io w' a x j did,
  good_start C L B c0 d (length es + 1) -> icallers_ok C L B c0 (start d) es ->
  let w := fst (irun C L (start d) es) in
  iw_ins w i = Some a -> iw_tx w j = Some x ->
  istep C L w (EInsertEnd i lim io) = (w', IIns j did (Ok tt)) -> did <> 0 ->
  get (d_kv (qw_db (iw_q w))) (docKey C did) = None /\
  (forall k y, iw_tx w k = Some y -> get (view (dt_t y)) (docKey C did) = None) /\
  exists x', iw_tx w' j = Some x' /\ get (view (dt_t x')) (docKey C did) = Some (mk (na_data a)) /\
    (forall k, k <> docKey C did -> get (view (dt_t x')) k = get (view (dt_t x)) k) /\
    (forall k y, k <> j -> iw_tx w k = Some y -> iw_tx w' k = Some y) /\
    forall v, get (d_kv (qw_db (iw_q w'))) (docKey C v) = get (d_kv (qw_db (iw_q w))) (docKey C v).
Proof.
  intros C L B c0 d es i lim io w' a x j did G A w Ha Hx E Nz. destruct (run_world C L B c0 d es 1 G A) as (_ & used & c & I). fold w in I.
  destruct G as (HC & HB & _). change (Z.of_nat 1) with (0 + 1) in I.
  pose proof (insert_inv C L B c0 HB HC 0 w _ used c i lim io ltac:(lia) I) as H. rewrite E in H. destruct H as (F & _).
  assert (Gi : got_id (IIns j did (Ok tt)) = Some (j, did)) by (cbn [got_id]; apply Z.eqb_neq in Nz; rewrite Nz; reflexivity).
  destruct (F j did Gi) as (Lt & Hd & Nu).
  assert (NT : ~ In did (g_taken (ghost_of (snd (irun C L (start d) es))))) by (intros X; exact (Nu (ii_taken _ _ _ _ _ _ _ _ _ I did X))).
  split; [|split].
  - destruct (get (d_kv (qw_db (iw_q w))) (docKey C did)) as [e|] eqn:X; [|reflexivity]. exfalso. destruct (ii_store _ _ _ _ _ _ _ _ _ I did e Hd X) as [H|[H _]]; [lia | exact (NT H)].
  - intros k y Hy. destruct (get (view (dt_t y)) (docKey C did)) as [e|] eqn:X; [|reflexivity]. exfalso.
    destruct (view_held C L c0 _ _ _ _ did (ii_tx _ _ _ _ _ _ _ _ _ I k y Hy) Hd ltac:(rewrite X; discriminate)) as [H|[H _]]; [lia | exact (NT H)].
  - pose proof (ii_q _ _ _ _ _ _ _ _ _ I) as Q. cbn [istep] in E. rewrite Ha in E.
    destruct (qw_call (iw_q w) i) as [[d0 [bw|[| | | | |]]]|] eqn:Hc; try discriminate. destruct (qw_seq (iw_q w) i) as [s|] eqn:Hs; [|discriminate].
    destruct (iw_tx w (na_j a)) as [x0|] eqn:Hx0; [|discriminate]. destruct (resolve (dt_start x0) (na_db a) (na_coll a)) as [cc|] eqn:Rs; [|discriminate].
    destruct (cc =? C) eqn:Ec; [|discriminate]. apply Z.eqb_eq in Ec. subst cc. cbn [negb] in E. unfold insertFunc in E. rewrite Rs in E. unfold zupd at 1 in E. rewrite Z.eqb_refl in E.
    set (x1 := if na_mark a then ReferredCollections x0 [C] else x0) in E.
    destruct (q_exec d0 (qw_db (iw_q w)) lim io s QNext) as [[sd q'] rq] eqn:Eq.
    assert (DOC : forall v, get (d_kv sd) (docKey C v) = get (d_kv (qw_db (iw_q w))) (docKey C v)).
    { intros v. pose proof (q_exec_frame d0 (qw_db (iw_q w)) lim io s QNext (docKey C v) (docKey_not_meta C v) ltac:(discriminate)) as X. rewrite Eq in X. exact X. }
    destruct rq as [[|did'|rl]|e|]; try (inversion E; congruence).
    destruct (tset (docKey C did') (na_data a) (dt_t x1)) as [t r] eqn:Et. unfold AddCancelFunc in E. cbn [with_t dt_upd dt_t dt_start dt_refs dt_cancels] in E.
    destruct (negb (dt_upd x1)); [inversion E; congruence|]. cbv beta iota in E.
    assert (Ew : w' = fst (w', IIns j did (Ok tt))) by reflexivity. rewrite <- E in Ew. apply (f_equal snd) in E. cbn [snd] in E. cbn [fst] in Ew.
    inversion E. subst j did' r. clear E.
    assert (x0 = x) by congruence. subst x0. apply tset_ok in Et. destruct Et as [l Et].
    assert (V1 : view (dt_t x1) = view (dt_t x)) by (unfold x1; destruct (na_mark a); reflexivity).
    rewrite Ew. cbn [iw_tx iw_q qw_db]. eexists. split; [rewrite fupd_eq; reflexivity|]. cbn [dt_t]. rewrite Et, view_put. cbn [live mk e_exp Z.eqb orb]. rewrite V1.
    split; [apply get_set_eq|]. split; [intros k Hk; apply get_set_ne; exact Hk|]. split; [intros k y Hk Hy; rewrite fupd_ne by exact Hk; exact Hy | exact DOC].
Qed.
(** When the inserting transaction commits, the store has no document with any of the ids it inserted:
    nothing is destroyed, whatever was committed since the insert. *)
Theorem C50_commit_of_inserts_destroys_nothing : forall C L B c0 d es j h io w' did,
  good_start C L B c0 d (length es + 1) -> icallers_ok C L B c0 (start d) es ->
  let w := fst (irun C L (start d) es) in
  istep C L w (ECommit j h io) = (w', ICommit j (Ok tt)) ->
  In did (g_mine (ghost_of (snd (irun C L (start d) es))) j) ->
  get (d_kv (qw_db (iw_q w))) (docKey C did) = None.
Proof.
  intros C L B c0 d es j h io w' did G A w E Hm. destruct (run_world C L B c0 d es 1 G A) as (_ & used & c & I). fold w in I.
  destruct (get (d_kv (qw_db (iw_q w))) (docKey C did)) as [e|] eqn:X; [|reflexivity]. exfalso.
  pose proof (ii_taken _ _ _ _ _ _ _ _ _ I did (gw_incl _ (ii_g _ _ _ _ _ _ _ _ _ I) j did Hm)) as Hu.
  pose proof (qi_used _ _ _ _ _ _ _ _ (ii_q _ _ _ _ _ _ _ _ _ I) did Hu) as Rd. pose proof (qi_range _ _ _ _ _ _ _ _ (ii_q _ _ _ _ _ _ _ _ _ I)) as Rg.
  destruct G as (HC & HB & _). assert (Hd : is_i64 did) by (unfold is_i64; nia).
  destruct (ii_store _ _ _ _ _ _ _ _ _ I did e Hd X) as [H|[_ H]]; [lia | exact (H j Hm)].
Qed.

(** an example process: collection 2 of database 1 *)
Definition LC : loc := AtHash (str "db:1") (str "didSequence:2").
Definition ins (j i : nat) (data : bytes) : list iev := [EInsert j i true (str "db") (str "a") data; EInsertEnd i [] false].
Definition mkseq (i : nat) (bw : Z) : list iev := [EAlloc (QBegin i (CNew bw)); EAlloc (QEnd i [] false)].
Definition vis (os : list iobs) : list iobs := filter (fun o => match o with INone => false | _ => true end) os.
Definition run50 : list iev :=
  mkseq 0 2 ++ [ENew 1 h49 true []; ENew 2 h49 true []; EOp 2 (str "db") (str "a") (OUpsert (-5) (str "m"))] ++ ins 1 0 (str "x") ++ ins 2 0 (str "y") ++ ins 1 0 (str "z") ++
  [EOp 2 (str "db") (str "b") (OInsert 77 (str "q")); ECommit 2 h49 true; EPutBack 0; ENew 3 h49 true []] ++ ins 3 0 (str "v") ++ [ECommit 1 h49 false; ECommit 3 h49 false; ECrash] ++
  mkseq 1 2 ++ [ENew 4 h49 true []] ++ ins 4 1 (str "u") ++ [EDiscard 4].
Example C50_nonvacuous :
  vis (snd (irun 2 LC (start (db_init 0 false)) run50)) =
    [IIns 1 1 (Ok tt); IIns 2 2 (Ok tt); IIns 1 3 (Ok tt); ICommit 2 (Err EIO); IIns 3 2 (Ok tt); ICommit 1 (Ok tt); ICommit 3 (Ok tt); ICrash; IIns 4 5 (Ok tt); IDiscard 4] /\
  g_taken (ghost_of (snd (irun 2 LC (start (db_init 0 false)) run50))) = [5; 2; 3; 1].
Proof. split; vm_compute; reflexivity. Qed.
Example C50_hypotheses_met : good_start 2 LC 2 0 (db_init 0 false) (length run50 + 1) /\ icallers_ok 2 LC 2 0 (start (db_init 0 false)) run50.
Proof.
  split.
  - split; [unfold is_i64; rewrite two63_val; lia|]. split; [lia|]. split; [lia|]. split; [left; split; vm_compute; reflexivity|]. split; [apply db_ok_init|].
    split; [rewrite two63_val; vm_compute; reflexivity|]. intros v e _. cbn [db_init d_kv]. rewrite get_empty. discriminate.
  - assert (I2 : forall z, (-100 <= z <= 100)%Z -> is_i64 z) by (intros z Hz; unfold is_i64; rewrite two63_val; lia).
    unfold run50, ins, mkseq. cbn [app].
    repeat (split; [first [exact Logic.I
      | match goal with |- iallowed _ _ _ _ _ (EAlloc _) => cbn [iallowed]; allowed1 end
      | match goal with |- iallowed _ _ _ _ _ (EOp _ _ _ _) => intros x c Hx Hr; vm_compute in Hx; inversion Hx; subst x; vm_compute in Hr; inversion Hr; subst c;
          split; [apply I2; lia | intros Ec; split; [constructor; [apply I2; lia | constructor] | first [left; lia | exfalso; lia]]] end ]|]). exact Logic.I.
Qed.

(** Refuted parts. An insert into a collection the schema does not have reports success with id 0. *)
Theorem C50_missing_collection_is_no_error_refuted :
  exists S x dbn coll data, resolve (dt_start x) dbn coll = None /\
  forall mark f sd0 sd1 slim sio, insertFunc mark S x dbn coll data f sd0 sd1 slim sio = (S, sd1, x, (0, Ok tt)).
Proof.
  exists (fun _ => None), (NewTxn h49 (db_init 0 false) true []), (str "db"), (str "nope"), (str "d"). split; [vm_compute; reflexivity|]. intros. reflexivity.
Qed.
(** An application-chosen id above the counter is destroyed by a later InsertOne. *)
Definition run50b : list iev :=
  mkseq 0 2 ++ [ENew 1 h49 true []; EOp 1 (str "db") (str "a") (OInsert 1 (str "precious")); ECommit 1 h49 false; ENew 2 h49 true []] ++ ins 2 0 (str "new") ++ [ECommit 2 h49 false].
Theorem C50_insert_overwrites_a_managed_document_refuted :
  let before := fst (irun 2 LC (start (db_init 0 false)) (firstn 6 run50b)) in
  let w := irun 2 LC (start (db_init 0 false)) run50b in
  get (d_kv (qw_db (iw_q before))) (docKey 2 1) = Some (mk (str "precious")) /\
  vis (snd w) = [ICommit 1 (Ok tt); IIns 2 1 (Ok tt); ICommit 2 (Ok tt)] /\
  get (d_kv (qw_db (iw_q (fst w)))) (docKey 2 1) = Some (mk (str "new")).
Proof. split; [vm_compute; reflexivity|]. split; vm_compute; reflexivity. Qed.

(** * C52 *)
Definition ends (j : nat) (o : iobs) : bool :=
  match o with ICommit k _ | IDiscard k => Nat.eqb k j | ICrash => true | _ => false end.
Lemma gwf_step g o : (forall j did, got_id o = Some (j, did) -> ~ In did (g_taken g)) -> gwf g -> gwf (gstep g o).
Proof.
  intros F W. destruct o as [|j did r|j r|j|]; cbn [gstep].
  - exact W.
  - destruct (got_id (IIns j did r)) as [[k v]|] eqn:E; [|exact W]. apply gwf_insert; [exact W | exact (F k v eq_refl)].
  - destruct r; [apply gwf_end | apply gwf_fail | apply gwf_end]; exact W.
  - apply gwf_end. exact W.
  - split; cbn [g_mine g_taken]; [constructor | intros i v [] | intros i k v _ []].
Qed.
Lemma settled_forever os : forall g v, gwf g -> ids_fresh g os -> In v (g_taken g) -> (forall j, ~ In v (g_mine g j)) -> forall j, ~ In (Some (j, v)) (map got_id os).
Proof.
  induction os as [|o os IH]; intros g v W F Hv Hm j; [intros []|]. destruct F as [F1 F2]. cbn [map]. intros [H|H]; [exact (F1 _ _ H Hv)|].
  apply (IH (gstep g o) v (gwf_step g o F1 W) F2) in H; [exact H | |].
  - destruct o as [|k did r|k [u|e|]|k|]; cbn [gstep]; try exact Hv.
    + destruct (got_id (IIns k did r)) as [[k' v']|]; [right; exact Hv | exact Hv].
    + cbn [g_taken]. apply in_filter_not. split; [exact Hv | apply Hm].
  - intros i. destruct o as [|k did r|k [u|e|]|k|]; cbn [gstep]; try apply Hm.
    + destruct (got_id (IIns k did r)) as [[k' v']|] eqn:E; [|apply Hm]. cbn [g_mine]. destruct (Nat.eq_dec i k') as [->|N]; [rewrite nset_eq | rewrite nset_ne by exact N; apply Hm].
      intros [->|X]; [exact (F1 k' v eq_refl Hv) | exact (Hm k' X)].
    + cbn [g_mine]. destruct (Nat.eq_dec i k) as [->|N]; [rewrite nset_eq; auto | rewrite nset_ne by exact N; apply Hm].
    + cbn [g_mine]. destruct (Nat.eq_dec i k) as [->|N]; [rewrite nset_eq; auto | rewrite nset_ne by exact N; apply Hm].
    + cbn [g_mine]. destruct (Nat.eq_dec i k) as [->|N]; [rewrite nset_eq; auto | rewrite nset_ne by exact N; apply Hm].
    + cbn [g_mine]. destruct (Nat.eq_dec i k) as [->|N]; [rewrite nset_eq; auto | rewrite nset_ne by exact N; apply Hm].
    + cbn [g_mine]. auto.
Qed.
Lemma reuse os : forall g j v k, gwf g -> ids_fresh g os -> In v (g_mine g j) -> In (Some (k, v)) (map got_id os) ->
  exists a e b, os = a ++ ICommit j (Err e) :: b /\ forallb (fun o => negb (ends j o)) a = true /\ In (Some (k, v)) (map got_id b).
Proof.
  induction os as [|o os IH]; intros g j v k W F Hv Hk; [destruct Hk|]. destruct F as [F1 F2]. pose proof (gwf_step g o F1 W) as W'.
  pose proof (gw_incl _ W j v Hv) as Ht. destruct Hk as [H|H]; [exfalso; exact (F1 _ _ H Ht)|].
  assert (GO : ends j o = false -> In v (g_mine (gstep g o) j) -> exists a e b, o :: os = a ++ ICommit j (Err e) :: b /\ forallb (fun o => negb (ends j o)) a = true /\ In (Some (k, v)) (map got_id b)).
  { intros Ne Hm. destruct (IH _ j v k W' F2 Hm H) as (a & e & b & -> & Fa & Hb). exists (o :: a), e, b. split; [reflexivity|]. split; [cbn [forallb]; rewrite Ne; exact Fa | exact Hb]. }
  assert (END : (forall i, ~ In v (g_mine (gstep g o) i)) -> In v (g_taken (gstep g o)) -> False).
  { intros Hm Hv2. exact (settled_forever os _ v W' F2 Hv2 Hm k H). }
  assert (ENDJ : g_taken (gstep g o) = g_taken g -> (forall i, g_mine (gstep g o) i = nset (g_mine g) j [] i) -> False).
  { intros E1 E2. apply END; [|rewrite E1; exact Ht]. intros i. rewrite E2. destruct (Nat.eq_dec i j) as [->|N]; [rewrite nset_eq; auto | rewrite nset_ne by exact N]. exact (gw_disj _ W j i v ltac:(congruence) Hv). }
  destruct o as [|k' did r|k' r|k'|].
  - apply GO; [reflexivity | exact Hv].
  - apply GO; [reflexivity|]. cbn [gstep]. destruct (got_id (IIns k' did r)) as [[k2 v2]|]; [|exact Hv]. cbn [g_mine].
    destruct (Nat.eq_dec j k2) as [->|N]; [rewrite nset_eq; right; exact Hv | rewrite nset_ne by exact N; exact Hv].
  - destruct (Nat.eq_dec k' j) as [->|N].
    + destruct r as [u|e|]; [exfalso; apply ENDJ; reflexivity | | exfalso; apply ENDJ; reflexivity]. exists [], e, os. auto.
    + apply GO; [cbn [ends]; apply Nat.eqb_neq; exact N|]. destruct r; cbn [gstep g_mine]; rewrite nset_ne by congruence; exact Hv.
  - destruct (Nat.eq_dec k' j) as [->|N]; [exfalso; apply ENDJ; reflexivity|]. apply GO; [cbn [ends]; apply Nat.eqb_neq; exact N|]. cbn [gstep g_mine]. rewrite nset_ne by congruence. exact Hv.
  - exfalso. apply END; [cbn [gstep g_mine]; auto | exact Ht].
Qed.
Lemma ids_fresh_app a : forall g b, ids_fresh g (a ++ b) -> ids_fresh g a /\ ids_fresh (fold_left gstep a g) b.
Proof. induction a as [|o a IH]; intros g b H; [split; [exact Logic.I | exact H]|]. destruct H as [H1 H2]. destruct (IH _ _ H2) as [X1 X2]. split; [split; assumption | exact X2]. Qed.
Lemma gwf_fold a : forall g, gwf g -> ids_fresh g a -> gwf (fold_left gstep a g).
Proof. induction a as [|o a IH]; intros g W F; [exact W|]. destruct F as [F1 F2]. cbn [fold_left]. apply IH; [apply gwf_step; assumption | exact F2]. Qed.
(** If two InsertOne calls return the same id, then the transaction of the first failed to commit, with
    an error, in between, and had not ended in another way before: the id of an insert that commits -
    or is discarded, or lost in a crash - is never returned again. *)
Theorem C52_only_ids_of_failed_commits_are_returned_again : forall C L B c0 d es os1 os2 os3 o1 o2 j k did,
  good_start C L B c0 d (length es) -> icallers_ok C L B c0 (start d) es ->
  snd (irun C L (start d) es) = os1 ++ o1 :: os2 ++ o2 :: os3 ->
  got_id o1 = Some (j, did) -> got_id o2 = Some (k, did) ->
  exists a e b, os2 = a ++ ICommit j (Err e) :: b /\ forall o, In o a -> ends j o = false.
Proof.
  intros C L B c0 d es os1 os2 os3 o1 o2 j k did G A E G1 G2. replace (length es) with (length es + 0)%nat in G by lia.
  destruct (run_world C L B c0 d es 0 G A) as (F & _). rewrite E in F. apply ids_fresh_app in F. destruct F as [Fa [F1 F2]].
  assert (W0 : gwf g_none) by (split; cbn [g_none g_mine g_taken]; [constructor | intros i v [] | intros i m v _ []]).
  pose proof (gwf_fold os1 _ W0 Fa) as W1. pose proof (gwf_step _ o1 F1 W1) as W2.
  assert (Hm : In did (g_mine (gstep (fold_left gstep os1 g_none) o1) j)).
  { destruct o1 as [|i v r|i r|i|]; try discriminate. cbn [gstep]. rewrite G1. cbn [g_mine]. rewrite nset_eq. left. reflexivity. }
  replace (os2 ++ o2 :: os3) with ((os2 ++ [o2]) ++ os3) in F2 by (rewrite <- app_assoc; reflexivity). apply ids_fresh_app in F2. destruct F2 as [F2 _].
  destruct (reuse (os2 ++ [o2]) _ j did k W2 F2 Hm ltac:(rewrite map_app; apply in_or_app; right; left; exact G2)) as (a & e & b & X & Fa2 & Hb).
  destruct (exists_last (l := b)) as (b' & z & ->); [intros ->; destruct Hb|].
  assert (Y : os2 = a ++ ICommit j (Err e) :: b').
  { change (a ++ ICommit j (Err e) :: b' ++ [z]) with (a ++ (ICommit j (Err e) :: b') ++ [z]) in X. rewrite app_assoc in X. apply app_inj_tail in X. tauto. }
  exists a, e, b'. split; [exact Y|]. intros o Ho. rewrite forallb_forall in Fa2. apply negb_true_iff. exact (Fa2 o Ho).
Qed.
(** When the commit fails, exactly the ids the transaction inserted are to be put back, in order ... *)
Theorem C52_failed_commit_gives_back_exactly_its_ids : forall C L B c0 d es j h io w' e,
  good_start C L B c0 d (length es + 1) -> icallers_ok C L B c0 (start d) es ->
  let w := fst (irun C L (start d) es) in
  istep C L w (ECommit j h io) = (w', ICommit j (Err e)) ->
  map snd (iw_back w') = map snd (iw_back w) ++ rev (g_mine (ghost_of (snd (irun C L (start d) es))) j) /\
  qw_db (iw_q w') = qw_db (iw_q w).
Proof.
  intros C L B c0 d es j h io w' e G A w E. destruct (run_world C L B c0 d es 1 G A) as (_ & used & c & I). fold w in I. cbn [istep] in E.
  destruct (iw_tx w j) as [x|] eqn:Hx; [|discriminate]. destruct (dcommit h (qw_db (iw_q w)) io x) as [[[[h' d'] x'] r] ran] eqn:D.
  pose proof (dcommit_store _ _ _ _ _ _ _ _ _ D) as St. destruct (dcommit_fields _ _ _ _ _ _ _ _ _ D) as (_ & _ & _ & K).
  inversion E. subst r w'. destruct K as [(_ & -> & _)|(N & _)]; [|exfalso; exact (N e eq_refl)]. cbn [iw_back iw_q qw_db]. split.
  - rewrite map_app, (to_mine _ _ _ _ _ _ _ (ii_tx _ _ _ _ _ _ _ _ _ I j x Hx)). reflexivity.
  - destruct St as [->|(X & _)]; [reflexivity | discriminate].
Qed.
(** ... and once they are put back to an open allocator, the next InsertOne gets the last of them. *)
Lemma put_backs C L i ids : forall w, iw_back w = map (pair i) ids -> qw_call (iw_q w) i = None -> (exists s, qw_seq (iw_q w) i = Some s) ->
  let w' := fst (irun C L w (repeat (EPutBack 0) (length ids))) in
  iw_back w' = [] /\ qw_call (iw_q w') i = None /\ qw_db (iw_q w') = qw_db (iw_q w) /\
  forall s, qw_seq (iw_q w) i = Some s -> qw_seq (iw_q w') i = Some (set_put s (q_put s ++ ids)).
Proof.
  induction ids as [|v ids IH]; intros w Hb Hc [s Hs]; cbn [length repeat irun fst].
  - split; [exact Hb|]. split; [exact Hc|]. split; [reflexivity|]. intros s' Hs'. rewrite app_nil_r, Hs'. destruct s'; reflexivity.
  - cbn [istep map] in *. rewrite Hb. cbn [nth_error]. rewrite Hc, Hs. cbn [qstep]. rewrite Hc, Hs. cbn [fst snd drop_nth].
    set (w1 := IW _ _ _ _ _). destruct (IH w1) as (X1 & X2 & X3 & X4); [reflexivity | exact Hc | eexists; cbn [w1 iw_q qw_seq]; apply fupd_eq|].
    destruct (irun C L w1 (repeat (EPutBack 0) (length ids))) as [w2 os]. cbn [fst] in *. split; [exact X1|]. split; [exact X2|]. split; [exact X3|].
    intros s' Hs'. assert (s' = s) by congruence. subst s'. rewrite (X4 (q_PutBack s [v])) by (cbn [w1 iw_q qw_seq]; apply fupd_eq).
    unfold q_PutBack, set_put. cbn [q_loc q_bw q_closed q_next q_leased q_put]. rewrite <- app_assoc. reflexivity.
Qed.
Theorem C52_returned_id_is_reused_next : forall C L i ids v w s lim io d0,
  iw_back w = map (pair i) (ids ++ [v]) -> qw_call (iw_q w) i = None -> qw_seq (iw_q w) i = Some s -> q_closed s = false ->
  let w' := fst (irun C L w (repeat (EPutBack 0) (length (ids ++ [v])))) in
  exists s', qw_seq (iw_q w') i = Some s' /\
    q_exec d0 (qw_db (iw_q w')) lim io s' QNext = (qw_db (iw_q w'), set_put s' (q_put s ++ ids), Ok (QId v)).
Proof.
  intros C L i ids v w s lim io d0 Hb Hc Hs Cl. destruct (put_backs C L i (ids ++ [v]) w Hb Hc (ex_intro _ s Hs)) as (_ & _ & _ & X). cbv zeta in *. rewrite (X s Hs). eexists. split; [reflexivity|].
  cbn [q_exec set_put q_closed]. rewrite Cl. unfold q_Next. cbn [set_put q_put q_loc q_bw q_next q_leased q_closed]. rewrite app_assoc, rev_app_distr. cbn [rev app]. rewrite rev_involutive. reflexivity.
Qed.
Example C52_nonvacuous : (* from the run above: transaction 2 failed and its id 2 was returned again, to transaction 3 *)
  exists os1 os2 os3, snd (irun 2 LC (start (db_init 0 false)) run50) = os1 ++ IIns 2 2 (Ok tt) :: os2 ++ IIns 3 2 (Ok tt) :: os3 /\ In (ICommit 2 (Err EIO)) os2.
Proof.
  set (os := snd (irun 2 LC (start (db_init 0 false)) run50)).
  exists (firstn 8 os), (skipn 9 (firstn 16 os)), (skipn 17 os). split; [vm_compute; reflexivity | vm_compute; auto 10].
Qed.
(** "When it commits, the id is never reused" does not survive a second call of Commit on the same
    transaction: it succeeded, then a schema change makes a second Commit fail, which puts the committed
    id back; the next insert gets it and overwrites the document. *)
Definition h52 : handle :=
  Handle (Some (CRef 1 (MC 4 (match h_val h49 with Some r => mc_dbs (c_val r) | None => None end) [[2]] 4))) 0.
Theorem C52_second_commit_frees_a_committed_id_refuted :
  let d := db_init 0 false in
  let S := fun _ : Z => Some (Seq LC 5 false 0 5 []) in
  let '(S1, _, x1, (id1, r1)) := insertFunc true S (NewTxn h49 d true []) (str "db") (str "a") (str "first") 0 d d [] false in
  let '(_, d1, x2, c1, ran1) := dcommit h49 d false x1 in                  (* commits *)
  let '(_, d2, _, c2, ran2) := dcommit h52 d1 false x2 in                  (* the second Commit fails *)
  let S2 := fun c => option_map (fun q => q_PutBack q (map (fun _ => id1) ran2)) (S1 c) in   (* the cancel functions run *)
  let '(_, _, x3, (id3, r3)) := insertFunc true S2 (NewTxn h52 d2 true []) (str "db") (str "a") (str "second") 0 d2 d2 [] false in
  let '(_, d3, _, c3, _) := dcommit h52 d2 false x3 in
  (id1 = 1 /\ r1 = Ok tt /\ c1 = Ok tt /\ ran1 = []) /\ get (d_kv d1) (docKey 2 1) = Some (mk (str "first")) /\ c2 = Err ErrDDLConflict /\ (id3 = 1 /\ r3 = Ok tt /\ c3 = Ok tt) /\ get (d_kv d3) (docKey 2 1) = Some (mk (str "second")).
Proof. vm_compute. auto 10. Qed.

Print Assumptions C50_inserted_id_is_free_partial.
Print Assumptions C50_commit_of_inserts_destroys_nothing.
Print Assumptions C52_only_ids_of_failed_commits_are_returned_again.
Print Assumptions C52_failed_commit_gives_back_exactly_its_ids.
Print Assumptions C52_returned_id_is_reused_next.
