(** Property C87: documents under concurrent transactions. *)
From Coq Require Import Permutation.
From Verif Require Import Bytes SMap Provider World Sequence Model Schema DocTxn DocKeys Dml DmlProofs DocSerial DocSerialProofs.

(** Any number of clients, any interleaving, with conflicts, schema changes refused at Commit, failing
    writes, sequences and schema changes going on: if the transactions that committed changes found
    their documents by id, they got the answers of the maps, one whole transaction after the other in
    the order of their commits. *)
Theorem C87_committed_transactions_are_serial : forall now clamp es, history_ok es ->
  let l := committed (dfresh now clamp) es in
  (forall d, In d l -> forallb (fun c => negb (scans c)) (calls d) = true) ->
  replays (fun _ => []) l.
Proof. intros now clamp es H l NS. apply (v_replays _ _ _ (winv_run now clamp es H NS)). Qed.
Print Assumptions C87_committed_transactions_are_serial.

(** Every transaction (under way, read-only, refused, discarded, committed; scanning or not) got the
    answers of the maps as they were when it began, after exactly the transactions committed before;
    and those are the documents in the store. *)
Theorem C87_every_transaction_reads_one_moment : forall now clamp es, history_ok es ->
  let w0 := dfresh now clamp in
  let J := journal_of w0 es in
  let l := committed w0 es in
  (forall d, In d l -> forallb (fun c => negb (scans c)) (calls d) = true) ->
  forall d, (exists i, find_tx i (j_open J) = Some d) \/ In d (j_rest J ++ j_done J) ->
  (s_seen d <= length l)%nat /\ answers d = fst (calls_spec (s_h d) (docs_after (firstn (s_seen d) l)) (calls d)).
Proof.
  intros now clamp es H w0 J l NS d Hd. pose proof (winv_run now clamp es H NS) as V. destruct Hd as [(i & F)|Hd]; [|apply (v_told _ _ _ V d Hd)].
  pose proof (v_open _ _ _ V i) as O. fold w0 in O. fold J in O. rewrite F in O. destruct (dw_tx (fst (dhist w0 es)) i) as [x|]; [|destruct O].
  apply (origin_told _ _ _ _ _ O).
Qed.
Print Assumptions C87_every_transaction_reads_one_moment.

(** The order of the commits respects real time: a transaction comes after all those that had
    committed when it began. *)
Theorem C87_order_respects_real_time : forall now clamp es, history_ok es ->
  let l := committed (dfresh now clamp) es in
  (forall d, In d l -> forallb (fun c => negb (scans c)) (calls d) = true) ->
  forall n d, nth_error l n = Some d -> (s_seen d <= n)%nat.
Proof. intros now clamp es H l NS. apply (v_order _ _ _ (winv_run now clamp es H NS)). Qed.
Print Assumptions C87_order_respects_real_time.

(** Transactions that were refused, discarded or are under way left no trace: the store holds the
    documents of the committed ones. *)
Theorem C87_store_holds_the_committed_documents : forall now clamp es, history_ok es ->
  let l := committed (dfresh now clamp) es in
  (forall d, In d l -> forallb (fun c => negb (scans c)) (calls d) = true) ->
  forall c did, is_i64 c -> is_i64 did ->
  get (d_kv (dw_db (fst (dhist (dfresh now clamp) es)))) (docKey c did) = option_map mk (zget (docs_after l c) did).
Proof. intros now clamp es H l NS. apply (r_doc _ _ (v_rep _ _ _ (winv_run now clamp es H NS))). Qed.
Print Assumptions C87_store_holds_the_committed_documents.

(** Methods called without a transaction (Dml.v, [auto_op]) are such transactions of one call: the
    database when they begin and the one they meet at Commit may differ in any way. *)
Theorem C87_single_operations_are_such_transactions : forall h0 h1 w w1 i io dbn coll o,
  let '(w', a) := dstep (fst (dstep w (DBegin h0 i (op_writes o)))) (DCall i (Op false dbn coll o)) in
  dw_tx w1 i = dw_tx w' i ->
  let '(_, d, r) := auto_op h0 h1 (dw_db w) (dw_db w1) [] io dbn coll o in
  match a with
  | AVal (Ok v) =>
      if op_writes o then
        let '(w2, b) := dstep w1 (DCommit h1 i io) in
        d = dw_db w2 /\ b = ADone (match r with Ok _ => Ok tt | Err e => Err e | Panic => Panic end) /\ (forall v', r = Ok v' -> v' = v)
      else d = dw_db w1 /\ r = Ok v
  | AVal r0 => d = dw_db w1 /\ r = r0
  | _ => False
  end.
Proof.
  intros h0 h1 w w1 i io dbn coll o. cbn [dstep fst dw_tx dw_db]. unfold dw_upd at 1. rewrite Nat.eqb_refl. cbn [call_exec].
  unfold auto_op, run_doc_update. destruct (op_writes o).
  - destruct (with_coll false (NewTxn h0 (dw_db w) true []) dbn coll (fun cid => op_tx cid o)) as [x r] eqn:Ew. cbn [dw_tx]. unfold dw_upd at 1. rewrite Nat.eqb_refl. intros ->.
    destruct r as [v|e|]; [|auto|auto]. destruct (dcommit h1 (dw_db w1) io x) as [[[[h' d'] x'] r] ran]. cbn [dw_db]. split; [reflexivity|]. split.
    + destruct r as [[]|e|]; reflexivity.
    + intros v' E. destruct r; congruence.
  - destruct (with_coll false (NewTxn h0 (dw_db w) false []) dbn coll (fun cid => op_tx cid o)) as [x r] eqn:Ew. cbn [dw_tx snd]. intros _.
    destruct r; auto.
Qed.
Print Assumptions C87_single_operations_are_such_transactions.
(** InsertOne of the model (Dml.v, [insertFunc]) is the call [InsertOne] with the id its sequence gave. *)
Theorem C87_insert_one_is_such_a_call : forall mark S x dbn coll data f sd0 sd1 slim sio cid q sd q' did,
  resolve (dt_start x) dbn coll = Some cid -> S cid = Some q -> q_exec sd0 sd1 slim sio q QNext = (sd, q', Ok (QId did)) ->
  let '(_, _, x', (did', r)) := insertFunc mark S x dbn coll data f sd0 sd1 slim sio in
  call_exec x (InsertOne mark dbn coll did data f) = (x', match r with Ok _ => Ok VUnit | Err e => Err e | Panic => Panic end) /\ did' = did.
Proof.
  intros mark S x dbn coll data f sd0 sd1 slim sio cid q sd q' did Rs Sq Q. unfold insertFunc. cbn [call_exec]. rewrite Rs, Sq, Q.
  destruct (tset (docKey cid did) data (dt_t (if mark then ReferredCollections x [cid] else x))) as [t r].
  destruct (AddCancelFunc (with_t (if mark then ReferredCollections x [cid] else x) t) f) as [x2 r2]. split; [|reflexivity].
  destruct r2 as [u|e|]; [|destruct r; reflexivity|reflexivity]. destruct r; reflexivity.
Qed.
Print Assumptions C87_insert_one_is_such_a_call.

(** A history: 1 and 2 both update document 7 and only the first to commit succeeds; 3 reads meanwhile;
    4 moves a document between collections while 5 inserts; 6 is refused because its collection was
    dropped. *)
Definition coll87 (n : bytes) (i : Z) : CollectionInfo := CI i n None [] Public.
Definition schema87 (v : Z) (b : bool) : MetaCache :=
  let m := set empty (str "a") (coll87 (str "a") 2) in
  MC v (Some (set empty (str "db") (DI 1 (str "db") (Some (if b then set m (str "b") (coll87 (str "b") 3) else m)) [] Public))) [] 4.
Definition h87 : handle := Handle (Some (CRef 0 (schema87 3 true))) 0.
Definition h88 : handle := Handle (Some (CRef 1 (MC 4 (mc_dbs (schema87 3 false)) [[3]] 4))) 0.
Definition on_a (o : docop) : call := Op true (str "db") (str "a") o.
Definition on_b (o : docop) : call := Op true (str "db") (str "b") o.
Definition busy : list dev :=
  [DBegin h87 0 true; DCall 0 (InsertOne true (str "db") (str "a") 7 (str "x") 1); DCommit h87 0 false;
   DBegin h87 1 true; DBegin h87 2 true; DBegin h87 3 false;
   DCall 1 (on_a (OUpdate 7 (str "y"))); DCall 2 (on_a (OUpdate 7 (str "z"))); DCall 2 (on_b (OInsert 9 (str "w")));
   DCommit h87 1 false; DCall 3 (on_a OGetAll); DCommit h87 2 false; DCall 3 (on_b OCount);
   DBegin h87 4 true; DBegin h87 5 true; DBegin h87 6 true;
   DCall 4 (on_a (OGet 7)); DCall 4 (on_a (ODelete 7)); DCall 4 (on_b (OUpsert 7 (str "y")));
   DCall 5 (on_a (OInsert 8 (str "v"))); DTick 5; DCommit h87 5 false; DCommit h87 4 false;
   DCall 6 (on_b (OUpsert 10 (str "q"))); DCommit h88 6 false;
   DBegin h88 7 false; DCall 7 (on_a OGetAll); DCall 7 (on_b OCount); DDiscard 7; DBegin h87 8 false; DCall 8 (on_b OGetAll)].
Example C87_example :
  map answers (committed (dfresh 100 false) busy) =
    [[Ok VUnit]; [Ok (VBool true)]; [Ok VUnit]; [Ok (VDoc (str "y")); Ok VUnit; Ok (VBool true)]] /\
  map s_seen (committed (dfresh 100 false) busy) = [0; 1; 2; 2]%nat /\
  map answers (j_rest (journal_of (dfresh 100 false) busy)) =
    [[Ok (VBool true); Ok VUnit]; [Ok (VBool true)]; [Ok (VDocs [str "v"] None); Err ErrCollectionNotExists]] /\
  nth 11 (snd (dhist (dfresh 100 false) busy)) ANone = ADone (Err EConflict) /\
  nth 24 (snd (dhist (dfresh 100 false) busy)) ANone = ADone (Err ErrDDLConflict) /\
  forallb (fun d => forallb (fun c => negb (scans c)) (calls d)) (committed (dfresh 100 false) busy) = true.
Proof. vm_compute. repeat split; reflexivity. Qed.
Lemma i64_small z : -1000 <= z <= 1000 -> is_i64 z.
Proof. intros H. unfold is_i64. rewrite two63_val. lia. Qed.
Lemma h87_ok : handle_ok h87 /\ handle_ok h88.
Proof.
  split; intros dbn coll c; unfold resolve, cacheCollectionInfo; cbn [h87 h88 h_val option_map c_val schema87 mc_dbs cache_dbs mget]; rewrite get_set, get_empty;
    (destruct (bytes_eqb dbn (str "db")); [|discriminate]); cbn [di_colls mget]; rewrite !get_set, get_empty; intros H.
  - destruct (bytes_eqb coll (str "b")); [inversion H; apply i64_small; cbn; lia|]. destruct (bytes_eqb coll (str "a")); [inversion H; apply i64_small; cbn; lia | discriminate].
  - destruct (bytes_eqb coll (str "a")); [inversion H; apply i64_small; cbn; lia | discriminate].
Qed.
Lemma busy_ok : history_ok busy.
Proof.
  split.
  - intros h i u H. assert (X : h = h87 \/ h = h88).
    { unfold busy in H. cbn [In] in H. repeat (destruct H as [H|H]; [first [discriminate H | inversion H; auto]|]). destruct H. }
    destruct X as [-> | ->]; apply h87_ok.
  - intros i c H. unfold busy in H. cbn [In] in H.
    repeat (destruct H as [H|H]; [first [discriminate H | inversion H; repeat (apply Forall_cons; [apply i64_small; lia|]); apply Forall_nil]|]). destruct H.
  - intros i c H m dbn coll E. unfold busy in H. cbn [In] in H. subst c.
    repeat (destruct H as [H|H]; [discriminate H|]). destruct H.
  - intros h i c H1 H2. assert (X : i = 3%nat \/ i = 7%nat \/ i = 8%nat).
    { unfold busy in H1. cbn [In] in H1. repeat (destruct H1 as [H1|H1]; [first [discriminate H1 | inversion H1; auto]|]). destruct H1. }
    clear H1. unfold busy in H2. cbn [In] in H2.
    repeat (destruct H2 as [H2|H2]; [first [discriminate H2 | inversion H2; subst; first [reflexivity | exfalso; destruct X as [X|[X|X]]; discriminate X]]|]). destruct H2.
  - intros t io H. exfalso. unfold busy in H. cbn [In] in H. repeat (destruct H as [H|H]; [discriminate H|]). destruct H.
Qed.

(** DeleteAll is not atomic, even when every transaction is a single call: it overlaps the insertion of
    another document, a reader then sees both documents, and DeleteAll removes one of them. No order of
    the four operations explains the answers. *)
Definition sweep : list dev :=
  [DBegin h87 0 true; DCall 0 (on_a (OInsert 1 (str "x"))); DCommit h87 0 false;
   DBegin h87 1 true; DCall 1 (on_a ODeleteAll);
   DBegin h87 2 true; DCall 2 (on_a (OInsert 2 (str "y"))); DCommit h87 2 false;
   DBegin h87 3 false; DCall 3 (on_a (OGetMany [1; 2])); DCommit h87 3 false;
   DCommit h87 1 false].
Fixpoint insert_all {A} (x : A) (l : list A) : list (list A) :=
  match l with [] => [[x]] | y :: l' => (x :: l) :: map (cons y) (insert_all x l') end.
Fixpoint perms {A} (l : list A) : list (list A) :=
  match l with [] => [[]] | x :: l' => flat_map (insert_all x) (perms l') end.
Lemma insert_all_in {A} (x : A) a b : In (a ++ x :: b) (insert_all x (a ++ b)).
Proof.
  induction a as [|y a IH]; cbn [app insert_all].
  - destruct b; left; reflexivity.
  - right. apply in_map. exact IH.
Qed.
Lemma perms_in {A} (l : list A) : forall l', Permutation l' l -> In l' (perms l).
Proof.
  induction l as [|x l IH]; intros l' P; cbn [perms].
  - apply Permutation_sym, Permutation_nil in P. left. congruence.
  - destruct (in_split x l') as (a & b & ->); [apply (Permutation_in x (Permutation_sym P)); left; reflexivity|].
    apply in_flat_map. exists (a ++ b). split; [apply IH; apply Permutation_sym in P; apply Permutation_cons_app_inv in P; apply Permutation_sym; exact P | apply insert_all_in].
Qed.
Theorem C87_delete_all_is_not_atomic_refuted : exists es, history_ok es /\
  (forall d, In d (j_done (journal_of (dfresh 100 false) es) ++ j_rest (journal_of (dfresh 100 false) es)) -> length (calls d) = 1%nat) /\
  (forall a, In a (snd (dhist (dfresh 100 false) es)) -> forall e, a <> AVal (Err e) /\ a <> ADone (Err e)) /\
  forall l, Permutation l (j_done (journal_of (dfresh 100 false) es) ++ j_rest (journal_of (dfresh 100 false) es)) -> ~ replays (fun _ => []) l.
Proof.
  exists sweep. split; [|split; [|split]].
  - split.
    + intros h i u H. assert (X : h = h87).
      { unfold sweep in H. cbn [In] in H. repeat (destruct H as [H|H]; [first [discriminate H | inversion H; auto]|]). destruct H. }
      rewrite X. apply h87_ok.
    + intros i c H. unfold sweep in H. cbn [In] in H.
      repeat (destruct H as [H|H]; [first [discriminate H | inversion H; repeat (apply Forall_cons; [apply i64_small; lia|]); apply Forall_nil]|]). destruct H.
    + intros i c H m dbn coll E. unfold sweep in H. cbn [In] in H. subst c. repeat (destruct H as [H|H]; [discriminate H|]). destruct H.
    + intros h i c H1 H2. assert (X : i = 3%nat).
      { unfold sweep in H1. cbn [In] in H1. repeat (destruct H1 as [H1|H1]; [first [discriminate H1 | inversion H1; auto]|]). destruct H1. }
      clear H1. unfold sweep in H2. cbn [In] in H2.
      repeat (destruct H2 as [H2|H2]; [first [discriminate H2 | inversion H2; subst; first [reflexivity | exfalso; discriminate]]|]). destruct H2.
    + intros t io H. exfalso. unfold sweep in H. cbn [In] in H. repeat (destruct H as [H|H]; [discriminate H|]). destruct H.
  - set (q := j_done _ ++ j_rest _). vm_compute in q. subst q. intros d H. cbn [In] in H.
    repeat (destruct H as [H|H]; [subst d; reflexivity|]). destruct H.
  - set (q := snd _). vm_compute in q. subst q. intros a H e. cbn [In] in H.
    repeat (destruct H as [H|H]; [subst a; split; discriminate|]). destruct H.
  - intros l P. apply perms_in in P. set (q := perms _) in P. vm_compute in q. subst q. cbn [In] in P.
    repeat (destruct P as [P|P]; [subst l; vm_compute; intros (A & B & C & D & _); try discriminate A; try discriminate B; try discriminate C; discriminate D|]). destruct P.
Qed.
Print Assumptions C87_delete_all_is_not_atomic_refuted.
