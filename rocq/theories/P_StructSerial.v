(** Property C88: strings, hashes and lists under concurrent transactions. *)
From Coq Require Import Permutation.
From Verif Require Import Bytes SMap Provider World UtilTxn Struct StructProofs StructRef StructSerial StructSerialProofs.

(** Any number of clients, any interleaving, with conflicts, failing writes and other users of the
    database: all transactions whose Commit returned nil can be put in one order that respects real
    time, in which they get the answers of plain strings, maps and lists, one whole transaction after
    the other; every other transaction (refused, discarded, under way) got the answers of one moment of
    that order and left no trace; and the order explains what is stored at the end.
    Condition: a committed transaction that lists the fields of a hash (HKeys, HGetN, HGetAll,
    HGetNDesc) only reads. HClear and HLen need no condition. *)
Theorem C88_concurrent_transactions_are_strictly_serializable : forall P now clamp es,
  good_prefix P -> history_ok P es ->
  let w0 := sfresh now clamp in
  let J := journal_of P w0 es in
  (forall d, In d (committed P w0 es) -> existsb lists_fields (calls d) = true -> forallb is_read (calls d) = true) ->
  exists l, Permutation l (committed P w0 es) /\ replays s_empty l /\ real_time l /\
    (forall d, (exists i, find_tx i (j_open J) = Some d) \/ In d (j_rest J ++ j_done J) -> one_moment l d) /\
    (forall o, is_read o = true -> sok o -> run_view (sw_db (fst (shist P w0 es))) (sexec P o) = fst (sref (after l) o)).
Proof.
  intros P now clamp es G H w0 J NS. destruct (winv_run P G now clamp es H NS) as (l & V). exists l.
  split; [apply (v_perm _ _ _ _ _ V)|]. split; [apply (v_replays _ _ _ _ _ V)|]. split; [apply (v_rt _ _ _ _ _ V)|]. split.
  - intros d [(i & F)|Hd]; [|apply (v_told _ _ _ _ _ V d Hd)]. pose proof (v_open _ _ _ _ _ V i) as O.
    pose proof (open_cost P _ _ _ _ _ _ V (ok_cost _ _ H) F) as L.
    change (find_tx i (j_open (journal_of P w0 es)) = Some d) in F. fold w0 in O. rewrite F in O. destruct (sw_tx (fst (shist P w0 es)) i) as [t|]; [|destruct O].
    apply (origin_state P es l i d t G O L).
  - intros o R K. destruct (sread_sim P (after l) o R K) as [Sp _].
    apply (UtilTxn.run_view_spec _ _ _ (dview (sw_db (fst (shist P w0 es))))). apply (Sp false (lcost l)).
    + rewrite DocSerialProofs.dview_eternal by apply (v_et _ _ _ _ _ V). apply (v_rep _ _ _ _ _ V).
    + pose proof (v_cost _ _ _ _ _ V) as C. pose proof (ok_cost _ _ H) as T. pose proof (lcost_nonneg (map snd (j_open (journal_of P w0 es)))) as N.
      fold (ocost (j_open (journal_of P w0 es))) in N. fold w0 in C. lia.
Qed.
Print Assumptions C88_concurrent_transactions_are_strictly_serializable.

(** A history: 1 and 2 push on the same list and only the first to commit succeeds; 3 clears a hash
    while 4 adds a field, and is refused; 5 reads meanwhile; 6 sets a field to the value it has, so it
    writes nothing and commits although the field changed meanwhile: it stands before 7 in the order. *)
Definition q88 : bytes := str "p".
Definition work : list sev :=
  [SBegin 0 true; SCall 0 (OHSet (str "h") (str "a") (str "1")); SCall 0 (ORPush (str "l") [str "x"; str "y"]); SCall 0 (OInc (str "n") 5); SCommit 0 false;
   SBegin 1 true; SBegin 2 true; SCall 1 (OLPop (str "l")); SCall 2 (ORPush (str "l") [str "z"]); SCommit 1 false; SCommit 2 false;
   SBegin 3 true; SBegin 4 true; SBegin 5 false; SCall 5 (OHGetAll (str "h"));
   SCall 3 (OHClear (str "h")); SCall 4 (OHSet (str "h") (str "b") (str "2")); SCommit 4 false; STick 3; SCommit 3 false;
   SCall 5 (OHKeys (str "h")); SCommit 5 false;
   SBegin 6 true; SBegin 7 true; SCall 6 (OHSet (str "h") (str "a") (str "1")); SCall 6 (OInc (str "h") 1); SDiscard 6;
   SBegin 6 true; SCall 6 (OHSet (str "h") (str "a") (str "1")); SCall 7 (OHInc (str "h") (str "a") 41); SCall 7 (OHClear (str "g"));
   SCommit 7 false; SCommit 6 false; SBegin 8 true; SCall 8 (OHLen (str "h")); SCall 8 (OLGetAll (str "l")); SCall 8 (OHDel (str "h") [str "b"])].
Lemma work_ok : history_ok q88 work.
Proof.
  split.
  - intros i o H. cbn in H. repeat (destruct H as [H|H]; [inversion H; subst; cbn; try exact Logic.I; unfold is_i64; rewrite two63_val; lia|]). destruct H.
  - intros i o H1 H2. cbn in H1. repeat (destruct H1 as [H1|H1]; [inversion H1; subst; clear H1; cbn in H2; repeat (destruct H2 as [H2|H2]; [inversion H2; subst; reflexivity|]); destruct H2|]). destruct H1.
  - intros t io H. cbn in H. repeat (destruct H as [H|H]; [discriminate H|]). destruct H.
  - reflexivity.
Qed.
Example C88_example :
  good_prefix q88 /\ history_ok q88 work /\
  map (fun d => (s_begin d, s_end d, answers d)) (committed q88 (sfresh 100 false) work) =
    [(0, 4, [Ok VUnit; Ok VUnit; Ok (VInt 5)]); (5, 9, [Ok (VBytes (str "x"))]); (12, 17, [Ok VUnit]);
     (13, 21, [Ok (VPairs [(str "a", str "1")]); Ok (VList [str "a"])]); (23, 31, [Ok (VInt 42); Ok VUnit]); (27, 32, [Ok VUnit])]%nat /\
  map answers (j_rest (journal_of q88 (sfresh 100 false) work)) = [[Ok VUnit]; [Ok VUnit]; [Ok VUnit; Ok (VInt 1)]] /\
  option_map answers (find_tx 8 (j_open (journal_of q88 (sfresh 100 false) work))) = Some [Ok (VInt 2); Ok (VList [str "y"]); Ok VUnit] /\
  forallb (fun d => implb (existsb lists_fields (calls d)) (forallb is_read (calls d))) (committed q88 (sfresh 100 false) work) = true.
Proof. split; [cbn; discriminate|]. split; [exact work_ok|]. vm_compute. repeat split. Qed.

(** The condition is needed: two transactions each find a hash without fields and put a field in the
    other hash; both commit, and in every order one of them should have seen the other's field. *)
Definition skew : list sev :=
  [SBegin 1 true; SBegin 2 true; SCall 1 (OHKeys (str "g")); SCall 2 (OHKeys (str "h"));
   SCall 1 (OHSet (str "h") (str "a") (str "1")); SCall 2 (OHSet (str "g") (str "b") (str "1")); SCommit 1 false; SCommit 2 false].
Theorem C88_listing_fields_is_not_serializable_refuted : exists es, history_ok q88 es /\
  length (committed q88 (sfresh 100 false) es) = 2%nat /\
  forall l, Permutation l (committed q88 (sfresh 100 false) es) -> ~ replays s_empty l.
Proof.
  exists skew. split; [|split; [vm_compute; reflexivity|]].
  - split.
    + intros i o H. cbn in H. repeat (destruct H as [H|H]; [inversion H; subst; exact Logic.I|]). destruct H.
    + intros i o H1 H2. cbn in H1. repeat (destruct H1 as [H1|H1]; [discriminate H1|]). destruct H1.
    + intros t io H. cbn in H. repeat (destruct H as [H|H]; [discriminate H|]). destruct H.
    + reflexivity.
  - intros l Q. set (q := committed _ _ _) in Q. vm_compute in q. subst q.
    apply Permutation_sym, Permutation_length_2_inv in Q. destruct Q as [-> | ->]; vm_compute; intros (A & B & _); first [discriminate A | discriminate B].
Qed.
Print Assumptions C88_listing_fields_is_not_serializable_refuted.
(** With HLen in place of HKeys the second of them is refused. *)
Example C88_length_is_safe :
  nth 7 (snd (shist q88 (sfresh 100 false) (map (fun e => match e with SCall i (OHKeys k) => SCall i (OHLen k) | _ => e end) skew))) ANone = ADone (Err EConflict).
Proof. vm_compute. reflexivity. Qed.
