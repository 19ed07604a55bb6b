(** Property C85: transactions that do not scan are serializable, in the order of their commits. *)
From Coq Require Import Permutation.
From Verif Require Import Bytes SMap Provider ProviderProofs World Serial SerialProofs.

(** Any history of concurrent transactions, with conflicts, failed commits, size limits: if the
    transactions that committed writes did not scan, running just these one after the other, in
    the order of their commits, gives every one of them the very answers it got, and leaves the
    same database. (Either no entry has a lifetime, or the clock stands still.) *)
Theorem C85_history_is_serial : forall now clamp es, no_ttl es \/ no_tick es ->
  let w0 := fresh_db now clamp in
  let l := committed w0 es in
  (forall r, In r l -> forallb (fun c => negb (scans c)) (calls r) = true) ->
  committed w0 (serial l) = l /\
  forall k, get (d_kv (w_db (fst (run w0 (serial l))))) k = get (d_kv (w_db (fst (run w0 es)))) k.
Proof.
  intros now clamp es T w0 l NS. pose proof (inv_run now clamp es T NS) as I. split.
  - unfold committed at 1. pose proof (i_ser _ _ _ I) as S. fold w0 in S. fold l in S. rewrite S. reflexivity.
  - intros k. pose proof (i_kv _ _ _ I) as S. fold w0 in S. fold l in S. rewrite S. reflexivity.
Qed.
Print Assumptions C85_history_is_serial.

(** Every transaction, finished or not, read-only or refused at Commit, scanning or not: it got the
    answers it would have got alone, right after the transactions committed before it began. *)
Lemma outs_alone w u lim cs : outs_of 0 (alone u lim cs) (snd (run w (alone u lim cs))) = snd (execs cs (new_txn (w_db w) u lim)).
Proof.
  unfold alone. cbn [run step]. set (w1 := World (w_db w) (upd_tx (w_tx w) 0 (new_txn (w_db w) u lim))).
  destruct (run_do 0 cs w1 (new_txn (w_db w) u lim) eq_refl) as [R1 _]. rewrite R1. cbn [snd outs_of].
  generalize (execs_keeps cs (new_txn (w_db w) u lim) _ _ (surjective_pairing _)). intros (_ & _ & _ & L). revert L.
  generalize (snd (execs cs (new_txn (w_db w) u lim))). clear.
  induction cs as [|c cs IH]; intros [|r rs] L; cbn [map outs_of] in *; try discriminate L; [reflexivity|].
  cbn [Nat.eqb]. f_equal. apply IH. cbn in L. lia.
Qed.
Lemma cmds_plain i es0 es1 : no_ttl (es0 ++ es1) -> Forall plain (cmds_of i es1).
Proof.
  intros H. assert (G : forall i k v m, In (Do i (CSet k v m)) es1 -> m = None).
  { intros j k v m Hin. apply (H j k v m), in_or_app. right. exact Hin. }
  clear H. induction es1 as [|e es1 IH]; [constructor|].
  assert (IH' : Forall plain (cmds_of i es1)) by (apply IH; intros j k v m Hin; apply (G j k v m); right; exact Hin).
  destruct e as [j u lim|j c|j io|j|n]; cbn [cmds_of]; try exact IH'. destruct (Nat.eqb j i); [|exact IH'].
  constructor; [|exact IH']. destruct c as [k v m| | | |]; cbn; auto. apply (G j k v m). left. reflexivity.
Qed.
Theorem C85_every_transaction_reads_a_serial_state : forall now clamp es0 i u lim es1,
  no_ttl (es0 ++ Begin i u lim :: es1) \/ no_tick (es0 ++ Begin i u lim :: es1) ->
  forallb (fun e => negb (ends i e)) es1 = true ->
  let w0 := fresh_db now clamp in
  let l := committed w0 es0 in
  (forall r, In r l -> forallb (fun c => negb (scans c)) (calls r) = true) ->
  let w := fst (run w0 es0) in
  let w1 := fst (step w (Begin i u lim)) in
  let before := fst (run w0 (serial l)) in
  outs_of i es1 (snd (run w1 es1)) =
  outs_of 0 (alone u lim (cmds_of i es1)) (snd (run before (alone u lim (cmds_of i es1)))).
Proof.
  intros now clamp es0 i u lim es1 T N w0 l NS w w1 before.
  assert (T0 : no_ttl es0 \/ no_tick es0).
  { destruct T as [T|T]; [left | right].
    - intros j k v m Hin. apply (T j k v m), in_or_app. left. exact Hin.
    - intros n Hin. apply (T n), in_or_app. left. exact Hin. }
  pose proof (inv_run now clamp es0 T0 NS) as I.
  destruct (run_snapshot i es1 w1 (new_txn (w_db w) u lim)) as (t' & _ & _ & H & _ & _); [|reflexivity|exact N|].
  { unfold w1. cbn. unfold upd_tx. rewrite Nat.eqb_refl. reflexivity. }
  rewrite H, outs_alone.
  assert (R : forall cs t, t_open t = true -> snd (ref_run (t_upd t) (t_clamp t) (t_now t) (view t, t_lim t) cs) = snd (execs cs t)).
  { clear. induction cs as [|c cs IH]; intros t O; cbn [ref_run execs]; [reflexivity|].
    destruct (exec_ref c t O) as (t1 & E1 & E2 & E3 & E4 & (K1 & K2 & K3 & K4 & K5)). rewrite E1.
    destruct (ref_op (t_upd t) (t_clamp t) (t_now t) (view t, t_lim t) c) as [[M lm] r]. cbn [fst snd] in *.
    specialize (IH t1 E4). rewrite K3, K4, K5, E2, E3 in IH. destruct (ref_run _ _ _ (M, lm) cs) as [s2 rs].
    destruct (execs cs t1) as [t2 rs2]. cbn [snd] in *. f_equal. exact IH. }
  rewrite R by reflexivity.
  pose proof (i_kv _ _ _ I) as KV. pose proof (i_snow _ _ _ I) as SN. pose proof (i_sclamp _ _ _ I) as SC.
  pose proof (i_clamp _ _ _ I) as CC. pose proof (i_now _ _ _ I) as NN. pose proof (i_eternal _ _ _ I) as ET.
  fold w0 in KV, SN, SC, CC, NN, ET. fold l in KV, SN, SC. fold before in KV, SN, SC. fold w in KV, CC, NN, ET.
  apply execs_same_view; try reflexivity.
  - cbn [new_txn t_clamp]. congruence.
  - destruct T as [T|T].
    + right. apply (cmds_plain i (es0 ++ [Begin i u lim])). rewrite <- app_assoc. exact T.
    + left. cbn [new_txn t_now]. rewrite SN. apply NN. intros n Hin. apply (T n), in_or_app. left. exact Hin.
  - rewrite !view_new, KV. destruct T as [T|T].
    + assert (E : eternal (d_kv (w_db w))) by (apply ET; intros j k v m Hin; apply (T j k v m), in_or_app; left; exact Hin).
      apply smap_ext. intros k. unfold live_map. rewrite !get_sfilter. destruct (get (d_kv (w_db w)) k) as [e|] eqn:G; [|reflexivity].
      cbn [snd]. rewrite !live_eternal by (eapply E; exact G). reflexivity.
    + assert (Q : d_now (w_db before) = d_now (w_db w)).
      { rewrite SN. symmetry. apply NN. intros n Hin. apply (T n), in_or_app. left. exact Hin. }
      rewrite Q. reflexivity.
Qed.
Print Assumptions C85_every_transaction_reads_a_serial_state.

(** Without scans write skew is refused; and the serial order is that of the commits, not of the
    begins: 2 commits before 1. *)
Definition skew : list ev :=
  [Begin 9 true []; Do 9 (CSet (str "x") (str "1") None); Do 9 (CSet (str "y") (str "1") None); Commit 9 false;
   Begin 1 true []; Begin 2 true [true]; Begin 3 false [];
   Do 1 (CGet (str "x")); Do 2 (CGet (str "y")); Do 2 (CSet (str "x") (str "0") None); Do 2 (CDel (str "y"));
   Do 1 (CExists (str "z")); Do 1 (CSet (str "z") (str "5") None);
   Commit 2 false; Do 3 (CScan (ScanOpt false [] []) None); Commit 1 false; Tick 7;
   Begin 4 true []; Begin 5 true [];
   Do 4 (CGet (str "x")); Do 5 (CGet (str "z"));
   Do 4 (CSet (str "z") (str "0") None); Do 5 (CSet (str "x") (str "0") None);
   Commit 4 false; Commit 5 false].
Lemma skew_no_ttl : no_ttl skew.
Proof.
  intros i k v m H. unfold skew in H. cbn [In] in H.
  repeat (destruct H as [H|H]; [try discriminate H; inversion H; reflexivity|]). destruct H.
Qed.
Example C85_example :
  (no_ttl skew /\ forallb (fun r => forallb (fun c => negb (scans c)) (calls r)) (committed (fresh_db 100 true) skew) = true) /\
  map calls (committed (fresh_db 100 true) skew) =
   [[CSet (str "x") (str "1") None; CSet (str "y") (str "1") None];
    [CGet (str "y"); CSet (str "x") (str "0") None; CDel (str "y")];
    [CGet (str "x"); CExists (str "z"); CSet (str "z") (str "5") None];
    [CGet (str "x"); CSet (str "z") (str "0") None]] /\
  last (snd (run (fresh_db 100 true) skew)) None = Some (Err EConflict).
Proof. split; [split; [exact skew_no_ttl | vm_compute; reflexivity]|]. vm_compute. split; reflexivity. Qed.

(** Transactions that scan are not serializable: the keys two scans missed may both be created. No
    order of the two transactions gives these answers. *)
Definition phantom : list ev :=
  [Begin 1 true []; Begin 2 true [];
   Do 1 (CScan (ScanOpt false (str "p") []) None); Do 2 (CScan (ScanOpt false (str "p") []) None);
   Do 1 (CSet (str "p1") (str "x") None); Do 2 (CSet (str "p2") (str "y") None);
   Commit 1 false; Commit 2 false].
Theorem C85_scanning_transactions_are_not_serializable : exists es, no_ttl es /\ no_tick es /\
  forall l, Permutation l (committed (fresh_db 100 false) es) -> committed (fresh_db 100 false) (serial l) <> l.
Proof.
  exists phantom. split; [|split].
  - intros i k v m H. unfold phantom in H. cbn [In] in H.
    repeat (destruct H as [H|H]; [try discriminate H; inversion H; reflexivity|]). destruct H.
  - intros n H. unfold phantom in H. cbn [In] in H. repeat (destruct H as [H|H]; [discriminate H|]). destruct H.
  - intros l P. set (x := committed (fresh_db 100 false) phantom) in P. vm_compute in x. subst x.
    apply Permutation_sym, Permutation_length_2_inv in P. destruct P as [->| ->]; vm_compute; discriminate.
Qed.
Print Assumptions C85_scanning_transactions_are_not_serializable.
