(** Properties C30, C31: util/util.go. *)
From Verif Require Import Bytes SMap Provider ProviderProofs World KvUtil Numeric UtilTxn.

(** * C30 *)
(** [d0] is the database at the start of the transaction, [d1] the one at commit. [state d k] is what
    a later transaction reads for key k. *)
Definition state (d : db) (k : bytes) : option ent := get (dview d) k.

(** success: the body succeeded and the new state is d1 with exactly the body's writes *)
Theorem C30_success_applies_all_writes : forall {A} (d0 d1 : db) (f : Tx A) lim io d' a,
  run_update d0 d1 f lim io = (d', Ok a) ->
  exists t, f (new_txn d0 true lim) = (t, Ok a) /\
    forall k, get (d_kv d') k = match get (t_pend t) k with Some o => o | None => get (d_kv d1) k end.
Proof.
  intros A d0 d1 f lim io d' a. unfold run_update. destruct (f (new_txn d0 true lim)) as [t [a'|e|]] eqn:E; try discriminate.
  unfold commit. destruct (negb (t_open t)); [discriminate|]. destruct (entries (t_pend t)) eqn:Ep.
  - intros H. inversion H. subst. exists t. split; [reflexivity|]. intros k. apply entries_nil_iff in Ep. rewrite Ep. reflexivity.
  - destruct (conflict d1 t); [discriminate|]. destruct io; [discriminate|]. intros H. inversion H. subst. exists t. split; [reflexivity|].
    intros k. cbn [publish d_kv]. apply get_apply_pend.
Qed.
(** any other outcome: nothing changed *)
Theorem C30_failure_applies_nothing : forall {A} (d0 d1 : db) (f : Tx A) lim io d' r,
  run_update d0 d1 f lim io = (d', r) -> (forall a, r <> Ok a) -> d' = d1.
Proof.
  intros A d0 d1 f lim io d' r. unfold run_update. destruct (f (new_txn d0 true lim)) as [t [a'|e|]] eqn:E; try (intros H; inversion H; reflexivity).
  unfold commit. destruct (negb (t_open t)); [intros H; inversion H; reflexivity|]. destruct (entries (t_pend t)) eqn:Ep.
  - intros H N. inversion H. subst. exfalso. apply (N a'). reflexivity.
  - destruct (conflict d1 t); [intros H; inversion H; reflexivity|]. destruct io; intros H N; inversion H; [reflexivity|].
    subst. exfalso. apply (N a'). reflexivity.
Qed.
(** the body's error is reported as is, and a body that succeeds in an undisturbed transaction with
    no I/O error does commit *)
Theorem C30_undisturbed_transactions_commit : forall {A} (d : db) (f : Tx A) lim t a,
  db_ok d -> f (new_txn d true lim) = (t, Ok a) -> t_open t = true -> t_rts t = d_ts d ->
  exists d', run_update d d f lim false = (d', Ok a).
Proof.
  intros A d f lim t a K E O R. unfold run_update, commit. rewrite E, O. cbn [negb].
  destruct (entries (t_pend t)); [eauto|]. rewrite (no_conflict d t K R). eauto.
Qed.
Theorem C30_body_error_is_reported : forall {A} (d0 d1 : db) (f : Tx A) lim io t e,
  f (new_txn d0 true lim) = (t, Err e) -> run_update d0 d1 f lim io = (d1, Err e).
Proof. intros A d0 d1 f lim io t e E. unfold run_update. rewrite E. reflexivity. Qed.
(** the callback runs exactly when the call succeeds, i.e. when the writes are durable; the two
    variants have the same effect and result as the plain one *)
Theorem C30_callback_iff_committed : forall {A} (d0 d1 : db) (f : Tx A) lim io,
  fst (run_update_callback d0 d1 f lim io) = run_update d0 d1 f lim io /\
  (snd (run_update_callback d0 d1 f lim io) = true <-> exists a, snd (run_update d0 d1 f lim io) = Ok a).
Proof.
  intros A d0 d1 f lim io. unfold run_update_callback, run_update. destruct (f (new_txn d0 true lim)) as [t [a'|e|]].
  - destruct (commit d1 t io) as [[d t'] [x|e|]]; cbn; (split; [reflexivity|]); split; try discriminate; try (intros [a H]; discriminate); eauto.
  - cbn. split; [reflexivity|]. split; [discriminate | intros [a H]; discriminate].
  - cbn. split; [reflexivity|]. split; [discriminate | intros [a H]; discriminate].
Qed.
(** cancel runs exactly when the body succeeded and the commit reported an error *)
Theorem C30_cancel_iff_commit_failed : forall {A} (d0 d1 : db) (f : Tx A) lim io,
  fst (run_update_cancel d0 d1 f lim io) = run_update d0 d1 f lim io /\
  (snd (run_update_cancel d0 d1 f lim io) = true <->
   exists a t e, f (new_txn d0 true lim) = (t, Ok a) /\ snd (run_update d0 d1 f lim io) = Err e).
Proof.
  intros A d0 d1 f lim io. unfold run_update_cancel, run_update. destruct (f (new_txn d0 true lim)) as [t [a'|e|]].
  - destruct (commit d1 t io) as [[d t'] [x|e|]]; cbn; (split; [reflexivity|]); split; try discriminate; try (intros (a & t0 & e0 & _ & H); discriminate); try (intros _; reflexivity).
    intros _. exists a', t, e. auto.
  - cbn. split; [reflexivity|]. split; [discriminate | intros (a & t0 & e0 & H & _); discriminate].
  - cbn. split; [reflexivity|]. split; [discriminate | intros (a & t0 & e0 & H & _); discriminate].
Qed.
(** serialisability: if the commit succeeds, nothing the body read has changed since it began *)
Theorem C30_committed_reads_are_current : forall {A} (d0 d1 : db) (f : Tx A) lim io d' a t,
  f (new_txn d0 true lim) = (t, Ok a) -> tx_ok d1 t -> entries (t_pend t) <> [] ->
  run_update d0 d1 f lim io = (d', Ok a) -> forall k, In k (t_reads t) -> get (d_kv d1) k = get (t_snap t) k.
Proof.
  intros A d0 d1 f lim io d' a t E T N. unfold run_update. rewrite E. unfold commit. destruct (negb (t_open t)); [discriminate|].
  destruct (entries (t_pend t)); [congruence|]. destruct (conflict d1 t) eqn:C; [discriminate|]. intros _ k Hk. eapply conflict_free; eassumption.
Qed.
(** a read-only transaction leaves the database alone by construction (run_view returns no database)
    and refuses writes *)
Theorem C30_view_refuses_writes : forall d k v, run_view d (tset k v) = Err EReadOnlyTxn /\ run_view d (tdel k) = Err EReadOnlyTxn.
Proof. intros d k v. split; reflexivity. Qed.
Lemma ChooseTime_bounds : forall base mx, ChooseTime base mx <= mx /\ (0 < base -> base <= mx -> ChooseTime base mx = base).
Proof. intros b m. unfold ChooseTime. destruct (b =? 0) eqn:E1, (m <? b) eqn:E2; cbn [orb]; lia. Qed.
Example C30_example :
  let d := db_init 0 false in
  match run_update d d (tset (str "a") (str "1") ;;; IncInt64 (str "n") 2) [] false with
  | (d', Ok 2) => get (d_kv d') (str "a") = Some (mk (str "1")) /\ get (d_kv d') (str "n") = Some (mk (str "2"))
  | _ => False
  end /\ run_update d d (tset (str "a") (str "1") ;;; tset [] (str "2")) [] false = (d, Err EEmptyKey)
  /\ snd (run_update_cancel d d (tset (str "a") (str "1")) [] true) = true.
Proof. vm_compute. auto. Qed.

(** * C31 *)
(** an operation that either hits the size limit without any effect, or acts as [F] on the map the
    transaction sees: every single write does *)
Definition all_or_nothing {A} (f : Tx A) (F : smap ent -> result A * smap ent) : Prop :=
  forall t, t_open t = true -> t_upd t = true -> exists t' r, f t = (t', r) /\ keeps t t' /\ t_open t' = true /\
    ((r = Err ErrTxnTooBig /\ view t' = view t) \/ (r <> Err ErrTxnTooBig /\ (r, view t') = F (view t))).
Theorem C31_single_writes_are_all_or_nothing : forall k v, good_key k ->
  all_or_nothing (tset k v) (fun M => (Ok tt, set M k (mk v))) /\ all_or_nothing (tdel k) (fun M => (Ok tt, del M k)).
Proof.
  intros k v G. split; intros t O U.
  - unfold tset, tsetm, map_err, modify. rewrite U, O, G. cbn [negb]. destruct (t_lim t) as [|[] l].
    + eexists _, _. split; [reflexivity|]. split; [repeat split|]. split; [exact O|]. right. split; [discriminate|]. rewrite view_put. cbn [entry_of]. rewrite live_mk. reflexivity.
    + eexists _, _. split; [reflexivity|]. split; [repeat split|]. split; [exact O|]. left. split; [reflexivity | apply view_set_lim].
    + eexists _, _. split; [reflexivity|]. split; [repeat split|]. split; [exact O|]. right. split; [discriminate|]. rewrite view_put. cbn [entry_of]. rewrite live_mk. reflexivity.
  - unfold tdel, map_err, modify. rewrite U, O, G. cbn [negb]. destruct (t_lim t) as [|[] l].
    + eexists _, _. split; [reflexivity|]. split; [repeat split|]. split; [exact O|]. right. split; [discriminate|]. rewrite view_put. reflexivity.
    + eexists _, _. split; [reflexivity|]. split; [repeat split|]. split; [exact O|]. left. split; [reflexivity | apply view_set_lim].
    + eexists _, _. split; [reflexivity|]. split; [repeat split|]. split; [exact O|]. right. split; [discriminate|]. rewrite view_put. reflexivity.
Qed.
(** for such operations: unless the size limit was hit 100 times or an intermediate commit failed, the
    returned transaction sees everything written before plus the operation exactly once; otherwise
    nothing of the operation happened. [t] is an open update transaction on [d]. *)
Definition on_db (d : db) (t : txn) : Prop :=
  t_open t = true /\ t_upd t = true /\ t_rts t = d_ts d /\ t_snap t = d_kv d /\ t_now t = d_now d.
Theorem C31_retry_loses_and_duplicates_nothing_partial : forall {A} (f : Tx A) F env d t,
  all_or_nothing f F -> db_ok d -> on_db d t ->
  forall d' t' r, TryCommitWhenTxnTooBig env f d t = (d', t', r) ->
  (on_db d' t' /\ db_ok d' /\ (r, view t') = F (view t) /\ r <> Err ErrTxnTooBig) \/
  (on_db d' t' /\ db_ok d' /\ r = Err ErrTxnTooBig /\ view t' = view t) \/
  (r = Err EIO /\ (d' = d \/ dview d' = view t)).
Proof.
  intros A f F env d t AN. unfold TryCommitWhenTxnTooBig. generalize (maxTry - 1)%nat as n. intros n. revert env d t.
  induction n as [|n IH]; intros env d t K (O & U & R & S & N) d' t' r; cbn [try_loop];
    destruct (AN t O U) as (t1 & r1 & E & (K1 & K2 & K3 & K4 & K5) & O1 & H); rewrite E;
    assert (On : on_db d t1) by (split; [exact O1|]; split; [congruence|]; split; [congruence|]; split; congruence).
  - assert (X : (match r1 with Err ErrTxnTooBig => (d, t1, Err ErrTxnTooBig) | _ => (d, t1, r1) end) = (d, t1, r1)) by (destruct r1 as [a|e|]; try reflexivity; destruct e; reflexivity).
    rewrite X. intros Q. inversion Q. subst d' t' r. destruct H as [[-> V]|[Nr HF]].
    + right. left. auto.
    + left. auto.
  - destruct H as [[-> V]|[Nr HF]].
    + destruct (match env with [] => (false, [], []) | (io, lim) :: e => (io, lim, e) end) as [[io lim] env'].
      destruct On as (_ & U1 & R1 & S1 & N1).
      destruct (commit_solo d t1 io K O1 R1 S1 N1) as [(d1 & t2 & Ec & Ev & Kd & Nd & Cd)|(t2 & Ec & Hio & _)]; rewrite Ec.
      * intros Q. specialize (IH env' d1 (new_txn d1 true lim) Kd).
        assert (On1 : on_db d1 (new_txn d1 true lim)) by (repeat split). specialize (IH On1 d' t' r Q).
        rewrite view_new in IH. rewrite Ev, V in IH. destruct IH as [H|[H|(H1 & [H2|H2])]]; [left; exact H | right; left; exact H | right; right..].
        -- split; [exact H1|]. right. rewrite H2. unfold dview. rewrite Ev. exact V.
        -- split; [exact H1|]. right. exact H2.
      * intros Q. inversion Q. subst. right. right. auto.
    + intros Q. assert (Q2 : (d, t1, r1) = (d', t', r)) by (destruct r1 as [a|e|]; try exact Q; destruct e; try exact Q; congruence).
      inversion Q2. subst d' t' r. left. auto.
Qed.
Example C31_hypotheses : let d := db_init 0 false in
  all_or_nothing (tset (str "a") (str "1")) (fun M => (Ok tt, set M (str "a") (mk (str "1")))) /\
  on_db d (new_txn d true [true]) /\
  (let '(d', t', r) := TryCommitWhenTxnTooBig [(false, [true])] (tset (str "a") (str "1")) d (new_txn d true [true]) in r = Ok tt /\ get (view t') (str "a") = Some (mk (str "1"))).
Proof. split; [apply C31_single_writes_are_all_or_nothing; reflexivity|]. split; [repeat split|]. vm_compute. auto. Qed.
(** the full claim (any operation) fails: an operation of two writes that hits the limit at the second
    one is half committed and then run again - here a counter is incremented twice *)
Theorem C31_multi_write_operation_runs_twice_refuted :
  let d := db_init 0 false in
  let f := (n <- IncInt64 (str "n") 1 ;; tset (str "a") (str "x") ;;; ret n) in
  let '(_, t, r) := TryCommitWhenTxnTooBig [] f d (new_txn d true [false; true]) in
  r = Ok 2 /\ get (view t) (str "n") = Some (mk (str "2")).
Proof. vm_compute. auto. Qed.

Print Assumptions C30_success_applies_all_writes.
Print Assumptions C30_failure_applies_nothing.
Print Assumptions C30_undisturbed_transactions_commit.
Print Assumptions C30_callback_iff_committed.
Print Assumptions C30_cancel_iff_commit_failed.
Print Assumptions C30_committed_reads_are_current.
Print Assumptions C31_single_writes_are_all_or_nothing.
Print Assumptions C31_retry_loses_and_duplicates_nothing_partial.
Print Assumptions C31_multi_write_operation_runs_twice_refuted.
