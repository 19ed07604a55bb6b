(** Model of /repo/util/util.go (transaction helpers) and the facts the upper layers use. *)
From Verif Require Import Bytes SMap Provider ProviderProofs World.

(** * Model *)
(** RunInNewUpdateTxn, util/util.go:70-81. [d0] is the database when the transaction is created,
    [d1] the database when it is committed (other transactions may have committed in between),
    [lim]/[io] the environment's choices for size checks and I/O failures. A panic of the body runs
    the deferred Discard and propagates. *)
Definition run_update {A} (d0 d1 : db) (f : Tx A) (lim : list bool) (io : bool) : db * result A :=
  match f (new_txn d0 true lim) with
  | (_, Err e) => (d1, Err e)
  | (_, Panic) => (d1, Panic)
  | (t, Ok a) => let '(d, _, r) := commit d1 t io in
                 (d, match r with Ok _ => Ok a | Err e => Err e | Panic => Panic end)
  end.
(** RunInNewUpdateTxnWithCallback, util/util.go:53-67: also whether the callback ran *)
Definition run_update_callback {A} (d0 d1 : db) (f : Tx A) (lim : list bool) (io : bool) : db * result A * bool :=
  match f (new_txn d0 true lim) with
  | (_, Err e) => (d1, Err e, false)
  | (_, Panic) => (d1, Panic, false)
  | (t, Ok a) => let '(d, _, r) := commit d1 t io in
                 match r with
                 | Ok _ => (d, Ok a, true)
                 | Err e => (d, Err e, false)
                 | Panic => (d, Panic, false)
                 end
  end.
(** RunInNewUpdateTxnWithCancel, util/util.go:36-50: also whether the cancel function ran *)
Definition run_update_cancel {A} (d0 d1 : db) (f : Tx A) (lim : list bool) (io : bool) : db * result A * bool :=
  match f (new_txn d0 true lim) with
  | (_, Err e) => (d1, Err e, false)
  | (_, Panic) => (d1, Panic, false)
  | (t, Ok a) => let '(d, _, r) := commit d1 t io in
                 match r with
                 | Ok _ => (d, Ok a, false)
                 | Err e => (d, Err e, true)
                 | Panic => (d, Panic, false)
                 end
  end.
(** RunInNewTxn, util/util.go:84-91 *)
Definition run_view {A} (d : db) (f : Tx A) : result A := snd (f (new_txn d false [])).
(** ChooseTime, util/util.go:94-99 *)
Definition ChooseTime (base mx : Z) : Z := if (base =? 0) || (mx <? base) then mx else base.

(** TryCommitWhenTxnTooBig, util/util.go:15-33: [env] gives, for each retry, the I/O outcome of the
    commit and the size limits of the next transaction (no more entries: no I/O error, no limit).
    Simplification: no other transaction commits meanwhile. *)
Definition maxTry : nat := 100.
Fixpoint try_loop {A} (n : nat) (env : list (bool * list bool)) (f : Tx A) (d : db) (t : txn) : db * txn * result A :=
  match f t with
  | (t', Err ErrTxnTooBig) =>
      match n with
      | O => (d, t', Err ErrTxnTooBig)
      | S n' =>
          let '(io, lim, env') := match env with [] => (false, [], []) | (io, lim) :: e => (io, lim, e) end in
          match commit d t' io with
          | (d1, _, Ok _) => try_loop n' env' f d1 (new_txn d1 true lim)
          | (d1, t1, Err e) => (d1, t1, Err e)
          | (d1, t1, Panic) => (d1, t1, Panic)
          end
      end
  | (t', r) => (d, t', r)
  end.
Definition TryCommitWhenTxnTooBig {A} (env : list (bool * list bool)) (f : Tx A) (d : db) (t : txn) :=
  try_loop (maxTry - 1) env f d t.

(** * Facts *)
(** commit timestamps of keys never exceed the database's *)
Definition db_ok (d : db) : Prop := forall k ts, get (d_last d) k = Some ts -> (ts <= d_ts d)%nat.
Lemma db_ok_init now clamp : db_ok (db_init now clamp).
Proof. intros k ts. discriminate. Qed.
Lemma db_ok_publish d t : db_ok d -> db_ok (publish d t).
Proof.
  intros H k ts. cbn [publish d_last d_ts]. rewrite get_last_fold. destruct (existsb _ _).
  - intros E. inversion E. lia.
  - intros E. apply H in E. lia.
Qed.
Lemma no_conflict d t : db_ok d -> t_rts t = d_ts d -> conflict d t = false.
Proof.
  intros H E. unfold conflict. apply not_true_iff_false. intros X. apply existsb_exists in X. destruct X as (k & _ & X).
  destruct (get (d_last d) k) as [ts|] eqn:G; [|discriminate]. apply H in G. apply Nat.ltb_lt in X. lia.
Qed.
Lemma apply_pend_nil m (p : smap (option ent)) : entries p = [] -> apply_pend m p = m.
Proof.
  intros H. apply smap_ext. intros k. rewrite get_apply_pend. apply entries_nil_iff in H. subst p. reflexivity.
Qed.
(** what a committed transaction leaves: its own view *)
Lemma commit_solo d t io : db_ok d -> t_open t = true -> t_rts t = d_ts d -> t_snap t = d_kv d -> t_now t = d_now d ->
  (exists d' t', commit d t io = (d', t', Ok tt) /\ live_map (d_kv d') (d_now d') = view t /\ db_ok d' /\ d_now d' = d_now d /\ d_clamp d' = d_clamp d)
  \/ (exists t', commit d t io = (d, t', Err EIO) /\ io = true /\ entries (t_pend t) <> []).
Proof.
  intros K O R S N. unfold commit. rewrite O. cbn [negb]. destruct (entries (t_pend t)) as [|p l] eqn:E.
  - left. exists d, (close t). split; [reflexivity|]. split; [|auto]. unfold view, live_map.
    rewrite S, N, (apply_pend_nil _ _ E). reflexivity.
  - rewrite (no_conflict d t K R). destruct io.
    + right. exists (close t). split; [reflexivity|]. split; [reflexivity | discriminate].
    + left. exists (publish d t), (close t). split; [reflexivity|]. cbn [publish d_now d_kv d_clamp]. split; [|split; [apply db_ok_publish; exact K | auto]].
      unfold view, live_map. rewrite S, N. reflexivity.
Qed.
(** one undisturbed update transaction whose body meets [spec] *)
Definition dview (d : db) : smap ent := live_map (d_kv d) (d_now d).
Lemma view_new_dview d u lim : view (new_txn d u lim) = dview d.
Proof. apply view_new. Qed.
Lemma okt_new d w lim : (w = true -> lim = []) -> okt w (new_txn d w lim).
Proof. intros H. split; [reflexivity|]. intros E. split; [exact E | apply H; exact E]. Qed.
Lemma run_update_solo {A} d (f : Tx A) r M' io : db_ok d -> spec true f (dview d) r M' ->
  exists d', db_ok d' /\ d_now d' = d_now d /\ d_clamp d' = d_clamp d /\
    ((run_update d d f [] io = (d', r) /\ dview d' = (match r with Ok _ => M' | _ => dview d end)) \/
     (run_update d d f [] io = (d, Err EIO) /\ d' = d /\ io = true /\ exists a, r = Ok a)).
Proof.
  intros K H. destruct (H (new_txn d true [])) as (t & E & (O & _) & V & (K1 & K2 & K3 & K4 & K5)).
  { apply okt_new. reflexivity. } { apply view_new. }
  unfold run_update. rewrite E. destruct r as [a|e|].
  - destruct (commit_solo d t io K O) as [(d' & t' & Ec & Ev & Kd & N1 & N2)|(t' & Ec & Hio & _)]; try (cbn in *; congruence).
    + exists d'. split; [exact Kd|]. split; [exact N1|]. split; [exact N2|]. left. rewrite Ec. split; [reflexivity|]. unfold dview. rewrite Ev. exact V.
    + exists d. split; [exact K|]. split; [reflexivity|]. split; [reflexivity|]. right. rewrite Ec. split; [reflexivity|]. split; [reflexivity|].
      split; [exact Hio | eauto].
  - exists d. split; [exact K|]. split; [reflexivity|]. split; [reflexivity|]. left. split; reflexivity.
  - exists d. split; [exact K|]. split; [reflexivity|]. split; [reflexivity|]. left. split; reflexivity.
Qed.
Lemma run_update_ok {A} d (f : Tx A) a M' : db_ok d -> spec true f (dview d) (Ok a) M' ->
  exists d', run_update d d f [] false = (d', Ok a) /\ dview d' = M' /\ db_ok d' /\ d_now d' = d_now d /\ d_clamp d' = d_clamp d.
Proof.
  intros K H. destruct (run_update_solo d f (Ok a) M' false K H) as (d' & K' & N1 & N2 & [[E V]|(_ & _ & X & _)]); [|discriminate].
  exists d'. auto.
Qed.
Lemma run_update_err {A} d (f : Tx A) e M' io : spec true f (dview d) (Err e) M' -> run_update d d f [] io = (d, Err e).
Proof.
  intros H. destruct (H (new_txn d true [])) as (t & E & _); [apply okt_new; reflexivity | apply view_new|]. unfold run_update. rewrite E. reflexivity.
Qed.
Lemma run_view_spec {A} d (f : Tx A) r M' : spec false f (dview d) r M' -> run_view d f = r.
Proof.
  intros H. destruct (H (new_txn d false [])) as (t & E & _); [apply okt_new; discriminate | apply view_new|].
  unfold run_view. rewrite E. reflexivity.
Qed.
