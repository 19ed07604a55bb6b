(** Model of /repo/document/txn/txn.go: a provider transaction that validates the schema when it
    commits. *)
From Verif Require Import Bytes SMap Provider Model Schema.

(** Txn, 13-21; the field sequenceMap is unused. A cancel function is represented by a name. *)
Record dtxn := DT { dt_t : txn; dt_start : option cref; dt_refs : list Z; dt_cancels : list nat; dt_upd : bool }.
Definition ErrDDLConflict := ENamed (str "ddl conflict").
(** NewTxn, 24-28: the cache is read before the transaction is created ([h] may be older than [d]) *)
Definition NewTxn (h : handle) (d : db) (upd : bool) (lim : list bool) : dtxn :=
  DT (new_txn d upd lim) (h_val h) [] [] upd.
Definition with_t (x : dtxn) (t : txn) : dtxn := DT t (dt_start x) (dt_refs x) (dt_cancels x) (dt_upd x).
Definition no_cancels (x : dtxn) : dtxn := DT (dt_t x) (dt_start x) (dt_refs x) [] (dt_upd x).
(** Commit, 41-68, with the deferred function 47-54. [h] is the handle when the check is made, [d]
    the store when the provider transaction commits (later). The last component lists the cancel
    functions that ran. A panic leaves err nil, so the deferred function does nothing. *)
Definition dcommit (h : handle) (d : db) (io : bool) (x : dtxn) : handle * db * dtxn * result unit * list nat :=
  if negb (dt_upd x) then (h, d, x, Ok tt, [])
  else match Check h false (dt_start x) (dt_refs x) with
       | (h', CkErr) => (h', d, no_cancels x, Err EIO, dt_cancels x)     (* not with context.Background() *)
       | (h', CkPanic) => (h', d, x, Panic, [])
       | (h', CkRes false) => (h', d, no_cancels x, Err ErrDDLConflict, dt_cancels x)
       | (h', CkRes true) =>
           match commit d (dt_t x) io with
           | (d', t', Ok _) => (h', d', with_t x t', Ok tt, [])
           | (d', t', Err e) => (h', d', no_cancels (with_t x t'), Err e, dt_cancels x)
           | (d', t', Panic) => (h', d', with_t x t', Panic, [])
           end
       end.
(** AddCancelFunc, 71-76 *)
Definition AddCancelFunc (x : dtxn) (f : nat) : dtxn * result unit :=
  if negb (dt_upd x) then (x, Panic) else (DT (dt_t x) (dt_start x) (dt_refs x) (dt_cancels x ++ [f]) (dt_upd x), Ok tt).
(** ReferredCollections, 84-92 *)
Definition ReferredCollections (x : dtxn) (ids : list Z) : dtxn :=
  DT (dt_t x) (dt_start x) (dt_refs x ++ ids) (dt_cancels x) (dt_upd x).
(** Discard, 36-38 *)
Definition ddiscard (x : dtxn) : dtxn := with_t x (close (dt_t x)).

(** * A transaction used in any way *)
Inductive dev :=
| DOp (m : Tx unit)                               (* any reads and writes *)
| DCancel (f : nat) | DRefer (ids : list Z) | DDiscard
| DCommit (h : handle) (d : db) (io : bool).      (* the handle and store it meets *)
Inductive dobs :=
| ONone
| OPanic
| OCommit (h h' : handle) (d d' : db) (refs : list Z) (r : result unit) (ran : list nat).
Definition dstep (x : dtxn) (e : dev) : dtxn * dobs :=
  match e with
  | DOp m => let '(t, _) := m (dt_t x) in (with_t x t, ONone)
  | DCancel f => match AddCancelFunc x f with (x', Panic) => (x', OPanic) | (x', _) => (x', ONone) end
  | DRefer ids => (ReferredCollections x ids, ONone)
  | DDiscard => (ddiscard x, ONone)
  | DCommit h d io => let '(h', d', x', r, ran) := dcommit h d io x in (x', OCommit h h' d d' (dt_refs x) r ran)
  end.
Fixpoint drun (x : dtxn) (es : list dev) : dtxn * list dobs :=
  match es with
  | [] => (x, [])
  | e :: es' => let '(x1, o) := dstep x e in let '(x2, os) := drun x1 es' in (x2, o :: os)
  end.
(** what was added or referred to by a list of events *)
Definition added (es : list dev) : list nat := flat_map (fun e => match e with DCancel f => [f] | _ => [] end) es.
Definition referred (es : list dev) : list Z := flat_map (fun e => match e with DRefer ids => ids | _ => [] end) es.
Definition ran_of (o : dobs) : list nat := match o with OCommit _ _ _ _ _ _ ran => ran | _ => [] end.
Definition is_commit (e : dev) : bool := match e with DCommit _ _ _ => true | _ => false end.

(** * Lemmas *)
Lemma drun_app x es es' : drun x (es ++ es') =
  let '(x1, o1) := drun x es in let '(x2, o2) := drun x1 es' in (x2, o1 ++ o2).
Proof.
  revert x. induction es as [|e es IH]; intros x; cbn [app drun].
  - destruct (drun x es'). reflexivity.
  - destruct (dstep x e) as [x1 o]. rewrite IH. destruct (drun x1 es) as [x2 o2]. destruct (drun x2 es') as [x3 o3]. reflexivity.
Qed.
Lemma dcommit_fields h d io x h' d' x' r ran : dcommit h d io x = (h', d', x', r, ran) ->
  dt_upd x' = dt_upd x /\ dt_start x' = dt_start x /\ dt_refs x' = dt_refs x /\
  ((exists e, r = Err e) /\ ran = dt_cancels x /\ dt_cancels x' = [] \/ (forall e, r <> Err e) /\ ran = [] /\ dt_cancels x' = dt_cancels x).
Proof.
  unfold dcommit. destruct (dt_upd x) eqn:U; cbn [negb].
  - destruct (Check h false (dt_start x) (dt_refs x)) as [h1 [[|]| |]].
    + destruct (commit d (dt_t x) io) as [[d1 t1] [u|e|]]; intros E; inversion E; subst; cbn;
        (split; [assumption|]; split; [reflexivity|]; split; [reflexivity|]); first [left; eauto; fail | right; split; [discriminate | auto]].
    + intros E; inversion E; subst; cbn. split; [assumption|]. split; [reflexivity|]. split; [reflexivity|]. left; eauto.
    + intros E; inversion E; subst; cbn. split; [assumption|]. split; [reflexivity|]. split; [reflexivity|]. left; eauto.
    + intros E; inversion E; subst; cbn. split; [assumption|]. split; [reflexivity|]. split; [reflexivity|]. right. split; [discriminate | auto].
  - intros E; inversion E; subst; cbn. split; [assumption|]. split; [reflexivity|]. split; [reflexivity|]. right. split; [discriminate | auto].
Qed.
Lemma dstep_fields x e x' o : dstep x e = (x', o) ->
  dt_upd x' = dt_upd x /\ dt_start x' = dt_start x /\ dt_refs x' = dt_refs x ++ referred [e] /\
  (dt_upd x = true -> ran_of o ++ dt_cancels x' = dt_cancels x ++ added [e]).
Proof.
  destruct e as [m|f|ids| |h d io]; cbn [dstep referred added flat_map app]; rewrite ?app_nil_r.
  - destruct (m (dt_t x)) as [t r]. intros E. inversion E. subst. cbn. rewrite ?app_nil_r. auto.
  - unfold AddCancelFunc. destruct (dt_upd x) eqn:U; intros E; inversion E; subst; cbn; rewrite ?app_nil_r; repeat split; auto; discriminate.
  - intros E. inversion E. subst. cbn. rewrite ?app_nil_r. auto.
  - intros E. inversion E. subst. cbn. rewrite ?app_nil_r. auto.
  - destruct (dcommit h d io x) as [[[[h' d'] x1] r] ran] eqn:D. intros E. inversion E. subst. apply dcommit_fields in D.
    destruct D as (D1 & D2 & D3 & D4). cbn [ran_of]. split; [exact D1|]. split; [exact D2|]. split; [exact D3|]. intros _.
    destruct D4 as [(_ & -> & ->)|(_ & -> & ->)]; rewrite ?app_nil_r; reflexivity.
Qed.
Lemma drun_fields es : forall x x' os, drun x es = (x', os) ->
  dt_upd x' = dt_upd x /\ dt_start x' = dt_start x /\ dt_refs x' = dt_refs x ++ referred es /\
  (dt_upd x = true -> concat (map ran_of os) ++ dt_cancels x' = dt_cancels x ++ added es).
Proof.
  induction es as [|e es IH]; intros x x' os E; cbn [drun] in E.
  - inversion E. subst. cbn. rewrite !app_nil_r. auto.
  - destruct (dstep x e) as [x1 o] eqn:S. destruct (drun x1 es) as [x2 os2] eqn:R. inversion E. subst. clear E.
    apply dstep_fields in S. destruct S as (S1 & S2 & S3 & S4). apply IH in R. destruct R as (R1 & R2 & R3 & R4).
    split; [congruence|]. split; [congruence|]. split.
    + rewrite R3, S3, <- app_assoc. unfold referred. rewrite <- flat_map_app. reflexivity.
    + intros U. cbn [map concat]. rewrite <- app_assoc, R4 by congruence. rewrite app_assoc, S4 by exact U. rewrite <- app_assoc.
      unfold added. rewrite <- flat_map_app. reflexivity.
Qed.
Lemma drun_ro es : forall x x' os, dt_upd x = false -> drun x es = (x', os) -> forall h h' d d' refs r ran, In (OCommit h h' d d' refs r ran) os -> d' = d /\ h' = h /\ r = Ok tt /\ ran = [].
Proof.
  induction es as [|e es IH]; intros x x' os U E h h' d d' refs r ran I; cbn [drun] in E.
  - inversion E. subst. destruct I.
  - destruct (dstep x e) as [x1 o] eqn:S. destruct (drun x1 es) as [x2 os2] eqn:R. inversion E. subst. clear E.
    pose proof S as S0. apply dstep_fields in S0. destruct S0 as (S1 & _). destruct I as [->|I]; [|eapply IH; [|exact R|exact I]; congruence].
    destruct e as [m|f|ids| |h0 d0 io]; cbn [dstep] in S; try discriminate.
    + destruct (m (dt_t x)); discriminate.
    + unfold AddCancelFunc in S. rewrite U in S. discriminate.
    + unfold dcommit in S. rewrite U in S. cbn [negb] in S. inversion S. auto.
Qed.
