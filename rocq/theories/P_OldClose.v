(** Property C86: closing the old document database. The store, the bodies of the operations and
    the effect [rel] of releasing a sequence are arbitrary. *)
From Verif Require Import Bytes OldClose OldCloseProofs.

Section C86.
Context {St : Type}.
Variable rel : option bytes -> eff St.
(** the states a program can reach: any calls and any interleaving, from a fresh DB *)
Definition reached (st : St) (es : list (act St)) : sys St := acts rel (start st) es.
Lemma reached_inv st es : inv (reached st es).
Proof. apply inv_acts, inv_start. Qed.

(** once some Close returned, nothing the DB still does changes the store or the set of collections *)
Theorem C86_after_close_nothing_changes : forall st es1 es2 g,
  In (TClosed g) (s_trace (reached st es1)) ->
  s_store (reached st (es1 ++ es2)) = s_store (reached st es1) /\
  s_names (reached st (es1 ++ es2)) = s_names (reached st es1).
Proof.
  intros st es1 es2 g H. unfold reached. unfold acts. rewrite fold_left_app.
  pose proof (reached_inv st es1) as I. pose proof (i_tclosed _ I g H) as O.
  destruct (acts_done rel es2 _ I O) as (_ & A & B). split; assumption.
Qed.

(** calls made after Close returned are refused *)
Theorem C86_after_close_calls_are_refused : forall st es1 es2 g h,
  In (TClosed g) (s_trace (reached st es1)) -> s_pc (reached st es1) h = PIdle ->
  exists new, s_trace (reached st (es1 ++ es2)) = s_trace (reached st es1) ++ new /\
    forall a, In (TRet h a) new -> a = AClosed \/ a = AName.
Proof.
  intros st es1 es2 g h H P. pose proof (reached_inv st es1) as I. pose proof (i_tclosed _ I g H) as O.
  destruct (acts_late rel es2 h _ I O ltac:(rewrite P; reflexivity)) as (new & A & B). exists new. split; [|exact B].
  unfold reached, acts in *. rewrite fold_left_app. exact A.
Qed.
(** ... at once, without waiting for anything *)
Theorem C86_after_close_answer_at_once : forall st es1 g h c,
  In (TClosed g) (s_trace (reached st es1)) -> s_pc (reached st es1) h = PIdle ->
  s_trace (reached st (es1 ++ [Call h c; Run h])) = s_trace (reached st es1) ++
    [TCall h c; TRet h (if match c with CColl n _ _ => bad_name n | COp _ => false end then AName else AClosed)].
Proof.
  intros st es1 g h c H P. pose proof (reached_inv st es1) as I. pose proof (i_tclosed _ I g H) as O.
  destruct (i_done _ I O) as (ST & _). unfold reached, acts in *. rewrite fold_left_app. cbn [fold_left]. set (s := fold_left _ es1 _) in *.
  assert (E : act1 rel s (Call h c) = say (TCall h c) (go s h (PCheck c))) by (cbn [act1]; rewrite P; reflexivity).
  rewrite E. cbn [act1]. unfold run1. cbn [say go s_pc]. rewrite upd_same. change (s_state (say (TCall h c) (go s h (PCheck c)))) with (s_state s). rewrite ST.
  destruct (match c with CColl n _ _ => bad_name n | COp _ => false end); cbn; rewrite <- app_assoc; reflexivity.
Qed.

(** the names refused, in every state: the empty one and the two reserved words, and no other; refusing changes nothing *)
Theorem C86_reserved_names : forall st es h n m ok, s_pc (reached st es) h = PIdle ->
  (n = [] \/ n = str "collection" \/ n = str "index" <->
   s_trace (reached st (es ++ [Call h (CColl n m ok); Run h])) = s_trace (reached st es) ++ [TCall h (CColl n m ok); TRet h AName]) /\
  s_store (reached st (es ++ [Call h (CColl n m ok); Run h])) = s_store (reached st es) /\
  s_names (reached st (es ++ [Call h (CColl n m ok); Run h])) = s_names (reached st es).
Proof.
  intros st es h n m ok P. unfold reached, acts in *. rewrite fold_left_app. cbn [fold_left]. set (s := fold_left _ es _) in *.
  assert (E : act1 rel s (Call h (CColl n m ok)) = say (TCall h (CColl n m ok)) (go s h (PCheck (CColl n m ok)))) by (cbn [act1]; rewrite P; reflexivity).
  rewrite E. cbn [act1]. unfold run1. cbn [say go s_pc]. rewrite upd_same.
  change (s_state (say (TCall h (CColl n m ok)) (go s h (PCheck (CColl n m ok))))) with (s_state s).
  assert (B : bad_name n = true <-> n = [] \/ n = str "collection" \/ n = str "index").
  { unfold bad_name. destruct n as [|b n]; [tauto|]. rewrite orb_true_iff, !bytes_eqb_eq. split; [auto|]. intros [X|X]; [discriminate X | exact X]. }
  rewrite <- B. assert (L : forall (l x y : list (obs St)), l ++ x = l ++ y -> x = y) by (intros l x y; apply app_inv_head).
  destruct (bad_name n); [split; [split; [intros _; cbn; rewrite <- app_assoc; reflexivity | reflexivity] | split; reflexivity]|].
  split; [|destruct (s_state s); split; reflexivity]. split; [discriminate|].
  destruct (s_state s); cbn [reply say go s_trace]; rewrite <- ?app_assoc; intros X; apply L in X; discriminate X.
Qed.

(** Close releases the sequences only after the last operation is out, and none gets in later *)
Theorem C86_close_waits_for_operations : forall st es t1 x t2 g,
  s_trace (reached st es) = t1 ++ TRel x :: t2 -> ~ In (TEff g) t2.
Proof.
  intros st es t1 x t2 g E H. assert (O : ordered (s_trace (reached st es))) by (apply acts_ordered; [apply inv_start|exact Logic.I]).
  rewrite E in O. apply ordered_app in O. destruct O as (_ & (_ & O) & _). exact (O g H).
Qed.
Theorem C86_no_operation_inside_during_release : forall st es x g,
  In (TRel x) (s_trace (reached st es)) ->
  match s_pc (reached st es) g with PBody _ | PMake _ _ _ => False | _ => True end.
Proof.
  intros st es x g H. pose proof (reached_inv st es) as I. destruct (i_trel _ I x H) as [C _].
  pose proof (cnt_zero _ I C g) as Z0. destruct (s_pc (reached st es) g); try exact Logic.I; discriminate Z0.
Qed.

(** when any Close returned, the sequence of every collection ever handed out was released *)
Theorem C86_every_collection_is_released : forall st es g h n,
  In (TClosed h) (s_trace (reached st es)) -> In (TRet g (AColl n)) (s_trace (reached st es)) ->
  In (TRel (Some n)) (s_trace (reached st es)).
Proof.
  intros st es g h n C R. pose proof (reached_inv st es) as I.
  apply (i_end _ I); [left; apply (i_tclosed _ I h C)|]. apply (i_coll _ I g). right. exact R.
Qed.

(** nothing deadlocks: as long as some call (Close or another) has not returned, some goroutine can
    run; and without new calls they cannot run forever *)
Theorem C86_never_stuck : forall st es, (exists g, s_pc (reached st es) g <> PIdle) ->
  exists g s', run1 rel g (reached st es) = Some s'.
Proof.
  intros st es (g & B). apply never_stuck; [apply reached_inv|]. exists g. destruct (s_pc (reached st es) g); try reflexivity. contradiction.
Qed.
Theorem C86_no_endless_run : forall st es, Acc (fun s' s => exists g, run1 rel g s = Some s') (reached st es).
Proof.
  intros st es. destruct (finitely_busy rel es (start st)) as (G & A & B).
  - exists []. split; [constructor|]. intros g X. discriminate X.
  - exact (steps_acc rel (reached st es) G A B).
Qed.
(** hence every Close can return, whatever was going on when it was called *)
Theorem C86_everything_can_return : forall st es, exists rs,
  (forall a, In a rs -> exists g, a = Run g) /\ forall g, s_pc (reached st (es ++ rs)) g = PIdle.
Proof.
  intros st es.
  assert (G : forall s, inv s -> (exists L, NoDup L /\ forall g, busy (s_pc s g) = true -> In g L) -> Acc (steps rel) s ->
    exists rs, (forall a, In a rs -> exists g, a = Run g) /\ forall g, s_pc (acts rel s rs) g = PIdle).
  { intros s I F A. induction A as [s _ IH]. destruct F as (L & ND & F).
    destruct (existsb (fun g => busy (s_pc s g)) L) eqn:E.
    - apply existsb_exists in E. destruct E as (g & _ & B). destruct (never_stuck rel s I (ex_intro _ g B)) as (h & s' & R).
      destruct (IH s') as (rs & R1 & R2).
      + exists h. exact R.
      + eapply inv_run1; eassumption.
      + destruct (finitely_busy rel [Run h] s (ex_intro _ L (conj ND F))) as (L' & Q1 & Q2). exists L'. split; [exact Q1|]. cbn [acts fold_left act1] in Q2. rewrite R in Q2. exact Q2.
      + exists (Run h :: rs). split; [intros a [<-|X]; eauto|]. cbn [acts fold_left act1] in *. unfold acts in R2. rewrite R. exact R2.
    - exists []. split; [intros a []|]. intros g. change (acts rel s []) with s. destruct (s_pc s g) eqn:P; try reflexivity; exfalso;
        (assert (X : existsb (fun g => busy (s_pc s g)) L = true); [apply existsb_exists; exists g; rewrite P; split; [apply F; rewrite P|]; reflexivity | congruence]). }
  destruct (G (reached st es) (reached_inv st es)) as (rs & A & B).
  - apply finitely_busy. exists []. split; [constructor|]. intros g X. discriminate X.
  - apply C86_no_endless_run.
  - exists rs. split; [exact A|]. unfold reached, acts in *. rewrite fold_left_app. exact B.
Qed.
End C86.

Print Assumptions C86_after_close_nothing_changes.
Print Assumptions C86_after_close_calls_are_refused.
Print Assumptions C86_after_close_answer_at_once.
Print Assumptions C86_close_waits_for_operations.
Print Assumptions C86_no_operation_inside_during_release.
Print Assumptions C86_every_collection_is_released.
Print Assumptions C86_never_stuck.
Print Assumptions C86_no_endless_run.
Print Assumptions C86_everything_can_return.

(** goroutine 1 opens a collection and is inside an insert when 2 closes; 3 passed checkState before
    the close but comes too late for the closer; 4 looks up the known collection after Close
    returned, its check done before; 2's Close waits for the insert; a second Close returns too *)
Definition rel0 (x : option bytes) : eff nat := fun n => (n * 2)%nat.
Definition insert : call nat := COp [fun n => (n + 1)%nat; fun n => (n + 2)%nat].
Definition users : call nat := CColl (str "users") [fun n => (n + 5)%nat] true.
Definition demo : list (act nat) :=
  [Call 1 users; Run 1; Run 1; Run 1; Run 1; Run 1; Run 1; Run 1;
   Call 1 insert; Run 1; Run 1; Run 1;
   Call 3 insert; Run 3; Call 4 users; Run 4;
   CallClose 2; Run 2; Run 2; Run 2; CallClose 5; Run 5; Run 5;
   Run 3; Run 1; Run 2; Run 1; Run 1;
   Run 2; Run 2; Run 2; Run 2; Run 5; Run 2; Run 2; Run 5; Run 4;
   Call 6 insert; Run 6].
Example C86_example :
  s_trace (reached rel0 0%nat demo) =
   [TCall 1 users; TEff 1; TRet 1 (AColl (str "users")); TCall 1 insert; TEff 1;
    TCall 3 insert; TCall 4 users; TClose 2; TClose 5; TRet 3 ASignaled;
    TEff 1; TRet 1 AOk;
    TRel None; TRel None; TRel (Some (str "users")); TClosed 2; TClosed 5; TRet 4 (AColl (str "users"));
    TCall 6 insert; TRet 6 AClosed] /\
  s_store (reached rel0 0%nat demo) = 64%nat /\ s_store (reached rel0 0%nat (firstn 27 demo)) = 8%nat.
Proof. split; [|split]; reflexivity. Qed.
Print Assumptions C86_reserved_names.
