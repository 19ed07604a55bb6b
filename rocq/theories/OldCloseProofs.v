(** Proofs for C86. *)
From Coq Require Import Relations Wellfounded.
From Verif Require Import Bytes OldClose.

Section Proofs.
Context {St : Type}.
Variable rel : option bytes -> eff St.
Notation sys := (sys St).
Notation pc := (pc St).

Definition counted (p : pc) : bool := match p with PLock _ _ _ | PMake _ _ _ | PBody _ | PDone _ => true | _ => false end.
Definition closing (p : pc) : bool := match p with PSignal | PWait | PRel _ | PEnd => true | _ => false end.
Definition after_wait (p : pc) : bool := match p with PRel _ | PEnd => true | _ => false end.
Definition making (p : pc) : bool := match p with PMake _ _ _ => true | _ => false end.
Definition released (s : sys) (n : bytes) : Prop := In (TRel (Some n)) (s_trace s).

Record inv (s : sys) : Prop := Inv {
  i_cnt : exists L, NoDup L /\ (forall g, counted (s_pc s g) = true <-> In g L) /\ s_cnt s = length L;
  i_not : s_once s = ONot -> s_state s = Open /\ s_sig s = false /\ forall g, closing (s_pc s g) = false /\ s_pc s g <> PWaitOnce;
  i_run : s_once s = ORunning -> s_state s = Closing /\ exists g0, closing (s_pc s g0) = true /\ forall g, closing (s_pc s g) = true -> g = g0;
  i_done : s_once s = ODone -> s_state s = Closed /\ s_sig s = true /\ s_cnt s = 0%nat /\ (forall g, closing (s_pc s g) = false);
  i_sig : forall g, s_pc s g = PSignal -> s_sig s = false;
  i_wait : forall g, closing (s_pc s g) = true -> s_pc s g <> PSignal -> s_sig s = true;
  i_after : forall g, after_wait (s_pc s g) = true -> s_cnt s = 0%nat;
  i_lock : forall g, s_lock s = Some g <-> making (s_pc s g) = true;
  i_rel : forall g l, s_pc s g = PRel l -> forall n, In n (s_names s) -> In (Some n) l \/ released s n;
  i_end : (s_once s = ODone \/ exists g, s_pc s g = PEnd) -> forall n, In n (s_names s) -> released s n;
  i_coll : forall g n, (s_pc s g = PDone (AColl n) \/ In (TRet g (AColl n)) (s_trace s)) -> In n (s_names s);
  i_trel : forall x, In (TRel x) (s_trace s) -> s_cnt s = 0%nat /\ s_sig s = true;
  i_tclosed : forall g, In (TClosed g) (s_trace s) -> s_once s = ODone }.

Lemma upd_same (f : nat -> pc) g p : upd f g p g = p.
Proof. unfold upd. rewrite Nat.eqb_refl. reflexivity. Qed.
Lemma upd_other (f : nat -> pc) g p h : h <> g -> upd f g p h = f h.
Proof. intros H. unfold upd. rewrite (proj2 (Nat.eqb_neq h g) H). reflexivity. Qed.

Lemma cnt_zero s : inv s -> s_cnt s = 0%nat -> forall g, counted (s_pc s g) = false.
Proof.
  intros I Z0 g. destruct (i_cnt _ I) as (L & _ & H & E). destruct (counted (s_pc s g)) eqn:C; [|reflexivity].
  apply H in C. destruct L; [destruct C | cbn in E; lia].
Qed.
Lemma cnt_pos s g : inv s -> counted (s_pc s g) = true -> s_cnt s <> 0%nat.
Proof. intros I C E. rewrite (cnt_zero s I E g) in C. discriminate C. Qed.
Lemma one_closer s g h : inv s -> closing (s_pc s g) = true -> closing (s_pc s h) = true -> g = h /\ s_once s = ORunning.
Proof.
  intros I A B. destruct (s_once s) eqn:O.
  - destruct (i_not _ I O) as (_ & _ & N). destruct (N g) as [X _]. congruence.
  - destruct (i_run _ I O) as (_ & g0 & _ & U). rewrite (U g A), (U h B). auto.
  - destruct (i_done _ I O) as (_ & _ & _ & N). rewrite N in A. discriminate A.
Qed.

(** moving one goroutine that is not, and does not become, counted *)
Lemma cnt_keep (f : nat -> pc) g p n : counted (f g) = counted p ->
  (exists L, NoDup L /\ (forall h, counted (f h) = true <-> In h L) /\ n = length L) ->
  exists L, NoDup L /\ (forall h, counted (upd f g p h) = true <-> In h L) /\ n = length L.
Proof.
  intros E (L & A & B & C). exists L. split; [exact A|]. split; [|exact C]. intros h. unfold upd.
  destruct (Nat.eqb h g) eqn:Eh; [|apply B]. apply Nat.eqb_eq in Eh. subst h. rewrite <- E. apply B.
Qed.
Lemma cnt_up (f : nat -> pc) g p n : counted (f g) = false -> counted p = true ->
  (exists L, NoDup L /\ (forall h, counted (f h) = true <-> In h L) /\ n = length L) ->
  exists L, NoDup L /\ (forall h, counted (upd f g p h) = true <-> In h L) /\ S n = length L.
Proof.
  intros E1 E2 (L & A & B & C). exists (g :: L). split; [constructor; [intros X; apply B in X; congruence | exact A]|].
  split; [|cbn; congruence]. intros h. unfold upd. destruct (Nat.eqb h g) eqn:Eh.
  - apply Nat.eqb_eq in Eh. subst h. split; [intros _; left; reflexivity | intros _; exact E2].
  - apply Nat.eqb_neq in Eh. rewrite B. cbn. split; [auto | intros [X|X]; [congruence|exact X]].
Qed.
Lemma cnt_down (f : nat -> pc) g p n : counted (f g) = true -> counted p = false ->
  (exists L, NoDup L /\ (forall h, counted (f h) = true <-> In h L) /\ n = length L) ->
  exists L, NoDup L /\ (forall h, counted (upd f g p h) = true <-> In h L) /\ pred n = length L.
Proof.
  intros E1 E2 (L & A & B & C). apply B in E1. apply in_split in E1. destruct E1 as (L1 & L2 & ->).
  exists (L1 ++ L2). apply NoDup_remove in A. destruct A as [A1 A2]. split; [exact A1|]. split.
  - intros h. unfold upd. destruct (Nat.eqb h g) eqn:Eh.
    + apply Nat.eqb_eq in Eh. subst h. rewrite E2. split; [discriminate | intros X; contradiction].
    + apply Nat.eqb_neq in Eh. rewrite B, !in_app_iff. cbn. split; [intros [X|[X|X]]; auto; congruence | intros [X|X]; auto].
  - rewrite C, !app_length. cbn. lia.
Qed.

Lemma inv_start st : inv (start st).
Proof.
  split; cbn.
  - exists []. split; [constructor|]. split; [|reflexivity]. intros g. split; [discriminate|contradiction].
  - intros _. split; [reflexivity|]. split; [reflexivity|]. intros g. split; [reflexivity|discriminate].
  - discriminate.
  - discriminate.
  - discriminate.
  - discriminate.
  - discriminate.
  - intros g. split; discriminate.
  - discriminate.
  - intros _ n [].
  - intros g n [X|[]]. discriminate X.
  - intros x [].
  - intros g [].
Qed.

(** moves that touch neither the closer, the lock nor the phase of Close *)
Definition fine (s : sys) (o : obs St) : Prop :=
  match o with
  | TCall _ _ | TClose _ | TEff _ => True
  | TRet _ a => forall n, a = AColl n -> In n (s_names s)
  | TRel _ => False
  | TClosed _ => s_once s = ODone
  end.
Lemma inv_move s s' g p extra : inv s ->
  s_state s' = s_state s -> s_sig s' = s_sig s -> s_cnt s' = s_cnt s -> s_once s' = s_once s ->
  s_names s' = s_names s -> s_lock s' = s_lock s -> s_pc s' = upd (s_pc s) g p -> s_trace s' = s_trace s ++ extra ->
  counted p = counted (s_pc s g) -> closing (s_pc s g) = false -> closing p = false -> making p = making (s_pc s g) ->
  (p = PWaitOnce -> s_once s <> ONot) -> (forall n, p = PDone (AColl n) -> In n (s_names s)) ->
  (forall o, In o extra -> fine s o) -> inv s'.
Proof.
  intros I E1 E2 E3 E4 E5 E6 E7 E8 C1 C2 C3 M W D F. destruct I as [I1 I2 I3 I4 I5 I6 I7 I8 I9 I10 I11 I12 I13].
  assert (CL : forall h, closing (s_pc s' h) = closing (s_pc s h)).
  { intros h. rewrite E7. unfold upd. destruct (Nat.eqb h g) eqn:E; [|reflexivity]. apply Nat.eqb_eq in E. subst h. congruence. }
  assert (SAME : forall h, closing (s_pc s' h) = true -> s_pc s' h = s_pc s h).
  { intros h X. rewrite E7 in *. unfold upd in *. destruct (Nat.eqb h g); [congruence|reflexivity]. }
  assert (RL : forall n, released s n -> released s' n).
  { intros n X. unfold released in *. rewrite E8. apply in_or_app. left. exact X. }
  split; rewrite ?E1, ?E2, ?E3, ?E4, ?E5, ?E6.
  - rewrite E7. apply cnt_keep; [congruence|exact I1].
  - intros O. destruct (I2 O) as (A & B & N). split; [exact A|]. split; [exact B|]. intros h. rewrite CL. split; [apply N|].
    rewrite E7. unfold upd. destruct (Nat.eqb h g); [|apply N]. intros X. exact (W X O).
  - intros O. destruct (I3 O) as (A & g0 & B & N). split; [exact A|]. exists g0. rewrite CL. split; [exact B|].
    intros h. rewrite CL. apply N.
  - intros O. destruct (I4 O) as (A & B & C & N). split; [exact A|]. split; [exact B|]. split; [exact C|]. intros h. rewrite CL. apply N.
  - intros h X. apply (I5 h). rewrite <- SAME; [exact X|]. rewrite X. reflexivity.
  - intros h X Y. rewrite (SAME h X) in Y. apply (I6 h); [rewrite <- CL; exact X | exact Y].
  - intros h X. apply (I7 h). rewrite <- SAME; [exact X|]. destruct (s_pc s' h); try discriminate X; reflexivity.
  - intros h. rewrite I8, E7. unfold upd. destruct (Nat.eqb h g) eqn:E; [|reflexivity]. apply Nat.eqb_eq in E. subst h. rewrite M. reflexivity.
  - intros h l X n Hn. assert (Y : s_pc s h = PRel l) by (rewrite <- SAME; [exact X | rewrite X; reflexivity]).
    destruct (I9 h l Y n Hn) as [Z0|Z0]; auto.
  - intros X n Hn. apply RL, I10; [|exact Hn]. destruct X as [X|[h X]]; [left; exact X | right]. exists h.
    rewrite <- SAME; [exact X | rewrite X; reflexivity].
  - intros h n [X|X].
    + rewrite E7 in X. unfold upd in X. destruct (Nat.eqb h g); [apply D; exact X | apply (I11 h); left; exact X].
    + rewrite E8 in X. apply in_app_or in X. destruct X as [X|X]; [apply (I11 h); right; exact X|]. exact (F _ X n eq_refl).
  - intros x X. rewrite E8 in X. apply in_app_or in X. destruct X as [X|X]; [apply (I12 x X) | destruct (F _ X)].
  - intros h X. rewrite E8 in X. apply in_app_or in X. destruct X as [X|X]; [apply (I13 h X) | exact (F _ X)].
Qed.

Ltac upd_in X := unfold upd in X; match type of X with context [if Nat.eqb ?h ?g then _ else _] => destruct (Nat.eqb h g) eqn:?E end.
Ltac simp := cbn [go say work count lock names mark reply s_store s_state s_sig s_cnt s_once s_names s_lock s_pc s_trace] in *.
Ltac others := try reflexivity; try (rewrite app_nil_r; reflexivity).

Lemma inv_add s g p : inv s -> s_sig s = false -> counted (s_pc s g) = false -> closing (s_pc s g) = false ->
  counted p = true -> making p = false -> (forall a, p <> PDone a) -> inv (go (count (S (s_cnt s)) s) g p).
Proof.
  intros I Sg C0 C1 C2 M D. pose proof I as [I1 I2 I3 I4 I5 I6 I7 I8 I9 I10 I11 I12 I13].
  assert (NA : forall h, after_wait (s_pc s h) = false).
  { intros h. destruct (after_wait (s_pc s h)) eqn:X; [|reflexivity]. rewrite (I6 h) in Sg; [discriminate Sg| |];
      destruct (s_pc s h); try discriminate X; try reflexivity; discriminate. }
  assert (NM : making (s_pc s g) = false) by (destruct (s_pc s g); try reflexivity; discriminate C0).
  assert (CP : closing p = false) by (destruct p; try reflexivity; discriminate C2).
  assert (ND : s_once s <> ODone) by (intros X; destruct (I4 X) as (_ & Y & _); congruence).
  assert (UP : forall h (q : pc), upd (s_pc s) g p h = q -> closing q = true -> s_pc s h = q).
  { intros h q X Y. unfold upd in X. destruct (Nat.eqb h g); [subst q; congruence|exact X]. }
  split; simp.
  - apply cnt_up; assumption.
  - intros O. destruct (I2 O) as (A & B & N). split; [exact A|]. split; [exact B|]. intros h. unfold upd. destruct (Nat.eqb h g); [|apply N].
    split; [exact CP|]. intros ->. discriminate C2.
  - intros O. destruct (I3 O) as (A & g0 & B & N). split; [exact A|]. exists g0. unfold upd. split.
    + destruct (Nat.eqb g0 g) eqn:E; [apply Nat.eqb_eq in E; subst; congruence|exact B].
    + intros h X. destruct (Nat.eqb h g); [congruence|apply N, X].
  - intros O. contradiction.
  - intros h X. apply (I5 h). eapply UP; [exact X|reflexivity].
  - intros h X Y. apply (I6 h); unfold upd in *; destruct (Nat.eqb h g); congruence.
  - intros h X. exfalso. unfold upd in X. destruct (Nat.eqb h g); [destruct p; discriminate|]. rewrite NA in X. discriminate X.
  - intros h. rewrite I8. unfold upd. destruct (Nat.eqb h g) eqn:E; [|reflexivity]. apply Nat.eqb_eq in E. subst h. rewrite M, NM. reflexivity.
  - intros h l X. exfalso. pose proof (UP h _ X eq_refl) as Y. pose proof (NA h) as Q. rewrite Y in Q. discriminate Q.
  - intros [X|[h X]]; [contradiction|]. exfalso. pose proof (UP h _ X eq_refl) as Y. pose proof (NA h) as Q. rewrite Y in Q. discriminate Q.
  - intros h n [X|X]; [|apply (I11 h); right; exact X]. unfold upd in X. destruct (Nat.eqb h g); [destruct (D _ X)|]. apply (I11 h). left. exact X.
  - intros x X. destruct (I12 x X) as [_ Y]. congruence.
  - exact I13.
Qed.

Lemma inv_reply_done s g a : inv s -> s_pc s g = PDone a -> inv (reply (count (pred (s_cnt s)) s) g a).
Proof.
  intros I P. pose proof I as [I1 I2 I3 I4 I5 I6 I7 I8 I9 I10 I11 I12 I13].
  assert (UP : forall h (q : pc), upd (s_pc s) g PIdle h = q -> q <> PIdle -> s_pc s h = q).
  { intros h q X Y. unfold upd in X. destruct (Nat.eqb h g); congruence. }
  assert (CL : forall h, closing (upd (s_pc s) g PIdle h) = closing (s_pc s h)).
  { intros h. unfold upd. destruct (Nat.eqb h g) eqn:E; [|reflexivity]. apply Nat.eqb_eq in E. subst h. rewrite P. reflexivity. }
  assert (RL : forall n, In (TRel (Some n)) (s_trace s) -> In (TRel (Some n)) (s_trace s ++ [TRet g a])) by (intros; apply in_or_app; auto).
  split; simp.
  - apply cnt_down; [rewrite P; reflexivity | reflexivity | exact I1].
  - intros O. destruct (I2 O) as (A & B & N). split; [exact A|]. split; [exact B|]. intros h. rewrite CL. split; [apply N|].
    unfold upd. destruct (Nat.eqb h g); [discriminate|apply N].
  - intros O. destruct (I3 O) as (A & g0 & B & N). split; [exact A|]. exists g0. rewrite CL. split; [exact B|]. intros h. rewrite CL. apply N.
  - intros O. destruct (I4 O) as (A & B & C & N). split; [exact A|]. split; [exact B|]. split; [rewrite C; reflexivity|]. intros h. rewrite CL. apply N.
  - intros h X. apply (I5 h). apply UP; [exact X|discriminate].
  - intros h X Y. rewrite CL in X. apply (I6 h X). unfold upd in Y. destruct (Nat.eqb h g) eqn:E; [|exact Y]. apply Nat.eqb_eq in E. subst h. rewrite P. discriminate.
  - intros h X. rewrite (I7 h); [reflexivity|]. unfold upd in X. destruct (Nat.eqb h g); [discriminate X|exact X].
  - intros h. rewrite I8. unfold upd. destruct (Nat.eqb h g) eqn:E; [|reflexivity]. apply Nat.eqb_eq in E. subst h. rewrite P. reflexivity.
  - intros h l X n Hn. destruct (I9 h l (UP h _ X ltac:(discriminate)) n Hn) as [Y|Y]; [left; exact Y | right; apply RL, Y].
  - intros X n Hn. apply RL, (I10 (match X with or_introl Y => or_introl Y | or_intror (ex_intro _ h Y) => or_intror (ex_intro _ h (UP h _ Y ltac:(discriminate))) end) n Hn).
  - intros h n [X|X].
    + apply (I11 h). left. apply UP; [exact X|discriminate].
    + apply in_app_or in X. destruct X as [X|[X|[]]]; [apply (I11 h); right; exact X|]. inversion X. subst. apply (I11 h). left. exact P.
  - intros x X. apply in_app_or in X. destruct X as [X|[X|[]]]; [|discriminate X]. destruct (I12 x X) as [A B]. rewrite A. auto.
  - intros h X. apply in_app_or in X. destruct X as [X|[X|[]]]; [apply (I13 h X)|discriminate X].
Qed.

(** taking and releasing db.mu *)
Lemma inv_lock s g n m ok : inv s -> s_pc s g = PLock n m ok -> s_lock s = None ->
  inv (go (lock (Some g) s) g (PMake n m ok)).
Proof.
  intros I P LN. pose proof I as [I1 I2 I3 I4 I5 I6 I7 I8 I9 I10 I11 I12 I13].
  set (p := PMake n m ok).
  assert (UP : forall h (q : pc), upd (s_pc s) g p h = q -> counted q = false -> s_pc s h = q).
  { intros h q X Y. unfold upd in X. destruct (Nat.eqb h g); [subst q; discriminate Y|exact X]. }
  assert (CL : forall h, closing (upd (s_pc s) g p h) = closing (s_pc s h)).
  { intros h. unfold upd. destruct (Nat.eqb h g) eqn:E; [|reflexivity]. apply Nat.eqb_eq in E. subst h. rewrite P. reflexivity. }
  split; simp.
  - apply cnt_keep; [rewrite P; reflexivity | exact I1].
  - intros O. destruct (I2 O) as (A & B & N). split; [exact A|]. split; [exact B|]. intros h. rewrite CL. split; [apply N|].
    unfold upd. destruct (Nat.eqb h g); [discriminate|apply N].
  - intros O. destruct (I3 O) as (A & g0 & B & N). split; [exact A|]. exists g0. rewrite CL. split; [exact B|]. intros h. rewrite CL. apply N.
  - intros O. destruct (I4 O) as (A & B & C & N). split; [exact A|]. split; [exact B|]. split; [exact C|]. intros h. rewrite CL. apply N.
  - intros h X. apply (I5 h). apply UP; [exact X|reflexivity].
  - intros h X Y. rewrite CL in X. apply (I6 h X). unfold upd in Y. destruct (Nat.eqb h g) eqn:E; [|exact Y]. apply Nat.eqb_eq in E. subst h. rewrite P. discriminate.
  - intros h X. apply (I7 h). unfold upd in X. destruct (Nat.eqb h g); [discriminate X|exact X].
  - intros h. unfold upd. destruct (Nat.eqb h g) eqn:E.
    + apply Nat.eqb_eq in E. subst h. split; reflexivity.
    + apply Nat.eqb_neq in E. split; [intros X; inversion X; congruence|]. intros X. apply I8 in X. congruence.
  - intros h l X k Hk. apply (I9 h l); [apply UP; [exact X|reflexivity] | exact Hk].
  - intros X k Hk. apply I10; [|exact Hk]. destruct X as [X|[h X]]; [left; exact X|right; exists h; apply UP; [exact X|reflexivity]].
  - intros h k [X|X]; [|apply (I11 h); right; exact X]. apply (I11 h). left. unfold upd in X. destruct (Nat.eqb h g); [discriminate X|exact X].
  - exact I12.
  - exact I13.
Qed.
Lemma inv_unlock s g n (ok : bool) l : inv s -> s_pc s g = PMake n [] ok -> (if ok then l = n :: s_names s else l = s_names s) ->
  inv (go (lock None (names l s)) g (PDone (if ok then AColl n else AFail))).
Proof.
  intros I P EL. pose proof I as [I1 I2 I3 I4 I5 I6 I7 I8 I9 I10 I11 I12 I13].
  assert (CNT : s_cnt s <> 0%nat) by (apply (cnt_pos s g I); rewrite P; reflexivity).
  assert (INC : forall k, In k (s_names s) -> In k l) by (intros k Hk; destruct ok; subst l; [right|]; exact Hk).
  set (p := PDone (if ok then AColl n else AFail)).
  assert (UP : forall h (q : pc), upd (s_pc s) g p h = q -> counted q = false -> s_pc s h = q).
  { intros h q X Y. unfold upd in X. destruct (Nat.eqb h g); [subst q; discriminate Y|exact X]. }
  assert (CL : forall h, closing (upd (s_pc s) g p h) = closing (s_pc s h)).
  { intros h. unfold upd. destruct (Nat.eqb h g) eqn:E; [|reflexivity]. apply Nat.eqb_eq in E. subst h. rewrite P. reflexivity. }
  assert (NA : forall h, after_wait (s_pc s h) = false).
  { intros h. destruct (after_wait (s_pc s h)) eqn:X; [|reflexivity]. apply I7 in X. contradiction. }
  assert (ND : s_once s <> ODone) by (intros X; destruct (I4 X) as (_ & _ & Y & _); congruence).
  split; simp.
  - apply cnt_keep; [rewrite P; reflexivity | exact I1].
  - intros O. destruct (I2 O) as (A & B & N). split; [exact A|]. split; [exact B|]. intros h. rewrite CL. split; [apply N|].
    unfold upd. destruct (Nat.eqb h g); [discriminate|apply N].
  - intros O. destruct (I3 O) as (A & g0 & B & N). split; [exact A|]. exists g0. rewrite CL. split; [exact B|]. intros h. rewrite CL. apply N.
  - intros O. contradiction.
  - intros h X. apply (I5 h). apply UP; [exact X|reflexivity].
  - intros h X Y. rewrite CL in X. apply (I6 h X). unfold upd in Y. destruct (Nat.eqb h g) eqn:E; [|exact Y]. apply Nat.eqb_eq in E. subst h. rewrite P. discriminate.
  - intros h X. apply (I7 h). unfold upd in X. destruct (Nat.eqb h g); [discriminate X|exact X].
  - intros h. split; [discriminate|]. unfold upd. destruct (Nat.eqb h g) eqn:E; [discriminate|]. intros X. apply I8 in X.
    assert (Y : s_lock s = Some g) by (apply I8; rewrite P; reflexivity). apply Nat.eqb_neq in E. congruence.
  - intros h k X. exfalso. pose proof (NA h) as Q. rewrite (UP h _ X eq_refl) in Q. discriminate Q.
  - intros [X|[h X]]; [contradiction|]. exfalso. pose proof (NA h) as Q. rewrite (UP h _ X eq_refl) in Q. discriminate Q.
  - intros h k [X|X]; [|apply INC, (I11 h); right; exact X]. unfold upd in X. destruct (Nat.eqb h g).
    + unfold p in X. destruct ok; inversion X. subst. left. reflexivity.
    + apply INC, (I11 h). left. exact X.
  - exact I12.
  - exact I13.
Qed.

(** the goroutine inside once.Do moves on *)
Lemma inv_phase s s' g p extra : inv s -> closing (s_pc s g) = true ->
  s_state s' = s_state s -> s_sig s' = true -> s_cnt s' = s_cnt s -> s_once s' = s_once s ->
  s_names s' = s_names s -> s_lock s' = s_lock s -> s_pc s' = upd (s_pc s) g p -> s_trace s' = s_trace s ++ extra ->
  closing p = true -> p <> PSignal -> (after_wait p = true -> s_cnt s = 0%nat) ->
  (forall l, p = PRel l -> forall n, In n (s_names s) -> In (Some n) l \/ released s' n) ->
  (p = PEnd -> forall n, In n (s_names s) -> released s' n) ->
  (forall o, In o extra -> s_cnt s = 0%nat /\ exists x, o = TRel x) -> inv s'.
Proof.
  intros I C E1 E2 E3 E4 E5 E6 E7 E8 Cp NS AF RL EN EX. pose proof I as [I1 I2 I3 I4 I5 I6 I7 I8 I9 I10 I11 I12 I13].
  destruct (one_closer s g g I C C) as [_ OR]. destruct (I3 OR) as (ST & g0 & G0 & UQ).
  assert (g = g0) by (apply UQ; exact C). subst g0.
  assert (OT : forall h, h <> g -> closing (s_pc s h) = false).
  { intros h N. destruct (closing (s_pc s h)) eqn:X; [|reflexivity]. apply UQ in X. contradiction. }
  assert (OT' : forall h, closing (s_pc s' h) = true -> h = g).
  { intros h X. rewrite E7 in X. unfold upd in X. destruct (Nat.eqb h g) eqn:E; [apply Nat.eqb_eq in E; exact E|]. apply Nat.eqb_neq in E. rewrite (OT h E) in X. discriminate X. }
  assert (PG : s_pc s' g = p) by (rewrite E7; apply upd_same).
  assert (PC : counted (s_pc s g) = false) by (destruct (s_pc s g); try reflexivity; discriminate C).
  assert (PC' : counted p = false) by (destruct p; try reflexivity; discriminate Cp).
  assert (PM : making (s_pc s g) = false) by (destruct (s_pc s g); try reflexivity; discriminate C).
  assert (PM' : making p = false) by (destruct p; try reflexivity; discriminate Cp).
  assert (RM : forall n, released s n -> released s' n) by (intros n X; unfold released in *; rewrite E8; apply in_or_app; auto).
  split; rewrite ?E1, ?E2, ?E3, ?E4, ?E5, ?E6, ?OR.
  - rewrite E7. apply cnt_keep; [congruence|exact I1].
  - discriminate.
  - intros _. split; [exact ST|]. exists g. rewrite PG. split; [exact Cp|exact OT'].
  - discriminate.
  - intros h X. exfalso. assert (Y : closing (s_pc s' h) = true) by (rewrite X; reflexivity). apply OT' in Y. subst h. congruence.
  - reflexivity.
  - intros h X. assert (Y : closing (s_pc s' h) = true) by (destruct (s_pc s' h); try discriminate X; reflexivity).
    apply OT' in Y. subst h. rewrite PG in X. apply AF, X.
  - intros h. rewrite I8, E7. unfold upd. destruct (Nat.eqb h g) eqn:E; [|reflexivity]. apply Nat.eqb_eq in E. subst h. rewrite PM, PM'. reflexivity.
  - intros h l X. assert (Y : closing (s_pc s' h) = true) by (rewrite X; reflexivity). apply OT' in Y. subst h. apply RL. congruence.
  - intros [X|[h X]]; [discriminate X|]. assert (Y : closing (s_pc s' h) = true) by (rewrite X; reflexivity). apply OT' in Y. subst h. apply EN. congruence.
  - intros h n [X|X].
    + apply (I11 h). left. rewrite E7 in X. unfold upd in X. destruct (Nat.eqb h g); [rewrite X in Cp; discriminate Cp|exact X].
    + rewrite E8 in X. apply in_app_or in X. destruct X as [X|X]; [apply (I11 h); right; exact X|]. destruct (EX _ X) as (_ & x & Y). discriminate Y.
  - intros x X. rewrite E8 in X. apply in_app_or in X. destruct X as [X|X]; [destruct (I12 x X) as [Y _]; auto|]. destruct (EX _ X) as (Y & _). auto.
  - intros h X. rewrite E8 in X. apply in_app_or in X. destruct X as [X|X]; [apply I13 in X; congruence|]. destruct (EX _ X) as (_ & x & Y). discriminate Y.
Qed.

Lemma inv_enter s g : inv s -> s_pc s g = POnce -> s_once s = ONot -> inv (go (mark Closing (s_sig s) ORunning s) g PSignal).
Proof.
  intros I P O. pose proof I as [I1 I2 I3 I4 I5 I6 I7 I8 I9 I10 I11 I12 I13]. destruct (I2 O) as (A & B & N).
  assert (UP : forall h (q : pc), upd (s_pc s) g PSignal h = q -> q <> PSignal -> s_pc s h = q).
  { intros h q X Y. unfold upd in X. destruct (Nat.eqb h g); congruence. }
  split; simp.
  - apply cnt_keep; [rewrite P; reflexivity | exact I1].
  - discriminate.
  - intros _. split; [reflexivity|]. exists g. rewrite upd_same. split; [reflexivity|]. intros h X. unfold upd in X.
    destruct (Nat.eqb h g) eqn:E; [apply Nat.eqb_eq in E; exact E|]. destruct (N h) as [Y _]. congruence.
  - discriminate.
  - intros _ _. exact B.
  - intros h X Y. exfalso. unfold upd in X, Y. destruct (Nat.eqb h g); [congruence|]. destruct (N h) as [Z0 _]. congruence.
  - intros h X. apply (I7 h). unfold upd in X. destruct (Nat.eqb h g); [discriminate X|exact X].
  - intros h. rewrite I8. unfold upd. destruct (Nat.eqb h g) eqn:E; [|reflexivity]. apply Nat.eqb_eq in E. subst h. rewrite P. reflexivity.
  - intros h l X. apply (I9 h l), UP; [exact X|discriminate].
  - intros [X|[h X]]; [discriminate X|]. apply I10. right. exists h. apply UP; [exact X|discriminate].
  - intros h n [X|X]; [|apply (I11 h); right; exact X]. apply (I11 h). left. apply UP; [exact X|discriminate].
  - exact I12.
  - intros h X. apply I13 in X. congruence.
Qed.
Lemma inv_finish s g : inv s -> s_pc s g = PEnd -> inv (say (TClosed g) (go (mark Closed (s_sig s) ODone s) g PIdle)).
Proof.
  intros I P. pose proof I as [I1 I2 I3 I4 I5 I6 I7 I8 I9 I10 I11 I12 I13].
  assert (C : closing (s_pc s g) = true) by (rewrite P; reflexivity).
  destruct (one_closer s g g I C C) as [_ OR]. destruct (I3 OR) as (ST & g0 & G0 & UQ). assert (g = g0) by (apply UQ; exact C). subst g0.
  assert (CT : s_cnt s = 0%nat) by (apply (I7 g); rewrite P; reflexivity).
  assert (SG : s_sig s = true) by (apply (I6 g C); rewrite P; discriminate).
  assert (NC : forall h, closing (upd (s_pc s) g PIdle h) = false).
  { intros h. unfold upd. destruct (Nat.eqb h g) eqn:E; [reflexivity|]. apply Nat.eqb_neq in E.
    destruct (closing (s_pc s h)) eqn:X; [|reflexivity]. apply UQ in X. contradiction. }
  assert (NP : forall h (q : pc), closing q = true -> upd (s_pc s) g PIdle h <> q) by (intros h q X Y; rewrite <- Y, NC in X; discriminate X).
  assert (RL : forall x, In (TRel x) (s_trace s) -> In (TRel x) (s_trace s ++ [TClosed g])) by (intros; apply in_or_app; auto).
  split; simp.
  - apply cnt_keep; [rewrite P; reflexivity | exact I1].
  - discriminate.
  - discriminate.
  - intros _. auto.
  - intros h X. destruct (NP h PSignal eq_refl X).
  - intros h X. rewrite NC in X. discriminate X.
  - intros; exact CT.
  - intros h. rewrite I8. unfold upd. destruct (Nat.eqb h g) eqn:E; [|reflexivity]. apply Nat.eqb_eq in E. subst h. rewrite P. reflexivity.
  - intros h l X. destruct (NP h (PRel l) eq_refl X).
  - intros _ n Hn. apply RL. apply I10; [right; exists g; exact P | exact Hn].
  - intros h n [X|X].
    + apply (I11 h). left. unfold upd in X. destruct (Nat.eqb h g); [discriminate X|exact X].
    + apply in_app_or in X. destruct X as [X|[X|[]]]; [apply (I11 h); right; exact X|discriminate X].
  - intros x X. auto.
  - reflexivity.
Qed.

Lemma known_in n l : known n l = true -> In n l.
Proof. unfold known. intros H. apply existsb_exists in H. destruct H as (x & A & B). apply bytes_eqb_eq in B. subst. exact A. Qed.

Ltac by_move s g p extra := eapply (inv_move s _ g p extra);
  [assumption | reflexivity | reflexivity | reflexivity | reflexivity | reflexivity | reflexivity | reflexivity
  | simp; first [reflexivity | symmetry; apply app_nil_r]
  | simp | simp | simp | simp | simp | simp | simp].
Lemma inv_run1 s g s' : inv s -> run1 rel g s = Some s' -> inv s'.
Proof.
  intros I H. unfold run1 in H. destruct (s_pc s g) as [|c|n m ok|c|n m ok|n m ok|b|a| | | | |l|] eqn:P.
  - discriminate H.
  - assert (RP : forall a, (forall n, a <> AColl n) -> inv (reply s g a)).
    { intros a Na. by_move s g (PIdle : pc) [@TRet St g a]; rewrite ?P; try reflexivity; try discriminate.
      intros o [<-|[]]. intros n X. destruct (Na n X). }
    destruct (match c with CColl n _ _ => bad_name n | COp _ => false end); [inversion H; subst; apply RP; discriminate|].
    destruct (s_state s); [|inversion H; subst; apply RP; discriminate|inversion H; subst; apply RP; discriminate].
    inversion H. subst. destruct c as [n m ok|b].
    + by_move s g (PLook n m ok) (@nil (obs St)); rewrite ?P; try reflexivity; try discriminate. intros o [].
    + by_move s g (PAdd (COp b)) (@nil (obs St)); rewrite ?P; try reflexivity; try discriminate. intros o [].
  - destruct (s_lock s) eqn:L; [discriminate H|]. destruct (known n (s_names s)) eqn:K; inversion H; subst.
    + by_move s g (PIdle : pc) [@TRet St g (AColl n)]; rewrite ?P; try reflexivity; try discriminate.
      intros o [<-|[]]. intros k X. inversion X. subst. apply known_in, K.
    + by_move s g (PAdd (CColl n m ok)) (@nil (obs St)); rewrite ?P; try reflexivity; try discriminate. intros o [].
  - destruct (s_sig s) eqn:Sg; inversion H; subst.
    + by_move s g (PIdle : pc) [@TRet St g ASignaled]; rewrite ?P; try reflexivity; try discriminate.
      intros o [<-|[]]. intros k X. discriminate X.
    + apply inv_add; try assumption; rewrite ?P; try reflexivity; destruct c; try reflexivity; discriminate.
  - destruct (s_lock s) eqn:L; [discriminate H|]. destruct (known n (s_names s)) eqn:K; inversion H; subst.
    + by_move s g (PDone (AColl n) : pc) (@nil (obs St)); rewrite ?P; try reflexivity; try discriminate.
      * intros k X. inversion X. subst. apply known_in, K.
      * intros o [].
    + eapply inv_lock; eassumption.
  - destruct m as [|f m]; inversion H; subst.
    + apply (inv_unlock s g n ok (if ok then n :: s_names s else s_names s)) in P; [|exact I|destruct ok; reflexivity].
      destruct ok; [exact P|]. destruct s. exact P.
    + by_move s g (PMake n m ok) [@TEff St g]; rewrite ?P; try reflexivity; try discriminate. intros o [<-|[]]. exact Logic.I.
  - destruct b as [|f b]; inversion H; subst.
    + by_move s g (PDone AOk : pc) (@nil (obs St)); rewrite ?P; try reflexivity; try discriminate. intros o [].
    + by_move s g (PBody b) [@TEff St g]; rewrite ?P; try reflexivity; try discriminate. intros o [<-|[]]. exact Logic.I.
  - inversion H. subst. apply inv_reply_done; assumption.
  - destruct (s_once s) eqn:O; inversion H; subst.
    + apply inv_enter; assumption.
    + by_move s g (PWaitOnce : pc) (@nil (obs St)); rewrite ?P, ?O; try reflexivity; try discriminate. intros o [].
    + by_move s g (PIdle : pc) [@TClosed St g]; rewrite ?P; try reflexivity; try discriminate. intros o [<-|[]]. exact O.
  - destruct (s_once s) eqn:O; inversion H; subst.
    by_move s g (PIdle : pc) [@TClosed St g]; rewrite ?P; try reflexivity; try discriminate. intros o [<-|[]]. exact O.
  - inversion H. subst. apply (inv_phase s _ g PWait []); try reflexivity; try discriminate; try assumption.
    + rewrite P. reflexivity.
    + simp. symmetry. apply app_nil_r.
    + intros o [].
  - destruct (s_cnt s) eqn:C; inversion H. subst.
    assert (SG : s_sig s = true) by (apply (i_wait _ I g); rewrite P; [reflexivity|discriminate]).
    eapply (inv_phase s _ g _ []); try reflexivity; try discriminate; try assumption.
    + rewrite P. reflexivity.
    + simp. symmetry. apply app_nil_r.
    + intros _. exact C.
    + intros l X n Hn. inversion X. subst. left. right. right. apply in_map. exact Hn.
    + intros o [].
  - assert (CG : closing (s_pc s g) = true) by (rewrite P; reflexivity).
    assert (SG : s_sig s = true) by (apply (i_wait _ I g CG); rewrite P; discriminate).
    assert (CT : s_cnt s = 0%nat) by (apply (i_after _ I g); rewrite P; reflexivity).
    destruct l as [|x l]; inversion H; subst.
    + eapply (inv_phase s _ g PEnd []); try reflexivity; try discriminate; try assumption.
      * simp. symmetry. apply app_nil_r.
      * intros _. exact CT.
      * intros _ n Hn. destruct (i_rel _ I g [] P n Hn) as [[]|X]. exact X.
      * intros o [].
    + eapply (inv_phase s _ g (PRel l) [TRel x]); try reflexivity; try discriminate; try assumption.
      * intros _. exact CT.
      * intros l' X n Hn. inversion X. subst l'. unfold released. simp.
        destruct (i_rel _ I g _ P n Hn) as [[X1|X1]|X1].
        -- right. apply in_or_app. right. left. subst x. reflexivity.
        -- left. exact X1.
        -- right. apply in_or_app. left. exact X1.
      * intros o [<-|[]]. split; [exact CT|]. exists x. reflexivity.
  - inversion H. subst. apply inv_finish; assumption.
Qed.
Lemma inv_act s a : inv s -> inv (act1 rel s a).
Proof.
  intros I. destruct a as [g c|g|g]; cbn [act1].
  - destruct (s_pc s g) eqn:P; try exact I. by_move s g (PCheck c) [TCall g c]; rewrite ?P; try reflexivity; try discriminate.
    intros o [<-|[]]. exact Logic.I.
  - destruct (s_pc s g) eqn:P; try exact I. by_move s g (POnce : pc) [@TClose St g]; rewrite ?P; try reflexivity; try discriminate.
    intros o [<-|[]]. exact Logic.I.
  - destruct (run1 rel g s) eqn:R; [|exact I]. eapply inv_run1; eassumption.
Qed.
Lemma inv_acts l : forall s, inv s -> inv (acts rel s l).
Proof. induction l as [|a l IH]; intros s I; [exact I|]. apply IH, inv_act, I. Qed.

(** ** after Close *)
Lemma run1_names g s s' : run1 rel g s = Some s' -> counted (s_pc s g) = false -> s_names s' = s_names s.
Proof.
  unfold run1. intros H C. destruct (s_pc s g) as [|c|n m ok|c|n m ok|n m ok|b|a| | | | |l|]; try discriminate C; try discriminate H;
    repeat match type of H with
    | (if ?b then _ else _) = _ => destruct b
    | (match ?x with _ => _ end) = _ => destruct x
    end; inversion H; try match goal with |- context [if ?b then _ else _] => is_var b; destruct b end; reflexivity.
Qed.
Lemma run1_store g s s' : run1 rel g s = Some s' -> counted (s_pc s g) = false -> after_wait (s_pc s g) = false -> s_store s' = s_store s.
Proof.
  unfold run1. intros H C A. destruct (s_pc s g) as [|c|n m ok|c|n m ok|n m ok|b|a| | | | |l|]; try discriminate C; try discriminate A; try discriminate H;
    repeat match type of H with
    | (if ?b then _ else _) = _ => destruct b
    | (match ?x with _ => _ end) = _ => destruct x
    end; inversion H; try match goal with |- context [if ?b then _ else _] => is_var b; destruct b end; reflexivity.
Qed.
Lemma run1_trace g s s' : run1 rel g s = Some s' -> exists new, s_trace s' = s_trace s ++ new /\
  forall h, In (TEff h) new -> counted (s_pc s g) = true.
Proof.
  unfold run1. intros H. destruct (s_pc s g) as [|c|n m ok|c|n m ok|n m ok|b|a| | | | |l|]; try discriminate H;
    repeat match type of H with
    | (if ?b then _ else _) = _ => destruct b
    | (match ?x with _ => _ end) = _ => destruct x
    end; inversion H; try match goal with |- context [if ?b then _ else _] => is_var b; destruct b end; simp;
    first [ (exists []; split; [symmetry; apply app_nil_r | intros h []])
          | (eexists; split; [reflexivity|]; intros h X; cbn in X; destruct X as [X|[]]; solve [reflexivity | discriminate X]) ].
Qed.
Lemma run1_done g s s' : s_once s = ODone -> closing (s_pc s g) = false -> run1 rel g s = Some s' -> s_once s' = ODone.
Proof.
  unfold run1. intros O C H. destruct (s_pc s g) as [|c|n m ok|c|n m ok|n m ok|b|a| | | | |l|]; try discriminate H; try discriminate C; rewrite ?O in H;
    repeat match type of H with
    | (if ?b then _ else _) = _ => destruct b
    | (match ?x with _ => _ end) = _ => destruct x
    end; inversion H; try match goal with |- context [if ?b then _ else _] => is_var b; destruct b end; simp; try exact O; reflexivity.
Qed.
Lemma act_done s a : inv s -> s_once s = ODone ->
  s_once (act1 rel s a) = ODone /\ s_store (act1 rel s a) = s_store s /\ s_names (act1 rel s a) = s_names s.
Proof.
  intros I O. destruct (i_done _ I O) as (_ & _ & C & N). pose proof (cnt_zero s I C) as CZ.
  destruct a as [g c|g|g]; cbn [act1]; [destruct (s_pc s g); auto | destruct (s_pc s g); auto|].
  destruct (run1 rel g s) as [s'|] eqn:R; [|auto]. split; [eapply run1_done; eauto|]. split; [|eapply run1_names; eauto].
  eapply run1_store; eauto. destruct (s_pc s g) eqn:P; try reflexivity; specialize (N g); rewrite P in N; discriminate N.
Qed.
Lemma acts_done l : forall s, inv s -> s_once s = ODone ->
  s_once (acts rel s l) = ODone /\ s_store (acts rel s l) = s_store s /\ s_names (acts rel s l) = s_names s.
Proof.
  induction l as [|a l IH]; intros s I O; [auto|]. destruct (act_done s a I O) as (A & B & C).
  destruct (IH (act1 rel s a) (inv_act s a I) A) as (A' & B' & C'). cbn [acts fold_left] in *. unfold acts in *. rewrite B', C'. auto.
Qed.
(** a goroutine that calls after Close returned: its calls are refused *)
Definition late (p : pc) : bool := match p with PIdle | PCheck _ | POnce => true | _ => false end.
Definition refused (g : nat) (new : list (obs St)) : Prop := forall a, In (TRet g a) new -> a = AClosed \/ a = AName.
Lemma act_late s a g : inv s -> s_once s = ODone -> late (s_pc s g) = true ->
  late (s_pc (act1 rel s a) g) = true /\ exists new, s_trace (act1 rel s a) = s_trace s ++ new /\ refused g new.
Proof.
  intros I O L. destruct (i_done _ I O) as (ST & _ & C & N).
  assert (NIL : exists new, s_trace s = s_trace s ++ new /\ refused g new) by (exists []; split; [symmetry; apply app_nil_r | intros x []]).
  destruct a as [h c|h|h]; cbn [act1].
  - destruct (s_pc s h) eqn:P; try (split; [exact L|exact NIL]). simp. split.
    + unfold upd. destruct (Nat.eqb g h); [reflexivity|exact L].
    + eexists. split; [reflexivity|]. intros x [X|[]]. discriminate X.
  - destruct (s_pc s h) eqn:P; try (split; [exact L|exact NIL]). simp. split.
    + unfold upd. destruct (Nat.eqb g h); [reflexivity|exact L].
    + eexists. split; [reflexivity|]. intros x [X|[]]. discriminate X.
  - destruct (run1 rel h s) as [s'|] eqn:R; [|split; [exact L|exact NIL]]. destruct (Nat.eq_dec h g) as [->|NE].
    + unfold run1 in R. destruct (s_pc s g) as [|c| | | | | | | | | | | |] eqn:P; try discriminate L; try discriminate R.
      * rewrite ST in R. destruct (match c with CColl n _ _ => bad_name n | COp _ => false end); inversion R; subst; simp;
          (split; [rewrite upd_same; reflexivity|]; eexists; split; [reflexivity|]; intros x [X|[]]; inversion X; auto).
      * rewrite O in R. inversion R. subst. simp. split; [rewrite upd_same; reflexivity|]. eexists; split; [reflexivity|]. intros x [X|[]]. discriminate X.
    + assert (Q : s_pc s' g = s_pc s g /\ exists new, s_trace s' = s_trace s ++ new /\ forall x, ~ In (TRet g x) new).
      { unfold run1 in R. clear NIL. destruct (s_pc s h) as [|c|n m ok|c|n m ok|n m ok|b|a| | | | |l|]; try discriminate R;
        repeat match type of R with
        | (if ?b then _ else _) = _ => destruct b
        | (match ?x with _ => _ end) = _ => destruct x
        end; inversion R; try match goal with |- context [if ?b then _ else _] => is_var b; destruct b end; simp; (split; [apply upd_other; congruence|]);
        first [ (exists []; split; [symmetry; apply app_nil_r | intros x []])
              | (eexists; split; [reflexivity|]; intros x [X|[]]; solve [discriminate X | inversion X; congruence]) ]. }
      destruct Q as (Q1 & new & Q2 & Q3). rewrite Q1. split; [exact L|]. exists new. split; [exact Q2|]. intros x X. destruct (Q3 x X).
Qed.
Lemma acts_late l g : forall s, inv s -> s_once s = ODone -> late (s_pc s g) = true ->
  exists new, s_trace (acts rel s l) = s_trace s ++ new /\ refused g new.
Proof.
  induction l as [|a l IH]; intros s I O L; [exists []; split; [symmetry; apply app_nil_r | intros x []]|].
  destruct (act_late s a g I O L) as (L1 & n1 & T1 & R1). destruct (act_done s a I O) as (O1 & _).
  destruct (IH _ (inv_act s a I) O1 L1) as (n2 & T2 & R2). exists (n1 ++ n2). unfold acts in *. cbn [fold_left]. rewrite T2, T1, <- app_assoc.
  split; [reflexivity|]. intros x X. apply in_app_or in X. destruct X; [apply R1|apply R2]; assumption.
Qed.

(** ** no step of an operation after the first release *)
Fixpoint ordered (t : list (obs St)) : Prop :=
  match t with
  | [] => True
  | o :: t' => ordered t' /\ match o with TRel _ => forall g, ~ In (TEff g) t' | _ => True end
  end.
Lemma ordered_app a b : ordered (a ++ b) <-> ordered a /\ ordered b /\ ((exists x, In (TRel x) a) -> forall g, ~ In (TEff g) b).
Proof.
  induction a as [|o a IH]; cbn [app ordered].
  - split; [intros H; split; [exact Logic.I|]; split; [exact H|]; intros [x []] | intros (_ & H & _); exact H].
  - rewrite IH. split.
    + intros ((A & B & C) & D). split; [split; [exact A|]|split; [exact B|]].
      * destruct o; auto. intros g X. apply (D g), in_or_app. left. exact X.
      * intros (x & [X|X]) g Y; [subst o; apply (D g), in_or_app; right; exact Y | apply (C (ex_intro _ x X) g Y)].
    + intros ((A & D) & B & C). split; [split; [exact A|]; split; [exact B|]; intros (x & X); apply C; exists x; right; exact X|].
      destruct o; auto. intros g X. apply in_app_or in X. destruct X as [X|X]; [apply (D g X)|]. apply (C (ex_intro _ what (or_introl eq_refl)) g X).
Qed.
Lemma act_ordered s a : inv s -> ordered (s_trace s) -> ordered (s_trace (act1 rel s a)).
Proof.
  intros I O. destruct a as [g c|g|g]; cbn [act1].
  - destruct (s_pc s g); try exact O. simp. apply ordered_app. split; [exact O|]. split; [cbn; auto|]. intros _ h [X|[]]; discriminate X.
  - destruct (s_pc s g); try exact O. simp. apply ordered_app. split; [exact O|]. split; [cbn; auto|]. intros _ h [X|[]]; discriminate X.
  - destruct (run1 rel g s) as [s'|] eqn:R; [|exact O]. destruct (run1_trace g s s' R) as (new & T & E). rewrite T.
    apply ordered_app. split; [exact O|]. split.
    + assert (Q : new = [] \/ exists o, new = [o]).
      { unfold run1 in R. destruct (s_pc s g) as [|c|n m ok|c|n m ok|n m ok|b|a| | | | |l|]; try discriminate R;
        repeat match type of R with
        | (if ?b then _ else _) = _ => destruct b
        | (match ?x with _ => _ end) = _ => destruct x
        end; inversion R; subst s'; try match goal with _ : context [if ?b then _ else _] |- _ => is_var b; destruct b end; simp;
        try (left; apply (app_inv_head (s_trace s)); rewrite app_nil_r; congruence);
        right; eexists; apply (app_inv_head (s_trace s)); symmetry; exact T. }
      destruct Q as [->|(o & ->)]; cbn; auto. split; [exact Logic.I|]. destruct o; auto.
    + intros (x & X) h Y. destruct (i_trel _ I x X) as [C _]. pose proof (E h Y) as Z0. rewrite (cnt_zero s I C) in Z0. discriminate Z0.
Qed.
Lemma acts_ordered l : forall s, inv s -> ordered (s_trace s) -> ordered (s_trace (acts rel s l)).
Proof. induction l as [|a l IH]; intros s I O; [exact O|]. apply IH; [apply inv_act, I | apply act_ordered; assumption]. Qed.

(** ** progress *)
Definition busy (p : pc) : bool := match p with PIdle => false | _ => true end.
Lemma never_stuck s : inv s -> (exists g, busy (s_pc s g) = true) -> exists g s', run1 rel g s = Some s'.
Proof.
  intros I (g & B).
  (* a lock holder can run *)
  assert (LK : forall h, s_lock s = Some h -> exists s', run1 rel h s = Some s').
  { intros h L. apply (i_lock _ I) in L. unfold run1. destruct (s_pc s h) as [| | | | |n m ok| | | | | | | |]; try discriminate L.
    destruct m; eexists; reflexivity. }
  (* a holder of the closer can run, or waits for the lock *)
  assert (CT : forall h, counted (s_pc s h) = true -> exists k s', run1 rel k s = Some s').
  { intros h C. destruct (run1 rel h s) as [s'|] eqn:R; [eauto|]. destruct (s_lock s) as [k|] eqn:L; [destruct (LK k eq_refl); eauto|].
    exfalso. unfold run1 in R. rewrite ?L in R. destruct (s_pc s h) as [| | | |n m ok|n m ok|b| | | | | | |]; try discriminate C.
    - destruct (known n (s_names s)); discriminate R.
    - destruct m; discriminate R.
    - destruct b; discriminate R.
    - discriminate R. }
  (* the goroutine inside once.Do can run, or waits for a holder *)
  assert (CL : forall h, closing (s_pc s h) = true -> exists k s', run1 rel k s = Some s').
  { intros h C. destruct (run1 rel h s) as [s'|] eqn:R; [eauto|]. unfold run1 in R.
    destruct (s_pc s h) as [| | | | | | | | | | | |l|]; try discriminate C; try discriminate R.
    - destruct (s_cnt s) eqn:Z0; [discriminate R|]. destruct (i_cnt _ I) as (L & _ & H & E). destruct L as [|k L]; [cbn in E; lia|].
      apply (CT k). apply H. left. reflexivity.
    - destruct l; discriminate R. }
  destruct (run1 rel g s) as [s'|] eqn:R; [eauto|].
  destruct (counted (s_pc s g)) eqn:C; [eapply CT; exact C|]. destruct (closing (s_pc s g)) eqn:K; [eapply CL; exact K|].
  destruct (s_lock s) as [k|] eqn:L; [destruct (LK k eq_refl); eauto|].
  unfold run1 in R. rewrite ?L in R. destruct (s_pc s g) as [|c|n m ok|c|n m ok|n m ok|b|a| | | | |l|] eqn:P; try discriminate B; try discriminate C; try discriminate K.
  - destruct (match c with CColl n _ _ => bad_name n | COp _ => false end); [discriminate R|]. destruct (s_state s); discriminate R.
  - destruct (known n (s_names s)); discriminate R.
  - destruct (s_sig s); discriminate R.
  - destruct (s_once s); discriminate R.
  - destruct (s_once s) eqn:O; [|destruct (i_run _ I O) as (_ & g0 & G0 & _); eapply CL; exact G0 | discriminate R].
    destruct (i_not _ I O) as (_ & _ & N). destruct (N g) as [_ X]. contradiction.
Qed.

Definition cost_op (p : pc) : nat :=
  match p with
  | PCheck (CColl _ m _) => length m + 7 | PLook _ m _ => length m + 6 | PAdd (CColl _ m _) => length m + 5
  | PLock _ m _ => length m + 4 | PMake _ m _ => length m + 2
  | PCheck (COp b) => length b + 4 | PAdd (COp b) => length b + 3 | PBody b => length b + 2 | PDone _ => 1
  | _ => 0
  end%nat.
Definition cost_close (k : nat) (p : pc) : nat :=
  match p with
  | POnce => k + 9 | PWaitOnce => 1 | PSignal => k + 8 | PWait => k + 7 | PRel l => length l + 3 | PEnd => 1 | _ => 0
  end%nat.
Definition total (f : pc -> nat) (G : list nat) (pcs : nat -> pc) : nat := list_sum (map (fun g => f (pcs g)) G).
Lemma total_upd f G pcs g p : NoDup G -> In g G -> (total f G (upd pcs g p) + f (pcs g) = total f G pcs + f p)%nat.
Proof.
  intros ND Hin. induction G as [|h G IH]; [destruct Hin|]. inversion ND as [|? ? N1 N2]. subst. unfold total in *. cbn [map list_sum fold_right].
  destruct Hin as [->|Hin].
  - rewrite upd_same. assert (E : map (fun h => f (upd pcs g p h)) G = map (fun h => f (pcs h)) G).
    { apply map_ext_in. intros h Hh. rewrite upd_other; [reflexivity|]. intros ->. contradiction. }
    rewrite E. unfold list_sum. lia.
  - rewrite upd_other by (intros ->; contradiction). specialize (IH N2 Hin). unfold list_sum in *. lia.
Qed.
Lemma run1_cost g s s' : run1 rel g s = Some s' -> exists p, s_pc s' = upd (s_pc s) g p /\
  ((cost_op p < cost_op (s_pc s g))%nat \/
   (cost_op p = cost_op (s_pc s g) /\ s_names s' = s_names s /\
    (cost_close (length (s_names s)) p < cost_close (length (s_names s)) (s_pc s g))%nat)).
Proof.
  intros H. unfold run1 in H. destruct (s_pc s g) as [|c|n m ok|c|n m ok|n m ok|b|a| | | | |l|] eqn:P; try discriminate H;
    repeat match type of H with
    | (if ?b then _ else _) = _ => destruct b
    | (match ?x with _ => _ end) = _ => destruct x
    end; inversion H; try match goal with |- context [if ?b then _ else _] => is_var b; destruct b end; simp; (eexists; split; [reflexivity|]); cbn [cost_op cost_close length];
    first [ (left; solve [lia]) | (right; split; [reflexivity|]; split; [reflexivity|]; rewrite ?map_length; solve [lia]) | idtac ].
  all: destruct c as [n m ok|b]; left; cbn [cost_op]; lia.
Qed.
Lemma finitely_busy l : forall s, (exists G, NoDup G /\ forall g, busy (s_pc s g) = true -> In g G) ->
  exists G, NoDup G /\ forall g, busy (s_pc (acts rel s l) g) = true -> In g G.
Proof.
  assert (U : forall (pcs : nat -> pc) g p, (exists G, NoDup G /\ forall h, busy (pcs h) = true -> In h G) ->
              exists G, NoDup G /\ forall h, busy (upd pcs g p h) = true -> In h G).
  { intros pcs g p (G & A & B). destruct (in_dec Nat.eq_dec g G) as [X|X].
    - exists G. split; [exact A|]. intros h. unfold upd. destruct (Nat.eqb h g) eqn:E; [apply Nat.eqb_eq in E; subst; auto | apply B].
    - exists (g :: G). split; [constructor; assumption|]. intros h. unfold upd. destruct (Nat.eqb h g) eqn:E; [apply Nat.eqb_eq in E; subst; left; reflexivity | right; auto]. }
  induction l as [|a l IH]; intros s H; [exact H|]. apply IH. destruct a as [g c|g|g]; cbn [act1].
  - destruct (s_pc s g); try exact H. simp. apply U, H.
  - destruct (s_pc s g); try exact H. simp. apply U, H.
  - destruct (run1 rel g s) as [s'|] eqn:R; [|exact H]. destruct (run1_cost g s s' R) as (p & E & _). rewrite E. apply U, H.
Qed.
Definition steps (s' s : sys) : Prop := exists g, run1 rel g s = Some s'.
Lemma steps_acc s G : NoDup G -> (forall g, busy (s_pc s g) = true -> In g G) -> Acc steps s.
Proof.
  intros ND.
  assert (W : forall a b s, (forall g, busy (s_pc s g) = true -> In g G) ->
     total cost_op G (s_pc s) = a -> total (cost_close (length (s_names s))) G (s_pc s) = b -> Acc steps s).
  { clear s. induction a as [a IHa] using (well_founded_induction lt_wf). induction b as [b IHb] using (well_founded_induction lt_wf).
    intros s B Ea Eb. constructor. intros s' (g & R).
    assert (Hg : In g G).
    { apply B. unfold run1 in R. destruct (s_pc s g); try discriminate R; reflexivity. }
    destruct (run1_cost g s s' R) as (p & E & C).
    assert (B' : forall h, busy (s_pc s' h) = true -> In h G).
    { intros h. rewrite E. unfold upd. destruct (Nat.eqb h g) eqn:Eh; [apply Nat.eqb_eq in Eh; subst; auto | apply B]. }
    destruct C as [C|(C & N & D)].
    - pose proof (total_upd cost_op G (s_pc s) g p ND Hg) as T. eapply (IHa (total cost_op G (s_pc s'))); [|exact B'|reflexivity|reflexivity].
      rewrite E. lia.
    - pose proof (total_upd cost_op G (s_pc s) g p ND Hg) as T. pose proof (total_upd (cost_close (length (s_names s))) G (s_pc s) g p ND Hg) as T2.
      eapply (IHb (total (cost_close (length (s_names s'))) G (s_pc s'))); [|exact B'| |reflexivity].
      + rewrite N, E. lia.
      + rewrite E. lia. }
  intros B. eapply W; [exact B|reflexivity|reflexivity].
Qed.
End Proofs.
