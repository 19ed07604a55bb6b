(** Proofs for C85. *)
From Verif Require Import Bytes SMap Provider ProviderProofs World Serial.

(** ** a list of commands on one transaction *)
Fixpoint execs (cs : list cmd) (t : txn) : txn * list (result out) :=
  match cs with
  | [] => (t, [])
  | c :: cs' => let '(t1, r) := exec c t in let '(t2, rs) := execs cs' t1 in (t2, r :: rs)
  end.
Lemma execs_app a : forall b t, execs (a ++ b) t =
  let '(t1, r1) := execs a t in let '(t2, r2) := execs b t1 in (t2, r1 ++ r2).
Proof.
  induction a as [|c a IH]; intros b t; cbn [app execs].
  - destruct (execs b t). reflexivity.
  - destruct (exec c t) as [t1 r]. rewrite IH. destruct (execs a t1) as [t2 rs]. destruct (execs b t2). reflexivity.
Qed.
Lemma execs_keeps cs : forall t t' rs, execs cs t = (t', rs) ->
  keeps t t' /\ t_open t' = t_open t /\ (forall k, In k (t_reads t) -> In k (t_reads t')) /\ length rs = length cs.
Proof.
  induction cs as [|c cs IH]; intros t t' rs H; cbn [execs] in H.
  - inversion H. subst. auto using keeps_refl.
  - destruct (exec c t) as [t1 r] eqn:E1. destruct (execs cs t1) as [t2 rs'] eqn:E2. inversion H. subst.
    destruct (exec_keeps _ _ _ _ E1) as [K O]. destruct (exec_trace _ _ _ _ E1) as (_ & M & _).
    destruct (IH _ _ _ E2) as (K' & O' & M' & L). cbn [length].
    split; [eapply keeps_trans; eassumption|]. split; [congruence|]. split; [auto|lia].
Qed.
Lemma execs_pend cs : forall t t' rs, execs cs t = (t', rs) ->
  forall k, get (t_pend t') k = match last_write (t_now t) (combine cs rs) k with Some o => Some o | None => get (t_pend t) k end.
Proof.
  induction cs as [|c cs IH]; intros t t' rs H k; cbn [execs] in H.
  - inversion H. reflexivity.
  - destruct (exec c t) as [t1 r] eqn:E1. destruct (execs cs t1) as [t2 rs'] eqn:E2. inversion H. subst.
    destruct (exec_keeps _ _ _ _ E1) as [(_ & _ & K & _) _]. destruct (exec_trace _ _ _ _ E1) as (P & _ & _).
    rewrite (IH _ _ _ E2), K, P. cbn [combine last_write]. destruct (last_write _ _ k); reflexivity.
Qed.
Lemma write_of_none now l : (forall k, last_write now l k = None) <-> existsb wrote l = false.
Proof.
  induction l as [|[c r] l IH]; cbn [last_write existsb]; [split; reflexivity|].
  assert (W : (forall k, write_of now c r k = None) <-> wrote (c, r) = false).
  { destruct c as [k0 v m|k0| | |]; destruct r as [x|x|]; cbn [write_of wrote]; split; try reflexivity; try discriminate;
      intros H; specialize (H k0); rewrite bytes_eqb_refl in H; discriminate H. }
  rewrite orb_false_iff, <- W, <- IH. split.
  - intros H. assert (A : forall k, last_write now l k = None).
    { intros k. specialize (H k). destruct (last_write now l k); [discriminate H|reflexivity]. }
    split; [|exact A]. intros k. specialize (H k). rewrite A in H. exact H.
  - intros [H1 H2] k. rewrite H2. apply H1.
Qed.
Lemma execs_wrote cs t t' rs : t_pend t = empty -> execs cs t = (t', rs) ->
  (entries (t_pend t') = [] <-> existsb wrote (combine cs rs) = false).
Proof.
  intros E H. pose proof (execs_pend _ _ _ _ H) as P. rewrite <- (write_of_none (t_now t)).
  rewrite E in P. split.
  - intros N k. apply entries_nil_iff in N. specialize (P k). rewrite N in P. cbn [get empty entries find] in P.
    destruct (last_write _ _ k); [discriminate P|reflexivity].
  - intros N. apply entries_nil_iff. apply smap_ext. intros k. rewrite P, N. reflexivity.
Qed.
Lemma execs_readonly cs : forall t t' rs, t_upd t = false -> execs cs t = (t', rs) -> existsb wrote (combine cs rs) = false.
Proof.
  induction cs as [|c cs IH]; intros t t' rs U H; cbn [execs] in H; [inversion H; reflexivity|].
  destruct (exec c t) as [t1 r] eqn:E1. destruct (execs cs t1) as [t2 rs'] eqn:E2. inversion H. subst.
  destruct (exec_keeps _ _ _ _ E1) as [(_ & _ & _ & K & _) _]. cbn [combine existsb]. rewrite (IH _ _ _ (eq_trans K U) E2), orb_false_r.
  destruct c as [k0 v m|k0| | |]; try reflexivity; cbn [exec] in E1; unfold bind, tsetm, tdel, map_err, modify in E1;
    rewrite U in E1; cbn [negb] in E1; inversion E1; reflexivity.
Qed.

(** ** two transactions that agree on everything the first one reads *)
Definition eternal (m : smap ent) : Prop := forall k e, get m k = Some e -> e_exp e = 0.
Definition plain (c : cmd) : Prop := match c with CSet _ _ m => m = None | _ => True end.
(** the clock does not matter *)
Definition timeless (t1 t2 : txn) (cs : list cmd) : Prop :=
  t_now t1 = t_now t2 \/
  (Forall plain cs /\ eternal (t_snap t1) /\ eternal (t_snap t2) /\ forall k e, get (t_pend t1) k = Some (Some e) -> e_exp e = 0).
Definition alike (t1 t2 : txn) : Prop :=
  t_upd t1 = t_upd t2 /\ t_open t1 = t_open t2 /\ t_lim t1 = t_lim t2 /\ t_pend t1 = t_pend t2.
Lemma live_eternal now e : e_exp e = 0 -> live now e = true.
Proof. intros H. unfold live. rewrite H. reflexivity. Qed.
Lemma modify_alike k o1 o2 t1 t2 : alike t1 t2 -> o1 = o2 ->
  exists r, snd (modify k o1 t1) = r /\ snd (modify k o2 t2) = r /\ alike (fst (modify k o1 t1)) (fst (modify k o2 t2)).
Proof.
  intros (U & O & L & P) <-. unfold modify. rewrite <- U, <- O, <- L.
  destruct (negb (t_upd t1)); [eexists; repeat split; assumption|].
  destruct (negb (t_open t1)); [eexists; repeat split; assumption|].
  destruct (key_err k); [eexists; repeat split; assumption|].
  destruct (t_lim t1) as [|[|] l]; eexists; repeat split; cbn [fst put set_lim t_upd t_open t_lim t_pend]; congruence.
Qed.
Lemma view_alike k t1 t2 c cs : alike t1 t2 -> timeless t1 t2 (c :: cs) ->
  (get (t_pend t1) k = None -> get (t_snap t1) k = get (t_snap t2) k) -> get (view t1) k = get (view t2) k.
Proof.
  intros (_ & _ & _ & P) T S. rewrite !get_view, <- P. destruct (get (t_pend t1) k) as [o|] eqn:E.
  - destruct o as [e|]; [|reflexivity]. destruct T as [->|(_ & _ & _ & T)]; [reflexivity|].
    rewrite !live_eternal by (eapply T; exact E). reflexivity.
  - rewrite <- S by reflexivity. destruct (get (t_snap t1) k) as [e|] eqn:G; [|reflexivity].
    destruct T as [->|(_ & T & _ & _)]; [reflexivity|]. rewrite !live_eternal by (eapply T; exact G). reflexivity.
Qed.
Lemma track_alike k t1 t2 : alike t1 t2 -> alike (track k t1) (track k t2).
Proof.
  intros (U & O & L & P). unfold track, add_read. rewrite <- P, <- U.
  destruct (get (t_pend t1) k); [repeat split; assumption|]. destruct (t_upd t1) eqn:E; repeat split; cbn; congruence.
Qed.
Lemma exec_alike c cs t1 t2 t1' r : alike t1 t2 -> t_upd t1 = true -> scans c = false -> timeless t1 t2 (c :: cs) ->
  exec c t1 = (t1', r) -> (forall k, In k (t_reads t1') -> get (t_snap t1) k = get (t_snap t2) k) ->
  exists t2', exec c t2 = (t2', r) /\ alike t1' t2' /\ timeless t1' t2' cs.
Proof.
  intros A U NS T H R. pose proof (exec_keeps _ _ _ _ H) as [(K1 & _ & K3 & K4 & _) KO].
  assert (TL : forall t2' r2, exec c t2 = (t2', r2) -> timeless t1' t2' cs).
  { intros t2' r2 H2. destruct (exec_keeps _ _ _ _ H2) as [(Q1 & _ & Q3 & _) _]. destruct T as [T|(F & E1 & E2 & E3)]; [left; congruence|].
    right. inversion F as [|? ? Fc Fcs]; subst. split; [exact Fcs|]. rewrite K1, Q1. split; [exact E1|]. split; [exact E2|].
    intros k e G. destruct (exec_trace _ _ _ _ H) as (P & _ & _). rewrite P in G.
    destruct (write_of (t_now t1) c r k) as [o|] eqn:W; [|eapply E3; exact G].
    inversion G. subst o. destruct c as [k0 v m|k0| | |]; cbn [write_of] in W; destruct r; try discriminate W;
      destruct (bytes_eqb k k0); inversion W. cbn [plain] in Fc. subst m. reflexivity. }
  assert (G : exists t2', exec c t2 = (t2', r) /\ alike t1' t2').
  2:{ destruct G as (t2' & G1 & G2). exists t2'. split; [exact G1|]. split; [exact G2|]. eapply TL. exact G1. }
  destruct c as [k v m|k|k|k|o n]; try discriminate NS; cbn [exec] in *.
  - assert (E : entry_of (t_now t1) v m = entry_of (t_now t2) v m).
    { destruct T as [->|(F & _)]; [reflexivity|]. inversion F as [|? ? Fc _]; subst. cbn [plain] in Fc. subst m. reflexivity. }
    destruct (modify_alike k (Some (entry_of (t_now t1) v m)) (Some (entry_of (t_now t2) v m)) t1 t2 A ltac:(congruence)) as (r0 & M1 & M2 & M3).
    unfold bind, tsetm, map_err, ret in *.
    destruct (modify k (Some (entry_of (t_now t1) v m)) t1) as [x1 y1]. destruct (modify k (Some (entry_of (t_now t2) v m)) t2) as [x2 y2].
    cbn [fst snd] in *. subst y1 y2. destruct r0; inversion H; subst; eexists; split; try reflexivity; exact M3.
  - destruct (modify_alike k None None t1 t2 A eq_refl) as (r0 & M1 & M2 & M3).
    unfold bind, tdel, map_err, ret in *.
    destruct (modify k None t1) as [x1 y1]. destruct (modify k None t2) as [x2 y2].
    cbn [fst snd] in *. subst y1 y2. destruct r0; inversion H; subst; eexists; split; try reflexivity; exact M3.
  - unfold bind, tgetm, map_err, bget, ret in *. destruct k as [|c0 k]; [inversion H; subst; eexists; split; [reflexivity|exact A]|].
    pose proof A as (_ & O & _). rewrite <- O. destruct (negb (t_open t1)); [inversion H; subst; eexists; split; [reflexivity|exact A]|].
    assert (Et : t1' = track (c0 :: k) t1) by (destruct (get (view t1) (c0 :: k)); inversion H; reflexivity). subst t1'.
    rewrite <- (view_alike (c0 :: k) t1 t2 (CGet (c0 :: k)) cs A T).
    2:{ intros N. apply R. apply track_reads; assumption. }
    exists (track (c0 :: k) t2). split; [|apply track_alike, A]. destruct (get (view t1) (c0 :: k)); inversion H; reflexivity.
  - unfold bind, texists, try, bget, ret, fail in *. destruct k as [|c0 k]; [inversion H; subst; eexists; split; [reflexivity|exact A]|].
    pose proof A as (_ & O & _). rewrite <- O. destruct (negb (t_open t1)); [inversion H; subst; eexists; split; [reflexivity|exact A]|].
    assert (Et : t1' = track (c0 :: k) t1) by (destruct (get (view t1) (c0 :: k)); inversion H; reflexivity). subst t1'.
    rewrite <- (view_alike (c0 :: k) t1 t2 (CExists (c0 :: k)) cs A T).
    2:{ intros N. apply R. apply track_reads; assumption. }
    exists (track (c0 :: k) t2). split; [|apply track_alike, A]. destruct (get (view t1) (c0 :: k)); inversion H; reflexivity.
Qed.
Lemma execs_alike cs : forall t1 t2 t1' rs, alike t1 t2 -> t_upd t1 = true -> forallb (fun c => negb (scans c)) cs = true ->
  timeless t1 t2 cs -> execs cs t1 = (t1', rs) ->
  (forall k, In k (t_reads t1') -> get (t_snap t1) k = get (t_snap t2) k) ->
  exists t2', execs cs t2 = (t2', rs) /\ alike t1' t2'.
Proof.
  induction cs as [|c cs IH]; intros t1 t2 t1' rs A U NS T H R; cbn [execs] in *.
  - inversion H. subst. exists t2. split; [reflexivity|exact A].
  - destruct (exec c t1) as [x1 r] eqn:E1. destruct (execs cs x1) as [y1 rs'] eqn:E2. inversion H. subst.
    cbn [forallb] in NS. apply andb_prop in NS. destruct NS as [NS1 NS2]. apply negb_true_iff in NS1.
    pose proof (execs_keeps _ _ _ _ E2) as (_ & _ & M & _). destruct (exec_keeps _ _ _ _ E1) as [(K1 & _ & _ & K4 & _) _].
    destruct (exec_alike c cs t1 t2 x1 r A U NS1 T E1) as (x2 & X1 & X2 & X3); [auto|].
    destruct (exec_keeps _ _ _ _ X1) as [(Q1 & _) _].
    destruct (IH x1 x2 t1' rs' X2) as (t2' & Y1 & Y2); [congruence | exact NS2 | exact X3 | exact E2 | |].
    { intros k Hk. rewrite K1, Q1. auto. }
    exists t2'. rewrite X1, Y1. split; [reflexivity|exact Y2].
Qed.

(** a scan sees only the view: with alike views even scans agree *)
Lemma exec_same_view c t1 t2 : t_upd t1 = t_upd t2 -> t_open t1 = true -> t_open t2 = true -> t_lim t1 = t_lim t2 ->
  t_clamp t1 = t_clamp t2 -> (t_now t1 = t_now t2 \/ plain c) -> view t1 = view t2 ->
  let '(t1', r1) := exec c t1 in let '(t2', r2) := exec c t2 in
  r1 = r2 /\ view t1' = view t2' /\ t_upd t1' = t_upd t2' /\ t_open t1' = true /\ t_open t2' = true /\ t_lim t1' = t_lim t2' /\
  t_clamp t1' = t_clamp t2' /\ t_now t1' = t_now t1 /\ t_now t2' = t_now t2.
Proof.
  intros U O1 O2 L C N V. destruct (exec_ref c t1 O1) as (a & A1 & A2 & A3 & A4 & (A5 & A6 & A7 & A8 & A9)).
  destruct (exec_ref c t2 O2) as (b & B1 & B2 & B3 & B4 & (B5 & B6 & B7 & B8 & B9)). rewrite A1, B1.
  assert (E : ref_op (t_upd t1) (t_clamp t1) (t_now t1) (view t1, t_lim t1) c = ref_op (t_upd t2) (t_clamp t2) (t_now t2) (view t2, t_lim t2) c).
  { rewrite U, C, L, V. destruct N as [->|P]; [reflexivity|]. destruct c as [k v m| | | |]; try reflexivity.
    cbn [plain] in P. subst m. cbn [ref_op entry_of]. rewrite !live_mk. reflexivity. }
  rewrite E in *. repeat split; congruence.
Qed.
Lemma execs_same_view cs : forall t1 t2, t_upd t1 = t_upd t2 -> t_open t1 = true -> t_open t2 = true -> t_lim t1 = t_lim t2 ->
  t_clamp t1 = t_clamp t2 -> (t_now t1 = t_now t2 \/ Forall plain cs) -> view t1 = view t2 ->
  snd (execs cs t1) = snd (execs cs t2).
Proof.
  induction cs as [|c cs IH]; intros t1 t2 U O1 O2 L C N V; cbn [execs]; [reflexivity|].
  assert (N1 : t_now t1 = t_now t2 \/ plain c) by (destruct N as [N|N]; [left; exact N | right; inversion N; assumption]).
  pose proof (exec_same_view c t1 t2 U O1 O2 L C N1 V) as X.
  destruct (exec c t1) as [a ra]. destruct (exec c t2) as [b rb]. destruct X as (-> & X1 & X2 & X3 & X4 & X5 & X6 & X7 & X8).
  specialize (IH a b X2 X3 X4 X5 X6). destruct (execs cs a) as [a' ras]. destruct (execs cs b) as [b' rbs]. cbn [snd] in *.
  f_equal. apply IH; [|exact X1]. destruct N as [N|N]; [left; congruence | right; inversion N; assumption].
Qed.

(** ** runs *)
Lemma run_app a : forall b w, run w (a ++ b) =
  let '(w1, r1) := run w a in let '(w2, r2) := run w1 b in (w2, r1 ++ r2).
Proof.
  induction a as [|e a IH]; intros b w; cbn [app run].
  - destruct (run w b). reflexivity.
  - destruct (step w e) as [w1 r]. rewrite IH. destruct (run w1 a) as [w2 rs]. destruct (run w2 b). reflexivity.
Qed.
Lemma run_length es : forall w, length (snd (run w es)) = length es.
Proof. induction es as [|e es IH]; intros w; cbn [run]; [reflexivity|]. destruct (step w e) as [w1 r]. specialize (IH w1). destruct (run w1 es). cbn in *. lia. Qed.
Lemma combine_app {A B} (a : list A) : forall (b : list B) a' b', length a = length b ->
  combine (a ++ a') (b ++ b') = combine a b ++ combine a' b'.
Proof. induction a as [|x a IH]; intros [|y b] a' b' H; try discriminate H; [reflexivity|]. cbn. f_equal. apply IH. injection H; auto. Qed.
Lemma journal_app w a b : journal_of w (a ++ b) =
  fold_left jstep (combine b (snd (run (fst (run w a)) b))) (journal_of w a).
Proof.
  unfold journal_of. rewrite run_app. pose proof (run_length a w) as L. destruct (run w a) as [w1 r1]. cbn [fst snd] in *.
  destruct (run w1 b) as [w2 r2]. cbn [snd]. rewrite combine_app by (symmetry; exact L). apply fold_left_app.
Qed.
Lemma journal_snoc w a e : journal_of w (a ++ [e]) = jstep (journal_of w a) (e, snd (step (fst (run w a)) e)).
Proof. rewrite journal_app. cbn [run]. destruct (step (fst (run w a)) e). reflexivity. Qed.
Lemma run_fst_app a : forall b w, fst (run w (a ++ b)) = fst (run (fst (run w a)) b).
Proof. intros. rewrite run_app. destruct (run w a) as [w1 r1]. cbn [fst]. destruct (run w1 b). reflexivity. Qed.
Lemma run_fst_snoc a e w : fst (run w (a ++ [e])) = fst (step (fst (run w a)) e).
Proof. rewrite run_fst_app. cbn [run]. destruct (step (fst (run w a)) e). reflexivity. Qed.

Lemma find_forget_same i l : find_tx i (forget i l) = None.
Proof.
  unfold find_tx, forget. induction l as [|[j d] l IH]; cbn [filter find fst]; [reflexivity|].
  destruct (Nat.eqb i j) eqn:E; cbn [negb]; [exact IH|]. cbn [find fst]. rewrite E. exact IH.
Qed.
Lemma find_forget_other i j l : i <> j -> find_tx i (forget j l) = find_tx i l.
Proof.
  intros N. unfold find_tx, forget. induction l as [|[k d] l IH]; cbn [filter find fst]; [reflexivity|].
  destruct (Nat.eqb j k) eqn:E; cbn [negb].
  - apply Nat.eqb_eq in E. subst k. rewrite (proj2 (Nat.eqb_neq i j) N). exact IH.
  - cbn [find fst]. destruct (Nat.eqb i k); [reflexivity|exact IH].
Qed.
Lemma find_cons i j d l : find_tx i ((j, d) :: l) = if Nat.eqb i j then Some d else find_tx i l.
Proof. unfold find_tx. cbn [find fst]. destruct (Nat.eqb i j); reflexivity. Qed.

(** running commands of one transaction in a row *)
Lemma run_do i cs : forall w t, w_tx w i = Some t ->
  run w (map (Do i) cs) = (World (w_db w) (w_tx (fst (run w (map (Do i) cs)))), map Some (snd (execs cs t))) /\
  w_tx (fst (run w (map (Do i) cs))) i = Some (fst (execs cs t)).
Proof.
  induction cs as [|c cs IH]; intros w t Hw; cbn [map run execs].
  - destruct w. cbn in *. auto.
  - cbn [step]. rewrite Hw. destruct (exec c t) as [t1 r] eqn:E.
    destruct (IH (World (w_db w) (upd_tx (w_tx w) i t1)) t1) as [H1 H2].
    { cbn. unfold upd_tx. rewrite Nat.eqb_refl. reflexivity. }
    destruct (run (World (w_db w) (upd_tx (w_tx w) i t1)) (map (Do i) cs)) as [w2 rs]. cbn [fst snd] in *.
    destruct (execs cs t1) as [t2 rs2]. cbn [fst snd map] in *. inversion H1 as [[H3 H4]]. cbn [w_db w_tx]. split; [|exact H2].
    rewrite <- H4. rewrite H3 at 1. reflexivity.
Qed.
Lemma journal_do i cs : forall (rs : list (result out)) d l dn, length rs = length cs ->
  exists o, fold_left jstep (combine (map (Do i) cs) (map Some rs)) (Journal ((i, d) :: forget i l) dn) =
    Journal ((i, Deed (s_upd d) (s_lim d) (s_calls d ++ combine cs rs)) :: o) dn /\ o = forget i l.
Proof.
  induction cs as [|c cs IH]; intros [|r rs] d l dn L; try discriminate L; cbn [map combine fold_left].
  - rewrite app_nil_r. destruct d. eauto.
  - cbn [jstep j_open]. rewrite find_cons, Nat.eqb_refl. cbn [j_done].
    assert (F : forget i ((i, d) :: forget i l) = forget i l).
    { unfold forget. cbn [filter fst]. rewrite Nat.eqb_refl. cbn [negb].
      induction l as [|[j x] l IHl]; cbn [filter fst]; [reflexivity|]. destruct (Nat.eqb i j) eqn:E; cbn [negb]; [exact IHl|].
      cbn [filter fst]. rewrite E. cbn [negb]. f_equal. exact IHl. }
    rewrite F. destruct (IH rs (Deed (s_upd d) (s_lim d) (s_calls d ++ [(c, r)])) l dn) as (o & Ho & ->); [injection L; auto|].
    rewrite Ho. cbn [s_upd s_lim s_calls]. rewrite <- app_assoc. cbn [app]. eauto.
Qed.

(** ** the invariant *)
Definition calls_plain (r : deed) : Prop := Forall plain (calls r).
Record inv (now : Z) (clamp : bool) (es : list ev) : Prop := Inv {
  i_kv : d_kv (w_db (fst (run (fresh_db now clamp) (serial (committed (fresh_db now clamp) es))))) =
         d_kv (w_db (fst (run (fresh_db now clamp) es)));
  i_snow : d_now (w_db (fst (run (fresh_db now clamp) (serial (committed (fresh_db now clamp) es))))) = now;
  i_sclamp : d_clamp (w_db (fst (run (fresh_db now clamp) (serial (committed (fresh_db now clamp) es))))) = clamp;
  i_clamp : d_clamp (w_db (fst (run (fresh_db now clamp) es))) = clamp;
  i_now : no_tick es -> d_now (w_db (fst (run (fresh_db now clamp) es))) = now;
  i_ser : journal_of (fresh_db now clamp) (serial (committed (fresh_db now clamp) es)) =
          Journal [] (committed (fresh_db now clamp) es);
  i_open : forall i r, find_tx i (j_open (journal_of (fresh_db now clamp) es)) = Some r ->
     exists t d, w_tx (fst (run (fresh_db now clamp) es)) i = Some t /\
       execs (calls r) (new_txn d (s_upd r) (s_lim r)) = (t, map snd (s_calls r)) /\
       (no_tick es -> d_now d = now) /\ (no_ttl es -> Forall plain (calls r) /\ eternal (d_kv d));
  i_closed : forall i t, find_tx i (j_open (journal_of (fresh_db now clamp) es)) = None ->
     w_tx (fst (run (fresh_db now clamp) es)) i = Some t -> t_open t = false;
  i_eternal : no_ttl es -> eternal (d_kv (w_db (fst (run (fresh_db now clamp) es)))) }.

Lemma no_tick_snoc es e : no_tick (es ++ [e]) -> no_tick es.
Proof. intros H n Hin. apply (H n), in_or_app. left. exact Hin. Qed.
Lemma no_ttl_snoc es e : no_ttl (es ++ [e]) -> no_ttl es.
Proof. intros H i k v m Hin. apply (H i k v m), in_or_app. left. exact Hin. Qed.
Lemma no_ttl_plain es i c : no_ttl (es ++ [Do i c]) -> plain c.
Proof. intros H. destruct c as [k v m| | | |]; cbn; auto. apply (H i k v m), in_or_app. right. left. reflexivity. Qed.
Lemma combine_split_calls (l : list (cmd * result out)) : combine (map fst l) (map snd l) = l.
Proof. induction l as [|[c r] l IH]; cbn; [reflexivity|]. f_equal. exact IH. Qed.
Lemma serial_snoc l r : serial (l ++ [r]) = serial l ++ one r.
Proof. unfold serial. rewrite map_app, concat_app. cbn. rewrite app_nil_r. reflexivity. Qed.

Lemma execs_eternal cs : forall t t' rs, Forall plain cs -> (forall k e, get (t_pend t) k = Some (Some e) -> e_exp e = 0) ->
  execs cs t = (t', rs) -> forall k e, get (t_pend t') k = Some (Some e) -> e_exp e = 0.
Proof.
  induction cs as [|c cs IH]; intros t t' rs F P H k e G; cbn [execs] in H; [inversion H; subst; eapply P; exact G|].
  destruct (exec c t) as [t1 r] eqn:E1. destruct (execs cs t1) as [t2 rs'] eqn:E2. inversion H. subst.
  inversion F as [|? ? Fc Fcs]. subst. eapply (IH t1); [exact Fcs | | exact E2 | exact G].
  intros k1 e1 G1. destruct (exec_trace _ _ _ _ E1) as (Q & _ & _). rewrite Q in G1.
  destruct (write_of (t_now t) c r k1) as [o|] eqn:W; [|eapply P; exact G1]. inversion G1. subst o.
  destruct c as [k0 v m|k0| | |]; cbn [write_of] in W; destruct r; try discriminate W;
    destruct (bytes_eqb k1 k0); inversion W. cbn [plain] in Fc. subst m. reflexivity.
Qed.
Lemma eternal_publish d t : eternal (d_kv d) -> (forall k e, get (t_pend t) k = Some (Some e) -> e_exp e = 0) -> eternal (d_kv (publish d t)).
Proof.
  intros H P k e. cbn [publish d_kv]. rewrite get_apply_pend. destruct (get (t_pend t) k) as [o|] eqn:E; [|apply H].
  intros ->. eapply P. exact E.
Qed.

(** one serial transaction *)
Lemma run_one w0 pre r t2 outs : let ws := fst (run w0 pre) in
  execs (calls r) (new_txn (w_db ws) (s_upd r) (s_lim r)) = (t2, outs) ->
  outs = map snd (s_calls r) -> existsb wrote (s_calls r) = true ->
  wok ws -> journal_of w0 pre = Journal [] (j_done (journal_of w0 pre)) ->
  w_db (fst (run w0 (pre ++ one r))) = publish (w_db ws) t2 /\
  journal_of w0 (pre ++ one r) = Journal [] (j_done (journal_of w0 pre) ++ [r]).
Proof.
  intros ws E -> W OK J. set (t0 := new_txn (w_db ws) (s_upd r) (s_lim r)) in *.
  set (w1 := fst (step ws (Begin 0 (s_upd r) (s_lim r)))).
  assert (Hw : w_tx w1 0%nat = Some t0) by reflexivity.
  destruct (run_do 0 (calls r) w1 t0 Hw) as [R1 R2]. rewrite E in R1, R2. cbn [fst snd] in R1, R2.
  destruct (execs_keeps _ _ _ _ E) as ((K1 & K2 & _) & O & _ & L). cbn [t0 new_txn t_open t_rts] in *.
  assert (NE : entries (t_pend t2) <> []).
  { intros N. apply (execs_wrote (calls r) t0 t2 _ eq_refl E) in N. unfold calls in N. rewrite combine_split_calls in N. congruence. }
  assert (C : commit (w_db ws) t2 false = (publish (w_db ws) t2, close t2, Ok tt)).
  { unfold commit. rewrite O. cbn [negb]. destruct (entries (t_pend t2)) eqn:Ee; [congruence|].
    assert (CF : conflict (w_db ws) t2 = false); [|rewrite CF; reflexivity].
    unfold conflict. apply not_true_iff_false. intros X. apply existsb_exists in X. destruct X as (k & _ & X).
    destruct (get (d_last (w_db ws)) k) as [ts|] eqn:G; [|discriminate X]. apply Nat.ltb_lt in X. rewrite K2 in X.
    apply (proj1 OK) in G. lia. }
  assert (RO : run ws (one r) = (World (publish (w_db ws) t2) (upd_tx (w_tx (fst (run w1 (map (Do 0) (calls r))))) 0 (close t2)),
      None :: map Some (map snd (s_calls r)) ++ [Some (Ok OUnit)])).
  { unfold one, alone. cbn [app run]. change (step ws (Begin 0 (s_upd r) (s_lim r))) with (w1, @None (result out)).
    cbv beta iota. rewrite run_app, R1. cbn [run step w_tx]. cbn [fst] in R2. rewrite R2. change (w_db w1) with (w_db ws). cbn [w_db].
    rewrite C. reflexivity. }
  split.
  - rewrite run_fst_app. fold ws. rewrite RO. reflexivity.
  - rewrite journal_app. fold ws. rewrite RO, J. cbn [snd j_done]. unfold one, alone. cbn [app combine fold_left jstep j_open j_done].
    rewrite combine_app by (rewrite !map_length; unfold calls; rewrite map_length; reflexivity).
    rewrite fold_left_app. cbn [forget filter].
    destruct (journal_do 0 (calls r) (map snd (s_calls r)) (Deed (s_upd r) (s_lim r) []) [] (j_done (journal_of w0 pre))) as (o & Ho & Eo).
    { unfold calls. rewrite !map_length. reflexivity. }
    cbn [forget filter] in Ho, Eo. rewrite Ho, Eo. cbn [s_upd s_lim s_calls app combine fold_left jstep j_open j_done].
    rewrite find_cons. cbn [Nat.eqb s_calls]. unfold calls. rewrite combine_split_calls, W. destruct r as [u lim l]. reflexivity.
Qed.

Lemma journal_done_snoc w es e : exists l, committed w (es ++ [e]) = committed w es ++ l.
Proof.
  unfold committed. rewrite journal_snoc. destruct e as [i u lim|i c|i io|i|n]; cbn [jstep];
    try (exists []; rewrite app_nil_r; reflexivity).
  - destruct (snd (step _ _)); [|exists []; rewrite app_nil_r; reflexivity].
    destruct (find_tx _ _); exists []; rewrite app_nil_r; reflexivity.
  - destruct (snd (step _ _)) as [[x|x|]|]; try (exists []; rewrite app_nil_r; reflexivity).
    destruct (find_tx _ _); [eexists; reflexivity | exists []; rewrite app_nil_r; reflexivity].
Qed.

Lemma inv_init now clamp : inv now clamp [].
Proof. split; cbn; try reflexivity; try discriminate; auto. Qed.

Lemma inv_same now clamp es e : let w0 := fresh_db now clamp in
  inv now clamp es ->
  committed w0 (es ++ [e]) = committed w0 es ->
  d_kv (w_db (fst (run w0 (es ++ [e])))) = d_kv (w_db (fst (run w0 es))) ->
  d_clamp (w_db (fst (run w0 (es ++ [e])))) = d_clamp (w_db (fst (run w0 es))) ->
  (no_tick (es ++ [e]) -> d_now (w_db (fst (run w0 (es ++ [e])))) = d_now (w_db (fst (run w0 es)))) ->
  (forall i r, find_tx i (j_open (journal_of w0 (es ++ [e]))) = Some r ->
     exists t d, w_tx (fst (run w0 (es ++ [e]))) i = Some t /\
       execs (calls r) (new_txn d (s_upd r) (s_lim r)) = (t, map snd (s_calls r)) /\
       (no_tick (es ++ [e]) -> d_now d = now) /\ (no_ttl (es ++ [e]) -> Forall plain (calls r) /\ eternal (d_kv d))) ->
  (forall i t, find_tx i (j_open (journal_of w0 (es ++ [e]))) = None ->
     w_tx (fst (run w0 (es ++ [e]))) i = Some t -> t_open t = false) ->
  inv now clamp (es ++ [e]).
Proof.
  intros w0 I D K C N O Cl. destruct I as [I1 I2 I3 I4 I5 I6 I7 I8 I9]. fold w0 in I1, I2, I3, I4, I5, I6, I7, I8, I9. split; fold w0; rewrite ?D, ?K, ?C; try assumption.
  - intros T. rewrite (N T). apply I5. eapply no_tick_snoc. exact T.
  - intros T. apply I9. eapply no_ttl_snoc. exact T.
Qed.

(** an event that leaves transaction j alone keeps its part of the invariant *)
Lemma open_mono now clamp es e i r : let w0 := fresh_db now clamp in
  inv now clamp es -> find_tx i (j_open (journal_of w0 es)) = Some r ->
  w_tx (fst (run w0 (es ++ [e]))) i = w_tx (fst (run w0 es)) i ->
  exists t d, w_tx (fst (run w0 (es ++ [e]))) i = Some t /\
       execs (calls r) (new_txn d (s_upd r) (s_lim r)) = (t, map snd (s_calls r)) /\
       (no_tick (es ++ [e]) -> d_now d = now) /\ (no_ttl (es ++ [e]) -> Forall plain (calls r) /\ eternal (d_kv d)).
Proof.
  intros w0 I F E. destruct (i_open _ _ _ I i r F) as (t & d & A & B & C & D). exists t, d. fold w0 in A. rewrite E.
  split; [exact A|]. split; [exact B|]. split; [intros T; apply C; eapply no_tick_snoc; exact T | intros T; apply D; eapply no_ttl_snoc; exact T].
Qed.

Lemma find_cons_forget i j d l : find_tx i ((j, d) :: forget j l) = if Nat.eqb i j then Some d else find_tx i l.
Proof. rewrite find_cons. destruct (Nat.eqb i j) eqn:E; [reflexivity|]. apply find_forget_other, Nat.eqb_neq, E. Qed.
Lemma find_forget i j l : find_tx i (forget j l) = if Nat.eqb i j then None else find_tx i l.
Proof.
  destruct (Nat.eqb i j) eqn:E; [apply Nat.eqb_eq in E; subst; apply find_forget_same | apply find_forget_other, Nat.eqb_neq, E].
Qed.
Lemma commit_closed d t io : t_open t = true -> t_open (snd (fst (commit d t io))) = false.
Proof.
  intros O. unfold commit. rewrite O. cbn [negb]. destruct (entries (t_pend t)); [reflexivity|].
  destruct (conflict d t); [reflexivity|]. destruct io; reflexivity.
Qed.
Lemma commit_now d t io : d_now (fst (fst (commit d t io))) = d_now d /\ d_clamp (fst (fst (commit d t io))) = d_clamp d.
Proof.
  unfold commit. destruct (negb (t_open t)); [auto|]. destruct (entries (t_pend t)); [auto|].
  destruct (conflict d t); [auto|]. destruct io; auto.
Qed.

Lemma inv_step now clamp es e : let w0 := fresh_db now clamp in
  inv now clamp es -> no_ttl (es ++ [e]) \/ no_tick (es ++ [e]) ->
  (forall r, In r (committed w0 (es ++ [e])) -> forallb (fun c => negb (scans c)) (calls r) = true) ->
  inv now clamp (es ++ [e]).
Proof.
  intros w0 I T NS. set (w := fst (run w0 es)). set (J := journal_of w0 es).
  assert (Rw : fst (run w0 (es ++ [e])) = fst (step w e)) by apply run_fst_snoc.
  assert (Rj : journal_of w0 (es ++ [e]) = jstep J (e, snd (step w e))) by apply journal_snoc.
  assert (OK : wok w) by (apply run_wok, wok_init).
  destruct e as [i u lim|i c|i io|i|n].
  - (* Begin *)
    apply inv_same; fold w0; rewrite ?Rw; fold w; try reflexivity; try exact I.
    + unfold committed. rewrite Rj. reflexivity.
    + intros j r. rewrite Rj. cbn [step snd jstep j_open fst]. rewrite find_cons_forget. destruct (Nat.eqb j i) eqn:E.
      * intros H. inversion H. subst r. apply Nat.eqb_eq in E. subst j. exists (new_txn (w_db w) u lim), (w_db w). cbn [w_tx].
        unfold upd_tx. rewrite Nat.eqb_refl. split; [reflexivity|]. split; [reflexivity|]. split.
        -- intros X. apply (i_now _ _ _ I). eapply no_tick_snoc. exact X.
        -- intros X. split; [constructor|]. apply (i_eternal _ _ _ I). eapply no_ttl_snoc. exact X.
      * intros F. pose proof (open_mono now clamp es (Begin i u lim) j r I F) as M. fold w0 in M. rewrite Rw in M. apply M.
        cbn. unfold upd_tx. rewrite E. reflexivity.
    + intros j t. rewrite Rj. cbn [step snd jstep j_open fst w_tx]. rewrite find_cons_forget. unfold upd_tx. destruct (Nat.eqb j i); [discriminate|].
      apply (i_closed _ _ _ I).
  - (* Do *)
    destruct (w_tx w i) as [t|] eqn:Hw.
    + destruct (exec c t) as [t1 r1] eqn:Ex.
      assert (St : step w (Do i c) = (World (w_db w) (upd_tx (w_tx w) i t1), Some r1)) by (cbn [step]; rewrite Hw, Ex; reflexivity).
      rewrite St in Rw, Rj. cbn [fst snd] in Rw, Rj. cbn [jstep] in Rj.
      destruct (find_tx i (j_open J)) as [r|] eqn:F.
      * destruct (i_open _ _ _ I i r F) as (t' & d & A & B & C & D). fold w0 in A. fold w in A. rewrite Hw in A. inversion A. subst t'.
        apply inv_same; fold w0; rewrite ?Rw; fold w; try reflexivity; try exact I.
        -- unfold committed. rewrite Rj. reflexivity.
        -- intros j r'. rewrite Rj. cbn [j_open w_tx]. rewrite find_cons_forget. destruct (Nat.eqb j i) eqn:E.
           ++ intros H. inversion H. subst r'. apply Nat.eqb_eq in E. subst j. exists t1, d. unfold upd_tx. rewrite Nat.eqb_refl.
              split; [reflexivity|]. split; [|split].
              ** unfold calls. cbn [s_calls s_upd s_lim]. rewrite map_app. cbn [map fst]. rewrite execs_app. unfold calls in B. rewrite B.
                 cbn [execs]. rewrite Ex, map_app. reflexivity.
              ** intros X. apply C. eapply no_tick_snoc. exact X.
              ** intros X. destruct (D (no_ttl_snoc _ _ X)) as [D1 D2]. split; [|exact D2]. unfold calls. cbn [s_calls]. rewrite map_app.
                 apply Forall_app. split; [exact D1|]. constructor; [|constructor]. cbn [fst]. eapply no_ttl_plain. exact X.
           ++ intros F'. pose proof (open_mono now clamp es (Do i c) j r' I F') as M. fold w0 in M. rewrite Rw in M. apply M.
              cbn. unfold upd_tx. rewrite E. reflexivity.
        -- intros j tj. rewrite Rj. cbn [j_open w_tx]. rewrite find_cons_forget. unfold upd_tx. destruct (Nat.eqb j i); [discriminate|].
           apply (i_closed _ _ _ I).
      * pose proof (i_closed _ _ _ I i t F Hw) as Cl.
        apply inv_same; fold w0; rewrite ?Rw; fold w; try reflexivity; try exact I.
        -- unfold committed. rewrite Rj. reflexivity.
        -- intros j r'. rewrite Rj. intros F'. pose proof (open_mono now clamp es (Do i c) j r' I F') as M. fold w0 in M. rewrite Rw in M. apply M.
           cbn. unfold upd_tx. destruct (Nat.eqb j i) eqn:E; [|reflexivity]. apply Nat.eqb_eq in E. subst j. fold J in F'. congruence.
        -- intros j tj. rewrite Rj. cbn [w_tx]. unfold upd_tx. destruct (Nat.eqb j i) eqn:E; [|apply (i_closed _ _ _ I)].
           intros _ X. inversion X. subst tj. destruct (exec_keeps _ _ _ _ Ex) as [_ O]. congruence.
    + assert (St : step w (Do i c) = (w, None)) by (cbn [step]; rewrite Hw; reflexivity).
      rewrite St in Rw, Rj. cbn [fst snd] in Rw, Rj. cbn [jstep] in Rj.
      apply inv_same; fold w0; rewrite ?Rw; fold w; try reflexivity; try exact I.
      * unfold committed. rewrite Rj. reflexivity.
      * intros j r'. rewrite Rj. intros F'. pose proof (open_mono now clamp es (Do i c) j r' I F') as M. fold w0 in M. rewrite Rw in M. apply M. reflexivity.
      * intros j tj. rewrite Rj. apply (i_closed _ _ _ I).
  - (* Commit *)
    destruct (w_tx w i) as [t|] eqn:Hw.
    2:{ assert (St : step w (Commit i io) = (w, None)) by (cbn [step]; rewrite Hw; reflexivity).
        rewrite St in Rw, Rj. cbn [fst snd] in Rw, Rj. cbn [jstep] in Rj.
        assert (FN : find_tx i (j_open J) = None).
        { destruct (find_tx i (j_open J)) as [r|] eqn:F; [|reflexivity]. destruct (i_open _ _ _ I i r F) as (t' & d & A & _). fold w0 in A. fold w in A. congruence. }
        apply inv_same; fold w0; rewrite ?Rw; fold w; try reflexivity; try exact I.
        - unfold committed. rewrite Rj. reflexivity.
        - intros j r'. rewrite Rj. cbn [j_open]. rewrite find_forget. destruct (Nat.eqb j i) eqn:E; [discriminate|].
          intros F'. pose proof (open_mono now clamp es (Commit i io) j r' I F') as M. fold w0 in M. rewrite Rw in M. apply M. reflexivity.
        - intros j tj. rewrite Rj. cbn [j_open]. rewrite find_forget. destruct (Nat.eqb j i) eqn:E; [|apply (i_closed _ _ _ I)].
          apply Nat.eqb_eq in E. subst j. congruence. }
    destruct (commit (w_db w) t io) as [[d1 t1] r1] eqn:Cm.
    assert (St : step w (Commit i io) = (World d1 (upd_tx (w_tx w) i t1),
               Some (match r1 with Ok _ => Ok OUnit | Err e => Err e | Panic => Panic end))) by (cbn [step]; rewrite Hw, Cm; reflexivity).
    rewrite St in Rw, Rj. cbn [fst snd] in Rw, Rj.
    pose proof (commit_now (w_db w) t io) as [CN CC]. rewrite Cm in CN, CC. cbn [fst] in CN, CC.
    (* whatever happens, the other transactions are untouched *)
    assert (OTH : forall j r', Nat.eqb j i = false -> find_tx j (j_open J) = Some r' ->
       exists t d, upd_tx (w_tx w) i t1 j = Some t /\
       execs (calls r') (new_txn d (s_upd r') (s_lim r')) = (t, map snd (s_calls r')) /\
       (no_tick (es ++ [Commit i io]) -> d_now d = now) /\ (no_ttl (es ++ [Commit i io]) -> Forall plain (calls r') /\ eternal (d_kv d))).
    { intros j r' E F'. pose proof (open_mono now clamp es (Commit i io) j r' I F') as M. fold w0 in M. rewrite Rw in M. apply M.
      cbn. unfold upd_tx. rewrite E. reflexivity. }
    destruct (find_tx i (j_open J)) as [r|] eqn:F.
    2:{ (* a finished transaction: Commit panics *)
        pose proof (i_closed _ _ _ I i t F Hw) as Cl. unfold commit in Cm. rewrite Cl in Cm. cbn [negb] in Cm. inversion Cm. subst d1 t1 r1.
        cbn [jstep] in Rj.
        apply inv_same; fold w0; rewrite ?Rw; fold w; try reflexivity; try exact I.
        - unfold committed. rewrite Rj. reflexivity.
        - intros j r'. rewrite Rj. cbn [j_open]. rewrite find_forget. destruct (Nat.eqb j i) eqn:E; [discriminate|]. apply OTH. exact E.
        - intros j tj. rewrite Rj. cbn [j_open w_tx]. rewrite find_forget. unfold upd_tx. destruct (Nat.eqb j i) eqn:E; [|apply (i_closed _ _ _ I)].
          intros _ X. inversion X. subst. exact Cl. }
    destruct (i_open _ _ _ I i r F) as (t' & d & A & B & C & D). fold w0 in A. fold w in A. rewrite Hw in A. inversion A. subst t'. clear A.
    destruct (execs_keeps _ _ _ _ B) as ((K1 & K2 & K3 & K4 & K5) & O & _ & _). cbn [new_txn t_open t_snap t_rts t_now t_upd] in *.
    assert (CL1 : t_open t1 = false). { pose proof (commit_closed (w_db w) t io O) as X. rewrite Cm in X. exact X. }
    assert (WR : entries (t_pend t) = [] <-> existsb wrote (s_calls r) = false).
    { pose proof (execs_wrote (calls r) (new_txn d (s_upd r) (s_lim r)) t _ eq_refl B) as X. unfold calls in X. rewrite combine_split_calls in X. exact X. }
    destruct (existsb wrote (s_calls r)) eqn:W.
    2:{ (* nothing written *)
        destruct WR as [_ WR]. specialize (WR eq_refl). unfold commit in Cm. rewrite O, WR in Cm. cbn [negb] in Cm. inversion Cm. subst d1 t1 r1.
        cbn [jstep] in Rj. rewrite F, W, app_nil_r in Rj.
        apply inv_same; fold w0; rewrite ?Rw; fold w; try reflexivity; try exact I.
        - unfold committed. rewrite Rj. reflexivity.
        - intros j r'. rewrite Rj. cbn [j_open]. rewrite find_forget. destruct (Nat.eqb j i) eqn:E; [discriminate|]. apply OTH. exact E.
        - intros j tj. rewrite Rj. cbn [j_open w_tx]. rewrite find_forget. unfold upd_tx. destruct (Nat.eqb j i) eqn:E; [|apply (i_closed _ _ _ I)].
          intros _ X. inversion X. subst. exact CL1. }
    assert (NE : entries (t_pend t) <> []) by (intros X; apply WR in X; discriminate X). clear WR.
    assert (OPEN' : forall j r', find_tx j (forget i (j_open J)) = Some r' ->
       exists t d, upd_tx (w_tx w) i t1 j = Some t /\
       execs (calls r') (new_txn d (s_upd r') (s_lim r')) = (t, map snd (s_calls r')) /\
       (no_tick (es ++ [Commit i io]) -> d_now d = now) /\ (no_ttl (es ++ [Commit i io]) -> Forall plain (calls r') /\ eternal (d_kv d))).
    { intros j r'. rewrite find_forget. destruct (Nat.eqb j i) eqn:E; [discriminate|]. apply OTH. exact E. }
    assert (CLOSED' : forall j tj, find_tx j (forget i (j_open J)) = None -> upd_tx (w_tx w) i t1 j = Some tj -> t_open tj = false).
    { intros j tj. rewrite find_forget. unfold upd_tx. destruct (Nat.eqb j i) eqn:E; [|apply (i_closed _ _ _ I)].
      intros _ X. inversion X. subst. exact CL1. }
    unfold commit in Cm. rewrite O in Cm. cbn [negb] in Cm. destruct (entries (t_pend t)) as [|p0 ps] eqn:Ep; [congruence|].
    assert (FAIL : d1 = w_db w -> r1 <> Ok tt -> inv now clamp (es ++ [Commit i io])).
    { intros -> Nr. assert (Rj' : journal_of w0 (es ++ [Commit i io]) = Journal (forget i (j_open J)) (j_done J)).
      { rewrite Rj. cbn [jstep]. destruct r1 as [[]|x|]; [congruence|reflexivity|reflexivity]. }
      apply inv_same; fold w0; rewrite ?Rw; fold w; try reflexivity; try exact I.
      - unfold committed. rewrite Rj'. reflexivity.
      - rewrite Rj'. exact OPEN'.
      - rewrite Rj'. exact CLOSED'. }
    destruct (conflict (w_db w) t) eqn:CF; [inversion Cm; subst; apply FAIL; [reflexivity|discriminate]|].
    destruct io; [inversion Cm; subst; apply FAIL; [reflexivity|discriminate]|]. clear FAIL.
    inversion Cm. subst d1 t1 r1. cbn [jstep] in Rj. rewrite F, W in Rj.
    assert (Dn : committed w0 (es ++ [Commit i false]) = committed w0 es ++ [r]) by (unfold committed; rewrite Rj; reflexivity).
    (* the replay *)
    set (ws := fst (run w0 (serial (committed w0 es)))).
    assert (OKs : wok ws) by (apply run_wok, wok_init).
    pose proof (i_kv _ _ _ I) as KV. fold w0 in KV. fold ws w in KV.
    pose proof (i_snow _ _ _ I) as SN. fold w0 in SN. fold ws in SN.
    pose proof (i_ser _ _ _ I) as SER. fold w0 in SER.
    assert (UP : s_upd r = true).
    { destruct (s_upd r) eqn:U; [reflexivity|]. exfalso.
      pose proof (execs_readonly (calls r) (new_txn d false (s_lim r)) t _ eq_refl B) as X.
      unfold calls in X. rewrite combine_split_calls in X. congruence. }
    destruct (execs_alike (calls r) (new_txn d (s_upd r) (s_lim r)) (new_txn (w_db ws) (s_upd r) (s_lim r)) t (map snd (s_calls r)))
      as (t2 & E2 & (_ & _ & _ & AP)).
    { repeat split. }
    { exact UP. }
    { apply NS. rewrite Dn. apply in_or_app. right. left. reflexivity. }
    { destruct T as [T|T].
      - right. destruct (D (no_ttl_snoc _ _ T)) as [D1 D2]. split; [exact D1|]. split; [exact D2|]. split; [|intros k e X; discriminate X].
        cbn [new_txn t_snap]. rewrite KV. apply (i_eternal _ _ _ I). eapply no_ttl_snoc. exact T.
      - left. cbn [new_txn t_now]. rewrite SN. apply C. eapply no_tick_snoc. exact T. }
    { exact B. }
    { intros k Hk. cbn [new_txn t_snap]. rewrite KV. symmetry. rewrite <- K1.
      apply (conflict_free (w_db w) t k); [apply (proj2 OK i); assumption | exact CF | exact Hk]. }
    destruct (run_one w0 (serial (committed w0 es)) r t2 _ E2 eq_refl W OKs) as [R1 R2].
    { rewrite SER. reflexivity. }
    fold ws in R1. rewrite SER in R2. cbn [j_done] in R2.
    split; fold w0; rewrite ?Dn, ?serial_snoc, ?R1, ?R2, ?Rw, ?Rj; cbn [w_db w_tx j_open publish d_kv d_now d_clamp].
    + rewrite KV, <- AP. reflexivity.
    + exact SN.
    + apply (i_sclamp _ _ _ I).
    + apply (i_clamp _ _ _ I).
    + intros X. apply (i_now _ _ _ I). eapply no_tick_snoc. exact X.
    + reflexivity.
    + exact OPEN'.
    + exact CLOSED'.
    + intros X. destruct (D (no_ttl_snoc _ _ X)) as [D1 D2]. apply (eternal_publish (w_db w) t).
      * apply (i_eternal _ _ _ I). eapply no_ttl_snoc. exact X.
      * eapply (execs_eternal (calls r) (new_txn d (s_upd r) (s_lim r))); [exact D1 | intros k e Y; discriminate Y | exact B].
  - (* Discard *)
    destruct (w_tx w i) as [t|] eqn:Hw.
    + assert (St : step w (Discard i) = (World (w_db w) (upd_tx (w_tx w) i (discard t)), Some (Ok OUnit))) by (cbn [step]; rewrite Hw; reflexivity).
      rewrite St in Rw, Rj. cbn [fst snd] in Rw, Rj. cbn [jstep] in Rj.
      apply inv_same; fold w0; rewrite ?Rw; fold w; try reflexivity; try exact I.
      * unfold committed. rewrite Rj. reflexivity.
      * intros j r'. rewrite Rj. cbn [j_open]. rewrite find_forget. destruct (Nat.eqb j i) eqn:E; [discriminate|].
        intros F'. pose proof (open_mono now clamp es (Discard i) j r' I F') as M. fold w0 in M. rewrite Rw in M. apply M.
        cbn. unfold upd_tx. rewrite E. reflexivity.
      * intros j tj. rewrite Rj. cbn [j_open w_tx]. rewrite find_forget. unfold upd_tx. destruct (Nat.eqb j i) eqn:E; [|apply (i_closed _ _ _ I)].
        intros _ X. inversion X. reflexivity.
    + assert (St : step w (Discard i) = (w, None)) by (cbn [step]; rewrite Hw; reflexivity).
      rewrite St in Rw, Rj. cbn [fst snd] in Rw, Rj. cbn [jstep] in Rj.
      assert (FN : find_tx i (j_open J) = None).
      { destruct (find_tx i (j_open J)) as [r|] eqn:F; [|reflexivity]. destruct (i_open _ _ _ I i r F) as (t' & d & A & _). fold w0 in A. fold w in A. congruence. }
      apply inv_same; fold w0; rewrite ?Rw; fold w; try reflexivity; try exact I.
      * unfold committed. rewrite Rj. reflexivity.
      * intros j r'. rewrite Rj. cbn [j_open]. rewrite find_forget. destruct (Nat.eqb j i) eqn:E; [discriminate|].
        intros F'. pose proof (open_mono now clamp es (Discard i) j r' I F') as M. fold w0 in M. rewrite Rw in M. apply M. reflexivity.
      * intros j tj. rewrite Rj. cbn [j_open]. rewrite find_forget. destruct (Nat.eqb j i) eqn:E; [|apply (i_closed _ _ _ I)].
        apply Nat.eqb_eq in E. subst j. congruence.
  - (* Tick *)
    cbn [step fst snd jstep] in Rw, Rj.
    apply inv_same; fold w0; rewrite ?Rw; fold w; try reflexivity; try exact I.
    + unfold committed. rewrite Rj. reflexivity.
    + intros X. exfalso. apply (X n), in_or_app. right. left. reflexivity.
    + intros j r'. rewrite Rj. intros F'. pose proof (open_mono now clamp es (Tick n) j r' I F') as M. fold w0 in M. rewrite Rw in M. apply M. reflexivity.
    + intros j tj. rewrite Rj. apply (i_closed _ _ _ I).
Qed.

Lemma inv_run now clamp es : no_ttl es \/ no_tick es ->
  (forall r, In r (committed (fresh_db now clamp) es) -> forallb (fun c => negb (scans c)) (calls r) = true) ->
  inv now clamp es.
Proof.
  induction es as [|e es IH] using rev_ind; intros T NS; [apply inv_init|].
  apply inv_step; [apply IH | exact T | exact NS].
  - destruct T as [T|T]; [left; eapply no_ttl_snoc; exact T | right; eapply no_tick_snoc; exact T].
  - intros r Hr. apply NS. destruct (journal_done_snoc (fresh_db now clamp) es e) as (l & ->). apply in_or_app. left. exact Hr.
Qed.
