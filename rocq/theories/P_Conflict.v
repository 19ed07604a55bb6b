(** Property C95: exactly when Commit reports a conflict.
    Model: World.v over Provider.v (provider/badger_txn.go; the engine's conflict detection is the contract recorded in DESIGN.md). *)
From Verif Require Import Bytes SMap Provider ProviderProofs World Serial SerialProofs.

(** * Specification: what clients can write down *)
(** the answered call [p] wrote key [k] *)
Definition wrote_key (k : bytes) (p : cmd * result out) : bool :=
  match p with (CSet j _ _, Ok _) | (CDel j, Ok _) => bytes_eqb k j | _ => false end.
(** one of the transactions of [l] wrote [k] *)
Definition touched (l : list deed) (k : bytes) : Prop := exists r, In r l /\ existsb (wrote_key k) (s_calls r) = true.
(** the answered call [p] looked at what the database held under [k]; [own]: the keys this transaction had written by then *)
Definition looked_at (own : bytes -> bool) (p : cmd * result out) (k : bytes) : bool :=
  match p with
  | (CGet j, (Ok _ | Err ErrKeyNotFound)) | (CExists j, Ok _) => bytes_eqb k j && negb (own k)
  | (CScan _ _, Ok (OItems l)) => existsb (fun x => bytes_eqb k (fst x)) l
  | _ => false
  end.
Fixpoint seen (own : bytes -> bool) (l : list (cmd * result out)) (k : bytes) : bool :=
  match l with
  | [] => false
  | p :: l' => looked_at own p k || seen (fun j => own j || wrote_key j p) l' k
  end.
(** the transactions that committed writes while the history went from [es0] to [es0 ++ es] *)
Definition meanwhile (w : world) (es0 es : list ev) : list deed := skipn (length (committed w es0)) (committed w (es0 ++ es)).
(** the answer to the last event *)
Definition answer (w : world) (es : list ev) (e : ev) : option (result out) := snd (step (fst (run w es)) e).

(** * Proof *)
(** ** a transaction records nothing but what it looked at *)
Lemma track_only k t j : In j (t_reads (track k t)) -> In j (t_reads t) \/ j = k /\ get (t_pend t) k = None.
Proof. unfold track. destruct (get (t_pend t) k) eqn:G; [auto|]. unfold add_read. destruct (t_upd t); cbn [t_reads]; [intros [->|H]; auto | auto]. Qed.
Lemma scan_only n l : forall acc t t' r, scan_loop l (collect n) acc t = (t', r) ->
  exists l', r = Ok (acc ++ l') /\ forall j, In j (t_reads t') -> In j (t_reads t) \/ In j (map fst l').
Proof.
  induction l as [|[k e] l IH]; intros acc t t' r H.
  - cbn in H. inversion H. subst. exists []. rewrite app_nil_r. auto.
  - cbn [scan_loop] in H. unfold bind at 1, collect at 1, ret at 1 in H. cbn [fst snd] in H.
    assert (AD : forall j, In j (t_reads (add_read k t)) -> In j (t_reads t) \/ j = k) by (intros j; unfold add_read; destruct (t_upd t); cbn [t_reads]; [intros [->|X]; auto | auto]).
    destruct (match n with None => true | Some n' => Nat.ltb (length acc + 1) n' end).
    + apply IH in H. destruct H as (l' & H3 & H4). exists ((k, e) :: l'). rewrite H3, <- app_assoc. split; [reflexivity|]. intros j Hj. cbn [map fst In].
      destruct (H4 j Hj) as [X|X]; [|auto]. destruct (AD j X) as [Y|Y]; [auto | subst; auto].
    + unfold ret in H. inversion H. subst. exists [(k, e)]. split; [reflexivity|]. intros j Hj. cbn [map fst In]. destruct (AD j Hj) as [Y|Y]; [auto | subst; auto].
Qed.
Definition pended (t : txn) : bytes -> bool := fun j => match get (t_pend t) j with Some _ => true | None => false end.
Lemma looked_reads own c r k : looked_at own (c, r) k = reads_of own c r k.
Proof. destruct c; destruct r as [x|e|]; try reflexivity; destruct e; reflexivity. Qed.
Lemma wrote_write now c r k : wrote_key k (c, r) = match write_of now c r k with Some _ => true | None => false end.
Proof. destruct c as [j v m|j| | |]; destruct r; try reflexivity; cbn [wrote_key write_of]; destruct (bytes_eqb k j); reflexivity. Qed.
Lemma exec_reads_only c t t' r : exec c t = (t', r) -> forall k, In k (t_reads t') -> In k (t_reads t) \/ looked_at (pended t) (c, r) k = true.
Proof.
  destruct c as [k v m|k|k|k|o n]; cbn [exec]; intros H j Hj.
  - apply (bind_ret_inv _ (fun _ => OUnit)) in H. destruct H as (r0 & H & ->). unfold tsetm, map_err in H.
    destruct (modify k (Some (entry_of (t_now t) v m)) t) as [t1 r1] eqn:E. apply modify_pend in E. destruct E as [_ E2]. left. destruct r1; inversion H; subst; rewrite <- E2; exact Hj.
  - apply (bind_ret_inv _ (fun _ => OUnit)) in H. destruct H as (r0 & H & ->). unfold tdel, map_err in H.
    destruct (modify k None t) as [t1 r1] eqn:E. apply modify_pend in E. destruct E as [_ E2]. left. destruct r1; inversion H; subst; rewrite <- E2; exact Hj.
  - apply (bind_ret_inv _ OEnt) in H. destruct H as (r0 & H & ->). unfold tgetm, map_err, bget in H. destruct k as [|c0 k]; [inversion H; subst; auto|].
    destruct (negb (t_open t)); [inversion H; subst; auto|].
    assert (G : t' = track (c0 :: k) t /\ (exists e, r0 = Ok e) \/ t' = track (c0 :: k) t /\ r0 = Err ErrKeyNotFound) by (destruct (get (view t) (c0 :: k)) as [e|]; inversion H; subst; [left; eauto | right; auto]).
    assert (X : In j (t_reads (track (c0 :: k) t))) by (destruct G as [[-> _]|[-> _]]; exact Hj). destruct (track_only _ _ _ X) as [Y|[-> Y]]; [auto|]. right.
    destruct G as [[_ [e ->]]|[_ ->]]; cbn [looked_at]; rewrite bytes_eqb_refl; unfold pended; rewrite Y; reflexivity.
  - apply (bind_ret_inv _ OBool) in H. destruct H as (r0 & H & ->). unfold texists, try, bget in H. destruct k as [|c0 k]; [inversion H; subst; auto|].
    destruct (negb (t_open t)); [inversion H; subst; auto|].
    assert (G : t' = track (c0 :: k) t /\ exists b, r0 = Ok b) by (destruct (get (view t) (c0 :: k)); inversion H; subst; eauto).
    destruct G as [-> [b ->]]. destruct (track_only _ _ _ Hj) as [Y|[-> Y]]; [auto|]. right. cbn [looked_at]. rewrite bytes_eqb_refl. unfold pended. rewrite Y. reflexivity.
  - apply (bind_ret_inv _ OItems) in H. destruct H as (r0 & H & ->). unfold tscan in H. destruct (negb (t_open t)); [inversion H; subst; auto|].
    apply scan_only in H. destruct H as (l' & -> & H). destruct (H j Hj) as [X|X]; [auto|]. right. cbn [looked_at app]. apply existsb_exists. apply in_map_iff in X. destruct X as (p & <- & X).
    exists p. split; [exact X | apply bytes_eqb_refl].
Qed.
Lemma seen_ext l : forall f g k, (forall j, f j = g j) -> seen f l k = seen g l k.
Proof.
  induction l as [|p l IH]; intros f g k E; [reflexivity|]. cbn [seen]. f_equal.
  - destruct p as [c r]. destruct c; destruct r as [x|e|]; cbn [looked_at]; try reflexivity; rewrite ?E; reflexivity.
  - apply IH. intros j. rewrite E. reflexivity.
Qed.
Lemma seen_read now l : forall own k, seen own l k = was_read now own l k.
Proof.
  induction l as [|[c r] l IH]; intros own k; [reflexivity|]. cbn [seen was_read]. rewrite looked_reads, IH. f_equal. apply was_read_ext. intros j. rewrite (wrote_write now). reflexivity.
Qed.
Lemma run_reads_only i : forall es w t, w_tx w i = Some t -> forallb (fun e => negb (ends i e)) es = true ->
  exists t', w_tx (fst (run w es)) i = Some t' /\ forall k, In k (t_reads t') -> In k (t_reads t) \/ seen (pended t) (trace_of i es (snd (run w es))) k = true.
Proof.
  induction es as [|e es IH]; intros w t Hw N; [exists t; auto|]. cbn [forallb] in N. apply andb_prop in N. destruct N as [N1 N2]. cbn [run]. destruct (about i e) eqn:Ab.
  - assert (De : exists c, e = Do i c).
    { destruct e as [j u lim|j c|j io|j|n]; cbn [about ends] in *; try (rewrite Ab in N1; discriminate N1). apply Nat.eqb_eq in Ab. subst. eauto. }
    destruct De as [c ->]. cbn [step]. rewrite Hw. destruct (exec c t) as [t1 r1] eqn:Ex. destruct (exec_trace _ _ _ _ Ex) as (P1 & _ & _). pose proof (exec_reads_only _ _ _ _ Ex) as RO.
    destruct (IH (World (w_db w) (upd_tx (w_tx w) i t1)) t1) as (t' & A1 & A2); [cbn [w_tx]; unfold upd_tx; rewrite Nat.eqb_refl; reflexivity | exact N2|].
    destruct (run _ es) as [w2 rs]. cbn [fst snd trace_of] in *. rewrite Nat.eqb_refl. cbn [seen]. exists t'. split; [exact A1|]. intros k Hk. destruct (A2 k Hk) as [X|X].
    + destruct (RO k X) as [Y|Y]; [auto|]. right. rewrite Y. reflexivity.
    + right. rewrite (seen_ext _ _ (pended t1)); [rewrite X; apply orb_true_r|]. intros j. unfold pended. rewrite P1, (wrote_write (t_now t)). destruct (write_of (t_now t) c r1 j); [apply orb_true_r | apply orb_false_r].
  - destruct (step w e) as [w1 r1] eqn:Es. pose proof (step_other _ _ _ _ _ Es Ab) as Hs. destruct (IH w1 t) as (t' & A); [congruence | exact N2|].
    assert (Tr : forall rs, trace_of i (e :: es) (r1 :: rs) = trace_of i es rs).
    { intros rs. destruct e as [j u lim|j c|j io|j|n]; cbn [trace_of]; try reflexivity. cbn [about] in Ab. destruct r1; [rewrite Ab|]; reflexivity. }
    destruct (run w1 es) as [w2 rs]. cbn [fst snd] in *. rewrite Tr. exists t'. exact A.
Qed.
(** ** the journal and the open transactions *)
Definition key_of (r : deed) (k : bytes) : bool := existsb (wrote_key k) (s_calls r).
Record jinv (w : world) (j : journal) : Prop := {
  ji_open : forall i r, find_tx i (j_open j) = Some r -> exists t, w_tx w i = Some t /\ t_open t = true /\ forall k, pended t k = key_of r k;
  ji_closed : forall i t, find_tx i (j_open j) = None -> w_tx w i = Some t -> t_open t = false
}.
(** what was committed since the read timestamp [n0]: the transactions [l] *)
Record since (n0 : nat) (done0 : list deed) (w : world) (j : journal) : Prop := {
  sc_ts : (n0 <= d_ts (w_db w))%nat;
  sc_last : forall k ts, get (d_last (w_db w)) k = Some ts -> (ts <= d_ts (w_db w))%nat;
  sc_done : exists l, j_done j = done0 ++ l /\ forall k, (exists ts, get (d_last (w_db w)) k = Some ts /\ (n0 < ts)%nat) <-> touched l k
}.

Lemma in_pend (p : smap (option ent)) k : existsb (fun q => bytes_eqb k (fst q)) (entries p) = match get p k with Some _ => true | None => false end.
Proof.
  destruct (existsb _ _) eqn:E; [|rewrite (not_written _ _ E); reflexivity]. apply existsb_exists in E. destruct E as ([j o] & Hin & E). cbn [fst] in E. apply bytes_eqb_eq in E. subst j.
  apply get_in in Hin. rewrite Hin. reflexivity.
Qed.
Lemma wrote_any l : existsb wrote l = true <-> exists k, existsb (wrote_key k) l = true.
Proof.
  split.
  - intros H. apply existsb_exists in H. destruct H as ([c r] & Hin & H). destruct c as [k v m|k| | |]; destruct r; try discriminate H; exists k; apply existsb_exists; eexists; (split; [exact Hin | apply bytes_eqb_refl]).
  - intros (k & H). apply existsb_exists in H. destruct H as ([c r] & Hin & H). apply existsb_exists. exists (c, r). split; [exact Hin|]. destruct c as [j v m|j| | |]; destruct r; try discriminate H; reflexivity.
Qed.
Lemma pend_empty t : entries (t_pend t) = [] <-> forall k, pended t k = false.
Proof.
  split.
  - intros E k. apply entries_nil_iff in E. unfold pended. rewrite E. reflexivity.
  - intros H. apply entries_nil_iff. apply smap_ext. intros k. specialize (H k). unfold pended in H. rewrite get_empty. destruct (get (t_pend t) k); [discriminate H | reflexivity].
Qed.
Lemma new_pended d u lim k : pended (new_txn d u lim) k = false.
Proof. unfold pended. cbn [new_txn t_pend]. rewrite get_empty. reflexivity. Qed.
Lemma find_new i j d l : find_tx i ((j, d) :: forget j l) = if Nat.eqb i j then Some d else find_tx i l.
Proof. rewrite find_cons. destruct (Nat.eqb_spec i j) as [->|N]; [reflexivity | apply find_forget_other; exact N]. Qed.
Lemma find_forget i j l : find_tx i (forget j l) = if Nat.eqb i j then None else find_tx i l.
Proof. destruct (Nat.eqb_spec i j) as [->|N]; [apply find_forget_same | apply find_forget_other; exact N]. Qed.
Lemma step_since n0 done0 w j e : jinv w j -> since n0 done0 w j -> jinv (fst (step w e)) (jstep j (e, snd (step w e))) /\ since n0 done0 (fst (step w e)) (jstep j (e, snd (step w e))).
Proof.
  intros [JO JC] S0. destruct e as [i u lim|i c|i io|i|n]; cbn [step].
  - cbn [fst snd jstep]. split; [split; cbn [j_open w_tx]; intros m x; unfold upd_tx; rewrite find_new|].
    + destruct (Nat.eqb m i); [|apply JO]. intros E. injection E as <-. eexists. split; [reflexivity|]. split; [reflexivity|]. intros k. rewrite new_pended. reflexivity.
    + destruct (Nat.eqb m i); [discriminate | apply JC].
    + destruct S0 as [A B C]. split; assumption.
  - destruct (w_tx w i) as [t|] eqn:Ht.
    2:{ cbn [fst snd jstep]. split; [split; assumption | exact S0]. }
    destruct (exec c t) as [t1 a] eqn:Ex. cbn [fst snd jstep]. destruct (exec_trace _ _ _ _ Ex) as (P1 & _ & _). destruct (exec_keeps _ _ _ _ Ex) as [_ O1].
    destruct (find_tx i (j_open j)) as [r|] eqn:F.
    + destruct (JO i r F) as (t0 & Ht0 & O0 & K0). assert (t0 = t) by congruence. subst t0. split; [split; cbn [j_open w_tx]; intros m x; unfold upd_tx; rewrite find_new|].
      * destruct (Nat.eqb m i); [|apply JO]. intros E. injection E as <-. exists t1. split; [reflexivity|]. split; [congruence|]. intros k. unfold key_of. cbn [s_calls]. rewrite existsb_app. cbn [existsb].
        fold (key_of r k). rewrite <- K0, orb_false_r, (wrote_write (t_now t)). unfold pended. rewrite P1. destruct (write_of (t_now t) c a k); [rewrite orb_true_r | rewrite orb_false_r]; reflexivity.
      * destruct (Nat.eqb m i); [discriminate | apply JC].
      * destruct S0 as [A B C]. split; assumption.
    + split; [split; cbn [w_tx]; intros m x; unfold upd_tx|].
      * intros E. destruct (Nat.eqb_spec m i) as [->|]; [congruence | apply JO; exact E].
      * intros E. destruct (Nat.eqb_spec m i) as [->|]; [|apply JC; exact E]. intros X. injection X as <-. rewrite O1. exact (JC i t F Ht).
      * destruct S0 as [A B C]. split; assumption.
  - destruct (w_tx w i) as [t|] eqn:Ht.
    2:{ cbn [fst snd jstep]. assert (F : find_tx i (j_open j) = None) by (destruct (find_tx i (j_open j)) as [r|] eqn:F; [destruct (JO i r F) as (t0 & Ht0 & _); congruence | reflexivity]).
        split; [split; cbn [j_open]; intros m x; rewrite find_forget | destruct S0 as [A B C]; split; assumption].
        - destruct (Nat.eqb m i); [discriminate | apply JO].
        - destruct (Nat.eqb_spec m i) as [->|]; [congruence | apply JC]. }
    destruct (commit (w_db w) t io) as [[d1 t1] r] eqn:Ec. cbn [fst snd].
    assert (CL : t_open t1 = false).
    { unfold commit in Ec. destruct (t_open t) eqn:O; cbn [negb] in Ec; [|congruence]. destruct (entries (t_pend t)); [injection Ec as <- <- <-; reflexivity|].
      destruct (conflict (w_db w) t); [injection Ec as <- <- <-; reflexivity|]. destruct io; injection Ec as <- <- <-; reflexivity. }
    assert (OTH : forall dn, jinv (World d1 (upd_tx (w_tx w) i t1)) (Journal (forget i (j_open j)) dn)).
    { intros dn. split; cbn [j_open w_tx]; intros m x; unfold upd_tx; rewrite find_forget.
      - destruct (Nat.eqb m i); [discriminate | apply JO].
      - destruct (Nat.eqb m i); [intros _ X; injection X as <-; exact CL | apply JC]. }
    assert (SAME : d1 = w_db w -> since n0 done0 (World d1 (upd_tx (w_tx w) i t1)) (Journal (forget i (j_open j)) (j_done j))) by (intros ->; destruct S0 as [A B C]; split; assumption).
    unfold commit in Ec. destruct (t_open t) eqn:O; cbn [negb] in Ec.
    2:{ injection Ec as <- <- <-. cbn [jstep]. split; [apply OTH | apply SAME; reflexivity]. }
    destruct (find_tx i (j_open j)) as [r0|] eqn:F; [|rewrite (JC i t F Ht) in O; discriminate O]. destruct (JO i r0 F) as (t0 & Ht0 & _ & K0). assert (t0 = t) by congruence. subst t0.
    assert (WE : existsb wrote (s_calls r0) = match entries (t_pend t) with [] => false | _ => true end).
    { destruct (entries (t_pend t)) as [|p l0] eqn:E.
      - apply not_true_is_false. intros X. apply wrote_any in X. destruct X as (k & X). fold (key_of r0 k) in X. rewrite <- K0, (proj1 (pend_empty t) E k) in X. discriminate X.
      - apply wrote_any. destruct p as [k o]. exists k. fold (key_of r0 k). rewrite <- K0. unfold pended. assert (X : get (t_pend t) k = Some o) by (apply get_in; rewrite E; left; reflexivity). rewrite X. reflexivity. }
    destruct (entries (t_pend t)) as [|p0 l0] eqn:E.
    { injection Ec as <- <- <-. cbn [jstep]. rewrite F, WE, app_nil_r. split; [apply OTH | apply SAME; reflexivity]. }
    destruct (conflict (w_db w) t); [injection Ec as <- <- <-; cbn [jstep]; split; [apply OTH | apply SAME; reflexivity]|].
    destruct io; [injection Ec as <- <- <-; cbn [jstep]; split; [apply OTH | apply SAME; reflexivity]|]. injection Ec as <- <- <-. cbn [jstep]. rewrite F, WE. split; [apply OTH|].
    destruct S0 as [A B (l & D1 & D2)]. split; cbn [w_db publish d_ts d_last].
    + lia.
    + intros k ts. rewrite get_last_fold. rewrite in_pend. destruct (get (t_pend t) k); intros X; [assert (ts = S (d_ts (w_db w))) by congruence; lia | apply B in X; lia].
    + exists (l ++ [r0]). cbn [j_done]. split; [rewrite D1, <- app_assoc; reflexivity|]. intros k. rewrite get_last_fold, in_pend. fold (pended t k). rewrite K0. destruct (key_of r0 k) eqn:KO.
      * split; [intros _; exists r0; split; [apply in_or_app; right; left; reflexivity | exact KO] | intros _; exists (S (d_ts (w_db w))); split; [reflexivity | lia]].
      * rewrite D2. split; intros (r1 & Hin & X).
        -- exists r1. split; [apply in_or_app; left; exact Hin | exact X].
        -- apply in_app_or in Hin. destruct Hin as [Hin|[->|[]]]; [exists r1; auto | unfold key_of in KO; congruence].
  - assert (JJ : forall a, jstep j (Discard i, a) = Journal (forget i (j_open j)) (j_done j)) by (intros a; destruct a as [[]|]; reflexivity).
    destruct (w_tx w i) as [t|] eqn:Ht; cbn [fst snd]; rewrite JJ; (split; [|destruct S0 as [A B C]; split; assumption]); split; cbn [j_open w_tx]; intros m x; unfold upd_tx; rewrite find_forget; try (destruct (Nat.eqb m i); [discriminate | apply JO]).
    + destruct (Nat.eqb m i); [intros _ X; injection X as <-; reflexivity | apply JC].
    + destruct (Nat.eqb_spec m i) as [->|]; [congruence | apply JC].
  - cbn [fst snd jstep]. split; [split; assumption|]. destruct S0 as [A B C]. split; assumption.
Qed.
Lemma run_since n0 done0 es : forall w j, jinv w j -> since n0 done0 w j -> let j' := fold_left jstep (combine es (snd (run w es))) j in jinv (fst (run w es)) j' /\ since n0 done0 (fst (run w es)) j'.
Proof.
  induction es as [|e es IH]; intros w j J S0; [auto|]. cbv zeta. cbn [run]. destruct (step_since n0 done0 w j e J S0) as [J1 S1]. destruct (step w e) as [w1 r]. cbn [fst snd] in J1, S1.
  specialize (IH w1 _ J1 S1). destruct (run w1 es) as [w2 rs]. exact IH.
Qed.
Lemma jinv_fresh now clamp : jinv (fresh_db now clamp) (Journal [] []) /\ since 0 [] (fresh_db now clamp) (Journal [] []).
Proof.
  split; [split; discriminate|]. split; [apply Nat.le_0_l | discriminate|]. exists []. split; [reflexivity|]. intros k. split; [intros (ts & X & _); discriminate X | intros (r & [] & _)].
Qed.
Lemma conflict_iff d t : conflict d t = true <-> exists k, In k (t_reads t) /\ exists ts, get (d_last d) k = Some ts /\ (t_rts t < ts)%nat.
Proof.
  unfold conflict. rewrite existsb_exists. split; intros (k & Hin & H); exists k; (split; [exact Hin|]).
  - destruct (get (d_last d) k) as [ts|]; [|discriminate H]. exists ts. split; [reflexivity | apply Nat.ltb_lt; exact H].
  - destruct H as (ts & -> & H). apply Nat.ltb_lt. exact H.
Qed.

(** * C95. In any history, transaction [i] begins after [es0], [es] happens, and then it commits; [mine]: its answered calls. The answer
    is a conflict exactly if it wrote something and looked at a key that a transaction committed meanwhile wrote; otherwise Commit
    succeeds (unless the engine fails to write); and without writes it always succeeds. *)
Theorem C95_commit_answer_exact : forall now clamp es0 i lim es io, forallb (fun e => negb (ends i e)) es = true ->
  let w0 := fresh_db now clamp in
  let past := Begin i true lim :: es in
  let mine := trace_of i past (snd (run (fst (run w0 es0)) past)) in
  let overtaken := exists k, seen (fun _ => false) mine k = true /\ touched (meanwhile w0 es0 past) k in
  answer w0 (es0 ++ past) (Commit i io) =
    Some (if existsb wrote mine then (if io then Err EIO else Ok OUnit) else Ok OUnit) /\ ~ (existsb wrote mine = true /\ overtaken) \/
  answer w0 (es0 ++ past) (Commit i io) = Some (Err EConflict) /\ existsb wrote mine = true /\ overtaken.
Proof.
  intros now clamp es0 i lim es io N w0 past mine overtaken. set (w := fst (run w0 es0)) in *. set (w1 := fst (step w (Begin i true lim))).
  assert (Em : mine = trace_of i es (snd (run w1 es))).
  { unfold mine, past. cbn [run step]. fold w1. change (World (w_db w) (upd_tx (w_tx w) i (new_txn (w_db w) true lim))) with w1. destruct (run w1 es) as [w2 rs]. reflexivity. }
  assert (T0 : w_tx w1 i = Some (new_txn (w_db w) true lim)) by (unfold w1; cbn; unfold upd_tx; rewrite Nat.eqb_refl; reflexivity).
  destruct (run_trace i es w1 _ T0 N) as (t & T & K & O & P & _ & Rd). destruct (run_reads_only i es w1 _ T0 N) as (t' & T' & Ro). assert (t' = t) by congruence. subst t'. clear T'. rewrite <- Em in *.
  cbn [new_txn t_now t_open t_upd t_pend t_reads] in *. destruct K as (K1 & K2 & _). cbn [new_txn t_rts] in K2.
  assert (RD : forall k, In k (t_reads t) <-> seen (fun _ => false) mine k = true).
  { intros k. split.
    - intros H. destruct (Ro k H) as [[]|X]. rewrite <- X. apply seen_ext. intros j. rewrite new_pended. reflexivity.
    - intros H. apply (Rd eq_refl). rewrite <- (seen_read (d_now (w_db w))). rewrite <- H. apply seen_ext. intros j. rewrite get_empty. reflexivity. }
  destruct (jinv_fresh now clamp) as [J0 S0]. destruct (run_since 0 [] es0 w0 _ J0 S0) as [J1 S1]. fold w in J1, S1. fold (journal_of w0 es0) in J1, S1. set (j := journal_of w0 es0) in *.
  assert (SB : since (d_ts (w_db w)) (j_done j) w j).
  { destruct S1 as [_ B _]. split; [lia | exact B|]. exists []. split; [symmetry; apply app_nil_r|]. intros k. split; [intros (ts & X & L); apply B in X; lia | intros (r & [] & _)]. }
  destruct (run_since _ _ past w j J1 SB) as [_ S2]. pose proof (journal_app w0 es0 past) as JA. fold w in JA. fold j in JA. cbv zeta in S2. rewrite <- JA in S2.
  assert (W2 : fst (run w past) = fst (run w1 es)) by (unfold past; rewrite run_fst_cons; reflexivity). rewrite W2 in S2.
  assert (Ans : answer w0 (es0 ++ past) (Commit i io) = Some (match snd (commit (w_db (fst (run w1 es))) t io) with Ok _ => Ok OUnit | Err e => Err e | Panic => Panic end)).
  { unfold answer. rewrite run_fst_app. fold w. rewrite W2. cbn [step]. rewrite T. destruct (commit (w_db (fst (run w1 es))) t io) as [[d' t'] r]. reflexivity. }
  assert (OV : conflict (w_db (fst (run w1 es))) t = true <-> overtaken).
  { rewrite conflict_iff, K2. destruct S2 as [_ _ (l & D1 & D2)]. unfold overtaken, meanwhile, committed. fold j. rewrite D1. rewrite skipn_app, skipn_all, Nat.sub_diag. cbn [app skipn].
    split; intros (k & X & Y); exists k; (split; [apply RD; exact X | apply D2; exact Y]). }
  assert (WE : existsb wrote mine = match entries (t_pend t) with [] => false | _ => true end).
  { assert (Q : forall k, get (t_pend t) k = last_write (d_now (w_db w)) mine k) by (intros k; rewrite P, get_empty; destruct (last_write _ _ k); reflexivity).
    destruct (entries (t_pend t)) as [|p l] eqn:E.
    - apply (write_of_none (d_now (w_db w))). intros k. rewrite <- Q. apply entries_nil_iff in E. rewrite E. apply get_empty.
    - apply not_false_is_true. intros X. pose proof (proj2 (write_of_none (d_now (w_db w)) mine) X) as Y. destruct p as [k o]. specialize (Y k). rewrite <- Q in Y.
      assert (Z : get (t_pend t) k = Some o) by (apply get_in; rewrite E; left; reflexivity). congruence. }
  rewrite Ans. unfold commit. rewrite O, WE. cbn [negb]. destruct (entries (t_pend t)) eqn:E; [left; split; [reflexivity | intros [X _]; discriminate X]|].
  destruct (conflict (w_db (fst (run w1 es))) t) eqn:C.
  - right. split; [reflexivity|]. split; [reflexivity | apply OV; reflexivity].
  - left. split; [destruct io; reflexivity|]. intros [_ X]. apply OV in X. discriminate X.
Qed.
Print Assumptions C95_commit_answer_exact.
(** so a transaction is never refused if nothing was committed meanwhile, or if it only wrote *)
Corollary C95_undisturbed_commit_succeeds : forall now clamp es0 i lim es, forallb (fun e => negb (ends i e)) es = true ->
  let w0 := fresh_db now clamp in
  let past := Begin i true lim :: es in
  let mine := trace_of i past (snd (run (fst (run w0 es0)) past)) in
  (forall k, seen (fun _ => false) mine k = true -> ~ touched (meanwhile w0 es0 past) k) ->
  answer w0 (es0 ++ past) (Commit i false) = Some (Ok OUnit).
Proof.
  intros now clamp es0 i lim es N w0 past mine H. destruct (C95_commit_answer_exact now clamp es0 i lim es false N) as [[A _]|(_ & _ & (k & X & Y))].
  - fold w0 past mine in A. rewrite A. destruct (existsb wrote mine); reflexivity.
  - exfalso. exact (H k X Y).
Qed.
Print Assumptions C95_undisturbed_commit_succeeds.
Corollary C95_blind_writes_succeed : forall now clamp es0 i lim es, forallb (fun e => negb (ends i e)) es = true ->
  (forall c, In c (cmds_of i es) -> exists k, c = CDel k \/ exists v m, c = CSet k v m) ->
  answer (fresh_db now clamp) (es0 ++ Begin i true lim :: es) (Commit i false) = Some (Ok OUnit).
Proof.
  intros now clamp es0 i lim es N H. apply C95_undisturbed_commit_succeeds; [exact N|]. intros k X. exfalso. set (w := fst (run (fresh_db now clamp) es0)) in *.
  cbn [run step] in X. set (w1 := World _ _) in X. assert (E : forall own, seen own (trace_of i es (snd (run w1 es))) k = false).
  { clear X N. generalize w1. clear w1. induction es as [|e es IH]; intros w1 own; [reflexivity|]. cbn [run]. destruct (step w1 e) as [w2 r]. destruct (run w2 es) as [w3 rs] eqn:R. cbn [snd].
    assert (REST : forall own, seen own (trace_of i es rs) k = false).
    { intros o. specialize (IH ltac:(intros c Hc; apply H; destruct e as [j u l|j c'|j io|j|n]; cbn [cmds_of]; try exact Hc; destruct (Nat.eqb j i); [right|]; exact Hc) w2 o). rewrite R in IH. exact IH. }
    destruct e as [j u l|j c|j io|j|n]; cbn [trace_of]; try (destruct r; apply REST). destruct r as [a|]; [|apply REST]. destruct (Nat.eqb j i) eqn:Ej; [|apply REST]. cbn [seen]. rewrite REST, orb_false_r.
    destruct (H c) as (k0 & [->|(v & m & ->)]); [cbn [cmds_of]; rewrite Ej; left; reflexivity | reflexivity | reflexivity]. }
  destruct (run w1 es) as [w2 rs] eqn:R. cbn [snd trace_of] in X. specialize (E (fun _ => false)). cbn [snd] in E. congruence.
Qed.
Print Assumptions C95_blind_writes_succeed.
(** a read-only transaction always succeeds *)
Lemma exec_ro c t t' r : exec c t = (t', r) -> t_upd t = false -> t_pend t' = t_pend t /\ t_upd t' = false.
Proof.
  intros E U. destruct (exec_keeps _ _ _ _ E) as [(_ & _ & _ & K & _) _]. split; [|congruence]. destruct (exec_trace _ _ _ _ E) as (P & _). apply smap_ext. intros k. rewrite P.
  assert (W : write_of (t_now t) c r k = None); [|rewrite W; reflexivity].
  destruct c as [j v m|j| | |]; try (destruct r; reflexivity); cbn [exec] in E; unfold bind, tsetm, tdel, map_err, modify in E; rewrite U in E; cbn [negb] in E; injection E as <- <-; reflexivity.
Qed.
Lemma run_ro i : forall es w t, w_tx w i = Some t -> t_upd t = false -> forallb (fun e => negb (ends i e)) es = true ->
  exists t', w_tx (fst (run w es)) i = Some t' /\ t_pend t' = t_pend t /\ t_open t' = t_open t.
Proof.
  induction es as [|e es IH]; intros w t Hw U N; [exists t; auto|]. cbn [forallb] in N. apply andb_prop in N. destruct N as [N1 N2]. rewrite run_fst_cons. destruct (about i e) eqn:Ab.
  - assert (De : exists c, e = Do i c).
    { destruct e as [j u lim|j c|j io|j|n]; cbn [about ends] in *; try (rewrite Ab in N1; discriminate N1). apply Nat.eqb_eq in Ab. subst. eauto. }
    destruct De as [c ->]. cbn [step]. rewrite Hw. destruct (exec c t) as [t1 r1] eqn:Ex. destruct (exec_ro _ _ _ _ Ex U) as [P1 U1]. destruct (exec_keeps _ _ _ _ Ex) as [_ O1]. cbn [fst].
    destruct (IH (World (w_db w) (upd_tx (w_tx w) i t1)) t1) as (t' & A1 & A2 & A3); [cbn [w_tx]; unfold upd_tx; rewrite Nat.eqb_refl; reflexivity | exact U1 | exact N2|].
    exists t'. split; [exact A1|]. split; congruence.
  - destruct (step w e) as [w1 r1] eqn:Es. pose proof (step_other _ _ _ _ _ Es Ab) as Hs. apply IH; [cbn [fst]; congruence | exact U | exact N2].
Qed.
Theorem C95_read_only_commit_succeeds : forall now clamp es0 i lim es io, forallb (fun e => negb (ends i e)) es = true ->
  answer (fresh_db now clamp) (es0 ++ Begin i false lim :: es) (Commit i io) = Some (Ok OUnit).
Proof.
  intros now clamp es0 i lim es io N. unfold answer. rewrite run_fst_app, run_fst_cons. set (w := fst (run (fresh_db now clamp) es0)). set (w1 := fst (step w (Begin i false lim))).
  assert (T0 : w_tx w1 i = Some (new_txn (w_db w) false lim)) by (unfold w1; cbn; unfold upd_tx; rewrite Nat.eqb_refl; reflexivity).
  destruct (run_ro i es w1 _ T0 eq_refl N) as (t & T & P & O). cbn [step]. rewrite T. cbn [new_txn t_open t_pend] in *. unfold commit. rewrite O, P. reflexivity.
Qed.
Print Assumptions C95_read_only_commit_succeeds.

(** * Concrete histories *)
(** 1 reads x and y, looks for z in vain and scans p*; 2 commits q, 3 commits p9 (new: a scan does not see it coming), 4 commits nothing *)
Definition quiet_day : list ev :=
  [Do 1 (CGet (str "x")); Do 1 (CSet (str "y") (str "1") None); Do 1 (CGet (str "y")); Do 1 (CExists (str "z")); Do 1 (CScan (ScanOpt false (str "p") []) None);
   Begin 2 true []; Do 2 (CGet (str "x")); Do 2 (CSet (str "q") (str "1") None); Do 2 (CDel (str "y")); Commit 2 false;
   Begin 3 true []; Do 3 (CSet (str "p9") (str "1") None); Commit 3 false; Begin 4 true []; Do 4 (CSet (str "x") (str "7") None); Commit 4 true].
Definition stock : list ev :=
  [Begin 9 true []; Do 9 (CSet (str "x") (str "1") None); Do 9 (CSet (str "p1") (str "1") None); Commit 9 false; Begin 8 true []; Do 8 (CSet (str "z") (str "1") None)].
Example C95_example :
  let w0 := fresh_db 100 true in
  forallb (fun e => negb (ends 1 e)) quiet_day = true /\
  answer w0 (stock ++ Begin 1 true [] :: quiet_day) (Commit 1 false) = Some (Ok OUnit) /\
  map calls (meanwhile w0 stock (Begin 1 true [] :: quiet_day)) = [[CGet (str "x"); CSet (str "q") (str "1") None; CDel (str "y")]; [CSet (str "p9") (str "1") None]] /\
  (* 8, begun before, commits z, which 1 had looked for *)
  answer w0 (stock ++ Begin 1 true [] :: quiet_day ++ [Commit 8 false]) (Commit 1 false) = Some (Err EConflict) /\
  (* a scanned key is deleted meanwhile *)
  answer w0 (stock ++ Begin 1 true [] :: quiet_day ++ [Begin 5 true []; Do 5 (CDel (str "p1")); Commit 5 false]) (Commit 1 false) = Some (Err EConflict) /\
  (* what 1 wrote before reading it does not count *)
  answer w0 (stock ++ Begin 1 true [] :: quiet_day ++ [Begin 5 true []; Do 5 (CSet (str "y") (str "8") None); Commit 5 false]) (Commit 1 false) = Some (Ok OUnit).
Proof. vm_compute. repeat split. Qed.
