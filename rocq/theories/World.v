(** Histories of concurrent Badger transactions on one database, and the reference semantics
    (what a single transaction should observe). *)
From Verif Require Import Bytes SMap Provider ProviderProofs.

(** calls on mondis.ProviderTxn, provider.go:70-84 *)
Inductive cmd :=
| CSet (k v : bytes) (meta : option vmeta)
| CDel (k : bytes)
| CGet (k : bytes)
| CExists (k : bytes)
| CScan (o : scan_opt) (n : option nat).     (* n: the callback returns false at the n-th item *)
Inductive out := OUnit | OEnt (e : ent) | OBool (b : bool) | OItems (l : list (bytes * ent)).
Definition exec (c : cmd) : Tx out :=
  match c with
  | CSet k v m => tsetm k v m ;;; ret OUnit
  | CDel k => tdel k ;;; ret OUnit
  | CGet k => e <- tgetm k ;; ret (OEnt e)
  | CExists k => b <- texists k ;; ret (OBool b)
  | CScan o n => l <- tscan o (collect n) [] ;; ret (OItems l)
  end.

(** one database, any number of transactions (identified by numbers), a clock *)
Record world := World { w_db : db; w_tx : nat -> option txn }.
Inductive ev :=
| Begin (i : nat) (upd : bool) (lim : list bool)
| Do (i : nat) (c : cmd)
| Commit (i : nat) (io : bool)
| Discard (i : nat)
| Tick (n : nat).
Definition upd_tx (f : nat -> option txn) (i : nat) (t : txn) : nat -> option txn :=
  fun j => if Nat.eqb j i then Some t else f j.
Definition tick (d : db) (n : nat) : db :=
  Db (d_kv d) (d_ts d) (d_last d) (d_now d + Z.of_nat n) (d_clamp d).
Definition step (w : world) (e : ev) : world * option (result out) :=
  match e with
  | Begin i u lim => (World (w_db w) (upd_tx (w_tx w) i (new_txn (w_db w) u lim)), None)
  | Do i c => match w_tx w i with
              | Some t => let '(t', r) := exec c t in (World (w_db w) (upd_tx (w_tx w) i t'), Some r)
              | None => (w, None)
              end
  | Commit i io => match w_tx w i with
                   | Some t => let '(d, t', r) := commit (w_db w) t io in
                               (World d (upd_tx (w_tx w) i t'),
                                Some (match r with Ok _ => Ok OUnit | Err e => Err e | Panic => Panic end))
                   | None => (w, None)
                   end
  | Discard i => match w_tx w i with
                 | Some t => (World (w_db w) (upd_tx (w_tx w) i (discard t)), Some (Ok OUnit))
                 | None => (w, None)
                 end
  | Tick n => (World (tick (w_db w) n) (w_tx w), None)
  end.
Fixpoint run (w : world) (es : list ev) : world * list (option (result out)) :=
  match es with
  | [] => (w, [])
  | e :: es' => let '(w1, r) := step w e in let '(w2, rs) := run w1 es' in (w2, r :: rs)
  end.

(** ** The reference: a transaction alone with the map it saw when it began *)
Definition live_map (m : smap ent) (now : Z) : smap ent := sfilter (fun p => live now (snd p)) m.
(** (map, remaining size-limit outcomes) *)
Definition ref_write (upd : bool) (M : smap ent) (lim : list bool) (k : bytes) (M' : smap ent) :
    smap ent * list bool * result out :=
  if negb upd then (M, lim, Err EReadOnlyTxn)
  else match k with
       | [] => (M, lim, Err EEmptyKey)
       | _ => if has_prefix k badger_prefix then (M, lim, Err EInvalidKey)
              else match lim with
                   | true :: l => (M, l, Err ErrTxnTooBig)
                   | _ => (M', tl lim, Ok OUnit)
                   end
       end.
Definition ref_op (upd clamp : bool) (now : Z) (s : smap ent * list bool) (c : cmd) :
    smap ent * list bool * result out :=
  let '(M, lim) := s in
  match c with
  | CSet k v meta =>
      let e := entry_of now v meta in
      ref_write upd M lim k (if live now e then set M k e else del M k)
  | CDel k => ref_write upd M lim k (del M k)
  | CGet k => (M, lim, match k with [] => Err EEmptyKey | _ =>
                         match get M k with Some e => Ok (OEnt e) | None => Err ErrKeyNotFound end end)
  | CExists k => (M, lim, match k with [] => Err EEmptyKey | _ =>
                         Ok (OBool (match get M k with Some _ => true | None => false end)) end)
  | CScan o n => (M, lim, Ok (OItems (take_opt n (scan_items clamp M o))))
  end.
Fixpoint ref_run (upd clamp : bool) (now : Z) (s : smap ent * list bool) (cs : list cmd) :
    (smap ent * list bool) * list (result out) :=
  match cs with
  | [] => (s, [])
  | c :: cs' => let '(s1, r) := ref_op upd clamp now s c in
                let '(s2, rs) := ref_run upd clamp now s1 cs' in (s2, r :: rs)
  end.

(** the commands of transaction i in a history, and their results *)
Fixpoint cmds_of (i : nat) (es : list ev) : list cmd :=
  match es with
  | [] => []
  | Do j c :: es' => if Nat.eqb j i then c :: cmds_of i es' else cmds_of i es'
  | _ :: es' => cmds_of i es'
  end.
Fixpoint outs_of (i : nat) (es : list ev) (rs : list (option (result out))) : list (result out) :=
  match es, rs with
  | Do j c :: es', Some r :: rs' => if Nat.eqb j i then r :: outs_of i es' rs' else outs_of i es' rs'
  | _ :: es', _ :: rs' => outs_of i es' rs'
  | _, _ => []
  end.
(** events that begin or end transaction i *)
Definition ends (i : nat) (e : ev) : bool :=
  match e with Begin j _ _ | Commit j _ | Discard j => Nat.eqb j i | _ => false end.
Definition about (i : nat) (e : ev) : bool :=
  match e with Begin j _ _ | Commit j _ | Discard j | Do j _ => Nat.eqb j i | Tick _ => false end.

(** ** proofs *)
Lemma exec_ref c t : t_open t = true ->
  exists t', exec c t = (t', snd (ref_op (t_upd t) (t_clamp t) (t_now t) (view t, t_lim t) c)) /\
    view t' = fst (fst (ref_op (t_upd t) (t_clamp t) (t_now t) (view t, t_lim t) c)) /\
    t_lim t' = snd (fst (ref_op (t_upd t) (t_clamp t) (t_now t) (view t, t_lim t) c)) /\
    t_open t' = true /\ keeps t t'.
Proof.
  intros O.
  assert (MOD : forall k o, exists t', (map_err too_big (modify k o) ;;; ret OUnit) t =
      (t', snd (ref_write (t_upd t) (view t) (t_lim t) k (view (put k o [] t)))) /\
      view t' = fst (fst (ref_write (t_upd t) (view t) (t_lim t) k (view (put k o [] t)))) /\
      t_lim t' = snd (fst (ref_write (t_upd t) (view t) (t_lim t) k (view (put k o [] t)))) /\
      t_open t' = true /\ keeps t t').
  { intros k o. unfold ref_write, bind, map_err, modify. destruct (t_upd t) eqn:U; cbn [negb].
    2:{ exists t. cbn [snd fst too_big]. auto using keeps_refl. }
    rewrite O. cbn [negb]. unfold key_err. destruct k as [|c0 k]; [exists t; cbn [snd fst too_big]; auto using keeps_refl|].
    destruct (has_prefix (c0 :: k) badger_prefix); [exists t; cbn [snd fst too_big]; auto using keeps_refl|].
    destruct (t_lim t) as [|[|] l] eqn:L; eexists; (split; [reflexivity|]); cbn [fst snd tl]; repeat split; try exact O; exact U. }
  destruct c as [k v meta|k|k|k|o n].
  - cbn [exec ref_op]. destruct (MOD k (Some (entry_of (t_now t) v meta))) as (t' & E1 & E2 & E3 & E4 & E5).
    rewrite !view_put in E1, E2, E3. exists t'. auto.
  - cbn [exec ref_op]. destruct (MOD k None) as (t' & E1 & E2 & E3 & E4 & E5).
    rewrite !view_put in E1, E2, E3. exists t'. auto.
  - cbn [exec ref_op fst snd]. unfold bind, tgetm, map_err, bget. destruct k as [|c0 k].
    { exists t. cbn. auto using keeps_refl. }
    rewrite O. cbn [negb]. exists (track (c0 :: k) t). split; [destruct (get (view t) (c0 :: k)); reflexivity|].
    rewrite view_track. split; [reflexivity|]. split; [unfold track, add_read; destruct (get _ _); [|destruct (t_upd t)]; reflexivity|].
    split; [unfold track, add_read; destruct (get _ _); [|destruct (t_upd t)]; exact O | apply keeps_track].
  - cbn [exec ref_op fst snd]. unfold bind, texists, try, bget. destruct k as [|c0 k].
    { exists t. cbn. auto using keeps_refl. }
    rewrite O. cbn [negb]. exists (track (c0 :: k) t). split; [destruct (get (view t) (c0 :: k)); reflexivity|].
    rewrite view_track. split; [reflexivity|]. split; [unfold track, add_read; destruct (get _ _); [|destruct (t_upd t)]; reflexivity|].
    split; [unfold track, add_read; destruct (get _ _); [|destruct (t_upd t)]; exact O | apply keeps_track].
  - cbn [exec ref_op fst snd]. unfold bind, tscan. rewrite O. cbn [negb].
    set (l := scan_items _ _ _).
    assert (G : forall acc t1, (match n with None => True | Some n' => (length acc < max 1 n')%nat end) ->
       exists t', scan_loop l (collect n) acc t1 = (t', Ok (acc ++ match n with None => l | Some n' => firstn (max 1 n' - length acc) l end)) /\
         view t' = view t1 /\ t_lim t' = t_lim t1 /\ t_open t' = t_open t1 /\ keeps t1 t').
    { induction l as [|[k e] l' IH]; intros acc t1 H.
      - exists t1. cbn [scan_loop ret]. split; [|auto using keeps_refl].
        unfold ret. destruct n; [rewrite firstn_nil|]; rewrite app_nil_r; reflexivity.
      - cbn [scan_loop]. unfold bind at 1. unfold collect at 1. unfold ret at 1. cbn [fst snd].
        assert (A : view (add_read k t1) = view t1 /\ t_lim (add_read k t1) = t_lim t1 /\ t_open (add_read k t1) = t_open t1).
        { split; [apply view_add_read|]. unfold add_read. destruct (t_upd t1); auto. }
        destruct A as (A1 & A2 & A3). destruct n as [n'|].
        + destruct (Nat.ltb_spec (length acc + 1) n') as [L|L].
          * destruct (IH (acc ++ [(k, e)]) (add_read k t1)) as (t' & E1 & E2 & E3 & E4 & E5).
            { rewrite app_length. cbn [length]. lia. }
            exists t'. rewrite E1, E2, E3, E4. repeat split; try assumption; try (eapply keeps_trans; [apply keeps_add_read | exact E5]).
            rewrite <- app_assoc, app_length. cbn [length app].
            replace (max 1 n' - length acc)%nat with (S (max 1 n' - (length acc + 1))) by lia. reflexivity.
          * exists (add_read k t1). rewrite A1, A2, A3. repeat split; try apply keeps_add_read.
            replace (max 1 n' - length acc)%nat with 1%nat by lia. reflexivity.
        + destruct (IH (acc ++ [(k, e)]) (add_read k t1) I) as (t' & E1 & E2 & E3 & E4 & E5).
          exists t'. rewrite E1, E2, E3, E4. repeat split; try assumption; try (eapply keeps_trans; [apply keeps_add_read | exact E5]).
          rewrite <- app_assoc. reflexivity. }
    destruct (G [] t) as (t' & E1 & E2 & E3 & E4 & E5); [destruct n; [cbn [length]; lia | exact I]|].
    exists t'. rewrite E1. cbn [length app]. split; [|rewrite E4; auto].
    unfold take_opt. destruct n; [rewrite Nat.sub_0_r|]; reflexivity.
Qed.

Lemma run_snapshot i : forall es w t, w_tx w i = Some t -> t_open t = true ->
  forallb (fun e => negb (ends i e)) es = true ->
  exists t', w_tx (fst (run w es)) i = Some t' /\ t_open t' = true /\
    outs_of i es (snd (run w es)) = snd (ref_run (t_upd t) (t_clamp t) (t_now t) (view t, t_lim t) (cmds_of i es)) /\
    (view t', t_lim t') = fst (ref_run (t_upd t) (t_clamp t) (t_now t) (view t, t_lim t) (cmds_of i es)) /\
    keeps t t'.
Proof.
  induction es as [|e es IH]; intros w t Hw O N.
  - exists t. cbn. auto using keeps_refl.
  - cbn [forallb] in N. apply andb_prop in N. destruct N as [N1 N2]. cbn [run].
    assert (SAME : forall w1 r1, step w e = (w1, r1) -> w_tx w1 i = Some t ->
      cmds_of i (e :: es) = cmds_of i es -> (forall rs, outs_of i (e :: es) (r1 :: rs) = outs_of i es rs) ->
      exists t', w_tx (fst (let '(w1, r) := step w e in let '(w2, rs) := run w1 es in (w2, r :: rs))) i = Some t' /\ t_open t' = true /\
       outs_of i (e :: es) (snd (let '(w1, r) := step w e in let '(w2, rs) := run w1 es in (w2, r :: rs))) = snd (ref_run (t_upd t) (t_clamp t) (t_now t) (view t, t_lim t) (cmds_of i (e :: es))) /\
       (view t', t_lim t') = fst (ref_run (t_upd t) (t_clamp t) (t_now t) (view t, t_lim t) (cmds_of i (e :: es))) /\
       keeps t t').
    { intros w1 r1 Es Hw1 Hc Ho. rewrite Es, Hc. destruct (IH w1 t Hw1 O N2) as (t' & A).
      destruct (run w1 es) as [w2 rs]. cbn [fst snd] in *. rewrite Ho. exists t'. exact A. }
    destruct e as [j u lim|j c|j io|j|n]; cbn [ends] in N1; try (apply negb_true_iff in N1).
    + apply (SAME _ None eq_refl); [|reflexivity | reflexivity].
      cbn [w_tx]. unfold upd_tx. rewrite Nat.eqb_sym, N1. exact Hw.
    + destruct (Nat.eqb j i) eqn:E.
      * apply Nat.eqb_eq in E. subst j. cbn [step cmds_of]. rewrite Hw, Nat.eqb_refl.
        destruct (exec_ref c t O) as (t1 & E1 & E2 & E3 & E4 & E5). rewrite E1. cbn [ref_run].
        destruct (ref_op (t_upd t) (t_clamp t) (t_now t) (view t, t_lim t) c) as [[M1 l1] r1] eqn:ER. cbn [fst snd] in *.
        destruct (IH (World (w_db w) (upd_tx (w_tx w) i t1)) t1) as (t' & A1 & A2 & A3 & A4 & A5); try assumption.
        { cbn [w_tx]. unfold upd_tx. rewrite Nat.eqb_refl. reflexivity. }
        destruct E5 as (K1 & K2 & K3 & K4 & K5). rewrite K3, K4, K5, E2, E3 in A3, A4.
        destruct (run _ es) as [w2 rs]. destruct (ref_run _ _ _ (M1, l1) _) as [s2 rs2]. cbn [fst snd outs_of] in *.
        rewrite Nat.eqb_refl. exists t'. rewrite A3. repeat split; try assumption; unfold keeps in A5; intuition congruence.
      * destruct (w_tx w j) as [tj|] eqn:Ej.
        -- destruct (exec c tj) as [tj' rj] eqn:Ex.
           eapply SAME; [cbn [step]; rewrite Ej, Ex; reflexivity | | | ].
           ++ cbn [w_tx]. unfold upd_tx. rewrite Nat.eqb_sym, E. exact Hw.
           ++ cbn [cmds_of]. rewrite E. reflexivity.
           ++ intros rs. cbn [outs_of]. rewrite E. reflexivity.
        -- eapply SAME; [cbn [step]; rewrite Ej; reflexivity | exact Hw | | ].
           ++ cbn [cmds_of]. rewrite E. reflexivity.
           ++ intros rs. reflexivity.
    + destruct (w_tx w j) as [tj|] eqn:Ej.
      * destruct (commit (w_db w) tj io) as [[d tj'] rj] eqn:Ec.
        eapply SAME; [cbn [step]; rewrite Ej, Ec; reflexivity | | reflexivity | reflexivity].
        cbn [w_tx]. unfold upd_tx. rewrite Nat.eqb_sym, N1. exact Hw.
      * eapply SAME; [cbn [step]; rewrite Ej; reflexivity | exact Hw | reflexivity | reflexivity].
    + destruct (w_tx w j) as [tj|] eqn:Ej.
      * eapply SAME; [cbn [step]; rewrite Ej; reflexivity | | reflexivity | reflexivity].
        cbn [w_tx]. unfold upd_tx. rewrite Nat.eqb_sym, N1. exact Hw.
      * eapply SAME; [cbn [step]; rewrite Ej; reflexivity | exact Hw | reflexivity | reflexivity].
    + apply (SAME _ None eq_refl); [exact Hw | reflexivity | reflexivity].
Qed.

(** ** committed effects *)
Lemma apply_pend_empty m : apply_pend m empty = m.
Proof. apply smap_ext. intros k. rewrite get_apply_pend. reflexivity. Qed.
Lemma view_new d u lim : view (new_txn d u lim) = live_map (d_kv d) (d_now d).
Proof. unfold view, live_map. cbn [new_txn t_snap t_pend t_now]. rewrite apply_pend_empty. reflexivity. Qed.

(** the last successful write of a key, given commands with their results:
    [Some None] = deleted, [None] = not written *)
Definition write_of (now : Z) (c : cmd) (r : result out) (k : bytes) : option (option ent) :=
  match c, r with
  | CSet k' v m, Ok _ => if bytes_eqb k k' then Some (Some (entry_of now v m)) else None
  | CDel k', Ok _ => if bytes_eqb k k' then Some None else None
  | _, _ => None
  end.
Fixpoint last_write (now : Z) (l : list (cmd * result out)) (k : bytes) : option (option ent) :=
  match l with
  | [] => None
  | (c, r) :: l' => match last_write now l' k with Some o => Some o | None => write_of now c r k end
  end.
(** the keys a transaction read from its snapshot *)
Definition reads_of (written : bytes -> bool) (c : cmd) (r : result out) (k : bytes) : bool :=
  match c, r with
  | CGet k', (Ok _ | Err ErrKeyNotFound) => bytes_eqb k k' && negb (written k)
  | CExists k', Ok _ => bytes_eqb k k' && negb (written k)
  | CScan _ _, Ok (OItems l) => existsb (fun p => bytes_eqb k (fst p)) l
  | _, _ => false
  end.
Fixpoint was_read (now : Z) (written : bytes -> bool) (l : list (cmd * result out)) (k : bytes) : bool :=
  match l with
  | [] => false
  | (c, r) :: l' => reads_of written c r k ||
      was_read now (fun j => written j || match write_of now c r j with Some _ => true | None => false end) l' k
  end.

Lemma modify_pend k o t t' r : modify k o t = (t', r) ->
  (forall j, get (t_pend t') j = match r with Ok _ => if bytes_eqb j k then Some o else get (t_pend t) j | _ => get (t_pend t) j end) /\
  t_reads t' = t_reads t.
Proof.
  unfold modify. destruct (negb (t_upd t)); [intros H; inversion H; subst; auto|].
  destruct (negb (t_open t)); [intros H; inversion H; subst; auto|].
  destruct (key_err k); [intros H; inversion H; subst; auto|].
  destruct (t_lim t) as [|[|] l]; intros H; inversion H; subst; cbn; split; auto; intros j; apply get_set.
Qed.
Lemma track_reads k t : t_upd t = true -> get (t_pend t) k = None -> In k (t_reads (track k t)).
Proof. intros U N. unfold track, add_read. rewrite N, U. left. reflexivity. Qed.
Lemma track_pend k t : t_pend (track k t) = t_pend t.
Proof. unfold track, add_read. destruct (get _ _); [|destruct (t_upd t)]; reflexivity. Qed.
Lemma track_reads_incl k t j : In j (t_reads t) -> In j (t_reads (track k t)).
Proof. unfold track, add_read. destruct (get _ _); [|destruct (t_upd t)]; cbn; auto. Qed.
Lemma add_pend k t : t_pend (add_read k t) = t_pend t.
Proof. unfold add_read. destruct (t_upd t); reflexivity. Qed.
Lemma add_upd k t : t_upd (add_read k t) = t_upd t.
Proof. unfold add_read. destruct (t_upd t) eqn:E; cbn; auto. Qed.
Lemma add_reads_incl k t j : In j (t_reads t) -> In j (t_reads (add_read k t)).
Proof. unfold add_read. destruct (t_upd t); cbn; auto. Qed.
Lemma scan_loop_reads n l : forall acc t t' r, scan_loop l (collect n) acc t = (t', r) ->
  t_pend t' = t_pend t /\ (forall j, In j (t_reads t) -> In j (t_reads t')) /\
  (exists l', r = Ok (acc ++ l') /\ (t_upd t = true -> forall k e, In (k, e) l' -> In k (t_reads t'))).
Proof.
  induction l as [|[k e] l IH]; intros acc t t' r H.
  - cbn in H. inversion H. subst. split; [reflexivity|]. split; [auto|]. exists []. rewrite app_nil_r. split; [reflexivity|]. intros _ ? ? [].
  - cbn [scan_loop] in H. unfold bind at 1, collect at 1, ret at 1 in H. cbn [fst snd] in H.
    destruct (match n with None => true | Some n' => Nat.ltb (length acc + 1) n' end).
    + apply IH in H. destruct H as (H1 & H2 & l' & H3 & H4). rewrite add_pend in H1. rewrite add_upd in H4.
      split; [exact H1|]. split; [intros j Hj; apply H2, add_reads_incl, Hj|].
      exists ((k, e) :: l'). rewrite H3, <- app_assoc. split; [reflexivity|]. intros U k1 e1 [E|Hin].
      * inversion E. subst. apply H2. unfold add_read. rewrite U. left. reflexivity.
      * eapply H4; eassumption.
    + unfold ret in H. inversion H. subst. split; [apply add_pend|]. split; [apply add_reads_incl|].
      exists [(k, e)]. split; [reflexivity|]. intros U k1 e1 [E|[]]. inversion E. subst.
      unfold add_read. rewrite U. left. reflexivity.
Qed.
Lemma bind_ret_inv {A} (m : Tx A) (f : A -> out) t t' r : (x <- m ;; ret (f x)) t = (t', r) ->
  exists r0, m t = (t', r0) /\ r = match r0 with Ok a => Ok (f a) | Err e => Err e | Panic => Panic end.
Proof.
  unfold bind, ret. destruct (m t) as [t1 [a|e|]]; intros H; inversion H; subst; eexists; split; reflexivity.
Qed.
Lemma exec_trace c t t' r : exec c t = (t', r) ->
  (forall k, get (t_pend t') k = match write_of (t_now t) c r k with Some o => Some o | None => get (t_pend t) k end) /\
  (forall k, In k (t_reads t) -> In k (t_reads t')) /\
  (t_upd t = true -> forall k, reads_of (fun j => match get (t_pend t) j with Some _ => true | None => false end) c r k = true -> In k (t_reads t')).
Proof.
  destruct c as [k v m|k|k|k|o n]; cbn [exec]; intros H.
  - apply (bind_ret_inv _ (fun _ => OUnit)) in H. destruct H as (r0 & H & ->). unfold tsetm, map_err in H.
    destruct (modify k (Some (entry_of (t_now t) v m)) t) as [t1 r1] eqn:E. apply modify_pend in E. destruct E as [E1 E2].
    destruct r1; inversion H; subst; cbn [write_of reads_of]; rewrite E2; (split; [|split; [auto | discriminate]]);
      intros j; rewrite E1; try destruct (bytes_eqb j k); reflexivity.
  - apply (bind_ret_inv _ (fun _ => OUnit)) in H. destruct H as (r0 & H & ->). unfold tdel, map_err in H.
    destruct (modify k None t) as [t1 r1] eqn:E. apply modify_pend in E. destruct E as [E1 E2].
    destruct r1; inversion H; subst; cbn [write_of reads_of]; rewrite E2; (split; [|split; [auto | discriminate]]);
      intros j; rewrite E1; try destruct (bytes_eqb j k); reflexivity.
  - apply (bind_ret_inv _ OEnt) in H. destruct H as (r0 & H & ->). unfold tgetm, map_err, bget in H.
    destruct k as [|c0 k]; [inversion H; subst; cbn; split; [auto|split; [auto|discriminate]]|].
    destruct (negb (t_open t)); [inversion H; subst; cbn; split; [auto|split; [auto|discriminate]]|].
    assert (G : t' = track (c0 :: k) t) by (destruct (get (view t) (c0 :: k)); inversion H; reflexivity).
    subst t'. rewrite track_pend. split; [destruct r0; reflexivity|]. split; [intros j; apply track_reads_incl|].
    intros U j Hj. cbn [reads_of] in Hj.
    assert (G2 : bytes_eqb j (c0 :: k) && negb (match get (t_pend t) j with Some _ => true | None => false end) = true).
    { destruct r0 as [e|[]|]; first [exact Hj | discriminate Hj]. }
    apply andb_prop in G2. destruct G2 as [G1 G2]. apply bytes_eqb_eq in G1. subst j. apply track_reads; [exact U|].
    destruct (get (t_pend t) (c0 :: k)); [discriminate G2 | reflexivity].
  - apply (bind_ret_inv _ OBool) in H. destruct H as (r0 & H & ->). unfold texists, try, bget in H.
    destruct k as [|c0 k]; [inversion H; subst; cbn; split; [auto|split; [auto|discriminate]]|].
    destruct (negb (t_open t)); [inversion H; subst; cbn; split; [auto|split; [auto|discriminate]]|].
    assert (G : t' = track (c0 :: k) t) by (destruct (get (view t) (c0 :: k)); inversion H; reflexivity).
    subst t'. rewrite track_pend. split; [destruct r0; reflexivity|]. split; [intros j; apply track_reads_incl|].
    intros U j Hj. cbn [reads_of] in Hj.
    assert (G2 : bytes_eqb j (c0 :: k) && negb (match get (t_pend t) j with Some _ => true | None => false end) = true).
    { destruct r0 as [e| |]; first [exact Hj | discriminate Hj]. }
    apply andb_prop in G2. destruct G2 as [G1 G2]. apply bytes_eqb_eq in G1. subst j. apply track_reads; [exact U|].
    destruct (get (t_pend t) (c0 :: k)); [discriminate G2 | reflexivity].
  - apply (bind_ret_inv _ OItems) in H. destruct H as (r0 & H & ->). unfold tscan in H.
    destruct (negb (t_open t)); [inversion H; subst; cbn; split; [auto|split; [auto|discriminate]]|].
    apply scan_loop_reads in H. destruct H as (H1 & H2 & l' & -> & H4). rewrite H1. cbn [write_of reads_of app].
    split; [reflexivity|]. split; [exact H2|]. intros U k Hk. apply existsb_exists in Hk. destruct Hk as ([k1 e1] & Hin & Hk).
    cbn [fst] in Hk. apply bytes_eqb_eq in Hk. subst k1. eapply H4; eassumption.
Qed.
Lemma exec_keeps c t t' r : exec c t = (t', r) -> keeps t t' /\ t_open t' = t_open t.
Proof.
  destruct (t_open t) eqn:O.
  - intros H. destruct (exec_ref c t O) as (t1 & E1 & _ & _ & E4 & E5). rewrite H in E1. inversion E1. subst. auto.
  - intros H. assert (t' = t); [|subst; rewrite O; auto using keeps_refl].
    destruct c as [k v m|k|k|k|o n]; cbn [exec] in H; unfold bind, tsetm, tdel, tgetm, texists, try, tscan, map_err, modify, bget in H;
      try destruct (t_upd t); rewrite ?O in H; cbn [negb] in H; try (destruct k as [|c0 k]); cbn in H; inversion H; reflexivity.
Qed.

(** commands of i together with their results *)
Fixpoint trace_of (i : nat) (es : list ev) (rs : list (option (result out))) : list (cmd * result out) :=
  match es, rs with
  | Do j c :: es', Some r :: rs' => if Nat.eqb j i then (c, r) :: trace_of i es' rs' else trace_of i es' rs'
  | _ :: es', _ :: rs' => trace_of i es' rs'
  | _, _ => []
  end.

Lemma was_read_ext now l : forall f g k, (forall j, f j = g j) -> was_read now f l k = was_read now g l k.
Proof.
  induction l as [|[c r] l IH]; intros f g k H; cbn [was_read]; [reflexivity|]. f_equal.
  - unfold reads_of. destruct c; destruct r as [| []|]; rewrite ?H; reflexivity.
  - apply IH. intros j. rewrite H. reflexivity.
Qed.

(** [step] leaves transaction i alone unless the event is about i *)
Lemma step_other w e w1 r i : step w e = (w1, r) -> about i e = false -> w_tx w1 i = w_tx w i.
Proof.
  destruct e as [j u lim|j c|j io|j|n]; cbn [step about]; intros H A;
    try (destruct (w_tx w j) as [tj|]; [|inversion H; subst; reflexivity]).
  - inversion H. cbn. unfold upd_tx. rewrite Nat.eqb_sym, A. reflexivity.
  - destruct (exec c tj). inversion H. cbn. unfold upd_tx. rewrite Nat.eqb_sym, A. reflexivity.
  - destruct (commit (w_db w) tj io) as [[d t'] r']. inversion H. cbn. unfold upd_tx. rewrite Nat.eqb_sym, A. reflexivity.
  - inversion H. cbn. unfold upd_tx. rewrite Nat.eqb_sym, A. reflexivity.
  - inversion H. reflexivity.
Qed.

Lemma run_trace i : forall es w t, w_tx w i = Some t ->
  forallb (fun e => negb (ends i e)) es = true ->
  exists t', w_tx (fst (run w es)) i = Some t' /\ keeps t t' /\ t_open t' = t_open t /\
    (forall k, get (t_pend t') k = match last_write (t_now t) (trace_of i es (snd (run w es))) k with Some o => Some o | None => get (t_pend t) k end) /\
    (forall k, In k (t_reads t) -> In k (t_reads t')) /\
    (t_upd t = true -> forall k, was_read (t_now t) (fun j => match get (t_pend t) j with Some _ => true | None => false end)
         (trace_of i es (snd (run w es))) k = true -> In k (t_reads t')).
Proof.
  induction es as [|e es IH]; intros w t Hw N.
  - exists t. cbn. split; [exact Hw|]. split; [apply keeps_refl|]. split; [reflexivity|]. split; [reflexivity|]. split; [auto|discriminate].
  - cbn [forallb] in N. apply andb_prop in N. destruct N as [N1 N2]. cbn [run].
    destruct (about i e) eqn:Ab.
    + assert (De : exists c, e = Do i c).
      { destruct e as [j u lim|j c|j io|j|n]; cbn [about ends] in *; try (rewrite Ab in N1; discriminate N1).
        apply Nat.eqb_eq in Ab. subst. eauto. }
      destruct De as [c ->]. cbn [step]. rewrite Hw. destruct (exec c t) as [t1 r1] eqn:Ex.
      destruct (exec_trace _ _ _ _ Ex) as (P1 & P2 & P3). destruct (exec_keeps _ _ _ _ Ex) as [K O].
      destruct (IH (World (w_db w) (upd_tx (w_tx w) i t1)) t1) as (t' & A1 & A2 & A3 & A4 & A5 & A6); try assumption.
      { cbn [w_tx]. unfold upd_tx. rewrite Nat.eqb_refl. reflexivity. }
      destruct (run _ es) as [w2 rs]. cbn [fst snd trace_of] in *. rewrite Nat.eqb_refl. cbn [last_write was_read].
      exists t'. destruct K as (K1 & K2 & K3 & K4 & K5).
      split; [exact A1|]. split; [unfold keeps in *; intuition congruence|]. split; [congruence|]. split; [|split].
      * intros k. rewrite A4, K3. destruct (last_write _ _ k); [reflexivity|]. rewrite P1. reflexivity.
      * auto.
      * intros U k Hk. apply orb_prop in Hk. destruct Hk as [Hk|Hk].
        -- apply A5, P3; assumption.
        -- apply A6; [congruence|]. rewrite K3. rewrite (was_read_ext _ _ _ (fun j => match get (t_pend t) j with Some _ => true | None => false end || match write_of (t_now t) c r1 j with Some _ => true | None => false end)); [exact Hk|].
           intros j. rewrite P1. destruct (write_of _ _ _ j); [rewrite orb_true_r; reflexivity | rewrite orb_false_r; reflexivity].
    + destruct (step w e) as [w1 r1] eqn:Es. pose proof (step_other _ _ _ _ _ Es Ab) as Hs.
      destruct (IH w1 t) as (t' & A); [congruence | exact N2|].
      assert (Tr : forall rs, trace_of i (e :: es) (r1 :: rs) = trace_of i es rs).
      { intros rs. destruct e as [j u lim|j c|j io|j|n]; cbn [trace_of]; try reflexivity.
        cbn [about] in Ab. destruct r1; [rewrite Ab|]; reflexivity. }
      destruct (run w1 es) as [w2 rs]. cbn [fst snd] in *. rewrite Tr. exists t'. exact A.
Qed.

Lemma commit_cases d t io d' t' r : commit d t io = (d', t', r) ->
  (r = Ok tt /\ (forall k, get (d_kv d') k = match get (t_pend t) k with Some o => o | None => get (d_kv d) k end)
             /\ (entries (t_pend t) <> [] -> conflict d t = false)) \/
  (r <> Ok tt /\ d' = d).
Proof.
  unfold commit. destruct (negb (t_open t)); [intros H; inversion H; subst; right; split; [discriminate|reflexivity]|].
  destruct (entries (t_pend t)) eqn:E.
  - intros H. inversion H. subst. left. split; [reflexivity|]. split; [|congruence].
    intros k. rewrite (smap_eq (t_pend t) empty E). reflexivity.
  - destruct (conflict d t); [intros H; inversion H; subst; right; split; [discriminate|reflexivity]|].
    destruct io; intros H; inversion H; subst; [right; split; [discriminate|reflexivity]|].
    left. split; [reflexivity|]. split; [|reflexivity]. intros k. cbn [publish d_kv]. apply get_apply_pend.
Qed.

(** ** transactions that cannot change anything *)
Definition inert (t : txn) : Prop := (t_upd t = false /\ t_pend t = empty) \/ t_open t = false.
Lemma exec_inert c t t' r : inert t -> exec c t = (t', r) -> inert t'.
Proof.
  intros I H. destruct (exec_keeps _ _ _ _ H) as [(K1 & K2 & K3 & K4 & K5) O].
  destruct (exec_trace _ _ _ _ H) as (P & _ & _). destruct I as [[U E]|I]; [left | right; congruence].
  split; [congruence|]. apply smap_ext. intros k. rewrite P, E.
  assert (W : write_of (t_now t) c r k = None); [|rewrite W; reflexivity].
  destruct c as [k0 v m|k0| | |]; try reflexivity; cbn [exec] in H; unfold bind, tsetm, tdel, map_err, modify in H;
    rewrite U in H; cbn [negb] in H; inversion H; reflexivity.
Qed.
Lemma commit_inert d t io d' t' r : inert t -> commit d t io = (d', t', r) -> d' = d /\ inert t'.
Proof.
  unfold commit. intros [[U E]|I].
  - rewrite E. cbn [entries]. destruct (t_open t) eqn:O; cbn [negb]; intros H; inversion H; subst; split; auto.
    + right. reflexivity.
    + right. exact O.
  - rewrite I. cbn [negb]. intros H. inversion H. subst. split; [reflexivity|right; exact I].
Qed.

Lemma run_inert i : forall es w w' t, w_tx w i = Some t -> inert t ->
  w_db w = w_db w' -> (forall j, j <> i -> w_tx w j = w_tx w' j) ->
  forallb (fun e => match e with Begin j _ _ => negb (Nat.eqb j i) | _ => true end) es = true ->
  w_db (fst (run w es)) = w_db (fst (run w' (filter (fun e => negb (about i e)) es))) /\
  (forall j, j <> i -> w_tx (fst (run w es)) j = w_tx (fst (run w' (filter (fun e => negb (about i e)) es))) j).
Proof.
  induction es as [|e es IH]; intros w w' t Hw I Hd Ho N; [cbn; auto|].
  cbn [forallb] in N. apply andb_prop in N. destruct N as [N1 N2]. cbn [filter].
  assert (RC : forall w es r, fst (run w (r :: es)) = fst (run (fst (step w r)) es)).
  { intros. cbn [run]. destruct (step w0 r) as [w1 r1]. cbn [fst]. destruct (run w1 es0). reflexivity. }
  destruct (about i e) eqn:Ab; cbn [negb].
  - rewrite RC. destruct e as [j u lim|j c|j io|j|n]; cbn [about] in Ab; try discriminate;
      try (rewrite Ab in N1; discriminate N1); apply Nat.eqb_eq in Ab; subst j; cbn [step]; rewrite Hw.
    + destruct (exec c t) as [t1 r1] eqn:Ex. cbn [fst].
      apply (IH _ w' t1); [cbn; unfold upd_tx; rewrite Nat.eqb_refl; reflexivity | eapply exec_inert; eassumption | exact Hd | | exact N2].
      intros j Hj. cbn. unfold upd_tx. rewrite (proj2 (Nat.eqb_neq j i) Hj). auto.
    + destruct (commit (w_db w) t io) as [[d1 t1] r1] eqn:Ec. cbn [fst]. destruct (commit_inert _ _ _ _ _ _ I Ec) as [-> I1].
      apply (IH _ w' t1); [cbn; unfold upd_tx; rewrite Nat.eqb_refl; reflexivity | exact I1 | exact Hd | | exact N2].
      intros j Hj. cbn. unfold upd_tx. rewrite (proj2 (Nat.eqb_neq j i) Hj). auto.
    + cbn [fst].
      apply (IH _ w' (discard t)); [cbn; unfold upd_tx; rewrite Nat.eqb_refl; reflexivity | right; reflexivity | exact Hd | | exact N2].
      intros j Hj. cbn. unfold upd_tx. rewrite (proj2 (Nat.eqb_neq j i) Hj). auto.
  - rewrite !RC. apply (IH _ _ t); try assumption.
    + destruct (step w e) as [w1 r1] eqn:Es. cbn [fst]. rewrite (step_other _ _ _ _ _ Es Ab). exact Hw.
    + destruct e as [j u lim|j c|j io|j|n]; cbn [step about] in *; try exact Hd; try (apply Nat.eqb_neq in Ab; rewrite (Ho j Ab)).
      * destruct (w_tx w' j) as [tj|]; [destruct (exec c tj)|]; exact Hd.
      * destruct (w_tx w' j) as [tj|]; [|exact Hd]. rewrite Hd. destruct (commit (w_db w') tj io) as [[d1 t1] r1]. reflexivity.
      * destruct (w_tx w' j); exact Hd.
      * cbn. rewrite Hd. reflexivity.
    + intros j' Hj'. destruct e as [j u lim|j c|j io|j|n]; cbn [step about] in *; try (apply Nat.eqb_neq in Ab; rewrite (Ho j Ab)).
      * cbn. unfold upd_tx. rewrite Hd. destruct (Nat.eqb j' j); auto.
      * destruct (w_tx w' j) as [tj|]; [destruct (exec c tj); cbn; unfold upd_tx; destruct (Nat.eqb j' j); auto | cbn; auto].
      * destruct (w_tx w' j) as [tj|]; [|cbn; auto]. rewrite Hd. destruct (commit (w_db w') tj io) as [[d1 t1] r1].
        cbn; unfold upd_tx; destruct (Nat.eqb j' j); auto.
      * destruct (w_tx w' j); cbn; unfold upd_tx; [destruct (Nat.eqb j' j)|]; auto.
      * cbn. auto.
Qed.

(** ** conflict detection *)
Definition tx_ok (d : db) (t : txn) : Prop :=
  (t_rts t <= d_ts d)%nat /\
  forall k, (forall ts, get (d_last d) k = Some ts -> (ts <= t_rts t)%nat) -> get (d_kv d) k = get (t_snap t) k.
Definition wok (w : world) : Prop :=
  (forall k ts, get (d_last (w_db w)) k = Some ts -> (ts <= d_ts (w_db w))%nat) /\
  (forall i t, w_tx w i = Some t -> t_open t = true -> tx_ok (w_db w) t).

Lemma get_last_fold (l : list (bytes * option ent)) (ts : nat) : forall (m : smap nat) k, get (fold_left (fun m p => set m (fst p) ts) l m) k =
  if existsb (fun p => bytes_eqb k (fst p)) l then Some ts else get m k.
Proof.
  induction l as [|[k0 o] l IH]; intros m k; cbn [fold_left existsb fst]; [reflexivity|].
  rewrite IH, get_set. destruct (bytes_eqb k k0); cbn [orb]; destruct (existsb _ l); reflexivity.
Qed.
Lemma not_written (p : smap (option ent)) k : existsb (fun q => bytes_eqb k (fst q)) (entries p) = false -> get p k = None.
Proof.
  intros H. apply get_none. intros v Hin. assert (X : existsb (fun q => bytes_eqb k (fst q)) (entries p) = true).
  { apply existsb_exists. exists (k, v). split; [exact Hin | apply bytes_eqb_refl]. }
  congruence.
Qed.
Lemma publish_ok d t tj : (forall k ts, get (d_last d) k = Some ts -> (ts <= d_ts d)%nat) -> tx_ok d tj -> tx_ok (publish d t) tj.
Proof.
  intros HL [H1 H2]. split; [cbn [publish d_ts]; lia|]. intros k Hk. cbn [publish d_kv d_last] in *.
  rewrite get_last_fold in Hk. destruct (existsb _ _) eqn:E.
  - specialize (Hk _ eq_refl). lia.
  - rewrite get_apply_pend, (not_written _ _ E). apply H2. exact Hk.
Qed.
Lemma wok_init now clamp : wok (World (db_init now clamp) (fun _ => None)).
Proof. split; [discriminate|discriminate]. Qed.
Lemma step_wok w e : wok w -> wok (fst (step w e)).
Proof.
  intros [HL HT]. destruct e as [j u lim|j c|j io|j|n]; cbn [step].
  - split; [exact HL|]. cbn [fst w_tx w_db]. unfold upd_tx. intros i t. destruct (Nat.eqb i j); [|apply HT].
    intros E _. inversion E. subst t. split; [cbn; lia|]. intros k _. reflexivity.
  - destruct (w_tx w j) as [tj|] eqn:Ej; [|split; assumption]. destruct (exec c tj) as [t1 r] eqn:Ex.
    split; [exact HL|]. cbn [fst w_tx w_db]. unfold upd_tx. intros i t. destruct (Nat.eqb i j); [|apply HT].
    intros E O. inversion E. subst t. destruct (exec_keeps _ _ _ _ Ex) as [(K1 & K2 & _) K3].
    destruct (HT j tj Ej) as [A B]; [congruence|]. split; [rewrite K2; exact A|]. rewrite K1, K2. exact B.
  - destruct (w_tx w j) as [tj|] eqn:Ej; [|split; assumption]. destruct (commit (w_db w) tj io) as [[d t1] r] eqn:Ec.
    unfold commit in Ec.
    assert (ID : d = w_db w -> (t_open t1 = true -> t1 = tj) -> wok (fst (World d (upd_tx (w_tx w) j t1), Some (match r with Ok _ => Ok OUnit | Err e => Err e | Panic => Panic end)))).
    { intros -> Ht. split; [exact HL|]. cbn [fst w_tx w_db]. unfold upd_tx. intros i t. destruct (Nat.eqb i j) eqn:Eij; [|apply HT].
      intros E O. inversion E. subst t. pose proof (Ht O) as Q. subst t1. apply (HT j tj Ej). exact O. }
    destruct (negb (t_open tj)) eqn:O; [inversion Ec; subst; apply ID; auto|].
    destruct (entries (t_pend tj)) eqn:Ep; [inversion Ec; subst; apply ID; [reflexivity|discriminate]|].
    destruct (conflict (w_db w) tj); [inversion Ec; subst; apply ID; [reflexivity|discriminate]|].
    destruct io; [inversion Ec; subst; apply ID; [reflexivity|discriminate]|].
    inversion Ec. subst d t1 r. cbn [fst]. split.
    + cbn [w_db publish d_last d_ts]. intros k ts. rewrite get_last_fold. destruct (existsb _ _).
      * intros H. inversion H. lia.
      * intros H. apply HL in H. lia.
    + cbn [w_tx w_db]. unfold upd_tx. intros i t. destruct (Nat.eqb i j).
      * intros E. inversion E. subst. discriminate.
      * intros E Ot. apply publish_ok; [exact HL | apply (HT i); assumption].
  - destruct (w_tx w j) as [tj|] eqn:Ej; [|split; assumption]. split; [exact HL|]. cbn [fst w_tx w_db]. unfold upd_tx.
    intros i t. destruct (Nat.eqb i j); [|apply HT]. intros E. inversion E. subst. discriminate.
  - split; [exact HL|]. cbn [fst w_tx w_db]. intros i t E O. destruct (HT i t E O) as [A B]. split; [exact A | exact B].
Qed.
Lemma run_fst_cons w e es : fst (run w (e :: es)) = fst (run (fst (step w e)) es).
Proof. cbn [run]. destruct (step w e) as [w1 r]. cbn [fst]. destruct (run w1 es). reflexivity. Qed.
Lemma run_wok es : forall w, wok w -> wok (fst (run w es)).
Proof.
  induction es as [|e es IH]; intros w H; [exact H|]. rewrite run_fst_cons. apply IH, step_wok, H.
Qed.
Lemma conflict_free d t k : tx_ok d t -> conflict d t = false -> In k (t_reads t) -> get (d_kv d) k = get (t_snap t) k.
Proof.
  intros [_ H] C Hin. apply H. intros ts Hts. unfold conflict in C.
  destruct (Nat.leb_spec ts (t_rts t)) as [L|L]; [exact L|]. exfalso.
  assert (X : existsb (fun k => match get (d_last d) k with Some ts => Nat.ltb (t_rts t) ts | None => false end) (t_reads t) = true).
  { apply existsb_exists. exists k. split; [exact Hin|]. rewrite Hts. apply Nat.ltb_lt. exact L. }
  congruence.
Qed.
