(** Proofs for C92: the clients' history is simulated by a history of local transactions. *)
From Verif Require Import Bytes Compact SMap Provider ProviderProofs Pb PbProofs PbLoop PbMsgs World Serial SerialProofs Remote RemoteProofs RemoteTxn RemoteSerial.

(** ** histories of the store *)
Definition oth (k : nat) (l : list ev) : Prop := forallb (fun e => negb (about k e)) l = true.
Lemma cmds_app i a b : cmds_of i (a ++ b) = cmds_of i a ++ cmds_of i b.
Proof. induction a as [|e a IH]; [reflexivity|]. destruct e; cbn [app cmds_of]; try exact IH. destruct (Nat.eqb _ _); [cbn; f_equal; exact IH|exact IH]. Qed.
Lemma outs_app i a : forall b w, outs_of i (a ++ b) (snd (run w (a ++ b))) = outs_of i a (snd (run w a)) ++ outs_of i b (snd (run (fst (run w a)) b)).
Proof.
  induction a as [|e a IH]; intros b w; [reflexivity|]. cbn [app run]. destruct (step w e) as [w1 r] eqn:E. specialize (IH b w1).
  destruct (run w1 (a ++ b)) as [w2 rs]. destruct (run w1 a) as [w3 rs']. cbn [fst snd] in *.
  destruct e as [k u lim|k c|k io|k|n]; cbn [outs_of]; try exact IH. destruct r as [r|]; [|exact IH]. destruct (Nat.eqb k i); [cbn [app]; f_equal; exact IH|exact IH].
Qed.
Lemma oth_cons k e l : oth k (e :: l) <-> about k e = false /\ oth k l.
Proof. unfold oth. cbn [forallb]. rewrite andb_true_iff, negb_true_iff. reflexivity. Qed.
Lemma oth_step k e w : about k e = false -> w_tx (fst (step w e)) k = w_tx w k.
Proof.
  intros H. destruct e as [i u lim|i c|i io|i|n]; cbn [about] in H; cbn [step]; try (rewrite Nat.eqb_sym in H).
  - cbn. unfold upd_tx. rewrite H. reflexivity.
  - destruct (w_tx w i); [|reflexivity]. destruct (exec c t). cbn. unfold upd_tx. rewrite H. reflexivity.
  - destruct (w_tx w i); [|reflexivity]. destruct (commit _ _ _) as [[? ?] ?]. cbn. unfold upd_tx. rewrite H. reflexivity.
  - destruct (w_tx w i); [|reflexivity]. cbn. unfold upd_tx. rewrite H. reflexivity.
  - reflexivity.
Qed.
Lemma oth_run k l : forall w, oth k l -> w_tx (fst (run w l)) k = w_tx w k.
Proof.
  induction l as [|e l IH]; intros w H; [reflexivity|]. apply oth_cons in H. destruct H as [H1 H2]. cbn [run].
  pose proof (oth_step k e w H1) as S1. destruct (step w e) as [w1 r]. specialize (IH w1 H2). destruct (run w1 l). cbn [fst] in *. congruence.
Qed.
Lemma oth_outs k l : forall rs, oth k l -> outs_of k l rs = [] /\ cmds_of k l = [].
Proof.
  induction l as [|e l IH]; intros rs H; [destruct rs; split; reflexivity|]. apply oth_cons in H. destruct H as [H1 H2].
  destruct e as [i u lim|i c|i io|i|n]; cbn [about] in H1; destruct rs as [|r rs]; cbn [outs_of cmds_of]; rewrite ?H1; try (destruct r); try (apply IH; exact H2);
    (split; [|apply (IH []); exact H2]; reflexivity) || idtac.
Qed.
Lemma oth_ends k l : oth k l -> forallb (fun e => negb (ends k e)) l = true.
Proof.
  unfold oth. induction l as [|e l IH]; [reflexivity|]. cbn [forallb]. rewrite !andb_true_iff. intros [H1 H2]. split; [|apply IH; exact H2].
  destruct e; cbn [ends about] in *; try exact H1. reflexivity.
Qed.
Lemma oth_jstep k e a j : about k e = false -> find_tx k (j_open (jstep j (e, a))) = find_tx k (j_open j).
Proof.
  intros H.
  assert (G1 : forall i d, Nat.eqb i k = false -> find_tx k ((i, d) :: forget i (j_open j)) = find_tx k (j_open j)).
  { intros i d N. rewrite find_cons_forget, Nat.eqb_sym, N. reflexivity. }
  assert (G2 : forall i, Nat.eqb i k = false -> find_tx k (forget i (j_open j)) = find_tx k (j_open j)).
  { intros i N. apply find_forget_other. intros ->. rewrite Nat.eqb_refl in N. discriminate. }
  destruct e as [i u lim|i c|i io|i|n]; cbn [about] in H; cbn [jstep].
  - apply G1, H.
  - destruct a; [|reflexivity]. destruct (find_tx i _); [|reflexivity]. apply G1, H.
  - destruct a as [[x|x|]|]; try (apply G2, H). destruct (find_tx i _); [|reflexivity]. apply G2, H.
  - apply G2, H.
  - reflexivity.
Qed.
Lemma oth_fold k l : forall rs j, oth k l -> find_tx k (j_open (fold_left jstep (combine l rs) j)) = find_tx k (j_open j).
Proof.
  induction l as [|e l IH]; intros rs j H; [reflexivity|]. apply oth_cons in H. destruct H as [H1 H2]. destruct rs as [|r rs]; [reflexivity|].
  cbn [combine fold_left]. rewrite (IH rs _ H2). apply oth_jstep, H1.
Qed.
Lemma oth_journal k tr l w : oth k l -> find_tx k (j_open (journal_of w (tr ++ l))) = find_tx k (j_open (journal_of w tr)).
Proof. intros H. rewrite journal_app. apply oth_fold, H. Qed.

(** ** operations *)
Lemma local_exec o c t : cmd_of o = Some c -> is_noop o = false ->
  local_op o t = (fst (exec c t), match snd (exec c t) with Ok v => Ok (val_of v) | Err e => Err e | Panic => Panic end).
Proof.
  destruct o as [k v m|k|k|k|so limit| |]; cbn [cmd_of is_noop]; intros H N; try discriminate; injection H as <-; cbn [local_op exec]; unfold bind.
  - destruct (tsetm k v m t) as [t1 [x|x|]]; reflexivity.
  - destruct (tgetm k t) as [t1 [x|x|]]; reflexivity.
  - destruct (texists k t) as [t1 [x|x|]]; reflexivity.
  - destruct (tdel k t) as [t1 [x|x|]]; reflexivity.
  - rewrite N. destruct (tscan so _ [] t) as [t1 [x|x|]]; reflexivity.
Qed.
Lemma exec_no_panic c t : t_open t = true -> snd (exec c t) <> Panic.
Proof.
  intros O. destruct (exec_ref c t O) as (t' & E & _). rewrite E. cbn [snd].
  destruct c as [k v m|k|k|k|so n]; cbn [ref_op]; unfold ref_write;
    repeat match goal with |- context [match ?x with _ => _ end] => destruct x end; cbn; discriminate.
Qed.
Lemma commit_now d t io : d_now (fst (fst (commit d t io))) = d_now d.
Proof. unfold commit. destruct (negb _); [reflexivity|]. destruct (entries _); [reflexivity|]. destruct (conflict d t); [reflexivity|]. destruct io; reflexivity. Qed.
Lemma commit_wire d t io : wire_store (d_kv d) -> wire_txn t -> wire_store (d_kv (fst (fst (commit d t io)))).
Proof.
  intros W [_ P]. unfold commit. destruct (negb _); [exact W|]. destruct (entries _); [exact W|]. destruct (conflict d t); [exact W|]. destruct io; [exact W|].
  cbn. apply wire_apply; assumption.
Qed.
Lemma local_db_now d o lim io : d_now (fst (local_db d o lim io)) = d_now d.
Proof.
  assert (G : forall m, d_now (fst (bdb_write d m lim io)) = d_now d).
  { intros m. unfold bdb_write. destruct (m _) as [t [x|x|]]; [|reflexivity|reflexivity]. pose proof (commit_now d t io) as H. destruct (commit d t io) as [[? ?] ?]. exact H. }
  destruct o as [k v m|k|k|k|so limit| |]; cbn [local_db]; try reflexivity.
  - unfold bdb_set. specialize (G (tsetm k v m)). destruct (bdb_write _ _ _ _). exact G.
  - unfold bdb_del. specialize (G (modify k None)). destruct (bdb_write _ _ _ _). exact G.
Qed.

Section P.
Variable etext : err -> bytes.
Variable ptext : perr -> bytes.
Hypothesis HT : texts_ok etext ptext.
Notation rop := (rop etext ptext).
Notation nstep := (nstep etext ptext).
Notation played := (played etext ptext).
Notation accounts := (accounts etext).
Notation tells := (tells etext).

Lemma quiet d lim io r o : sends r o = false -> exists x, rop d lim io r o = (d, r, x) /\
  forall j i g, match r_st r with None => g_calls g = [] | _ => True end -> clog_op j i g o x = j.
Proof.
  destruct r as [u st sent]. unfold sends. cbn [r_upd r_st].
  destruct o as [k v m|k|k|k|so limit| |]; intros H; try discriminate H; cbn [Remote.rop r_upd].
  - subst u. cbn [negb]. eexists. split; [reflexivity|]. reflexivity.
  - subst u. cbn [negb]. eexists. split; [reflexivity|]. reflexivity.
  - apply negb_false_iff in H. rewrite H. eexists. split; [reflexivity|]. intros. cbn [clog_op is_noop]. rewrite H. reflexivity.
  - destruct st; [discriminate H|]. cbn. eexists. split; [reflexivity|]. intros j i g E. cbn [clog_op]. rewrite E. reflexivity.
  - destruct st; [discriminate H|]. cbn. eexists. split; [reflexivity|]. intros j i g E. cbn [clog_op]. rewrite E. reflexivity.
Qed.
(** operations on a stream that has ended *)
Lemma ended_op d lim io r o : r_st r = Some Ended -> op_ok (d_now d) o -> sends r o = true ->
  exists r', rop d lim io r o = (d, r', if match o with TDiscard => true | _ => false end then COk VUnit else CErr CClosed) /\ r_upd r' = r_upd r /\ r_st r' = Some Ended.
Proof.
  destruct r as [u st sent]. cbn [r_upd r_st]. intros -> O H. unfold sends in H. cbn [r_upd r_st] in H.
  destruct o as [k v m|k|k|k|so limit| |]; cbn [Remote.rop r_upd op_ok] in *.
  - subst u. cbn [negb]. destruct O as (O1 & O2 & O3 & _). destruct (set_req k v m O1 O2 O3) as (p & F1 & _). unfold roundtrip. rewrite F1. eexists. split; [reflexivity|]. split; reflexivity.
  - unfold roundtrip. rewrite (proj1 (key_req k O)). eexists. split; [reflexivity|]. split; reflexivity.
  - unfold roundtrip. rewrite (proj1 (key_req k O)). eexists. split; [reflexivity|]. split; reflexivity.
  - subst u. cbn [negb]. unfold roundtrip. rewrite (proj1 (key_req k O)). eexists. split; [reflexivity|]. split; reflexivity.
  - apply negb_true_iff in H. rewrite H. apply Z.leb_gt in H. destruct (clamp_range limit H) as [C1 _]. destruct O as [O1 O2]. unfold roundtrip.
    rewrite (proj1 (scan_req so (clamp_limit limit) O1 O2 ltac:(unfold is_i32; lia))). eexists. split; [reflexivity|]. split; reflexivity.
  - eexists. split; [reflexivity|]. split; reflexivity.
  - eexists. split; [reflexivity|]. split; reflexivity.
Qed.
(** a Set that is not the first request *)
Lemma late_set d lim io r t v k x m : r_upd r = true -> r_st r = Some (Serving t v) -> StatusResponse_unk (v_setResp v) = [] -> k <> [] -> op_ok (d_now d) (TSet k x m) ->
  exists r', rop d lim io r (TSet k x m) = (d, r', CErr (CPB 1 (ptext PWrongWireType))) /\ r_upd r' = true /\ r_st r' = Some Ended.
Proof.
  destruct r as [u st sent]. cbn [r_upd r_st]. intros -> -> U Hk (S1 & S2 & Hm & _).
  destruct (set_req k x m S1 S2 Hm) as (p & E1 & E2). exists (RTxn true (Some Ended) (sent ++ [(FSet, p)])). split; [|split; reflexivity].
  unfold Remote.rop, roundtrip. cbn [negb r_upd]. rewrite E1. unfold request. cbn [r_st r_upd r_sent]. unfold srv_frame.
  assert (E3 : StatusResponse_Unmarshal (v_setResp v) p = PErr PWrongWireType).
  { unfold SetRequest_Marshal, marshal in E1. destruct (_ <? _); [discriminate|]. apply POk_inj in E1. subst p.
    unfold SetRequest_MarshalTo, setReq2PB. cbn [SetRequest_Key SetRequest_Value SetRequest_Meta SetRequest_unk].
    destruct k as [|c k]; [contradiction|]. unfold w_bytes at 1. cbn [app]. reflexivity. }
  rewrite E3. unfold invalid_status, status. rewrite U. unfold parseSet. rewrite parse_status; [reflexivity| |apply HT].
  unfold is_i32, CodeInvalidRequest. lia.
Qed.
(** the reply variable of Set stays empty until a late Set *)
Definition set_clean (r : rtxn) : Prop := match r_st r with Some (Serving _ v) => StatusResponse_unk (v_setResp v) = [] | _ => True end.
Lemma run_h_clean {M} mar (h : Tx (option M)) t upd : (forall m, StatusResponse_unk (v_setResp (upd m)) = []) ->
  match fst (run_h mar h t upd) with Serving _ v => StatusResponse_unk (v_setResp v) = [] | Ended => True end.
Proof. intros H. unfold run_h. destruct (h t) as [t' [[m|]|e|]]; try exact I. apply H. Qed.
Lemma frame_clean d io t v c p : c <> FSet -> StatusResponse_unk (v_setResp v) = [] ->
  match snd (fst (srv_frame etext ptext d io t v c p)) with Serving _ v' => StatusResponse_unk (v_setResp v') = [] | Ended => True end.
Proof.
  intros NC U. unfold srv_frame, here. destruct c; try contradiction.
  - destruct (KeyRequest_Unmarshal _ p); try exact I. apply run_h_clean. intros; exact U.
  - destruct (KeyRequest_Unmarshal _ p); try exact I. apply run_h_clean. intros; exact U.
  - destruct (KeyRequest_Unmarshal _ p); try exact I. apply run_h_clean. intros; exact U.
  - destruct (ScanRequest_Unmarshal _ p); try exact I. apply run_h_clean. intros; exact U.
  - destruct (commit d t io) as [[? ?] ?]. exact I.
  - exact I.
Qed.
Lemma first_clean d u lim c p : match fst (first_frame etext ptext d u lim c p) with Serving _ v => StatusResponse_unk (v_setResp v) = [] | Ended => True end.
Proof.
  unfold first_frame. destruct c; try exact I;
    repeat match goal with |- context [match ?u with POk _ => _ | PErr _ => _ | PPanic => _ end] => destruct u; try exact I end; apply run_h_clean; reflexivity.
Qed.
Lemma request_clean d lim io r c p : set_clean r -> c <> FSet \/ r_st r = None -> set_clean (snd (fst (request etext ptext d lim io r c p))).
Proof.
  intros H N. unfold request. destruct (r_st r) as [[t v|]|] eqn:E.
  - unfold set_clean in H. rewrite E in H. destruct N as [N|N]; [|discriminate]. pose proof (frame_clean d io t v c p N H) as F.
    destruct (srv_frame etext ptext d io t v c p) as [[d' s] b]. exact F.
  - exact I.
  - pose proof (first_clean d (r_upd r) lim c p) as F. destruct (first_frame etext ptext d (r_upd r) lim c p) as [s b]. destruct c; try exact F; cbn; unfold set_clean; rewrite E; exact I.
Qed.
Lemma rop_clean d lim io r o : set_clean r -> match o with TSet _ _ _ => r_st r = None | _ => True end -> set_clean (snd (fst (rop d lim io r o))).
Proof.
  intros H N.
  assert (RT : forall A c p (prs : option bytes -> cres A) f n, c <> FSet \/ r_st r = None -> set_clean (snd (fst (roundtrip etext ptext d lim io r c p prs f n)))).
  { intros A c p prs f n C. unfold roundtrip. destruct p as [b|e|]; [|exact H|exact H]. pose proof (request_clean d lim io r c b H C) as Q.
    destruct (request etext ptext d lim io r c b) as [[d' r'] x]. exact Q. }
  destruct o; cbn [Remote.rop]; try (destruct (negb (r_upd r)); [exact H|]); try (destruct (_ <=? 0); [exact H|]); apply RT; auto; left; discriminate.
Qed.

(** ** the simulation *)
Variable now0 : Z.
Variable clamp : bool.
Hypothesis now0_ok : 0 <= now0.
Let w0 := fresh_db now0 clamp.
Definition at_end (h : list nev) : net * clog := played (net0 now0 clamp) clog0 h.
Definition shows (g : rlog) (cs : list cmd) (rs : list (result out)) : Prop :=
  Forall2 (fun p c => cmd_of (fst p) = Some c) (g_calls g) cs /\ Forall2 (fun p r => snd p = shown etext (fst p) r) (g_calls g) rs.
(** where transaction i began *)
Definition origin (h : list nev) (tr : list ev) (i : nat) (u : bool) (g : rlog) : Prop :=
  exists h0 o lim io f h1 tr0 tr1, h = h0 ++ NOp i o lim io f :: h1 /\ tr = tr0 ++ Begin (S i) u lim :: tr1 /\
    forallb (fun e => negb (ends (S i) e)) tr1 = true /\
    shows g (cmds_of (S i) tr1) (outs_of (S i) tr1 (snd (run (fst (run w0 (tr0 ++ [Begin (S i) u lim]))) tr1))) /\
    accounts (c_done (snd (at_end h0))) (committed w0 tr0) /\ n_db (fst (at_end h0)) = w_db (fst (run w0 tr0)).
Definition slot (h : list nev) (tr : list ev) (i : nat) (x : option (bool * phase)) (rx : option rtxn) (gx : option rlog) : Prop :=
  match x with
  | None => rx = None /\ gx = None
  | Some (u, p) => exists r, rx = Some r /\ r_upd r = u /\ set_clean r /\
      match p with
      | PFresh => r_st r = None /\ gx = Some (RLog u [])
      | PRunning sc => exists t g d, sim u p r (LOpen t) /\ w_tx (fst (run w0 tr)) (S i) = Some t /\ gx = Some g /\ g_calls g <> [] /\ g_upd g = u /\
                         find_tx (S i) (j_open (journal_of w0 tr)) = Some d /\ tells g d /\ origin h tr i u g
      | POver => r_st r = Some Ended /\ (gx = None \/ gx = Some (RLog u []))
      end
  end.
Record rel (h : list nev) (n : net) (j : clog) (ph : phases) (tr : list ev) : Prop := Rel {
  r_at : at_end h = (n, j);
  r_db : n_db n = w_db (fst (run w0 tr));
  r_wire : wire_store (d_kv (n_db n));
  r_now : 0 <= d_now (n_db n);
  r_slot : forall i, slot h tr i (ph i) (n_tx n i) (c_open j i);
  r_done : accounts (c_done j) (committed w0 tr);
  r_ttl : no_lifetimes h -> no_ttl tr;
  r_tick : still h -> no_tick tr }.

Lemma at_end_snoc h e : at_end (h ++ [e]) = let '(n, j) := at_end h in (fst (nstep n e), clog_step j e (snd (nstep n e))).
Proof.
  unfold at_end. generalize (net0 now0 clamp) clog0. induction h as [|x h IH]; intros n j; cbn [app RemoteSerial.played].
  - destruct (nstep n e). reflexivity.
  - destruct (nstep n x). apply IH.
Qed.
Lemma accounts_app d l d' l' : accounts d l -> accounts d' l' -> accounts (d ++ d') (l ++ l').
Proof. induction 1 as [|b g x dn l T A IH|g dn l A IH]; intros B; cbn [app]; [exact B|apply acc_yes; auto|apply acc_no; auto]. Qed.
Lemma accounts_maybe d l g (b : bool) : accounts d l -> accounts (d ++ if b then [(false, g)] else []) l.
Proof. intros A. rewrite <- (app_nil_r l). apply accounts_app; [exact A|]. destruct b; [apply acc_no|]; apply acc_nil. Qed.

Lemma origin_grows h e tr l i u g : oth (S i) l -> origin h tr i u g -> origin (h ++ [e]) (tr ++ l) i u g.
Proof.
  intros O (h0 & o & lim & io & f & h1 & tr0 & tr1 & E1 & E2 & N & SH & A & D). subst h tr.
  exists h0, o, lim, io, f, (h1 ++ [e]), tr0, (tr1 ++ l). split; [rewrite <- app_assoc; reflexivity|]. split; [rewrite <- app_assoc; reflexivity|].
  split; [rewrite forallb_app, N; apply oth_ends, O|]. rewrite outs_app, cmds_app.
  destruct (oth_outs (S i) l (snd (run (fst (run (fst (run w0 (tr0 ++ [Begin (S i) u lim]))) tr1)) l)) O) as [Q1 Q2]. rewrite Q1, Q2, !app_nil_r. split; [exact SH|]. split; assumption.
Qed.
Lemma slot_grows h e tr l i x rx gx : oth (S i) l -> slot h tr i x rx gx -> slot (h ++ [e]) (tr ++ l) i x rx gx.
Proof.
  intros O. destruct x as [[u [|sc|]]|]; cbn [slot]; auto.
  intros (r & E1 & E2 & E3 & t & g & d & H1 & H2 & H3 & H4 & H5 & H6 & H7 & H8). exists r. split; [exact E1|]. split; [exact E2|]. split; [exact E3|]. exists t, g, d.
  split; [exact H1|]. split; [rewrite run_fst_app, oth_run by exact O; exact H2|]. split; [exact H3|]. split; [exact H4|]. split; [exact H5|].
  split; [rewrite oth_journal by exact O; exact H6|]. split; [exact H7|]. apply origin_grows; assumption.
Qed.

(** new events of the store for one transaction of the clients *)
Definition fits (e : nev) (l : list ev) : Prop :=
  (forall i k v m, In (Do i (CSet k v m)) l -> nop_of e = Some (TSet k v m)) /\ (forall k, In (Tick k) l -> e = NTick k).
Lemma rel_step h n j ph tr e l ph' (who : option nat) :
  rel h n j ph tr -> fits e l ->
  (forall i, who <> Some i -> oth (S i) l /\ ph' i = ph i /\ n_tx (fst (nstep n e)) i = n_tx n i /\ c_open (clog_step j e (snd (nstep n e))) i = c_open j i) ->
  n_db (fst (nstep n e)) = w_db (fst (run w0 (tr ++ l))) ->
  wire_store (d_kv (n_db (fst (nstep n e)))) -> 0 <= d_now (n_db (fst (nstep n e))) ->
  (forall i, who = Some i -> slot (h ++ [e]) (tr ++ l) i (ph' i) (n_tx (fst (nstep n e)) i) (c_open (clog_step j e (snd (nstep n e))) i)) ->
  accounts (c_done (clog_step j e (snd (nstep n e)))) (committed w0 (tr ++ l)) ->
  rel (h ++ [e]) (fst (nstep n e)) (clog_step j e (snd (nstep n e))) ph' (tr ++ l).
Proof.
  intros R [F1 F2] OTH DB W N SL A. split.
  - rewrite at_end_snoc, (r_at _ _ _ _ _ R). reflexivity.
  - exact DB.
  - exact W.
  - exact N.
  - intros i. assert (D : who = Some i \/ who <> Some i) by (destruct who as [k|]; [destruct (Nat.eq_dec k i) as [->|D]; [left; reflexivity|right; congruence]|right; discriminate]).
    destruct D as [D|D]; [apply SL, D|]. destruct (OTH i D) as (O & -> & -> & ->). apply slot_grows; [exact O|]. apply (r_slot _ _ _ _ _ R).
  - exact A.
  - intros T i k v m Hin. apply in_app_or in Hin. destruct Hin as [Hin|Hin].
    + apply (r_ttl _ _ _ _ _ R) with (i := i) (k := k) (v := v); [|exact Hin]. intros e' k' v' m' He Hn. eapply T; [apply in_or_app; left; exact He|exact Hn].
    + eapply T; [apply in_or_app; right; left; reflexivity|]. exact (F1 _ _ _ _ Hin).
  - intros T k Hin. apply in_app_or in Hin. destruct Hin as [Hin|Hin].
    + apply (r_tick _ _ _ _ _ R) with (n := k); [|exact Hin]. intros k' Hk. apply (T k'). apply in_or_app. left. exact Hk.
    + apply (T k). apply in_or_app. right. left. exact (F2 _ Hin).
Qed.
Lemma put_same {A} (m : nat -> option A) i x : put m i x i = Some x. Proof. unfold put. rewrite Nat.eqb_refl. reflexivity. Qed.
Lemma put_other {A} (m : nat -> option A) i x k : k <> i -> put m i x k = m k. Proof. intros N. unfold put. rewrite (proj2 (Nat.eqb_neq k i) N). reflexivity. Qed.
Lemma drop_same {A} (m : nat -> option A) i : drop m i i = None. Proof. unfold drop. rewrite Nat.eqb_refl. reflexivity. Qed.
Lemma drop_other {A} (m : nat -> option A) i k : k <> i -> drop m i k = m k. Proof. intros N. unfold drop. rewrite (proj2 (Nat.eqb_neq k i) N). reflexivity. Qed.
Lemma clog_op_other j i g o x k : k <> i -> c_open (clog_op j i g o x) k = c_open j k.
Proof.
  intros N. unfold clog_op, ended.
  repeat match goal with |- context [match ?y with _ => _ end] => destruct y end; cbn [c_open]; rewrite ?(put_other _ _ _ _ N), ?(drop_other _ _ _ N); reflexivity.
Qed.
Definition logged (j : clog) (i : nat) (o : top) (x : cres tval) : clog := match c_open j i with Some g => clog_op j i g o x | None => j end.
(** only events about i *)
Definition mine (i : nat) (l : list ev) : Prop := Forall (fun e => match e with Begin k _ _ | Do k _ | Commit k _ | Discard k => k = i | Tick _ => False end) l.
Lemma mine_oth i k l : mine (S i) l -> k <> i -> oth (S k) l.
Proof.
  intros M N. unfold oth. apply forallb_forall. intros e He. apply negb_true_iff. unfold mine in M. rewrite Forall_forall in M. specialize (M e He).
  destruct e as [a u lim|a c|a io|a|n]; cbn [about]; try contradiction; subst a; apply Nat.eqb_neq; congruence.
Qed.
Lemma mine_fits i l e : mine i l -> (forall a k v m, In (Do a (CSet k v m)) l -> nop_of e = Some (TSet k v m)) -> fits e l.
Proof. intros M H. split; [exact H|]. intros k Hin. unfold mine in M. rewrite Forall_forall in M. destruct (M _ Hin). Qed.
Lemma rel_op h n j ph tr i u p r o lim io f d' r' x l p' :
  rel h n j ph tr -> ph i = Some (u, p) -> n_tx n i = Some r ->
  net_op etext ptext (n_db n) lim io r o f = (d', r', x) ->
  mine (S i) l -> (forall a k v m, In (Do a (CSet k v m)) l -> o = TSet k v m) ->
  d' = w_db (fst (run w0 (tr ++ l))) -> wire_store (d_kv d') -> d_now d' = d_now (n_db n) ->
  slot (h ++ [NOp i o lim io f]) (tr ++ l) i (Some (u, p')) (Some r') (c_open (logged j i o x) i) ->
  accounts (c_done (logged j i o x)) (committed w0 (tr ++ l)) ->
  exists n1 j1 tr1, nstep n (NOp i o lim io f) = (n1, Some x) /\ j1 = clog_step j (NOp i o lim io f) (Some x) /\
    rel (h ++ [NOp i o lim io f]) n1 j1 (put ph i (u, p')) tr1 /\ d_now (n_db n1) = d_now (n_db n).
Proof.
  intros R HP HR E M SE DB W NW SL A.
  assert (NS : nstep n (NOp i o lim io f) = (Net d' (put (n_tx n) i r'), Some x)) by (cbn [RemoteSerial.nstep]; rewrite HR, E; reflexivity).
  exists (Net d' (put (n_tx n) i r')), (logged j i o x), (tr ++ l). split; [exact NS|]. split; [reflexivity|]. split; [|exact NW].
  pose proof (rel_step h n j ph tr (NOp i o lim io f) l (put ph i (u, p')) (Some i) R) as Q. rewrite NS in Q. cbn [fst snd n_db n_tx] in Q.
  change (clog_step j (NOp i o lim io f) (Some x)) with (logged j i o x) in Q. apply Q; clear Q.
  - apply (mine_fits (S i)); [exact M|]. intros a k v m Hin. cbn [nop_of]. rewrite (SE _ _ _ _ Hin). reflexivity.
  - intros k N. assert (N' : k <> i) by congruence. split; [exact (mine_oth _ _ _ M N')|]. split; [apply put_other, N'|]. split; [apply put_other, N'|].
    unfold logged. destruct (c_open j i); [apply clog_op_other, N'|reflexivity].
  - exact DB.
  - exact W.
  - rewrite NW. apply (r_now _ _ _ _ _ R).
  - intros k Ek. injection Ek as <-. rewrite !put_same. exact SL.
  - exact A.
Qed.
(** nothing happens *)
Lemma run_nil tr : fst (run w0 (tr ++ [])) = fst (run w0 tr). Proof. rewrite app_nil_r. reflexivity. Qed.
Lemma mine_nil i : mine i []. Proof. constructor. Qed.

(** the server ends the transaction *)
Lemma discard_world tr i : let w := fst (run w0 tr) in
  w_db (fst (run w0 (tr ++ [Discard i]))) = w_db w /\ committed w0 (tr ++ [Discard i]) = committed w0 tr.
Proof.
  cbv zeta. rewrite run_fst_snoc. unfold committed. rewrite journal_snoc. split; [|destruct (snd (step _ _)); reflexivity].
  cbn [step]. destruct (w_tx _ i); reflexivity.
Qed.
Lemma mine_discard i : mine i [Discard i]. Proof. repeat constructor. Qed.
Lemma no_set_discard (a : nat) (k v : bytes) (m : option vmeta) i (P : Prop) : In (Do a (CSet k v m)) [Discard i] -> P.
Proof. intros [H|[]]. discriminate H. Qed.

Lemma sends_slot h tr i u p r gx o : slot h tr i (Some (u, p)) (Some r) gx -> sends r o = sends_in u p o.
Proof.
  intros (r1 & E & U & _ & H). injection E as <-. unfold sends, sends_in. rewrite U. destruct p as [|sc|].
  - destruct H as [-> _]. reflexivity.
  - destruct H as (t & g & d & (_ & (v & -> & _)) & _). destruct o; reflexivity.
  - destruct H as [-> _]. destruct o; reflexivity.
Qed.
Lemma noop_sends u p o : sends_in u p o = true -> is_noop o = false.
Proof. destruct o; cbn; try reflexivity. intros H. apply negb_true_iff in H. exact H. Qed.

Lemma quiet_phase u p o p' : may u p o = Some p' -> sends_in u p o = false -> p' = p.
Proof.
  destruct p as [|sc|]; destruct o as [k v m|k|k|k|so limit| |]; cbn [may sends_in]; intros H S; try discriminate S; try (destruct u; try discriminate S); try congruence;
    unfold allow in H; cbn [is_noop] in H; try (apply negb_false_iff in S; rewrite S in H); congruence.
Qed.


Definition goes (h : list nev) (n : net) (j : clog) (ph : phases) (i : nat) (u : bool) (o : top) (lim : list bool) (io : bool) (f : fate) (p' : phase) : Prop :=
  exists n1 j1 tr1 x, nstep n (NOp i o lim io f) = (n1, Some x) /\ j1 = clog_step j (NOp i o lim io f) (Some x) /\
    rel (h ++ [NOp i o lim io f]) n1 j1 (put ph i (u, p')) tr1 /\ d_now (n_db n1) = d_now (n_db n).
Lemma clog_append j i g o c r : cmd_of o = Some c -> is_noop o = false -> r <> Panic ->
  clog_op j i g o (shown etext o r) = CLog (put (c_open j) i (RLog (g_upd g) (g_calls g ++ [(o, shown etext o r)]))) (c_done j).
Proof.
  intros C N P. unfold shown. destruct r as [v|e|]; [| |contradiction].
  - destruct o; try discriminate C; cbn [seen_txn clog_op]; rewrite ?N; reflexivity.
  - destruct o; try discriminate C; destruct e; cbn [seen_txn clog_op]; rewrite ?N; reflexivity.
Qed.
Lemma clog_closed j i g o : match o with TCommit | TDiscard => False | _ => True end ->
  clog_op j i g o (CErr CClosed) = match g_calls g with [] => j | _ => CLog (drop (c_open j) i) (c_done j) end.
Proof. destruct o; intros H; try contradiction; cbn [clog_op]; destruct (g_calls g); reflexivity. Qed.
Lemma upd_same f i t : upd_tx f i t i = Some t. Proof. unfold upd_tx. rewrite Nat.eqb_refl. reflexivity. Qed.
Lemma begin_do tr i u lim c : let w := fst (run w0 tr) in let x := exec c (new_txn (w_db w) u lim) in let l := [Begin (S i) u lim; Do (S i) c] in
  w_db (fst (run w0 (tr ++ l))) = w_db w /\ w_tx (fst (run w0 (tr ++ l))) (S i) = Some (fst x) /\
  find_tx (S i) (j_open (journal_of w0 (tr ++ l))) = Some (Deed u lim [(c, snd x)]) /\ committed w0 (tr ++ l) = committed w0 tr /\
  outs_of (S i) [Do (S i) c] (snd (run (fst (run w0 (tr ++ [Begin (S i) u lim]))) [Do (S i) c])) = [snd x].
Proof.
  cbv zeta. rewrite run_fst_app. unfold committed. rewrite journal_app. rewrite run_fst_snoc. cbn [run step fst snd w_tx w_db]. rewrite !upd_same.
  destruct (exec c (new_txn (w_db (fst (run w0 tr))) u lim)) as [t' a]. cbn [fst snd w_db w_tx combine fold_left jstep j_open j_done outs_of].
  rewrite find_cons, Nat.eqb_refl. cbn [j_open j_done]. rewrite find_cons, Nat.eqb_refl, upd_same. repeat split; reflexivity.
Qed.
Lemma cmd_cases o : match o with TCommit | TDiscard => False | _ => True end -> exists c, cmd_of o = Some c.
Proof. destruct o; intros H; try contradiction; eexists; reflexivity. Qed.
Lemma cmd_set o c k v m : cmd_of o = Some c -> c = CSet k v m -> o = TSet k v m.
Proof. intros H ->. destruct o; try discriminate; cbn in H; congruence. Qed.

Lemma fresh_step h n j ph tr i u o lim io f p1 r : rel h n j ph tr -> op_ok (d_now (n_db n)) o -> ph i = Some (u, PFresh) -> n_tx n i = Some r ->
  sends_in u PFresh o = true -> may u PFresh o = Some p1 ->
  goes h n j ph i u o lim io f (match f with Answered => p1 | Unanswered => POver | Unsent => PFresh end).
Proof.
  intros R OK HP HR SI HM. pose proof (r_slot _ _ _ _ _ R i) as SL. rewrite HP, HR in SL. pose proof (sends_slot _ _ _ _ _ _ _ o SL) as SS. rewrite SI in SS.
  destruct SL as (r1 & E & U & CL & ST & EG). injection E as <-.
  assert (NC : match o with TCommit | TDiscard => False | _ => True end) by (destruct o; try exact I; discriminate SI).
  assert (NO : is_noop o = false) by (apply (noop_sends u PFresh); exact SI).
  destruct (cmd_cases o NC) as [c HC].
  assert (AL : allow u PFresh o = Some p1).
  { destruct o; cbn [may] in HM; try exact HM; cbn [sends_in] in SI; rewrite SI in HM |- *; exact HM. }
  assert (P1 : p1 = PRunning false).
  { unfold allow in AL. rewrite NO in AL. destruct o; try contradiction; try (destruct u); congruence. }
  assert (LC : logged j i o (CErr CClosed) = j) by (unfold logged; rewrite EG, clog_closed by exact NC; reflexivity).
  destruct (sim_step etext ptext HT u (n_db n) lim io PFresh r LNone o p1 (conj U ST) AL OK (fun _ => conj (r_wire _ _ _ _ _ R) (r_now _ _ _ _ _ R)))
    as (d' & r' & s' & y & A & B & C).
  unfold lop in B. rewrite NO in B.
  assert (B' : d' = n_db n /\ s' = LOpen (fst (local_op o (new_txn (n_db n) u lim))) /\ y = snd (local_op o (new_txn (n_db n) u lim))).
  { destruct o; try contradiction; destruct (local_op _ _) as [t1 y1]; cbn [fst snd]; (split; [congruence|split; congruence]). }
  destruct B' as (-> & -> & ->). rewrite (local_exec o c (new_txn (n_db n) u lim) HC NO) in *. cbn [fst snd] in A, C.
  pose proof (rop_clean (n_db n) lim io r o CL) as CL'. rewrite A in CL'. cbn [fst snd] in CL'.
  assert (CL2 : set_clean r') by (apply CL'; destruct o; try exact I; exact ST). clear CL'.
  destruct (begin_do tr i u lim c) as (W1 & W2 & W3 & W4 & W5). cbv zeta in *. rewrite <- (r_db _ _ _ _ _ R) in W1, W2, W3, W5.
  assert (NP : snd (exec c (new_txn (n_db n) u lim)) <> Panic) by (apply exec_no_panic; reflexivity).
  set (ex := exec c (new_txn (n_db n) u lim)) in *. fold (shown etext o (snd ex)) in A.
  set (l := [Begin (S i) u lim; Do (S i) c]) in *.
  assert (ML : mine (S i) l) by (repeat constructor).
  assert (SE : forall a k v m, In (Do a (CSet k v m)) l -> o = TSet k v m).
  { intros a k v m [H|[H|[]]]; [discriminate H|]. injection H as _ H. apply (cmd_set o c); [exact HC|exact H]. }
  unfold goes. destruct f.
  - assert (NN : net_op etext ptext (n_db n) lim io r o Answered = (n_db n, r', shown etext o (snd ex))) by (unfold net_op; rewrite SS; exact A).
    assert (LG : logged j i o (shown etext o (snd ex)) = CLog (put (c_open j) i (RLog u [(o, shown etext o (snd ex))])) (c_done j)).
    { unfold logged. rewrite EG. apply (clog_append j i (RLog u []) o c); assumption. }
    destruct (rel_op h n j ph tr i u PFresh r o lim io Answered _ _ _ l p1 R HP HR NN ML SE) as (n1 & j1 & tr1 & Q); [..|exists n1, j1, tr1, (shown etext o (snd ex)); exact Q].
    + symmetry. exact W1.
    + apply (r_wire _ _ _ _ _ R).
    + reflexivity.
    + rewrite LG. cbn [c_open]. rewrite put_same. subst p1. exists r'. split; [reflexivity|]. split; [exact (proj1 C)|]. split; [exact CL2|].
      exists (fst ex), (RLog u [(o, shown etext o (snd ex))]), (Deed u lim [(c, snd ex)]). split; [exact C|]. split; [exact W2|]. split; [reflexivity|]. split; [discriminate|]. split; [reflexivity|].
      split; [exact W3|]. split; [split; [reflexivity|]; repeat constructor; exact HC|].
      exists h, o, lim, io, Answered, [], tr, [Do (S i) c]. split; [reflexivity|]. split; [reflexivity|]. split; [reflexivity|].
      split; [|split].
      * rewrite W5. cbn [cmds_of]. rewrite Nat.eqb_refl. split; repeat constructor. exact HC.
      * rewrite (r_at _ _ _ _ _ R). exact (r_done _ _ _ _ _ R).
      * rewrite (r_at _ _ _ _ _ R). exact (r_db _ _ _ _ _ R).
    + rewrite LG, W4. exact (r_done _ _ _ _ _ R).
  - assert (NN : net_op etext ptext (n_db n) lim io r o Unanswered = (n_db n, rdrop r', CErr CClosed)) by (unfold net_op; rewrite SS, A; reflexivity).
    assert (AA : tr ++ l ++ [Discard (S i)] = (tr ++ l) ++ [Discard (S i)]) by (rewrite app_assoc; reflexivity).
    destruct (discard_world (tr ++ l) (S i)) as [D1 D2]. cbv zeta in *.
    destruct (rel_op h n j ph tr i u PFresh r o lim io Unanswered _ _ _ (l ++ [Discard (S i)]) POver R HP HR NN) as (n1 & j1 & tr1 & Q); [..|exists n1, j1, tr1, (CErr CClosed); exact Q].
    + unfold mine. apply Forall_app. split; [exact ML|apply mine_discard].
    + intros a k v m H. apply in_app_or in H. destruct H as [H|H]; [exact (SE _ _ _ _ H)|exact (no_set_discard _ _ _ _ _ _ H)].
    + rewrite AA, D1, W1. reflexivity.
    + apply (r_wire _ _ _ _ _ R).
    + reflexivity.
    + rewrite LC. exists (rdrop r'). split; [reflexivity|]. destruct C as [C1 C2]. split; [exact C1|]. subst p1. destruct C2 as (v & C2 & _). split.
      * unfold set_clean, rdrop. cbn [r_st]. rewrite C2. exact I.
      * split; [unfold rdrop; cbn [r_st]; rewrite C2; reflexivity|]. right. exact EG.
    + rewrite LC, AA, D2, W4. exact (r_done _ _ _ _ _ R).
  - assert (NN : net_op etext ptext (n_db n) lim io r o Unsent = (n_db n, rdrop r, CErr CClosed)) by (unfold net_op; rewrite SS; reflexivity).
    destruct (rel_op h n j ph tr i u PFresh r o lim io Unsent _ _ _ [] PFresh R HP HR NN) as (n1 & j1 & tr1 & Q); [..|exists n1, j1, tr1, (CErr CClosed); exact Q].
    + apply mine_nil.
    + intros a k v m [].
    + rewrite run_nil. apply (r_db _ _ _ _ _ R).
    + apply (r_wire _ _ _ _ _ R).
    + reflexivity.
    + rewrite LC. exists (rdrop r). split; [reflexivity|]. split; [exact U|]. unfold set_clean, rdrop. cbn [r_st]. rewrite ST. split; [exact I|]. split; [reflexivity|exact EG].
    + rewrite LC, app_nil_r. exact (r_done _ _ _ _ _ R).
Qed.

Lemma over_step h n j ph tr i u o lim io f r : rel h n j ph tr -> op_ok (d_now (n_db n)) o -> ph i = Some (u, POver) -> n_tx n i = Some r ->
  sends_in u POver o = true -> goes h n j ph i u o lim io f POver.
Proof.
  intros R OK HP HR SI. pose proof (r_slot _ _ _ _ _ R i) as SL. rewrite HP, HR in SL. pose proof (sends_slot _ _ _ _ _ _ _ o SL) as SS. rewrite SI in SS.
  destruct SL as (r1 & E & U & CL & ST & EG). injection E as <-.
  destruct (ended_op (n_db n) lim io r o ST OK SS) as (r' & A & U' & ST').
  assert (NN : exists r2 x, net_op etext ptext (n_db n) lim io r o f = (n_db n, r2, x) /\ r_upd r2 = u /\ r_st r2 = Some Ended /\ (x = CErr CClosed \/ o = TDiscard)).
  { unfold net_op. rewrite SS. destruct f.
    - exists r', (if match o with TDiscard => true | _ => false end then COk VUnit else CErr CClosed). split; [exact A|]. split; [congruence|]. split; [exact ST'|]. destruct o; auto.
    - exists (rdrop r'), (CErr CClosed). rewrite A. split; [reflexivity|]. split; [cbn [rdrop r_upd]; congruence|]. split; [cbn [rdrop r_st]; rewrite ST'; reflexivity|auto].
    - exists (rdrop r), (CErr CClosed). split; [reflexivity|]. split; [exact U|]. split; [cbn [rdrop r_st]; rewrite ST; reflexivity|auto]. }
  destruct NN as (r2 & x & NN & U2 & S2 & X).
  assert (LG : c_done (logged j i o x) = c_done j /\ (c_open (logged j i o x) i = None \/ c_open (logged j i o x) i = Some (RLog u []))).
  { unfold logged. destruct EG as [EG|EG]; rewrite EG; [split; [reflexivity|left; exact EG]|]. destruct X as [->|X].
    - destruct (match o with TCommit | TDiscard => true | _ => false end) eqn:EO.
      + destruct o; try discriminate EO; cbn [clog_op g_calls].
        * unfold ended. cbn [rwrote g_calls existsb c_done c_open]. rewrite app_nil_r, drop_same. split; [reflexivity|left; reflexivity].
        * split; [reflexivity|right; exact EG].
      + rewrite clog_closed by (destruct o; try exact I; discriminate EO). split; [reflexivity|right; exact EG].
    - subst o. cbn [clog_op g_calls]. split; [reflexivity|right; exact EG]. }
  destruct LG as [L1 L2].
  destruct (rel_op h n j ph tr i u POver r o lim io f _ _ _ [] POver R HP HR NN) as (n1 & j1 & tr1 & Q); [..|exists n1, j1, tr1, x; exact Q].
  + apply mine_nil.
  + intros a k v m [].
  + rewrite run_nil. apply (r_db _ _ _ _ _ R).
  + apply (r_wire _ _ _ _ _ R).
  + reflexivity.
  + exists r2. split; [reflexivity|]. split; [exact U2|]. unfold set_clean. rewrite S2. split; [exact I|]. split; [reflexivity|exact L2].
  + rewrite L1, app_nil_r. exact (r_done _ _ _ _ _ R).
Qed.

Lemma do_world tr i c t d : let w := fst (run w0 tr) in w_tx w (S i) = Some t -> find_tx (S i) (j_open (journal_of w0 tr)) = Some d ->
  let l := [Do (S i) c] in
  w_db (fst (run w0 (tr ++ l))) = w_db w /\ w_tx (fst (run w0 (tr ++ l))) (S i) = Some (fst (exec c t)) /\
  find_tx (S i) (j_open (journal_of w0 (tr ++ l))) = Some (Deed (s_upd d) (s_lim d) (s_calls d ++ [(c, snd (exec c t))])) /\
  committed w0 (tr ++ l) = committed w0 tr.
Proof.
  cbv zeta. intros Hw HJ. rewrite run_fst_snoc. unfold committed. rewrite journal_snoc. cbn [step]. rewrite Hw. destruct (exec c t) as [t' a]. cbn [fst snd w_db w_tx jstep].
  rewrite HJ. cbn [j_open j_done]. rewrite find_cons, Nat.eqb_refl, upd_same. repeat split; reflexivity.
Qed.
Lemma commit_world tr i io t d : let w := fst (run w0 tr) in w_tx w (S i) = Some t -> find_tx (S i) (j_open (journal_of w0 tr)) = Some d ->
  let l := [World.Commit (S i) io] in
  w_db (fst (run w0 (tr ++ l))) = fst (fst (commit (w_db w) t io)) /\
  committed w0 (tr ++ l) = committed w0 tr ++ match snd (commit (w_db w) t io) with Ok _ => if existsb wrote (s_calls d) then [d] else [] | _ => [] end.
Proof.
  cbv zeta. intros Hw HJ. rewrite run_fst_snoc. unfold committed. rewrite journal_snoc. cbn [step]. rewrite Hw. destruct (commit _ t io) as [[d' t'] a]. cbn [fst snd w_db w_tx jstep].
  destruct a; cbn [jstep]; [rewrite HJ|..]; cbn [j_done]; rewrite ?app_nil_r; split; reflexivity.
Qed.
Lemma origin_do h e tr i u g c t o : origin h tr i u g -> w_tx (fst (run w0 tr)) (S i) = Some t -> cmd_of o = Some c ->
  origin (h ++ [e]) (tr ++ [Do (S i) c]) i u (RLog u (g_calls g ++ [(o, shown etext o (snd (exec c t)))])).
Proof.
  intros (h0 & o0 & lim & io & f & h1 & tr0 & tr1 & E1 & E2 & N & [SH1 SH2] & A & D) Hw HC. subst h.
  assert (RW : fst (run (fst (run w0 (tr0 ++ [Begin (S i) u lim]))) tr1) = fst (run w0 tr)).
  { rewrite <- run_fst_app, <- app_assoc. cbn [app]. rewrite <- E2. reflexivity. }
  exists h0, o0, lim, io, f, (h1 ++ [e]), tr0, (tr1 ++ [Do (S i) c]). split; [rewrite <- app_assoc; reflexivity|]. split; [rewrite E2, <- app_assoc; reflexivity|].
  split; [rewrite forallb_app, N; reflexivity|]. split; [|split; assumption]. rewrite outs_app, cmds_app, RW. cbn [run step]. rewrite Hw. destruct (exec c t) as [t' a].
  cbn [snd cmds_of outs_of]. rewrite Nat.eqb_refl. unfold shows. cbn [g_calls]. split; (apply Forall2_app; [assumption|repeat constructor]). exact HC.
Qed.
Lemma tells_wrote g d : tells g d -> rwrote g = existsb wrote (s_calls d).
Proof.
  intros [_ H]. unfold rwrote. induction H as [|[o x] [c r] l l' [H1 H2] _ IH]; [reflexivity|]. cbn [existsb]. rewrite IH. f_equal. cbn [fst snd] in *. subst x.
  destruct o; cbn [cmd_of] in H1; try discriminate; injection H1 as <-; cbn [wrote]; unfold shown; destruct r as [va|e|]; try reflexivity; destruct e; reflexivity.
Qed.
Lemma tells_snoc g d o c r : tells g d -> cmd_of o = Some c ->
  tells (RLog (g_upd g) (g_calls g ++ [(o, shown etext o r)])) (Deed (s_upd d) (s_lim d) (s_calls d ++ [(c, r)])).
Proof. intros [T1 T2] HC. split; [exact T1|]. cbn [g_calls s_calls]. apply Forall2_app; [exact T2|]. repeat constructor. exact HC. Qed.
Lemma closed_log j i o g : c_open j i = Some g -> g_calls g <> [] ->
  c_open (logged j i o (CErr CClosed)) i = None /\
  c_done (logged j i o (CErr CClosed)) = c_done j ++ (if (match o with TCommit => true | _ => false end) && rwrote g then [(false, g)] else []).
Proof.
  intros EG NE. unfold logged. rewrite EG. destruct (match o with TCommit => true | _ => false end) eqn:EO.
  - destruct o; try discriminate EO. cbn [clog_op]. unfold ended. cbn [c_open c_done andb]. rewrite drop_same. split; reflexivity.
  - cbn [andb]. rewrite app_nil_r. assert (GO : clog_op j i g o (CErr CClosed) = CLog (drop (c_open j) i) (c_done j)).
    { destruct o; try discriminate EO; cbn [clog_op]; destruct (g_calls g); try contradiction; reflexivity. }
    rewrite GO. cbn [c_open c_done]. rewrite drop_same. split; reflexivity.
Qed.
Lemma slot_over h tr i u r : r_upd r = u -> r_st r = Some Ended -> slot h tr i (Some (u, POver)) (Some r) None.
Proof. intros U S. exists r. split; [reflexivity|]. split; [exact U|]. unfold set_clean. rewrite S. split; [exact I|]. split; [reflexivity|left; reflexivity]. Qed.

Lemma running_step h n j ph tr i u sc o lim io f p1 r : rel h n j ph tr -> op_ok (d_now (n_db n)) o -> ph i = Some (u, PRunning sc) -> n_tx n i = Some r ->
  sends_in u (PRunning sc) o = true -> may u (PRunning sc) o = Some p1 ->
  goes h n j ph i u o lim io f (match f with Answered => p1 | _ => POver end).
Proof.
  intros R OK HP HR SI HM. pose proof (r_slot _ _ _ _ _ R i) as SL. rewrite HP, HR in SL. pose proof (sends_slot _ _ _ _ _ _ _ o SL) as SS. rewrite SI in SS.
  destruct SL as (r1 & E & U & CL & t & g & d & SIM & Hw & EG & NE & GU & HJ & TL & OR). injection E as <-.
  assert (NO : is_noop o = false) by (apply (noop_sends u (PRunning sc)); exact SI).
  pose proof SIM as (_ & (v & ST & VO & WT & TO & TU)).
  destruct (closed_log j i o g EG NE) as [LC1 LC2].
  (* the connection is lost and nothing was committed *)
  assert (LOST : forall r2 l x, net_op etext ptext (n_db n) lim io r o f = (n_db n, r2, x) -> x = CErr CClosed -> r_upd r2 = u -> r_st r2 = Some Ended ->
     mine (S i) l -> (forall a k w m, In (Do a (CSet k w m)) l -> o = TSet k w m) ->
     w_db (fst (run w0 (tr ++ l))) = w_db (fst (run w0 tr)) -> committed w0 (tr ++ l) = committed w0 tr -> goes h n j ph i u o lim io f POver).
  { intros r2 l x NN -> U2 S2 ML SE D1 D2.
    destruct (rel_op h n j ph tr i u (PRunning sc) r o lim io f _ _ _ l POver R HP HR NN ML SE) as (n1 & j1 & tr1 & Q); [..|exists n1, j1, tr1, (CErr CClosed); exact Q].
    - rewrite D1. apply (r_db _ _ _ _ _ R).
    - apply (r_wire _ _ _ _ _ R).
    - reflexivity.
    - rewrite LC1. apply slot_over; assumption.
    - rewrite LC2, D2. apply accounts_maybe, (r_done _ _ _ _ _ R). }
  destruct (discard_world tr (S i)) as [D1 D2]. cbv zeta in D1, D2.
  assert (UNSENT : f = Unsent -> goes h n j ph i u o lim io f POver).
  { intros ->. apply (LOST (rdrop r) [Discard (S i)] (CErr CClosed)); try assumption; try reflexivity.
    - unfold net_op. rewrite SS. reflexivity.
    - cbn [rdrop r_st]. rewrite ST. reflexivity.
    - apply mine_discard.
    - intros a k w m H. exact (no_set_discard _ _ _ _ _ _ H). }
  assert (DROPPED : forall r2 x, x <> CErr CClosed -> rop (n_db n) lim io r o = (n_db n, r2, x) -> r_upd r2 = u -> r_st r2 = Some Ended -> p1 = POver ->
     clog_op j i g o x = CLog (drop (c_open j) i) (c_done j) -> goes h n j ph i u o lim io f (match f with Answered => p1 | _ => POver end)).
  { intros r2 x NX A U2 S2 -> LG. destruct f; [|..].
    - assert (NN : net_op etext ptext (n_db n) lim io r o Answered = (n_db n, r2, x)) by (unfold net_op; rewrite SS; exact A).
      destruct (rel_op h n j ph tr i u (PRunning sc) r o lim io Answered _ _ _ [Discard (S i)] POver R HP HR NN) as (n1 & j1 & tr1 & Q); [..|exists n1, j1, tr1, x; exact Q].
      + apply mine_discard.
      + intros a k w m H. exact (no_set_discard _ _ _ _ _ _ H).
      + rewrite D1. apply (r_db _ _ _ _ _ R).
      + apply (r_wire _ _ _ _ _ R).
      + reflexivity.
      + unfold logged. rewrite EG, LG. cbn [c_open]. rewrite drop_same. apply slot_over; assumption.
      + unfold logged. rewrite EG, LG, D2. apply (r_done _ _ _ _ _ R).
    - apply (LOST (rdrop r2) [Discard (S i)] (CErr CClosed)); try assumption; try reflexivity.
      + unfold net_op. rewrite SS, A. reflexivity.
      + cbn [rdrop r_st]. rewrite S2. reflexivity.
      + apply mine_discard.
      + intros a k w m H. exact (no_set_discard _ _ _ _ _ _ H).
    - apply UNSENT. reflexivity. }
  destruct (match o with TSet _ _ _ => true | _ => false end) eqn:OS.
  { (* a late Set *)
    destruct o as [k x m| | | | | |]; try discriminate OS. cbn [sends_in] in SI. cbn [may] in HM. rewrite SI in HM. destruct k as [|c0 k]; [discriminate|].
    unfold set_clean in CL. rewrite ST in CL.
    destruct (late_set (n_db n) lim io r t v (c0 :: k) x m ltac:(congruence) ST CL ltac:(discriminate) OK) as (r2 & A & U2 & S2).
    apply (DROPPED r2 (CErr (CPB 1 (ptext PWrongWireType)))); try assumption; try discriminate; try congruence.
    cbn [clog_op]. destruct (g_calls g); [contradiction|reflexivity]. }
  assert (AL : allow u (PRunning sc) o = Some p1).
  { destruct o; cbn [may] in HM; try exact HM; try discriminate OS. cbn [sends_in] in SI. rewrite SI in HM |- *. exact HM. }
  destruct (sim_step etext ptext HT u (n_db n) lim io (PRunning sc) r (LOpen t) o p1 SIM AL OK) as (d' & r' & s' & y & A & B & C); [discriminate|].
  destruct (match o with TDiscard => true | _ => false end) eqn:OD.
  { destruct o; try discriminate OD. unfold lop in B. cbn [is_noop] in B.
    assert (p1 = POver) as -> by (unfold allow in AL; cbn [is_noop] in AL; congruence).
    assert (d' = n_db n) as -> by congruence. assert (s' = LDone) as -> by congruence. destruct C as [C1 C2].
    assert (A2 : seen_txn etext TDiscard y = COk VUnit) by (assert (y = Ok VUnit) as -> by congruence; reflexivity). rewrite A2 in A.
    apply (DROPPED r' (COk VUnit)); try assumption; try discriminate; try reflexivity.
    cbn [clog_op]. destruct (g_calls g); [contradiction|reflexivity]. }
  destruct (match o with TCommit => true | _ => false end) eqn:OC.
  { destruct o; try discriminate OC. unfold lop in B. cbn [is_noop] in B.
    assert (p1 = POver) as -> by (unfold allow in AL; cbn [is_noop] in AL; congruence).
    destruct (commit_world tr i io t d Hw HJ) as [C1 C2]. cbv zeta in C1, C2. rewrite <- (r_db _ _ _ _ _ R) in C1, C2.
    pose proof (commit_now (n_db n) t io) as CN. pose proof (commit_wire (n_db n) t io (r_wire _ _ _ _ _ R) WT) as CW.
    assert (NP : snd (commit (n_db n) t io) <> Panic).
    { unfold commit. rewrite TO. cbn [negb]. destruct (entries _); [discriminate|]. destruct (conflict _ _); [discriminate|]. destruct io; discriminate. }
    destruct (commit (n_db n) t io) as [[dc tc] rc]. cbn [fst snd] in *.
    assert (d' = dc) as -> by congruence. assert (s' = LDone) as -> by congruence.
    assert (y = match rc with Ok _ => Ok VUnit | Err e => Err e | Panic => Panic end) as -> by congruence. destruct C as [S1 S2].
    assert (MC : mine (S i) [World.Commit (S i) io]) by (repeat constructor).
    assert (SE : forall a k w m, In (Do a (CSet k w m)) [World.Commit (S i) io] -> TCommit = TSet k w m) by (intros a k w m [H|[]]; discriminate H).
    pose proof (tells_wrote g d TL) as TW. destruct f; [|..|apply UNSENT; reflexivity].
    - set (x := seen_txn etext TCommit (match rc with Ok _ => Ok VUnit | Err e => Err e | Panic => Panic end)) in *.
      assert (NN : net_op etext ptext (n_db n) lim io r TCommit Answered = (dc, r', x)) by (unfold net_op; rewrite SS; exact A).
      assert (LG : logged j i TCommit x = CLog (drop (c_open j) i) (c_done j ++ match rc with Ok _ => if rwrote g then [(true, g)] else [] | _ => [] end)).
      { unfold logged. rewrite EG. destruct rc as [z|e|]; [| |contradiction].
        - unfold x. cbn [seen_txn clog_op]. destruct (g_calls g) eqn:EC; [contradiction|]. unfold ended. reflexivity.
        - unfold x. rewrite app_nil_r. destruct e; reflexivity. }
      destruct (rel_op h n j ph tr i u (PRunning sc) r TCommit lim io Answered _ _ _ [World.Commit (S i) io] POver R HP HR NN MC SE) as (n1 & j1 & tr1 & Q); [..|exists n1, j1, tr1, x; exact Q].
      + symmetry. exact C1.
      + exact CW.
      + exact CN.
      + rewrite LG. cbn [c_open]. rewrite drop_same. apply slot_over; assumption.
      + rewrite LG, C2. cbn [c_done]. apply accounts_app; [apply (r_done _ _ _ _ _ R)|]. rewrite <- TW. destruct rc; [|apply acc_nil|apply acc_nil].
        destruct (rwrote g); [apply acc_yes; [exact TL|apply acc_nil]|apply acc_nil].
    - assert (NN : net_op etext ptext (n_db n) lim io r TCommit Unanswered = (dc, rdrop r', CErr CClosed)) by (unfold net_op; rewrite SS, A; reflexivity).
      destruct (rel_op h n j ph tr i u (PRunning sc) r TCommit lim io Unanswered _ _ _ [World.Commit (S i) io] POver R HP HR NN MC SE) as (n1 & j1 & tr1 & Q); [..|exists n1, j1, tr1, (CErr CClosed); exact Q].
      + symmetry. exact C1.
      + exact CW.
      + exact CN.
      + rewrite LC1. apply slot_over; [exact S1|]. cbn [rdrop r_st]. rewrite S2. reflexivity.
      + rewrite LC2, C2. cbn [andb]. apply accounts_app; [apply (r_done _ _ _ _ _ R)|]. rewrite <- TW.
        destruct (rwrote g), rc; try apply acc_nil; try (apply acc_no; apply acc_nil). apply acc_yes; [exact TL|apply acc_nil]. }
  (* the other requests *)
  assert (NC : match o with TCommit | TDiscard => False | _ => True end) by (destruct o; try exact I; discriminate).
  destruct (cmd_cases o NC) as [c HC].
  unfold lop in B. rewrite NO in B.
  assert (B' : d' = n_db n /\ s' = LOpen (fst (local_op o t)) /\ y = snd (local_op o t)).
  { destruct o; try contradiction; destruct (local_op _ _) as [t1 y1]; cbn [fst snd]; (split; [congruence|split; congruence]). }
  destruct B' as (-> & -> & ->). rewrite (local_exec o c t HC NO) in *. cbn [fst snd] in A, C.
  pose proof (rop_clean (n_db n) lim io r o CL) as CL'. rewrite A in CL'. cbn [fst snd] in CL'.
  assert (CL2 : set_clean r') by (apply CL'; destruct o; try exact I; discriminate OS). clear CL'.
  assert (NP : snd (exec c t) <> Panic) by (apply exec_no_panic; exact TO).
  destruct (do_world tr i c t d Hw HJ) as (W1 & W2 & W3 & W4). cbv zeta in *.
  fold (shown etext o (snd (exec c t))) in A.
  assert (ML : mine (S i) [Do (S i) c]) by (repeat constructor).
  assert (SE : forall a k w m, In (Do a (CSet k w m)) [Do (S i) c] -> o = TSet k w m).
  { intros a k w m [H|[]]. injection H as _ H. apply (cmd_set o c); [exact HC|exact H]. }
  assert (SR : exists sc', p1 = PRunning sc').
  { destruct p1 as [|sc'|]; [destruct C as [_ []]|eauto|destruct C as [_ []]]. }
  destruct SR as [sc' ->]. destruct f; [|..|apply UNSENT; reflexivity].
  - set (x := shown etext o (snd (exec c t))) in *.
    assert (NN : net_op etext ptext (n_db n) lim io r o Answered = (n_db n, r', x)) by (unfold net_op; rewrite SS; exact A).
    assert (LG : logged j i o x = CLog (put (c_open j) i (RLog (g_upd g) (g_calls g ++ [(o, x)]))) (c_done j)).
    { unfold logged. rewrite EG. apply (clog_append j i g o c); assumption. }
    destruct (rel_op h n j ph tr i u (PRunning sc) r o lim io Answered _ _ _ [Do (S i) c] (PRunning sc') R HP HR NN ML SE) as (n1 & j1 & tr1 & Q); [..|exists n1, j1, tr1, x; exact Q].
    + rewrite W1. apply (r_db _ _ _ _ _ R).
    + apply (r_wire _ _ _ _ _ R).
    + reflexivity.
    + rewrite LG. cbn [c_open]. rewrite put_same. exists r'. split; [reflexivity|]. split; [exact (proj1 C)|]. split; [exact CL2|].
      exists (fst (exec c t)), (RLog (g_upd g) (g_calls g ++ [(o, x)])), (Deed (s_upd d) (s_lim d) (s_calls d ++ [(c, snd (exec c t))])).
      split; [exact C|]. split; [exact W2|]. split; [reflexivity|]. split; [cbn [g_calls]; destruct (g_calls g); discriminate|]. split; [exact GU|]. split; [exact W3|].
      split; [apply tells_snoc; assumption|]. rewrite GU. apply origin_do; assumption.
    + rewrite LG, W4. apply (r_done _ _ _ _ _ R).
  - destruct (discard_world (tr ++ [Do (S i) c]) (S i)) as [D3 D4]. cbv zeta in D3, D4. rewrite <- app_assoc in D3, D4.
    apply (LOST (rdrop r') ([Do (S i) c] ++ [Discard (S i)]) (CErr CClosed)); try reflexivity.
    + unfold net_op. rewrite SS, A. reflexivity.
    + exact (proj1 C).
    + cbn [rdrop r_st]. destruct C as [_ (v' & C & _)]. rewrite C. reflexivity.
    + unfold mine. apply Forall_app. split; [exact ML|apply mine_discard].
    + intros a k w m H. apply in_app_or in H. destruct H as [H|H]; [exact (SE _ _ _ _ H)|exact (no_set_discard _ _ _ _ _ _ H)].
    + rewrite D3. exact W1.
    + rewrite D4. exact W4.
Qed.
Lemma nop_step h n j ph tr i o lim io f ph' : rel h n j ph tr -> op_ok (d_now (n_db n)) o -> pstep ph (NOp i o lim io f) = Some ph' ->
  exists tr', rel (h ++ [NOp i o lim io f]) (fst (nstep n (NOp i o lim io f))) (clog_step j (NOp i o lim io f) (snd (nstep n (NOp i o lim io f)))) ph' tr' /\
    d_now (n_db (fst (nstep n (NOp i o lim io f)))) = d_now (n_db n).
Proof.
  intros R OK. cbn [pstep]. destruct (ph i) as [[u p]|] eqn:HP.
  2:{ intros E. injection E as <-. pose proof (r_slot _ _ _ _ _ R i) as SL. rewrite HP in SL. destruct SL as [S1 S2].
      exists (tr ++ []). pose proof (rel_step h n j ph tr (NOp i o lim io f) [] ph None R) as Q. cbn [RemoteSerial.nstep] in *. rewrite S1 in *. cbn [fst snd clog_step] in *.
      split; [|reflexivity]. apply Q.
      - split; intros; contradiction.
      - intros k _. split; [reflexivity|]. auto.
      - rewrite run_nil. apply (r_db _ _ _ _ _ R).
      - apply (r_wire _ _ _ _ _ R).
      - apply (r_now _ _ _ _ _ R).
      - discriminate.
      - rewrite app_nil_r. apply (r_done _ _ _ _ _ R). }
  destruct (may u p o) as [p1|] eqn:HM; [|discriminate]. intros E. injection E as <-.
  assert (G : exists n1 j1 tr1 x, nstep n (NOp i o lim io f) = (n1, Some x) /\ j1 = clog_step j (NOp i o lim io f) (Some x) /\
      rel (h ++ [NOp i o lim io f]) n1 j1 (put ph i (u, phase_after u p p1 o f)) tr1 /\ d_now (n_db n1) = d_now (n_db n)).
  2:{ destruct G as (n1 & j1 & tr1 & x & G1 & -> & G3 & G4). exists tr1. rewrite G1. cbn [fst snd]. split; assumption. }
  pose proof (r_slot _ _ _ _ _ R i) as SL. rewrite HP in SL. destruct (n_tx n i) as [r|] eqn:HR.
  2:{ destruct SL as (r & E & _). discriminate. }
  pose proof (sends_slot _ _ _ _ _ _ _ o SL) as SS. unfold phase_after. destruct (sends_in u p o) eqn:SI.
  - destruct p as [|sc|].
    + exact (fresh_step h n j ph tr i u o lim io f p1 r R OK HP HR SI HM).
    + pose proof (running_step h n j ph tr i u sc o lim io f p1 r R OK HP HR SI HM) as Q. destruct f; exact Q.
    + assert (p1 = POver) as -> by (destruct o; cbn [may] in HM; congruence). pose proof (over_step h n j ph tr i u o lim io f r R OK HP HR SI) as Q. destruct f; exact Q.
  - assert (p1 = p) as -> by (apply (quiet_phase u p o); assumption).
    destruct (quiet (n_db n) lim io r o SS) as (x & X1 & X2).
    assert (NO : net_op etext ptext (n_db n) lim io r o f = (n_db n, r, x)) by (unfold net_op; rewrite SS; exact X1).
    assert (L : logged j i o x = j).
    { unfold logged. destruct (c_open j i) as [g|] eqn:EG; [|reflexivity]. apply X2. destruct SL as (r1 & E & _ & _ & SL). injection E as <-. destruct p as [|sc|].
      - destruct SL as [-> SL]. injection SL as ->. reflexivity.
      - destruct SL as (t & g' & d & (_ & (v & -> & _)) & _). exact I.
      - destruct SL as [-> _]. exact I. }
    destruct (rel_op h n j ph tr i u p r o lim io f _ _ _ [] p R HP HR NO) as (n1 & j1 & tr1 & Q).
    + apply mine_nil.
    + intros a k v m [].
    + rewrite run_nil. apply (r_db _ _ _ _ _ R).
    + apply (r_wire _ _ _ _ _ R).
    + reflexivity.
    + rewrite L. apply slot_grows; [reflexivity|exact SL].
    + rewrite L, app_nil_r. apply (r_done _ _ _ _ _ R).
    + exists n1, j1, tr1, x. exact Q.
Qed.

(** ** single calls *)
(** a write by a single call is a transaction of one operation *)
Lemma single_world tr o k v m lim io d' : match o with TSet k' v' m' => k' = k /\ v' = v /\ m' = m | TDel k' => k' = k | _ => False end ->
  local_db (w_db (fst (run w0 tr))) o lim io = (d', Ok VUnit) ->
  exists c, cmd_of o = Some c /\ let l := [Begin 0 true lim; Do 0 c; World.Commit 0 io] in
    w_db (fst (run w0 (tr ++ l))) = d' /\ committed w0 (tr ++ l) = committed w0 tr ++ [Deed true lim [(c, Ok OUnit)]].
Proof.
  intros HO. set (d := w_db (fst (run w0 tr))).
  assert (G : forall c (mo : Tx unit), exec c (new_txn d true lim) = (fst (mo (new_txn d true lim)), match snd (mo (new_txn d true lim)) with Ok _ => Ok OUnit | Err e => snd (exec c (new_txn d true lim)) | Panic => Panic end) ->
     (snd (mo (new_txn d true lim)) = Ok tt -> wrote (c, Ok OUnit) = true) ->
     bdb_write d mo lim io = (d', Ok tt) -> let l := [Begin 0 true lim; Do 0 c; World.Commit 0 io] in
     w_db (fst (run w0 (tr ++ l))) = d' /\ committed w0 (tr ++ l) = committed w0 tr ++ [Deed true lim [(c, Ok OUnit)]]).
  { intros c mo EX WR BW. cbv zeta. rewrite run_fst_app. unfold committed. rewrite journal_app. cbn [run step fst snd w_tx w_db]. rewrite !upd_same. fold d.
    unfold bdb_write in BW. destruct (mo (new_txn d true lim)) as [t [x|e|]]; cbn [fst snd] in EX; [|discriminate BW|discriminate BW]. destruct x.
    rewrite EX. cbn [fst snd w_tx w_db]. rewrite !upd_same. destruct (commit d t io) as [[dc tc] rc]. assert (dc = d' /\ rc = Ok tt) as [-> ->] by (split; congruence).
    cbn [fst snd w_db combine fold_left jstep j_open j_done]. rewrite find_cons. cbn [Nat.eqb j_open]. rewrite find_cons. cbn [Nat.eqb s_calls s_upd s_lim app existsb j_done].
    rewrite (WR eq_refl). split; reflexivity. }
  destruct o as [k' v' m'|k'|k'|k'|so limit| |]; try contradiction; cbn [local_db cmd_of]; intros H.
  - destruct HO as (-> & -> & ->). eexists. split; [reflexivity|]. unfold bdb_set in H. destruct (bdb_write d (tsetm k v m) lim io) as [d1 r1] eqn:BW.
    apply (G (CSet k v m) (tsetm k v m)).
    + cbn [exec]. unfold bind. destruct (tsetm k v m (new_txn d true lim)) as [t1 [x|x|]]; reflexivity.
    + reflexivity.
    + rewrite BW. destruct r1 as [[]|e|]; congruence.
  - subst k'. eexists. split; [reflexivity|]. unfold bdb_del in H. destruct (bdb_write d (modify k None) lim io) as [d1 r1] eqn:BW.
    apply (G (CDel k) (modify k None)).
    + cbn [exec]. unfold bind, tdel, map_err. destruct (modify k None (new_txn d true lim)) as [t1 [x|x|]]; reflexivity.
    + reflexivity.
    + rewrite BW. destruct r1 as [[]|e|]; congruence.
Qed.
Lemma bdb_write_fail d mo lim io d' r : bdb_write d mo lim io = (d', r) -> r <> Ok tt -> d' = d.
Proof.
  unfold bdb_write. destruct (mo _) as [t [x|e|]]; [|congruence|congruence]. unfold commit. destruct (negb _); [congruence|].
  destruct (entries _); [intros H N; inversion H; reflexivity|]. destruct (conflict d t); [congruence|]. destruct io; [congruence|]. intros H N. exfalso. apply N. congruence.
Qed.
(** either nothing is written, or it is a successful Set or Delete *)
Lemma single_cases d o lim io : fst (local_db d o lim io) = d \/
  (exists k v m, match o with TSet k' v' m' => k' = k /\ v' = v /\ m' = m | TDel k' => k' = k | _ => False end) /\ snd (local_db d o lim io) = Ok VUnit.
Proof.
  destruct o as [k v m|k|k|k|so limit| |]; cbn [local_db]; try (left; reflexivity).
  - unfold bdb_set. destruct (bdb_write d (tsetm k v m) lim io) as [d' r] eqn:E. destruct r as [[]|e|]; cbn [fst snd].
    + right. split; [exists k, v, m; auto|reflexivity].
    + left. apply (bdb_write_fail _ _ _ _ _ _ E). discriminate.
    + left. apply (bdb_write_fail _ _ _ _ _ _ E). discriminate.
  - unfold bdb_del. destruct (bdb_write d (modify k None) lim io) as [d' r] eqn:E. destruct r as [[]|e|]; cbn [fst snd].
    + right. split; [exists k, [], None; auto|reflexivity].
    + left. apply (bdb_write_fail _ _ _ _ _ _ E). discriminate.
    + left. apply (bdb_write_fail _ _ _ _ _ _ E). discriminate.
Qed.
Lemma clog_call_ok o : match o with TSet _ _ _ | TDel _ => True | _ => False end -> clog_call o (COk VUnit) = [(true, RLog true [(o, COk VUnit)])] /\ clog_call o (CErr CClosed) = [(false, RLog true [(o, COk VUnit)])].
Proof. destruct o; intros H; try contradiction; split; reflexivity. Qed.
Lemma clog_call_doubt o done l : accounts done l -> accounts (done ++ clog_call o (CErr CClosed)) l.
Proof.
  intros A. assert (B : clog_call o (CErr CClosed) = [] \/ exists g, clog_call o (CErr CClosed) = [(false, g)]) by (destruct o; cbn; eauto).
  rewrite <- (app_nil_r l). apply accounts_app; [exact A|]. destruct B as [->|(g & ->)]; [apply acc_nil|apply acc_no, acc_nil].
Qed.

Lemma ncall_step h n j ph tr o lim io f : rel h n j ph tr -> op_ok (d_now (n_db n)) o ->
  exists tr', rel (h ++ [NCall o lim io f]) (fst (nstep n (NCall o lim io f))) (clog_step j (NCall o lim io f) (snd (nstep n (NCall o lim io f)))) ph tr' /\
    d_now (n_db (fst (nstep n (NCall o lim io f)))) = d_now (n_db n).
Proof.
  intros R OK. pose proof (client_op_local etext ptext HT (n_db n) o lim io (r_wire _ _ _ _ _ R) OK) as CO.
  pose proof (local_db_wire (n_db n) o lim io (r_now _ _ _ _ _ R) (r_wire _ _ _ _ _ R) OK) as LW. pose proof (local_db_now (n_db n) o lim io) as LN.
  assert (G : forall d' x l, net_call etext ptext (n_db n) o lim io f = (d', x) -> fits (NCall o lim io f) l -> (forall i, oth (S i) l) ->
     d' = w_db (fst (run w0 (tr ++ l))) -> (d' = n_db n \/ d' = fst (local_db (n_db n) o lim io)) -> accounts (c_done j ++ clog_call o x) (committed w0 (tr ++ l)) ->
     exists tr', rel (h ++ [NCall o lim io f]) (fst (nstep n (NCall o lim io f))) (clog_step j (NCall o lim io f) (snd (nstep n (NCall o lim io f)))) ph tr' /\
    d_now (n_db (fst (nstep n (NCall o lim io f)))) = d_now (n_db n)).
  { intros d' x l NC FI OT DB WD A.
    assert (WN : wire_store (d_kv d') /\ d_now d' = d_now (n_db n)) by (destruct WD as [->| ->]; [split; [apply (r_wire _ _ _ _ _ R)|reflexivity]|split; assumption]).
    pose proof (rel_step h n j ph tr (NCall o lim io f) l ph None R FI) as Q. cbn [RemoteSerial.nstep] in *. rewrite NC in *. cbn [fst snd clog_step n_db n_tx c_open c_done] in *.
    exists (tr ++ l). split; [|apply WN]. apply Q.
    - intros i _. split; [apply OT|]. auto.
    - exact DB.
    - apply WN.
    - rewrite (proj2 WN). apply (r_now _ _ _ _ _ R).
    - discriminate.
    - exact A. }
  assert (NIL : forall x, net_call etext ptext (n_db n) o lim io f = (n_db n, x) -> accounts (c_done j ++ clog_call o x) (committed w0 tr) ->
     exists tr', rel (h ++ [NCall o lim io f]) (fst (nstep n (NCall o lim io f))) (clog_step j (NCall o lim io f) (snd (nstep n (NCall o lim io f)))) ph tr' /\
    d_now (n_db (fst (nstep n (NCall o lim io f)))) = d_now (n_db n)).
  { intros x NC A. apply (G (n_db n) x []); try assumption.
    - split; intros; contradiction.
    - intros i. reflexivity.
    - rewrite run_nil. apply (r_db _ _ _ _ _ R).
    - left. reflexivity.
    - rewrite app_nil_r. exact A. }
  destruct (single_cases (n_db n) o lim io) as [EQ|[(k & v & m & HO) EQ]].
  - assert (CC : client_op etext ptext (n_db n) o lim io = (n_db n, seen etext o (snd (local_db (n_db n) o lim io)))) by (rewrite CO, EQ; reflexivity).
    assert (DO : f <> Answered -> is_noop o = false -> exists tr', rel (h ++ [NCall o lim io f]) (fst (nstep n (NCall o lim io f))) (clog_step j (NCall o lim io f) (snd (nstep n (NCall o lim io f)))) ph tr' /\
       d_now (n_db (fst (nstep n (NCall o lim io f)))) = d_now (n_db n)).
    { intros NF NO. apply (NIL (CErr CClosed)); [unfold net_call; rewrite NO, CC; destruct f; [contradiction|reflexivity|reflexivity]|]. apply clog_call_doubt, (r_done _ _ _ _ _ R). }
    assert (AN : net_call etext ptext (n_db n) o lim io f = client_op etext ptext (n_db n) o lim io -> exists tr', rel (h ++ [NCall o lim io f]) (fst (nstep n (NCall o lim io f))) (clog_step j (NCall o lim io f) (snd (nstep n (NCall o lim io f)))) ph tr' /\
       d_now (n_db (fst (nstep n (NCall o lim io f)))) = d_now (n_db n)).
    { intros NA. destruct (match o with TSet _ _ _ | TDel _ => true | _ => false end) eqn:WO.
      - destruct (snd (local_db (n_db n) o lim io)) as [y|e|] eqn:EY.
        + (* a success that left the store as it was *)
          assert (H : exists k v m, match o with TSet k' v' m' => k' = k /\ v' = v /\ m' = m | TDel k' => k' = k | _ => False end).
          { destruct o; try discriminate WO; [exists k, v, m; auto|exists k, [], None; auto]. }
          destruct H as (k & v & m & HO).
          assert (y = VUnit) as -> by (destruct o; try discriminate WO; cbn [local_db] in EY; destruct (bdb_set _ _ _ _ _ _) as [? [[]|?|]] || destruct (bdb_del _ _ _ _) as [? [[]|?|]]; cbn in EY; congruence).
          assert (LD : local_db (w_db (fst (run w0 tr))) o lim io = (n_db n, Ok VUnit)) by (rewrite <- (r_db _ _ _ _ _ R), (surjective_pairing (local_db (n_db n) o lim io)), EQ, EY; reflexivity).
          destruct (single_world tr o k v m lim io (n_db n) HO LD) as (c & HC & W1 & W2). cbv zeta in W1, W2.
          apply (G (n_db n) (COk VUnit) [Begin 0 true lim; Do 0 c; World.Commit 0 io]).
          * rewrite NA, CC. reflexivity.
          * split; [|intros a [H|[H|[H|[]]]]; discriminate H]. intros a k1 v1 m1 [H|[H|[H|[]]]]; try discriminate H. injection H as _ H. cbn [nop_of]. rewrite (cmd_set o c k1 v1 m1 HC H). reflexivity.
          * intros a. reflexivity.
          * symmetry. exact W1.
          * left. reflexivity.
          * rewrite W2. apply accounts_app; [apply (r_done _ _ _ _ _ R)|]. rewrite (proj1 (clog_call_ok o ltac:(destruct o; try exact I; discriminate WO))).
            apply acc_yes; [|apply acc_nil]. split; [reflexivity|]. constructor; [split; [exact HC|destruct o; try discriminate WO; reflexivity]|constructor].
        + apply (NIL (seen etext o (Err e))); [rewrite NA, CC; reflexivity|]. assert (Z : clog_call o (seen etext o (Err e)) = []) by (destruct o; try discriminate WO; destruct e; reflexivity).
          rewrite Z, app_nil_r. apply (r_done _ _ _ _ _ R).
        + apply (NIL (seen etext o Panic)); [rewrite NA, CC; reflexivity|]. apply clog_call_doubt, (r_done _ _ _ _ _ R).
      - apply (NIL (seen etext o (snd (local_db (n_db n) o lim io)))); [rewrite NA, CC; reflexivity|].
        assert (Z : forall x, clog_call o x = []) by (intros x; destruct o; try discriminate WO; reflexivity). rewrite Z, app_nil_r. apply (r_done _ _ _ _ _ R). }
    destruct (is_noop o) eqn:NO; [apply AN; unfold net_call; rewrite NO; reflexivity|]. destruct f; [apply AN; unfold net_call; rewrite NO; reflexivity|apply DO; [discriminate|reflexivity]|apply DO; [discriminate|reflexivity]].
  - assert (WO : match o with TSet _ _ _ | TDel _ => True | _ => False end) by (destruct o; try contradiction; exact I).
    assert (NO : is_noop o = false) by (destruct o; try contradiction; reflexivity).
    destruct (clog_call_ok o WO) as [K1 K2].
    assert (LD : local_db (w_db (fst (run w0 tr))) o lim io = (fst (local_db (n_db n) o lim io), Ok VUnit)) by (rewrite <- EQ, <- surjective_pairing, (r_db _ _ _ _ _ R); reflexivity).
    destruct (single_world tr o k v m lim io _ HO LD) as (c & HC & W1 & W2). cbv zeta in W1, W2.
    assert (FI : fits (NCall o lim io f) [Begin 0 true lim; Do 0 c; World.Commit 0 io]).
    { split; [|intros a [H|[H|[H|[]]]]; discriminate H]. intros a k1 v1 m1 [H|[H|[H|[]]]]; try discriminate H. injection H as _ H. cbn [nop_of]. rewrite (cmd_set o c k1 v1 m1 HC H). reflexivity. }
    assert (TL : tells (RLog true [(o, COk VUnit)]) (Deed true lim [(c, Ok OUnit)])).
    { split; [reflexivity|]. constructor; [split; [exact HC|destruct o; try contradiction; reflexivity]|constructor]. }
    destruct f.
    + apply (G (fst (local_db (n_db n) o lim io)) (COk VUnit) [Begin 0 true lim; Do 0 c; World.Commit 0 io]).
      * unfold net_call. rewrite NO, CO, EQ. reflexivity.
      * exact FI.
      * intros a. reflexivity.
      * symmetry. exact W1.
      * right. reflexivity.
      * rewrite W2, K1. apply accounts_app; [apply (r_done _ _ _ _ _ R)|]. apply acc_yes; [exact TL|apply acc_nil].
    + apply (G (fst (local_db (n_db n) o lim io)) (CErr CClosed) [Begin 0 true lim; Do 0 c; World.Commit 0 io]).
      * unfold net_call. rewrite NO, CO. reflexivity.
      * exact FI.
      * intros a. reflexivity.
      * symmetry. exact W1.
      * right. reflexivity.
      * rewrite W2, K2. apply accounts_app; [apply (r_done _ _ _ _ _ R)|]. apply acc_yes; [exact TL|apply acc_nil].
    + apply (NIL (CErr CClosed)); [unfold net_call; rewrite NO; reflexivity|]. apply clog_call_doubt, (r_done _ _ _ _ _ R).
Qed.

Lemma wire_empty : wire_store empty.
Proof. intros k e H. rewrite get_empty in H. discriminate. Qed.
Lemma rel_init : rel [] (net0 now0 clamp) clog0 (fun _ => None) [].
Proof.
  split; cbn; try reflexivity; try assumption.
  - apply wire_empty.
  - intros i. split; reflexivity.
  - apply acc_nil.
  - intros _ i k v m [].
  - intros _ k [].
Qed.
Lemma rel_one h n j ph tr e ph' : rel h n j ph tr -> pstep ph e = Some ph' -> match nop_of e with Some o => op_ok (d_now (n_db n)) o | None => True end ->
  exists tr', rel (h ++ [e]) (fst (nstep n e)) (clog_step j e (snd (nstep n e))) ph' tr' /\
    d_now (n_db (fst (nstep n e))) = d_now (n_db n) + match e with NTick k => Z.of_nat k | _ => 0 end.
Proof.
  intros R PS OK. destruct e as [i u|i o lim io f|o lim io f|k]; cbn [nop_of] in OK.
  - cbn [pstep] in PS. injection PS as <-. exists (tr ++ []). split; [|cbn; lia].
    apply (rel_step h n j ph tr (NTxn i u) [] _ (Some i) R); cbn [RemoteSerial.nstep fst snd clog_step n_db n_tx c_open c_done].
    + split; intros; contradiction.
    + intros k N. assert (N' : k <> i) by congruence. split; [reflexivity|]. rewrite !put_other by exact N'. auto.
    + rewrite run_nil. apply (r_db _ _ _ _ _ R).
    + apply (r_wire _ _ _ _ _ R).
    + apply (r_now _ _ _ _ _ R).
    + intros k E. injection E as <-. rewrite !put_same. exists (newTxn u). split; [reflexivity|]. split; [reflexivity|]. split; [exact I|]. split; reflexivity.
    + rewrite app_nil_r. apply (r_done _ _ _ _ _ R).
  - destruct (nop_step h n j ph tr i o lim io f ph' R OK PS) as (tr' & A & B). exists tr'. split; [exact A|]. rewrite B. lia.
  - cbn [pstep] in PS. injection PS as <-. destruct (ncall_step h n j ph tr o lim io f R OK) as (tr' & A & B). exists tr'. split; [exact A|]. rewrite B. lia.
  - cbn [pstep] in PS. injection PS as <-. exists (tr ++ [Tick k]). split; [|reflexivity].
    assert (W : fst (run w0 (tr ++ [Tick k])) = World (tick (w_db (fst (run w0 tr))) k) (w_tx (fst (run w0 tr)))) by (rewrite run_fst_snoc; reflexivity).
    assert (CM : committed w0 (tr ++ [Tick k]) = committed w0 tr) by (unfold committed; rewrite journal_snoc; reflexivity).
    apply (rel_step h n j ph tr (NTick k) [Tick k] _ None R); cbn [RemoteSerial.nstep fst snd clog_step n_db n_tx c_open c_done].
    + split; [intros a b c m [H|[]]; discriminate H|]. intros a [H|[]]. injection H as <-. reflexivity.
    + intros i _. split; [reflexivity|]. auto.
    + rewrite W. cbn [w_db]. rewrite (r_db _ _ _ _ _ R). reflexivity.
    + apply (r_wire _ _ _ _ _ R).
    + pose proof (r_now _ _ _ _ _ R). cbn [tick d_now]. lia.
    + discriminate.
    + rewrite CM. apply (r_done _ _ _ _ _ R).
Qed.
Lemma rel_run es : forall h n j ph tr, rel h n j ph tr -> well ph es = true -> sizes (d_now (n_db n)) es ->
  exists n' j' ph' tr', rel (h ++ es) n' j' ph' tr'.
Proof.
  induction es as [|e es IH]; intros h n j ph tr R W S.
  - rewrite app_nil_r. eauto.
  - cbn [well] in W. destruct (pstep ph e) as [ph'|] eqn:PS; [|discriminate].
    assert (OK : match nop_of e with Some o => op_ok (d_now (n_db n)) o | None => True end) by (destruct e; cbn [nop_of sizes] in *; try exact I; apply S).
    destruct (rel_one h n j ph tr e ph' R PS OK) as (tr' & R' & N).
    destruct (IH (h ++ [e]) _ _ ph' tr' R' W) as (n2 & j2 & ph2 & tr2 & R2).
    + rewrite N. destruct e; cbn [sizes] in S; rewrite ?Z.add_0_r; try exact S; apply S.
    + exists n2, j2, ph2, tr2. rewrite <- app_assoc in R2. exact R2.
Qed.
Theorem rel_history es : well (fun _ => None) es = true -> sizes now0 es -> exists n j ph tr, at_end es = (n, j) /\ rel es n j ph tr.
Proof.
  intros W S. destruct (rel_run es [] _ _ _ _ rel_init W S) as (n & j & ph & tr & R). exists n, j, ph, tr. split; [apply (r_at _ _ _ _ _ R)|exact R].
Qed.
End P.
