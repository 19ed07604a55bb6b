(** Property C92: clients of one server, working at the same time over connections that may fail,
    are served as if their transactions ran one after the other next to the store. *)
From Verif Require Import Bytes SMap Provider ProviderProofs Pb World Serial SerialProofs P_Serial Remote RemoteProofs RemoteTxn RemoteSerial RemoteSerialProofs.

Lemma committed_grows w a b : exists x, committed w (a ++ b) = committed w a ++ x.
Proof.
  induction b as [|e b IH] using rev_ind; [exists []; rewrite !app_nil_r; reflexivity|].
  destruct IH as [x IH]. rewrite app_assoc. destruct (journal_done_snoc w (a ++ b) e) as [y Y]. exists (x ++ y). rewrite Y, IH, app_assoc. reflexivity.
Qed.
Lemma accounts_no_scan etext done l : accounts etext done l -> (forall b g, In (b, g) done -> no_scan g = true) ->
  forall r, In r l -> forallb (fun c => negb (scans c)) (calls r) = true.
Proof.
  induction 1 as [|b g d done l [_ T] A IH|g done l A IH]; intros N r Hr; [destruct Hr| |].
  - destruct Hr as [<-|Hr]; [|apply IH; [|exact Hr]; intros b' g' H; apply (N b' g'); right; exact H].
    specialize (N b g (or_introl eq_refl)). unfold no_scan in N. unfold calls. clear - T N. induction T as [|[o x] [c a] gl dl [H _] T IH]; [reflexivity|].
    cbn [forallb map fst] in *. apply andb_true_iff in N. destruct N as [N1 N2]. rewrite (IH N2), andb_true_r.
    destruct o; cbn [cmd_of] in H; try discriminate; injection H as <-; reflexivity.
  - apply IH; [|exact Hr]. intros b' g' H. apply (N b' g'). right. exact H.
Qed.

(** Any number of clients, any interleaving of their requests, conflicts, failing commits,
    connections lost before or after the server has done its work. Take the transactions that wrote
    (and single Sets and Deletes) and were answered, and some of those whose Commit got no answer:
    there is a choice of these such that the same calls, made next to the store by one transaction
    after the other, in the order of the log, are answered the same way and leave the same store.
    (The writing transactions do not scan; either no entry has a lifetime or the clock stands still.) *)
Theorem C92_remote_history_is_serial : forall etext ptext, texts_ok etext ptext -> forall now clamp es, 0 <= now ->
  well (fun _ => None) es = true -> sizes now es -> no_lifetimes es \/ still es ->
  let '(n, j) := played etext ptext (net0 now clamp) clog0 es in
  (forall b g, In (b, g) (c_done j) -> no_scan g = true) ->
  let w0 := fresh_db now clamp in
  exists l, accounts etext (c_done j) l /\ committed w0 (serial l) = l /\
    forall k, get (d_kv (w_db (fst (run w0 (serial l))))) k = get (d_kv (n_db n)) k.
Proof.
  intros etext ptext HT now clamp es N W S T. destruct (rel_history etext ptext HT now clamp N es W S) as (n & j & ph & tr & E & R).
  unfold at_end in E. rewrite E. intros NS w0.
  pose proof (accounts_no_scan _ _ _ (r_done _ _ _ _ _ _ _ _ _ R) NS) as NS'.
  assert (T' : no_ttl tr \/ no_tick tr) by (destruct T as [T|T]; [left; apply (r_ttl _ _ _ _ _ _ _ _ _ R T)|right; apply (r_tick _ _ _ _ _ _ _ _ _ R T)]).
  destruct (C85_history_is_serial now clamp tr T' NS') as [S1 S2].
  exists (committed w0 tr). split; [exact (r_done _ _ _ _ _ _ _ _ _ R)|]. split; [exact S1|]. intros k. rewrite (r_db _ _ _ _ _ _ _ _ _ R). apply S2.
Qed.
Print Assumptions C92_remote_history_is_serial.

(** Every open transaction, of any client, that got answers: they are the answers of a transaction
    run alone next to the store, right after the ones accounted for when its first request came. *)
Theorem C92_remote_transaction_reads_a_serial_state : forall etext ptext, texts_ok etext ptext -> forall now clamp es, 0 <= now ->
  well (fun _ => None) es = true -> sizes now es -> no_lifetimes es \/ still es ->
  let '(n, j) := played etext ptext (net0 now clamp) clog0 es in
  (forall b g, In (b, g) (c_done j) -> no_scan g = true) ->
  forall i g, c_open j i = Some g -> g_calls g <> [] ->
  let w0 := fresh_db now clamp in
  exists es0 o lim io f es1 l cs, es = es0 ++ NOp i o lim io f :: es1 /\
    let '(n0, j0) := played etext ptext (net0 now clamp) clog0 es0 in
    accounts etext (c_done j0) l /\ committed w0 (serial l) = l /\
    (forall k, get (d_kv (w_db (fst (run w0 (serial l))))) k = get (d_kv (n_db n0)) k) /\
    let before := fst (run w0 (serial l)) in
    Forall2 (fun p c => cmd_of (fst p) = Some c) (g_calls g) cs /\
    Forall2 (fun p r => snd p = shown etext (fst p) r) (g_calls g)
      (outs_of 0 (alone (g_upd g) lim cs) (snd (run before (alone (g_upd g) lim cs)))).
Proof.
  intros etext ptext HT now clamp es N W S T. destruct (rel_history etext ptext HT now clamp N es W S) as (n & j & ph & tr & E & R).
  unfold at_end in E. rewrite E. intros NS i g EG NE w0.
  pose proof (accounts_no_scan _ _ _ (r_done _ _ _ _ _ _ _ _ _ R) NS) as NS'.
  assert (T' : no_ttl tr \/ no_tick tr) by (destruct T as [T|T]; [left; apply (r_ttl _ _ _ _ _ _ _ _ _ R T)|right; apply (r_tick _ _ _ _ _ _ _ _ _ R T)]).
  pose proof (r_slot _ _ _ _ _ _ _ _ _ R i) as SL. rewrite EG in SL. destruct (ph i) as [[u p]|]; [|destruct SL as [_ SL]; discriminate].
  destruct SL as (r & _ & _ & _ & SL). destruct p as [|sc|].
  - destruct SL as [_ SL]. injection SL as ->. contradiction.
  - destruct SL as (t & g' & d & _ & _ & EG' & _ & GU & _ & _ & OR). injection EG' as <-.
    destruct OR as (h0 & o & lim & io & f & h1 & tr0 & tr1 & E1 & E2 & NN & [SH1 SH2] & A & D).
    fold w0 in SH1, SH2, A, D. subst u.
    assert (NS0 : forall r0, In r0 (committed w0 tr0) -> forallb (fun c => negb (scans c)) (calls r0) = true).
    { intros r0 Hr. apply NS'. fold w0. rewrite E2. destruct (committed_grows w0 tr0 (Begin (Datatypes.S i) (g_upd g) lim :: tr1)) as [x ->]. apply in_or_app. left. exact Hr. }
    rewrite E2 in T'.
    assert (T0 : no_ttl tr0 \/ no_tick tr0).
    { destruct T' as [T'|T']; [left|right].
      - intros a k v m Hin. apply (T' a k v m), in_or_app. left. exact Hin.
      - intros a Hin. apply (T' a), in_or_app. left. exact Hin. }
    destruct (C85_history_is_serial now clamp tr0 T0 NS0) as [S1 S2]. fold w0 in S1, S2.
    pose proof (C85_every_transaction_reads_a_serial_state now clamp tr0 (Datatypes.S i) (g_upd g) lim tr1 T' NN NS0) as Q. cbv zeta in Q. fold w0 in Q.
    rewrite run_fst_snoc in SH2. rewrite Q in SH2.
    exists h0, o, lim, io, f, h1, (committed w0 tr0), (cmds_of (Datatypes.S i) tr1). split; [exact E1|]. unfold at_end in A, D.
    destruct (played etext ptext (net0 now clamp) clog0 h0) as [n0 j0]. cbn [fst snd] in A, D. split; [exact A|]. split; [exact S1|]. split; [intros k; rewrite D; apply S2|].
    cbv zeta. split; assumption.
  - destruct SL as [_ [SL|SL]]; [discriminate|]. injection SL as ->. contradiction.
Qed.
Print Assumptions C92_remote_transaction_reads_a_serial_state.

(** A single call that is answered: the answer and the effect are those of the same call made next
    to the store at that moment. *)
Theorem C92_single_calls_act_on_the_store : forall etext ptext, texts_ok etext ptext -> forall now clamp es, 0 <= now ->
  well (fun _ => None) es = true -> sizes now es ->
  let '(n, j) := played etext ptext (net0 now clamp) clog0 es in
  forall o lim io, op_ok (d_now (n_db n)) o ->
  let '(d', r) := local_db (n_db n) o lim io in
  nstep etext ptext n (NCall o lim io Answered) = (Net d' (n_tx n), Some (seen etext o r)).
Proof.
  intros etext ptext HT now clamp es N W S. destruct (rel_history etext ptext HT now clamp N es W S) as (n & j & ph & tr & E & R).
  unfold at_end in E. rewrite E. intros o lim io OK.
  pose proof (client_op_local etext ptext HT (n_db n) o lim io (r_wire _ _ _ _ _ _ _ _ _ R) OK) as CO.
  cbn [nstep]. unfold net_call. destruct (local_db (n_db n) o lim io) as [d' r]. cbn [fst snd] in CO. destruct (is_noop o); rewrite CO; reflexivity.
Qed.
Print Assumptions C92_single_calls_act_on_the_store.

(** Transaction 1 commits but the answer is lost; transaction 2 read what 1 wrote and is refused;
    a single Delete never reaches the server; transaction 3 sees what is there when it starts;
    transaction 4 loses its connection before Commit. *)
Definition talk : list nev :=
  [NCall (TSet (str "x") (str "0") None) [] false Answered;
   NTxn 1 true; NTxn 2 true; NTxn 3 false; NTxn 4 true;
   NOp 1 (TSet (str "y") (str "1") None) [] false Answered; NOp 2 (TSet (str "z") (str "2") None) [] false Answered;
   NOp 1 (TGet (str "x")) [] false Answered; NOp 2 (TExists (str "y")) [] false Answered;
   NOp 4 (TDel (str "x")) [] false Answered;
   NOp 1 TCommit [] false Unanswered; NOp 2 TCommit [] false Answered; NOp 1 TDiscard [] false Answered;
   NTick 5; NOp 3 (TSet (str "x") [] None) [] false Answered; NOp 3 (TGet (str "y")) [] false Unsent;
   NCall (TDel (str "x")) [] false Unsent; NOp 4 TCommit [] false Unsent; NOp 4 TCommit [] false Answered;
   NOp 3 (TGet (str "y")) [] false Answered; NOp 3 (TScan (Provider.ScanOpt false [] []) 7) [] false Answered].
Definition talk_end : net * clog := played (fun _ => str "store error") (fun _ => str "bad request") (net0 100 true) clog0 talk.
Lemma talk_sizes : sizes 100 talk.
Proof.
  unfold talk. cbn [sizes op_ok].
  repeat match goal with
  | |- small _ /\ _ => split; [vm_compute; reflexivity|]
  | |- (_ /\ _) /\ _ => split
  | |- meta_req_ok None /\ _ => split; [intros m E; discriminate|intros m E; discriminate]
  | |- True /\ _ => split; [exact I|]
  | |- small _ => vm_compute; reflexivity
  | |- True => exact I
  end.
Qed.
Lemma talk_eternal : no_lifetimes talk.
Proof.
  intros e k v m H. unfold talk in H. cbn [In] in H.
  repeat (destruct H as [<-|H]; [cbn [nop_of]; intros E; try discriminate E; injection E as _ _ <-; reflexivity|]). destruct H.
Qed.
Example C92_example :
  (texts_ok (fun _ => str "store error") (fun _ => str "bad request") /\ well (fun _ => None) talk = true /\ sizes 100 talk /\ no_lifetimes talk) /\
  (forall b g, In (b, g) (c_done (snd talk_end)) -> no_scan g = true) /\
  c_done (snd talk_end) =
   [(true, RLog true [(TSet (str "x") (str "0") None, COk VUnit)]);
    (false, RLog true [(TSet (str "y") (str "1") None, COk VUnit); (TGet (str "x"), COk (VEnt (mk (str "0"))))]);
    (false, RLog true [(TDel (str "x"), COk VUnit)]); (false, RLog true [(TDel (str "x"), COk VUnit)])] /\
  option_map g_calls (c_open (snd talk_end) 3) =
   Some [(TGet (str "y"), COk (VEnt (mk (str "1"))));
         (TScan (Provider.ScanOpt false [] []) 7, COk (VItems [(str "x", mk (str "0")); (str "y", mk (str "1"))]))] /\
  entries (d_kv (n_db (fst talk_end))) = [(str "x", mk (str "0")); (str "y", mk (str "1"))].
Proof.
  split; [split; [split; intros []; vm_compute; reflexivity|]; split; [vm_compute; reflexivity|]; split; [exact talk_sizes|exact talk_eternal]|].
  assert (D : c_done (snd talk_end) =
   [(true, RLog true [(TSet (str "x") (str "0") None, COk VUnit)]);
    (false, RLog true [(TSet (str "y") (str "1") None, COk VUnit); (TGet (str "x"), COk (VEnt (mk (str "0"))))]);
    (false, RLog true [(TDel (str "x"), COk VUnit)]); (false, RLog true [(TDel (str "x"), COk VUnit)])]) by (vm_compute; reflexivity).
  split; [|split; [exact D|split; vm_compute; reflexivity]].
  rewrite D. intros b g H. cbn [In] in H. repeat (destruct H as [H|H]; [injection H as _ <-; reflexivity|]). destruct H.
Qed.
