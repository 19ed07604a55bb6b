(** Properties C24-C29, C72, C73: providers. *)
From Verif Require Import Bytes SMap Provider ProviderProofs World ProviderMore KeyModel.

(** C24: in any history of concurrent transactions, transaction i, begun when the database held
    [d_kv], gets for its commands exactly the results of the reference transaction working alone
    on the map of live entries of that moment. *)
Theorem C24_reads_see_snapshot_and_own_writes : forall w i upd lim es,
  forallb (fun e => negb (ends i e)) es = true ->
  let d := w_db w in
  let w1 := fst (step w (Begin i upd lim)) in
  outs_of i es (snd (run w1 es)) =
    snd (ref_run upd (d_clamp d) (d_now d) (live_map (d_kv d) (d_now d), lim) (cmds_of i es)).
Proof.
  intros w i upd lim es N d w1.
  destruct (run_snapshot i es w1 (new_txn d upd lim)) as (t' & _ & _ & H & _ & _).
  - unfold w1. cbn. unfold upd_tx. rewrite Nat.eqb_refl. reflexivity.
  - reflexivity.
  - exact N.
  - rewrite H, view_new. reflexivity.
Qed.
Print Assumptions C24_reads_see_snapshot_and_own_writes.

(** a successful commit makes exactly the transaction's last successful writes visible; a failed
    one changes nothing *)
Theorem C24_commit_publishes_exactly_own_writes : forall w i upd lim es io,
  forallb (fun e => negb (ends i e)) es = true ->
  let w1 := fst (step w (Begin i upd lim)) in
  let w2 := fst (run w1 es) in
  let trace := trace_of i es (snd (run w1 es)) in
  match step w2 (Commit i io) with
  | (w3, Some (Ok _)) => forall k, get (d_kv (w_db w3)) k =
      match last_write (d_now (w_db w)) trace k with Some o => o | None => get (d_kv (w_db w2)) k end
  | (w3, _) => w_db w3 = w_db w2
  end.
Proof.
  intros w i upd lim es io N w1 w2 trace.
  destruct (run_trace i es w1 (new_txn (w_db w) upd lim)) as (t' & T & K & O & P & _ & _).
  - unfold w1. cbn. unfold upd_tx. rewrite Nat.eqb_refl. reflexivity.
  - exact N.
  - fold w2 in T. cbn [step]. rewrite T. destruct (commit (w_db w2) t' io) as [[d3 t3] r] eqn:C.
    destruct (commit_cases _ _ _ _ _ _ C) as [(-> & H & _)|[H1 H2]].
    + intros k. cbn [w_db]. rewrite H, P. fold trace. cbn [new_txn t_now t_pend get].
      destruct (last_write _ trace k); reflexivity.
    + destruct r as [[]|e|]; [congruence | exact H2 | exact H2].
Qed.
Print Assumptions C24_commit_publishes_exactly_own_writes.

(** a read-only transaction, and one that was committed or discarded, never affects the database
    or any other transaction: removing all its later events changes nothing *)
Theorem C24_read_only_and_finished_transactions_change_nothing : forall w i es,
  (forall t, w_tx w i = Some t -> (t_upd t = false /\ forall k, get (t_pend t) k = None) \/ t_open t = false) ->
  w_tx w i <> None ->
  forallb (fun e => match e with Begin j _ _ => negb (Nat.eqb j i) | _ => true end) es = true ->
  w_db (fst (run w es)) = w_db (fst (run w (filter (fun e => negb (about i e)) es))) /\
  forall j, j <> i -> w_tx (fst (run w es)) j = w_tx (fst (run w (filter (fun e => negb (about i e)) es))) j.
Proof.
  intros w i es H N B. destruct (w_tx w i) as [t|] eqn:E; [|congruence].
  apply (run_inert i es w w t); auto. destruct (H t eq_refl) as [[U P]|O]; [left | right; exact O].
  split; [exact U|]. apply smap_ext. intros k. rewrite P. reflexivity.
Qed.
Print Assumptions C24_read_only_and_finished_transactions_change_nothing.

Theorem C24_finished_transactions_fail : forall w i e, (e = Discard i \/ exists io, e = Commit i io) ->
  w_tx w i <> None ->
  exists t, w_tx (fst (step w e)) i = Some t /\ t_open t = false /\
    forall c, (exists er, snd (exec c t) = Err er) \/ snd (exec c t) = Panic.
Proof.
  intros w i e He N. destruct (w_tx w i) as [t|] eqn:E; [|congruence].
  assert (F : forall t, t_open t = false -> forall c, (exists er, snd (exec c t) = Err er) \/ snd (exec c t) = Panic).
  { intros t0 O c. destruct c as [k v m|k|k|k|o n]; cbn [exec];
    unfold bind, tsetm, tdel, tgetm, texists, try, tscan, map_err, modify, bget;
      try destruct (t_upd t0); rewrite ?O; cbn [negb]; try (destruct k as [|c0 k]); cbn; eauto. }
  destruct He as [->|[io ->]]; cbn [step]; rewrite E.
  - exists (discard t). cbn. unfold upd_tx. rewrite Nat.eqb_refl. auto.
  - destruct (commit (w_db w) t io) as [[d3 t3] r] eqn:C. exists t3. cbn. unfold upd_tx. rewrite Nat.eqb_refl.
    assert (O : t_open t3 = false); [|auto].
    unfold commit in C. destruct (t_open t) eqn:O; cbn [negb] in C; [|inversion C; subst; exact O].
    destruct (entries (t_pend t)); [inversion C; reflexivity|]. destruct (conflict (w_db w) t); [inversion C; reflexivity|].
    destruct io; inversion C; reflexivity.
Qed.
Print Assumptions C24_finished_transactions_fail.

Definition w0 : world := World (db_init 100 false) (fun _ => None).
(** transaction 1 writes and commits while 2 is open: 2 still sees its snapshot *)
Definition hist : list ev :=
  [Begin 1 true []; Do 1 (CSet (str "k") (str "old") None); Commit 1 false;
   Begin 2 true []; Begin 3 true [];
   Do 2 (CSet (str "j") (str "mine") None);
   Do 3 (CSet (str "k") (str "new") None); Commit 3 false;
   Do 2 (CGet (str "k")); Do 2 (CScan (ScanOpt false [] []) None)].
Example C24_example :
  outs_of 2 (skipn 4 hist) (snd (run (fst (run w0 (firstn 4 hist))) (skipn 4 hist))) =
  [Ok OUnit; Ok (OEnt (mk (str "old"))); Ok (OItems [(str "j", mk (str "mine")); (str "k", mk (str "old"))])].
Proof. vm_compute. reflexivity. Qed.

(** C72: optimistic concurrency control. If transaction i commits at least one write, every key it
    read from its snapshot (through Get, Exists or as a scanned item) still holds in the database,
    at commit, the entry it held when the transaction began: no update is lost. *)
Theorem C72_no_lost_updates : forall now clamp es0 i lim es io,
  let w := fst (run (World (db_init now clamp) (fun _ => None)) es0) in
  let w1 := fst (step w (Begin i true lim)) in
  let w2 := fst (run w1 es) in
  let trace := trace_of i es (snd (run w1 es)) in
  forallb (fun e => negb (ends i e)) es = true ->
  snd (step w2 (Commit i io)) = Some (Ok OUnit) ->
  (exists k0 o, last_write (d_now (w_db w)) trace k0 = Some o) ->
  forall k, was_read (d_now (w_db w)) (fun _ => false) trace k = true ->
    get (d_kv (w_db w2)) k = get (d_kv (w_db w)) k.
Proof.
  intros now clamp es0 i lim es io w w1 w2 trace N C (k0 & o & W) k R.
  destruct (run_trace i es w1 (new_txn (w_db w) true lim)) as (t' & T & K & O & P & _ & Rd).
  - unfold w1. cbn. unfold upd_tx. rewrite Nat.eqb_refl. reflexivity.
  - exact N.
  - fold w2 trace in T, P, Rd. cbn [new_txn t_now t_open t_upd t_pend] in *.
    assert (OK : wok w2) by (apply run_wok, step_wok, run_wok, wok_init).
    cbn [step] in C. rewrite T in C. destruct (commit (w_db w2) t' io) as [[d3 t3] r] eqn:Cm. cbn [snd] in C.
    destruct (commit_cases _ _ _ _ _ _ Cm) as [(-> & _ & NC)|[H1 _]].
    2:{ destruct r as [[]|e|]; [congruence | discriminate C | discriminate C]. }
    assert (NE : entries (t_pend t') <> []).
    { intros E. apply (entries_nil_iff (t_pend t')) in E. specialize (P k0). rewrite W, E in P. discriminate P. }
    rewrite (conflict_free (w_db w2) t' k); [|apply (proj2 OK i); assumption | apply NC; exact NE|].
    + destruct K as (K1 & _). rewrite K1. reflexivity.
    + apply Rd; [reflexivity|]. exact R.
Qed.
Print Assumptions C72_no_lost_updates.
(** two transactions that read and then write one counter: the second commit is refused *)
Example C72_example :
  snd (run w0 [Begin 1 true []; Begin 2 true [];
               Do 1 (CGet (str "n")); Do 2 (CGet (str "n"));
               Do 1 (CSet (str "n") (str "1") None); Do 2 (CSet (str "n") (str "1") None);
               Commit 1 false; Commit 2 false]) =
  [None; None; Some (Err ErrKeyNotFound); Some (Err ErrKeyNotFound); Some (Ok OUnit); Some (Ok OUnit);
   Some (Ok OUnit); Some (Err EConflict)].
Proof. vm_compute. reflexivity. Qed.
(** phantoms are not covered: a scan does not protect against keys inserted meanwhile *)
Example C72_phantom_example :
  snd (run w0 [Begin 1 true []; Begin 2 true [];
               Do 1 (CScan (ScanOpt false (str "p") []) None); Do 2 (CScan (ScanOpt false (str "p") []) None);
               Do 1 (CSet (str "p1") (str "x") None); Do 2 (CSet (str "p2") (str "x") None);
               Commit 1 false; Commit 2 false]) =
  [None; None; Some (Ok (OItems [])); Some (Ok (OItems [])); Some (Ok OUnit); Some (Ok OUnit);
   Some (Ok OUnit); Some (Ok OUnit)].
Proof. vm_compute. reflexivity. Qed.

(** C25 *)
Theorem C25_forward_scan_exact : forall t p off n, t_open t = true ->
  off = [] \/ bytes_le p off ->
  exists all, snd (exec (CScan (ScanOpt false p off) n) t) = Ok (OItems (take_opt n all)) /\
    ascending all /\
    forall k e, In (k, e) all <-> get (view t) k = Some e /\ has_prefix k p = true /\ bytes_le off k.
Proof.
  intros t p off n O H.
  exists (filter (fun x => has_prefix (fst x) p && bytes_leb off (fst x)) (entries (view t))).
  split; [|split].
  - apply exec_scan; [exact O|]. apply scan_forward. destruct H as [->|H]; [right; reflexivity | left; exact H].
  - apply ascending_filter.
  - intros k e. rewrite filter_In, get_in, andb_true_iff. cbn [fst]. rewrite bytes_leb_le. reflexivity.
Qed.
Print Assumptions C25_forward_scan_exact.
(** with any callback: it is called on exactly these items in this order until it returns false *)
Theorem C25_forward_scan_callback : forall S (f : bytes -> ent -> S -> S * bool) s t p off, t_open t = true ->
  off = [] \/ bytes_le p off ->
  exists all, snd (tscan (ScanOpt false p off) (fun k e s => ret (f k e s)) s t) = Ok (visit f all s) /\
    ascending all /\
    forall k e, In (k, e) all <-> get (view t) k = Some e /\ has_prefix k p = true /\ bytes_le off k.
Proof.
  intros S f s t p off O H.
  exists (filter (fun x => has_prefix (fst x) p && bytes_leb off (fst x)) (entries (view t))).
  split; [|split].
  - rewrite (tscan_visit f _ s t O). rewrite (scan_forward (view t) p off); [reflexivity|].
    destruct H as [->|H]; [right; reflexivity | left; exact H].
  - apply ascending_filter.
  - intros k e. rewrite filter_In, get_in, andb_true_iff. cbn [fst]. rewrite bytes_leb_le. reflexivity.
Qed.
Print Assumptions C25_forward_scan_callback.
Example C25_example :
  let t := fst (exec (CSet (str "a2") (str "y") None) (new_txn (w_db (fst (run w0
     [Begin 1 true []; Do 1 (CSet (str "a1") (str "x") None); Do 1 (CSet (str "b") (str "z") None);
      Do 1 (CSet (str "a3") (str "w") None); Commit 1 false]))) true [])) in
  t_open t = true /\ snd (exec (CScan (ScanOpt false (str "a") (str "a2")) None) t) =
    Ok (OItems [(str "a2", mk (str "y")); (str "a3", mk (str "w"))]).
Proof. vm_compute. split; reflexivity. Qed.

(** C26: true from an offset not below the prefix when no foreign live key lies between the prefix
    and the offset *)
Theorem C26_reverse_scan_at_or_above_the_prefix_partial : forall t p off n, t_open t = true ->
  off <> [] -> bytes_le p off ->
  (forall k e, get (view t) k = Some e -> bytes_lt p k -> bytes_le k off -> has_prefix k p = true) ->
  exists all, snd (exec (CScan (ScanOpt true p off) n) t) = Ok (OItems (take_opt n all)) /\
    descending all /\
    forall k e, In (k, e) all <-> get (view t) k = Some e /\ has_prefix k p = true /\ bytes_le k off.
Proof.
  intros t p off n O N L F.
  exists (rev (filter (fun x => has_prefix (fst x) p && bytes_leb (fst x) off) (entries (view t)))).
  split; [|split].
  - apply exec_scan; [exact O|]. apply scan_reverse_gen; [exact N | exact L|].
    intros k e I A B. apply get_in in I. exact (F k e I B A).
  - apply descending_filter.
  - intros k e. rewrite <- in_rev, filter_In, get_in, andb_true_iff. cbn [fst]. rewrite bytes_leb_le. reflexivity.
Qed.
Print Assumptions C26_reverse_scan_at_or_above_the_prefix_partial.
(** in particular from an offset having the prefix *)
Theorem C26_reverse_scan_with_offset_partial : forall t p off n, t_open t = true ->
  off <> [] -> has_prefix off p = true ->
  exists all, snd (exec (CScan (ScanOpt true p off) n) t) = Ok (OItems (take_opt n all)) /\
    descending all /\
    forall k e, In (k, e) all <-> get (view t) k = Some e /\ has_prefix k p = true /\ bytes_le k off.
Proof.
  intros t p off n O N H. apply C26_reverse_scan_at_or_above_the_prefix_partial; [exact O | exact N | apply prefix_ge; exact H|].
  intros k e _ G L. destruct (has_prefix k p) eqn:E; [reflexivity|]. exfalso.
  assert (A : bytes_lt off k).
  { apply (no_prefix_above p); [|exact E|exact H]. apply bytes_le_lteq. left. exact G. }
  apply bytes_not_lt in L. exact (L A).
Qed.
Print Assumptions C26_reverse_scan_with_offset_partial.
(** the remaining cases find nothing: a single live key between the keys with the prefix and the
    offset hides all of them, and nothing with the prefix is at or below an offset below the prefix
    (a Badger that clamps the offset to the prefix would still find the prefix itself) *)
Theorem C26_foreign_key_hides_the_prefix_refuted : forall t p off n, t_open t = true ->
  (exists k e, get (view t) k = Some e /\ bytes_lt p k /\ bytes_le k off /\ has_prefix k p = false) ->
  snd (exec (CScan (ScanOpt true p off) n) t) = Ok (OItems []).
Proof.
  intros t p off n O (k & e & G & A & B & N).
  assert (E : scan_items (t_clamp t) (view t) (ScanOpt true p off) = []).
  { unfold scan_items, seek_key. cbn [so_rev so_offset so_prefix].
    assert (Lo : bytes_le p off) by (eapply bytes_le_trans; [apply bytes_le_lteq; left; exact A | exact B]).
    destruct off as [|c off].
    { exfalso. apply (bytes_lt_irrefl p). eapply bytes_lt_le_trans; [exact A|]. eapply bytes_le_trans; [exact B | apply bytes_le_nil]. }
    replace (if t_clamp t && bytes_ltb (c :: off) p then p else c :: off) with (c :: off).
    2:{ destruct (bytes_ltb (c :: off) p) eqn:X; [|rewrite andb_false_r; reflexivity].
        apply bytes_ltb_lt in X. exfalso. apply bytes_not_lt in Lo. exact (Lo X). }
    rewrite (dropWhile_filter _ (fun x y => bytes_lt (fst y) (fst x))).
    2:{ intros x y H H'. apply bytes_ltb_lt in H'. apply bytes_ltb_lt. eapply bytes_lt_trans; eassumption. }
    2:{ intros i j x y. apply sorted_nth_rev. apply sm_ok. }
    destruct (filter _ (rev (entries (view t)))) as [|[k' e'] l] eqn:F; [reflexivity|].
    cbn [takeWhile fst]. destruct (has_prefix k' p) eqn:HP; [|reflexivity]. exfalso.
    assert (L : bytes_lt k' k).
    { apply (no_prefix_above p); [|exact N|exact HP]. apply bytes_le_lteq. left. exact A. }
    assert (Ik : In (k, e) ((k', e') :: l)).
    { rewrite <- F. apply filter_In. split; [apply in_rev; rewrite rev_involutive; apply get_in; exact G|].
      cbn [fst]. rewrite leb_negb_ltb. apply bytes_leb_le. exact B. }
    destruct Ik as [Ik|Ik]; [inversion Ik; subst; exact (bytes_lt_irrefl _ L)|].
    assert (D : descending ((k', e') :: l)).
    { rewrite <- F, <- rev_filter. apply descending_filter. }
    apply In_nth_error in Ik. destruct Ik as (j & Ij).
    pose proof (D 0%nat (S j) _ _ ltac:(lia) eq_refl Ij) as L2. cbn [fst] in L2. exact (bytes_lt_irrefl _ (bytes_lt_trans _ _ _ L L2)). }
  rewrite (exec_scan t _ n _ O E). destruct n; [cbn [take_opt]; rewrite firstn_nil|]; reflexivity.
Qed.
Print Assumptions C26_foreign_key_hides_the_prefix_refuted.
Theorem C26_reverse_scan_below_the_prefix : forall t p off n, t_open t = true ->
  off <> [] -> bytes_lt off p -> t_clamp t = false ->
  snd (exec (CScan (ScanOpt true p off) n) t) = Ok (OItems []).
Proof.
  intros t p off n O NO L C.
  assert (E : scan_items (t_clamp t) (view t) (ScanOpt true p off) = []).
  { unfold scan_items, seek_key. cbn [so_rev so_offset so_prefix]. rewrite C. cbn [andb]. destruct off as [|c off]; [congruence|].
    rewrite (dropWhile_filter _ (fun x y => bytes_lt (fst y) (fst x))).
    2:{ intros x y H H'. apply bytes_ltb_lt in H'. apply bytes_ltb_lt. eapply bytes_lt_trans; eassumption. }
    2:{ intros i j x y. apply sorted_nth_rev. apply sm_ok. }
    destruct (filter _ (rev (entries (view t)))) as [|[k e] l] eqn:F; [reflexivity|].
    assert (I : In (k, e) (filter (fun p0 => negb (bytes_ltb (c :: off) (fst p0))) (rev (entries (view t))))) by (rewrite F; left; reflexivity).
    apply filter_In in I. destruct I as [_ I2]. cbn [fst] in I2. rewrite leb_negb_ltb in I2. apply bytes_leb_le in I2.
    cbn [takeWhile fst]. destruct (has_prefix k p) eqn:HP; [|reflexivity]. exfalso. apply prefix_ge in HP.
    pose proof (bytes_le_trans _ _ _ HP I2) as X. apply bytes_not_lt in X. exact (X L). }
  rewrite (exec_scan t _ n _ O E). destruct n; [cbn [take_opt]; rewrite firstn_nil|]; reflexivity.
Qed.
Print Assumptions C26_reverse_scan_below_the_prefix.
(** without prefix, from the end *)
Theorem C26_reverse_scan_of_everything_partial : forall t n, t_open t = true ->
  snd (exec (CScan (ScanOpt true [] []) n) t) = Ok (OItems (take_opt n (rev (entries (view t))))).
Proof.
  intros t n O. apply exec_scan; [exact O|]. unfold scan_items, seek_key. cbn [so_rev so_offset so_prefix].
  induction (rev (entries (view t))) as [|[k e] l IH]; [reflexivity|]. cbn [takeWhile fst]. rewrite has_prefix_nil, IH. reflexivity.
Qed.
Print Assumptions C26_reverse_scan_of_everything_partial.
(** with a prefix and no offset the scan starts at the prefix itself and finds nothing *)
Theorem C26_reverse_prefix_scan_refuted : exists t p, t_open t = true /\
  (exists k e, get (view t) k = Some e /\ has_prefix k p = true) /\
  snd (exec (CScan (ScanOpt true p []) None) t) = Ok (OItems []).
Proof.
  exists (fst (exec (CSet (str "a1") (str "x") None) (new_txn (db_init 0 false) true []))), (str "a").
  split; [reflexivity|]. split; [exists (str "a1"), (mk (str "x")); split; reflexivity|]. reflexivity.
Qed.
Print Assumptions C26_reverse_prefix_scan_refuted.
(** ... always, unless the prefix itself is a key *)
Theorem C26_reverse_prefix_scan_misses_refuted : forall t p n, t_open t = true -> p <> [] ->
  get (view t) p = None -> snd (exec (CScan (ScanOpt true p []) n) t) = Ok (OItems []).
Proof.
  intros t p n O NP G.
  assert (E : scan_items (t_clamp t) (view t) (ScanOpt true p []) = []).
  { unfold scan_items, seek_key. cbn [so_rev so_offset so_prefix]. destruct p as [|c p]; [congruence|].
    rewrite (dropWhile_filter _ (fun x y => bytes_lt (fst y) (fst x))).
    2:{ intros x y H H'. apply bytes_ltb_lt in H'. apply bytes_ltb_lt. eapply bytes_lt_trans; eassumption. }
    2:{ intros i j x y. apply sorted_nth_rev. apply sm_ok. }
    destruct (filter _ (rev (entries (view t)))) as [|[k e] l] eqn:F; [reflexivity|].
    assert (I : In (k, e) (filter (fun p0 => negb (bytes_ltb (c :: p) (fst p0))) (rev (entries (view t))))) by (rewrite F; left; reflexivity).
    apply filter_In in I. destruct I as [I1 I2]. apply in_rev in I1. apply get_in in I1. cbn [fst] in I2.
    rewrite leb_negb_ltb in I2. apply bytes_leb_le in I2. cbn [takeWhile fst].
    destruct (has_prefix k (c :: p)) eqn:HP; [|reflexivity]. exfalso.
    apply prefix_ge in HP. rewrite (bytes_le_antisym _ _ HP I2) in G. congruence. }
  rewrite (exec_scan t _ n _ O E). destruct n; [cbn [take_opt]; rewrite firstn_nil|]; reflexivity.
Qed.
Print Assumptions C26_reverse_prefix_scan_misses_refuted.
Example C26_example :
  let t := fst (exec (CSet (str "a2") (str "y") None) (fst (exec (CSet (str "a1") (str "x") None) (new_txn (db_init 0 true) true [])))) in
  snd (exec (CScan (ScanOpt true (str "a") (str "a9")) None) t) = Ok (OItems [(str "a2", mk (str "y")); (str "a1", mk (str "x"))]).
Proof. vm_compute. reflexivity. Qed.

(** C27: LevelDB visits the whole prefix; Badger does so when its Seek clamps to the prefix; with
    a Badger whose Seek does not clamp the property is false *)
Theorem C27_leveldb_offset_below_prefix : forall (d : ldb) p off, bytes_lt off p ->
  ldb_items d (ScanOpt false p off) = filter (fun x => has_prefix (fst x) p) (entries d).
Proof.
  intros d p off L. rewrite ldb_items_spec. cbn [so_prefix so_offset]. apply filter_ext_in. intros x _.
  destruct (has_prefix (fst x) p) eqn:E; [|reflexivity]. cbn [andb]. apply bytes_leb_le.
  apply bytes_le_lteq. left. eapply bytes_lt_le_trans; [exact L | apply prefix_ge; exact E].
Qed.
Print Assumptions C27_leveldb_offset_below_prefix.
Theorem C27_badger_clamping_partial : forall t p off n, t_open t = true -> t_clamp t = true -> bytes_lt off p ->
  snd (exec (CScan (ScanOpt false p off) n) t) =
    Ok (OItems (take_opt n (filter (fun x => has_prefix (fst x) p) (entries (view t))))).
Proof.
  intros t p off n O C L. apply exec_scan; [exact O|]. rewrite C.
  assert (S : seek_key true (ScanOpt false p off) = p).
  { unfold seek_key. cbn [so_offset so_prefix]. destruct off as [|c off]; [reflexivity|]. rewrite (proj2 (bytes_ltb_lt _ _) L). reflexivity. }
  rewrite (scan_forward_gen true _ (ScanOpt false p off) p eq_refl S (bytes_le_refl p)). cbn [so_prefix]. apply filter_ext_in.
  intros x _. destruct (has_prefix (fst x) p) eqn:E; [|reflexivity]. cbn [andb]. apply bytes_leb_le, prefix_ge. exact E.
Qed.
Print Assumptions C27_badger_clamping_partial.
Theorem C27_badger_offset_below_prefix_refuted : exists t p off, t_open t = true /\ t_clamp t = false /\ bytes_lt off p /\
  (exists k e, get (view t) k = Some e /\ has_prefix k p = true) /\
  snd (exec (CScan (ScanOpt false p off) None) t) = Ok (OItems []).
Proof.
  exists (fst (exec (CSet (str "b1") (str "x") None) (fst (exec (CSet (str "a1") (str "x") None) (new_txn (db_init 0 false) true []))))), (str "b"), (str "a").
  split; [reflexivity|]. split; [reflexivity|]. split; [reflexivity|]. split; [exists (str "b1"), (mk (str "x")); split; reflexivity|]. reflexivity.
Qed.
Print Assumptions C27_badger_offset_below_prefix_refuted.

(** C28 *)
Theorem C28_providers_agree : forall now clamp cs, Forall portable cs ->
  badger_run (db_init now clamp) cs = leveldb_run empty cs.
Proof. intros now clamp cs P. apply agree_run; [|exact P]. intros k. reflexivity. Qed.
Print Assumptions C28_providers_agree.
Theorem C28_leveldb_rejects : forall (d : ldb) k v m p off n,
  (exists e, ldb_set d k v (Some m) = (d, Err e)) /\ (exists e, ldb_scan d (ScanOpt true p off) n = Err e).
Proof. intros. split; eexists; reflexivity. Qed.
Print Assumptions C28_leveldb_rejects.
Example C28_example : let cs := [PSet (str "a1") (str "x"); PSet (str "a2") []; PDel (str "zz"); PGet (str "a1"); PGet (str "q");
     PExists (str "a2"); PScan (ScanOpt false (str "a") (str "a1")) None; PDel (str "a1"); PScan (ScanOpt false [] []) (Some 1%nat)] in
  Forall portable cs /\ badger_run (db_init 5 true) cs =
   [Ok PUnit; Ok PUnit; Ok PUnit; Ok (PVal (str "x")); Err ErrKeyNotFound; Ok (PBool true);
    Ok (PItems [(str "a1", str "x"); (str "a2", [])]); Ok PUnit; Ok (PItems [(str "a2", [])])].
Proof. split; [|vm_compute; reflexivity]. repeat constructor; try discriminate; right; reflexivity. Qed.

(** C29 *)
Theorem C29_batch_applies_in_order : forall d lim ops io d1 t1 d2 t2,
  wb_run d (new_txn d true lim) ops = (d1, t1, Ok tt) -> wb_flush d1 t1 io = (d2, t2, Ok tt) ->
  forall k, get (d_kv d2) k = batch_get (map (fun x => fst (fst x)) ops) k (get (d_kv d) k).
Proof.
  intros d lim ops io d1 t1 d2 t2 H F k.
  destruct (commit_cases _ _ _ _ _ _ F) as [(_ & C & _)|[C _]]; [|congruence].
  rewrite C. change (pend_get d1 t1 k = batch_get (map (fun x => fst (fst x)) ops) k (get (d_kv d) k)).
  rewrite (wb_run_get _ _ _ _ _ H). reflexivity.
Qed.
Print Assumptions C29_batch_applies_in_order.
(** nothing is applied before Commit as long as the batch fits in one transaction, and nothing at
    all after Discard *)
Theorem C29_small_batch_invisible_before_commit_partial : forall d ops d1 t1 r,
  wb_run d (new_txn d true []) ops = (d1, t1, r) -> d1 = d.
Proof.
  intros d ops.
  assert (G : forall ops t d1 t1 r, t_lim t = [] -> wb_run d t ops = (d1, t1, r) -> d1 = d).
  { clear ops. induction ops as [|[[o lim] io] ops IH]; intros t d1 t1 r L H; cbn [wb_run] in H; [inversion H; reflexivity|].
    unfold wb_op in H. rewrite wb_modify_eq in H.
    assert (M : modify (wkey o) (wo_val o) t = (put (wkey o) (wo_val o) [] t, Ok tt) \/
                exists e, e <> EBTooBig /\ modify (wkey o) (wo_val o) t = (t, Err e)).
    { unfold modify. rewrite L. destruct (t_upd t); cbn [negb]; [|right; eexists; split; [|reflexivity]; discriminate].
      destruct (t_open t); cbn [negb]; [|right; eexists; split; [|reflexivity]; discriminate].
      destruct (key_err (wkey o)) as [e|] eqn:KE; [|left; reflexivity]. right. exists e. split; [|reflexivity].
      intros ->. unfold key_err in KE. destruct (wkey o); [discriminate|]. destruct (has_prefix _ _); discriminate. }
    destruct M as [M|(e & Ne & M)]; rewrite M in H.
    - eapply IH; [|exact H]. reflexivity.
    - destruct e; try (inversion H; reflexivity). congruence. }
  intros d1 t1 r. apply G. reflexivity.
Qed.
Print Assumptions C29_small_batch_invisible_before_commit_partial.
Theorem C29_after_discard_nothing_is_applied : forall d t o lim io, t_upd t = true ->
  (exists d' t' e, wb_op d (wb_cancel t) o lim io = (d', t', Err e) /\ d' = d) /\
  wb_flush d (wb_cancel t) io = (d, wb_cancel t, Panic).
Proof.
  intros d t o lim io U. split; [|reflexivity]. exists d, (wb_cancel t), EDiscardedTxn. split; [|reflexivity].
  unfold wb_op. rewrite wb_modify_eq. unfold modify, wb_cancel, discard, close. cbn [t_upd t_open]. rewrite U. reflexivity.
Qed.
Print Assumptions C29_after_discard_nothing_is_applied.
(** a big batch becomes partly visible before Commit *)
Theorem C29_invisible_before_commit_refuted : exists d lim ops d1 t1,
  wb_run d (new_txn d true lim) ops = (d1, t1, Ok tt) /\ get (d_kv d1) (str "k1") <> get (d_kv d) (str "k1").
Proof.
  exists (db_init 0 true), [false; true], [(WSet (str "k1") (str "v"), [], false); (WSet (str "k2") (str "v"), [], false)].
  eexists. eexists. split; [reflexivity|]. vm_compute. discriminate.
Qed.
Print Assumptions C29_invisible_before_commit_refuted.
Theorem C29_leveldb_batch_applies_in_order : forall (d : ldb) ops k,
  snd (lwb_commit d ops) = Ok tt /\ get (fst (lwb_commit d ops)) k = option_map e_val (batch_get ops k (option_map mk (get d k))).
Proof.
  intros d ops k. split; [reflexivity|]. unfold lwb_commit. cbn [fst].
  assert (E : forall x : option bytes, x = option_map e_val (option_map mk x)) by (intros [v|]; reflexivity).
  revert d. induction ops as [|o ops IH]; intros d; cbn [fold_left batch_get]; [apply E|]. rewrite IH. f_equal. f_equal.
  destruct o as [k0 v|k0]; cbn [lwb_apply wkey]; rewrite ?get_set, ?get_del; destruct (bytes_eqb k k0); reflexivity.
Qed.
Print Assumptions C29_leveldb_batch_applies_in_order.
Example C29_example : exists d1 t1 d2 t2,
  wb_run (db_init 0 true) (new_txn (db_init 0 true) true [false; true])
     [(WSet (str "k1") (str "v"), [], false); (WSet (str "k2") (str "w"), [], false); (WDel (str "k1"), [], false)] = (d1, t1, Ok tt) /\
  wb_flush d1 t1 false = (d2, t2, Ok tt) /\ get (d_kv d2) (str "k1") = None /\ get (d_kv d2) (str "k2") = Some (mk (str "w")).
Proof. eexists. eexists. eexists. eexists. split; [reflexivity|]. split; [reflexivity|]. split; reflexivity. Qed.

(** C73: expiry. A value stored with a time to live is visible, with its tag, until the clock
    reaches ExpiresAt and never afterwards *)
Theorem C73_ttl_visible_exactly_until_expiry : forall d k v ttl tag d' n,
  bdb_set d k v (Some (VMeta ttl tag)) [] false = (d', Ok tt) -> 0 < d_now d + ttl ->
  bdb_get (tick d' n) k =
    if Z.of_nat n <? ttl then Ok (Ent v (d_now d + ttl) tag) else Err ErrKeyNotFound.
Proof.
  intros d k v ttl tag d' n H P. unfold bdb_set, bdb_write, tsetm, map_err in H.
  assert (G : good_key k).
  { unfold good_key. destruct (key_err k) as [e|] eqn:E; [|reflexivity]. unfold modify in H. cbn [new_txn t_upd t_open negb] in H.
    rewrite E in H. inversion H. }
  rewrite (modify_fresh d k _ G), commit_put in H.
  assert (H1 : forall j, get (d_kv d') j = if bytes_eqb j k then Some (Ent v (d_now d + ttl) tag) else get (d_kv d) j).
  { intros j. inversion H. exact (kv_publish_put d k _ j). }
  assert (H2 : d_now d' = d_now d) by (inversion H; reflexivity).
  clear H. unfold bdb_get.
  assert (OK0 : okt false (new_txn (tick d' n) false [])) by (split; [reflexivity | discriminate]).
  destruct (spec_tgetm false k _ (good_key_nonempty k G) _ OK0 (view_new (tick d' n) false [])) as (t' & E & _).
  rewrite E. cbn [snd]. unfold live_map. rewrite get_sfilter. cbn [tick d_kv d_now]. rewrite H1, H2, bytes_eqb_refl.
  cbn [snd]. unfold live. cbn [e_exp].
  destruct (Z.eqb_spec (d_now d + ttl) 0); [lia|]. cbn [orb].
  destruct (Z.ltb_spec (d_now d + Z.of_nat n) (d_now d + ttl)), (Z.ltb_spec (Z.of_nat n) ttl); try lia; reflexivity.
Qed.
Print Assumptions C73_ttl_visible_exactly_until_expiry.
(** a tag without TTL (TTL 0) makes the value vanish at once, although Set succeeds *)
Theorem C73_tag_without_ttl_persists_refuted : exists d k v tag d',
  bdb_set d k v (Some (VMeta 0 tag)) [] false = (d', Ok tt) /\ bdb_get d' k = Err ErrKeyNotFound.
Proof. exists (db_init 100 true), (str "k"), (str "v"), (z2b 7). eexists. split; reflexivity. Qed.
Print Assumptions C73_tag_without_ttl_persists_refuted.
Example C73_example : exists d', bdb_set (db_init 100 true) (str "k") (str "v") (Some (VMeta 10 (z2b 7))) [] false = (d', Ok tt) /\
  bdb_get (tick d' 9) (str "k") = Ok (Ent (str "v") 110 (z2b 7)) /\ bdb_get (tick d' 10) (str "k") = Err ErrKeyNotFound.
Proof. eexists. split; [reflexivity|]. split; reflexivity. Qed.
Example C27_example : bytes_lt (str "a") (str "b") /\
  ldb_items (set (set empty (str "a1") (str "x")) (str "b1") (str "y")) (ScanOpt false (str "b") (str "a")) = [(str "b1", str "y")] /\
  t_open (new_txn (db_init 0 true) true []) = true /\ t_clamp (new_txn (db_init 0 true) true []) = true.
Proof. split; [reflexivity|]. split; [vm_compute; reflexivity | split; reflexivity]. Qed.
