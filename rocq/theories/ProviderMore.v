(** Further lemmas for the provider properties: scans as ordered enumerations, LevelDB/Badger
    simulation, write batches. *)
From Verif Require Import Bytes SMap Provider ProviderProofs World KeyModel.

(** keys strictly ascending / descending *)
Definition ascending {V} (l : list (bytes * V)) : Prop :=
  forall i j x y, (i < j)%nat -> nth_error l i = Some x -> nth_error l j = Some y -> bytes_lt (fst x) (fst y).
Definition descending {V} (l : list (bytes * V)) : Prop :=
  forall i j x y, (i < j)%nat -> nth_error l i = Some x -> nth_error l j = Some y -> bytes_lt (fst y) (fst x).

Lemma ascending_filter (f : bytes * ent -> bool) (m : smap ent) : ascending (filter f (entries m)).
Proof. intros i j x y. apply sorted_nth, sorted_filter, sm_ok. Qed.
Lemma descending_filter (f : bytes * ent -> bool) (m : smap ent) : descending (rev (filter f (entries m))).
Proof. intros i j x y. apply sorted_nth_rev, sorted_filter, sm_ok. Qed.

Lemma exec_scan t o n l : t_open t = true -> scan_items (t_clamp t) (view t) o = l ->
  snd (exec (CScan o n) t) = Ok (OItems (take_opt n l)).
Proof.
  intros O E. destruct (exec_ref (CScan o n) t O) as (t' & H & _). rewrite H. cbn [ref_op snd]. rewrite E. reflexivity.
Qed.

(** any pure callback *)
Fixpoint visit {S} (f : bytes -> ent -> S -> S * bool) (l : list (bytes * ent)) (s : S) : S :=
  match l with
  | [] => s
  | (k, e) :: l' => let r := f k e s in if snd r then visit f l' (fst r) else fst r
  end.
Lemma visit_fix {S} (f : bytes -> ent -> S -> S * bool) l : forall s,
  (fix go l s := match l with [] => s | (k, e) :: l' => let r := f k e s in if snd r then go l' (fst r) else fst r end) l s = visit f l s.
Proof. induction l as [|[k e] l IH]; intros s; [reflexivity|]. cbn. destruct (snd (f k e s)); [apply IH | reflexivity]. Qed.
Lemma tscan_visit {S} (f : bytes -> ent -> S -> S * bool) o s t :
  t_open t = true ->
  snd (tscan o (fun k e s => ret (f k e s)) s t) = Ok (visit f (scan_items (t_clamp t) (view t) o) s).
Proof.
  intros O. unfold tscan. rewrite O. cbn [negb].
  destruct (scan_loop_pure false (scan_items (t_clamp t) (view t) o) f s (view t) t) as (t' & E & _); [split; [exact O | discriminate] | reflexivity |].
  rewrite E, visit_fix. reflexivity.
Qed.

(** ** LevelDB against Badger *)
Inductive pcmd := PSet (k v : bytes) | PDel (k : bytes) | PGet (k : bytes) | PExists (k : bytes) | PScan (o : scan_opt) (n : option nat).
Inductive pout := PUnit | PVal (v : bytes) | PBool (b : bool) | PItems (l : list (bytes * bytes)).
Definition rmap {A B} (f : A -> B) (r : result A) : result B :=
  match r with Ok a => Ok (f a) | Err e => Err e | Panic => Panic end.
Definition strip (l : list (bytes * ent)) : list (bytes * bytes) := map (fun p => (fst p, e_val (snd p))) l.
Definition badger_do (d : db) (c : pcmd) : db * result pout :=
  match c with
  | PSet k v => let '(d', r) := bdb_set d k v None [] false in (d', rmap (fun _ => PUnit) r)
  | PDel k => let '(d', r) := bdb_del d k [] false in (d', rmap (fun _ => PUnit) r)
  | PGet k => (d, rmap (fun e => PVal (e_val e)) (bdb_get d k))
  | PExists k => (d, rmap PBool (bdb_exists d k))
  | PScan o n => (d, rmap (fun l => PItems (strip l)) (bdb_scan d o n))
  end.
Definition leveldb_do (d : ldb) (c : pcmd) : ldb * result pout :=
  match c with
  | PSet k v => let '(d', r) := ldb_set d k v None in (d', rmap (fun _ => PUnit) r)
  | PDel k => let '(d', r) := ldb_del d k in (d', rmap (fun _ => PUnit) r)
  | PGet k => (d, rmap PVal (ldb_get d k))
  | PExists k => (d, rmap PBool (ldb_exists d k))
  | PScan o n => (d, rmap PItems (ldb_scan d o n))
  end.
Fixpoint badger_run d cs := match cs with [] => [] | c :: cs' => let '(d', r) := badger_do d c in r :: badger_run d' cs' end.
Fixpoint leveldb_run d cs := match cs with [] => [] | c :: cs' => let '(d', r) := leveldb_do d c in r :: leveldb_run d' cs' end.
(** keys usable on Badger (not empty, not under its reserved prefix); scans forward with the
    offset absent or having the prefix *)
Definition portable (c : pcmd) : Prop :=
  match c with
  | PSet k _ | PDel k | PGet k | PExists k => k <> [] /\ has_prefix k (str "!badger!") = false
  | PScan o _ => so_rev o = false /\ (so_offset o = [] \/ has_prefix (so_offset o) (so_prefix o) = true)
  end.

Definition same_kv (d : db) (l : ldb) : Prop := forall k, get (d_kv d) k = option_map mk (get l k).
Lemma same_entries d l : same_kv d l -> entries (live_map (d_kv d) (d_now d)) = map (fun p => (fst p, mk (snd p))) (entries l).
Proof.
  intros H. apply sorted_ext.
  - apply sm_ok.
  - unfold entries. pose proof (sm_ok l) as S. revert S. generalize (sm_list l). clear.
    induction l as [|[k v] l IH]; intros S; [reflexivity|]. cbn [map]. apply sortedb_cons in S. destruct S as [S1 S2].
    apply sortedb_cons. split; [|apply IH; exact S2]. intros k' v' Hin. apply in_map_iff in Hin.
    destruct Hin as ([k1 v1] & E & Hin). inversion E. subst. exact (S1 _ _ Hin).
  - intros k e. change (In (k, e) (entries (live_map (d_kv d) (d_now d))) <-> In (k, e) (map (fun p => (fst p, mk (snd p))) (entries l))).
    rewrite <- get_in. unfold live_map. rewrite get_sfilter, H. rewrite in_map_iff. split.
    + destruct (get l k) as [v|] eqn:E; cbn [option_map]; [|discriminate]. cbn [snd]. rewrite live_mk.
      intros Q. inversion Q. subst e. exists (k, v). split; [reflexivity|]. apply get_in. exact E.
    + intros ([k1 v1] & E & Hin). inversion E. subst. apply get_in in Hin. rewrite Hin. cbn [option_map snd]. rewrite live_mk. reflexivity.
Qed.
Lemma filter_map {A B} (f : B -> bool) (g : A -> B) l : filter f (map g l) = map g (filter (fun x => f (g x)) l).
Proof. induction l as [|x l IH]; [reflexivity|]. cbn. destruct (f (g x)); cbn; rewrite IH; reflexivity. Qed.
Lemma in_prefix_le o : so_offset o = [] \/ has_prefix (so_offset o) (so_prefix o) = true -> bytes_le (so_prefix o) (so_offset o) \/ so_offset o = [].
Proof. intros [H|H]; [right; exact H | left; apply prefix_ge; exact H]. Qed.

Lemma ldb_items_spec (l : ldb) o :
  ldb_items l o = filter (fun p => has_prefix (fst p) (so_prefix o) && bytes_leb (so_offset o) (fst p)) (entries l).
Proof.
  unfold ldb_items.
  assert (R : filter (fun p : bytes * bytes => in_range (so_prefix o) (fst p)) (entries l) = filter (fun p => has_prefix (fst p) (so_prefix o)) (entries l)).
  { apply filter_ext_in. intros x _. apply in_range_spec. }
  rewrite R. destruct (so_offset o) as [|c off] eqn:E.
  - apply filter_ext_in. intros x _. rewrite (proj2 (bytes_leb_le [] (fst x))) by apply bytes_le_nil. symmetry. apply andb_true_r.
  - rewrite (dropWhile_filter _ (fun x y => bytes_lt (fst x) (fst y))).
    + rewrite filter_filter. apply filter_ext_in. intros x _. rewrite leb_negb_ltb. reflexivity.
    + intros x y H H'. apply bytes_ltb_lt in H'. apply bytes_ltb_lt. eapply bytes_lt_trans; eassumption.
    + intros i j x y. apply sorted_nth, sorted_filter, sm_ok.
Qed.

Lemma take_opt_map {A B} (f : A -> B) n l : take_opt n (map f l) = map f (take_opt n l).
Proof. destruct n; [apply firstn_map | reflexivity]. Qed.

Lemma modify_fresh d k o : good_key k ->
  modify k o (new_txn d true []) = (put k o [] (new_txn d true []), Ok tt).
Proof. intros G. unfold modify. cbn [new_txn t_upd t_open t_lim negb]. rewrite G. reflexivity. Qed.
Lemma commit_put d k o : commit d (put k o [] (new_txn d true [])) false =
  (publish d (put k o [] (new_txn d true [])), close (put k o [] (new_txn d true [])), Ok tt).
Proof. reflexivity. Qed.
Lemma kv_publish_put d k o j : get (d_kv (publish d (put k o [] (new_txn d true [])))) j = if bytes_eqb j k then o else get (d_kv d) j.
Proof.
  cbn [publish d_kv]. rewrite get_apply_pend. cbn [put t_pend new_txn]. rewrite get_set. destruct (bytes_eqb j k); reflexivity.
Qed.

Lemma portable_good k : k <> [] /\ has_prefix k (str "!badger!") = false -> good_key k.
Proof. intros [H1 H2]. unfold good_key, key_err. destruct k; [congruence|]. unfold badger_prefix. rewrite H2. reflexivity. Qed.

Lemma agree_step d l c : same_kv d l -> portable c ->
  snd (badger_do d c) = snd (leveldb_do l c) /\ same_kv (fst (badger_do d c)) (fst (leveldb_do l c)).
Proof.
  intros H P. destruct c as [k v|k|k|k|o n]; cbn [portable badger_do leveldb_do] in *.
  - apply portable_good in P. unfold bdb_set, bdb_write, tsetm, map_err. cbn [entry_of]. rewrite (modify_fresh d k _ P), commit_put.
    cbn [rmap fst snd ldb_set]. split; [reflexivity|]. intros j. rewrite kv_publish_put, get_set. destruct (bytes_eqb j k); [reflexivity | apply H].
  - apply portable_good in P. unfold bdb_del, bdb_write. rewrite (modify_fresh d k _ P), commit_put.
    cbn [rmap fst snd ldb_del]. split; [reflexivity|]. intros j. rewrite kv_publish_put, get_del. destruct (bytes_eqb j k); [reflexivity | apply H].
  - split; [|exact H]. cbn [snd]. unfold bdb_get, ldb_get.
    destruct (spec_tgetm false k (live_map (d_kv d) (d_now d)) (proj1 P) (new_txn d false [])) as (t' & E & _); [split; [reflexivity | discriminate] | apply view_new |].
    rewrite E. cbn [snd]. unfold live_map. rewrite get_sfilter, H. destruct (get l k); cbn [option_map snd]; [rewrite live_mk|]; reflexivity.
  - split; [|exact H]. cbn [snd]. unfold bdb_exists, ldb_exists.
    destruct (spec_texists false k (live_map (d_kv d) (d_now d)) (proj1 P) (new_txn d false [])) as (t' & E & _); [split; [reflexivity | discriminate] | apply view_new |].
    rewrite E. cbn [snd]. unfold live_map. rewrite get_sfilter, H. destruct (get l k); cbn [option_map snd]; [rewrite live_mk|]; reflexivity.
  - split; [|exact H]. destruct P as [P1 P2]. cbn [snd]. unfold bdb_scan, ldb_scan. rewrite P1.
    destruct o as [rv p off]. cbn [so_rev so_prefix so_offset] in *. subst rv.
    assert (P3 : bytes_le p off \/ off = []) by exact (in_prefix_le (ScanOpt false p off) P2).
    pose proof (spec_tscan_collect false _ n _ _ (scan_forward (live_map (d_kv d) (d_now d)) p off P3)) as HS.
    destruct (HS (new_txn d false [])) as (t' & E & _); [split; [reflexivity | discriminate] | apply view_new |].
    rewrite E. cbn [snd rmap]. rewrite ldb_items_spec. cbn [so_prefix so_offset].
    change (match n with None => ?x | Some n' => firstn (max 1 n') ?x end) with (take_opt n x).
    rewrite (same_entries d l H), filter_map, take_opt_map. f_equal. f_equal. unfold strip. rewrite map_map. cbn [fst snd e_val mk].
    rewrite <- (map_id (take_opt n _)) at 2. apply map_ext. intros [? ?]. reflexivity.
Qed.
Lemma agree_run cs : forall d l, same_kv d l -> Forall portable cs -> badger_run d cs = leveldb_run l cs.
Proof.
  induction cs as [|c cs IH]; intros d l H P; [reflexivity|]. inversion P as [|? ? P1 P2]. subst. cbn [badger_run leveldb_run].
  destruct (agree_step d l c H P1) as [E1 E2]. destruct (badger_do d c) as [d' r], (leveldb_do l c) as [l' r']. cbn [fst snd] in *.
  subst r'. f_equal. apply IH; assumption.
Qed.

(** ** write batches *)
Definition wkey (o : wop) : bytes := match o with WSet k _ | WDel k => k end.
(** value a batch leaves under a key: that of the last operation on it *)
Fixpoint batch_get (ops : list wop) (k : bytes) (before : option ent) : option ent :=
  match ops with
  | [] => before
  | o :: ops' => batch_get ops' k (if bytes_eqb k (wkey o) then match o with WSet _ v => Some (mk v) | WDel _ => None end else before)
  end.
Definition pend_get (d : db) (t : txn) (k : bytes) : option ent :=
  match get (t_pend t) k with Some o => o | None => get (d_kv d) k end.
Definition wo_val (o : wop) : option ent := match o with WSet _ v => Some (mk v) | WDel _ => None end.
Lemma wb_modify_eq o : wb_modify o = modify (wkey o) (wo_val o).
Proof. destruct o; reflexivity. Qed.
Lemma modify_pend_get d k o t t' r : modify k o t = (t', r) ->
  forall j, pend_get d t' j = match r with Ok _ => if bytes_eqb j k then o else pend_get d t j | _ => pend_get d t j end.
Proof.
  intros H j. destruct (modify_pend _ _ _ _ _ H) as [P _]. unfold pend_get. rewrite P. destruct r; try reflexivity.
  destruct (bytes_eqb j k); reflexivity.
Qed.
Lemma wb_op_get d t o lim io d' t' : wb_op d t o lim io = (d', t', Ok tt) ->
  forall j, pend_get d' t' j = if bytes_eqb j (wkey o) then wo_val o else pend_get d t j.
Proof.
  unfold wb_op. rewrite wb_modify_eq. destruct (modify (wkey o) (wo_val o) t) as [t1 r] eqn:E.
  pose proof (modify_pend_get d _ _ _ _ _ E) as P.
  assert (T : forall x y, (match r with Err EBTooBig => x | _ => y end) = (d', t', Ok tt) -> (r = Err EBTooBig /\ x = (d', t', Ok tt)) \/ (r <> Err EBTooBig /\ y = (d', t', Ok tt))).
  { intros x y H. destruct r as [|[]|]; try (right; split; [discriminate | exact H]). left. split; [reflexivity | exact H]. }
  intros H. apply T in H. destruct H as [[-> H]|[N H]].
  - destruct (commit d t1 io) as [[d2 t2] r2] eqn:C. destruct r2; try discriminate.
    destruct (commit_cases _ _ _ _ _ _ C) as [(_ & C2 & _)|[C1 _]]; [|destruct a; congruence].
    destruct (modify (wkey o) (wo_val o) (new_txn d2 true lim)) as [t3 r3] eqn:E3. inversion H. subst.
    intros j. rewrite (modify_pend_get d' _ _ _ _ _ E3). destruct (bytes_eqb j (wkey o)); [reflexivity|].
    change (pend_get d' (new_txn d' true lim) j) with (get (d_kv d') j). rewrite C2. apply P.
  - inversion H. subst. intros j. apply P.
Qed.
Lemma wb_run_get ops : forall d t d' t', wb_run d t ops = (d', t', Ok tt) ->
  forall k, pend_get d' t' k = batch_get (map (fun x => fst (fst x)) ops) k (pend_get d t k).
Proof.
  induction ops as [|[[o lim] io] ops IH]; intros d t d' t' H k; cbn [wb_run] in H.
  - inversion H. reflexivity.
  - destruct (wb_op d t o lim io) as [[d1 t1] r1] eqn:E. destruct r1 as [[]|e|]; try discriminate.
    cbn [map fst batch_get]. rewrite (IH _ _ _ _ H k). rewrite (wb_op_get _ _ _ _ _ _ _ E). reflexivity.
Qed.
