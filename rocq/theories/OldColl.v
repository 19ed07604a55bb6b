(** Model of the document operations of the older document package, /repo/document/collection.go.
    A document is represented by the bytes bson.Marshal produced (as in Dml.v); the outcome of bson.Marshal and
    bson.Unmarshal is not modelled. *)
From Verif Require Import Bytes SMap Memcmp MemcmpProofs KeyModel Provider ProviderProofs World UtilTxn Sequence SequenceProofs OldSequence DocKeys OldDoc Dml DmlProofs.

(** document/collection.go:100-109 *)
Definition ErrDocIDExists := ENamed (str "document withe specified id exists").
(** updateFunc, 149-175: (existsForUpdate, isNewForUpsert) *)
Definition old_update (md : umode) (cid did : Z) (data : bytes) : Tx (bool * bool) :=
  let k := docKey cid did in
  ex <- texists k ;;
  match md with
  | ForUpdate => if ex then tset k data ;;; ret (ex, false) else ret (ex, false)
  | ForUpsert => tset k data ;;; ret (ex, negb ex)
  | ForInsert => if ex then fail ErrDocIDExists else tset k data ;;; ret (ex, false)
  end.
(** the exported methods. [PInsertAs did]: InsertOne (60-98) once the sequence gave [did] *)
Inductive oldop :=
| PUpdate (did : Z) (data : bytes) | PUpsert (did : Z) (data : bytes) | PManaged (did : Z) (data : bytes) | PInsertAs (did : Z) (data : bytes)
| PDelete (did : Z) | PGet (did : Z) | PGetMany (dids : list Z) | PCount | PDeleteAll.
Inductive oldval := PvUnit | PvId (did : Z) | PvBool (b : bool) | PvDoc (v : bytes) | PvDocs (l : list bytes) (e : option err) | PvNum (n : nat).
(** UpdateOne 118-121, UpsertOne 187-190, InsertOneManaged 112-115, DeleteOne 193-221, GetOne 224-253 and GetMany
    330-368 (the statements of dml's GetOne and GetMany), Count 256-280, deleteAllWithTxn 310-327 (as dml's) *)
Definition old_tx (cid : Z) (o : oldop) : Tx oldval :=
  match o with
  | PUpdate did v => r <- old_update ForUpdate cid did v ;; ret (PvBool (fst r))
  | PUpsert did v => r <- old_update ForUpsert cid did v ;; ret (PvBool (snd r))
  | PManaged did v => old_update ForInsert cid did v ;;; ret PvUnit
  | PInsertAs did v => tset (docKey cid did) v ;;; ret (PvId did)
  | PDelete did => tdel (docKey cid did) ;;; ret PvUnit
  | PGet did => v <- doc_get cid did ;; ret (PvDoc v)
  | PGetMany dids => r <- doc_getmany cid dids [] ;; ret (PvDocs (fst r) (snd r))
  | PCount => n <- doc_count cid ;; ret (PvNum n)
  | PDeleteAll => n <- doc_deleteall cid ;; ret (PvNum n)
  end.
Inductive how := HUpdate | HView.
(** the transaction an operation without one of the caller's runs in: DeleteAll (300-306) uses RunInNewTxn, which is
    read-only (util.go:84-91) *)
Definition own_txn (o : oldop) : how :=
  match o with
  | PUpdate _ _ | PUpsert _ _ | PManaged _ _ | PInsertAs _ _ | PDelete _ => HUpdate
  | PGet _ | PGetMany _ | PCount | PDeleteAll => HView
  end.
(** the prologue of every method, e.g. 67-75, db.go:114-126. closer.Add failing after checkState passed is not modelled. *)
Inductive dbstate := SOpen | SClosing | SClosed.
Definition checkState (s : dbstate) : option err := match s with SOpen => None | SClosing => Some ErrAlreadyClosing | SClosed => Some ErrAlreadyClosed end.
Definition old_auto (s : dbstate) (d0 d1 : db) (lim : list bool) (io : bool) (cid : Z) (o : oldop) : db * result oldval :=
  match checkState s with
  | Some e => (d1, Err e)
  | None => match own_txn o with HUpdate => run_update d0 d1 (old_tx cid o) lim io | HView => (d1, run_view d0 (old_tx cid o)) end
  end.
Definition old_in (s : dbstate) (cid : Z) (o : oldop) : Tx oldval :=
  match checkState s with Some e => fail e | None => old_tx cid o end.

(** * Specification *)
(** on a collection seen as a finite map, in a transaction that may write ([upd]) or not *)
Definition old_sem (upd : bool) (m : zmap) (o : oldop) : result oldval * zmap :=
  let wr (r : oldval) (m' : zmap) := if upd then (Ok r, m') else (Err EReadOnlyTxn, m) in
  match o with
  | PUpdate k v => if has m k then wr (PvBool true) (zset m k v) else (Ok (PvBool false), m)
  | PUpsert k v => wr (PvBool (negb (has m k))) (zset m k v)
  | PManaged k v => if has m k then (Err ErrDocIDExists, m) else wr PvUnit (zset m k v)
  | PInsertAs k v => wr (PvId k) (zset m k v)
  | PDelete k => wr PvUnit (zdel m k)
  | PGet k => (match zget m k with Some v => Ok (PvDoc v) | None => Err ErrDocNotFound end, m)
  | PGetMany ks => (Ok (PvDocs (fst (zgetmany m ks)) (snd (zgetmany m ks))), m)
  | PCount => (Ok (PvNum (length m)), m)
  | PDeleteAll => match m with [] => (Ok (PvNum 0), m) | _ => wr (PvNum (length m)) [] end
  end.
Definition old_ids (o : oldop) : list Z :=
  match o with PUpdate d _ | PUpsert d _ | PManaged d _ | PInsertAs d _ | PDelete d | PGet d => [d] | PGetMany l => l | _ => [] end.

(** * Proofs *)
Definition okx (upd : bool) (t : txn) : Prop := t_open t = true /\ t_upd t = upd /\ (upd = true -> t_lim t = []).
Lemma okx_okt upd t : okx upd t -> okt upd t.
Proof. intros (O & U & L). split; [exact O|]. intros ->. auto. Qed.
Lemma okx_keeps upd t t' : okx upd t -> okt upd t' -> keeps t t' -> okx upd t'.
Proof. intros (O & U & L) (O' & L') (_ & _ & _ & K & _). split; [exact O'|]. split; [congruence|]. intros E. apply L'. exact E. Qed.
Lemma okx_new d upd : okx upd (new_txn d upd []).
Proof. split; [reflexivity|]. split; reflexivity. Qed.
Lemma old_update_ro md c did v M D t : rep M D -> is_i64 c -> is_i64 did -> okx false t -> view t = M ->
  exists t', okx false t' /\ view t' = M /\ keeps t t' /\
    old_update md c did v t = (t', match md, has (D c) did with ForUpdate, false => Ok (false, false) | ForInsert, true => Err ErrDocIDExists | _, _ => Err EReadOnlyTxn end).
Proof.
  intros R Hc Hd O V. destruct (spec_exists false M D c did R Hc Hd t (okx_okt _ _ O) V) as (t' & E & O' & V' & K'). exists t'.
  assert (X := okx_keeps _ _ _ O O' K'). split; [exact X|]. split; [exact V'|]. split; [exact K'|].
  unfold old_update. cbv zeta. unfold bind at 1. rewrite E. destruct X as (_ & U & _).
  assert (TS : forall A (b : A), (tset (docKey c did) v ;;; ret b) t' = (t', Err EReadOnlyTxn)).
  { intros A b. unfold bind, tset, tsetm, map_err, modify. rewrite U. reflexivity. }
  destruct md, (has (D c) did); try apply TS; reflexivity.
Qed.
Lemma old_spec upd M D c o t : rep M D -> is_i64 c -> Forall is_i64 (old_ids o) -> okx upd t -> view t = M ->
  exists t', old_tx c o t = (t', fst (old_sem upd (D c) o)) /\ okx upd t' /\ keeps t t' /\ rep (view t') (dupd D c (snd (old_sem upd (D c) o))).
Proof.
  intros R Hc F O V. pose proof (rep_same M D c R) as R0.
  assert (GO : forall (o' : docop) (f : docval -> oldval), Forall is_i64 (op_ids o') -> o' <> ORange -> (op_writes o' = true -> upd = true) ->
     (forall t0, old_tx c o t0 = (let '(t1, r) := op_tx c o' t0 in (t1, match r with Ok x => Ok (f x) | Err e => Err e | Panic => Panic end))) ->
     (match fst (doc_spec (D c) o') with Ok x => Ok (f x) | Err e => Err e | Panic => Panic end, snd (doc_spec (D c) o')) = old_sem upd (D c) o ->
     exists t', old_tx c o t = (t', fst (old_sem upd (D c) o)) /\ okx upd t' /\ keeps t t' /\ rep (view t') (dupd D c (snd (old_sem upd (D c) o)))).
  { intros o' f Fo N W E Es. destruct (op_spec upd M D c o' R Hc Fo N W) as (M' & Sp & R' & _). destruct (Sp t (okx_okt _ _ O) V) as (t' & E' & O' & V' & K').
    exists t'. rewrite E, E', <- Es. cbn [fst snd]. split; [reflexivity|]. split; [eapply okx_keeps; eassumption|]. split; [exact K'|]. rewrite V'. exact R'. }
  assert (RW : forall w M', spec true (old_tx c o) M w M' -> upd = true -> w = fst (old_sem true (D c) o) -> rep M' (dupd D c (snd (old_sem true (D c) o))) ->
     exists t', old_tx c o t = (t', fst (old_sem upd (D c) o)) /\ okx upd t' /\ keeps t t' /\ rep (view t') (dupd D c (snd (old_sem upd (D c) o)))).
  { intros w M' Sp -> -> R'. destruct (Sp t (okx_okt _ _ O) V) as (t' & E' & O' & V' & K'). exists t'. split; [exact E'|]. split; [eapply okx_keeps; eassumption|]. split; [exact K'|]. rewrite V'. exact R'. }
  assert (RO : forall t' r, upd = false -> old_tx c o t = (t', r) -> okx false t' -> view t' = M -> keeps t t' -> (r, D c) = old_sem false (D c) o ->
     exists t', old_tx c o t = (t', fst (old_sem upd (D c) o)) /\ okx upd t' /\ keeps t t' /\ rep (view t') (dupd D c (snd (old_sem upd (D c) o)))).
  { intros t' r -> E O' V' K' Es. exists t'. rewrite <- Es. cbn [fst snd]. split; [exact E|]. split; [exact O'|]. split; [exact K'|]. rewrite V'. exact R0. }
  assert (ROW : forall A (m : Tx unit) (b : A), upd = false -> (forall t0, t_upd t0 = false -> m t0 = (t0, Err EReadOnlyTxn)) -> (m ;;; ret b) t = (t, Err EReadOnlyTxn)).
  { intros A m b -> H. unfold bind. rewrite H; [reflexivity | apply O]. }
  assert (TW : forall k v t0, t_upd t0 = false -> tset k v t0 = (t0, Err EReadOnlyTxn)) by (intros k v t0 U; unfold tset, tsetm, map_err, modify; rewrite U; reflexivity).
  assert (TD : forall k t0, t_upd t0 = false -> tdel k t0 = (t0, Err EReadOnlyTxn)) by (intros k t0 U; unfold tdel, map_err, modify; rewrite U; reflexivity).
  destruct o as [did v|did v|did v|did v|did|did|dids| |]; cbn [old_ids] in F; try (assert (Hd : is_i64 did) by (inversion F; assumption)).
  - destruct upd.
    + apply (GO (OUpdate did v) (fun x => match x with VBool b => PvBool b | _ => PvUnit end)); [exact F | discriminate | reflexivity | |].
      * intros t0. cbn [old_tx op_tx]. change (doc_update ForUpdate) with (old_update ForUpdate). unfold bind. destruct (old_update ForUpdate c did v t0) as [t1 [x|e|]]; reflexivity.
      * cbn [doc_spec fst snd old_sem]. destruct (has (D c) did); reflexivity.
    + destruct (old_update_ro ForUpdate c did v M D t R Hc Hd O V) as (t' & O' & V' & K' & E').
      destruct (has (D c) did) eqn:H; (eapply RO; [reflexivity | | exact O' | exact V' | exact K' |]; [cbn [old_tx]; unfold bind; rewrite E'; reflexivity|]; cbn [old_sem]; rewrite ?H; reflexivity).
  - destruct upd.
    + apply (GO (OUpsert did v) (fun x => match x with VBool b => PvBool b | _ => PvUnit end)); [exact F | discriminate | reflexivity | |].
      * intros t0. cbn [old_tx op_tx]. change (doc_update ForUpsert) with (old_update ForUpsert). unfold bind. destruct (old_update ForUpsert c did v t0) as [t1 [x|e|]]; reflexivity.
      * reflexivity.
    + destruct (old_update_ro ForUpsert c did v M D t R Hc Hd O V) as (t' & O' & V' & K' & E').
      destruct (has (D c) did) eqn:H; (eapply RO; [reflexivity | | exact O' | exact V' | exact K' |]; [cbn [old_tx]; unfold bind; rewrite E'; reflexivity|]; cbn [old_sem]; rewrite ?H; reflexivity).
  - destruct upd.
    + destruct (has (D c) did) eqn:H.
      * eapply (RW (Err ErrDocIDExists) M); [|reflexivity | cbn [old_sem]; rewrite H; reflexivity | cbn [old_sem]; rewrite H; exact R0].
        cbn [old_tx]. apply spec_bind_err. unfold old_update. eapply spec_bind; [apply (spec_exists _ M D c did R Hc Hd)|]. rewrite H. apply spec_fail.
      * eapply (RW (Ok PvUnit) (set M (docKey c did) (mk v))); [|reflexivity | cbn [old_sem]; rewrite H; reflexivity | cbn [old_sem]; rewrite H; apply (rep_set M D c did v R Hc Hd)].
        cbn [old_tx]. eapply spec_bind; [|apply spec_ret]. unfold old_update. eapply spec_bind; [apply (spec_exists _ M D c did R Hc Hd)|]. rewrite H. eapply spec_bind; [apply spec_tset, docKey_good | apply spec_ret].
    + destruct (old_update_ro ForInsert c did v M D t R Hc Hd O V) as (t' & O' & V' & K' & E').
      destruct (has (D c) did) eqn:H; (eapply RO; [reflexivity | | exact O' | exact V' | exact K' |]; [cbn [old_tx]; unfold bind; rewrite E'; reflexivity|]; cbn [old_sem]; rewrite ?H; reflexivity).
  - destruct upd.
    + eapply (RW (Ok (PvId did)) (set M (docKey c did) (mk v))); [|reflexivity | reflexivity | apply (rep_set M D c did v R Hc Hd)].
      cbn [old_tx]. eapply spec_bind; [apply spec_tset, docKey_good | apply spec_ret].
    + eapply RO; [reflexivity | cbn [old_tx]; apply ROW; [reflexivity | apply TW] | exact O | exact V | apply keeps_refl | reflexivity].
  - destruct upd.
    + eapply (RW (Ok PvUnit) (del M (docKey c did))); [|reflexivity | reflexivity | apply (rep_del M D c did R Hc Hd)].
      cbn [old_tx]. eapply spec_bind; [apply spec_tdel, docKey_good | apply spec_ret].
    + eapply RO; [reflexivity | cbn [old_tx]; apply ROW; [reflexivity | apply TD] | exact O | exact V | apply keeps_refl | reflexivity].
  - apply (GO (OGet did) (fun x => match x with VDoc b => PvDoc b | _ => PvUnit end)); [exact F | discriminate | discriminate | |].
    + intros t0. cbn [old_tx op_tx]. unfold bind. destruct (doc_get c did t0) as [t1 [x|e|]]; reflexivity.
    + cbn [doc_spec fst snd old_sem]. destruct (zget (D c) did); reflexivity.
  - apply (GO (OGetMany dids) (fun x => match x with VDocs l e => PvDocs l e | _ => PvUnit end)); [exact F | discriminate | discriminate | |].
    + intros t0. cbn [old_tx op_tx]. unfold bind. destruct (doc_getmany c dids [] t0) as [t1 [x|e|]]; reflexivity.
    + cbn [doc_spec fst snd old_sem]. destruct (zgetmany (D c) dids); reflexivity.
  - apply (GO OCount (fun x => match x with VNum n => PvNum n | _ => PvUnit end)); [exact F | discriminate | discriminate | |].
    + intros t0. cbn [old_tx op_tx]. unfold bind. destruct (doc_count c t0) as [t1 [x|e|]]; reflexivity.
    + reflexivity.
  - destruct upd.
    + apply (GO ODeleteAll (fun x => match x with VNum n => PvNum n | _ => PvUnit end)); [exact F | discriminate | reflexivity | |].
      * intros t0. cbn [old_tx op_tx]. unfold bind. destruct (doc_deleteall c t0) as [t1 [x|e|]]; reflexivity.
      * cbn [doc_spec fst snd old_sem]. destruct (D c); reflexivity.
    + cbn [old_tx]. unfold doc_deleteall.
      destruct (D c) as [|[d1 v1] m] eqn:ED.
      * assert (S : spec false (tscan (ScanOpt false (docPrefix c) []) del_cb (0%nat, @None err)) M (Ok (0%nat, None)) M).
        { eapply spec_tscan; [apply scan_prefix|]. rewrite (rep_entries M D c R Hc), ED. apply spec_ret. }
        destruct (S t (okx_okt _ _ O) V) as (t' & E' & O' & V' & K'). exists t'. split; [|split; [eapply okx_keeps; eassumption|]; split; [exact K'|]; rewrite V'; cbn [old_sem snd]; exact R0].
        unfold bind. unfold del_cb in E'. rewrite E'. reflexivity.
      * assert (E' : exists t', tscan (ScanOpt false (docPrefix c) []) del_cb (0%nat, @None err) t = (t', Ok (0%nat, Some EReadOnlyTxn)) /\ okx false t' /\ keeps t t' /\ view t' = M).
        { unfold tscan. destruct O as (O1 & O2 & O3). rewrite O1. cbn [negb]. rewrite scan_prefix, V, (rep_entries M D c R Hc), ED. cbn [map doc_entry fst snd scan_loop].
          exists (add_read (docKey c d1) t). unfold bind at 1. unfold del_cb at 1, try, tdel, map_err, modify.
          replace (t_upd (add_read (docKey c d1) t)) with false by (unfold add_read; rewrite O2; symmetry; exact O2). cbn [negb too_big fst snd ret]. 
          split; [reflexivity|]. split; [|split; [apply keeps_add_read | rewrite view_add_read; exact V]]. unfold add_read. rewrite O2. split; [exact O1|]. split; [exact O2 | exact O3]. }
        destruct E' as (t' & E' & O' & K' & V'). exists t'. split; [|split; [exact O'|]; split; [exact K'|]; rewrite V'; cbn [old_sem snd]; exact R0].
        unfold bind. unfold del_cb in E'. rewrite E'. reflexivity.
Qed.
