(** Proofs for C89. *)
From Verif Require Import Bytes SMap Provider ProviderProofs World Memcmp MemcmpProofs Numeric KvUtil KeyModel Struct
  StructProofs StructHash StructList UtilTxn Sequence SequenceProofs Model Meta MetaSpec MetaProofs MetaOps MetaRun Ddl DdlSpec DdlProofs DdlWorker DdlSys DdlMore.
From Verif Require SerialProofs DocSerialProofs StructSerialProofs.
From Verif Require Import DdlSerial.
From Coq Require Import Sorted Permutation.

Local Notation P := MetaPrefix.
Notation alike := SerialProofs.alike.
Notation eternal := SerialProofs.eternal.
Notation steady := DocSerialProofs.steady.
Notation quiet := DocSerialProofs.quiet.
Notation grows := DocSerialProofs.grows.
Notation mono := DocSerialProofs.mono.
Notation tl := DocSerialProofs.tl.

(** * Computations that give the same answers on two transactions agreeing on what the first one reads and on [Q] *)
Definition settled (Q : bytes -> Prop) {A} (m : Tx A) : Prop := forall t1 t1' r, m t1 = (t1', r) -> t_upd t1 = true ->
  mono t1 t1' /\
  forall t2, alike t1 t2 -> tl t1 t2 -> (forall k, In k (t_reads t1') \/ Q k -> get (t_snap t1) k = get (t_snap t2) k) ->
  exists t2', m t2 = (t2', r) /\ alike t1' t2' /\ tl t1' t2' /\ keeps t2 t2'.
Section Settled.
Variable Q : bytes -> Prop.
Lemma settled_steady {A} (m : Tx A) : steady m -> settled Q m.
Proof. intros S t1 t1' r E U. destruct (S _ _ _ E U) as [M G]. split; [exact M|]. intros t2 A2 T R. apply G; auto. Qed.
Lemma settled_recovering {A B} (m : Tx A) (k : result A -> Tx B) : settled Q m -> (forall r, settled Q (k r)) -> settled Q (recovering m k).
Proof.
  intros S1 S2 t1 t1' r E U. unfold recovering in *. destruct (m t1) as [ta ra] eqn:Ea. destruct (S1 _ _ _ Ea U) as [Ma Ga].
  assert (Ua : t_upd ta = true) by (destruct Ma as [(_ & _ & _ & X & _) _]; congruence).
  destruct (S2 _ _ _ _ E Ua) as [Mb Gb]. split; [eapply DocSerialProofs.mono_trans; eassumption|]. intros t2 A2 T R.
  destruct (Ga t2 A2 T) as (t2' & -> & A3 & T3 & K3); [intros j Hj; apply R; destruct Mb as (_ & _ & X); destruct Hj; auto|].
  destruct (Gb t2' A3 T3) as (t3 & -> & A4 & T4 & K4); [intros j Hj; destruct Ma as [(-> & _) _]; destruct K3 as (-> & _); apply R, Hj|].
  exists t3. eauto using keeps_trans.
Qed.
Lemma settled_const {A} (r : result A) : settled Q (fun t => (t, r)).
Proof. apply settled_steady, DocSerialProofs.steady_const. Qed.
Lemma settled_ext {A} (m m' : Tx A) : (forall t, m t = m' t) -> settled Q m -> settled Q m'.
Proof.
  intros X S t1 t1' r E U. rewrite <- X in E. destruct (S _ _ _ E U) as [M G]. split; [exact M|]. intros t2 A2 T R.
  destruct (G t2 A2 T R) as (t2' & E2 & Y). rewrite X in E2. eauto.
Qed.
Lemma settled_try {A B} (m : Tx A) (k : result A -> Tx B) : settled Q m -> (forall r, settled Q (k r)) -> settled Q (try m k).
Proof.
  intros S1 S2. apply (settled_ext (recovering m (fun r => match r with Panic => gopanic | _ => k r end))).
  - intros t. unfold recovering, try, gopanic. destruct (m t) as [t' [a|e|]]; reflexivity.
  - apply settled_recovering; [exact S1|]. intros [a|e|]; [apply S2 | apply S2 | apply settled_const].
Qed.
Lemma settled_bind {A B} (m : Tx A) (k : A -> Tx B) : settled Q m -> (forall a, settled Q (k a)) -> settled Q (bind m k).
Proof.
  intros S1 S2. apply (settled_ext (recovering m (fun r => match r with Ok a => k a | Err e => fail e | Panic => gopanic end))).
  - intros t. unfold recovering, bind, gopanic. destruct (m t) as [t' [a|e|]]; reflexivity.
  - apply settled_recovering; [exact S1|]. intros [a|e|]; [apply S2 | apply settled_const | apply settled_const].
Qed.
(** a forward scan of a prefix whose keys are all in [Q] *)
Lemma settled_scan {T} p (fn : bytes -> ent -> T -> Tx (T * bool)) s : (forall k, has_prefix k p = true -> Q k) -> (forall k e s, steady (fn k e s)) ->
  settled Q (tscan (ScanOpt false p []) fn s).
Proof.
  intros HQ F t1 t1' r E U. unfold tscan in *. destruct (t_open t1) eqn:O; cbn [negb] in E.
  2:{ inversion E. subst. split; [apply DocSerialProofs.mono_refl|]. intros t2 A2 T0 R. exists t2.
      destruct A2 as (X1 & X2 & X3 & X4). rewrite <- X2, O. cbn [negb]. split; [reflexivity|]. split; [repeat split; congruence|]. split; [exact T0 | apply keeps_refl]. }
  destruct (StructSerialProofs.steady_loop fn F _ s _ _ _ E U) as [M G]. split; [exact M|]. intros t2 A2 T0 R.
  assert (X : scan_items (t_clamp t2) (view t2) (ScanOpt false p []) = scan_items (t_clamp t1) (view t1) (ScanOpt false p [])).
  { rewrite (scan_prefix (view t2) p (t_clamp t2)), (scan_prefix (view t1) p (t_clamp t1)). apply sorted_ext; try (apply sorted_filter, sm_ok).
    intros k e. rewrite !filter_In. cbn [fst]. split; intros [Hk Hp]; (split; [|exact Hp]); apply get_in in Hk; apply get_in; rewrite <- Hk.
    - apply (SerialProofs.view_alike _ _ _ (CDel []) []); [exact A2 | | intros _; apply R; right; apply HQ, Hp].
      destruct T0 as (X1 & X2 & X3). right. split; [repeat constructor|]. auto.
    - symmetry. apply (SerialProofs.view_alike _ _ _ (CDel []) []); [exact A2 | | intros _; apply R; right; apply HQ, Hp].
      destruct T0 as (X1 & X2 & X3). right. split; [repeat constructor|]. auto. }
  rewrite X. pose proof A2 as (_ & X2 & _). rewrite <- X2, O. cbn [negb]. apply G; auto.
Qed.
End Settled.

(** * The metadata operations *)
Definition in_dbs (k : bytes) : Prop := has_prefix k (hashDataKeyPrefix P dbsKey) = true.
Ltac sconst := apply DocSerialProofs.steady_const.
Ltac dres r := destruct r as [?|[]|].
Lemma steady_decode {A} (c : jcodec A) b : steady (decode c b).
Proof. unfold decode. destruct (jdec c b); sconst. Qed.
Lemma steady_decode_all {A} (c : jcodec A) l : steady (decode_all c l).
Proof.
  induction l as [|b l IH]; cbn [decode_all]; [sconst|]. apply DocSerialProofs.steady_bind; [apply steady_decode|]. intros a.
  apply DocSerialProofs.steady_bind; [exact IH | intros; sconst].
Qed.
Lemma steady_optional {A} (m : Tx bytes) (c : jcodec A) : steady m -> steady (optional m c).
Proof.
  intros S. unfold optional. apply DocSerialProofs.steady_try; [exact S|]. intros r. dres r; try sconst.
  apply DocSerialProofs.steady_bind; [apply steady_decode | intros; sconst].
Qed.
Lemma steady_must m e : steady m -> steady (must_exist m e).
Proof. intros S. unfold must_exist. apply DocSerialProofs.steady_try; [exact S|]. intros r. dres r; sconst. Qed.
Lemma steady_must_not m e : steady m -> steady (must_not_exist m e).
Proof. intros S. unfold must_not_exist. apply DocSerialProofs.steady_try; [exact S|]. intros r. dres r; sconst. Qed.
Lemma steady_hget k f : steady (HGet P k f).
Proof. apply DocSerialProofs.steady_get. Qed.
Lemma steady_hset k f v : steady (HSet P k f v).
Proof. apply StructSerialProofs.steady_updateHash. Qed.
Lemma steady_lindex k i : steady (LIndex P k i).
Proof.
  unfold LIndex. apply DocSerialProofs.steady_bind; [apply StructSerialProofs.steady_loadList|]. intros m. cbn zeta.
  destruct (_ && _); [apply DocSerialProofs.steady_get | sconst].
Qed.
Lemma steady_lset k i v : steady (LSet P k i v).
Proof.
  unfold LSet. apply DocSerialProofs.steady_bind; [apply StructSerialProofs.steady_loadList|]. intros m. cbn zeta.
  destruct (_ && _); [apply DocSerialProofs.steady_set | sconst].
Qed.
Lemma steady_llen k : steady (LLen P k).
Proof. unfold LLen. apply DocSerialProofs.steady_try; [apply StructSerialProofs.steady_loadList|]. intros r. dres r; sconst. Qed.
Lemma steady_sinc k n : steady (SInc P k n).
Proof.
  unfold SInc, IncInt64. apply DocSerialProofs.steady_try; [apply DocSerialProofs.steady_get|]. intros r. dres r; try sconst.
  - apply DocSerialProofs.steady_bind; [apply StructSerialProofs.steady_parse|]. StructSerialProofs.stdy.
  - StructSerialProofs.stdy.
Qed.
Section WithJson.
Variable J : json.
Hypothesis JO : json_ok J.
Lemma steady_head : steady (GetDDLJobByIdx J DefaultJobList 0).
Proof. apply steady_optional, steady_lindex. Qed.
Lemma steady_enqueue j : steady (EnQueueDDLJob J DefaultJobList j).
Proof. apply StructSerialProofs.steady_listpush. Qed.
Lemma steady_gids n : steady (GenGlobalIDs n).
Proof. apply DocSerialProofs.steady_bind; [apply steady_sinc | intros; sconst]. Qed.
Lemma steady_update_job j : steady (UpdateDDLJob J DefaultJobList 0 j).
Proof. unfold UpdateDDLJob. apply DocSerialProofs.steady_try; [apply steady_lset|]. intros r. dres r; sconst. Qed.
Lemma steady_finish j : steady (finishJob J j).
Proof.
  unfold finishJob. apply DocSerialProofs.steady_bind; [apply steady_optional, StructSerialProofs.steady_pop|]. intros _. apply steady_hset.
Qed.
Lemma steady_version j cids : steady (updateSchemaVersion J j cids).
Proof.
  unfold updateSchemaVersion. apply DocSerialProofs.steady_bind; [apply steady_sinc|]. intros v.
  apply DocSerialProofs.steady_bind; [apply DocSerialProofs.steady_set | intros; sconst].
Qed.
Lemma steady_create_db d : steady (CreateDatabase J d).
Proof. apply DocSerialProofs.steady_bind; [apply steady_must_not, steady_hget | intros; apply steady_hset]. Qed.
Lemma steady_update_db d : steady (UpdateDatabase J d).
Proof. apply DocSerialProofs.steady_bind; [apply steady_must, steady_hget | intros; apply steady_hset]. Qed.
Lemma steady_create_all id l : steady (create_all J id l).
Proof.
  induction l as [|c l IH]; cbn [create_all]; [sconst|]. apply DocSerialProofs.steady_bind; [|intros; exact IH].
  apply DocSerialProofs.steady_bind; [apply steady_must, steady_hget|]. intros _. apply DocSerialProofs.steady_bind; [apply steady_must_not, steady_hget | intros; apply steady_hset].
Qed.
Lemma steady_update_coll id c : steady (UpdateCollection J id c).
Proof.
  apply DocSerialProofs.steady_bind; [apply steady_must, steady_hget|]. intros _. apply DocSerialProofs.steady_bind; [apply steady_must, steady_hget | intros; apply steady_hset].
Qed.
Lemma settled_list : settled in_dbs (ListDatabases J).
Proof.
  unfold ListDatabases, HGetAll. apply settled_bind; [apply settled_bind|].
  - unfold iterateHash. apply settled_scan; [intros k H; exact H|]. intros k e s. unfold iter_cb. destruct (negb _); [sconst|].
    destruct (decodeHashDataKey P k) as [[a f]|x|]; sconst.
  - intros a. unfold finish. destruct (snd a); apply settled_const.
  - intros a. apply settled_steady, steady_decode_all.
Qed.
Lemma settled_getdb name : settled in_dbs (getDbInfo J name).
Proof. unfold getDbInfo. apply settled_bind; [apply settled_list | intros; apply settled_const]. Qed.
Lemma settled_check name : settled in_dbs (checkDBNameNotExists J name).
Proof. unfold checkDBNameNotExists. apply settled_bind; [apply settled_getdb|]. intros [d|]; apply settled_const. Qed.
Lemma settled_lift {A} (r : result A) : settled in_dbs (lift_r r).
Proof. destruct r; apply settled_const. Qed.
Ltac st := apply settled_steady.
Lemma settled_create o j : settled in_dbs (onCreateSchema J o j).
Proof.
  unfold onCreateSchema. destruct (j_arg j) as [d|i|]; try apply settled_const. apply settled_bind; [apply settled_check|]. intros x. destruct x; [apply settled_const|]. cbn zeta.
  apply settled_bind; [st; apply steady_create_db|]. intros _. apply settled_bind; [st; apply steady_create_all|]. intros _.
  apply settled_bind; [st; apply steady_version | intros; apply settled_const].
Qed.
Lemma settled_colver j cid d key c : settled in_dbs (updateCollectionAndVersion J j cid d key c).
Proof.
  unfold updateCollectionAndVersion. apply settled_bind; [st; apply steady_update_coll|]. intros _. destruct (UpdateCollectionInfo _ _); [|apply settled_const].
  apply settled_bind; [st; apply steady_update_db | intros; st; apply steady_version].
Qed.
Lemma settled_index j : settled in_dbs (onAddIndex J j).
Proof.
  unfold onAddIndex. destruct (j_arg j) as [d|i|]; try apply settled_const. destruct (ii_red i) as [rd|]; [|apply settled_const].
  apply settled_bind; [apply settled_getdb|]. intros [d|]; [|apply settled_const]. destruct (mget (di_colls d) (ir_collection rd)) as [c|]; [|apply settled_const]. cbn zeta.
  assert (MV : forall s, settled in_dbs (match mget (ci_indices c) (ii_name i) with
      | None => gopanic
      | Some x => match UpdateIndexInfo c (set_istate x s) with
                  | None => gopanic
                  | Some c' => updateCollectionAndVersion J j (ir_cid rd) d (ir_collection rd) c' ;;; ret (JOut (set_sstate j s) false false [])
                  end
      end)).
  { intros s. destruct (mget (ci_indices c) (ii_name i)); [|apply settled_const]. destruct (UpdateIndexInfo c _); [|apply settled_const].
    apply settled_bind; [apply settled_colver | intros; apply settled_const]. }
  destruct (j_sstate j); try apply settled_const; try apply MV.
  destruct (mget (ci_indices c) (ii_name i)); [apply settled_const|]. apply settled_bind; [apply settled_lift|]. intros [c'|]; [|apply settled_const].
  apply settled_bind; [apply settled_colver | intros; apply settled_const].
Qed.
Lemma settled_run o j : settled in_dbs (runJob J o j).
Proof.
  unfold runJob. destruct (IsFinished j); [apply settled_const|]. cbn zeta.
  assert (C : forall j1 m, settled in_dbs m -> settled in_dbs (caught j1 m)).
  { intros j1 m H. unfold caught. apply settled_try; [exact H|]. intros r. destruct r; apply settled_const. }
  destruct (_ =? _); [apply C, settled_create|]. destruct (_ =? _); [apply C, settled_index | apply settled_const].
Qed.
Lemma settled_ending v after m : steady m -> settled in_dbs (ending v after m).
Proof. intros S. unfold ending. apply settled_try; [st; exact S | intros; apply settled_const]. Qed.
Definition iter_rest (o : orders) (v : wvars) (r : result (option Job)) : Tx iout :=
  match r with
  | Err e => ret (IOut v false [] (Err e))
  | Panic => gopanic
  | Ok None => ret (IOut v true [] (Ok tt))
  | Ok (Some j) =>
      if IsDone j || IsRollbackDone j then
        ending v [] (finishJob J (if IsRollbackDone j then j else set_state j JSynced))
      else
        recovering (runJob J o j) (fun r =>
          let '(j1, v1, after) := match r with
                                  | Ok x => (jo_job x, WV (jo_fail x) (jo_err x), jo_after x)
                                  | _ => (set_state j JCancelling, v, [])
                                  end in
          let j2 := if v_err v1 then add_error j1 else j1 in
          ending v1 after
            (if v_err v1 && (v_fail v1 || (3 <=? j_errcount j2)) then finishJob J j2
             else if IsCancelled j2 then finishJob J j2
             else UpdateDDLJob J DefaultJobList 0 j2))
  end.
Lemma iter_body_eq o v : iter_body J o v = try (GetDDLJobByIdx J DefaultJobList 0) (iter_rest o v).
Proof. reflexivity. Qed.
Lemma settled_rest o v r : settled in_dbs (iter_rest o v r).
Proof.
  destruct r as [[j|]|e|]; cbn [iter_rest]; try apply settled_const. destruct (_ || _); [apply settled_ending, steady_finish|].
  apply settled_recovering; [apply settled_run|]. intros r. destruct (match r with Ok x => _ | _ => _ end) as [[j1 v1] after]. cbn zeta.
  apply settled_ending. destruct (_ && _); [apply steady_finish|]. destruct (IsCancelled _); [apply steady_finish | apply steady_update_job].
Qed.
Lemma settled_iter o v : settled in_dbs (iter_body J o v).
Proof. rewrite iter_body_eq. apply settled_try; [st; apply steady_head | apply settled_rest]. Qed.

(** * A transaction begun earlier, ended now *)
Definition old (d0 d : db) : Prop := tx_ok d (new_txn d0 true []) /\ eternal (d_kv d0).
Lemma old_new d : eternal (d_kv d) -> old d d.
Proof. intros E. split; [apply tx_ok_new | exact E]. Qed.
Lemma old_publish d0 d u : db_ok d -> old d0 d -> old d0 (publish d u).
Proof. intros K [A B]. split; [apply publish_ok; assumption | exact B]. Qed.
Lemma conflict_publish d u t : db_ok d -> tx_ok d t -> conflict d t = true -> conflict (publish d u) t = true.
Proof.
  intros K [L _] C. unfold conflict in *. apply existsb_exists in C. destruct C as (k & I & C). apply existsb_exists. exists k. split; [exact I|].
  cbn [publish d_last]. rewrite get_last_fold. destruct (existsb _ _); [apply Nat.ltb_lt; lia | exact C].
Qed.
Lemma settled_pend {Q A} (m : Tx A) d t r : settled Q m -> eternal (d_kv d) -> m (new_txn d true []) = (t, r) ->
  (forall k e, get (t_pend t) k = Some (Some e) -> e_exp e = 0) /\ mono (new_txn d true []) t.
Proof.
  intros S E H. destruct (S _ _ _ H eq_refl) as [M G]. split; [|exact M]. destruct (G (new_txn d true [])) as (t' & _ & _ & (_ & _ & T) & _).
  - repeat split.
  - split; [exact E|]. split; [exact E|]. intros k e X. discriminate X.
  - reflexivity.
  - exact T.
Qed.
Lemma old_tx {Q A} (m : Tx A) d0 d t r : settled Q m -> old d0 d -> m (new_txn d0 true []) = (t, r) -> tx_ok d t.
Proof.
  intros S [O E] H. destruct (settled_pend m d0 t r S E H) as [_ [(K1 & K2 & _) _]]. eapply DocSerialProofs.keeps_tx_ok; [| |exact O]; symmetry; [exact K1 | exact K2].
Qed.
(** without conflict, the same happens on the current database *)
Lemma settled_now {Q A} (m : Tx A) d0 d t r : settled Q m -> old d0 d -> eternal (d_kv d) -> m (new_txn d0 true []) = (t, r) -> conflict d t = false ->
  (forall k, Q k -> get (d_kv d) k = get (d_kv d0) k) -> exists t2, m (new_txn d true []) = (t2, r) /\ t_pend t2 = t_pend t /\ mono (new_txn d true []) t2.
Proof.
  intros S O E H C HQ. pose proof (old_tx m d0 d t r S O H) as TX. destruct O as [_ E0]. destruct (S _ _ _ H eq_refl) as [M G].
  destruct (G (new_txn d true [])) as (t2 & H2 & (_ & _ & _ & A2) & _).
  - repeat split.
  - split; [exact E0|]. split; [exact E|]. intros k e X. discriminate X.
  - intros k Hk. cbn [new_txn t_snap]. symmetry. destruct Hk as [Hk|Hk]; [|apply HQ; exact Hk].
    rewrite (conflict_free d t k TX C Hk). destruct M as [(K1 & _) _]. rewrite K1. reflexivity.
  - exists t2. split; [exact H2|]. split; [symmetry; exact A2|]. apply (settled_pend m d t2 r S E H2).
Qed.
Lemma commit_ended d t io : t_open t = true -> entries (t_pend t) <> [] ->
  commit d t io = if conflict d t then (d, close t, Err EConflict) else if io then (d, close t, Err EIO) else (publish d t, close t, Ok tt).
Proof. intros O N. unfold commit. rewrite O. cbn [negb]. destruct (entries (t_pend t)); [congruence | reflexivity]. Qed.
Lemma publish_pend d t t' : t_pend t = t_pend t' -> publish d t = publish d t'.
Proof. intros E. unfold publish. rewrite E. reflexivity. Qed.
Lemma commit_same d t t' io : db_ok d -> t_open t = true -> t_open t' = true -> t_pend t = t_pend t' -> conflict d t = false -> conflict d t' = false ->
  fst (fst (commit d t io)) = fst (fst (commit d t' io)) /\ snd (commit d t io) = snd (commit d t' io).
Proof.
  intros K O O' E C C'. unfold commit. rewrite O, O', C, C', E, (publish_pend d t t' E). cbn [negb]. destruct (entries (t_pend t')); [auto|]. destruct io; auto.
Qed.
(** an update transaction that committed something did it as if alone *)
Lemma update_now {A} (m : Tx A) d0 d io : steady m -> old d0 d -> eternal (d_kv d) -> db_ok d ->
  fst (run_update d0 d m [] io) = d \/ run_update d0 d m [] io = run_update d d m [] io.
Proof.
  intros S O E K. unfold run_update. destruct (m (new_txn d0 true [])) as [t [a|e|]] eqn:H; [|left; reflexivity | left; reflexivity].
  pose proof (settled_steady (fun _ => False) m S) as S'. destruct (settled_pend m d0 t _ S' (proj2 O) H) as [_ (K1 & K2 & _)]. cbn [new_txn t_open] in K2.
  destruct (entries (t_pend t)) eqn:N; [left; unfold commit; rewrite K2, N; reflexivity|].
  destruct (conflict d t) eqn:C; [left; unfold commit; rewrite K2, N, C; reflexivity|]. right.
  destruct (settled_now m d0 d t _ S' O E H C) as (t2 & H2 & P2 & ((L1 & L2 & _) & L3 & _)); [intros k []|]. rewrite H2. cbn [new_txn t_open t_rts] in L2, L3.
  destruct (commit_same d t t2 io K K2 L3 (eq_sym P2) C (no_conflict d t2 K L2)) as [X Y].
  destruct (commit d t io) as [[da ta] ra]. destruct (commit d t2 io) as [[db tb] rb]. cbn [fst snd] in X, Y. subst. reflexivity.
Qed.
Lemma update_eternal {Q A} (m : Tx A) d0 d io : settled Q m -> eternal (d_kv d0) -> eternal (d_kv d) ->
  eternal (d_kv (fst (run_update d0 d m [] io))) /\ (fst (run_update d0 d m [] io) = d \/ exists u, fst (run_update d0 d m [] io) = publish d u).
Proof.
  intros S E0 E. unfold run_update. destruct (m (new_txn d0 true [])) as [t [a|e|]] eqn:H; [|auto | auto].
  destruct (commit d t io) as [[d' t'] r] eqn:C. cbn [fst]. apply commit_next in C. destruct C as [->| ->]; [auto|]. split; [|eauto].
  apply SerialProofs.eternal_publish; [exact E|]. apply (settled_pend m d0 t _ S E0 H).
Qed.

(** * The head of the queue, and the databases, as stored *)
Definition head (d : db) : result (option Job) := snd (GetDDLJobByIdx J DefaultJobList 0 (new_txn d true [])).
Local Notation holds := (MetaRun.holds J).
Lemma head_of n d A j l : holds n d A -> n < two63 -> queue A = j :: l -> head d = jread (Some j).
Proof.
  intros (K & S & R & M) L Q. destruct (head_r J JO A j l Q S M true n _ R L (new_txn d true [])) as (t & E & _); [apply okt_new; reflexivity | apply view_new|].
  unfold head. rewrite E. reflexivity.
Qed.
Lemma dbs_same n n' d d' A A' k : holds n d A -> holds n' d' A' -> (forall i, m_db A' i = m_db A i) -> in_dbs k -> get (dview d') k = get (dview d) k.
Proof.
  intros (_ & S & R & M) (_ & S' & R' & M') E Hk. destruct R as [(Ls & W & _) _ On]. destruct R' as [(Ls' & W' & _) _ On'].
  destruct (mr_dbs J _ _ M) as [[G _] F]. destruct (mr_dbs J _ _ M') as [[G' _] F'].
  assert (X : s_hash S dbsKey = s_hash S' dbsKey).
  { apply smap_ext. intros f. destruct (get (s_hash S dbsKey) f) as [x|] eqn:Y.
    - destruct (F f x Y) as (i & Hi & ->). rewrite <- Y, G, G', E by exact Hi. reflexivity.
    - destruct (get (s_hash S' dbsKey) f) as [x|] eqn:Y'; [|reflexivity]. destruct (F' f x Y') as (i & Hi & ->). rewrite <- Y, <- Y', G, G', E by exact Hi. reflexivity. }
  pose proof (hash_entries P (dview d) S Ls dbsKey (conj W On)) as Z1. pose proof (hash_entries P (dview d') S' Ls' dbsKey (conj W' On')) as Z2. rewrite X, <- Z2 in Z1.
  assert (IFF : forall e, get (dview d) k = Some e <-> get (dview d') k = Some e).
  { intros e. rewrite !get_in. split; intros I.
    - assert (I' : In (k, e) (filter (fun p => has_prefix (fst p) (hashDataKeyPrefix P dbsKey)) (entries (dview d)))) by (apply filter_In; split; [exact I | exact Hk]).
      rewrite Z1 in I'. apply filter_In in I'. apply I'.
    - assert (I' : In (k, e) (filter (fun p => has_prefix (fst p) (hashDataKeyPrefix P dbsKey)) (entries (dview d')))) by (apply filter_In; split; [exact I | exact Hk]).
      rewrite <- Z1 in I'. apply filter_In in I'. apply I'. }
  destruct (get (dview d) k) as [e|]; [apply IFF; reflexivity|]. destruct (get (dview d') k) as [e|]; [|reflexivity]. symmetry. apply IFF. reflexivity.
Qed.

(** * Requests: the name check, made on the snapshot, left out *)
Definition covers {A} (full core : Tx A) : Prop := forall t1 t1' b, full t1 = (t1', Ok b) -> t_upd t1 = true ->
  mono t1 t1' /\
  forall t2, alike t1 t2 -> tl t1 t2 -> (forall k, In k (t_reads t1') -> get (t_snap t1) k = get (t_snap t2) k) ->
  exists t2', core t2 = (t2', Ok b) /\ alike t1' t2' /\ tl t1' t2' /\ keeps t2 t2'.
Definition passive {A} (m : Tx A) : Prop := forall t t' r, m t = (t', r) -> mono t t' /\ alike t t'.
Lemma alike_refl t : alike t t.
Proof. repeat split. Qed.
Lemma alike_sym t t' : alike t t' -> alike t' t.
Proof. intros (A & B & C & D). repeat split; congruence. Qed.
Lemma alike_trans a b c : alike a b -> alike b c -> alike a c.
Proof. intros (A & B & C & D) (A' & B' & C' & D'). repeat split; congruence. Qed.
Lemma passive_const {A} (r : result A) : passive (fun t => (t, r)).
Proof. intros t t' r' E. inversion E. subst. split; [apply DocSerialProofs.mono_refl | apply alike_refl]. Qed.
Lemma passive_bind {A B} (m : Tx A) (k : A -> Tx B) : passive m -> (forall a, passive (k a)) -> passive (bind m k).
Proof.
  intros P1 P2 t t' r E. unfold bind in E. destruct (m t) as [t1 r1] eqn:E1. destruct (P1 _ _ _ E1) as [M1 A1].
  destruct r1 as [a|e|]; [|inversion E; subst; auto | inversion E; subst; auto]. destruct (P2 _ _ _ _ E) as [M2 A2].
  split; [eapply DocSerialProofs.mono_trans; eassumption | eapply alike_trans; eassumption].
Qed.
Lemma passive_scan {T} o (fn : bytes -> ent -> T -> Tx (T * bool)) s : (forall k e s, passive (fn k e s)) -> passive (tscan o fn s).
Proof.
  intros F t t' r E. unfold tscan in E. destruct (negb (t_open t)); [inversion E; subst; split; [apply DocSerialProofs.mono_refl | apply alike_refl]|].
  remember (scan_items (t_clamp t) (view t) o) as l eqn:X. clear X. revert s t E. induction l as [|[k e] l IH]; intros s t E; cbn [scan_loop] in E.
  - inversion E. subst. split; [apply DocSerialProofs.mono_refl | apply alike_refl].
  - assert (AR : mono t (add_read k t) /\ alike t (add_read k t)).
    { split; [apply StructSerialProofs.add_read_mono|]. unfold add_read. destruct (t_upd t) eqn:U; repeat split; cbn; congruence. }
    destruct AR as [M0 A0]. unfold bind in E. destruct (fn k e s (add_read k t)) as [t1 r1] eqn:E1. destruct (F _ _ _ _ _ _ E1) as [M1 A1].
    assert (M2 : mono t t1) by (eapply DocSerialProofs.mono_trans; eassumption). assert (A2 : alike t t1) by (eapply alike_trans; eassumption).
    destruct r1 as [[s1 b]|x|]; [|inversion E; subst; auto | inversion E; subst; auto]. cbn [fst snd] in E. destruct b; [|inversion E; subst; auto].
    destruct (IH _ _ E) as [M3 A3]. split; [eapply DocSerialProofs.mono_trans; eassumption | eapply alike_trans; eassumption].
Qed.
Lemma passive_decode_all {A} (c : jcodec A) l : passive (decode_all c l).
Proof.
  induction l as [|b l IH]; cbn [decode_all]; [apply passive_const|]. apply passive_bind; [unfold decode; destruct (jdec c b); apply passive_const|]. intros a.
  apply passive_bind; [exact IH | intros; apply passive_const].
Qed.
Lemma passive_getdb name : passive (getDbInfo J name).
Proof.
  unfold getDbInfo, ListDatabases, HGetAll. apply passive_bind; [apply passive_bind; [apply passive_bind|]|].
  - apply passive_scan. intros k e s. unfold iter_cb. destruct (negb _); [apply passive_const|].
    destruct (decodeHashDataKey P k) as [[a f]|x|]; apply passive_const.
  - intros a. unfold finish. destruct (snd a); apply passive_const.
  - intros a. apply passive_decode_all.
  - intros a. apply passive_const.
Qed.
Lemma passive_check name : passive (checkDBNameNotExists J name).
Proof. unfold checkDBNameNotExists. apply passive_bind; [apply passive_getdb|]. intros [d|]; apply passive_const. Qed.
Lemma passive_index a b c : passive (checkIndexNameNotExists J a b c).
Proof.
  unfold checkIndexNameNotExists. apply passive_bind; [apply passive_getdb|]. intros [d|]; [|apply passive_const]. destruct (mget (di_colls d) b); apply passive_const.
Qed.
Lemma covers_steady {A} (m : Tx A) : steady m -> covers m m.
Proof. intros S t1 t1' b E U. exact (S t1 t1' (Ok b) E U). Qed.
Lemma covers_fail {A} e (m : Tx A) : covers (fail e) m.
Proof. intros t1 t1' b E. discriminate E. Qed.
Lemma covers_bind {A B} (m : Tx A) (k k' : A -> Tx B) : steady m -> (forall a, covers (k a) (k' a)) -> covers (bind m k) (bind m k').
Proof.
  intros S1 S2 t1 t1' r E U. unfold bind in *. destruct (m t1) as [ta ra] eqn:Ea. destruct (S1 _ _ _ Ea U) as [Ma Ga].
  assert (Ua : t_upd ta = true) by (destruct Ma as [(_ & _ & _ & X & _) _]; congruence).
  destruct ra as [a|e|]; try discriminate E.
  destruct (S2 _ _ _ _ E Ua) as [Mb Gb]. split; [eapply DocSerialProofs.mono_trans; eassumption|]. intros t2 A2 T R.
  destruct (Ga t2 A2 T) as (t2' & -> & A3 & T3 & K3); [intros j Hj; apply R; destruct Mb as (_ & _ & X); auto|].
  destruct (Gb t2' A3 T3) as (t3 & -> & A4 & T4 & K4); [intros j Hj; destruct Ma as [(-> & _) _]; destruct K3 as (-> & _); apply R, Hj|].
  exists t3. eauto using keeps_trans.
Qed.
Lemma covers_skip {A B} (chk : Tx A) (k : A -> Tx B) core : passive chk -> (forall a, covers (k a) core) -> covers (bind chk k) core.
Proof.
  intros C S t1 t1' b E U. unfold bind in E. destruct (chk t1) as [ta ra] eqn:Ea. destruct (C _ _ _ Ea) as [Ma Aa]. destruct ra as [a|e|]; try discriminate E.
  assert (Ua : t_upd ta = true) by (destruct Ma as [(_ & _ & _ & X & _) _]; congruence). destruct (S a _ _ _ E Ua) as [Mb Gb].
  split; [eapply DocSerialProofs.mono_trans; eassumption|]. intros t2 A2 (T1 & T2 & T3) R. destruct Ma as [(K1 & _) _].
  apply (Gb t2); [eapply alike_trans; [apply alike_sym; exact Aa | exact A2]| |].
  - split; [rewrite K1; exact T1|]. split; [exact T2|]. intros k0 e. destruct Aa as (_ & _ & _ & <-). apply T3.
  - intros j Hj. rewrite K1. apply R. exact Hj.
Qed.
Definition writes {A} (m : Tx A) : Prop := forall t t' a, m t = (t', Ok a) -> exists k, get (t_pend t') k <> None.
Lemma writes_bind {A B} (m : Tx A) (k : A -> Tx B) : (forall a, writes (k a)) -> writes (bind m k).
Proof. intros W t t' a E. unfold bind in E. destruct (m t) as [t1 [b|e|]]; try discriminate E. eapply W. exact E. Qed.
Lemma writes_set k v : writes (tset k v).
Proof. intros t t' a E. apply DocSerialProofs.set_pend in E. eauto. Qed.
Lemma writes_fail {A} e : writes (@fail A e).
Proof. intros t t' a E. discriminate E. Qed.
Lemma writes_enqueue j : writes (EnQueueDDLJob J DefaultJobList j).
Proof. unfold EnQueueDDLJob, RPush, listPush. apply writes_bind. intros m. apply writes_bind. intros m'. apply writes_set. Qed.
Lemma writes_then {A B} (m : Tx A) (b : B) : writes m -> writes (m ;;; ret b).
Proof. intros W t t' a E. unfold bind, ret in E. destruct (m t) as [t1 [x|e|]] eqn:E1; try discriminate E. inversion E. subst. eapply W. exact E1. Qed.
(** an accepted request did on the current database what its core does there *)
Lemma covers_now {A} (full core : Tx A) d0 d io d' b : covers full core -> writes full -> old d0 d -> eternal (d_kv d) -> db_ok d ->
  run_update d0 d full [] io = (d', Ok b) -> run_update d d core [] io = (d', Ok b).
Proof.
  intros S W [TX E0] E K. unfold run_update. destruct (full (new_txn d0 true [])) as [t [a|e|]] eqn:H; try discriminate.
  destruct (S _ _ _ H eq_refl) as [M G]. pose proof M as ((K1 & K2 & _) & O & _). cbn [new_txn t_open t_snap t_rts] in *.
  destruct (W _ _ _ H) as (k0 & N). assert (N' : entries (t_pend t) <> []) by (intros X; apply entries_nil_iff in X; rewrite X in N; apply N; reflexivity).
  assert (TX' : tx_ok d t) by (eapply DocSerialProofs.keeps_tx_ok; [| |exact TX]; symmetry; [exact K1 | exact K2]).
  rewrite (commit_ended d t io O N'). destruct (conflict d t) eqn:C; [discriminate|]. destruct io; [discriminate|]. intros X. inversion X. subst a d'.
  destruct (G (new_txn d true [])) as (t2 & H2 & (_ & O2 & _ & P2) & _ & L).
  - repeat split.
  - split; [exact E0|]. split; [exact E|]. intros k e Y. discriminate Y.
  - intros k Hk. cbn [new_txn t_snap]. rewrite (conflict_free d t k TX' C Hk), K1. reflexivity.
  - rewrite H2. rewrite (commit_ended d t2 false); [|congruence | rewrite <- P2; exact N']. destruct L as (L1 & L2 & _).
    rewrite (no_conflict d t2 K L2), (publish_pend d t2 t (eq_sym P2)). reflexivity.
Qed.
Lemma update_refused {A} (m : Tx A) d0 d io : (forall b, snd (run_update d0 d m [] io) <> Ok b) -> fst (run_update d0 d m [] io) = d.
Proof.
  unfold run_update. destruct (m (new_txn d0 true [])) as [t [a|e|]]; [|reflexivity | reflexivity]. unfold commit. destruct (negb _); [reflexivity|].
  destruct (entries (t_pend t)); [reflexivity|]. destruct (conflict d t); [reflexivity|]. destruct io; [reflexivity|]. cbn [fst snd]. intros N. exfalso. exact (N a eq_refl).
Qed.
Definition create_rest (i : CSI) : Tx Job :=
  p <- GenGlobalIDs (2 + llen (cs_colls i) + match cs_indices i with Some m => llen (entries m) | None => 0 end) ;;
  let id := to_i64 (fst p + 1) in
  r <- lift_r (add_colls (cs_indices i) (cs_colls i) empty [] id) ;;
  let '(m, order, next) := r in
  let job := MkJob (to_i64 (next + 1)) ActionCreateSchema JNone false 0 (ArgDB (DI id (cs_db i) (Some m) order Absent)) Absent in
  EnQueueDDLJob J DefaultJobList job ;;;
  ret job.
Definition create_core (i : CSI) : Tx Job :=
  q <- DDLJobQueueLen DefaultJobList ;; if maxJobsInQueue <? q then fail ErrJobsInQueueExceeded else create_rest i.
Lemma steady_create_rest i : steady (create_rest i).
Proof.
  apply DocSerialProofs.steady_bind; [apply steady_gids|]. intros p. cbn zeta. apply DocSerialProofs.steady_bind; [destruct (add_colls _ _ _ _ _); sconst|].
  intros [[m order] next]. apply DocSerialProofs.steady_bind; [apply steady_enqueue | intros; sconst].
Qed.
Lemma covers_create i : covers (CreateSchemaTx J i) (create_core i).
Proof.
  unfold CreateSchemaTx, create_core. apply covers_bind; [apply steady_llen|]. intros q. destruct (_ <? _); [apply covers_fail|].
  apply covers_skip; [apply passive_check|]. intros x. destruct x; [apply covers_fail | apply covers_steady, steady_create_rest].
Qed.
Lemma writes_create_rest i : writes (create_rest i).
Proof. apply writes_bind. intros p. cbn zeta. apply writes_bind. intros [[m order] next]. apply writes_then, writes_enqueue. Qed.
Lemma writes_create i : writes (CreateSchemaTx J i).
Proof.
  unfold CreateSchemaTx. apply writes_bind. intros q. destruct (_ <? _); [apply writes_fail|]. apply writes_bind. intros x. destruct x; [apply writes_fail | apply (writes_create_rest i)].
Qed.
Definition index_rest (i : AII) : Tx Job :=
  p <- GenGlobalIDs 2 ;;
  let m := ToModel (ai_index i) in
  let iif := II (to_i64 (fst p + 1)) (ii_name m) (Some (IIR (ai_coll i) (ai_db i) 0)) (ii_cols m) (ii_unique m) (ii_state m) in
  let job := MkJob (to_i64 (fst p + 2)) ActionAddIndex JNone false 0 (ArgIndex iif) Absent in
  EnQueueDDLJob J DefaultJobList job ;;;
  ret job.
Lemma covers_index i : covers (AddIndexTx J i) (index_rest i).
Proof.
  unfold AddIndexTx. apply covers_skip; [apply passive_index|]. intros x. destruct x; [apply covers_fail|]. apply covers_steady.
  apply DocSerialProofs.steady_bind; [apply steady_gids|]. intros p. cbn zeta. apply DocSerialProofs.steady_bind; [apply steady_enqueue | intros; sconst].
Qed.
Lemma writes_index i : writes (AddIndexTx J i).
Proof. unfold AddIndexTx. apply writes_bind. intros x. destruct x; [apply writes_fail|]. apply writes_bind. intros p. cbn zeta. apply writes_then, writes_enqueue. Qed.
Local Notation mdo := (MetaProofs.mdo J).
Lemma create_core_d A i : 0 <= gid A -> gid A + reserve i < two63 -> csi_utf8 i -> no_index i -> Z.of_nat (length (queue A)) <= maxJobsInQueue ->
  exists j d, new_schema_job i (gid A) (gid A + reserve i) j d /\
    mdo 1 A (create_core i) (Ok j) (with_queue (with_gid A (gid A + reserve i)) DefaultJobList (queue A ++ [j])).
Proof.
  intros G0 G1 U NI Q. set (g := gid A) in *.
  assert (RN : 2 + llen (cs_colls i) <= reserve i) by (unfold reserve, llen; destruct (cs_indices i); lia).
  assert (LC : 0 <= llen (cs_colls i)) by (unfold llen; lia).
  assert (T1 : to_i64 (g + 1) = g + 1) by (apply to_i64_id; unfold is_i64; rewrite two63_val in *; lia).
  destruct (add_colls_ok (cs_indices i) (cs_colls i) empty [] (g + 1) (g + 1)) as (m & next & H1 & H2 & H3 & H4 & H5); try lia.
  { exact NI. }
  { split; intros cn c; rewrite get_empty; discriminate. }
  cbn [app] in H1. assert (T2 : to_i64 (next + 1) = next + 1) by (apply to_i64_id; unfold is_i64; rewrite two63_val in *; lia).
  set (d := DI (g + 1) (cs_db i) (Some m) (cs_colls i) Absent).
  set (j := MkJob (next + 1) ActionCreateSchema JNone false 0 (ArgDB d) Absent).
  assert (NJ : new_schema_job i g (g + reserve i) j d).
  { assert (CI1 : Forall (fun x => g + 1 < x <= next) (map ci_id (vals (Some m)))).
    { apply Forall_forall. intros x I. apply in_map_iff in I. destruct I as (c & <- & I). apply vals_in in I. destruct I as (k & E). apply (bi_form _ _ _ H2 k c E). }
    split; try reflexivity.
    - exists m. split; [reflexivity|]. split.
      + intros cn. rewrite H4. split; [intros [(c & X)|X]; [rewrite get_empty in X; discriminate | exact X] | auto].
      + intros cn c E. apply (bi_form _ _ _ H2 cn c E).
    - cbn [vals di_colls d]. unfold llen. rewrite map_length. cbn [entries empty length] in H5. unfold entries in H5 at 2. cbn in H5. lia.
    - cbn [j_id j di_id d coll_ids di_colls]. unfold coll_ids. cbn [di_colls d]. split.
      + constructor.
        * intros [X|X]; [lia|]. rewrite Forall_forall in CI1. apply CI1 in X. lia.
        * constructor; [intros X; rewrite Forall_forall in CI1; apply CI1 in X; lia | eapply ids_nodup; exact H2].
      + constructor; [lia|]. constructor; [lia|]. eapply Forall_impl; [|exact CI1]. cbn beta. intros; lia. }
  exists j, d. split; [exact NJ|]. unfold create_core.
  eapply mdo_get; [lia | apply DDLJobQueueLen_r|]. fold (queue A). replace (maxJobsInQueue <? Z.of_nat (length (queue A))) with false by lia.
  unfold create_rest. fold (reserve i).
  assert (IR : is_i64 (reserve i)) by (unfold is_i64; rewrite two63_val in *; lia).
  eapply (mdo_then J 0 1 1); [lia | lia | lia | apply GenGlobalIDs_d; exact IR|]. rewrite (inc_gid A (reserve i)) by (unfold g in *; lia). fold g. cbn [fst].
  replace (g + reserve i - reserve i) with g by lia. rewrite (to_i64_id g) by (unfold is_i64; rewrite two63_val in *; lia). rewrite T1.
  eapply (mdo_then J 0 1 1); [lia | lia | lia | rewrite H1; cbn [lift_r]; apply mdo_ret|]. cbv beta iota zeta. rewrite T2. fold d. fold j.
  eapply (mdo_then J 1 0 1); [lia | lia | lia | apply (EnQueueDDLJob_d J _ DefaultJobList j); eapply new_job_wf; [| | exact U | exact NJ]; lia | apply mdo_ret].
Qed.
Lemma create_core_full A i : maxJobsInQueue < Z.of_nat (length (queue A)) -> mgets J A (create_core i) (Err ErrJobsInQueueExceeded).
Proof.
  intros Q. unfold create_core. eapply mgets_bind; [apply DDLJobQueueLen_r|]. fold (queue A). replace (maxJobsInQueue <? Z.of_nat (length (queue A))) with true by lia. apply mgets_fail.
Qed.
Lemma create_core_panic A i : 0 <= gid A -> gid A + reserve i < two63 -> Z.of_nat (length (queue A)) <= maxJobsInQueue ->
  (exists cn is, In cn (cs_colls i) /\ mget (cs_indices i) cn = Some is /\ is <> []) -> exists A', mdo 1 A (create_core i) Panic A'.
Proof.
  intros G0 G1 Q X. eexists. unfold create_core. eapply mdo_get; [lia | apply DDLJobQueueLen_r|]. fold (queue A). replace (maxJobsInQueue <? Z.of_nat (length (queue A))) with false by lia.
  unfold create_rest. fold (reserve i).
  assert (IR : is_i64 (reserve i)) by (unfold is_i64, gid, reserve, llen in *; rewrite two63_val in *; destruct (cs_indices i); lia).
  eapply (mdo_then J 0 1 1); [lia | lia | lia | apply GenGlobalIDs_d; exact IR|].
  rewrite add_colls_panic; [| intros cn c; rewrite get_empty; discriminate | exact X]. cbn [lift_r].
  apply mdo_le with (c := 0); [lia|]. apply mdo_bind_panic. apply mdo_panic.
Qed.
Lemma index_rest_d A i : 0 <= gid A -> gid A + 2 < two63 -> dev_ok (DIndex i false) ->
  mdo 1 A (index_rest i) (Ok (index_job i (gid A))) (with_queue (with_gid A (gid A + 2)) DefaultJobList (queue A ++ [index_job i (gid A)])).
Proof.
  intros G0 G1 U. unfold index_rest. set (g := gid A) in *. assert (I2 : is_i64 2) by (unfold is_i64; rewrite two63_val; lia).
  eapply (mdo_then J 0 1 1); [lia | lia | lia | apply GenGlobalIDs_d; exact I2|]. rewrite (inc_gid A 2) by (unfold g in *; lia). fold g. cbn [fst].
  replace (g + 2 - 2) with g by lia. rewrite (to_i64_id g) by (unfold is_i64; rewrite two63_val in *; lia). rewrite (to_i64_id (g + 1)), (to_i64_id (g + 2)) by (unfold is_i64; rewrite two63_val in *; lia). cbv zeta. cbn [ToModel ii_name ii_cols ii_unique ii_state].
  fold (index_arg i (g + 1)). fold (index_job i g).
  eapply (mdo_then J 1 0 1); [lia | lia | lia | apply (EnQueueDDLJob_d J _ DefaultJobList (index_job i g)); apply index_job_wf; [lia | lia | exact U] | apply mdo_ret].
Qed.

(** * The invariant *)
Definition ksnap (y : ksys) : sys := Sys (k_db y) vars0 (k_jobs y).
(** an iteration that would write nothing leaves nothing to be done *)
Definition idle (st : hstat) (o : orders) (v : wvars) (d0 : db) : Prop := forall t x, iter_body J o v (new_txn d0 true []) = (t, Ok x) -> i_res x = Ok tt ->
  entries (t_pend t) = [] -> i_after x = [] /\ (v_err (i_vars x) = true -> st = HFailed).
Definition refs (l : list Job) (i : AII) (d0 : db) : Prop := forall t,
  checkIndexNameNotExists J (ai_db i) (ai_coll i) (dx_name (ai_index i)) (new_txn d0 true []) = (t, Ok false) ->
  exists d c, In d (dbs_of l) /\ di_name d = ai_db i /\ mget (di_colls d) (ai_coll i) = Some c.
Definition fresh_for (d : db) (o : orders) (v : wvars) (d0 : db) : Prop :=
  conflict d (fst (iter_body J o v (new_txn d0 true []))) = true \/ forall k, in_dbs k -> get (d_kv d) k = get (d_kv d0) k.
Definition call_inv (d : db) (D R : list Job) (st : hstat) (c : kcall) (d0 : db) (v : wvars) : Prop :=
  old d0 d /\ kcall_ok c /\ match c with
                           | KWork _ o => (v_err v = true -> st = HFailed) /\ fresh_for d o v d0 /\ idle st o v d0
                           | KIndex i => refs (applied D R st) i d0
                           | _ => True
                           end.
Record kinv (T : Z) (y : ksys) (D R : list Job) (st : hstat) (A : mst) : Prop := {
  ki_sys : sinv J T (ksnap y) D R st A;
  ki_vars : forall p, v_err (k_vars y p) = true -> st = HFailed;
  ki_eternal : eternal (d_kv (k_db y));
  ki_open : forall n c d0 v, k_open y n = Some (c, d0, v) -> call_inv (k_db y) D R st c d0 v
}.
Lemma conflict_sub d t t' : (forall k, In k (t_reads t') -> In k (t_reads t)) -> t_rts t' = t_rts t -> conflict d t = false -> conflict d t' = false.
Proof.
  intros S E C. unfold conflict in *. rewrite E. destruct (existsb _ (t_reads t')) eqn:X; [|reflexivity]. apply existsb_exists in X. destruct X as (k & I & X).
  rewrite <- C. symmetry. apply existsb_exists. exists k. split; [apply S; exact I | exact X].
Qed.
Lemma head_kept d0 d o v : old d0 d -> eternal (d_kv d) -> conflict d (fst (iter_body J o v (new_txn d0 true []))) = false -> head d = head d0.
Proof.
  intros O E C. rewrite iter_body_eq in C. unfold try in C. unfold head. destruct (GetDDLJobByIdx J DefaultJobList 0 (new_txn d0 true [])) as [t1 r] eqn:H.
  pose proof (settled_steady (fun _ => False) _ steady_head) as S. destruct (settled_pend _ d0 t1 _ S (proj2 O) H) as [_ M].
  assert (C1 : conflict d t1 = false).
  { assert (X : forall q, mono t1 (fst (iter_rest o v q t1))).
    { intros q. destruct (iter_rest o v q t1) as [t2 r2] eqn:H2. apply (settled_rest o v q t1 t2 r2 H2). destruct M as [(_ & _ & _ & Z1 & _) _]. exact Z1. }
    destruct r as [a|e|]; [| |exact C]; (eapply conflict_sub; [| |exact C]; [apply (X _)|destruct (X (Ok a)) as [(_ & Z1 & _) _] || destruct (X (Err e)) as [(_ & Z1 & _) _]; symmetry; exact Z1]). }
  destruct (settled_now _ d0 d t1 r S O E H C1) as (t2 & H2 & _); [intros k []|]. rewrite H2. reflexivity.
Qed.
Lemma call_moved d d' D R st D' R' st' c d0 v : db_ok d -> (d' = d \/ exists u, d' = publish d u) -> eternal (d_kv d) -> eternal (d_kv d') ->
  (st = HFailed -> st' = HFailed) -> (forall x, In x (dbs_of (applied D R st)) -> In x (dbs_of (applied D' R' st'))) ->
  ((forall k, in_dbs k -> get (d_kv d') k = get (d_kv d) k) \/ head d' <> head d) ->
  call_inv d D R st c d0 v -> call_inv d' D' R' st' c d0 v.
Proof.
  intros K N E E' F M X (O & KO & H). assert (O' : old d0 d') by (destruct N as [->|(u & ->)]; [exact O | apply old_publish; assumption]).
  split; [exact O'|]. split; [exact KO|]. destruct c as [i|i|p o|a c s|a c s]; try exact Logic.I.
  - intros t Ht. destruct (H t Ht) as (x & c & I & H1 & H2). exists x, c. auto.
  - destruct H as (H1 & H2 & H3). split; [auto|]. split.
    + unfold fresh_for in *. set (t := fst (iter_body J o v (new_txn d0 true []))) in *. destruct (conflict d' t) eqn:C; [auto|]. right.
      assert (C0 : conflict d t = false).
      { destruct (conflict d t) eqn:C0; [|reflexivity]. rewrite <- C. destruct N as [->|(u & ->)]; [symmetry; exact C0|]. symmetry. apply conflict_publish; [exact K | | exact C0].
        destruct (iter_body J o v (new_txn d0 true [])) as [t0 r] eqn:Y. exact (old_tx _ d0 d t0 r (settled_iter o v) O Y). }
      destruct H2 as [H2|H2]; [congruence|]. destruct X as [X|X]; [intros k Hk; rewrite X, H2 by exact Hk; reflexivity|]. exfalso. apply X.
      rewrite (head_kept d0 d' o v O' E' C), (head_kept d0 d o v O E C0). reflexivity.
    + intros t x A1 A2 A3. destruct (H3 t x A1 A2 A3) as [B1 B2]. auto.
Qed.
Lemma mdb_of l A A' i : effects l A -> effects l A' -> m_db A' i = m_db A i.
Proof.
  intros E E'. destruct (m_db A i) as [x|] eqn:X.
  - apply (ef_db _ _ E') . apply (ef_db _ _ E). exact X.
  - destruct (m_db A' i) as [x|] eqn:Y; [|reflexivity]. apply (ef_db _ _ E') in Y. apply (ef_db _ _ E) in Y. congruence.
Qed.
(** any step to a state satisfying the sequential invariant *)
Lemma kinv_move T T' y y' D R st A D' R' st' A' : kinv T y D R st A -> sinv J T' (ksnap y') D' R' st' A' ->
  (k_db y' = k_db y \/ exists u, k_db y' = publish (k_db y) u) -> eternal (d_kv (k_db y')) -> (st = HFailed -> st' = HFailed) ->
  (forall x, In x (dbs_of (applied D R st)) -> In x (dbs_of (applied D' R' st'))) ->
  (applied D' R' st' = applied D R st \/ head (k_db y') <> head (k_db y)) ->
  (forall p, v_err (k_vars y' p) = true -> st' = HFailed) -> (forall n c, k_open y' n = Some c -> k_open y n = Some c) -> kinv T' y' D' R' st' A'.
Proof.
  intros [I1 I2 I3 I4] I' N E F M X V O. split; [exact I' | exact V | exact E|]. intros n c d0 v H. apply O in H.
  pose proof (si_holds _ _ _ _ _ _ _ I1) as H1. pose proof (si_holds _ _ _ _ _ _ _ I') as H2.
  eapply call_moved; [exact (proj1 H1) | exact N | exact I3 | exact E | exact F | exact M | | exact (I4 n c d0 v H)].
  destruct X as [X|X]; [left | right; exact X]. intros k Hk. pose proof (ds_effects _ _ _ _ (si_state _ _ _ _ _ _ _ I1)) as F1. pose proof (ds_effects _ _ _ _ (si_state _ _ _ _ _ _ _ I')) as F2.
  rewrite X in F2. pose proof (dbs_same _ _ _ _ _ _ k H1 H2 (fun i => mdb_of _ _ _ i F1 F2) Hk) as Z1. cbn [ksnap y_db] in Z1.
  rewrite !DocSerialProofs.dview_eternal in Z1 by assumption. exact Z1.
Qed.
Lemma sinv_vars T d v v' js D R st A : (v_err v' = true -> st = HFailed) -> sinv J T (Sys d v js) D R st A -> sinv J T (Sys d v' js) D R st A.
Proof. intros V [I1 I2 I3 I4 I5 I6 I7]. split; assumption. Qed.
Lemma applied_mono D R st D' R' st' : worked D R st D' R' st' -> (st = HFailed -> st' = HFailed) /\
  (forall x, In x (dbs_of (applied D R st)) -> In x (dbs_of (applied D' R' st'))) /\
  (applied D' R' st' = applied D R st \/ exists j r d, R = j :: r /\ R' = R /\ D' = D /\ st = HFresh /\ st' = HApplied /\ j_arg j = ArgDB d).
Proof.
  intros W. destruct W as [D|D j r d Ea N|D j r|D j r d Ea N|D R|D j r i st Ea Hs]; cbn [applied].
  - repeat split; auto.
  - split; [discriminate|]. split; [intros x I; rewrite dbs_app; apply in_or_app; auto|]. right. exists j, r, d. auto 10.
  - split; [discriminate|]. split; [auto|]. left. destruct r; reflexivity.
  - split; [discriminate|]. auto.
  - auto.
  - split; [destruct Hs; congruence|]. destruct Hs as [-> | ->]; auto.
Qed.
Lemma head_applied T T' d d' js js' D j r x A A' : sinv J T (Sys d vars0 js) D (j :: r) HFresh A -> sinv J T' (Sys d' vars0 js') D (j :: r) HApplied A' -> T < two63 -> T' < two63 ->
  j_arg j = ArgDB x -> head d' <> head d.
Proof.
  intros I I' L L' Ea. pose proof (si_holds _ _ _ _ _ _ _ I) as H. pose proof (si_holds _ _ _ _ _ _ _ I') as H'. cbn [y_db] in H, H'.
  pose proof (ds_queue _ _ _ _ (si_state _ _ _ _ _ _ _ I)) as Q. pose proof (ds_queue _ _ _ _ (si_state _ _ _ _ _ _ _ I')) as Q'. cbn [head_as] in Q, Q'.
  rewrite (head_of _ _ _ _ _ H (used_lt J _ _ _ _ _ _ I L) Q), (head_of _ _ _ _ _ H' (used_lt J _ _ _ _ _ _ I' L') Q').
  pose proof (si_ok _ _ _ _ _ _ _ I) as F. rewrite Forall_forall in F. destruct (F j) as [_ [(d0 & C1 & _)|(i0 & C1 & _)]]; [apply in_or_app; right; left; reflexivity | |rewrite C1 in Ea; discriminate].
  rewrite C1. cbn. discriminate.
Qed.
(** * Opening a call *)
Lemma begin_idle T y D R st A o v : sinv J T (Sys (k_db y) v (k_jobs y)) D R st A -> orders_are o -> T < two63 -> idle st o v (k_db y).
Proof.
  intros I O L t x E Rx N. destruct (body_inv J JO T _ D R st A o I O L) as (D' & R' & st' & A' & x' & W & Lu & M & Rs & AF & _ & Nx). cbn [y_vars] in M.
  pose proof (si_holds _ _ _ _ _ _ _ I) as H. cbn [y_db] in H. pose proof (room_le T D' R' st') as RL.
  assert (ED : D' ++ R' = D ++ R) by (destruct W; try reflexivity; rewrite <- app_assoc; reflexivity).
  assert (ER : room T D R st + (used D' R' st' - used D R st) = room T D' R' st') by (unfold room; rewrite ED; lia).
  assert (C0 : 0 <= used D' R' st' - used D R st) by lia. assert (CR : room T D R st + (used D' R' st' - used D R st) < two63) by lia.
  pose proof (iteration_spec J _ _ _ o v false _ x' A' C0 H CR M) as S.
  assert (Ex : x' = x).
  { destruct H as (K & S0 & R0 & M0). destruct (M S0 M0) as (S' & X1 & M'). destruct (X1 _ _ R0 CR) as (V & X2 & _).
    destruct (X2 (new_txn (k_db y) true [])) as (t' & E' & _); [apply okt_new; reflexivity | apply view_new|]. congruence. }
  subst x'. rewrite Rx in S. destruct S as [(d' & S & H')|(X & _)]; [|discriminate]. rewrite ER in H'.
  assert (Ed : d' = k_db y).
  { unfold iteration in S. rewrite E, Rx in S. unfold commit in S. rewrite N in S. destruct (negb (t_open t)); congruence. }
  subst d'. pose proof (Nx (k_db y) vars0 H' (or_introl eq_refl) Rx) as I'. pose proof (Nx (k_db y) (i_vars x) H' (or_intror eq_refl) Rx) as I''.
  assert (NOA : newly R st st' = []).
  { destruct (newly R st st') eqn:NE; [reflexivity|]. exfalso. destruct (applied_mono _ _ _ _ _ _ W) as (_ & _ & [X|(j0 & r & d & -> & -> & -> & -> & -> & Ea)]).
    - destruct W; cbn [newly] in NE; try discriminate NE; [|destruct st; discriminate NE]. cbn [applied] in X. apply (f_equal (@length _)) in X. rewrite app_length in X. cbn in X. lia.
    - refine (head_applied T T (k_db y) (k_db y) _ _ D j0 r d A A' _ I' L L Ea eq_refl). eapply sinv_vars; [|exact I]. discriminate. }
  split; [rewrite AF, NOA; reflexivity|]. intros V. pose proof (si_vars _ _ _ _ _ _ _ I'' V) as ->.
  inversion W as [|? j r d Ea X1|?|? j r d Ea X1|?|?]; subst; try reflexivity. exfalso.
  pose proof (ds_queue _ _ _ _ (si_state _ _ _ _ _ _ _ I)) as Q. pose proof (ds_queue _ _ _ _ (si_state _ _ _ _ _ _ _ I')) as Q'. cbn [head_as] in Q, Q'.
  pose proof (head_of _ _ _ _ _ H (used_lt J _ _ _ _ _ _ I L) Q) as Z1. pose proof (head_of _ _ _ _ _ H' (used_lt J _ _ _ _ _ _ I' L) Q') as Z2.
  pose proof (si_ok _ _ _ _ _ _ _ I) as F. rewrite Forall_forall in F. destruct (F j) as [_ [(d0 & C1 & _)|(i0 & C1 & _)]]; [apply in_or_app; right; left; reflexivity | |rewrite C1 in Ea; discriminate].
  rewrite C1 in Z1, Z2. cbn in Z1, Z2. congruence.
Qed.
Lemma begin_refs T y D R st A i : sinv J T (ksnap y) D R st A -> T < two63 -> refs (applied D R st) i (k_db y).
Proof.
  intros I L t E. pose proof (si_holds _ _ _ _ _ _ _ I) as H. pose proof (used_lt J _ _ _ _ _ _ I L) as UL. pose proof (ds_effects _ _ _ _ (si_state _ _ _ _ _ _ _ I)) as EF.
  assert (GET : forall r, mgets J A (checkIndexNameNotExists J (ai_db i) (ai_coll i) (dx_name (ai_index i))) r -> r = Ok false).
  { intros r M. destruct H as (K & S0 & R0 & M0). destruct (M S0 M0 true _ _ R0 UL (new_txn (k_db y) true [])) as (t' & E' & _); [apply okt_new; reflexivity | apply view_new|]. congruence. }
  destruct (used_name_dec J JO A (ai_db i)) as [U|U]; [exists (room T D R st), (k_db y); split; [exact H | exact UL]| |].
  2:{ exfalso. assert (X : @Err bool ErrDBNotExistsD = Ok false); [|discriminate X]. apply GET. unfold checkIndexNameNotExists. eapply mgets_bind; [apply getDbInfo_none; [exact JO | exact U] | apply mgets_fail]. }
  apply (used_name_iff _ _ _ EF) in U. apply in_map_iff in U. destruct U as (d & Ed & Id). pose proof (named_of _ _ _ EF (ds_names _ _ _ _ (si_state _ _ _ _ _ _ _ I)) Id) as Nm. rewrite Ed in Nm.
  destruct (mget (di_colls d) (ai_coll i)) as [c|] eqn:Ec; [exists d, c; auto|]. exfalso. assert (X : @Err bool ErrCollectionNotExistsD = Ok false); [|discriminate X]. apply GET.
  unfold checkIndexNameNotExists. eapply mgets_bind; [apply getDbInfo_named; [exact JO | exact Nm]|]. cbv iota.
  replace (mget (di_colls (pub_di d)) (ai_coll i)) with (@None CollectionInfo); [apply mgets_fail|]. cbn [pub_di di_colls]. destruct (di_colls d) as [m|]; [|reflexivity]. cbn [option_map mget] in *. rewrite get_smap_map, Ec. reflexivity.
Qed.
Lemma begin_inv T y D R st A n c : kinv T y D R st A -> kcall_ok c -> T < two63 -> kinv T (kstep J y (KBegin n c)) D R st A.
Proof.
  intros [I1 I2 I3 I4] K L. split; try assumption. intros m c' d0 v. cbn [kstep set_open k_open k_db]. destruct (Nat.eqb m n); [|apply I4].
  intros X. assert (c' = c /\ d0 = k_db y /\ v = vars_of y c) as (-> & -> & ->) by (split; [|split]; congruence). clear X.
  split; [apply old_new; exact I3|]. split; [exact K|]. destruct c as [i|i|p o|a c s|a c s]; try exact Logic.I.
  - eapply begin_refs; eassumption.
  - cbn [vars_of]. split; [apply I2|]. split; [right; reflexivity|]. eapply begin_idle; [|exact K | exact L]. eapply sinv_vars; [|exact I1]. apply I2.
Qed.
(** * Ending a call *)
Lemma commit_io d t io : snd (commit d t io) = Ok tt \/ fst (fst (commit d t io)) = d.
Proof. unfold commit. destruct (negb _); [auto|]. destruct (entries _); [auto|]. destruct (conflict _ _); [auto|]. destruct io; auto. Qed.
(** the outcome of a worker's transaction: nothing, or what it would have done alone now *)
Lemma work_end T y D R st A p o d0 v io : kinv T y D R st A -> call_inv (k_db y) D R st (KWork p o) d0 v -> let e := iteration_at J o v d0 (k_db y) io in
  (e_db e = k_db y /\ e_after e = [] /\ (v_err (next_vars e) = true -> st = HFailed)) \/ e = iteration J o v (k_db y) io.
Proof.
  intros I (O & _ & V & FR & ID). cbv zeta. unfold iteration_at. set (d := k_db y) in *.
  destruct (iter_body J o v (new_txn d0 true [])) as [t [x|e|]] eqn:H; [|left; repeat split; discriminate | left; repeat split; discriminate].
  destruct (i_res x) as [[]|e|] eqn:Rx; [|left; repeat split; discriminate | left; repeat split; discriminate].
  destruct (settled_pend _ d0 t _ (settled_iter o v) (proj2 O) H) as [_ M]. pose proof M as (_ & M2 & _). cbn [new_txn t_open] in M2.
  destruct (entries (t_pend t)) eqn:N.
  { left. unfold commit. rewrite M2, N. cbn [negb e_db e_after]. destruct (ID t x H Rx N) as [A1 A2]. split; [reflexivity|]. split; [exact A1|].
    unfold next_vars. cbn [e_return e_vars]. destruct (i_nojob x); [discriminate | exact A2]. }
  destruct (conflict d t) eqn:C; [left; unfold commit; rewrite M2, N, C; repeat split; discriminate|]. right.
  unfold fresh_for in FR. rewrite H in FR. cbn [fst] in FR. destruct FR as [FR|FR]; [congruence|].
  destruct (settled_now _ d0 d t _ (settled_iter o v) O (ki_eternal _ _ _ _ _ _ I) H C FR) as (t2 & H2 & P2 & ((L1 & L2 & _) & L3 & _)). cbn [new_txn t_open t_rts] in L2, L3.
  pose proof (proj1 (si_holds _ _ _ _ _ _ _ (ki_sys _ _ _ _ _ _ I))) as K. cbn [ksnap y_db] in K. fold d in K.
  destruct (commit_same d t t2 io K M2 L3 (eq_sym P2) C (no_conflict d t2 K L2)) as [X Y]. unfold iteration. rewrite H2, Rx.
  destruct (commit d t io) as [[da ta] ra]. destruct (commit d t2 io) as [[db tb] rb]. cbn [fst snd] in X, Y. subst. reflexivity.
Qed.
Lemma iteration_next o v d0 d io : eternal (d_kv d0) -> eternal (d_kv d) -> let d' := e_db (iteration_at J o v d0 d io) in
  eternal (d_kv d') /\ (d' = d \/ exists u, d' = publish d u).
Proof.
  intros E0 E. cbv zeta. unfold iteration_at. destruct (iter_body J o v (new_txn d0 true [])) as [t [x|e|]] eqn:H; [|auto | auto].
  destruct (i_res x) as [u|e|]; [|auto | auto]. destruct (commit d t io) as [[d' t'] r] eqn:C. apply commit_next in C.
  assert (X : eternal (d_kv d') /\ (d' = d \/ exists u, d' = publish d u)); [|destruct r; exact X]. destruct C as [->| ->]; [auto|]. split; [|eauto].
  apply SerialProofs.eternal_publish; [exact E|]. apply (settled_pend _ d0 t _ (settled_iter o v) E0 H).
Qed.
Lemma set_open_none y n m x : k_open (set_open y n None) m = Some x -> k_open y m = Some x.
Proof. cbn [set_open k_open]. destruct (Nat.eqb m n); [discriminate | auto]. Qed.
Lemma work_real T y D R st A n p o d0 v io : kinv T y D R st A -> k_open y n = Some (KWork p o, d0, v) -> T < two63 -> iteration_at J o v d0 (k_db y) io = iteration J o v (k_db y) io ->
  exists D' R' st' A', kinv T (kstep J y (KEnd n io)) D' R' st' A' /\ (worked D R st D' R' st' \/ io = true /\ D' = D /\ R' = R /\ st' = st).
Proof.
  intros I H L X. pose proof (ki_open _ _ _ _ _ _ I _ _ _ _ H) as C. cbn [kstep]. rewrite H. cbn [kend set_open k_db k_vars k_open k_jobs].
  destruct (iteration_next o v d0 (k_db y) io (proj2 (proj1 C)) (ki_eternal _ _ _ _ _ _ I)) as [E N]. cbv zeta in *. set (e := iteration_at J o v d0 (k_db y) io) in *.
  destruct C as (_ & OO & V & _). cbn [kcall_ok] in OO. pose proof (sinv_vars T (k_db y) vars0 v (k_jobs y) D R st A V (ki_sys _ _ _ _ _ _ I)) as IV.
  destruct (work_inv J JO T _ D R st A o io IV OO L) as (D' & R' & st' & A' & I' & W). cbn [dstep y_vars y_db y_jobs] in I'. rewrite <- X in I'.
  pose proof (si_vars _ _ _ _ _ _ _ I') as V'. cbn [y_vars] in V'. assert (I2 : sinv J T (Sys (e_db e) vars0 (k_jobs y)) D' R' st' A') by (eapply sinv_vars; [discriminate | exact I']).
  exists D', R', st', A'.
  assert (Q : (st = HFailed -> st' = HFailed) /\ (forall x, In x (dbs_of (applied D R st)) -> In x (dbs_of (applied D' R' st'))) /\
              (applied D' R' st' = applied D R st \/ head (e_db e) <> head (k_db y))).
  { destruct W as [W|(_ & -> & -> & ->)]; [|split; [auto|]; split; auto].
    destruct (applied_mono _ _ _ _ _ _ W) as (Q1 & Q2 & Q3). split; [exact Q1|]. split; [exact Q2|].
    destruct Q3 as [Q3|(j & r & x & -> & -> & -> & -> & -> & Ea)]; [auto|]. right. exact (head_applied T T _ _ _ _ D j r x A A' (ki_sys _ _ _ _ _ _ I) I2 L L Ea). }
  destruct Q as (Q1 & Q2 & Q3). split; [|exact W]. eapply kinv_move; [exact I | exact I2 | exact N | exact E | exact Q1 | exact Q2 | exact Q3 | |]; cbn [k_vars k_open].
  - intros q. unfold set_kvars. destruct (Nat.eqb q p); [exact V'|]. intros Y. apply Q1. exact (ki_vars _ _ _ _ _ _ I q Y).
  - intros m c. apply (set_open_none y n m c).
Qed.
Lemma grew {X} (D : list X) : exists l, D = D ++ l.
Proof. exists []. rewrite app_nil_r. reflexivity. Qed.
Lemma worked_grows D R st D' R' st' : worked D R st D' R' st' -> (exists l, D' = D ++ l) /\ (exists l, applied D' R' st' = applied D R st ++ l).
Proof.
  intros W. destruct W as [D|D j r d Ea N|D j r|D j r d Ea N|D R|D j r i st Ea Hs]; cbn [applied]; (split; [try apply grew|]); try apply grew; try (eexists; reflexivity).
  destruct Hs as [-> | ->]; apply grew.
Qed.
Lemma work_kinv T y D R st A n p o d0 v io : kinv T y D R st A -> k_open y n = Some (KWork p o, d0, v) -> T < two63 ->
  exists D' R' st' A', kinv T (kstep J y (KEnd n io)) D' R' st' A' /\ (exists l, D' = D ++ l) /\ (exists l, applied D' R' st' = applied D R st ++ l).
Proof.
  intros I H L. pose proof (ki_open _ _ _ _ _ _ I _ _ _ _ H) as C. pose proof (work_end T y D R st A p o d0 v io I C) as X. cbv zeta in *. destruct X as [(X1 & _ & X3)|X].
  - cbn [kstep]. rewrite H. cbn [kend set_open k_db k_vars k_open k_jobs].
    destruct (iteration_next o v d0 (k_db y) io (proj2 (proj1 C)) (ki_eternal _ _ _ _ _ _ I)) as [E N]. cbv zeta in *. set (e := iteration_at J o v d0 (k_db y) io) in *.
    exists D, R, st, A. split; [|split; apply grew]. eapply kinv_move; [exact I | | | | | | | |]; cbn [ksnap k_db k_jobs k_vars k_open].
    + rewrite X1. exact (ki_sys _ _ _ _ _ _ I).
    + exact N. + exact E. + auto. + auto. + auto.
    + intros q. unfold set_kvars. destruct (Nat.eqb q p); [exact X3 | apply (ki_vars _ _ _ _ _ _ I)].
    + intros m c. apply (set_open_none y n m c).
  - destruct (work_real T y D R st A n p o d0 v io I H L X) as (D' & R' & st' & A' & I' & W). exists D', R', st', A'. split; [exact I'|].
    destruct W as [W|(_ & -> & -> & ->)]; [exact (worked_grows _ _ _ _ _ _ W) | split; apply grew].
Qed.
(** a worker's transaction with nothing in between *)
Definition round (x : nat * nat * orders) : list kev := [KBegin (fst (fst x)) (KWork (snd (fst x)) (snd x)); KEnd (fst (fst x)) false].
Lemma round_kinv T y D R st A x : kinv T y D R st A -> orders_are (snd x) -> T < two63 ->
  exists D' R' st' A', kinv T (krun J y (round x)) D' R' st' A' /\ worked D R st D' R' st' /\ k_jobs (krun J y (round x)) = k_jobs y.
Proof.
  intros I O L. destruct x as [[n p] o]. unfold round. cbn [fst snd krun fold_left] in *. set (y1 := kstep J y (KBegin n (KWork p o))).
  pose proof (begin_inv T y D R st A n (KWork p o) I O L) as I1. fold y1 in I1.
  assert (H : k_open y1 n = Some (KWork p o, k_db y1, k_vars y p)) by (unfold y1; cbn [kstep set_open k_open k_db]; rewrite Nat.eqb_refl; reflexivity).
  destruct (work_real T y1 D R st A n p o _ _ false I1 H L eq_refl) as (D' & R' & st' & A' & I' & [W|(X & _)]); [|discriminate].
  exists D', R', st', A'. split; [exact I'|]. split; [exact W|]. cbn [kstep]. rewrite H. reflexivity.
Qed.
Lemma rounds_kinv xs : forall T y D R st A, kinv T y D R st A -> Forall (fun x => orders_are (snd x)) xs -> T < two63 -> all_create (D ++ R) -> (steps_left R st <= length xs)%nat ->
  exists A', kinv T (krun J y (flat_map round xs)) (D ++ R) [] HFresh A'.
Proof.
  induction xs as [|x xs IH]; intros T y D R st A I F L AC N; cbn [flat_map length] in *; pose proof (good_status J T (ksnap y) D R st A (ki_sys _ _ _ _ _ _ I) AC) as S.
  - assert (HR : st = HFresh /\ R = []).
    { destruct S as [-> | ->]; cbn [steps_left] in N; destruct R as [|j r]; auto; try (cbn [length] in N; lia). exfalso. exact (ds_stat _ _ _ _ (si_state _ _ _ _ _ _ _ (ki_sys _ _ _ _ _ _ I)) eq_refl). }
    destruct HR as [-> ->]. exists A. rewrite app_nil_r. exact I.
  - inversion F as [|? ? F1 F2]; subst. destruct (round_kinv T y D R st A x I F1 L) as (D' & R' & st' & A' & I' & W & _).
    assert (Q : D' ++ R' = D ++ R /\ (steps_left R' st' <= steps_left R st - 1)%nat).
    { destruct W as [D|D j r d Ea X|D j r|D j r d Ea X|D R|D j r i st Ea Hs].
      - split; [reflexivity | cbn; lia].
      - split; [reflexivity|]. cbn [steps_left length]. lia.
      - split; [rewrite <- app_assoc; reflexivity|]. cbn [steps_left length]. lia.
      - exfalso. destruct AC as [_ ND]. rewrite dbs_app in ND. change (j :: r) with ([j] ++ r) in ND. rewrite dbs_app, (dbs_one j d Ea), map_app, map_app in ND. apply nodup_app in ND. destruct ND as (_ & _ & ND). apply (ND _ X). left. reflexivity.
      - destruct S; discriminate.
      - exfalso. destruct AC as [AC _]. destruct (AC j) as (d & X); [apply in_or_app; right; left; reflexivity|]. congruence. }
    destruct Q as [Q1 Q2]. unfold krun. rewrite fold_left_app. fold (krun J y (round x)). rewrite <- Q1 in AC |- *. apply (IH T _ D' R' st' A' I' F2 L AC). lia.
Qed.
(** a refused request changes nothing *)
Lemma same_kinv T w y D R st A n : kinv T y D R st A -> 0 <= w -> kinv (T + w) (set_open y n None) D R st A.
Proof.
  intros I W. eapply kinv_move; [exact I | | | | | | | |]; try (cbn [set_open k_db k_vars]; auto).
  - eapply sinv_weaken; [|exact (ki_sys _ _ _ _ _ _ I)]. lia.
  - exact (ki_eternal _ _ _ _ _ _ I).
  - exact (ki_vars _ _ _ _ _ _ I).
  - intros m c. apply set_open_none.
Qed.
Lemma enqueue_kinv T w y D R st A n j d' A' : kinv T y D R st A -> (d' = k_db y \/ exists u, d' = publish (k_db y) u) -> eternal (d_kv d') ->
  sinv J (T + w) (Sys d' vars0 (k_jobs y ++ [j])) D (R ++ [j]) st A' ->
  kinv (T + w) (KSys d' (k_vars y) (k_open (set_open y n None)) (k_jobs y ++ [j])) D (R ++ [j]) st A'.
Proof.
  intros I N E I'. pose proof (applied_app D R st j (stat_applied _ _ _ _ (si_state _ _ _ _ _ _ _ (ki_sys _ _ _ _ _ _ I)))) as AP.
  eapply kinv_move; [exact I | exact I' | exact N | exact E | auto | rewrite AP; auto | left; exact AP | exact (ki_vars _ _ _ _ _ _ I) | intros m c; apply (set_open_none y n m c)].
Qed.
Lemma not_ok {X} (r : result X) : (exists b, r = Ok b) \/ forall b, r <> Ok b.
Proof. destruct r as [x|e|]; [left; eauto | right; discriminate | right; discriminate]. Qed.
Lemma not_accepted l (r : result Job) : (forall b, r <> Ok b) -> accepted l r = l.
Proof. intros N. destruct r as [x|e|]; [exfalso; exact (N x eq_refl) | reflexivity | reflexivity]. Qed.
Lemma covers_next {X} (core : Tx X) d io d' b : run_update d d core [] io = (d', Ok b) -> d' = d \/ exists u, d' = publish d u.
Proof.
  unfold run_update. destruct (core (new_txn d true [])) as [t [a|e|]]; try discriminate. destruct (commit d t io) as [[d1 t1] r] eqn:C. apply commit_next in C. intros E.
  assert (d1 = d') by (destruct r; congruence). subst d1. destruct C as [->| ->]; eauto.
Qed.
Lemma create_kinv T y D R st A n i d0 v io : kinv T y D R st A -> k_open y n = Some (KCreate i, d0, v) -> T + kcost (KCreate i) < two63 ->
  exists R' A', kinv (T + kcost (KCreate i)) (kstep J y (KEnd n io)) D R' st A' /\ m_did A' = m_did A /\
    (k_jobs (kstep J y (KEnd n io)) = k_jobs y /\ k_db (kstep J y (KEnd n io)) = k_db y \/
     exists j x, k_jobs (kstep J y (KEnd n io)) = k_jobs y ++ [j] /\ new_schema_job i (gid A) (gid A + reserve i) j x).
Proof.
  intros I H L. pose proof (ki_open _ _ _ _ _ _ I _ _ _ _ H) as ([O E0] & U & _). cbn [kcall_ok] in U. cbn [kstep]. rewrite H. cbn [kend]. unfold kcost in *.
  assert (W : dweight (DCreate i false) = reserve i + 1) by (unfold dweight, reserve; lia). rewrite W in *.
  assert (RN : 2 + llen (cs_colls i) <= reserve i) by (unfold reserve, llen; destruct (cs_indices i); lia). pose proof (DdlSys.llen_nonneg (cs_colls i)) as LC.
  pose proof (ki_sys _ _ _ _ _ _ I) as IS. pose proof (si_holds _ _ _ _ _ _ _ IS) as Hh. cbn [ksnap y_db] in Hh. pose proof (si_gid _ _ _ _ _ _ _ IS) as G. pose proof (room_le T D R st) as RL.
  assert (SAME : exists R' A', kinv (T + (reserve i + 1)) (KSys (k_db (set_open y n None)) (k_vars (set_open y n None)) (k_open (set_open y n None)) (k_jobs (set_open y n None))) D R' st A' /\ m_did A' = m_did A /\
    (k_jobs (set_open y n None) = k_jobs y /\ k_db (set_open y n None) = k_db y \/ exists j x, k_jobs (set_open y n None) = k_jobs y ++ [j] /\ new_schema_job i (gid A) (gid A + reserve i) j x)).
  { exists R, A. assert (W0 : 0 <= reserve i + 1) by lia. split; [exact (same_kinv T (reserve i + 1) y D R st A n I W0) | split; [reflexivity | left; auto]]. }
  destruct (ValidateCreateSchema i) as [e|]; [exact SAME|]. change (k_db (set_open y n None)) with (k_db y) in *. set (d := k_db y) in *.
  destruct (run_update d0 d (CreateSchemaTx J i) [] io) as [d' r] eqn:X. destruct (not_ok r) as [(j & ->)|N].
  2:{ rewrite (not_accepted _ _ N). assert (d' = d) by (change d' with (fst (d', r)); rewrite <- X; apply update_refused; rewrite X; exact N). subst d'. exact SAME. }
  pose proof (covers_now _ _ d0 d io d' j (covers_create i) (writes_create i) (conj O E0) (ki_eternal _ _ _ _ _ _ I) (proj1 Hh) X) as Y.
  assert (ET : eternal (d_kv d')).
  { unfold run_update in X. destruct (CreateSchemaTx J i (new_txn d0 true [])) as [t [a|e|]] eqn:Z1; try discriminate. destruct (covers_create i _ _ _ Z1 eq_refl) as [M F].
    destruct (F (new_txn d0 true [])) as (t2 & _ & _ & (_ & _ & T3) & _); [repeat split | split; [exact E0|]; split; [exact E0 | intros k e0 Q; discriminate Q] | reflexivity|].
    destruct (commit d t io) as [[d1 t1] r1] eqn:Z2. apply commit_next in Z2. assert (d1 = d') by (destruct r1; congruence). subst d1.
    destruct Z2 as [->| ->]; [apply (ki_eternal _ _ _ _ _ _ I)|]. apply SerialProofs.eternal_publish; [apply (ki_eternal _ _ _ _ _ _ I) | exact T3]. }
  pose proof (covers_next _ _ _ _ _ Y) as NX. change (k_jobs (set_open y n None)) with (k_jobs y). cbn [accepted]. change (k_vars (set_open y n None)) with (k_vars y).
  destruct (Z.le_gt_cases (Z.of_nat (length (queue A))) maxJobsInQueue) as [Q|Q].
  2:{ rewrite (holds_view_err J _ _ _ _ _ io Hh ltac:(lia) (create_core_full A i Q)) in Y. discriminate Y. }
  assert (LU : room T D R st + 1 < two63) by lia.
  destruct (no_index_dec i) as [NI|NI].
  2:{ destruct (create_core_panic A i) as (A' & M); try assumption; try lia. rewrite (holds_panic J _ _ _ _ _ _ io Hh LU M) in Y. discriminate Y. }
  destruct (create_core_d A i) as (j' & x & NJ & M); try assumption; try lia.
  destruct (update_run J _ _ _ _ _ _ _ io Z.le_0_1 Hh LU M) as [(E & _)|(d2 & E & H')]; rewrite E in Y; [discriminate Y|]. assert (d2 = d' /\ j' = j) as [-> ->] by (split; congruence).
  exists (R ++ [j]), (with_queue (with_gid A (gid A + reserve i)) DefaultJobList (queue A ++ [j])). split; [|split; [reflexivity|]; right; exists j, x; split; [reflexivity | exact NJ]].
  apply (enqueue_kinv T (reserve i + 1) y D R st A n j d'); [exact I | exact NX | exact ET|].
  assert (Wj : wf_job j) by (eapply new_job_wf; [| |exact U | exact NJ]; lia). destruct NJ as [Nj Nn No Ns (m & Em & Pm1 & Pm2) Nz [Ni1 Ni2]].
  assert (Ea : j_arg j = ArgDB x) by (rewrite Nj; reflexivity). assert (EI : ids_of j = j_id j :: di_id x :: coll_ids x) by (unfold ids_of; rewrite Ea; reflexivity).
  refine (enqueue_inv J T (reserve i + 1) (ksnap y) D R st A j d' (reserve i) _ IS _ _ _ _ eq_refl _ _ _ H'); [lia | lia | | lia | rewrite EI; exact Ni2 | rewrite EI; exact Ni1 |].
  - unfold jsize. rewrite Ea. lia.
  - split; [exact Wj|]. left. exists x. split; [exact Nj|]. intros c Ic. rewrite Em in Ic. apply vals_in in Ic. destruct Ic as (k & Ek). rewrite (Pm2 k c Ek). reflexivity.
Qed.
Lemma index_kinv T y D R st A n i d0 v io : kinv T y D R st A -> k_open y n = Some (KIndex i, d0, v) -> T + kcost (KIndex i) < two63 ->
  exists R' A', kinv (T + kcost (KIndex i)) (kstep J y (KEnd n io)) D R' st A' /\ m_did A' = m_did A.
Proof.
  intros I H L. pose proof (ki_open _ _ _ _ _ _ I _ _ _ _ H) as ([O E0] & U & RF). cbn [kcall_ok] in U. cbn [kstep]. rewrite H. cbn [kend]. change (kcost (KIndex i)) with 3 in *.
  pose proof (ki_sys _ _ _ _ _ _ I) as IS. pose proof (si_holds _ _ _ _ _ _ _ IS) as Hh. cbn [ksnap y_db] in Hh. pose proof (si_gid _ _ _ _ _ _ _ IS) as G. pose proof (room_le T D R st) as RL.
  change (k_db (set_open y n None)) with (k_db y). set (d := k_db y) in *.
  destruct (run_update d0 d (AddIndexTx J i) [] io) as [d' r] eqn:X. destruct (not_ok r) as [(j & ->)|N].
  2:{ rewrite (not_accepted _ _ N). assert (d' = d) by (change d' with (fst (d', r)); rewrite <- X; apply update_refused; rewrite X; exact N). subst d'. exists R, A. split; [apply (same_kinv T 3 y D R st A n I); lia | reflexivity]. }
  pose proof (covers_now _ _ d0 d io d' j (covers_index i) (writes_index i) (conj O E0) (ki_eternal _ _ _ _ _ _ I) (proj1 Hh) X) as Y.
  assert (ET : eternal (d_kv d') /\ exists x c, In x (dbs_of (applied D R st)) /\ di_name x = ai_db i /\ mget (di_colls x) (ai_coll i) = Some c).
  { unfold run_update in X. destruct (AddIndexTx J i (new_txn d0 true [])) as [t [a|e|]] eqn:Z1; try discriminate. split.
    - destruct (covers_index i _ _ _ Z1 eq_refl) as [M F].
      destruct (F (new_txn d0 true [])) as (t2 & _ & _ & (_ & _ & T3) & _); [repeat split | split; [exact E0|]; split; [exact E0 | intros k e0 Q; discriminate Q] | reflexivity|].
      destruct (commit d t io) as [[d1 t1] r1] eqn:Z2. apply commit_next in Z2. assert (d1 = d') by (destruct r1; congruence). subst d1.
      destruct Z2 as [->| ->]; [apply (ki_eternal _ _ _ _ _ _ I)|]. apply SerialProofs.eternal_publish; [apply (ki_eternal _ _ _ _ _ _ I) | exact T3].
    - unfold AddIndexTx, bind at 1 in Z1. destruct (checkIndexNameNotExists J _ _ _ (new_txn d0 true [])) as [tc [b|e|]] eqn:CK; try discriminate Z1. destruct b; [discriminate Z1|]. exact (RF tc CK). }
  destruct ET as [ET (x & c & Ix & En & Ec)].
  pose proof (covers_next _ _ _ _ _ Y) as NX. change (k_jobs (set_open y n None)) with (k_jobs y). cbn [accepted]. change (k_vars (set_open y n None)) with (k_vars y).
  assert (LU : room T D R st + 1 < two63) by lia. pose proof (index_rest_d A i (proj1 G) ltac:(lia) U) as M.
  destruct (update_run J _ _ _ _ _ _ _ io Z.le_0_1 Hh LU M) as [(E & _)|(d2 & E & H')]; rewrite E in Y; [discriminate Y|].
  assert (d2 = d') by congruence. subst d2. assert (Ej : index_job i (gid A) = j) by congruence. rewrite <- Ej. clear Y E Ej.
  exists (R ++ [index_job i (gid A)]), (with_queue (with_gid A (gid A + 2)) DefaultJobList (queue A ++ [index_job i (gid A)])). split; [|reflexivity]. apply (enqueue_kinv T 3 y D R st A n _ d'); [exact I | exact NX | exact ET|].
  refine (enqueue_inv J T 3 (ksnap y) D R st A (index_job i (gid A)) d' 2 _ IS _ _ _ _ eq_refl _ _ _ H'); [lia | lia | cbn; lia | lia | | |].
  - change (ids_of (index_job i (gid A))) with [gid A + 2; gid A + 1]. constructor; [lia|]. constructor; [lia | constructor].
  - change (ids_of (index_job i (gid A))) with [gid A + 2; gid A + 1]. constructor; [intros [Z1|[]]; lia|]. constructor; [intros [] | constructor].
  - split; [apply index_job_wf; [lia | lia | exact U]|]. right. exists (index_arg i (gid A + 1)). split; [reflexivity|]. exists (IIR (ai_coll i) (ai_db i) 0), x, c. auto.
Qed.
(** document-id allocators and other transactions *)
Lemma quiet_kinv T w y D R st A e d' op : kinv T y D R st A -> dev_ok e -> T + w < two63 -> dweight e = w -> match e with DDid _ _ _ _ | DRelease _ _ _ _ | DOther _ _ => True | _ => False end ->
  d' = k_db y \/ d' = y_db (dstep J (ksnap y) e) -> (d' = k_db y \/ exists u, d' = publish (k_db y) u) -> eternal (d_kv d') -> (forall m c, op m = Some c -> k_open y m = Some c) ->
  exists A', kinv (T + w) (KSys d' (k_vars y) op (k_jobs y)) D R st A'.
Proof.
  intros I K L Ew X C N E O. assert (W0 : 0 <= w) by (rewrite <- Ew; apply weight_nonneg). pose proof (ki_sys _ _ _ _ _ _ I) as IS.
  assert (S : exists A', sinv J (T + w) (Sys d' vars0 (k_jobs y)) D R st A').
  { destruct C as [->| ->]; [exists A; eapply sinv_weaken; [|exact IS]; lia|].
    destruct (other_inv J T (ksnap y) D R st A e IS K ltac:(lia) X) as (A' & H & _). rewrite Ew in H. exists A'.
    destruct e as [i io|i io|o io| |a c s io|a c s io|t io]; try destruct X; exact H. }
  destruct S as (A' & S). exists A'. eapply kinv_move; [exact I | exact S | exact N | exact E | auto | auto | auto | exact (ki_vars _ _ _ _ _ _ I) | exact O].
Qed.
Lemma steady_inc a c s : steady (loc_inc (AtHash (dbKeyByID a) (didSequenceKeyByID c)) s).
Proof. apply StructSerialProofs.steady_updateHash. Qed.
Lemma steady_put a c s : steady (loc_set (AtHash (dbKeyByID a) (didSequenceKeyByID c)) s).
Proof. apply StructSerialProofs.steady_updateHash. Qed.
Lemma did_next {X} (m : Tx X) y d0 io : steady m -> old d0 (k_db y) -> eternal (d_kv (k_db y)) -> db_ok (k_db y) -> let d' := fst (run_update d0 (k_db y) m [] io) in
  (d' = k_db y \/ d' = fst (run_update (k_db y) (k_db y) m [] io)) /\ (d' = k_db y \/ exists u, d' = publish (k_db y) u) /\ eternal (d_kv d').
Proof.
  intros S O E K. cbv zeta. split; [|destruct (update_eternal m d0 (k_db y) io (settled_steady (fun _ => False) m S) (proj2 O) E); auto].
  destruct (update_now m d0 (k_db y) io S O E K) as [Z1|Z1]; [auto | rewrite Z1; auto].
Qed.
Lemma kcost_nonneg c : 0 <= kcost c.
Proof. destruct c as [i|i|p o|a b s|a b s]; cbn [kcost]; try lia; apply weight_nonneg. Qed.
Lemma kweight_nonneg y e : 0 <= kweight y e.
Proof. destruct e as [n c|n io|n|p|t io]; cbn [kweight]; try lia. destruct (k_open y n) as [[[c d0] v]|]; [apply kcost_nonneg | lia]. Qed.
Lemma kload_nonneg es : forall y, 0 <= kload J y es.
Proof. induction es as [|e es IH]; intros y; cbn [kload]; [lia|]. pose proof (kweight_nonneg y e). pose proof (IH (kstep J y e)). lia. Qed.
Lemma accepted_grows l r : exists x, accepted l r = l ++ x.
Proof. destruct r as [j|e|]; cbn [accepted]; [eexists; reflexivity | apply grew | apply grew]. Qed.
Lemma kend_jobs y c d0 v io : exists l, k_jobs (kend J y c d0 v io) = k_jobs y ++ l.
Proof.
  destruct c as [i|i|p o|a b s|a b s]; cbn [kend]; try apply grew.
  - destruct (match ValidateCreateSchema i with Some e => _ | None => _ end) as [d r]. apply accepted_grows.
  - destruct (run_update d0 (k_db y) (AddIndexTx J i) [] io) as [d r]. apply accepted_grows.
Qed.
(** new requests change nothing in what is applied *)
Lemma applied_queued T T' y y' D R st A R' A' l : kinv T y D R st A -> kinv T' y' D R' st A' -> k_jobs y' = k_jobs y ++ l -> applied D R' st = applied D R st.
Proof.
  intros I I' E. pose proof (si_jobs _ _ _ _ _ _ _ (ki_sys _ _ _ _ _ _ I)) as E1. pose proof (si_jobs _ _ _ _ _ _ _ (ki_sys _ _ _ _ _ _ I')) as E2. cbn [ksnap y_jobs] in E1, E2.
  rewrite E2, E1, <- app_assoc in E. apply app_inv_head in E. subst R'. unfold applied. destruct st; try reflexivity. destruct R; [|reflexivity].
  exfalso. exact (ds_stat _ _ _ _ (si_state _ _ _ _ _ _ _ (ki_sys _ _ _ _ _ _ I)) eq_refl).
Qed.
Ltac gg := split; apply grew.
Lemma kstep_inv T y D R st A e : kinv T y D R st A -> kev_ok e -> T + kweight y e < two63 ->
  exists D' R' st' A', kinv (T + kweight y e) (kstep J y e) D' R' st' A' /\ (exists l, D' = D ++ l) /\ (exists l, applied D' R' st' = applied D R st ++ l).
Proof.
  intros I K L. destruct e as [n c|n io|n|p|t io]; cbn [kweight kev_ok] in *; rewrite ?Z.add_0_r in *.
  - exists D, R, st, A. split; [apply begin_inv; assumption | gg].
  - destruct (k_open y n) as [[[c d0] v]|] eqn:H.
    2:{ exists D, R, st, A. rewrite Z.add_0_r. cbn [kstep]. rewrite H. split; [exact I | gg]. }
    pose proof (ki_open _ _ _ _ _ _ I _ _ _ _ H) as (O & KO & _). pose proof (proj1 (si_holds _ _ _ _ _ _ _ (ki_sys _ _ _ _ _ _ I))) as KD. cbn [ksnap y_db] in KD.
    assert (OP : forall m x, k_open (set_open y n None) m = Some x -> k_open y m = Some x) by (intros m x; apply set_open_none).
    destruct c as [i|i|p o|a b s|a b s].
    + destruct (create_kinv T y D R st A n i d0 v io I H L) as (R' & A' & I' & _). exists D, R', st, A'. split; [exact I'|]. split; [apply grew|].
      destruct (kend_jobs (set_open y n None) (KCreate i) d0 v io) as (l & E). rewrite (applied_queued _ _ _ _ _ _ _ _ _ _ l I I'); [apply grew|]. cbn [kstep]. rewrite H. exact E.
    + destruct (index_kinv T y D R st A n i d0 v io I H L) as (R' & A' & I' & _). exists D, R', st, A'. split; [exact I'|]. split; [apply grew|].
      destruct (kend_jobs (set_open y n None) (KIndex i) d0 v io) as (l & E). rewrite (applied_queued _ _ _ _ _ _ _ _ _ _ l I I'); [apply grew|]. cbn [kstep]. rewrite H. exact E.
    + change (kcost (KWork p o)) with 0 in *. rewrite Z.add_0_r in *. eapply work_kinv; eassumption.
    + destruct (did_next _ y d0 io (steady_inc a b s) O (ki_eternal _ _ _ _ _ _ I) KD) as (N1 & N2 & N3).
      destruct (quiet_kinv T 1 y D R st A (DDid a b s io) _ (k_open (set_open y n None)) I KO L eq_refl Logic.I N1 N2 N3 OP) as (A' & I'). exists D, R, st, A'.
      split; [|gg]. cbn [kstep]. rewrite H. exact I'.
    + destruct (did_next _ y d0 io (steady_put a b s) O (ki_eternal _ _ _ _ _ _ I) KD) as (N1 & N2 & N3).
      destruct (quiet_kinv T 1 y D R st A (DRelease a b s io) _ (k_open (set_open y n None)) I KO L eq_refl Logic.I N1 N2 N3 OP) as (A' & I'). exists D, R, st, A'.
      split; [|gg]. cbn [kstep]. rewrite H. exact I'.
  - exists D, R, st, A. split; [|gg]. pose proof (same_kinv T 0 y D R st A n I (Z.le_refl 0)) as I'. rewrite Z.add_0_r in I'. exact I'.
  - exists D, R, st, A. split; [|gg]. destruct I as [I1 I2 I3 I4]. split; try assumption. cbn [kstep k_vars]. intros q. unfold set_kvars. destruct (Nat.eqb q p); [discriminate | apply I2].
  - assert (L0 : T + 0 < two63) by lia.
    assert (N : fst (fst (commit (k_db y) t io)) = k_db y \/ fst (fst (commit (k_db y) t io)) = publish (k_db y) t).
    { destruct (commit (k_db y) t io) as [[d' t'] r] eqn:C. apply commit_next in C. exact C. }
    destruct (quiet_kinv T 0 y D R st A (DOther t io) (fst (fst (commit (k_db y) t io))) (k_open y) I) as (A' & I'); try (auto; fail).
    + intros k o G. exact (proj1 (K k o G)).
    + destruct N as [->| ->]; eauto.
    + destruct N as [->| ->]; [exact (ki_eternal _ _ _ _ _ _ I)|]. apply SerialProofs.eternal_publish; [exact (ki_eternal _ _ _ _ _ _ I)|]. intros k e G. exact (proj2 (K k (Some e) G) e eq_refl).
    + rewrite Z.add_0_r in I'. exists D, R, st, A'. split; [exact I' | gg].
Qed.
Lemma krun_inv es : forall T y D R st A, kinv T y D R st A -> Forall kev_ok es -> T + kload J y es < two63 ->
  exists D' R' st' A', kinv (T + kload J y es) (krun J y es) D' R' st' A' /\ (exists l, D' = D ++ l) /\ (exists l, applied D' R' st' = applied D R st ++ l).
Proof.
  induction es as [|e es IH]; intros T y D R st A I F L; cbn [kload krun fold_left] in *.
  - rewrite Z.add_0_r. exists D, R, st, A. split; [exact I | gg].
  - inversion F as [|? ? F1 F2]; subst. pose proof (kload_nonneg es (kstep J y e)) as L0. pose proof (kweight_nonneg y e).
    destruct (kstep_inv T y D R st A e I F1 ltac:(lia)) as (D1 & R1 & st1 & A1 & I1 & (l1 & E1) & (m1 & G1)).
    destruct (IH _ _ _ _ _ _ I1 F2 ltac:(lia)) as (D2 & R2 & st2 & A2 & I2 & (l2 & E2) & (m2 & G2)). exists D2, R2, st2, A2. split.
    + replace (T + (kweight y e + kload J (kstep J y e) es)) with (T + kweight y e + kload J (kstep J y e) es) by lia. exact I2.
    + split; [exists (l1 ++ l2); rewrite E2, E1, app_assoc; reflexivity | exists (m1 ++ m2); rewrite G2, G1, app_assoc; reflexivity].
Qed.
Lemma kstart_inv d : holds 0 d m_empty -> eternal (d_kv d) -> kinv 0 (kstart d) [] [] HFresh m_empty.
Proof. intros H E. split; [apply (start_inv J d H) | discriminate | exact E | discriminate]. Qed.
Lemma krun_app y es es' : krun J y (es ++ es') = krun J (krun J y es) es'.
Proof. unfold krun. apply fold_left_app. Qed.
Lemma kload_app es : forall y es', kload J y (es ++ es') = kload J y es + kload J (krun J y es) es'.
Proof. induction es as [|e es IH]; intros y es'; cbn [app kload]; [reflexivity|]. rewrite IH. unfold krun. cbn [fold_left]. lia. Qed.
End WithJson.
