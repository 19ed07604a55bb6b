(** C49, C51: documents of collections. The specification ([zmap], [doc_spec], [store_spec]) is the
    last part of Dml.v; [rep] (DmlProofs.v) relates a store to the documents it holds. *)
From Verif Require Import Bytes SMap Memcmp MemcmpProofs KeyModel Provider ProviderProofs World UtilTxn Sequence Model Schema DocTxn DocKeys Dml DmlProofs.

(** * C49 *)
(** operations in one transaction of the caller *)
Definition named_op := (bytes * bytes * docop)%type.       (* database name, collection name, operation *)
Fixpoint coll_ops (x : dtxn) (ops : list named_op) : dtxn * list (result docval) :=
  match ops with
  | [] => (x, [])
  | (dbn, coll, o) :: ops' => let '(x1, r) := coll_op x dbn coll o in let '(x2, rs) := coll_ops x1 ops' in (x2, r :: rs)
  end.
(** what a program does with a store: single operations without a transaction, whole transactions of
    its own (committed or discarded), and changes to anything that is not a document. [h0] and [h1]
    are the schema handle when the transaction is created and when it commits, [io] says whether the
    storage engine fails to write. *)
Inductive action :=
| AAuto (h0 h1 : handle) (io : bool) (op : named_op)
| ATxn (h0 h1 : handle) (io upd : bool) (ops : list named_op) (docommit : bool)
| AOther (t : txn) (io : bool).
Inductive outcome := OutAuto (r : result docval) | OutTxn (rs : list (result docval)) (r : result unit) | OutOther.
Definition act (d : db) (a : action) : db * outcome :=
  match a with
  | AAuto h0 h1 io (dbn, coll, o) => let '(_, d', r) := auto_op h0 h1 d d [] io dbn coll o in (d', OutAuto r)
  | ATxn h0 h1 io upd ops docommit =>
      let '(x, rs) := coll_ops (NewTxn h0 d upd []) ops in
      if docommit then let '(_, d', _, r, _) := dcommit h1 d io x in (d', OutTxn rs r) else (d, OutTxn rs (Ok tt))
  | AOther t io => let '(d', _, _) := commit d t io in (d', OutOther)
  end.
Fixpoint acts (d : db) (l : list action) : db * list outcome :=
  match l with [] => (d, []) | a :: l' => let '(d1, o) := act d a in let '(d2, os) := acts d1 l' in (d2, o :: os) end.
(** hypotheses: ids are int64 values (a Go type), a read-only transaction is only read, GetDidRange is
    treated by C51, other transactions write no document *)
Definition op_ok (p : named_op) : Prop := Forall is_i64 (op_ids (snd p)) /\ snd p <> ORange.
Definition schema_ok (h : handle) : Prop := forall dbn coll c, resolve (h_val h) dbn coll = Some c -> is_i64 c.
Definition action_ok (a : action) : Prop :=
  match a with
  | AAuto h0 _ _ op => schema_ok h0 /\ op_ok op
  | ATxn h0 _ _ upd ops _ => schema_ok h0 /\ Forall op_ok ops /\ (upd = false -> Forall (fun p => op_writes (snd p) = false) ops)
  | AOther t _ => forall c k, is_i64 c -> has_prefix k (docPrefix c) = true -> get (t_pend t) k = None
  end.
(** the same program on the specification *)
Fixpoint store_specs (h : handle) (D : dstore) (ops : list named_op) : list (result docval) * dstore :=
  match ops with
  | [] => ([], D)
  | (dbn, coll, o) :: ops' =>
      let '(r, D1) := store_spec (resolve (h_val h) dbn coll) D o in let '(rs, D2) := store_specs h D1 ops' in (r :: rs, D2)
  end.
(** equal documents *)
Definition same (D D' : dstore) : Prop := forall c, D c = D' c.
(** [explains D a o D']: outcome [o] of action [a] on the documents [D] is right, leaving [D'] *)
Definition explains (D : dstore) (a : action) (o : outcome) (D' : dstore) : Prop :=
  match a, o with
  | AAuto h0 _ io (dbn, coll, op), OutAuto r =>
      let '(rs, Ds) := store_spec (resolve (h_val h0) dbn coll) D op in
      (r = rs /\ same D' Ds) \/
      (* the commit of a writing operation failed: reported, no effect *)
      (op_writes op = true /\ (exists v, rs = Ok v) /\ (forall v, r <> Ok v) /\ same D' D)
  | ATxn h0 _ _ upd ops docommit, OutTxn rs r =>
      rs = fst (store_specs h0 D ops) /\
      same D' (if docommit && upd && (match r with Ok _ => true | _ => false end) then snd (store_specs h0 D ops) else D)
  | AOther _ _, OutOther => same D' D
  | _, _ => False
  end.
Fixpoint explained (D : dstore) (l : list action) (os : list outcome) (D' : dstore) : Prop :=
  match l, os with
  | [], [] => same D' D
  | a :: l', o :: os' => exists D1, explains D a o D1 /\ explained D1 l' os' D'
  | _, _ => False
  end.

Lemma coll_ops_spec h upd ops : schema_ok h -> Forall op_ok ops -> (upd = false -> Forall (fun p => op_writes (snd p) = false) ops) ->
  forall x D M, dt_start x = h_val h -> okt upd (dt_t x) -> view (dt_t x) = M -> rep M D ->
  exists x', coll_ops x ops = (x', fst (store_specs h D ops)) /\ okt upd (dt_t x') /\ rep (view (dt_t x')) (snd (store_specs h D ops)) /\
    keeps (dt_t x) (dt_t x') /\ dt_start x' = dt_start x /\ dt_upd x' = dt_upd x.
Proof.
  intros SC. induction ops as [|[[dbn coll] o] ops IH]; intros F RO x D M St O V R.
  - exists x. cbn [coll_ops store_specs fst snd]. split; [reflexivity|]. split; [exact O|]. split; [rewrite V; exact R|]. split; [apply keeps_refl | auto].
  - inversion F as [|? ? [F1 F1'] F2]. subst. cbn [snd] in F1, F1'.
    assert (RO2 : upd = false -> Forall (fun p : named_op => op_writes (snd p) = false) ops) by (intros E; specialize (RO E); inversion RO; assumption).
    cbn [coll_ops store_specs]. unfold coll_op, with_coll. rewrite St. unfold store_spec. destruct (resolve (h_val h) dbn coll) as [cid|] eqn:Rs.
    + pose proof (SC _ _ _ Rs) as Hc.
      destruct (op_spec upd _ D cid o R Hc F1 F1') as (M' & Sp & R' & _).
      { intros Wr. destruct upd; [reflexivity|]. specialize (RO eq_refl). inversion RO as [|? ? X]. cbn [snd] in X. congruence. }
      destruct (doc_spec (D cid) o) as [r m]. cbn [fst snd] in *.
      destruct (Sp (dt_t x) O eq_refl) as (t' & E & O' & V' & K'). cbn [ReferredCollections dt_t]. rewrite E.
      destruct (IH F2 RO2 (with_t (ReferredCollections x [cid]) t') (dupd D cid m) M') as (x' & E' & O2 & R2 & K2 & S2 & U2); cbn [with_t ReferredCollections dt_start dt_t dt_upd] in *; [exact St | exact O' | exact V' | exact R'|].
      rewrite E'. destruct (store_specs h (dupd D cid m) ops) as [rs D2]. cbn [fst snd] in *. exists x'. split; [reflexivity|]. split; [exact O2|]. split; [exact R2|].
      split; [eapply keeps_trans; eassumption|]. split; [congruence | exact U2].
    + destruct (IH F2 RO2 x D _ St O eq_refl R) as (x' & E' & O2 & R2 & K2 & S2 & U2). rewrite E'. destruct (store_specs h D ops) as [rs D2].
      cbn [fst snd] in *. exists x'. split; [reflexivity|]. split; [exact O2|]. split; [exact R2|]. split; [exact K2|]. split; [congruence | exact U2].
Qed.
(** a commit of a transaction that saw the current store *)
Lemma dcommit_solo h d io x h' d' x' r ran : db_ok d -> okt (dt_upd x) (dt_t x) -> keeps (new_txn d (dt_upd x) []) (dt_t x) ->
  dcommit h d io x = (h', d', x', r, ran) ->
  db_ok d' /\ (dview d' = (if dt_upd x && (match r with Ok _ => true | _ => false end) then view (dt_t x) else dview d)).
Proof.
  intros K O (K1 & K2 & K3 & _). unfold dcommit. destruct (dt_upd x) eqn:U; cbn [negb andb].
  - destruct (Check h false (dt_start x) (dt_refs x)) as [h1 [[|]| |]]; try (intros E; inversion E; subst; auto; fail).
    destruct (commit_solo d (dt_t x) io K (proj1 O) K2 K1 K3) as [(d1 & t1 & -> & V & K' & _)|(t1 & -> & _)]; intros E; inversion E; subst; auto.
  - intros E. inversion E. subst. auto.
Qed.
Lemma same_refl D : same D D.
Proof. intros c. reflexivity. Qed.
Lemma spec_err_same D c o e Ds : store_spec (Some c) D o = (Err e, Ds) -> same D Ds.
Proof.
  unfold store_spec. destruct (doc_spec (D c) o) as [r m] eqn:E. intros X. assert (r = Err e) by congruence. assert (Ds = dupd D c m) by congruence. subst.
  assert (m = D c).
  { destruct o; cbn [doc_spec] in E; try congruence; try (destruct (has (D c) did); congruence); try (destruct (zgetmany (D c) dids); congruence). }
  subst m. intros j. unfold dupd. destruct (j =? c) eqn:Ej; [apply Z.eqb_eq in Ej; subst; reflexivity | reflexivity].
Qed.
Lemma spec_no_panic cid D o Ds : store_spec cid D o <> (Panic, Ds).
Proof.
  destruct cid as [c|]; [|discriminate]. unfold store_spec. destruct (doc_spec (D c) o) as [r m] eqn:E. intros X. assert (r = Panic) by congruence. subst.
  destruct o; cbn [doc_spec] in E; try discriminate; try (destruct (has (D c) did); discriminate); try (destruct (zget (D c) did); discriminate); try (destruct (zgetmany (D c) dids); discriminate).
  destruct (D c) as [|[a b] l]; discriminate.
Qed.
Lemma act_explained d D a : db_ok d -> rep (dview d) D -> action_ok a ->
  exists D', explains D a (snd (act d a)) D' /\ rep (dview (fst (act d a))) D' /\ db_ok (fst (act d a)).
Proof.
  intros K R A. destruct a as [h0 h1 io [[dbn coll] o]|h0 h1 io upd ops docommit|t io]; cbn [act].
  - destruct A as [SC [F1 F2]]. cbn [snd] in F1, F2. unfold auto_op, explains.
    assert (SP : forall w, (op_writes o = true -> w = true) -> exists t', with_coll false (NewTxn h0 d w []) dbn coll (fun cid => op_tx cid o) =
       (with_t (NewTxn h0 d w []) t', fst (store_spec (resolve (h_val h0) dbn coll) D o)) /\ okt w t' /\ rep (view t') (snd (store_spec (resolve (h_val h0) dbn coll) D o)) /\ keeps (new_txn d w []) t').
    { intros w W. unfold with_coll, store_spec. cbn [NewTxn dt_start]. destruct (resolve (h_val h0) dbn coll) as [c|] eqn:Rs.
      - destruct (op_spec w _ D c o R (SC _ _ _ Rs) F1 F2 W) as (M' & Sp & R' & _). destruct (doc_spec (D c) o) as [r m]. cbn [fst snd] in *.
        destruct (Sp (new_txn d w []) (okt_new d w [] ltac:(reflexivity)) (view_new_dview d w [])) as (t' & E & O' & V' & K'). change (dt_t (NewTxn h0 d w [])) with (new_txn d w []). rewrite E.
        exists t'. split; [reflexivity|]. split; [exact O'|]. split; [rewrite V'; exact R' | exact K'].
      - exists (new_txn d w []). cbn [fst snd]. split; [reflexivity|]. split; [apply okt_new; reflexivity|]. split; [rewrite view_new_dview; exact R | apply keeps_refl]. }
    destruct (store_spec (resolve (h_val h0) dbn coll) D o) as [rs Ds] eqn:SS. cbn [fst snd] in SP. destruct (op_writes o) eqn:W.
    + destruct (SP true ltac:(reflexivity)) as (t' & E & O' & R' & K'). unfold run_doc_update. rewrite E. destruct rs as [v|e|].
      * destruct (dcommit h1 d io (with_t (NewTxn h0 d true []) t')) as [[[[h' d'] x'] r] ran] eqn:C.
        apply dcommit_solo in C; [|exact K | exact O' | exact K']. destruct C as [K2 V2]. cbn [with_t NewTxn dt_upd dt_t andb] in V2. cbn [fst snd].
        destruct r as [[]|e|].
        -- exists Ds. split; [left; split; [reflexivity | apply same_refl]|]. rewrite V2. auto.
        -- exists D. split; [right; split; [reflexivity|]; split; [eauto|]; split; [discriminate | apply same_refl]|]. rewrite V2. auto.
        -- exists D. split; [right; split; [reflexivity|]; split; [eauto|]; split; [discriminate | apply same_refl]|]. rewrite V2. auto.
      * cbn [fst snd]. exists D. split; [left; split; [reflexivity|]|auto]. destruct (resolve (h_val h0) dbn coll) as [c|]; [eapply spec_err_same; exact SS|].
        cbn [store_spec] in SS. inversion SS. apply same_refl.
      * destruct (spec_no_panic _ _ _ _ SS).
    + destruct (SP false ltac:(discriminate)) as (t' & E & O' & R' & K'). rewrite E. cbn [fst snd].
      exists D. split; [|auto]. left. split; [reflexivity|].
      destruct (resolve (h_val h0) dbn coll) as [c|]; [|cbn [store_spec] in SS; inversion SS; apply same_refl].
      unfold store_spec in SS. destruct (doc_spec (D c) o) as [r m] eqn:Ed. assert (Ds = dupd D c m) by congruence. subst Ds.
      assert (m = D c). { destruct o; cbn [op_writes] in W; try discriminate; cbn [doc_spec] in Ed; congruence. }
      subst m. intros j. unfold dupd. destruct (j =? c) eqn:Ej; [apply Z.eqb_eq in Ej; subst; reflexivity | reflexivity].
  - destruct A as (SC & F & RO).
    destruct (coll_ops_spec h0 upd ops SC F RO (NewTxn h0 d upd []) D (dview d) eq_refl) as (x' & E & O & R' & K' & S' & U'); [apply okt_new; reflexivity | apply view_new_dview | exact R|].
    rewrite E. cbn [NewTxn dt_t dt_upd] in K', U'. destruct docommit.
    + destruct (dcommit h1 d io x') as [[[[h' d'] x2] r] ran] eqn:C. apply dcommit_solo in C; [|exact K | rewrite U'; exact O | rewrite U'; exact K'].
      destruct C as [K2 V2]. rewrite U' in V2. cbn [fst snd explains andb]. eexists. split; [split; [reflexivity | apply same_refl]|]. rewrite V2. split; [|exact K2].
      destruct (upd && _); assumption.
    + cbn [fst snd explains andb]. exists D. split; [split; [reflexivity | apply same_refl]|]. auto.
  - destruct (commit d t io) as [[d' t'] r] eqn:C. cbn [fst snd explains]. exists D. split; [apply same_refl|]. split.
    + apply (rep_frame (dview d)); [exact R|]. intros c k Hc P. specialize (A c k Hc P). unfold commit in C.
      assert (X : d' = d \/ d' = publish d t).
      { destruct (negb (t_open t)); [inversion C; auto|]. destruct (entries (t_pend t)); [inversion C; auto|]. destruct (conflict d t); [inversion C; auto|]. destruct io; inversion C; auto. }
      destruct X as [-> | ->]; [reflexivity|]. unfold dview, live_map. rewrite !get_sfilter. cbn [publish d_kv d_now]. rewrite get_apply_pend, A. reflexivity.
    + unfold commit in C. destruct (negb (t_open t)); [inversion C; subst; auto|]. destruct (entries (t_pend t)); [inversion C; subst; auto|]. destruct (conflict d t); [inversion C; subst; auto|].
      destruct io; inversion C; subst; auto. apply db_ok_publish. exact K.
Qed.
(** From any store holding documents [D], every program's outcomes are explained by the specification,
    step by step, and the store ends up holding the documents the specification ends with. *)
Theorem C49_documents_refine_maps : forall l d D, db_ok d -> rep (dview d) D -> Forall action_ok l ->
  exists D', explained D l (snd (acts d l)) D' /\ rep (dview (fst (acts d l))) D'.
Proof.
  induction l as [|a l IH]; intros d D K R A.
  - exists D. split; [apply same_refl | exact R].
  - inversion A as [|? ? A1 A2]. subst. destruct (act_explained d D a K R A1) as (D1 & X1 & R1 & K1). cbn [acts].
    destruct (act d a) as [d1 o]. cbn [fst snd] in *. destruct (IH d1 D1 K1 R1 A2) as (D2 & X2 & R2). destruct (acts d1 l) as [d2 os]. cbn [fst snd] in *.
    exists D2. split; [|exact R2]. exists D1. auto.
Qed.
(** The specification itself, read back: what an operation on one collection leaves in every collection. *)
Theorem C49_other_collections_untouched : forall c c' D o, c' <> c -> snd (store_spec (Some c) D o) c' = D c'.
Proof. intros c c' D o N. unfold store_spec. destruct (doc_spec (D c) o). apply dupd_ne. exact N. Qed.
Theorem C49_specification_is_a_map : forall m k v j, zsorted m ->
  zget (zset m k v) j = (if j =? k then Some v else zget m j) /\ zget (zdel m k) j = (if j =? k then None else zget m j) /\
  zsorted (zset m k v) /\ zsorted (zdel m k) /\ (In (j, v) m <-> zget m j = Some v).
Proof.
  intros m k v j S. split; [apply zget_zset|]. split; [apply zget_zdel; exact S|]. split; [apply zset_sorted; exact S|]. split; [apply zdel_sorted; exact S|].
  symmetry. apply zget_in. exact S.
Qed.
(** non-document keys are never touched by the operations of a transaction *)
Theorem C49_only_document_keys_written : forall w M D c o, rep M D -> is_i64 c -> Forall is_i64 (op_ids o) -> o <> ORange -> (op_writes o = true -> w = true) ->
  exists M', spec w (op_tx c o) M (fst (doc_spec (D c) o)) M' /\ forall k, has_prefix k (docPrefix c) = false -> get M' k = get M k.
Proof. intros w M D c o R Hc F N W. destruct (op_spec w M D c o R Hc F N W) as (M' & X1 & _ & X3). eauto. Qed.
(** a program with two collections, a failed commit, a discarded transaction and a missing collection *)
Definition coll1 (n : bytes) (i : Z) : CollectionInfo := CI i n None [] Public.
Definition h49 : handle := Handle (Some (CRef 0 (MC 3 (Some (set empty (str "db") (DI 1 (str "db") (Some (set (set empty (str "a") (coll1 (str "a") 2)) (str "b") (coll1 (str "b") 3))) [] Public))) [] 4))) 0.
Definition prog49 : list action :=
  let a := (str "db", str "a") in let b := (str "db", str "b") in
  [AAuto h49 h49 false (a, OInsert 5 (str "x")); AAuto h49 h49 false (a, OInsert 5 (str "y")); AAuto h49 h49 true (b, OUpsert (-7) (str "z"));
   ATxn h49 h49 false true [(b, OUpsert (-7) (str "z")); (a, OUpsert 4 (str "w")); (a, OGetAll); (b, OCount)] true;
   ATxn h49 h49 false true [(a, ODeleteAll); (a, OCount)] false;
   AAuto h49 h49 false ((str "db", str "c"), OCount); AAuto h49 h49 false (a, OGetMany [4; 9]); AAuto h49 h49 false (a, ODeleteAll); AAuto h49 h49 false (a, OGet 4); AAuto h49 h49 false (b, OGetAll)].
Example C49_nonvacuous : snd (acts (db_init 0 false) prog49) =
  [OutAuto (Ok VUnit); OutAuto (Err ErrDocExists); OutAuto (Err EIO);
   OutTxn [Ok (VBool true); Ok (VBool true); Ok (VDocs [str "w"; str "x"] None); Ok (VNum 1)] (Ok tt);
   OutTxn [Ok (VNum 2); Ok (VNum 0)] (Ok tt);
   OutAuto (Err ErrCollectionNotExists); OutAuto (Ok (VDocs [str "w"] (Some ErrDocNotFound))); OutAuto (Ok (VNum 2)); OutAuto (Err ErrDocNotFound); OutAuto (Ok (VDocs [str "z"] None))].
Proof. vm_compute. reflexivity. Qed.
Example C49_hypotheses_met : Forall action_ok prog49 /\ db_ok (db_init 0 false) /\ rep (dview (db_init 0 false)) (fun _ => []).
Proof.
  split; [|split; [apply db_ok_init|]].
  - assert (S : schema_ok h49).
    { intros dbn coll c H. unfold resolve, cacheCollectionInfo in H. cbn [h49 h_val option_map c_val cache_dbs mc_dbs mget] in H. rewrite get_set, get_empty in H.
      destruct (bytes_eqb dbn (str "db")); [|discriminate]. cbn [di_colls mget] in H. rewrite !get_set, get_empty in H.
      destruct (bytes_eqb coll (str "b")); [inversion H; unfold is_i64; rewrite two63_val; lia|]. destruct (bytes_eqb coll (str "a")); [inversion H; unfold is_i64; rewrite two63_val; lia | discriminate]. }
    assert (I : forall z, (-10 <= z <= 10)%Z -> is_i64 z) by (intros z Hz; unfold is_i64; rewrite two63_val; lia).
    unfold prog49.
    assert (OK1 : forall dbn coll o, op_ids o = [] -> o <> ORange -> op_ok (dbn, coll, o)) by (intros dbn coll o E N; split; [cbn [snd]; rewrite E; constructor | exact N]).
    assert (OK2 : forall dbn coll o z, op_ids o = [z] -> (-10 <= z <= 10)%Z -> o <> ORange -> op_ok (dbn, coll, o)) by (intros dbn coll o z E Hz N; split; [cbn [snd]; rewrite E; constructor; [apply I; exact Hz | constructor] | exact N]).
    Ltac op1 OK1 OK2 := first [apply OK1; [reflexivity | discriminate] | eapply OK2; [reflexivity | lia | discriminate]].
    assert (TX : forall ops docommit, Forall op_ok ops -> action_ok (ATxn h49 h49 false true ops docommit)) by (intros ops dc F; split; [exact S|]; split; [exact F | discriminate]).
    assert (AU : forall io p, op_ok p -> action_ok (AAuto h49 h49 io p)) by (intros io p F; split; assumption).
    repeat (apply Forall_cons; [first [apply AU; op1 OK1 OK2 | apply TX; repeat (apply Forall_cons; [op1 OK1 OK2|]); apply Forall_nil |
      apply AU; split; [cbn [snd op_ids]; constructor; [apply I; lia|]; constructor; [apply I; lia | constructor] | discriminate]] |]). apply Forall_nil.
  - apply (rep_frame empty); [apply rep_empty|]. reflexivity.
Qed.

(** * C51 *)
Lemma sorted_head (L : list (bytes * ent)) x : sortedb L = true -> In x L -> (forall y, In y L -> bytes_le (fst x) (fst y)) -> exists l, L = x :: l.
Proof.
  destruct L as [|[k e] L]; intros S I Le; [destruct I|]. apply sortedb_cons in S. destruct S as [S _]. destruct I as [<-|I]; [eauto|].
  exfalso. destruct x as [k' e']. apply S in I. pose proof (Le (k, e) (or_introl eq_refl)) as X. cbn [fst] in X. apply (proj2 (bytes_not_lt _ _) X). exact I.
Qed.
Lemma sorted_last (L : list (bytes * ent)) x : sortedb L = true -> In x L -> (forall y, In y L -> bytes_le (fst y) (fst x)) -> exists l, rev L = x :: l.
Proof.
  intros S I Le. destruct (exists_last (l := L)) as (L' & y & ->); [intros ->; destruct I|]. rewrite rev_app_distr. cbn [rev app]. exists (rev L'). f_equal.
  apply in_app_or in I. destruct I as [I|[I|[]]]; [|exact I]. exfalso.
  apply In_nth_error in I. destruct I as [n I]. pose proof (nth_error_Some L' n) as [B _]. specialize (B ltac:(congruence)).
  assert (X : bytes_lt (fst x) (fst y)).
  { apply (sorted_nth (L' ++ [y]) n (length L')); [exact S | exact B | rewrite nth_error_app1 by exact B; exact I | rewrite nth_error_app2, Nat.sub_diag by lia; reflexivity]. }
  apply (proj2 (bytes_not_lt _ _) (Le y ltac:(apply in_or_app; right; left; reflexivity))). exact X.
Qed.
Lemma range_first w x l M : spec w (scan_loop (x :: l) range_cb (Ok 0)) M
  (Ok (match decodeDocKey (fst x) with Ok (_, did) => Ok did | Err e => Err e | Panic => Panic end)) M.
Proof. destruct x as [k e]. eapply spec_scan_cons; [apply spec_ret|]. apply spec_ret. Qed.
Lemma docPrefix_form c : docPrefix c = (EncodeInt64 CollectionPrefix c ++ str "_") ++ Byte.x64 :: repeat (z2b 255) 0.
Proof. unfold docPrefix, documentPrefix. rewrite <- app_assoc. reflexivity. Qed.
Lemma below_PrefixNext c k : bytes_le (docPrefix c) k -> bytes_lt k (PrefixNext (docPrefix c)) -> has_prefix k (docPrefix c) = true.
Proof.
  intros H1 H2. rewrite docPrefix_form in *. destruct (proj1 (PrefixNext_range _ Byte.x64 0 k eq_refl) (conj H1 H2)) as [X|(m & X & _)]; [exact X | lia].
Qed.
Lemma zsorted_first m a v : zsorted ((a, v) :: m) -> forall p, In p ((a, v) :: m) -> a <= fst p.
Proof. intros S p [<-|H]; [cbn; lia|]. inversion S as [|? ? _ F]. subst. rewrite Forall_forall in F. specialize (F _ H). cbn [fst] in *. lia. Qed.
Lemma zsorted_last m b : zsorted (m ++ [b]) -> forall p, In p (m ++ [b]) -> fst p <= fst b.
Proof.
  induction m as [|a m IH]; intros S p H; cbn [app] in *; [destruct H as [<-|[]]; lia|]. inversion S as [|? ? S' F]. subst. destruct H as [<-|H]; [|apply IH; assumption].
  rewrite Forall_forall in F. specialize (F b ltac:(apply in_or_app; right; left; reflexivity)). lia.
Qed.
Lemma docKey_le c d d' : is_i64 c -> is_i64 d -> is_i64 d' -> d <= d' -> bytes_le (docKey c d) (docKey c d').
Proof.
  intros Hc Hd Hd' L. unfold bytes_le. rewrite docKey_cmp by assumption. rewrite Z.compare_refl. cbn [then_cmp]. destruct (Z.compare_spec d d'); try discriminate. lia.
Qed.
(** In a collection with documents GetDidRange returns the least and the greatest id, whatever else the
    store holds except the one key PrefixNext(prefix of the collection), which no part of the code
    writes. Missing: the empty collection (see the refutation). *)
Theorem C51_range_of_a_collection_with_documents_partial : forall w M D c, rep M D -> is_i64 c -> D c <> [] ->
  get M (PrefixNext (docPrefix c)) = None ->
  exists mn mx, spec w (doc_range c) M (Ok (mn, mx)) M /\
    zget (D c) mn <> None /\ zget (D c) mx <> None /\ forall did v, zget (D c) did = Some v -> mn <= did <= mx.
Proof.
  intros w M D c R Hc Ne Np. destruct (r_map _ _ R c) as [S I]. rewrite Forall_forall in I.
  assert (INE : forall p, In p (D c) -> In (doc_entry c p) (entries M)).
  { intros [d v] H. apply get_in. cbn [fst snd]. rewrite (r_doc _ _ R) by (try exact Hc; exact (I _ H)). apply zget_in in H; [|exact S]. rewrite H. reflexivity. }
  assert (DOC : forall k e, In (k, e) (entries M) -> has_prefix k (docPrefix c) = true -> exists p, In p (D c) /\ k = docKey c (fst p) /\ is_i64 (fst p)).
  { intros k e H P. apply get_in in H. destruct (r_only _ _ R c k e Hc H P) as (did & Hd & ->). rewrite (r_doc _ _ R) in H by assumption.
    destruct (zget (D c) did) as [v|] eqn:G; [|discriminate]. exists (did, v). split; [apply zget_in; assumption | auto]. }
  assert (FST : exists a, In a (D c) /\ forall p, In p (D c) -> fst a <= fst p).
  { destruct (D c) as [|[a v] m]; [congruence|]. exists (a, v). split; [left; reflexivity|]. apply (zsorted_first m a v S). }
  assert (LST : exists b, In b (D c) /\ forall p, In p (D c) -> fst p <= fst b).
  { destruct (exists_last Ne) as (m & b & E). rewrite E in *. exists b. split; [apply in_or_app; right; left; reflexivity | apply zsorted_last; exact S]. }
  destruct FST as (a & Ia & La). destruct LST as (b & Ib & Lb). exists (fst a), (fst b).
  assert (PK : forall p, In p (D c) -> has_prefix (docKey c (fst p)) (docPrefix c) = true) by (intros p _; apply docKey_has_prefix; auto).
  split.
  2:{ assert (G : forall p, In p (D c) -> zget (D c) (fst p) <> None) by (intros [d v] H; apply zget_in in H; [cbn [fst]; congruence | exact S]).
      split; [apply G; exact Ia|]. split; [apply G; exact Ib|]. intros did v G'. apply zget_in in G'; [|exact S]. split; [apply (La _ G') | apply (Lb _ G')]. }
  assert (F1 : exists l, filter (fun x => has_prefix (fst x) [] && bytes_leb (docPrefix c) (fst x)) (entries M) = doc_entry c a :: l).
  { apply sorted_head; [apply sorted_filter, sm_ok | |].
    - apply filter_In. split; [apply INE; exact Ia|]. cbn [doc_entry fst]. apply andb_true_iff. split; [reflexivity|]. apply bytes_leb_le, prefix_ge, PK, Ia.
    - intros [k e] H. apply filter_In in H. destruct H as [H F]. cbn [fst] in *. apply andb_true_iff in F. destruct F as [_ F]. apply bytes_leb_le in F. cbn [doc_entry fst].
      destruct (bytes_leb (docKey c (fst a)) k) eqn:X; [apply bytes_leb_le; exact X|]. apply bytes_leb_nle in X.
      assert (P : has_prefix k (docPrefix c) = true). { apply (prefix_interval (docPrefix c) (docPrefix c) k (docKey c (fst a))); [apply has_prefix_refl | apply PK, Ia | exact F | apply bytes_le_lteq; left; exact X]. }
      destruct (DOC k e H P) as (p & Ip & -> & Hp). apply docKey_le; [exact Hc | apply I, Ia | exact Hp | apply La, Ip]. }
  assert (F2 : exists l, rev (filter (fun x => has_prefix (fst x) [] && bytes_leb (fst x) (PrefixNext (docPrefix c))) (entries M)) = doc_entry c b :: l).
  { apply sorted_last; [apply sorted_filter, sm_ok | |].
    - apply filter_In. split; [apply INE; exact Ib|]. cbn [doc_entry fst]. apply andb_true_iff. split; [reflexivity|]. apply bytes_leb_le, bytes_le_lteq. left.
      apply prefix_lt_PrefixNext; [|apply PK, Ib]. intros FF. rewrite docPrefix_form in FF. unfold all_ff in FF. rewrite Forall_forall in FF. specialize (FF Byte.x64 ltac:(apply in_or_app; right; left; reflexivity)). discriminate FF.
    - intros [k e] H. apply filter_In in H. destruct H as [H F]. cbn [fst] in *. apply andb_true_iff in F. destruct F as [_ F]. apply bytes_leb_le in F. cbn [doc_entry fst].
      apply bytes_le_lteq in F. destruct F as [F| ->]; [|apply get_in in H; congruence].
      destruct (bytes_leb k (docKey c (fst b))) eqn:X; [apply bytes_leb_le; exact X|]. apply bytes_leb_nle in X.
      assert (P : has_prefix k (docPrefix c) = true). { apply below_PrefixNext; [|exact F]. apply bytes_le_lteq. left. eapply bytes_le_lt_trans; [apply prefix_ge, (PK b Ib) | exact X]. }
      destruct (DOC k e H P) as (p & Ip & -> & Hp). apply docKey_le; [exact Hc | exact Hp | apply I, Ib | apply Lb, Ip]. }
  destruct F1 as (l1 & F1). destruct F2 as (l2 & F2).
  assert (DEC : forall p, In p (D c) -> decodeDocKey (docKey c (fst p)) = Ok (c, fst p)).
  { intros p H. rewrite <- (app_nil_r (docKey c (fst p))). apply decodeDocKey_enc; [exact Hc | apply I, H]. }
  unfold doc_range. eapply spec_bind.
  - eapply spec_tscan; [apply scan_forward; left; apply bytes_le_nil|]. rewrite F1. apply range_first.
  - cbn [doc_entry fst]. rewrite (DEC a Ia). cbn beta iota. eapply spec_bind; [apply spec_ret|]. cbn beta. eapply spec_bind.
    + eapply spec_tscan.
      * intros clamp. apply scan_reverse_gen; [|apply bytes_le_nil | intros; reflexivity].
        intros X. pose proof (PrefixNext_gt (docPrefix c)) as Y. rewrite X in Y. destruct (docPrefix c); discriminate Y.
      * rewrite F2. apply range_first.
    + cbn [doc_entry fst]. rewrite (DEC b Ib). cbn beta iota. eapply spec_bind; [apply spec_ret|]. apply spec_ret.
Qed.
(** Without documents there is no error: an empty collection (2) between two others reports the ids of
    the neighbours' documents, and an empty store reports 0 and 0. *)
Definition m51 : smap ent := set (set empty (docKey 1 8) (mk (str "x"))) (docKey 3 9) (mk (str "y")).
Theorem C51_empty_collection_reports_other_collections_refuted :
  zget [] 9 = None /\ rep m51 (dupd (dupd (fun _ => []) 1 [(8, str "x")]) 3 [(9, str "y")]) /\
  (forall w, spec w (doc_range 2) m51 (Ok (9, 8)) m51) /\ (forall w, spec w (doc_range 2) empty (Ok (0, 0)) empty).
Proof.
  assert (I : forall z, (-10 <= z <= 10)%Z -> is_i64 z) by (intros z Hz; unfold is_i64; rewrite two63_val; lia).
  split; [reflexivity|]. split.
  { apply (rep_ext _ (dupd (dupd (fun _ => []) 1 (zset [] 8 (str "x"))) 3 (zset [] 9 (str "y")))); [reflexivity|].
    apply (rep_set _ (dupd (fun _ => []) 1 (zset [] 8 (str "x"))) 3 9); [|apply I; lia | apply I; lia]. apply (rep_set _ (fun _ => []) 1 8); [apply rep_empty | apply I; lia | apply I; lia]. }
  assert (X : forall (M : smap ent) r, (forall clamp, scan_items clamp M (ScanOpt false [] (docPrefix 2)) = scan_items false M (ScanOpt false [] (docPrefix 2))) ->
     (forall clamp, scan_items clamp M (ScanOpt true [] (PrefixNext (docPrefix 2))) = scan_items false M (ScanOpt true [] (PrefixNext (docPrefix 2)))) ->
     forall w r1 r2, spec w (scan_loop (scan_items false M (ScanOpt false [] (docPrefix 2))) range_cb (Ok 0)) M (Ok (Ok r1)) M ->
     spec w (scan_loop (scan_items false M (ScanOpt true [] (PrefixNext (docPrefix 2)))) range_cb (Ok 0)) M (Ok (Ok r2)) M -> r = (r1, r2) -> spec w (doc_range 2) M (Ok r) M).
  { intros M r C1 C2 w r1 r2 S1 S2 ->. unfold doc_range. eapply spec_bind; [eapply spec_tscan; [exact C1 | exact S1]|]. cbn [of_result]. eapply spec_bind; [apply spec_ret|].
    cbn beta. eapply spec_bind; [eapply spec_tscan; [exact C2 | exact S2]|]. cbn [of_result]. eapply spec_bind; [apply spec_ret|]. apply spec_ret. }
  split; intros w; eapply X; try reflexivity; try (intros [|]; vm_compute; reflexivity).
  - replace (scan_items false m51 (ScanOpt false [] (docPrefix 2))) with [(docKey 3 9, mk (str "y"))] by (vm_compute; reflexivity). apply range_first.
  - replace (scan_items false m51 (ScanOpt true [] (PrefixNext (docPrefix 2)))) with [(docKey 1 8, mk (str "x"))] by (vm_compute; reflexivity). apply range_first.
  - apply spec_ret.
  - apply spec_ret.
Qed.
(** the hypotheses of the first theorem are met next to the refuting store: *)
Example C51_nonvacuous : rep (set m51 (docKey 2 5) (mk (str "z"))) (dupd (dupd (dupd (fun _ => []) 1 [(8, str "x")]) 3 [(9, str "y")]) 2 [(5, str "z")]) /\
  get (set m51 (docKey 2 5) (mk (str "z"))) (PrefixNext (docPrefix 2)) = None.
Proof.
  assert (I : forall z, (-10 <= z <= 10)%Z -> is_i64 z) by (intros z Hz; unfold is_i64; rewrite two63_val; lia).
  split; [|vm_compute; reflexivity]. apply (rep_ext _ (dupd (dupd (dupd (fun _ => []) 1 [(8, str "x")]) 3 [(9, str "y")]) 2 (zset [] 5 (str "z")))); [reflexivity|].
  apply (rep_set m51 (dupd (dupd (fun _ => []) 1 [(8, str "x")]) 3 [(9, str "y")]) 2 5); [apply C51_empty_collection_reports_other_collections_refuted | apply I; lia | apply I; lia].
Qed.
