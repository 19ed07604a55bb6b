(** Proofs for C84: the documents of named collections over the life of processes. *)
From Verif Require Import Bytes SMap Provider ProviderProofs World Memcmp MemcmpProofs Numeric KvUtil KeyModel Struct
  StructProofs UtilTxn TxPost Sequence SequenceProofs Model Meta MetaCodec MetaSpec MetaProofs MetaOps MetaRun Schema DocTxn DocKeys Dml DmlProofs Wrote Ddl DdlSpec DdlProofs DdlWorker DdlSys DdlIndex DdlMore Domain DomainProofs Process ProcessProofs ProcessSpec ProcessIds MetaWrites DocLife DocLifeSpec.
From Verif Require P_Schema P_Meta P_Ddl P_Dml.
From Verif Require Import P_Domain P_Process P_ProcessIds.
From Coq Require Import Sorted Permutation.

(** * Hypotheses *)
(** no stored key looks like a document's *)
Definition no_doc_keys (t : txn) : Prop := forall c k, is_i64 c -> has_prefix k (docPrefix c) = true -> get (t_pend t) k = None.
Definition no_documents (d : db) : Prop := forall c k, is_i64 c -> has_prefix k (docPrefix c) = true -> get (dview d) k = None.
(** ids are int64 values (a Go type); GetDidRange is treated by C51; a read-only transaction is only read *)
Definition stmt_ok (upd : bool) (s : stmt) : Prop :=
  match s with
  | SOp _ _ o => Forall is_i64 (op_ids o) /\ o <> ORange /\ (op_writes o = true -> upd = true)
  | SInsert _ _ _ _ => upd = true
  end.
Definition call_ok (c : call) : Prop :=
  match c with
  | CAuto _ _ o _ => Forall is_i64 (op_ids o) /\ o <> ORange
  | CInsert _ _ _ _ _ => True
  | CTxn upd ss _ => Forall (stmt_ok upd) ss
  end.
(** the process's own steps are as in C78 to C83; ids are put back by failed commits only; other transactions write no
    document *)
Definition lev_ok (e : lev) : Prop :=
  match e with
  | LProc e => pev_ok e /\ single e /\ match e with PPut _ _ => False | POther t _ => no_doc_keys t | _ => True end
  | LCall c => call_ok c
  end.
(** how many leases a step may need *)
Definition sweight (s : stmt) : Z := match s with SOp _ _ _ => 0 | SInsert _ _ _ _ => 1 end.
Definition ssload (ss : list stmt) : Z := fold_right (fun s n => sweight s + n) 0 ss.
Definition lweight (e : lev) : Z :=
  match e with LProc e => pweight e | LCall (CAuto _ _ _ _) => 0 | LCall (CInsert _ _ _ _ _) => 1 | LCall (CTxn _ ss _) => ssload ss end.
Definition lload (es : list lev) : Z := fold_right (fun e n => lweight e + n) 0 es.

(** * What transactions on documents read *)
Definition rd {A} (P : bytes -> Prop) (m : Tx A) : Prop := forall t t' r, m t = (t', r) -> forall k, In k (t_reads t') -> In k (t_reads t) \/ P k.
Section Reads.
Variable P : bytes -> Prop.
Lemma rd_ret {A} (a : A) : rd P (ret a). Proof. intros t t' r E k H. inversion E; subst. auto. Qed.
Lemma rd_fail {A} e : rd P (@fail A e). Proof. intros t t' r E k H. inversion E; subst. auto. Qed.
Lemma rd_panic {A} : rd P (@gopanic A). Proof. intros t t' r E k H. inversion E; subst. auto. Qed.
Lemma rd_bind {A B} (m : Tx A) (f : A -> Tx B) : rd P m -> (forall a, rd P (f a)) -> rd P (bind m f).
Proof.
  intros H1 H2 t t' r E k I. unfold bind in E. destruct (m t) as [t1 [a|e|]] eqn:Em; [|inversion E; subst; exact (H1 _ _ _ Em k I)..].
  destruct (H2 a _ _ _ E k I) as [X|X]; [exact (H1 _ _ _ Em k X) | auto].
Qed.
Lemma rd_try {A B} (m : Tx A) (f : result A -> Tx B) : rd P m -> (forall a, rd P (f a)) -> rd P (try m f).
Proof.
  intros H1 H2 t t' r E k I. unfold try in E. destruct (m t) as [t1 r1] eqn:Em. destruct r1 as [a|e|]; [| |inversion E; subst; exact (H1 _ _ _ Em k I)];
    (destruct (H2 _ _ _ _ E k I) as [X|X]; [exact (H1 _ _ _ Em k X) | auto]).
Qed.
Lemma rd_map_err {A} f (m : Tx A) : rd P m -> rd P (map_err f m).
Proof. intros H t t' r E k I. unfold map_err in E. destruct (m t) as [t1 [a|e|]] eqn:Em; inversion E; subst; exact (H _ _ _ Em k I). Qed.
Lemma rd_modify k o : rd P (modify k o).
Proof.
  intros t t' r E j I. unfold modify in E. destruct (negb (t_upd t)); [inversion E; subst; auto|]. destruct (negb (t_open t)); [inversion E; subst; auto|]. destruct (key_err k); [inversion E; subst; auto|].
  destruct (t_lim t) as [|[|] l]; inversion E; subst; auto.
Qed.
Lemma rd_tset k v : rd P (tset k v).
Proof. intros t t' r E j I. unfold tset, tsetm in E. exact (rd_map_err _ _ (rd_modify k _) _ _ _ E j I). Qed.
Lemma rd_tdel k : rd P (tdel k). Proof. apply rd_map_err, rd_modify. Qed.
Lemma add_read_in k t j : In j (t_reads (add_read k t)) -> In j (t_reads t) \/ j = k.
Proof. unfold add_read. destruct (t_upd t); cbn [t_reads]; [intros [X|X]; auto | auto]. Qed.
Lemma rd_bget k : P k -> rd P (bget k).
Proof.
  intros Hk t t' r E j I. unfold bget in E. destruct k as [|b k]; [inversion E; subst; auto|]. destruct (negb (t_open t)); [inversion E; subst; auto|].
  replace t' with (track (b :: k) t) in I by congruence. unfold track in I. destruct (get (t_pend t) (b :: k)); [auto|]. apply add_read_in in I. destruct I as [X|X]; [auto | subst j; auto].
Qed.
Lemma rd_tget k : P k -> rd P (tget k).
Proof. intros H. unfold tget, tgetm. apply rd_bind; [apply rd_map_err, rd_bget; exact H | intros; apply rd_ret]. Qed.
Lemma rd_texists k : P k -> rd P (texists k).
Proof. intros H. unfold texists. apply rd_try; [apply rd_bget; exact H|]. intros [a|[]|]; try apply rd_ret; try apply rd_fail; apply rd_panic. Qed.
Lemma rd_scan_loop {S} (fn : bytes -> ent -> S -> Tx (S * bool)) l : (forall k e s, In (k, e) l -> P k /\ rd P (fn k e s)) -> forall s, rd P (scan_loop l fn s).
Proof.
  induction l as [|[k e] l IH]; intros H s; [apply rd_ret|]. intros t t' r E j I. cbn [scan_loop] in E. destruct (H k e s (or_introl eq_refl)) as [Pk Rk].
  assert (Rb : rd P (r <- fn k e s ;; (if snd r then scan_loop l fn (fst r) else ret (fst r)))).
  { apply rd_bind; [exact Rk|]. intros a. destruct (snd a); [apply IH; intros; apply H; right; assumption | apply rd_ret]. }
  destruct (Rb _ _ _ E j I) as [X|X]; [|auto]. apply add_read_in in X. destruct X as [X|X]; [auto | subst j; auto].
Qed.
Lemma rd_tscan {S} o (fn : bytes -> ent -> S -> Tx (S * bool)) s : (forall k e s, has_prefix k (so_prefix o) = true -> P k /\ rd P (fn k e s)) -> rd P (tscan o fn s).
Proof.
  intros H t t' r E j I. unfold tscan in E. destruct (negb (t_open t)); [inversion E; subst; auto|]. refine (rd_scan_loop fn _ _ s _ _ _ E j I).
  intros k e s0 X. apply H. unfold scan_items in X. apply takeWhile_in in X. exact X.
Qed.
End Reads.
Lemma rd_doc_get (P : bytes -> Prop) c did : P (docKey c did) -> rd P (doc_get c did).
Proof. intros H. unfold doc_get. apply rd_try; [apply rd_tget; exact H|]. intros [a|[]|]; try apply rd_ret; try apply rd_fail; apply rd_panic. Qed.
Lemma rd_op c o : o <> ORange -> rd (fun k => has_prefix k (docPrefix c) = true) (op_tx c o).
Proof.
  intros NR. set (P := fun k => has_prefix k (docPrefix c) = true). assert (PK : forall d, P (docKey c d)) by (intros d; apply docKey_self).
  assert (U : forall md did v, rd P (doc_update md c did v)).
  { intros md did v. unfold doc_update. cbv zeta. apply rd_bind; [apply rd_texists, PK|]. intros ex. destruct md; [destruct ex| |destruct ex]; first [apply rd_ret | apply rd_fail | apply rd_bind; [apply rd_tset | intros; apply rd_ret]]. }
  assert (GM : forall dids acc, rd P (doc_getmany c dids acc)).
  { induction dids as [|d dids IH]; intros acc; cbn [doc_getmany]; [apply rd_ret|]. apply rd_try; [apply rd_doc_get, PK|]. intros [a|e|]; [apply IH | apply rd_ret | apply rd_panic]. }
  destruct o as [did v|did v|did v|did|did|dids| | | |]; cbn [op_tx]; try congruence; try (apply rd_bind; [apply U | intros; apply rd_ret]).
  - apply rd_bind; [apply rd_tdel | intros; apply rd_ret].
  - apply rd_bind; [apply rd_doc_get, PK | intros; apply rd_ret].
  - apply rd_bind; [apply GM | intros; apply rd_ret].
  - apply rd_bind; [|intros; apply rd_ret]. unfold doc_getall. apply rd_tscan. intros k e s X. split; [exact X | apply rd_ret].
  - apply rd_bind; [|intros; apply rd_ret]. unfold doc_count. apply rd_tscan. intros k e s X. split; [exact X | apply rd_ret].
  - apply rd_bind; [|intros; apply rd_ret]. unfold doc_deleteall. apply rd_bind.
    + apply rd_tscan. intros k e s X. split; [exact X|]. apply rd_try; [apply rd_tdel|]. intros [a|er|]; [apply rd_ret | apply rd_ret | apply rd_panic].
    + intros a. destruct (snd a); [apply rd_fail | apply rd_ret].
Qed.

(** * Document keys *)
Definition dk (k : bytes) : Prop := exists c, is_i64 c /\ has_prefix k (docPrefix c) = true.
Lemma dk_not_meta k : dk k -> has_prefix k MetaPrefix = false.
Proof.
  intros (c & _ & H). apply has_prefix_spec in H. destruct H as [s ->]. rewrite docPrefix_app, <- !app_assoc. reflexivity.
Qed.
Lemma dk_no_meta k : dk k -> forall o, ~ meta_key k o.
Proof. intros H o X. unfold meta_key in X. rewrite (dk_not_meta k H) in X. discriminate. Qed.
Definition docs_kept (d d' : db) : Prop := forall k, dk k -> get (dview d') k = get (dview d) k.
Lemma kept_rest d d' : keeps_rest d d' -> docs_kept d d'.
Proof. intros H k K. unfold dview, live_map. rewrite !get_sfilter, (kr_now _ _ H), (kr_kv _ _ H k (dk_no_meta k K)). reflexivity. Qed.
Lemma kept_rep d d' D : docs_kept d d' -> rep (dview d) D -> rep (dview d') D.
Proof. intros H R. apply (rep_frame (dview d)); [exact R|]. intros c k Hc P. apply H. exists c. auto. Qed.
Lemma kept_trans a b c : docs_kept a b -> docs_kept b c -> docs_kept a c.
Proof. intros H1 H2 k K. rewrite (H2 k K). exact (H1 k K). Qed.
Lemma kept_other d t io : no_doc_keys t -> docs_kept d (fst (fst (commit d t io))).
Proof.
  intros N k (c & Hc & P). unfold commit. destruct (negb (t_open t)); [reflexivity|]. destruct (entries (t_pend t)); [reflexivity|]. destruct (conflict d t); [reflexivity|]. destruct io; [reflexivity|].
  cbn [fst]. unfold dview, live_map. rewrite !get_sfilter. cbn [publish d_kv d_now]. rewrite get_apply_pend, (N c k Hc P). reflexivity.
Qed.

(** * A transaction on documents that started on store [d0] *)
Record txinv (upd : bool) (d0 : db) (x : dtxn) (D : dstore) : Prop := {
  ti_okt : okt upd (dt_t x);
  ti_keeps : keeps (new_txn d0 upd []) (dt_t x);
  ti_rep : rep (view (dt_t x)) D;
  ti_upd : dt_upd x = upd;
  ti_pend : forall k o, get (t_pend (dt_t x)) k = Some o -> dk k /\ upd = true;
  ti_reads : forall k, In k (t_reads (dt_t x)) -> dk k
}.
Lemma tx_new h d upd D : rep (dview d) D -> txinv upd d (NewTxn h d upd []) D.
Proof.
  intros R. split; cbn [NewTxn dt_t dt_upd].
  - apply okt_new. reflexivity.
  - apply ProviderProofs.keeps_refl.
  - rewrite view_new_dview. exact R.
  - reflexivity.
  - intros k o X. cbn [new_txn t_pend] in X. rewrite get_empty in X. discriminate.
  - intros k [].
Qed.
Lemma tx_step {A} upd d0 x D c (m : Tx A) r M' D' P : txinv upd d0 x D -> is_i64 c -> spec upd m (view (dt_t x)) r M' -> rep M' D' -> wr P m -> (forall k o, P k o -> has_prefix k (docPrefix c) = true /\ upd = true) ->
  rd (fun k => has_prefix k (docPrefix c) = true) m -> exists t', m (dt_t x) = (t', r) /\ txinv upd d0 (with_t x t') D'.
Proof.
  intros I Hc Sp R' W WP Rd. destruct (Sp (dt_t x) (ti_okt _ _ _ _ I) eq_refl) as (t' & E & O & V & K). exists t'. split; [exact E|]. split; cbn [with_t dt_t dt_upd].
  - exact O.
  - eapply ProviderProofs.keeps_trans; [exact (ti_keeps _ _ _ _ I) | exact K].
  - rewrite V. exact R'.
  - exact (ti_upd _ _ _ _ I).
  - intros k o X. destruct (W _ _ _ E) as (_ & G). destruct (G k) as [Y|(o' & Y & Q)]; [rewrite Y in X; exact (ti_pend _ _ _ _ I k o X)|]. destruct (WP k o' Q) as [Q1 Q2]. split; [exists c; auto | exact Q2].
  - intros k X. destruct (Rd _ _ _ E k X) as [Y|Y]; [exact (ti_reads _ _ _ _ I k Y) | exists c; auto].
Qed.
Lemma tx_op upd d0 x D c o : txinv upd d0 x D -> is_i64 c -> Forall is_i64 (op_ids o) -> o <> ORange -> (op_writes o = true -> upd = true) ->
  exists t', op_tx c o (dt_t x) = (t', fst (doc_spec (D c) o)) /\ txinv upd d0 (with_t x t') (dupd D c (snd (doc_spec (D c) o))).
Proof.
  intros I Hc F NR W. destruct (op_spec upd _ D c o (ti_rep _ _ _ _ I) Hc F NR W) as (M' & Sp & R' & _). eapply tx_step; [exact I | exact Hc | exact Sp | exact R' | apply wr_op | | apply rd_op; exact NR].
  intros k v [H1 H2]. split; [exact H1|]. apply W. destruct o; try reflexivity; destruct H2.
Qed.
Lemma tx_set d0 x D c did v : txinv true d0 x D -> is_i64 c -> is_i64 did ->
  exists t', tset (docKey c did) v (dt_t x) = (t', Ok tt) /\ txinv true d0 (with_t x t') (dupd D c (zset (D c) did v)).
Proof.
  intros I Hc Hd. eapply (tx_step true d0 x D c (tset (docKey c did) v) (Ok tt) _ _ (fun k o => k = docKey c did)); [exact I | exact Hc | apply spec_tset, docKey_good | apply rep_set; [exact (ti_rep _ _ _ _ I) | exact Hc | exact Hd] | apply wr_tset; reflexivity | | apply rd_tset].
  intros k o ->. split; [apply docKey_self | reflexivity].
Qed.
(** what a commit does, on a store that changed in metadata only since the transaction started *)
Lemma tx_commit upd d0 d1 x D h io h' d' x' r ran : txinv upd d0 x D -> db_ok d0 -> keeps_rest d0 d1 -> h_val h = dt_start x ->
  dcommit h d1 io x = (h', d', x', r, ran) -> h' = h /\ d' = (if upd then fst (fst (commit d1 (dt_t x) io)) else d1) /\
  ((r = Ok tt /\ ran = [] /\ rep (dview d') D) \/ (io = true /\ r = Err EIO /\ ran = dt_cancels x /\ d' = d1)).
Proof.
  intros I K0 KR Hh C. pose proof (ti_keeps _ _ _ _ I) as (Q1 & Q2 & Q3 & _ & _). cbn [new_txn t_snap t_rts t_now] in Q1, Q2, Q3. pose proof (ti_okt _ _ _ _ I) as [Op _].
  unfold dcommit in C. rewrite (ti_upd _ _ _ _ I) in C.
  assert (EMP : (forall k, get (t_pend (dt_t x)) k = None) -> rep (dview d1) D).
  { intros N. apply (rep_frame (view (dt_t x))); [exact (ti_rep _ _ _ _ I)|]. intros c k Hc P. assert (DK : dk k) by (exists c; auto). rewrite (kept_rest _ _ KR k DK). unfold view, dview, live_map. rewrite !get_sfilter, get_apply_pend, N, Q1, Q3. reflexivity. }
  destruct upd; cbn [negb] in C.
  - unfold Check in C. rewrite Hh in C. replace (ptr_eqb (dt_start x) (dt_start x)) with true in C by (unfold ptr_eqb; destruct (dt_start x) as [s|]; [rewrite Nat.eqb_refl|]; reflexivity).
    unfold commit in C |- *. rewrite Op in *. cbn [negb] in *. destruct (entries (t_pend (dt_t x))) as [|e l] eqn:En.
    + injection C as <- <- <- <- <-. split; [reflexivity|]. split; [reflexivity|]. left. split; [reflexivity|]. split; [reflexivity|]. apply EMP. intros k. destruct (get (t_pend (dt_t x)) k) eqn:G; [|reflexivity]. apply get_in in G. rewrite En in G. destruct G.
    + assert (NC : conflict d1 (dt_t x) = false).
      { unfold conflict. destruct (existsb _ _) eqn:X; [|reflexivity]. apply existsb_exists in X. destruct X as (k & Ik & Y). pose proof (ti_reads _ _ _ _ I k Ik) as DK. rewrite (kr_last _ _ KR k (dk_no_meta k DK)) in Y.
        destruct (get (d_last d0) k) as [ts|] eqn:G; [|discriminate]. apply K0 in G. apply Nat.ltb_lt in Y. rewrite Q2 in Y. lia. }
      rewrite NC in *. destruct io.
      * injection C as <- <- <- <- <-. split; [reflexivity|]. split; [reflexivity|]. right. auto.
      * injection C as <- <- <- <- <-. split; [reflexivity|]. split; [reflexivity|]. left. split; [reflexivity|]. split; [reflexivity|]. apply (rep_frame (view (dt_t x))); [exact (ti_rep _ _ _ _ I)|].
        intros c k Hc P. assert (DK : dk k) by (exists c; auto). unfold view, dview, live_map. rewrite !get_sfilter. cbn [publish d_kv d_now]. rewrite !get_apply_pend, Q1, Q3, (kr_now _ _ KR), (kr_kv _ _ KR k (dk_no_meta k DK)). reflexivity.
  - injection C as <- <- <- <- <-. split; [reflexivity|]. split; [reflexivity|]. left. split; [reflexivity|]. split; [reflexivity|]. apply EMP. intros k. destruct (get (t_pend (dt_t x)) k) eqn:G; [|reflexivity]. destruct (ti_pend _ _ _ _ I _ _ G). discriminate.
Qed.

(** * Names and ids *)
Definition nrep (L : list Job) (N : ndocs) (D : dstore) : Prop :=
  (forall dbn coll, N dbn coll = match lookup L dbn coll with Some k => D (ci_id k) | None => [] end) /\
  (forall c, D c <> [] -> exists dbn coll k, lookup L dbn coll = Some k /\ ci_id k = c).
Definition ids_in (L : list Job) (I : list (bytes * bytes * Z)) (held : list (Z * Z)) : Prop :=
  forall dbn coll v, In (dbn, coll, v) I -> exists k, lookup L dbn coll = Some k /\ In (ci_id k, v) held.
Lemma lookup_seqs L dbn coll k : lookup L dbn coll = Some k -> exists a, In (a, ci_id k) (flat_map seqs_of L).
Proof.
  unfold lookup. destruct (find (by_name dbn) (dbs_of L)) as [x|] eqn:F; [|discriminate]. intros E. apply find_by_name in F. destruct F as [Ix _]. exists (di_id x). apply seqs_in. exists x, k. split; [exact Ix|]. split; [eapply mget_vals; exact E | auto].
Qed.
Lemma nrep_more L l N D : NoDup (flat_map ids_of (L ++ l)) -> nrep L N D -> nrep (L ++ l) N D.
Proof.
  intros ND [H1 H2]. split.
  - intros dbn coll. rewrite H1. destruct (lookup L dbn coll) as [k|] eqn:E; [rewrite (lookup_more _ _ _ _ _ E); reflexivity|]. destruct (lookup (L ++ l) dbn coll) as [k|] eqn:E'; [|reflexivity].
    destruct (D (ci_id k)) eqn:Dk; [reflexivity|]. destruct (H2 (ci_id k)) as (dbn' & coll' & k' & E1 & E2); [rewrite Dk; discriminate|]. pose proof (lookup_more _ l _ _ _ E1) as E3.
    destruct (lookup_inj _ _ _ _ _ _ _ ND E3 E' E2) as [-> ->]. congruence.
  - intros c Hc. destruct (H2 c Hc) as (dbn & coll & k & E1 & E2). exists dbn, coll, k. split; [apply lookup_more; exact E1 | exact E2].
Qed.
Lemma ids_more L l I held : ids_in L I held -> ids_in (L ++ l) I held.
Proof. intros H dbn coll v X. destruct (H _ _ _ X) as (k & E & Y). exists k. split; [apply lookup_more; exact E | exact Y]. Qed.
Lemma ids_sub L I held held' : (forall x, In x held -> In x held') -> ids_in L I held -> ids_in L I held'.
Proof. intros S H dbn coll v X. destruct (H _ _ _ X) as (k & E & Y). exists k. auto. Qed.
Lemma nupd_eq N dbn coll m : nupd N dbn coll m dbn coll = m.
Proof. unfold nupd. rewrite !bytes_eqb_refl. reflexivity. Qed.
Lemma nupd_ne N dbn coll m a b : (a, b) <> (dbn, coll) -> nupd N dbn coll m a b = N a b.
Proof. intros H. unfold nupd. destruct (bytes_eqb a dbn) eqn:E1; [|reflexivity]. destruct (bytes_eqb b coll) eqn:E2; [|reflexivity]. apply bytes_eqb_eq in E1. apply bytes_eqb_eq in E2. congruence. Qed.
Lemma nrep_upd L N D dbn coll k m : NoDup (flat_map ids_of L) -> nrep L N D -> lookup L dbn coll = Some k -> nrep L (nupd N dbn coll m) (dupd D (ci_id k) m).
Proof.
  intros ND [H1 H2] E. split.
  - intros a b. destruct (bytes_eqb a dbn && bytes_eqb b coll) eqn:Eq.
    + apply andb_true_iff in Eq. destruct Eq as [E1 E2]. apply bytes_eqb_eq in E1. apply bytes_eqb_eq in E2. subst a b. rewrite nupd_eq, E, dupd_eq. reflexivity.
    + rewrite nupd_ne by (intros Q; inversion Q; subst; rewrite !bytes_eqb_refl in Eq; discriminate). rewrite H1. destruct (lookup L a b) as [k'|] eqn:E'; [|reflexivity]. rewrite dupd_ne; [reflexivity|].
      intros Q. destruct (lookup_inj _ _ _ _ _ _ _ ND E' E Q) as [-> ->]. rewrite !bytes_eqb_refl in Eq. discriminate.
  - intros c Hc. destruct (Z.eqb_spec c (ci_id k)) as [->|Ne]; [exists dbn, coll, k; auto|]. rewrite dupd_ne in Hc by exact Ne. exact (H2 c Hc).
Qed.

Section WithJson.
Variable J : json.
Hypothesis JO : json_ok J.
Local Notation seqs L := (flat_map seqs_of L).
(** a collection an initialised process shows has an allocator *)
Lemma visible_reg T p D R st A dbn coll ci : pinv J T p D R st A -> p_up p = true -> visible p dbn coll = Some ci ->
  exists k s, lookup (applied D R st) dbn coll = Some k /\ ci_id ci = ci_id k /\ p_reg p (ci_id ci) = Some s.
Proof.
  intros V U Vi. destruct (seen_lookup _ _ _ _ _ _ _ _ _ _ V Vi) as (k & K & Ek). destruct (pv_up _ _ _ _ _ _ _ V U) as (L0 & UI).
  destruct (seen L0 (p_h p) dbn coll ci (ui_cur _ _ _ _ _ UI) Vi) as (x & k0 & Ix & Ik & Ei).
  assert (Nn : p_reg p (ci_id ci) <> None).
  { assert (X : In (di_id x, ci_id ci) (flat_map seqs_of L0)) by (apply seqs_in; exists x, k0; auto).
    assert (Y : In (di_id x, ci_id ci) (flat_map seqs_of (applied D R st))).
    { destruct (ui_two _ _ _ _ _ UI) as [Q|[Q _]]; [rewrite <- Q; exact X|]. destruct (applied_D_prefix D R st) as (l & ->). rewrite flat_map_app. apply in_or_app. left. rewrite <- Q. exact X. }
    destruct (ui_reg _ _ _ _ _ UI _ _ Y) as [Q|Q]; [|exact Q]. exfalso. assert (NE : p_todo p <> []) by (intros Z0; rewrite Z0 in Q; destruct Q).
    destruct (ui_todo _ _ _ _ _ UI NE) as (_ & Q2 & Q3 & j & r & Q4 & Q5). specialize (Q5 _ Q). pose proof (applied_ids _ _ _ _ _ _ _ (pv_s _ _ _ _ _ _ _ V)) as ND. apply snd_seqs in ND.
    rewrite Q3, Q4 in ND. cbn [applied] in ND. rewrite flat_map_app, map_app in ND. apply nodup_app in ND. destruct ND as (_ & _ & ND). apply (ND (ci_id ci)); [rewrite Q2 in X; eapply snd_in; exact X|].
    cbn [flat_map]. rewrite app_nil_r. eapply snd_in. exact Q5. }
  destruct (p_reg p (ci_id ci)) as [s|]; [|congruence]. exists k, s. auto.
Qed.
Lemma visible_i64 T p D R st A dbn coll k : pinv J T p D R st A -> T < two63 -> lookup (applied D R st) dbn coll = Some k -> is_i64 (ci_id k).
Proof. intros V L K. destruct (lookup_seqs _ _ _ _ K) as (a & X). exact (proj2 (applied_range J _ _ _ _ _ _ _ _ (pv_s _ _ _ _ _ _ _ V) L X)). Qed.
Lemma sees_iff p dbn coll : sees p dbn coll = match visible p dbn coll with Some _ => true | None => false end.
Proof. reflexivity. Qed.
Lemma resolve_visible p dbn coll : resolve (h_val (p_h p)) dbn coll = option_map ci_id (visible p dbn coll).
Proof. reflexivity. Qed.

(** * A transaction in a process *)
Record tinv (upd : bool) (T : Z) (p0 p : proc) (x : dtxn) (fns : list (Z * Z)) (s0 s : nstate) (news held0 : list (Z * Z)) (Dm Dx : dstore) (D R : list Job) (st : hstat) (A : mst) : Prop := {
  tv_p : pinv J T p D R st A;
  tv_l : linv (seqs (applied D R st)) T A (p_reg p) (held0 ++ news);
  tv_rep : rep (dview (y_db (p_sys p))) Dm;
  tv_docs0 : nrep (applied D R st) (fst s0) Dm;
  tv_ids0 : ids_in (applied D R st) (snd s0) held0;
  tv_tx : txinv upd (y_db (p_sys p0)) x Dx;
  tv_docs : nrep (applied D R st) (fst s) Dx;
  tv_ids : ids_in (applied D R st) (snd s) (held0 ++ news);
  tv_rest : keeps_rest (y_db (p_sys p0)) (y_db (p_sys p));
  tv_fns : Forall2 (fun f cv => nth_error fns f = Some cv) (dt_cancels x) news;
  tv_h : p_h p = p_h p0;
  tv_start : dt_start x = h_val (p_h p0);
  tv_up : p_up p = true
}.
Lemma txinv_refer upd d0 x D l : txinv upd d0 x D -> txinv upd d0 (ReferredCollections x l) D.
Proof. intros [H1 H2 H3 H4 H5 H6]. split; assumption. Qed.
Lemma visible_h p p' dbn coll : p_h p = p_h p' -> visible p dbn coll = visible p' dbn coll.
Proof. intros E. unfold visible. rewrite E. reflexivity. Qed.
Lemma op_tinv upd T p0 p x fns s0 s news held0 Dm Dx D R st A dbn coll o : tinv upd T p0 p x fns s0 s news held0 Dm Dx D R st A -> T < two63 -> stmt_ok upd (SOp dbn coll o) ->
  exists x' r s' Dx', stmt_step (p, x, fns) (SOp dbn coll o) = (p, x', fns, r) /\ nstmt (sees p0) false s (SOp dbn coll o) r s' /\ tinv upd T p0 p x' fns s0 s' news held0 Dm Dx' D R st A.
Proof.
  intros I L (F & NR & W). destruct s as [N I0]. cbn [stmt_step]. unfold coll_op, with_coll. rewrite (tv_start _ _ _ _ _ _ _ _ _ _ _ _ _ _ _ _ I), resolve_visible.
  pose proof (n_op (sees p0) false N I0 dbn coll o) as NS. unfold nop in NS. rewrite sees_iff in NS. rewrite (visible_h p0 p) in * by (symmetry; exact (tv_h _ _ _ _ _ _ _ _ _ _ _ _ _ _ _ _ I)). destruct (visible p dbn coll) as [ci|] eqn:Vi; cbn [option_map].
  - destruct (seen_lookup _ _ _ _ _ _ _ _ _ _ (tv_p _ _ _ _ _ _ _ _ _ _ _ _ _ _ _ _ I) Vi) as (k & K & Ek). rewrite Ek. pose proof (visible_i64 _ _ _ _ _ _ _ _ _ (tv_p _ _ _ _ _ _ _ _ _ _ _ _ _ _ _ _ I) L K) as Hc.
    destruct (tx_op upd _ _ _ (ci_id k) o (txinv_refer _ _ _ _ [ci_id k] (tv_tx _ _ _ _ _ _ _ _ _ _ _ _ _ _ _ _ I)) Hc F NR W) as (t' & E & TI). rewrite E.
    pose proof (tv_docs _ _ _ _ _ _ _ _ _ _ _ _ _ _ _ _ I) as ND. cbn [fst] in ND. assert (EN : N dbn coll = Dx (ci_id k)) by (rewrite (proj1 ND), K; reflexivity). rewrite EN in NS. destruct (doc_spec (Dx (ci_id k)) o) as [r m]. cbn [fst snd] in *.
    eexists _, _, _, (dupd Dx (ci_id k) m). split; [reflexivity|]. split; [exact NS|]. destruct I. split; cbn [fst snd] in *; try assumption. apply nrep_upd; [eapply nodup_applied; exact tv_p0 | exact ND | exact K].
  - cbn [fst snd] in NS. exists x, (ROp (Err ErrCollectionNotExists)), (N, I0), Dx. split; [reflexivity|]. split; [exact NS | exact I].
Qed.
Lemma forall2_more (fns : list (Z * Z)) y l news : Forall2 (fun f cv => nth_error fns f = Some cv) l news -> Forall2 (fun f cv => nth_error (fns ++ [y]) f = Some cv) l news.
Proof. induction 1 as [|f cv l news H _ IH]; constructor; [|exact IH]. rewrite nth_error_app1; [exact H|]. apply nth_error_Some. congruence. Qed.
Lemma ins_tinv mark T p0 p x fns s0 s news held0 Dm Dx D R st A dbn coll data sio : tinv true T p0 p x fns s0 s news held0 Dm Dx D R st A -> 1000 * (T + 1) < two63 ->
  exists p' x' fns' did r s' news' Dx' D' R' st' A', insert_stmt mark p x fns dbn coll data sio = (p', x', fns', (did, r)) /\ nstmt (sees p0) false s (SInsert dbn coll data sio) (RInsert did r) s' /\
    tinv true (T + 1) p0 p' x' fns' s0 s' news' held0 Dm Dx' D' R' st' A'.
Proof.
  intros I L. destruct s as [N I0]. unfold insert_stmt, insertFunc. pose proof (tv_p _ _ _ _ _ _ _ _ _ _ _ _ _ _ _ _ I) as V. pose proof (tv_l _ _ _ _ _ _ _ _ _ _ _ _ _ _ _ _ I) as LI.
  pose proof (pv_s _ _ _ _ _ _ _ V) as Y. pose proof (si_holds _ _ _ _ _ _ _ Y) as H. pose proof (room_le T D R st) as RL. assert (T0 : 0 <= T) by (pose proof (si_gid _ _ _ _ _ _ _ Y); lia).
  rewrite (tv_start _ _ _ _ _ _ _ _ _ _ _ _ _ _ _ _ I), resolve_visible. pose proof (sees_iff p0 dbn coll) as Se. rewrite (visible_h p0 p) in * by (symmetry; exact (tv_h _ _ _ _ _ _ _ _ _ _ _ _ _ _ _ _ I)).
  destruct (visible p dbn coll) as [ci|] eqn:Vi; cbn [option_map].
  - destruct (visible_reg _ _ _ _ _ _ _ _ _ V (tv_up _ _ _ _ _ _ _ _ _ _ _ _ _ _ _ _ I) Vi) as (k & q & K & Ek & Rg). rewrite Ek in *. pose proof (visible_i64 _ _ _ _ _ _ _ _ _ V ltac:(lia) K) as Hc. rewrite Rg.
    destruct (q_exec (y_db (p_sys p)) (y_db (p_sys p)) [] sio q QNext) as [[d' q'] rq] eqn:Q.
    assert (LR : room T D R st + 1 < two63) by lia. destruct (next_linv J _ _ _ _ _ _ _ _ _ _ _ _ _ (names_pinv J _ _ _ _ _ _ V ltac:(lia)) H LR L LI Rg Q) as (n' & A1 & _ & NX).
    destruct (lstep_pinv J JO T p D R st A (PNext (ci_id k) sio) (held0 ++ news) V LI Logic.I Logic.I L Logic.I) as (D' & R' & st' & A' & V' & LI' & (l & El) & _).
    cbn [pstep held_step gave pweight] in V', LI'. rewrite Rg, Q in V', LI'. pose proof (next_keeps (y_db (p_sys p)) (y_db (p_sys p)) [] sio q) as KR. rewrite Q in KR. cbn [fst] in KR.
    set (p' := with_reg (with_db p d') (reg_set (p_reg p) (ci_id k) q')) in *.
    assert (COMMON : forall x' fns' news' s' Dx', txinv true (y_db (p_sys p0)) x' Dx' -> nrep (applied D' R' st') (fst s') Dx' -> ids_in (applied D' R' st') (snd s') (held0 ++ news') ->
      linv (seqs (applied D' R' st')) (T + 1) A' (p_reg p') (held0 ++ news') -> Forall2 (fun f cv => nth_error fns' f = Some cv) (dt_cancels x') news' -> dt_start x' = dt_start x ->
      tinv true (T + 1) p0 p' x' fns' s0 s' news' held0 Dm Dx' D' R' st' A').
    { intros x' fns' news' s' Dx' Z1 Z2 Z3 Z4 Z5 Z6. split; try assumption.
      - apply (kept_rep (y_db (p_sys p))); [apply kept_rest; exact KR | exact (tv_rep _ _ _ _ _ _ _ _ _ _ _ _ _ _ _ _ I)].
      - rewrite El. apply nrep_more; [rewrite <- El; eapply nodup_applied; exact V' | exact (tv_docs0 _ _ _ _ _ _ _ _ _ _ _ _ _ _ _ _ I)].
      - rewrite El. apply ids_more. exact (tv_ids0 _ _ _ _ _ _ _ _ _ _ _ _ _ _ _ _ I).
      - eapply MetaWrites.keeps_trans; [exact (tv_rest _ _ _ _ _ _ _ _ _ _ _ _ _ _ _ _ I) | exact KR].
      - exact (tv_h _ _ _ _ _ _ _ _ _ _ _ _ _ _ _ _ I).
      - rewrite Z6. exact (tv_start _ _ _ _ _ _ _ _ _ _ _ _ _ _ _ _ I).
      - exact (tv_up _ _ _ _ _ _ _ _ _ _ _ _ _ _ _ _ I). }
    pose proof (nodup_applied J _ _ _ _ _ _ V') as ND'. pose proof (tv_docs _ _ _ _ _ _ _ _ _ _ _ _ _ _ _ _ I) as NR. cbn [fst] in NR.
    assert (NR' : nrep (applied D' R' st') N Dx) by (rewrite El; apply nrep_more; [rewrite <- El; exact ND' | exact NR]).
    assert (ID' : ids_in (applied D' R' st') I0 (held0 ++ news)) by (rewrite El; apply ids_more; exact (tv_ids _ _ _ _ _ _ _ _ _ _ _ _ _ _ _ _ I)).
    assert (K' : lookup (applied D' R' st') dbn coll = Some k) by (rewrite El; apply lookup_more; exact K).
    set (x1 := if mark then ReferredCollections x [ci_id k] else x). assert (TX1 : txinv true (y_db (p_sys p0)) x1 Dx) by (unfold x1; destruct mark; [apply txinv_refer|]; exact (tv_tx _ _ _ _ _ _ _ _ _ _ _ _ _ _ _ _ I)).
    assert (X1 : dt_cancels x1 = dt_cancels x /\ dt_start x1 = dt_start x) by (unfold x1; destruct mark; auto). destruct X1 as [X1 X2].
    destruct rq as [[|did|rs]|e|]; [destruct NX | | destruct NX | | destruct NX].
    + destruct NX as (_ & Fr & Pos). assert (IH : In (ci_id k, did) ((held0 ++ news) ++ [(ci_id k, did)])) by (apply in_or_app; right; left; reflexivity).
      assert (Hd : is_i64 did).
      { destruct (li_held _ _ _ _ _ LI' _ _ IH) as (a & Xa & B). pose proof (applied_range J _ _ _ _ _ _ _ _ (pv_s _ _ _ _ _ _ _ V') ltac:(lia) Xa) as [Wa Wc]. pose proof (li_ctr _ _ _ _ _ LI' a (ci_id k) Wa Wc). unfold is_i64. rewrite two63_val in *. lia. }
      destruct (tx_set _ _ _ (ci_id k) did data TX1 Hc Hd) as (t' & Et & TI). rewrite Et. unfold AddCancelFunc. cbn [with_t dt_upd]. rewrite (ti_upd _ _ _ _ TX1). cbn [negb].
      eexists _, _, _, _, _, _, (news ++ [(ci_id k, did)]), (dupd Dx (ci_id k) (zset (Dx (ci_id k)) did data)), _, _, _, _. split; [reflexivity|]. split.
      * apply n_ins; [exact Se | exact Pos | | discriminate]. intros X. destruct (tv_ids _ _ _ _ _ _ _ _ _ _ _ _ _ _ _ _ I _ _ _ X) as (k1 & K1 & X1'). rewrite K in K1. injection K1 as <-. exact (Fr X1').
      * apply COMMON; cbn [fst snd dt_cancels dt_start].
        -- destruct TI as [Z1 Z2 Z3 Z4 Z5 Z6]. split; [exact Z1 | exact Z2 | exact Z3 | reflexivity | exact Z5 | exact Z6].
        -- rewrite (proj1 NR'), K'. apply nrep_upd; assumption.
        -- intros a b v X. apply in_app_iff in X. destruct X as [X|[X|[]]].
           ++ destruct (ID' _ _ _ X) as (k1 & K1 & X1'). exists k1. split; [exact K1|]. rewrite app_assoc. apply in_or_app. left. exact X1'.
           ++ injection X as <- <- <-. exists k. split; [exact K'|]. rewrite app_assoc. exact IH.
        -- rewrite app_assoc. exact LI'.
        -- cbn [with_t dt_cancels]. rewrite X1. apply Forall2_app; [apply forall2_more; exact (tv_fns _ _ _ _ _ _ _ _ _ _ _ _ _ _ _ _ I)|]. constructor; [|constructor]. rewrite nth_error_app2 by lia. rewrite Nat.sub_diag. reflexivity.
        -- exact X2.
    + destruct NX as (-> & _). eexists _, _, _, _, _, _, news, _, _, _, _, _. split; [reflexivity|]. split; [apply n_noid; exact Se|]. apply COMMON; cbn [fst snd]; [exact TX1 | exact NR' | exact ID' | exact LI' | rewrite X1; apply forall2_more; exact (tv_fns _ _ _ _ _ _ _ _ _ _ _ _ _ _ _ _ I) | exact X2].
  - eexists _, _, _, _, _, _, news, Dx, D, R, st, A. split; [reflexivity|]. split; [apply n_miss; exact Se|].
    replace (with_reg (with_db p (y_db (p_sys p))) (p_reg p)) with p by (destruct p as [[] ? ? ? ? ? ? ?]; reflexivity).
    destruct I. split; try assumption; [eapply weaken_pinv; [|exact tv_p0]; lia | eapply linv_le; [|exact tv_l0]; lia | apply forall2_more; assumption].
Qed.

Lemma T_pos T p D R st A : pinv J T p D R st A -> 0 <= T.
Proof. intros V. pose proof (si_gid _ _ _ _ _ _ _ (pv_s _ _ _ _ _ _ _ V)). lia. Qed.
Lemma ssload_pos ss : 0 <= ssload ss.
Proof. induction ss as [|s ss IH]; cbn [ssload fold_right]; [lia|]. fold (ssload ss). destruct s; cbn [sweight]; lia. Qed.
Lemma tinv_more upd T T' p0 p x fns s0 s news held0 Dm Dx D R st A : T <= T' -> tinv upd T p0 p x fns s0 s news held0 Dm Dx D R st A -> tinv upd T' p0 p x fns s0 s news held0 Dm Dx D R st A.
Proof. intros L I. destruct I. split; try assumption; [eapply weaken_pinv; [|exact tv_p0]; lia | eapply linv_le; [|exact tv_l0]; lia]. Qed.
Lemma stmts_tinv upd p0 s0 held0 Dm ss : forall T p x fns s news Dx D R st A, tinv upd T p0 p x fns s0 s news held0 Dm Dx D R st A -> Forall (stmt_ok upd) ss -> 1000 * (T + ssload ss) < two63 ->
  exists p' x' fns' rs s' news' Dx' D' R' st' A', stmts_run (p, x, fns) ss = ((p', x', fns'), rs) /\ nstmts (sees p0) false s ss rs s' /\ tinv upd (T + ssload ss) p0 p' x' fns' s0 s' news' held0 Dm Dx' D' R' st' A'.
Proof.
  induction ss as [|a ss IH]; intros T p x fns s news Dx D R st A I F L.
  - cbn [stmts_run ssload fold_right]. rewrite Z.add_0_r. exists p, x, fns, [], s, news, Dx, D, R, st, A. split; [reflexivity|]. split; [constructor | exact I].
  - inversion F as [|? ? Fa Fs]; subst. pose proof (T_pos _ _ _ _ _ _ (tv_p _ _ _ _ _ _ _ _ _ _ _ _ _ _ _ _ I)) as T0. pose proof (ssload_pos ss) as P0. cbn [ssload fold_right] in L |- *. fold (ssload ss) in L |- *.
    assert (ST : exists p1 x1 fns1 r s1 news1 Dx1 D1 R1 st1 A1, stmt_step (p, x, fns) a = (p1, x1, fns1, r) /\ nstmt (sees p0) false s a r s1 /\ tinv upd (T + sweight a) p0 p1 x1 fns1 s0 s1 news1 held0 Dm Dx1 D1 R1 st1 A1).
    { destruct a as [dbn coll o|dbn coll data sio]; cbn [sweight] in *.
      - assert (LT : T < two63) by lia. destruct (op_tinv _ _ _ _ _ _ _ _ _ _ _ _ _ _ _ _ dbn coll o I LT Fa) as (x1 & r & s1 & Dx1 & E & NS & I1). rewrite Z.add_0_r. exists p, x1, fns, r, s1, news, Dx1, D, R, st, A. auto.
      - cbn [stmt_ok] in Fa. subst upd. assert (LT : 1000 * (T + 1) < two63) by lia. destruct (ins_tinv true _ _ _ _ _ _ _ _ _ _ _ _ _ _ _ dbn coll data sio I LT) as (p1 & x1 & fns1 & did & r & s1 & news1 & Dx1 & D1 & R1 & st1 & A1 & E & NS & I1).
        exists p1, x1, fns1, (RInsert did r), s1, news1, Dx1, D1, R1, st1, A1. split; [|auto]. cbn [stmt_step]. rewrite E. reflexivity. }
    destruct ST as (p1 & x1 & fns1 & r & s1 & news1 & Dx1 & D1 & R1 & st1 & A1 & E & NS & I1). assert (LL : 1000 * (T + sweight a + ssload ss) < two63) by lia.
    destruct (IH _ _ _ _ _ _ _ _ _ _ _ I1 Fs LL) as (p' & x' & fns' & rs & s' & news' & Dx' & D' & R' & st' & A' & E2 & NS2 & I2). rewrite Z.add_assoc.
    exists p', x', fns', (r :: rs), s', news', Dx', D', R', st', A'. split; [cbn [stmts_run]; rewrite E, E2; reflexivity|]. split; [econstructor; eassumption | exact I2].
Qed.

(** * Between calls *)
Definition dinv (T : Z) (p : proc) (s : nstate) : Prop := exists D R st A held Dm, pinv J T p D R st A /\ linv (seqs (applied D R st)) T A (p_reg p) held /\
  rep (dview (y_db (p_sys p))) Dm /\ nrep (applied D R st) (fst s) Dm /\ ids_in (applied D R st) (snd s) held.
Lemma dinv_le T T' p s : T <= T' -> dinv T p s -> dinv T' p s.
Proof. intros L (D & R & st & A & held & Dm & V & LI & X). exists D, R, st, A, held, Dm. split; [eapply weaken_pinv; eassumption|]. split; [eapply linv_le; eassumption | exact X]. Qed.
Lemma dinv_same T p s s' : nsame s s' -> dinv T p s -> dinv T p s'.
Proof.
  intros [E1 E2] (D & R & st & A & held & Dm & V & LI & Rp & [N1 N2] & Id). exists D, R, st, A, held, Dm. split; [exact V|]. split; [exact LI|]. split; [exact Rp|]. split; [|rewrite <- E2; exact Id].
  split; [|exact N2]. intros dbn coll. rewrite <- E1. apply N1.
Qed.
(** a step of the process itself *)
Lemma proc_dinv T p s e : dinv T p s -> lev_ok (LProc e) -> 1000 * (T + pweight e) < two63 -> dinv (T + pweight e) (pstep J p e) s.
Proof.
  intros (D & R & st & A & held & Dm & V & LI & Rp & NR & Id) (Pe & Sg & K) L. assert (PO : put_ok held e) by (destruct e; try exact Logic.I; destruct K).
  destruct (lstep_pinv J JO _ _ _ _ _ _ e _ V LI Pe Sg L PO) as (D' & R' & st' & A' & V' & LI' & (l & El) & _). exists D', R', st', A', (held_step p held e), Dm.
  split; [exact V'|]. split; [exact LI'|]. split.
  - apply (kept_rep (y_db (p_sys p))); [|exact Rp]. destruct e; try (apply kept_rest; apply pstep_keeps; exact Logic.I). cbn [pstep with_sys p_sys dstep y_db]. apply kept_other. exact K.
  - split; [rewrite El; apply nrep_more; [rewrite <- El; eapply nodup_applied; exact V' | exact NR]|]. rewrite El. apply ids_more. eapply ids_sub; [|exact Id]. intros x X. destruct e; try exact X; [| destruct K].
    cbn [held_step]. destruct (gave p (PNext cid io)); [apply in_or_app; left|]; exact X.
Qed.
Lemma tinv_start upd T p s D R st A held Dm : pinv J T p D R st A -> linv (seqs (applied D R st)) T A (p_reg p) held -> rep (dview (y_db (p_sys p))) Dm -> nrep (applied D R st) (fst s) Dm -> ids_in (applied D R st) (snd s) held -> p_up p = true ->
  tinv upd T p p (NewTxn (p_h p) (y_db (p_sys p)) upd []) [] s s [] held Dm Dm D R st A.
Proof.
  intros V LI Rp NR Id U. split; try assumption; try (rewrite app_nil_r; assumption); try reflexivity; [apply tx_new; exact Rp | apply MetaWrites.keeps_refl | constructor].
Qed.
Lemma tinv_drop upd T p0 p x fns s0 s news held0 Dm Dx D R st A : tinv upd T p0 p x fns s0 s news held0 Dm Dx D R st A -> dinv T p (fst s0, snd s).
Proof. intros I. destruct I. exists D, R, st, A, (held0 ++ news), Dm. auto. Qed.
(** the cancel functions *)
Lemma puts_dinv T fns news : forall p ran D R st A held, Forall2 (fun f cv => nth_error fns f = Some cv) ran news -> pinv J T p D R st A -> linv (seqs (applied D R st)) T A (p_reg p) held -> 1000 * T < two63 ->
  NoDup news -> (forall x, In x news -> In x held) ->
  exists D' R' st' A' held', pinv J T (fold_left (put_back fns) ran p) D' R' st' A' /\ linv (seqs (applied D' R' st')) T A' (p_reg (fold_left (put_back fns) ran p)) held' /\
    (forall x, In x held -> ~ In x news -> In x held') /\ (exists l, applied D' R' st' = applied D R st ++ l) /\ y_db (p_sys (fold_left (put_back fns) ran p)) = y_db (p_sys p).
Proof.
  induction news as [|[c v] news IH]; intros p ran D R st A held F V LI L ND In_; inversion F as [|f cv ran' news' Hf F']; subst; cbn [fold_left].
  - exists D, R, st, A, held. split; [exact V|]. split; [exact LI|]. split; [auto|]. split; [exists []; rewrite app_nil_r; reflexivity | reflexivity].
  - inversion ND as [|? ? Nv ND']; subst. assert (E : put_back fns p f = pstep J p (PPut c [v])) by (unfold put_back; rewrite Hf; reflexivity). rewrite E.
    assert (PO : put_ok held (PPut c [v])) by (split; [constructor; [intros [] | constructor] | intros w [<-|[]]; apply In_; left; reflexivity]).
    assert (LW : 1000 * (T + pweight (PPut c [v])) < two63) by (cbn [pweight]; lia).
    destruct (lstep_pinv J JO _ _ _ _ _ _ (PPut c [v]) _ V LI Logic.I Logic.I LW PO) as (D1 & R1 & st1 & A1 & V1 & LI1 & (l1 & El1) & _). cbn [pweight held_step] in V1, LI1. rewrite Z.add_0_r in V1, LI1.
    destruct (IH (pstep J p (PPut c [v])) ran' D1 R1 st1 A1 (without held c [v]) F' V1 LI1 L ND') as (D' & R' & st' & A' & held' & V' & LI' & Sub & (l & El) & Ed).
    { intros [c' v'] X. apply without_in. split; [apply In_; right; exact X|]. intros [-> [->|[]]]. exact (Nv X). }
    exists D', R', st', A', held'. split; [exact V'|]. split; [exact LI'|]. split; [|split].
    + intros [c' v'] X NX. apply Sub; [apply without_in; split; [exact X|]; intros [-> [->|[]]]; apply NX; left; reflexivity | intros Y; apply NX; right; exact Y].
    + exists (l1 ++ l). rewrite El, El1, app_assoc. reflexivity.
    + rewrite Ed. cbn [pstep]. destruct (p_reg p c); reflexivity.
Qed.
Lemma finish_dinv upd T p0 p x fns s0 s news held0 Dm Dx D R st A io : tinv upd T p0 p x fns s0 s news held0 Dm Dx D R st A -> 1000 * T < two63 -> db_ok (y_db (p_sys p0)) ->
  exists p' r, finish p x fns io = (p', r) /\ ((r = Ok tt /\ dinv T p' s) \/ (io = true /\ r = Err EIO /\ dinv T p' s0)).
Proof.
  intros I L K0. pose proof (tv_p _ _ _ _ _ _ _ _ _ _ _ _ _ _ _ _ I) as V. pose proof (tv_l _ _ _ _ _ _ _ _ _ _ _ _ _ _ _ _ I) as LI. pose proof (tv_tx _ _ _ _ _ _ _ _ _ _ _ _ _ _ _ _ I) as TX.
  unfold finish. destruct (dcommit (p_h p) (y_db (p_sys p)) io x) as [[[[h' d'] x'] r] ran] eqn:C.
  assert (Hh : h_val (p_h p) = dt_start x) by (rewrite (tv_start _ _ _ _ _ _ _ _ _ _ _ _ _ _ _ _ I), (tv_h _ _ _ _ _ _ _ _ _ _ _ _ _ _ _ _ I); reflexivity).
  destruct (tx_commit _ _ _ _ _ _ _ _ _ _ _ _ TX K0 (tv_rest _ _ _ _ _ _ _ _ _ _ _ _ _ _ _ _ I) Hh C) as (-> & Ed & Cs).
  set (q := with_h (with_db p d') (p_h p)).
  assert (Q : exists D' R' st' A', pinv J T q D' R' st' A' /\ linv (seqs (applied D' R' st')) T A' (p_reg q) (held0 ++ news) /\ exists l, applied D' R' st' = applied D R st ++ l).
  { destruct upd.
    - assert (Eq : q = pstep J p (POther (dt_t x) io)) by (unfold q; rewrite Ed; reflexivity).
      assert (PE : pev_ok (POther (dt_t x) io)) by (intros k o X; destruct (ti_pend _ _ _ _ TX k o X) as [DK _]; exact (dk_not_meta k DK)). assert (LW : 1000 * (T + pweight (POther (dt_t x) io)) < two63) by (cbn [pweight]; lia).
      destruct (lstep_pinv J JO _ _ _ _ _ _ (POther (dt_t x) io) _ V LI PE Logic.I LW Logic.I) as (D1 & R1 & st1 & A1 & V1 & LI1 & El & _). cbn [pweight held_step gave] in V1, LI1. rewrite Z.add_0_r in V1, LI1. rewrite Eq. exists D1, R1, st1, A1. auto.
    - assert (Eq : q = p) by (unfold q; rewrite Ed; destruct p as [[] ? ? ? ? ? ? ?]; reflexivity). rewrite Eq. exists D, R, st, A. split; [exact V|]. split; [exact LI|]. exists []. rewrite app_nil_r. reflexivity. }
  destruct Q as (D1 & R1 & st1 & A1 & V1 & LI1 & (l1 & El1)). pose proof (nodup_applied J _ _ _ _ _ _ V1) as ND1.
  destruct Cs as [(-> & -> & Rp)|(-> & -> & -> & Ed1)]; cbn [fold_left].
  - eexists _, _. split; [reflexivity|]. left. split; [reflexivity|]. exists D1, R1, st1, A1, (held0 ++ news), Dx. split; [exact V1|]. split; [exact LI1|]. split; [exact Rp|]. rewrite El1 in *.
    split; [apply nrep_more; [exact ND1 | exact (tv_docs _ _ _ _ _ _ _ _ _ _ _ _ _ _ _ _ I)] | apply ids_more; exact (tv_ids _ _ _ _ _ _ _ _ _ _ _ _ _ _ _ _ I)].
  - pose proof (li_nd _ _ _ _ _ LI) as NDh. apply nodup_app in NDh. destruct NDh as (_ & NDn & Dis).
    destruct (puts_dinv T fns news q (dt_cancels x) D1 R1 st1 A1 (held0 ++ news) (tv_fns _ _ _ _ _ _ _ _ _ _ _ _ _ _ _ _ I) V1 LI1 L NDn) as (D2 & R2 & st2 & A2 & held2 & V2 & LI2 & Sub & (l2 & El2) & Edb).
    { intros y X. apply in_or_app. right. exact X. }
    eexists _, _. split; [reflexivity|]. right. split; [reflexivity|]. split; [reflexivity|]. exists D2, R2, st2, A2, held2, Dm. split; [exact V2|]. split; [exact LI2|]. split.
    + rewrite Edb. unfold q. cbn [with_h with_db with_sys p_sys y_db]. rewrite Ed1. exact (tv_rep _ _ _ _ _ _ _ _ _ _ _ _ _ _ _ _ I).
    + pose proof (nodup_applied J _ _ _ _ _ _ V2) as ND2. rewrite El2, El1 in *. rewrite <- app_assoc in *. split.
      * apply nrep_more; [exact ND2 | exact (tv_docs0 _ _ _ _ _ _ _ _ _ _ _ _ _ _ _ _ I)].
      * apply ids_more. eapply ids_sub; [|exact (tv_ids0 _ _ _ _ _ _ _ _ _ _ _ _ _ _ _ _ I)]. intros y X. apply Sub; [apply in_or_app; left; exact X | exact (Dis y X)].
Qed.

(** a method with t = nil *)
Lemma spec_err m o r m' : doc_spec m o = (r, m') -> (forall v, r <> Ok v) -> m' = m.
Proof.
  intros E N. destruct o; cbn [doc_spec] in E; try congruence; try (exfalso; inversion E; subst; eapply N; reflexivity).
  - destruct (Dml.has m did); [congruence | exfalso; inversion E; subst; eapply N; reflexivity].
Qed.
Lemma spec_read m o r m' : doc_spec m o = (r, m') -> op_writes o = false -> m' = m.
Proof. intros E W. destruct o; cbn [op_writes] in W; try discriminate; cbn [doc_spec] in E; congruence. Qed.
Lemma nupd_id N dbn coll : forall a b, nupd N dbn coll (N dbn coll) a b = N a b.
Proof. intros a b. unfold nupd. destruct (bytes_eqb a dbn) eqn:E1; [|reflexivity]. destruct (bytes_eqb b coll) eqn:E2; [|reflexivity]. apply bytes_eqb_eq in E1. apply bytes_eqb_eq in E2. subst. reflexivity. Qed.
Lemma holds_db n d A : holds J n d A -> db_ok d.
Proof. intros [H _]. exact H. Qed.
Lemma auto_dinv T p N I dbn coll o io : dinv T p (N, I) -> p_up p = true -> 1000 * T < two63 -> call_ok (CAuto dbn coll o io) ->
  exists p' a s', do_call p (CAuto dbn coll o io) = (p', a) /\ ncall (sees p) false (N, I) (CAuto dbn coll o io) a s' /\ dinv T p' s'.
Proof.
  intros DI U L (F & NR). assert (DI' := DI). destruct DI' as (D & R & st & A & held & Dm & V & LI & Rp & Nr & Id). pose proof (T_pos _ _ _ _ _ _ V) as T0. assert (LT : T < two63) by lia.
  unfold do_call. rewrite U. cbn [negb]. unfold auto_op, run_doc_update, with_coll.
  pose proof (nc_auto (sees p) false N I dbn coll o io) as NA. assert (NF := fun v e => nc_auto_fail (sees p) false N I dbn coll o v e). unfold nop in NA, NF. rewrite sees_iff in NA, NF.
  assert (PP : with_h (with_db p (y_db (p_sys p))) (p_h p) = p) by (destruct p as [[] ? ? ? ? ? ? ?]; reflexivity).
  cbn [NewTxn dt_start]. rewrite resolve_visible. destruct (visible p dbn coll) as [ci|] eqn:Vi; cbn [option_map].
  - destruct (seen_lookup _ _ _ _ _ _ _ _ _ _ V Vi) as (k & K & Ek). rewrite Ek. pose proof (visible_i64 _ _ _ _ _ _ _ _ _ V LT K) as Hc. cbn [fst snd] in *.
    assert (EN : N dbn coll = Dm (ci_id k)) by (rewrite (proj1 Nr), K; reflexivity). pose proof (nupd_id N dbn coll) as NI. rewrite EN in NA, NF, NI.
    destruct (op_writes o) eqn:W.
    + pose proof (tinv_start true T p (N, I) D R st A held Dm V LI Rp Nr Id U) as TI.
      destruct (tx_op true _ _ _ (ci_id k) o (tv_tx _ _ _ _ _ _ _ _ _ _ _ _ _ _ _ _ TI) Hc F NR (fun _ => eq_refl)) as (t' & E & TX). cbn [NewTxn dt_t] in E. cbn [NewTxn dt_t]. rewrite E. destruct (doc_spec (Dm (ci_id k)) o) as [r m] eqn:DS. cbn [fst snd] in *.
      destruct r as [v|e|]; cbn [fst snd].
      * set (x1 := with_t (NewTxn (p_h p) (y_db (p_sys p)) true []) t') in *.
        assert (TI1 : tinv true T p p x1 [] (N, I) (nupd N dbn coll m, I) [] held Dm (dupd Dm (ci_id k) m) D R st A).
        { destruct TI. split; try assumption. cbn [fst]. apply nrep_upd; [eapply nodup_applied; exact V | exact Nr | exact K]. }
        destruct (finish_dinv _ _ _ _ _ _ _ _ _ _ _ _ _ _ _ _ io TI1 L (holds_db _ _ _ (si_holds _ _ _ _ _ _ _ (pv_s _ _ _ _ _ _ _ V)))) as (p' & r & Fi & Cs). unfold finish in Fi.
        assert (NL : dt_cancels x1 = []) by reflexivity. destruct (dcommit (p_h p) (y_db (p_sys p)) io x1) as [[[[h' d'] x'] r'] ran] eqn:C.
        destruct (tx_commit _ _ _ _ _ _ _ _ _ _ _ _ TX (holds_db _ _ _ (si_holds _ _ _ _ _ _ _ (pv_s _ _ _ _ _ _ _ V))) (MetaWrites.keeps_refl _) eq_refl C) as (-> & _ & Cr).
        assert (Er : ran = []) by (destruct Cr as [(_ & X & _)|(_ & _ & X & _)]; [exact X | rewrite X; exact NL]). subst ran. cbn [fold_left] in Fi. injection Fi as <- <-.
        destruct Cs as [(-> & DJ)|(-> & -> & DJ)].
        -- eexists _, _, _. split; [reflexivity|]. split; [exact NA | exact DJ].
        -- eexists _, _, _. split; [reflexivity|]. split; [exact (NF v EIO eq_refl eq_refl) | exact DJ].
      * eexists _, _, _. split; [reflexivity|]. split; [exact NA|]. rewrite PP. assert (m = Dm (ci_id k)) by (eapply spec_err; [exact DS | discriminate]). subst m. eapply dinv_same; [|exact DI]. split; [intros; symmetry; apply NI | reflexivity].
      * eexists _, _, _. split; [reflexivity|]. split; [exact NA|]. rewrite PP. assert (m = Dm (ci_id k)) by (eapply spec_err; [exact DS | discriminate]). subst m. eapply dinv_same; [|exact DI]. split; [intros; symmetry; apply NI | reflexivity].
    + pose proof (tinv_start false T p (N, I) D R st A held Dm V LI Rp Nr Id U) as TI.
      destruct (tx_op false _ _ _ (ci_id k) o (tv_tx _ _ _ _ _ _ _ _ _ _ _ _ _ _ _ _ TI) Hc F NR ltac:(congruence)) as (t' & E & TX). cbn [NewTxn dt_t] in E. cbn [NewTxn dt_t]. rewrite E. destruct (doc_spec (Dm (ci_id k)) o) as [r m] eqn:DS. cbn [fst snd] in *.
      eexists _, _, _. split; [reflexivity|]. split; [exact NA|]. rewrite PP. assert (m = Dm (ci_id k)) by (eapply spec_read; eassumption). subst m. eapply dinv_same; [|exact DI]. split; [intros; symmetry; apply NI | reflexivity].
  - cbn [fst snd] in NA. exists p, (NAuto (Err ErrCollectionNotExists)), (N, I). split; [destruct (op_writes o); rewrite PP; reflexivity|]. split; [exact NA | exact DI].
Qed.
Lemma ins_dinv T p s dbn coll data sio io : dinv T p s -> p_up p = true -> 1000 * (T + 1) < two63 ->
  exists p' a s', do_call p (CInsert dbn coll data sio io) = (p', a) /\ ncall (sees p) false s (CInsert dbn coll data sio io) a s' /\ dinv (T + 1) p' s'.
Proof.
  intros (D & R & st & A & held & Dm & V & LI & Rp & Nr & Id) U L. unfold do_call. rewrite U. cbn [negb].
  pose proof (tinv_start true T p s D R st A held Dm V LI Rp Nr Id U) as TI. destruct (ins_tinv false _ _ _ _ _ _ _ _ _ _ _ _ _ _ _ dbn coll data sio TI L) as (p1 & x1 & fns1 & did & r & s1 & news1 & Dx1 & D1 & R1 & st1 & A1 & E & NS & I1).
  rewrite E. destruct (finish_dinv _ _ _ _ _ _ _ _ _ _ _ _ _ _ _ _ io I1 L (holds_db _ _ _ (si_holds _ _ _ _ _ _ _ (pv_s _ _ _ _ _ _ _ V)))) as (p' & r' & Fi & Cs). pose proof (tinv_drop _ _ _ _ _ _ _ _ _ _ _ _ _ _ _ _ I1) as DD.
  destruct r as [[]|e|].
  - rewrite Fi. destruct Cs as [(-> & DJ)|(-> & -> & DJ)]; eexists _, _, _; (split; [reflexivity|]); split; [apply nc_ins; exact NS | exact DJ | eapply nc_ins_fail; exact NS | exact DJ].
  - eexists _, _, _. split; [reflexivity|]. split; [apply nc_ins; exact NS|]. inversion NS; subst. exact DD.
  - inversion NS.
Qed.
Lemma txn_dinv T p s upd ss fin : dinv T p s -> p_up p = true -> 1000 * (T + ssload ss) < two63 -> Forall (stmt_ok upd) ss ->
  exists p' a s', do_call p (CTxn upd ss fin) = (p', a) /\ ncall (sees p) false s (CTxn upd ss fin) a s' /\ dinv (T + ssload ss) p' s'.
Proof.
  intros (D & R & st & A & held & Dm & V & LI & Rp & Nr & Id) U L F. unfold do_call. rewrite U. cbn [negb].
  pose proof (tinv_start upd T p s D R st A held Dm V LI Rp Nr Id U) as TI. destruct (stmts_tinv _ _ _ _ _ ss _ _ _ _ _ _ _ _ _ _ _ TI F L) as (p1 & x1 & fns1 & rs & s1 & news1 & Dx1 & D1 & R1 & st1 & A1 & E & NS & I1).
  rewrite E. destruct fin as [io|].
  - destruct (finish_dinv _ _ _ _ _ _ _ _ _ _ _ _ _ _ _ _ io I1 L (holds_db _ _ _ (si_holds _ _ _ _ _ _ _ (pv_s _ _ _ _ _ _ _ V)))) as (p' & r' & Fi & Cs). rewrite Fi.
    destruct Cs as [(-> & DJ)|(-> & -> & DJ)]; eexists _, _, _; (split; [reflexivity|]); split; [apply nc_commit; exact NS | exact DJ | eapply nc_fail; exact NS | exact DJ].
  - eexists _, _, _. split; [reflexivity|]. split; [eapply nc_drop; exact NS | eapply tinv_drop; exact I1].
Qed.
Lemma lweight_pos e : 0 <= lweight e.
Proof.
  destruct e as [e|c]; cbn [lweight]; [pose proof (pload_nonneg [e]); cbn [pload fold_right] in *; lia|]. destruct c; try lia. apply ssload_pos.
Qed.
Lemma lload_pos es : 0 <= lload es.
Proof. induction es as [|e es IH]; cbn [lload fold_right]; [lia|]. fold (lload es). pose proof (lweight_pos e). lia. Qed.
Lemma nsame_refl s : nsame s s.
Proof. split; reflexivity. Qed.
(** a step of a life *)
Lemma lev_dinv T p s e : dinv T p s -> lev_ok e -> 1000 * (T + lweight e) < two63 ->
  exists s', dinv (T + lweight e) (fst (lev_step J p e)) s' /\
    match e with
    | LProc _ => snd (lev_step J p e) = NNone /\ s' = s
    | LCall c => if p_up p then ncall (sees p) false s c (snd (lev_step J p e)) s' else snd (lev_step J p e) = NNone /\ s' = s
    end.
Proof.
  intros DI OK L. destruct e as [e|c]; cbn [lev_step].
  - exists s. split; [apply proc_dinv; assumption | auto].
  - destruct (p_up p) eqn:U; [|exists s; unfold do_call; rewrite U; cbn [negb fst snd]; split; [eapply dinv_le; [|exact DI]; pose proof (lweight_pos (LCall c)); lia | auto]].
    assert (X : exists p' a s', do_call p c = (p', a) /\ ncall (sees p) false s c a s' /\ dinv (T + lweight (LCall c)) p' s').
    { destruct c as [dbn coll o io|dbn coll data sio io|upd ss fin]; cbn [lweight] in *.
      - rewrite Z.add_0_r in *. destruct s as [N I]. apply auto_dinv; assumption.
      - apply ins_dinv; assumption.
      - apply txn_dinv; assumption. }
    destruct X as (p' & a & s' & E & NC & DJ). rewrite E. exists s'. auto.
Qed.
Lemma lev_told es : forall T p s, dinv T p s -> Forall lev_ok es -> 1000 * (T + lload es) < two63 ->
  exists s', told J false p s es (snd (lev_run J p es)) s' /\ dinv (T + lload es) (fst (lev_run J p es)) s'.
Proof.
  induction es as [|e es IH]; intros T p s DI F L.
  - exists s. cbn [lev_run fst snd told lload fold_right]. rewrite Z.add_0_r. split; [apply nsame_refl | exact DI].
  - inversion F as [|? ? Fe Fs]; subst. cbn [lload fold_right] in L |- *. fold (lload es) in L |- *. pose proof (lload_pos es) as P0. assert (L1 : 1000 * (T + lweight e) < two63) by lia.
    destruct (lev_dinv T p s e DI Fe L1) as (s1 & D1 & St). assert (L2 : 1000 * (T + lweight e + lload es) < two63) by lia. destruct (IH _ _ _ D1 Fs L2) as (s2 & To & D2).
    cbn [lev_run]. destruct (lev_step J p e) as [p1 a] eqn:E. cbn [fst snd] in *. destruct (lev_run J p1 es) as [p2 l] eqn:E2. cbn [fst snd] in *. exists s2. rewrite Z.add_assoc. split; [|exact D2].
    cbn [told]. exists s, s1. split; [apply nsame_refl|]. split; [exact St|]. rewrite E. exact To.
Qed.
Lemma start_dinv d0 : db_ok d0 -> P_Meta.no_meta d0 -> no_documents d0 -> dinv 0 (pstart d0) nothing.
Proof.
  intros H1 H2 H3. exists [], [], HFresh, m_empty, [], (fun _ => []). split; [apply start_pinv, P_Ddl.empty_holds; assumption|]. split; [apply start_linv|]. split; [|split].
  - apply (rep_frame empty); [apply rep_empty|]. intros c k Hc X. cbn [pstart dstart p_sys y_db]. rewrite (H3 c k Hc X), get_empty. reflexivity.
  - split; [reflexivity | intros c X; congruence].
  - intros dbn coll v [].
Qed.

(** * A call as events of the process *)
Definition tame (p : proc) (x : dtxn) : Prop := dt_start x = h_val (p_h p) /\ forall k o, get (t_pend (dt_t x)) k = Some o -> has_prefix k MetaPrefix = false.
Lemma doc_not_meta c k : has_prefix k (docPrefix c) = true -> has_prefix k MetaPrefix = false.
Proof. intros H. apply has_prefix_spec in H. destruct H as [s ->]. rewrite docPrefix_app, <- !app_assoc. reflexivity. Qed.
Lemma tame_new p d upd lim : tame p (NewTxn (p_h p) d upd lim).
Proof. split; [reflexivity|]. intros k o X. cbn [NewTxn dt_t new_txn t_pend] in X. rewrite get_empty in X. discriminate. Qed.
Lemma tame_wrote p x t c (P : bytes -> option ent -> Prop) : tame p x -> wrote P (dt_t x) t -> (forall k o, P k o -> has_prefix k (docPrefix c) = true) -> forall k o, get (t_pend t) k = Some o -> has_prefix k MetaPrefix = false.
Proof. intros [_ T] [_ W] H k o X. destruct (W k) as [Y|(o' & _ & Q)]; [rewrite Y in X; exact (T k o X) | exact (doc_not_meta c k (H k o' Q))]. Qed.
Lemma tame_op mark p x dbn coll o x' r : tame p x -> with_coll mark x dbn coll (fun cid => op_tx cid o) = (x', r) -> tame p x'.
Proof.
  intros T. unfold with_coll. destruct (resolve (dt_start x) dbn coll) as [c|]; [|intros E; injection E as <- <-; exact T].
  assert (T1 : tame p (if mark then ReferredCollections x [c] else x)) by (destruct mark; exact T). set (x1 := if mark then ReferredCollections x [c] else x) in *. destruct (op_tx c o (dt_t x1)) as [t r1] eqn:E1. intros E. injection E as <- <-. split; [exact (proj1 T1)|].
  cbn [with_t dt_t]. eapply (tame_wrote p x1 t c); [exact T1 | eapply wr_op; exact E1 | intros k v [H _]; exact H].
Qed.
Definition moves (p p' : proc) (n : Z) : Prop := exists es, p' = prun J p es /\ Forall pev_ok es /\ Forall single es /\ pload es <= n.
Lemma moves_refl p n : 0 <= n -> moves p p n.
Proof. intros H. exists []. split; [reflexivity|]. split; [constructor|]. split; [constructor | exact H]. Qed.
Lemma moves_one p e n : pev_ok e -> single e -> pweight e <= n -> moves p (pstep J p e) n.
Proof. intros H1 H2 H3. exists [e]. split; [reflexivity|]. split; [constructor; [exact H1 | constructor]|]. split; [constructor; [exact H2 | constructor]|]. cbn [pload fold_right]. lia. Qed.
Lemma moves_trans p q r n m : moves p q n -> moves q r m -> moves p r (n + m).
Proof. intros (a & -> & A1 & A2 & A3) (b & -> & B1 & B2 & B3). exists (a ++ b). rewrite prun_app, pload_app. split; [reflexivity|]. split; [apply Forall_app; auto|]. split; [apply Forall_app; auto | lia]. Qed.
Lemma insert_moves mark p x fns dbn coll data sio p' x' fns' did r : tame p x -> insert_stmt mark p x fns dbn coll data sio = (p', x', fns', (did, r)) -> moves p p' 1 /\ tame p' x' /\ p_h p' = p_h p /\ p_up p' = p_up p.
Proof.
  intros T. unfold insert_stmt, insertFunc. assert (PP : with_reg (with_db p (y_db (p_sys p))) (p_reg p) = p) by (destruct p as [[] ? ? ? ? ? ? ?]; reflexivity).
  destruct (resolve (dt_start x) dbn coll) as [c|]; [|rewrite PP; intros E; injection E as <- <- _ _ _; split; [apply moves_refl; lia | auto]].
  assert (T1 : tame p (if mark then ReferredCollections x [c] else x)) by (destruct mark; exact T). set (x1 := if mark then ReferredCollections x [c] else x) in *.
  destruct (p_reg p c) as [q|] eqn:G; [|rewrite PP; intros E; injection E as <- <- _ _ _; split; [apply moves_refl; lia | auto]].
  destruct (q_exec (y_db (p_sys p)) (y_db (p_sys p)) [] sio q QNext) as [[d' q'] rq] eqn:Q.
  assert (M : moves p (with_reg (with_db p d') (reg_set (p_reg p) c q')) 1).
  { replace (with_reg (with_db p d') (reg_set (p_reg p) c q')) with (pstep J p (PNext c sio)) by (cbn [pstep]; rewrite G, Q; reflexivity). apply moves_one; [exact Logic.I | exact Logic.I | cbn [pweight]; lia]. }
  destruct rq as [[|v|l]|e|].
  - intros E. injection E as <- <- _ _ _. split; [exact M|]. split; [exact T1 | auto].
  - destruct (tset (docKey c v) data (dt_t x1)) as [t rt] eqn:Et. destruct (AddCancelFunc (with_t x1 t) (length fns)) as [x2 r2] eqn:Ac. intros E. injection E as <- <- _ _ _. split; [exact M|]. split; [|auto].
    assert (T2 : tame p (with_t x1 t)).
    { split; [exact (proj1 T1)|]. cbn [with_t dt_t]. eapply (tame_wrote p x1 t c (fun k o => k = docKey c v)); [exact T1 | eapply wr_tset; [reflexivity | exact Et] | intros k o ->; apply docKey_self]. }
    unfold AddCancelFunc in Ac. destruct (negb (dt_upd (with_t x1 t))); injection Ac as <- _; exact T2.
  - intros E. injection E as <- <- _ _ _. split; [exact M|]. split; [exact T1 | auto].
  - intros E. injection E as <- <- _ _ _. split; [exact M|]. split; [exact T1 | auto].
  - intros E. injection E as <- <- _ _ _. split; [exact M|]. split; [exact T1 | auto].
Qed.
Lemma puts_moves fns ran : forall p, moves p (fold_left (put_back fns) ran p) 0 /\ p_h (fold_left (put_back fns) ran p) = p_h p /\ p_up (fold_left (put_back fns) ran p) = p_up p.
Proof.
  induction ran as [|f ran IH]; intros p; cbn [fold_left]; [split; [apply moves_refl; lia | auto]|].
  assert (X : moves p (put_back fns p f) 0 /\ p_h (put_back fns p f) = p_h p /\ p_up (put_back fns p f) = p_up p).
  { unfold put_back. destruct (nth_error fns f) as [[c v]|]; [|split; [apply moves_refl; lia | auto]]. split; [apply (moves_one p (PPut c [v])); [exact Logic.I | exact Logic.I | cbn [pweight]; lia]|]. destruct (p_reg p c); auto. }
  destruct X as (X1 & X2 & X3). destruct (IH (put_back fns p f)) as (Y1 & Y2 & Y3). split; [apply (moves_trans _ _ _ 0 0 X1 Y1)|]. split; congruence.
Qed.
Lemma finish_moves p x fns io p' r : tame p x -> finish p x fns io = (p', r) -> moves p p' 0 /\ p_h p' = p_h p /\ p_up p' = p_up p.
Proof.
  intros [T1 T2]. unfold finish. destruct (dcommit (p_h p) (y_db (p_sys p)) io x) as [[[[h' d'] x'] r'] ran] eqn:C. intros E. injection E as <- <-.
  assert (M : moves p (with_h (with_db p d') h') 0 /\ h' = p_h p).
  { assert (PP : with_h (with_db p (y_db (p_sys p))) (p_h p) = p) by (destruct p as [[] ? ? ? ? ? ? ?]; reflexivity).
    unfold dcommit in C. destruct (negb (dt_upd x)); [injection C as <- <- _ _ _; rewrite PP; split; [apply moves_refl; lia | reflexivity]|].
    unfold Check in C. rewrite T1 in C. replace (ptr_eqb (h_val (p_h p)) (h_val (p_h p))) with true in C by (unfold ptr_eqb; destruct (h_val (p_h p)) as [s|]; [rewrite Nat.eqb_refl|]; reflexivity).
    assert (W : moves p (with_h (with_db p (fst (fst (commit (y_db (p_sys p)) (dt_t x) io)))) (p_h p)) 0) by (apply (moves_one p (POther (dt_t x) io)); [exact T2 | exact Logic.I | cbn [pweight]; lia]).
    destruct (commit (y_db (p_sys p)) (dt_t x) io) as [[d1 t1] [a|e|]]; injection C as <- <- _ _ _; auto. }
  destruct M as [M ->]. destruct (puts_moves fns ran (with_h (with_db p d') (p_h p))) as (Y1 & Y2 & Y3). split; [apply (moves_trans _ _ _ 0 0 M Y1)|]. auto.
Qed.
Lemma stmts_moves ss : forall p x fns p' x' fns' rs, tame p x -> stmts_run (p, x, fns) ss = ((p', x', fns'), rs) -> moves p p' (ssload ss) /\ tame p' x' /\ p_h p' = p_h p /\ p_up p' = p_up p.
Proof.
  induction ss as [|a ss IH]; intros p x fns p' x' fns' rs T E; cbn [stmts_run ssload fold_right] in *.
  - injection E as <- <- _ _. split; [apply moves_refl; lia | auto].
  - fold (ssload ss). destruct (stmt_step (p, x, fns) a) as [[[p1 x1] fns1] r1] eqn:E1. destruct (stmts_run (p1, x1, fns1) ss) as [[[p2 x2] fns2] rs2] eqn:E2. injection E as <- <- _ _.
    assert (S1 : moves p p1 (sweight a) /\ tame p1 x1 /\ p_h p1 = p_h p /\ p_up p1 = p_up p).
    { destruct a as [dbn coll o|dbn coll data sio]; cbn [stmt_step sweight] in *.
      - unfold coll_op in E1. destruct (with_coll true x dbn coll (fun cid => op_tx cid o)) as [x3 r3] eqn:W. injection E1 as <- <- _ _. split; [apply moves_refl; lia|]. split; [eapply tame_op; eassumption | auto].
      - destruct (insert_stmt true p x fns dbn coll data sio) as [[[p3 x3] fns3] [did r3]] eqn:W. injection E1 as <- <- _ _. eapply insert_moves; eassumption. }
    destruct S1 as (M1 & T1 & H1 & U1). destruct (IH _ _ _ _ _ _ _ T1 E2) as (M2 & T2 & H2 & U2). split; [eapply moves_trans; eassumption|]. split; [exact T2|]. split; congruence.
Qed.
Lemma lev_moves p e : lev_ok e -> moves p (fst (lev_step J p e)) (lweight e).
Proof.
  destruct e as [e|c]; cbn [lev_step lev_ok].
  - intros (H1 & H2 & _). apply moves_one; [exact H1 | exact H2 | apply Z.le_refl].
  - intros _. unfold do_call. destruct (p_up p) eqn:U; cbn [negb]; [|apply moves_refl; apply lweight_pos].
    assert (PP : with_h (with_db p (y_db (p_sys p))) (p_h p) = p) by (destruct p as [[] ? ? ? ? ? ? ?]; reflexivity).
    destruct c as [dbn coll o io|dbn coll data sio io|upd ss fin]; cbn [lweight].
    + unfold auto_op, run_doc_update. destruct (op_writes o); [|rewrite PP; apply moves_refl; lia].
      destruct (with_coll false (NewTxn (p_h p) (y_db (p_sys p)) true []) dbn coll (fun cid => op_tx cid o)) as [x r] eqn:W. pose proof (tame_op _ _ _ _ _ _ _ _ (tame_new p _ _ _) W) as T.
      destruct r as [a|e|]; [|rewrite PP; apply moves_refl; lia..].
      pose proof (finish_moves p x [] io) as FM. unfold finish in FM. destruct (dcommit (p_h p) (y_db (p_sys p)) io x) as [[[[h' d'] x'] r'] ran]. cbn [fst].
      specialize (FM _ _ T eq_refl). assert (N : forall l q, fold_left (put_back []) l q = q) by (induction l as [|f l IHl]; intros q; [reflexivity|]; cbn [fold_left]; replace (put_back [] q f) with q by (unfold put_back; destruct f; reflexivity); apply IHl).
      rewrite N in FM. apply FM.
    + destruct (insert_stmt false p (NewTxn (p_h p) (y_db (p_sys p)) true []) [] dbn coll data sio) as [[[p1 x1] fns1] [did r1]] eqn:E1. destruct (insert_moves _ _ _ _ _ _ _ _ _ _ _ _ _ (tame_new p _ _ _) E1) as (M1 & T1 & H1 & U1).
      destruct r1 as [a|e|]; [|exact M1..]. destruct (finish p1 x1 fns1 io) as [p2 r2] eqn:E2. destruct (finish_moves _ _ _ _ _ _ T1 E2) as (M2 & _ & _). exact (moves_trans _ _ _ 1 0 M1 M2).
    + destruct (stmts_run (p, NewTxn (p_h p) (y_db (p_sys p)) upd [], []) ss) as [[[p1 x1] fns1] rs] eqn:E1. destruct (stmts_moves _ _ _ _ _ _ _ _ (tame_new p _ _ _) E1) as (M1 & T1 & H1 & U1).
      destruct fin as [io|]; [|exact M1]. destruct (finish p1 x1 fns1 io) as [p2 r2] eqn:E2. destruct (finish_moves _ _ _ _ _ _ T1 E2) as (M2 & _ & _). cbn [fst]. rewrite <- (Z.add_0_r (ssload ss)). exact (moves_trans _ _ _ _ _ M1 M2).
Qed.
Lemma run_moves es : forall p, Forall lev_ok es -> moves p (fst (lev_run J p es)) (lload es).
Proof.
  induction es as [|e es IH]; intros p F; cbn [lev_run lload fold_right]; [apply moves_refl; apply Z.le_refl|]. fold (lload es). inversion F as [|? ? Fe Fs]; subst.
  pose proof (lev_moves p e Fe) as M. destruct (lev_step J p e) as [p1 a]. pose proof (IH p1 Fs) as M2. destruct (lev_run J p1 es) as [p2 l]. exact (moves_trans _ _ _ _ _ M M2).
Qed.
End WithJson.
