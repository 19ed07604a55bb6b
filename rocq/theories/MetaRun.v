(** Package meta refines MetaSpec.v in every history of transactions. *)
From Verif Require Import Bytes SMap Provider ProviderProofs World Memcmp MemcmpProofs Numeric KvUtil KeyModel Struct
  StructProofs StructHash StructList UtilTxn Sequence SequenceProofs Model Meta MetaSpec MetaProofs MetaOps.
From Coq Require Import Sorted.

Local Notation P := MetaPrefix.
Local Notation GP := meta_prefix_good.

Definition mlift {A} (f : A -> mval) (m : Tx A) : Tx mval := a <- m ;; ret (f a).
Definition mrmap {A B} (f : A -> B) (r : result A) : result B := match r with Ok a => Ok (f a) | Err e => Err e | Panic => Panic end.
Definition munit (_ : unit) : mval := VUnit.
Definition mrange (p : Z * Z) : mval := VRange (fst p) (snd p).
Lemma mlift_sspec {A} c (f : A -> mval) (m : Tx A) S r S' : 0 <= c -> sspec P c m S r S' -> r <> Panic -> sspec P c (mlift f m) S (mrmap f r) S'.
Proof.
  intros C H N. unfold mlift. destruct r as [a|e|]; [|apply sspec_bind_err; exact H|congruence].
  replace c with (c + 0) by lia. eapply sspec_bind; [exact C | lia | exact H | apply sspec_ret].
Qed.
Lemma mlift_sread {A} (f : A -> mval) (m : Tx A) S r : sread P m S r -> r <> Panic -> sread P (mlift f m) S (mrmap f r).
Proof.
  intros H N. unfold mlift. destruct r as [a|e|]; [|apply sread_bind_err; exact H|congruence].
  eapply sread_bind; [exact H | apply sread_ret].
Qed.

Section WithJson.
Variable J : json.
Hypothesis JO : json_ok J.
Local Notation mrep := (mrep J).
Local Notation mdo := (mdo J).
Local Notation mgets := (mgets J).

(** the code *)
Definition mexec (o : mop) : Tx mval :=
  match o with
  | MGetGlobalID => mlift VInt GetGlobalID | MGenGlobalID => mlift VInt GenGlobalID | MGenGlobalIDs n => mlift mrange (GenGlobalIDs n)
  | MGetVersion => mlift VInt GetSchemaVersion | MGenVersion => mlift VInt GenSchemaVersion
  | MGetBoot => mlift VInt GetBootstrapVersion | MFinishBoot v => mlift munit (FinishBootstrap v)
  | MCreateDB d => mlift munit (CreateDatabase J d) | MUpdateDB d => mlift munit (UpdateDatabase J d) | MDropDB i => mlift munit (DropDatabase i)
  | MGetDB i => mlift VDb (GetDatabase J i) | MListDBs => mlift VDbs (ListDatabases J)
  | MCreateColl i c => mlift munit (CreateCollection J i c) | MUpdateColl i c => mlift munit (UpdateCollection J i c)
  | MDropColl i c b => mlift munit (DropCollection i c b) | MGetColl i c => mlift VColl (GetCollection J i c) | MListColls i => mlift VColls (ListCollections J i)
  | MGetDiff v => mlift VDiff (GetSchemaDiff J v) | MSetDiff d => mlift munit (SetSchemaDiff J d)
  | MEnqueue q j => mlift munit (EnQueueDDLJob J q j) | MDequeue q => mlift VJob (DeQueueDDLJob J q) | MJobAt q i => mlift VJob (GetDDLJobByIdx J q i)
  | MUpdateJob q i j => mlift munit (UpdateDDLJob J q i j) | MQueueLen q => mlift VInt (DDLJobQueueLen q) | MAllJobs q => mlift VJobs (GetAllDDLJobsInQueue J q)
  | MAddHistory j => mlift munit (AddHistoryDDLJob J j) | MGetHistory i => mlift VJob (GetHistoryDDLJob J i)
  | MAllHistory => mlift VJobs (GetAllHistoryDDLJobs J) | MLastHistory n => mlift VJobs (GetLastNHistoryDDLJobs J n)
  | MReorgStart i s => mlift munit (UpdateDDLReorgStartHandle i s) | MReorg i s e => mlift munit (UpdateDDLReorgHandle i s e)
  | MReorgRemove i => mlift munit (RemoveDDLReorgHandle i) | MReorgGet i => mlift mrange (GetDDLReorgHandle i)
  | MDidInc i c s => mlift VInt (HInc P (dbKeyByID i) (didSequenceKeyByID c) s)
  end.

Lemma read_of {X} (f : X -> mval) A S (m : Tx X) r r' : mgets A m r -> mrep S A -> r <> Panic -> mrmap f r = r' -> sread P (mlift f m) S r'.
Proof. intros H R N <-. apply mlift_sread; [apply H; exact R | exact N]. Qed.
Lemma jread_np o : jread o <> Panic.
Proof. destruct o as [j|]; cbn; [destruct (j_err j)|]; discriminate. Qed.
Lemma jread_val o : mrmap VJob (jread o) = read_job o.
Proof. destruct o as [j|]; cbn; [destruct (j_err j)|]; reflexivity. Qed.
Lemma jreads_np o : jreads o <> Panic.
Proof. unfold jreads. destruct (existsb _ _); discriminate. Qed.
Lemma jreads_val o : mrmap VJobs (jreads o) = read_jobs o.
Proof. unfold jreads, read_jobs. destruct (existsb _ _); reflexivity. Qed.

Lemma msim_read A S o : mreads o = true -> mok o -> mrep S A -> exists r, mref A o r A /\ sread P (mexec o) S r /\ r <> Panic.
Proof.
  intros RD K R. destruct o; try discriminate; cbn [mexec mref mok] in *.
  - eexists. split; [split; reflexivity|]. split; [eapply read_of; [apply GetGlobalID_r | exact R | | ] |]; destruct (m_gid A); try discriminate; reflexivity.
  - eexists. split; [split; reflexivity|]. split; [eapply read_of; [apply GetSchemaVersion_r | exact R | discriminate | reflexivity] | discriminate].
  - eexists. split; [split; reflexivity|]. split; [eapply read_of; [apply GetBootstrapVersion_r | exact R | discriminate | reflexivity] | discriminate].
  - eexists. split; [split; reflexivity|]. split; [eapply read_of; [apply (GetDatabase_r J JO A id K) | exact R | | ] |]; destruct (m_db A id); try discriminate; reflexivity.
  - destruct (ListDatabases_r J JO A S R) as (l & L & H). exists (Ok (VDbs l)). split; [split; [exists l; auto | reflexivity]|]. split; [exact (mlift_sread VDbs _ S _ H ltac:(discriminate)) | discriminate].
  - eexists. split; [split; reflexivity|]. destruct K as [K1 K2]. split; [eapply read_of; [apply (GetCollection_r J JO A db cid K1 K2) | exact R | | ] |]; destruct (exists_db A db); try discriminate; try reflexivity; destruct (m_coll A db cid); try discriminate; reflexivity.
  - destruct (exists_db A db) eqn:E.
    + destruct (ListCollections_r J JO A S db K R E) as (l & L & H). exists (Ok (VColls l)). split; [split; [exists l; auto | reflexivity]|]. split; [exact (mlift_sread VColls _ S _ H ltac:(discriminate)) | discriminate].
    + eexists. split; [split; reflexivity|]. split; [eapply read_of; [apply (ListCollections_none J A db K E) | exact R | discriminate | reflexivity] | discriminate].
  - eexists. split; [split; reflexivity|]. split; [eapply read_of; [apply (GetSchemaDiff_r J JO A v K) | exact R | discriminate | reflexivity] | discriminate].
  - exists (mrmap VJob (job_at (m_queue A q) i)). unfold job_at. assert (N : job_at (m_queue A q) i <> Panic).
    { unfold job_at. destruct (m_queue A q); [discriminate|]. destruct (position _ _); [apply jread_np | discriminate]. }
    split; [split; [|reflexivity] | split; [eapply read_of; [apply (GetDDLJobByIdx_r J JO A q i K) | exact R | exact N | reflexivity] |]].
    + destruct (m_queue A q); [reflexivity|]. destruct (position _ _); [apply jread_val | reflexivity].
    + unfold job_at in N. destruct (m_queue A q); [discriminate|]. destruct (position _ _); [|discriminate]. rewrite jread_val. unfold read_job. destruct (nth_error _ _) as [j0|]; [destruct (j_err j0)|]; discriminate.
  - eexists. split; [split; reflexivity|]. split; [eapply read_of; [apply DDLJobQueueLen_r | exact R | discriminate | reflexivity] | discriminate].
  - eexists. split; [split; reflexivity|]. split; [eapply read_of; [apply (GetAllDDLJobsInQueue_r J JO A q) | exact R | apply jreads_np | apply jreads_val] |]. unfold read_jobs. destruct (existsb _ _); discriminate.
  - eexists. split; [split; reflexivity|]. split; [eapply read_of; [apply (GetHistoryDDLJob_r J JO A id K) | exact R | apply jread_np | apply jread_val] |]. unfold read_job. destruct (m_hist A id) as [j|]; [destruct (j_err j)|]; discriminate.
  - destruct (GetAllHistoryDDLJobs_r J JO A S R) as (l & L & H). exists (read_jobs l). split; [split; [exists l; auto | reflexivity]|]. split; [|unfold read_jobs; destruct (existsb _ _); discriminate].
    rewrite <- jreads_val. exact (mlift_sread VJobs _ S _ H (jreads_np l)).
  - destruct (GetLastNHistoryDDLJobs_r J JO A S n R) as (l & L & H). exists (read_jobs (firstn (Z.to_nat n) (rev l))). split; [split; [exists l; auto | reflexivity]|]. split; [|unfold read_jobs; destruct (existsb _ _); discriminate].
    rewrite <- jreads_val. exact (mlift_sread VJobs _ S _ H (jreads_np _)).
  - eexists. split; [split; reflexivity|]. split; [eapply read_of; [apply (GetDDLReorgHandle_r J A id K) | exact R | | ] |]; destruct (m_start A id), (m_end A id); try discriminate; reflexivity.
Qed.

Lemma do_of {X} c (f : X -> mval) A S (m : Tx X) r A' o r' : 0 <= c -> mdo c A m r A' -> mrep S A -> r <> Panic -> mrmap f r = r' -> mref A o r' A' ->
  exists r0 A0 S0, mref A o r0 A0 /\ sspec P c (mlift f m) S r0 S0 /\ mrep S0 A0 /\ r0 <> Panic.
Proof.
  intros C H R N E M. destruct (H S R) as (S' & X1 & R'). exists r', A', S'. split; [exact M|]. split; [|split; [exact R'|]].
  - rewrite <- E. apply mlift_sspec; assumption.
  - subst r'. destruct r; cbn; congruence.
Qed.
Ltac spl := split; reflexivity.
Lemma msim A S o : mok o -> mrep S A -> exists r A' S', mref A o r A' /\ sspec P (mcost o) (mexec o) S r S' /\ mrep S' A' /\ r <> Panic.
Proof.
  intros K R. destruct (mreads o) eqn:RD.
  - destruct (msim_read A S o RD K R) as (r & M & H & N). exists r, A, S. split; [exact M|]. split; [|auto]. eapply sspec_le; [apply mcost_nonneg | apply sread_sspec; exact H].
  - destruct o; try discriminate; cbn [mexec mok mcost] in *.
    + eapply do_of; [lia | apply GenGlobalID_d | exact R | discriminate | reflexivity | spl].
    + eapply do_of; [lia | apply GenGlobalIDs_d; exact K | exact R | discriminate | reflexivity | spl].
    + eapply do_of; [lia | apply GenSchemaVersion_d | exact R | discriminate | reflexivity | spl].
    + eapply do_of; [lia | apply FinishBootstrap_d; exact K | exact R | discriminate | reflexivity | spl].
    + pose proof (CreateDatabase_d J JO A d K) as H. eapply do_of; [lia | exact H | exact R | | reflexivity |]; cbn [mref]; destruct (exists_db A (di_id d)); try discriminate; spl.
    + pose proof (UpdateDatabase_d J JO A d K) as H. eapply do_of; [lia | exact H | exact R | | reflexivity |]; cbn [mref]; destruct (exists_db A (di_id d)); try discriminate; spl.
    + pose proof (DropDatabase_d J A id K) as H. eapply do_of; [lia | exact H | exact R | | reflexivity |]; cbn [mref]; destruct (exists_db A id); try discriminate; spl.
    + destruct K as [K1 K2]. pose proof (CreateCollection_d J JO A db c K1 K2) as H. eapply do_of; [lia | exact H | exact R | | reflexivity |]; cbn [mref]; destruct (exists_db A db); try discriminate; cbn [negb]; destruct (exists_coll A db (ci_id c)); try discriminate; spl.
    + destruct K as [K1 K2]. pose proof (UpdateCollection_d J JO A db c K1 K2) as H. eapply do_of; [lia | exact H | exact R | | reflexivity |]; cbn [mref]; destruct (exists_db A db); try discriminate; cbn [negb]; destruct (exists_coll A db (ci_id c)); try discriminate; spl.
    + destruct K as [K1 K2]. pose proof (DropCollection_d J A db cid del K1 K2) as H. eapply do_of; [lia | exact H | exact R | | reflexivity |]; cbn [mref]; destruct (exists_db A db); try discriminate; cbn [negb]; destruct (exists_coll A db cid); try discriminate; spl.
    + eapply do_of; [lia | apply (SetSchemaDiff_d J A d K) | exact R | discriminate | reflexivity | spl].
    + eapply do_of; [lia | apply (EnQueueDDLJob_d J A q j K) | exact R | discriminate | reflexivity | spl].
    + pose proof (DeQueueDDLJob_d J JO A q) as H. eapply do_of; [lia | exact H | exact R | apply jread_np | apply jread_val |]. cbn [mref]. destruct (m_queue A q); spl.
    + destruct K as [K1 K2]. pose proof (UpdateDDLJob_d J A q i j K1 K2) as H. eapply do_of; [lia | exact H | exact R | | reflexivity |]; cbn [mref]; destruct (position _ _); try discriminate; spl.
    + eapply do_of; [lia | apply (AddHistoryDDLJob_d J JO A j K) | exact R | discriminate | reflexivity | spl].
    + destruct K as [K1 K2]. eapply do_of; [lia | apply ReorgStart_d; assumption | exact R | discriminate | reflexivity | spl].
    + destruct K as (K1 & K2 & K3). eapply do_of; [lia | apply UpdateDDLReorgHandle_d; assumption | exact R | discriminate | reflexivity | spl].
    + eapply do_of; [lia | apply RemoveDDLReorgHandle_d; assumption | exact R | discriminate | reflexivity | spl].
    + destruct K as (K1 & K2 & K3). eapply do_of; [lia | apply DidInc_d; assumption | exact R | discriminate | reflexivity | spl].
Qed.

(** * Sequences of calls in one transaction: an error does not stop the sequence *)
Lemma mrun_sim l : Forall mok l -> forall A S, mrep S A ->
  exists rs A' S', mref_run A l rs A' /\ sspec P (mcosts l) (collect_run (map mexec l)) S (Ok rs) S' /\ mrep S' A'.
Proof.
  induction l as [|o l IH]; intros F A S R.
  - exists [], A, S. split; [constructor|]. split; [apply sspec_ret | exact R].
  - inversion F as [|? ? K F']. subst. destruct (msim A S o K R) as (r & A1 & S1 & M & H & R1 & N).
    destruct (IH F' A1 S1 R1) as (rs & A2 & S2 & M2 & H2 & R2). exists (r :: rs), A2, S2. split; [econstructor; eassumption|]. split; [|exact R2].
    cbn [map collect_run mcosts fold_right]. eapply sspec_try; [apply mcost_nonneg | apply mcosts_nonneg | exact H | exact N|].
    replace (fold_right (fun o n => mcost o + n) 0 l) with (mcosts l + 0) by (unfold mcosts; lia).
    eapply sspec_bind; [apply mcosts_nonneg | lia | exact H2 | apply sspec_ret].
Qed.
Lemma mread_run_sim l : Forall (fun o => mreads o = true /\ mok o) l -> forall A S, mrep S A ->
  exists rs, mref_run A l rs A /\ sread P (collect_run (map mexec l)) S (Ok rs).
Proof.
  induction l as [|o l IH]; intros F A S R.
  - exists []. split; [constructor | apply sread_ret].
  - inversion F as [|? ? [K1 K2] F']. subst. destruct (msim_read A S o K1 K2 R) as (r & M & H & N).
    destruct (IH F' A S R) as (rs & M2 & H2). exists (r :: rs). split; [econstructor; eassumption|].
    cbn [map collect_run]. eapply sread_try; [exact H | exact N|]. eapply sread_bind; [exact H2 | apply sread_ret].
Qed.

(** * Histories of transactions *)
(** the code's side: results observed, and the database after *)
Definition mbexec (d : db) (b : mbatch) : db * list (result mval) :=
  match b with
  | MCommit l => match run_update d d (collect_run (map mexec l)) [] false with (d', Ok rs) => (d', rs) | (d', _) => (d', []) end
  | MAbort l => (* the caller's function makes the calls, then returns an error *)
      match collect_run (map mexec l) (new_txn d true []) with
      | (_, Ok rs) => (fst (run_update d d (rs <- collect_run (map mexec l) ;; @fail unit (ENamed (str "abort"))) [] false), rs)
      | (_, _) => (d, [])
      end
  | MView l => (d, match run_view d (collect_run (map mexec l)) with Ok rs => rs | _ => [] end)
  end.
Fixpoint mhexec (d : db) (h : list mbatch) : db * list (list (result mval)) :=
  match h with
  | [] => (d, [])
  | b :: h' => let '(d1, r) := mbexec d b in let '(d2, rs) := mhexec d1 h' in (d2, r :: rs)
  end.
(** the database holds the metadata A *)
Definition holds (n : Z) (d : db) (A : mst) : Prop := db_ok d /\ exists S, rep P n (dview d) S /\ mrep S A.
Lemma batch_sim b n d A : holds n d A -> mbatch_ok b -> n + mbcost b < two63 ->
  exists A', mref_batch A b (snd (mbexec d b)) A' /\ holds (n + mbcost b) (fst (mbexec d b)) A' /\ outside P (dview d) (dview (fst (mbexec d b))).
Proof.
  intros (K & S & R & M) B L. pose proof (mcosts_nonneg (mbatch_ops b)) as NB. unfold mbcost in *.
  destruct b as [l|l|l]; cbn [mbatch_ok mbexec mbatch_ops fst snd] in *.
  - destruct (mrun_sim l B A S M) as (rs & A' & S' & X & Sp & M'). destruct (Sp n (dview d) R ltac:(lia)) as (M1 & Sp' & R' & O).
    destruct (run_update_ok d _ _ M1 K Sp') as (d1 & E & V & K1 & _). rewrite E. cbn [fst snd]. exists A'. split; [constructor; exact X|]. rewrite V. split; [|exact O].
    split; [exact K1|]. exists S'. rewrite V. auto.
  - destruct (mrun_sim l B A S M) as (rs & A' & S' & X & Sp & M'). destruct (Sp n (dview d) R ltac:(lia)) as (M1 & Sp' & R' & O).
    destruct (Sp' (new_txn d true [])) as (t & E & _); [apply okt_new; reflexivity | apply view_new|]. rewrite E.
    rewrite (run_update_err d _ (ENamed (str "abort")) M1) by (eapply spec_bind; [exact Sp' | apply spec_fail]). cbn [fst snd].
    exists A. split; [econstructor; exact X|]. split; [|apply outside_refl]. split; [exact K|]. exists S. split; [eapply rep_le; [exact R | lia] | exact M].
  - destruct (mread_run_sim l B A S M) as (rs & X & Sp). rewrite (run_view_spec d _ _ (dview d) (Sp false n (dview d) R ltac:(lia))). cbn [fst snd].
    exists A. split; [constructor; exact X|]. split; [|apply outside_refl]. split; [exact K|]. exists S. split; [eapply rep_le; [exact R | lia] | exact M].
Qed.
Lemma mhist_sim h : forall n d A, holds n d A -> Forall mbatch_ok h -> n + mhcost h < two63 ->
  exists A', mref_hist A h (snd (mhexec d h)) A' /\ holds (n + mhcost h) (fst (mhexec d h)) A' /\ outside P (dview d) (dview (fst (mhexec d h))).
Proof.
  induction h as [|b h IH]; intros n d A H F L; cbn [mhexec mhcost fold_right] in *.
  - exists A. split; [constructor|]. rewrite Z.add_0_r. split; [exact H | apply outside_refl].
  - inversion F as [|? ? B F']. subst. pose proof (mhcost_nonneg h) as NH. unfold mhcost in NH. pose proof (mcosts_nonneg (mbatch_ops b)) as NB.
    destruct (batch_sim b n d A H B ltac:(unfold mbcost in *; lia)) as (A1 & X1 & H1 & O1). destruct (mbexec d b) as [d1 r1]. cbn [fst snd] in *.
    destruct (IH (n + mbcost b) d1 A1 H1 F' ltac:(unfold mhcost; lia)) as (A2 & X2 & H2 & O2). destruct (mhexec d1 h) as [d2 rs]. cbn [fst snd] in *.
    exists A2. split; [econstructor; eassumption|]. split; [|eapply outside_trans; eassumption].
    replace (n + (mbcost b + fold_right (fun b n => mbcost b + n) 0 h)) with (n + mbcost b + mhcost h) by (unfold mhcost; lia). exact H2.
Qed.
End WithJson.
