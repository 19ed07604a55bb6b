(** Document-id allocators and schema changes over the life of processes: C78-C81.
    encoding/json is a parameter J meeting the contract [json_ok] (MetaCodec.v has an instance). *)
From Verif Require Import Bytes SMap Provider ProviderProofs World Memcmp MemcmpProofs Numeric KvUtil KeyModel Struct
  StructProofs StructHash StructList UtilTxn Sequence SequenceProofs Model Meta MetaCodec MetaSpec MetaProofs MetaOps MetaRun Schema Ddl DdlSpec DdlProofs DdlWorker DdlSys DdlIndex DdlMore Domain DomainProofs Process ProcessProofs.
From Verif Require P_Schema P_Meta P_Ddl.
From Verif Require Import P_Domain.
From Coq Require Import Sorted Permutation.

(** * Specification *)
(** a history of processes, one at a time and with Lease 0, on a store without schema metadata; fewer than 2^63 ids are
    asked for. The events are those of [pev]: Init, requests, steps of the worker, allocations, other transactions and
    crashes at any point *)
Definition life_ok (d : db) (es : list pev) : Prop := db_ok d /\ P_Meta.no_meta d /\ Forall pev_ok es /\ Forall single es /\ pload es < two63.
Definition life (J : json) (d : db) (es : list pev) : proc := prun J (pstart d) es.
(** the collection a name stands for in the published schema cache *)
Definition visible (p : proc) (dbn coll : bytes) : option CollectionInfo := cacheCollectionInfo (option_map c_val (h_val (p_h p))) dbn coll.
(** an allocator of the ids of collection [c] of database [a]: it leases from that collection's counter in the store *)
Definition allocates (s : seq) (a c : Z) : Prop := q_loc s = AtHash (dbKeyByID a) (didSequenceKeyByID c) /\ q_closed s = false.
Definition next_id (d : db) (s : seq) (io : bool) : result qval := snd (q_exec d d [] io s QNext).

(** * The table of allocators only grows during a process *)
Lemma run_step J p e : p_run (pstep J p e) = p_run p \/ p_run (pstep J p e) = S (p_run p).
Proof.
  destruct e as [sh ios|i io|i io|o sh io|io| |c io|c vs|t io|n| | |o io]; cbn [pstep]; try (left; reflexivity).
  - destruct (p_up p); [left; reflexivity|]. destruct (domain_Init _ _ _ _ _ _ _) as [[[d h] G] r]. destruct r; (left; reflexivity) || (right; reflexivity).
  - destruct (p_up p); left; reflexivity.
  - destruct (p_up p); left; reflexivity.
  - destruct (p_up p && idle p); [|left; reflexivity]. cbv zeta. destruct (e_res _); (left; reflexivity) || (right; reflexivity).
  - destruct (p_todo p) as [|[a c] l]; [left; reflexivity|]. destruct (CreateSequence _ _ _ _ _ _) as [[d G] r]. destruct r; (left; reflexivity) || (right; reflexivity).
  - destruct (p_todo p); [|left; reflexivity]. destruct (p_note p); [|left; reflexivity]. unfold note_step. destruct (reloadSchema _ _ _ _) as [h r]. destruct r; (left; reflexivity) || (right; reflexivity).
  - destruct (p_reg p c); [|left; reflexivity]. destruct (q_exec _ _ _ _ _ _) as [[d s'] r]. left. reflexivity.
  - destruct (p_reg p c); left; reflexivity.
  - right. reflexivity.
  - destruct (p_up p); [|left; reflexivity]. destruct (reloadSchema _ _ _ _) as [h r]. destruct r; (left; reflexivity) || (right; reflexivity).
Qed.
Lemma run_le J es : forall p, (p_run p <= p_run (prun J p es))%nat.
Proof. induction es as [|e es IH]; intros p; cbn [prun fold_left]; [lia|]. fold (prun J (pstep J p e) es). specialize (IH (pstep J p e)). destruct (run_step J p e); lia. Qed.
Lemma create_keeps d G a c bw io d' G' r : CreateSequence d G a c bw io = (d', G', r) -> forall c', G c' <> None -> G' c' <> None.
Proof.
  unfold CreateSequence. destruct (G c) eqn:Gc; [intros E c'; replace G' with G by congruence; auto|]. destruct (NewDocIDSequence d a c bw io) as [[d1 [s|]] [u|e|]]; intros E c' N; try (replace G' with G by congruence; exact N).
  replace G' with (reg_set G c s) by congruence. apply reg_set_some. exact N.
Qed.
Lemma seqs_keep l : forall d G ios d' G' r, create_seqs d G l ios = (d', G', r) -> forall c', G c' <> None -> G' c' <> None.
Proof.
  induction l as [|[a c] l IH]; intros d G ios d' G' r E c' N; cbn [create_seqs] in E; [replace G' with G by congruence; exact N|]. destruct ios as [|io ios]; [replace G' with G by congruence; exact N|].
  destruct (CreateSequence d G a c 0 io) as [[d1 G1] r1] eqn:E1. pose proof (create_keeps _ _ _ _ _ _ _ _ _ E1 c' N) as N1. destruct r1 as [u|e|]; [exact (IH _ _ _ _ _ _ E c' N1) | replace G' with G1 by congruence; exact N1..].
Qed.
Lemma init_keeps J d h p G sh ios d' h' G' r : domain_Init J d h p G sh ios = (d', h', G', r) -> forall c', G c' <> None -> G' c' <> None.
Proof.
  unfold domain_Init. destruct (reloadSchema J d h p) as [h1 r1]. destruct r1; intros E c' N; try (replace G' with G by congruence; exact N). unfold ddl_Init in E. destruct (run_view d (ListDatabases J)) as [l|e|]; try (replace G' with G by congruence; exact N).
  destruct (create_seqs d G (seqs_listed sh l) ios) as [[d2 G2] r2] eqn:E2. replace G' with G2 by congruence. exact (seqs_keep _ _ _ _ _ _ _ E2 c' N).
Qed.
Lemma reg_step J p e c : p_run (pstep J p e) = p_run p -> p_reg p c <> None -> p_reg (pstep J p e) c <> None.
Proof.
  destruct e as [sh ios|i io|i io|o sh io|io| |c1 io|c1 vs|t io|n| | |o io]; cbn [pstep]; intros H N; try exact N.
  - destruct (p_up p); [exact N|]. destruct (domain_Init _ _ _ _ _ _ _) as [[[d h] G] r] eqn:E. pose proof (init_keeps _ _ _ _ _ _ _ _ _ _ _ E c N) as Q. destruct r; try exact Q; cbn in H; lia.
  - destruct (p_up p); exact N.
  - destruct (p_up p); exact N.
  - destruct (p_up p && idle p); [|exact N]. cbv zeta in *. destruct (e_res _); try exact N. cbn in H. lia.
  - destruct (p_todo p) as [|[a c1] l]; [exact N|]. destruct (CreateSequence _ _ _ _ _ _) as [[d G] r] eqn:E. pose proof (create_keeps _ _ _ _ _ _ _ _ _ E c N) as Q. destruct r; try exact Q. cbn in H. lia.
  - destruct (p_todo p); [|exact N]. destruct (p_note p); [|exact N]. unfold note_step in *. destruct (reloadSchema _ _ _ _) as [h r]. destruct r; try exact N. cbn in H. lia.
  - destruct (p_reg p c1); [|exact N]. destruct (q_exec _ _ _ _ _ _) as [[d s'] r]. apply reg_set_some. exact N.
  - destruct (p_reg p c1); [|exact N]. apply reg_set_some. exact N.
  - cbn in H. lia.
  - destruct (p_up p); [|exact N]. destruct (reloadSchema _ _ _ _) as [h r]. destruct r; try exact N. cbn in H. lia.
Qed.
Lemma reg_run J es : forall p c, p_run (prun J p es) = p_run p -> p_reg p c <> None -> p_reg (prun J p es) c <> None.
Proof.
  induction es as [|e es IH]; intros p c H N; cbn [prun fold_left] in *; [exact N|]. fold (prun J (pstep J p e) es) in *. pose proof (run_le J es (pstep J p e)). assert (E : p_run (pstep J p e) = p_run p) by (destruct (run_step J p e); lia).
  apply IH; [congruence | apply reg_step; assumption].
Qed.
Lemma prun_app J p es es' : prun J p (es ++ es') = prun J (prun J p es) es'.
Proof. apply fold_left_app. Qed.

Section WithJson.
Variable J : json.
Hypothesis JO : json_ok J.
Lemma mget_vals (m : option (smap CollectionInfo)) k c : mget m k = Some c -> In c (vals m).
Proof. destruct m as [m|]; [|discriminate]. intros E. apply vals_in. exists k. exact E. Qed.
(** what is visible comes from the jobs the cache has seen *)
Lemma seen L h dbn coll ci : current L h -> cacheCollectionInfo (option_map c_val (h_val h)) dbn coll = Some ci -> exists x k, In x (dbs_of L) /\ In k (vals (di_colls x)) /\ ci_id ci = ci_id k.
Proof.
  intros [_ G] E. unfold cacheCollectionInfo in E. specialize (G dbn). unfold cached in G. destruct (mget (cache_dbs (option_map c_val (h_val h))) dbn) as [y|] eqn:Ey; [|discriminate].
  destruct (find (by_name dbn) (dbs_of L)) as [x|] eqn:Ex; [|destruct G]. apply find_some in Ex. destruct Ex as [Ix _]. destruct G as (_ & _ & _ & G). specialize (G coll). rewrite E in G.
  destruct (mget (di_colls x) coll) as [k|] eqn:Ek; [|destruct G]. exists x, k. split; [exact Ix|]. split; [eapply mget_vals; exact Ek | apply G].
Qed.
Lemma next_ok T y D R st A a c s : sinv J T y D R st A -> T + 1 < two63 -> is_i64 a -> is_i64 c -> fit a c s -> exists v, next_id (y_db y) s false = Ok (QId v).
Proof.
  intros I L Ha Hc (F1 & F2 & F3). unfold next_id, q_exec. rewrite F3. unfold q_Next. destruct (rev (q_put s)) as [|v l]; [|eexists; reflexivity].
  destruct (q_leased s <=? q_next s); [|eexists; reflexivity]. destruct (renewLease (y_db y) (y_db y) [] false s 0) as [[d1 s1] r1] eqn:E1. apply renew_shape in E1.
  replace (if 0 =? 0 then q_bw s else 0) with (q_bw s) in E1 by reflexivity. rewrite F1 in E1. destruct E1 as (_ & _ & _ & _ & E1).
  destruct (did_sinv J T y D R st A a c (q_bw s) false I L Ha Hc F2) as (_ & _ & [(_ & X & _)|(v & X)]); [discriminate|]. destruct E1 as [(-> & _)|(_ & _ & Y & _)]; [eexists; reflexivity | destruct (Y v X)].
Qed.
End WithJson.

Lemma unique_id l (j j' : Job) : NoDup (flat_map ids_of l) -> In j l -> In j' l -> j_id j = j_id j' -> j = j'.
Proof.
  induction l as [|x l IH]; intros N A1 A2 E; [destruct A1|]. cbn [flat_map] in N. apply nodup_app in N. destruct N as (N1 & N2 & N3).
  assert (HD : forall y : Job, In (j_id y) (ids_of y)) by (intros y; unfold ids_of; destruct (j_arg y); left; reflexivity).
  destruct A1 as [<-|A1], A2 as [<-|A2]; [reflexivity | | | exact (IH N2 A1 A2 E)]; exfalso.
  - apply (N3 (j_id x) (HD x)). rewrite E. apply in_flat_map. eauto.
  - apply (N3 (j_id x) (HD x)). rewrite <- E. apply in_flat_map. eauto.
Qed.
(** * C78 *)
(** A collection that is visible in a process whose Init succeeded has an allocator from then on, until the process
    ends: it leases from the counter of that very collection, which the store knows, and gives an id unless the store fails *)
Theorem C78_visible_has_allocator : forall J, json_ok J -> forall d0 es es', life_ok d0 (es ++ es') -> pload (es ++ es') + 1 < two63 ->
  let p := life J d0 es in let p' := life J d0 (es ++ es') in p_up p = true -> p_run p' = p_run p ->
  forall dbn coll ci, visible p dbn coll = Some ci ->
  exists a s k, p_reg p' (ci_id ci) = Some s /\ allocates s a (ci_id ci) /\ run_view (y_db (p_sys p')) (mexec J (MGetColl a (ci_id ci))) = Ok (VColl k) /\
    exists v, next_id (y_db (p_sys p')) s false = Ok (QId v).
Proof.
  intros J JO d0 es es' (H1 & H2 & H3 & H4 & H5) H6 p p' U E dbn coll ci Vi. pose proof (proj1 (proj1 (Forall_app _ _ _) H3)) as F1. pose proof (proj1 (proj1 (Forall_app _ _ _) H4)) as S1.
  assert (L1 : pload es < two63) by (rewrite pload_app in H5; pose proof (pload_nonneg es'); lia).
  destruct (hist_pinv J JO d0 es H1 H2 F1 S1 L1) as (D & R & st & A & V). fold (life J d0 es) in V. fold p in V. destruct (pv_up _ _ _ _ _ _ _ V U) as (L0 & UI).
  destruct (seen L0 (p_h p) dbn coll ci (ui_cur _ _ _ _ _ UI) Vi) as (x & k & Ix & Ik & Ei).
  assert (Nn : p_reg p (ci_id ci) <> None).
  { assert (X : In (di_id x, ci_id ci) (flat_map seqs_of L0)) by (apply seqs_in; exists x, k; auto).
    assert (Y : In (di_id x, ci_id ci) (flat_map seqs_of (applied D R st))).
    { destruct (ui_two _ _ _ _ _ UI) as [Q|[Q _]]; [rewrite <- Q; exact X|]. destruct (applied_D_prefix D R st) as (l & ->). rewrite flat_map_app. apply in_or_app. left. rewrite <- Q. exact X. }
    destruct (ui_reg _ _ _ _ _ UI _ _ Y) as [Q|Q]; [|exact Q]. exfalso. assert (NE : p_todo p <> []) by (intros Z0; rewrite Z0 in Q; destruct Q).
    destruct (ui_todo _ _ _ _ _ UI NE) as (_ & Q2 & Q3 & j & r & Q4 & Q5). specialize (Q5 _ Q). pose proof (applied_ids _ _ _ _ _ _ _ (pv_s _ _ _ _ _ _ _ V)) as ND. apply snd_seqs in ND.
    rewrite Q3, Q4 in ND. cbn [applied] in ND. rewrite flat_map_app, map_app in ND. apply nodup_app in ND. destruct ND as (_ & _ & ND). apply (ND (ci_id ci)); [rewrite Q2 in X; eapply snd_in; exact X|].
    cbn [flat_map]. rewrite app_nil_r. eapply snd_in. exact Q5. }
  assert (N' : p_reg p' (ci_id ci) <> None) by (unfold p', life in *; rewrite prun_app in *; apply reg_run; assumption).
  destruct (hist_pinv J JO d0 (es ++ es') H1 H2 H3 H4 H5) as (D' & R' & st' & A' & V'). fold (life J d0 (es ++ es')) in V'. fold p' in V'.
  destruct (p_reg p' (ci_id ci)) as [s|] eqn:Es; [|congruence]. destruct (pv_good _ _ _ _ _ _ _ V' _ _ Es) as (a & X & F). pose proof (pv_s _ _ _ _ _ _ _ V') as I'.
  destruct (applied_range _ _ _ _ _ _ _ _ _ I' ltac:(lia) X) as [Wa Wc]. apply seqs_in in X. destruct X as (z & k' & Iz & Ik' & Ea & Ec).
  exists a, s, (pub_ci k'). split; [reflexivity|]. split; [split; apply F|]. split; [|exact (next_ok J _ _ _ _ _ _ a (ci_id ci) s I' H6 Wa Wc F)].
  pose proof (used_lt J _ _ _ _ _ _ I' ltac:(lia)) as UL. destruct (read_op J JO _ _ _ (MGetColl a (ci_id ci)) (si_holds _ _ _ _ _ _ _ I') UL eq_refl (conj Wa Wc)) as (r & Er & ->).
  cbn [mref] in Er. pose proof (ds_effects _ _ _ _ (si_state _ _ _ _ _ _ _ I')) as EF.
  assert (M : m_coll A' a (ci_id ci) = Some (pub_ci k')) by (apply (ef_coll _ _ EF); exists z, k'; auto).
  assert (M2 : m_db A' a = Some (pub_di z)) by (apply (ef_db _ _ EF); exists z; auto).
  unfold exists_db in Er. rewrite M, ?M2 in Er. destruct Er as [-> _]. reflexivity.
Qed.

(** the store's collections, and how many there are *)
Definition collections (l : list DBInfo) : list (Z * Z) := flat_map (fun x => map (fun k => (di_id x, ci_id k)) (vals (di_colls x))) l.

(** * C79 *)
(** Whatever has happened, a new process starts: Init succeeds if its commits do, and then shows every collection of the
    store, each with an allocator *)
Theorem C79_restart_succeeds : forall J, json_ok J -> forall d0 es sh ios, life_ok d0 (es ++ [PCrash; PInit sh ios]) -> Forall (fun io => io = false) ios ->
  let p := life J d0 es in let p' := life J d0 (es ++ [PCrash; PInit sh ios]) in
  exists l, run_view (y_db (p_sys p)) (ListDatabases J) = Ok l /\ NoDup (map di_name l) /\
    ((length (collections l) <= length ios)%nat -> p_up p' = true /\ p_run p' = S (p_run p) /\
      forall x cn k, In x l -> mget (di_colls x) cn = Some k -> p_reg p' (ci_id k) <> None /\ exists ci, visible p' (di_name x) cn = Some ci /\ same_coll ci k).
Proof.
  intros J JO d0 es sh ios (H1 & H2 & H3 & H4 & H5) FI p p'. pose proof (proj1 (Forall_app _ _ _) H3) as [F1 F1']. pose proof (proj1 (Forall_app _ _ _) H4) as [S1 _].
  rewrite pload_app in H5. pose proof (pload_nonneg es). assert (PL : pload [PCrash; PInit sh ios] = llen ios) by (cbn; lia). pose proof (llen_nonneg ios) as L0.
  destruct (hist_pinv J JO d0 es H1 H2 F1 S1 ltac:(lia)) as (D & R & st & A & V). fold (life J d0 es) in V. fold p in V.
  pose proof (restart_pinv J _ _ _ _ _ _ (pv_s _ _ _ _ _ _ _ V)) as V0. set (q := restart J p) in *. inversion F1' as [|? ? _ F2]; subst. inversion F2 as [|? ? K _]; subst. cbn [pev_ok] in K.
  assert (E' : p' = pstep J q (PInit sh ios)) by (unfold p', life; rewrite prun_app; reflexivity).
  destruct (listed J JO _ _ _ _ _ _ (pv_s _ _ _ _ _ _ _ V0) ltac:(lia)) as (l & El & Pm). exists l. split; [exact El|].
  pose proof (ds_names _ _ _ _ (si_state _ _ _ _ _ _ _ (pv_s _ _ _ _ _ _ _ V0))) as NN.
  split; [eapply Permutation_NoDup; [apply Permutation_map, Permutation_sym; exact Pm|]; rewrite map_map; exact NN|]. intros Ln.
  pose proof (init_seqs sh l _ K Pm) as PS. pose proof (init_seqs (fun x => x) l _ (fun k => Permutation_refl k) Pm) as PS'.
  assert (NX : forall a c, In (a, c) (seqs_listed sh l) -> is_i64 a /\ is_i64 c /\ p_reg q c = None).
  { intros a c X. apply (Permutation_in _ PS) in X. destruct (applied_range _ _ _ _ _ _ _ _ _ (pv_s _ _ _ _ _ _ _ V0) ltac:(lia) X) as [W1 W2]. auto. }
  assert (ND : NoDup (map snd (seqs_listed sh l))).
  { eapply Permutation_NoDup; [apply Permutation_map, Permutation_sym; exact PS | apply snd_seqs; eapply applied_ids; exact (pv_s _ _ _ _ _ _ _ V0)]. }
  assert (Lc : (length (seqs_listed sh l) <= length ios)%nat).
  { rewrite (Permutation_length PS), <- (Permutation_length PS'). exact Ln. }
  destruct (create_seqs_ok J (seqs_listed sh l) ios _ _ _ _ _ _ (p_reg q) (pv_s _ _ _ _ _ _ _ V0) ltac:(lia) NX ND Lc FI) as (d' & G' & EC).
  destruct (init_pinv J JO _ _ _ _ _ _ sh ios V0 K ltac:(lia)) as (A' & V'). rewrite <- E' in V'.
  destruct (reloadSchema J (y_db (p_sys q)) (p_h q) (p_next q)) as [h r] eqn:ER.
  destruct (reload_inv J JO _ _ _ _ _ _ (p_h q) (p_next q) (pv_s _ _ _ _ _ _ _ V0) ltac:(lia) (pv_cinv _ _ _ _ _ _ _ V0)) as (_ & RB & _ & _). rewrite ER in RB. cbn [snd] in RB. specialize (RB eq_refl). subst r.
  assert (U : p_up p' = true /\ p_run p' = S (p_run p)).
  { rewrite E'. cbn [pstep]. replace (p_up q) with false by reflexivity. unfold domain_Init. rewrite ER. unfold ddl_Init. rewrite El, EC. split; reflexivity. }
  destruct U as [U1 U2]. split; [exact U1|]. split; [exact U2|]. intros x cn k Ix Ek. destruct (pv_up _ _ _ _ _ _ _ V' U1) as (L1 & UI).
  destruct (pv_down _ _ _ _ _ _ _ V0 eq_refl) as (T0 & N0 & _).
  assert (T1 : p_todo p' = [] /\ p_note p' = false).
  { rewrite E'. cbn [pstep]. replace (p_up q) with false by reflexivity. unfold domain_Init. rewrite ER. unfold ddl_Init. rewrite El, EC. split; reflexivity. }
  destruct T1 as [T1 N1]. pose proof (ui_idle _ _ _ _ _ UI T1 N1) as E1. subst L1. apply (Permutation_in _ Pm) in Ix. apply in_map_iff in Ix. destruct Ix as (z & <- & Iz). cbn [pub_di di_colls di_name] in Ek |- *.
  assert (exists k0, mget (di_colls z) cn = Some k0 /\ k = pub_ci k0) as (k0 & Ek0 & ->).
  { destruct (di_colls z) as [m|]; [|discriminate]. cbn [option_map mget] in Ek |- *. rewrite get_smap_map in Ek. destruct (get m cn) as [k0|]; [|discriminate]. exists k0. cbn in Ek. split; congruence. }
  split.
  - assert (X : In (di_id z, ci_id k0) (flat_map seqs_of (applied D R st))) by (apply seqs_in; exists z, k0; repeat split; auto; eapply mget_vals; exact Ek0).
    destruct (ui_reg _ _ _ _ _ UI _ _ X) as [Q|Q]; [rewrite T1 in Q; destruct Q | exact Q].
  - destruct (ui_cur _ _ _ _ _ UI) as [_ CU]. specialize (CU (di_name z)). assert (FN : find (by_name (di_name z)) (dbs_of (applied D R st)) = Some z).
    { apply find_name; [exact NN | exact Iz | reflexivity]. }
    rewrite FN in CU. unfold visible, cacheCollectionInfo. unfold cached in CU. destruct (mget (cache_dbs (option_map c_val (h_val (p_h p')))) (di_name z)) as [y|]; [|destruct CU]. destruct CU as (_ & _ & _ & CU). specialize (CU cn). rewrite Ek0 in CU.
    destruct (mget (di_colls y) cn) as [ci|]; [|destruct CU]. exists ci. split; [reflexivity|]. destruct CU as (C1 & C2 & C3 & C4). split; [exact C1|]. split; [exact C2|]. split; [exact C3|]. intros ix. specialize (C4 ix).
    cbn [pub_ci ci_indices]. destruct (ci_indices k0) as [m|]; cbn [option_map mget] in C4 |- *; [|exact C4]. rewrite get_smap_map. destruct (mget (ci_indices ci) ix) as [i1|], (get m ix) as [i2|]; cbn in C4 |- *; exact C4.
Qed.
(** the worker gets through: once commits succeed and no transaction holds the schema, it has its allocators and has
    shown the change, ready for the next job *)
Theorem C79_worker_gets_through : forall J, json_ok J -> forall d0 es n, life_ok d0 (es ++ repeat (PSeq false) n ++ [PReaders 0; PNote]) ->
  let p := life J d0 es in n = length (p_todo p) -> p_up p = true ->
  let p' := life J d0 (es ++ repeat (PSeq false) n ++ [PReaders 0; PNote]) in p_up p' = true /\ p_run p' = p_run p /\ idle p' = true.
Proof.
  intros J JO d0 es n (H1 & H2 & H3 & H4 & H5) p En U p'. pose proof (proj1 (Forall_app _ _ _) H3) as [F1 _]. pose proof (proj1 (Forall_app _ _ _) H4) as [S1 _]. rewrite pload_app in H5. pose proof (pload_nonneg es) as P0.
  assert (PR : forall k, pload (repeat (PSeq false) k ++ [PReaders 0; PNote]) = Z.of_nat k) by (induction k as [|k IH]; [reflexivity|]; cbn [repeat app pload fold_right pweight]; unfold pload in IH; rewrite IH; lia). rewrite PR in H5.
  destruct (hist_pinv J JO d0 es H1 H2 F1 S1 ltac:(lia)) as (D & R & st & A & V). fold (life J d0 es) in V. fold p in V.
  assert (E' : p' = prun J p (repeat (PSeq false) n ++ [PReaders 0; PNote])) by (unfold p', life; apply prun_app). rewrite E'. clear p' E'. clear H3 H4.
  assert (G : forall k T q A, T + Z.of_nat k < two63 -> pinv J T q D R st A -> k = length (p_todo q) -> p_up q = true ->
    let q' := prun J q (repeat (PSeq false) k ++ [PReaders 0; PNote]) in p_up q' = true /\ p_run q' = p_run q /\ idle q' = true).
  { induction k as [|k IH]; intros T q A0 L V0 Ek Uq.
    - cbn [repeat app]. set (r := pstep J q (PReaders 0)). assert (Vr : pinv J T r D R st A0).
      { destruct V0 as [V1 V2 V3 V4 V5 V6]. split; try assumption; cbn [r pstep p_up p_todo p_note p_h p_reg]. intros _. destruct (V6 Uq) as (L0 & [U1 U2 U3 U4 U5 U6]). exists L0. split; try assumption. }
      assert (T0 : p_todo q = []) by (destruct (p_todo q); [reflexivity | discriminate]).
      destruct (note_pinv J JO _ _ _ _ _ _ Vr ltac:(lia)) as (_ & Q). destruct (Q T0 eq_refl) as (Q1 & Q2 & Q3). cbn [prun fold_left]. fold r. cbv zeta. unfold idle. rewrite Q1, Q2, Q3.
      split; [|auto]. cbn [pstep]. replace (p_todo r) with (p_todo q) by reflexivity. rewrite T0. replace (p_note r) with (p_note q) by reflexivity. destruct (p_note q); [|exact Uq].
      unfold note_step. destruct (reloadSchema J (y_db (p_sys r)) (p_h r) (p_next r)) as [h rr] eqn:E. destruct (reload_pinv J JO _ _ _ _ _ _ h rr Vr ltac:(lia) E) as [(-> & _)|(-> & _)]; exact Uq.
    - cbn [repeat app prun fold_left]. destruct (seq_pinv J _ _ _ _ _ _ false V0 ltac:(lia)) as (A1 & V1 & Q). destruct (Q eq_refl) as [Q1 Q2]. set (q1 := pstep J q (PSeq false)) in *.
      assert (U1 : p_up q1 = true).
      { unfold q1. cbn [pstep]. destruct (p_todo q) as [|[a c] l] eqn:T0; [exact Uq|]. destruct (pv_todo _ _ _ _ _ _ _ V0 a c) as [X Gc]; [rewrite T0; left; reflexivity|]. pose proof (pv_s _ _ _ _ _ _ _ V0) as I.
        destruct (applied_range _ _ _ _ _ _ _ _ _ I ltac:(lia) X) as [Wa Wc]. destruct (create_seq J _ _ _ _ _ _ (p_reg q) a c false I ltac:(lia) Wa Wc Gc) as (d & A' & I' & [(Hio & _)|(s & F & ->)]); [discriminate | exact Uq]. }
      destruct (IH (T + 1) q1 A1 ltac:(lia) V1) as (R1 & R2 & R3); [rewrite Q1; destruct (p_todo q); cbn [tl length] in *; lia | exact U1|]. fold (prun J q1 (repeat (PSeq false) k ++ [PReaders 0; PNote])). rewrite R2, Q2. auto. }
  apply (G n (pload es) p A); [lia | exact V | exact En | exact U].
Qed.
(** an attempt at an allocator fails only if its commit does *)
Theorem C79_attempts_only_fail_on_io : forall J, json_ok J -> forall d0 es io, life_ok d0 (es ++ [PSeq io]) -> let p := life J d0 es in
  forall a c l, p_todo p = (a, c) :: l -> snd (CreateSequence (y_db (p_sys p)) (p_reg p) a c 0 io) = Ok tt \/ (io = true /\ snd (CreateSequence (y_db (p_sys p)) (p_reg p) a c 0 io) = Err EIO).
Proof.
  intros J JO d0 es io (H1 & H2 & H3 & H4 & H5) p a c l T0. pose proof (proj1 (Forall_app _ _ _) H3) as [F1 _]. pose proof (proj1 (Forall_app _ _ _) H4) as [S1 _]. rewrite pload_app in H5. replace (pload [PSeq io]) with 1 in H5 by reflexivity.
  destruct (hist_pinv J JO d0 es H1 H2 F1 S1 ltac:(lia)) as (D & R & st & A & V). fold (life J d0 es) in V. fold p in V.
  destruct (pv_todo _ _ _ _ _ _ _ V a c) as [X Gc]; [rewrite T0; left; reflexivity|]. pose proof (pv_s _ _ _ _ _ _ _ V) as I. assert (L : pload es + 1 < two63) by lia.
  destruct (applied_range _ _ _ _ _ _ _ _ _ I ltac:(lia) X) as [Wa Wc].
  destruct (create_seq J _ _ _ _ _ _ (p_reg p) a c io I L Wa Wc Gc) as (d & A' & I' & [(Hio & ->)|(s & F & ->)]); [right | left]; auto.
Qed.

(** * C80 *)
(** Init never succeeds once the process has an allocator of a collection of the store it is given: any store, any table *)
Theorem C80_no_second_init_refuted : forall J d h n G sh ios l x k, (forall l, Permutation (sh l) l) -> run_view d (ListDatabases J) = Ok l -> In x l -> In k (vals (di_colls x)) -> G (ci_id k) <> None ->
  snd (domain_Init J d h n G sh ios) <> IOk.
Proof.
  intros J d h n G sh ios l x k H El Ix Ik N. unfold domain_Init. destruct (reloadSchema J d h n) as [h' r]. destruct r; try discriminate. unfold ddl_Init. rewrite El.
  destruct (create_seqs d G (seqs_listed sh l) ios) as [[d' G'] r] eqn:E. cbn [snd]. eapply create_seqs_clash; [|exact E]. exists (di_id x), (ci_id k). split; [|exact N].
  unfold seqs_listed. apply in_flat_map. exists x. split; [exact Ix|]. apply in_map_iff. exists k. split; [reflexivity|]. apply (Permutation_in _ (Permutation_sym (H _))). exact Ik.
Qed.
(** so a process whose Init failed after making an allocator cannot be initialised: not until it is restarted *)
Theorem C80_failed_init_is_final_refuted : forall J, json_ok J -> forall d0 es es', life_ok d0 (es ++ es') -> let p := life J d0 es in let p' := life J d0 (es ++ es') in
  p_up p = false -> (exists c, p_reg p c <> None) -> p_run p' = p_run p -> p_up p' = false.
Proof.
  intros J JO d0 es es'. induction es' as [|e es' IH] using rev_ind; intros H p p' U (c & N) E; [unfold p'; rewrite app_nil_r; exact U|].
  rewrite app_assoc in H. destruct H as (H1 & H2 & H3 & H4 & H5). pose proof (proj1 (Forall_app _ _ _) H3) as [F1 F2]. pose proof (proj1 (Forall_app _ _ _) H4) as [S1 _]. rewrite pload_app in H5. pose proof (pload_nonneg [e]) as Pe.
  set (q := life J d0 (es ++ es')) in *. assert (Eq : p' = pstep J q e) by (unfold p', q, life; rewrite app_assoc, prun_app; reflexivity).
  assert (Eb : q = prun J p es') by (unfold q, p, life; apply prun_app).
  assert (RL : (p_run p <= p_run q)%nat) by (rewrite Eb; apply run_le). assert (RQ : p_run q = p_run p) by (destruct (run_step J q e); rewrite Eq in E; lia).
  assert (Uq : p_up q = false) by (apply IH; [repeat split; try assumption; lia | exact U | exists c; exact N | exact RQ]).
  assert (Nq : p_reg q c <> None) by (rewrite Eb; apply reg_run; [rewrite <- Eb; exact RQ | exact N]).
  destruct (hist_pinv J JO d0 (es ++ es') H1 H2 F1 S1 ltac:(lia)) as (D & R & st & A & V). fold (life J d0 (es ++ es')) in V. fold q in V.
  destruct (pv_down _ _ _ _ _ _ _ V Uq) as (T0 & N0 & _). rewrite Eq.
  destruct e as [sh ios|i io|i io|o sh io|io| |c1 io|c1 vs|t io|n| | |o io]; cbn [pstep]; rewrite ?Uq, ?T0, ?N0; cbn [andb]; try exact Uq; try reflexivity.
  - inversion F2 as [|? ? K _]; subst. cbn [pev_ok] in K. destruct (domain_Init J (y_db (p_sys q)) (p_h q) (p_next q) (p_reg q) sh ios) as [[[d h] G] r] eqn:ED.
    destruct r; try exact Uq; try reflexivity. exfalso. destruct (listed J JO _ _ _ _ _ _ (pv_s _ _ _ _ _ _ _ V) ltac:(lia)) as (l & El & Pm).
    destruct (p_reg q c) as [s|] eqn:Es; [|congruence]. destruct (pv_good _ _ _ _ _ _ _ V c s Es) as (a & X & _). apply seqs_in in X. destruct X as (x & k & X1 & X2 & _ & X3).
    apply (C80_no_second_init_refuted J (y_db (p_sys q)) (p_h q) (p_next q) (p_reg q) sh ios l (pub_di x) (pub_ci k) K El).
    + apply (Permutation_in _ (Permutation_sym Pm)). apply in_map. exact X1.
    + rewrite vals_pub. apply in_map. exact X2.
    + cbn [pub_ci ci_id]. rewrite <- X3. congruence.
    + rewrite ED. reflexivity.
  - destruct (p_reg q c1) as [s|]; [|exact Uq]. destruct (q_exec _ _ _ _ _ _) as [[d s'] r]. exact Uq.
  - destruct (p_reg q c1) as [s|]; exact Uq.
Qed.
(** a second Domain in the process, on another store: it gets the allocators of the first *)
Definition opened (d : db) (G : registry) : proc := Proc (dstart d) NewHandle 0 G [] false false 0.
(** the worker of such a Domain waits for ever for an allocator whose id is taken: no later job is worked on *)
Theorem C80_worker_waits_refuted : forall J es p a c l, p_todo p = (a, c) :: l -> p_reg p c <> None -> p_run (prun J p es) = p_run p -> p_todo (prun J p es) = p_todo p /\ p_reg (prun J p es) c <> None.
Proof.
  intros J es. induction es as [|e es IH]; intros p a c l T0 N E; [auto|]. cbn [prun fold_left] in *. fold (prun J (pstep J p e) es) in *. pose proof (run_le J es (pstep J p e)).
  assert (Er : p_run (pstep J p e) = p_run p) by (destruct (run_step J p e); lia). pose proof (reg_step J p e c Er N) as N'.
  assert (T1 : p_todo (pstep J p e) = p_todo p).
  { revert Er. destruct e as [sh ios|i io|i io|o sh io|io| |c1 io|c1 vs|t io|n| | |o io]; cbn [pstep]; intros Er; try reflexivity.
    - destruct (p_up p); [reflexivity|]. destruct (domain_Init _ _ _ _ _ _ _) as [[[d h] G] r]. destruct r; try reflexivity; cbn in Er; lia.
    - destruct (p_up p); reflexivity.
    - destruct (p_up p); reflexivity.
    - unfold idle. rewrite T0, andb_false_r. exact T0.
    - rewrite T0. unfold CreateSequence. destruct (p_reg p c) as [s|]; [|congruence]. exact T0.
    - rewrite T0. exact T0.
    - destruct (p_reg p c1) as [s|]; [|reflexivity]. destruct (q_exec _ _ _ _ _ _) as [[d s'] r]. reflexivity.
    - destruct (p_reg p c1); reflexivity.
    - cbn in Er. lia.
    - destruct (p_up p); [|reflexivity]. destruct (reloadSchema _ _ _ _) as [h r]. destruct r; try reflexivity. cbn in Er. lia. }
  rewrite <- T1 in T0. destruct (IH (pstep J p e) a c l T0 N' ltac:(congruence)) as [Q1 Q2]. split; [congruence | exact Q2].
Qed.

(** * C81 *)
(** A CreateSchema call that has returned, in this process or in an earlier one: the database is visible, and so is every
    collection asked for, with its id and an allocator *)
Theorem C81_answered_is_usable : forall J, json_ok J -> forall d0 es, life_ok d0 es -> let p := life J d0 es in p_up p = true ->
  forall j, In j (y_jobs (p_sys p)) -> poll J (y_db (p_sys p)) (j_id j) false = Returned None ->
  exists x, j_arg j = ArgDB x /\ CheckDBExists (option_map c_val (h_val (p_h p))) (di_name x) = true /\
    forall cn k, mget (di_colls x) cn = Some k -> p_reg p (ci_id k) <> None /\ exists ci, visible p (di_name x) cn = Some ci /\ same_coll ci k.
Proof.
  intros J JO d0 es (H1 & H2 & H3 & H4 & H5) p U j Ij Pj. destruct (hist_pinv J JO d0 es H1 H2 H3 H4 H5) as (D & R & st & A & V). fold (life J d0 es) in V. fold p in V. pose proof (pv_s _ _ _ _ _ _ _ V) as I.
  pose proof (used_lt J _ _ _ _ _ _ I H5) as UL. pose proof (si_state _ _ _ _ _ _ _ I) as DS. pose proof (ds_effects _ _ _ _ DS) as EF.
  assert (JI : In (j_id j) (flat_map ids_of (D ++ R))).
  { apply in_flat_map. exists j. rewrite <- (si_jobs _ _ _ _ _ _ _ I). split; [exact Ij|]. unfold ids_of. destruct (j_arg j); left; reflexivity. }
  assert (I64 : is_i64 (j_id j)).
  { destruct (ds_ids _ _ _ _ DS) as [_ F]. rewrite Forall_forall in F. specialize (F _ JI). pose proof (si_gid _ _ _ _ _ _ _ I) as GG. unfold gid in GG. unfold is_i64. rewrite two63_val in *. lia. }
  destruct (P_Ddl.C59_poll_meaning J JO _ _ _ (j_id j) (si_holds _ _ _ _ _ _ _ I) UL I64) as (_ & PM). rewrite Pj in PM. destruct (m_hist A (j_id j)) as [j'|] eqn:Hj; [|discriminate].
  apply (ds_hist _ _ _ _ DS) in Hj. destruct Hj as (j0 & Ij0 & Ei & _).
  assert (j0 = j).
  { destruct (ds_ids _ _ _ _ DS) as [ND _]. apply (unique_id (D ++ R)); [exact ND | apply in_or_app; left; exact Ij0 | rewrite <- (si_jobs _ _ _ _ _ _ _ I); exact Ij | congruence]. }
  subst j0. destruct (pv_up _ _ _ _ _ _ _ V U) as (L0 & UI).
  assert (DL : exists l, L0 = D ++ l) by (destruct (ui_two _ _ _ _ _ UI) as [->|[-> _]]; [apply applied_D_prefix | exists []; rewrite app_nil_r; reflexivity]).
  assert (LA : exists l, applied D R st = L0 ++ l) by (destruct (ui_two _ _ _ _ _ UI) as [->|[-> _]]; [exists []; rewrite app_nil_r; reflexivity | apply applied_D_prefix]).
  assert (JL : In j L0) by (destruct DL as (l & ->); apply in_or_app; left; exact Ij0).
  assert (JA : In j (applied D R st)) by (destruct LA as (l & ->); apply in_or_app; left; exact JL).
  destruct (ef_create _ _ EF j JA) as (_ & x & Ex). exists x. split; [exact Ex|].
  assert (XL : In x (dbs_of L0)) by (apply in_flat_map; exists j; split; [exact JL | rewrite Ex; left; reflexivity]).
  assert (NN : NoDup (map di_name (dbs_of L0))).
  { pose proof (ds_names _ _ _ _ DS) as NN. destruct LA as (l & EL). rewrite EL in NN. unfold dbs_of in NN |- *. rewrite flat_map_app, map_app in NN. apply nodup_app in NN. apply NN. }
  destruct (ui_cur _ _ _ _ _ UI) as [_ CU]. specialize (CU (di_name x)). rewrite (find_name _ _ x NN XL eq_refl) in CU. unfold cached in CU. unfold CheckDBExists, visible, cacheCollectionInfo.
  destruct (mget (cache_dbs (option_map c_val (h_val (p_h p)))) (di_name x)) as [y|]; [|destruct CU]. split; [reflexivity|]. destruct CU as (_ & _ & _ & CU). intros cn k Ek. specialize (CU cn). rewrite Ek in CU.
  split; [|destruct (mget (di_colls y) cn) as [ci|]; [exists ci; split; [reflexivity | exact CU] | destruct CU]].
  assert (X : In (di_id x, ci_id k) (flat_map seqs_of L0)) by (apply seqs_in; exists x, k; repeat split; auto; eapply mget_vals; exact Ek).
  assert (Y : In (di_id x, ci_id k) (flat_map seqs_of (applied D R st))) by (destruct LA as (l & ->); rewrite flat_map_app; apply in_or_app; left; exact X).
  destruct (ui_reg _ _ _ _ _ UI _ _ Y) as [Q|Q]; [|exact Q]. exfalso. assert (NE : p_todo p <> []) by (intros Z0; rewrite Z0 in Q; destruct Q).
  destruct (ui_todo _ _ _ _ _ UI NE) as (_ & Q2 & Q3 & j1 & r & Q4 & Q5). specialize (Q5 _ Q). pose proof (applied_ids _ _ _ _ _ _ _ I) as ND. apply snd_seqs in ND.
  rewrite Q3, Q4 in ND. cbn [applied] in ND. rewrite flat_map_app, map_app in ND. apply nodup_app in ND. destruct ND as (_ & _ & ND). apply (ND (ci_id k)); [rewrite Q2 in X; eapply snd_in; exact X|].
  cbn [flat_map]. rewrite app_nil_r. eapply snd_in. exact Q5.
Qed.

(** * With a lease, or with a second process, C78 and C81 fail *)
Definition shop : CSI := P_Ddl.bare (str "shop") [str "orders"].
Definition same {X} : list X -> list X := fun l => l.
Definition work : pev := PWork P_Ddl.ident same false.
(** the periodic reload comes between the commit and the allocator *)
Definition es_lease : list pev := [PInit same []; PCreate shop false; work; PTick].
(** another process works on the job; this one sees its effects with its next change *)
Definition es_elsewhere : list pev := [PInit same []; PCreate shop false; PElsewhere P_Ddl.ident false; PElsewhere P_Ddl.ident false].
Definition es_later : list pev := [PCreate (P_Ddl.bare (str "blog") []) false; work; PNote; work; PNote].
Definition id_of (o : option CollectionInfo) : Z := match o with Some ci => ci_id ci | None => 0 end.
Lemma es_lease_ok : Forall pev_ok es_lease /\ Forall pev_ok (es_elsewhere ++ es_later).
Proof.
  assert (Sm : forall X (l : list X), Permutation (same l) l) by (intros X l; apply Permutation_refl).
  split; unfold es_lease, es_elsewhere, es_later; cbn [app]; repeat (apply Forall_cons || apply Forall_nil); try exact Logic.I; cbn [pev_ok]; try (apply P_Ddl.bare_ok; reflexivity); try exact P_Ddl.ident_ok; try (exact (Sm _)); split; try exact P_Ddl.ident_ok; exact (Sm _).
Qed.
Theorem C78_lease_refuted : let p := life demo_json P_Ddl.d00 es_lease in p_up p = true /\ p_run p = 0%nat /\
  exists ci, visible p (str "shop") (str "orders") = Some ci /\ p_reg p (ci_id ci) = None.
Proof.
  assert (E : (p_up (life demo_json P_Ddl.d00 es_lease), p_run (life demo_json P_Ddl.d00 es_lease), match visible (life demo_json P_Ddl.d00 es_lease) (str "shop") (str "orders") with Some ci => match p_reg (life demo_json P_Ddl.d00 es_lease) (ci_id ci) with None => true | _ => false end | None => false end) = (true, 0%nat, true)) by (vm_compute; reflexivity).
  generalize dependent (life demo_json P_Ddl.d00 es_lease). intros p E. split; [congruence|]. split; [congruence|]. destruct (visible p (str "shop") (str "orders")) as [ci|]; [|discriminate]. exists ci. split; [reflexivity|]. destruct (p_reg p (ci_id ci)); [discriminate | reflexivity].
Qed.
Theorem C78_second_process_refuted : let p := life demo_json P_Ddl.d00 (es_elsewhere ++ es_later) in p_up p = true /\ p_run p = 0%nat /\ idle p = true /\
  exists ci, visible p (str "shop") (str "orders") = Some ci /\ p_reg p (ci_id ci) = None.
Proof.
  set (q := life demo_json P_Ddl.d00 (es_elsewhere ++ es_later)).
  assert (E : (p_up q, p_run q, idle q, match visible q (str "shop") (str "orders") with Some ci => match p_reg q (ci_id ci) with None => true | _ => false end | None => false end) = (true, 0%nat, true, true)) by (vm_compute; reflexivity).
  generalize dependent q. intros p E. split; [congruence|]. split; [congruence|]. split; [congruence|]. destruct (visible p (str "shop") (str "orders")) as [ci|]; [|discriminate]. exists ci. split; [reflexivity|]. destruct (p_reg p (ci_id ci)); [discriminate | reflexivity].
Qed.
(** the call returns although this process does not see the database *)
Theorem C81_second_process_refuted : let p := life demo_json P_Ddl.d00 es_elsewhere in p_up p = true /\ p_run p = 0%nat /\ idle p = true /\
  exists j x, y_jobs (p_sys p) = [j] /\ j_arg j = ArgDB x /\ poll demo_json (y_db (p_sys p)) (j_id j) false = Returned None /\ CheckDBExists (option_map c_val (h_val (p_h p))) (di_name x) = false.
Proof.
  set (q := life demo_json P_Ddl.d00 es_elsewhere).
  assert (E : (p_up q, p_run q, idle q, match y_jobs (p_sys q) with [j] => match j_arg j, poll demo_json (y_db (p_sys q)) (j_id j) false with ArgDB x, Returned None => negb (CheckDBExists (option_map c_val (h_val (p_h q))) (di_name x)) | _, _ => false end | _ => false end) = (true, 0%nat, true, true)) by (vm_compute; reflexivity).
  generalize dependent q. intros p E. split; [congruence|]. split; [congruence|]. split; [congruence|]. destruct (y_jobs (p_sys p)) as [|j [|? ?]]; [discriminate| |discriminate]. destruct (j_arg j) as [x| |] eqn:Ej; [|discriminate..]. exists j, x. split; [reflexivity|]. split; [exact Ej|].
  destruct (poll demo_json (y_db (p_sys p)) (j_id j) false) as [|[e|]|]; try discriminate. split; [reflexivity|]. destruct (CheckDBExists _ (di_name x)); [discriminate | reflexivity].
Qed.

(** * Non-vacuity *)
Definition two : CSI := P_Ddl.bare (str "shop") [str "orders"; str "users"].
(** a job is asked for, a commit fails, the process dies between the two allocators; restarts; ids are given out *)
Definition es_demo : list pev :=
  [ PInit same []; PCreate two false; PWork P_Ddl.ident same true; work; PSeq true; PSeq false; PCrash; PInit (@rev _) [false; false]; work; PNote; PNext 2 false; PNext 3 false; PPut 3 [1]; PReaders 2; PCreate (P_Ddl.bare (str "blog") [str "posts"]) false; work ].
Lemma es_demo_ok : life_ok P_Ddl.d00 es_demo.
Proof.
  split; [apply db_ok_init|]. split; [exact P_Meta.no_meta_init|].
  assert (Sm : forall X (l : list X), Permutation (same l) l) by (intros X l; apply Permutation_refl).
  split; [|split; [unfold es_demo, work; repeat (apply Forall_cons || apply Forall_nil); exact Logic.I | vm_compute; reflexivity]].
  unfold es_demo, work. repeat (apply Forall_cons || apply Forall_nil); try exact Logic.I; cbn [pev_ok]; try (apply P_Ddl.bare_ok; reflexivity); try (exact (Sm _)); try (split; [exact P_Ddl.ident_ok | exact (Sm _)]).
  intros l. apply Permutation_sym, Permutation_rev.
Qed.

Definition run1 (p : proc) : bool * nat * list (Z * Z) * bool := (p_up p, p_run p, p_todo p, p_note p).
Definition has (p : proc) (c : Z) : bool := match p_reg p c with Some _ => true | None => false end.
(** in the middle of a schema change: an allocator is missing, the change is not visible, and the earlier one is *)
Example C78_C81_nonvacuous : json_ok demo_json /\ life_ok P_Ddl.d00 es_demo /\ let p := life demo_json P_Ddl.d00 es_demo in
  run1 p = (true, 1%nat, [(5, 6)], true) /\ map (has p) [2; 3; 6] = [true; true; false] /\
  option_map ci_id (visible p (str "shop") (str "users")) = Some 3 /\ visible p (str "blog") (str "posts") = None /\
  map j_id (y_jobs (p_sys p)) = [4; 7] /\ poll demo_json (y_db (p_sys p)) 4 false = Returned None /\ poll demo_json (y_db (p_sys p)) 7 false = Waiting.
Proof. split; [exact demo_json_ok|]. split; [exact es_demo_ok|]. cbv zeta. split; [vm_compute; reflexivity|]. split; [vm_compute; reflexivity|]. split; [vm_compute; reflexivity|]. split; [vm_compute; reflexivity|]. split; [vm_compute; reflexivity|]. split; vm_compute; reflexivity. Qed.
(** then the worker gets through, and a new process starts *)
Example C79_nonvacuous : life_ok P_Ddl.d00 (es_demo ++ repeat (PSeq false) 1 ++ [PReaders 0; PNote]) /\ life_ok P_Ddl.d00 (es_demo ++ [PCrash; PInit same [false; false; false]]) /\
  (match run_view (y_db (p_sys (life demo_json P_Ddl.d00 es_demo))) (ListDatabases demo_json) with Ok l => collections l | _ => [] end) = [(1, 2); (1, 3); (5, 6)] /\
  run1 (life demo_json P_Ddl.d00 (es_demo ++ [PCrash; PInit same [false; false; false]])) = (true, 2%nat, [], false).
Proof.
  destruct es_demo_ok as (H1 & H2 & H3 & H4 & H5). split; [|split; [|split; vm_compute; reflexivity]].
  - split; [exact H1|]. split; [exact H2|]. split; [apply Forall_app; split; [exact H3 | repeat (apply Forall_cons || apply Forall_nil); exact Logic.I]|]. split; [apply Forall_app; split; [exact H4 | repeat (apply Forall_cons || apply Forall_nil); exact Logic.I] | vm_compute; reflexivity].
  - split; [exact H1|]. split; [exact H2|]. split; [apply Forall_app; split; [exact H3 | repeat (apply Forall_cons || apply Forall_nil); cbn [pev_ok]; try exact Logic.I; intros l; apply Permutation_refl]|].
    split; [apply Forall_app; split; [exact H4 | repeat (apply Forall_cons || apply Forall_nil); exact Logic.I] | vm_compute; reflexivity].
Qed.
(** Init fails at its second allocator; trying again is useless *)
Definition es_half : list pev := es_demo ++ [PCrash; PInit same [false; true]].
Example C80_nonvacuous : life_ok P_Ddl.d00 (es_half ++ [PInit same [false; false; false]]) /\ run1 (life demo_json P_Ddl.d00 es_half) = (false, 2%nat, [], false) /\ has (life demo_json P_Ddl.d00 es_half) 2 = true /\
  run1 (life demo_json P_Ddl.d00 (es_half ++ [PInit same [false; false; false]])) = (false, 2%nat, [], false).
Proof.
  destruct es_demo_ok as (H1 & H2 & H3 & H4 & H5). split; [|split; [vm_compute; reflexivity|]; split; vm_compute; reflexivity].
  unfold es_half. rewrite <- app_assoc. cbn [app]. split; [exact H1|]. split; [exact H2|]. split; [apply Forall_app; split; [exact H3 | repeat (apply Forall_cons || apply Forall_nil); cbn [pev_ok]; try exact Logic.I; intros l; apply Permutation_refl]|].
  split; [apply Forall_app; split; [exact H4 | repeat (apply Forall_cons || apply Forall_nil); exact Logic.I] | vm_compute; reflexivity].
Qed.
(** a second store in the process: its first schema gets the ids of the first store's, and its worker waits for ever *)
Example C80_second_store : let p := prun demo_json (opened P_Ddl.d00 (p_reg (life demo_json P_Ddl.d00 es_demo))) [PInit same []; PCreate shop false; work] in
  run1 p = (true, 0%nat, [(1, 2)], true) /\ has p 2 = true /\
  run1 (prun demo_json p [PSeq false; PNote; work; PSeq false; work]) = (true, 0%nat, [(1, 2)], true).
Proof. split; [vm_compute; reflexivity|]. split; vm_compute; reflexivity. Qed.
Print Assumptions C78_visible_has_allocator.
Print Assumptions C78_lease_refuted.
Print Assumptions C78_second_process_refuted.
Print Assumptions C79_restart_succeeds.
Print Assumptions C79_worker_gets_through.
Print Assumptions C79_attempts_only_fail_on_io.
Print Assumptions C80_no_second_init_refuted.
Print Assumptions C80_failed_init_is_final_refuted.
Print Assumptions C80_worker_waits_refuted.
Print Assumptions C81_answered_is_usable.
Print Assumptions C81_second_process_refuted.
