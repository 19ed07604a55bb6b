(** Ids over the life of processes (Process.v): what names stand for, and which document ids are given out. Used by
    P_ProcessIds.v. *)
From Verif Require Import Bytes SMap Provider ProviderProofs World Memcmp MemcmpProofs Numeric KvUtil KeyModel Struct
  StructProofs StructHash StructList UtilTxn Sequence SequenceProofs Model Meta MetaCodec MetaSpec MetaProofs MetaOps MetaRun Schema Ddl DdlSpec DdlProofs DdlWorker DdlSys DdlIndex DdlMore Domain DomainProofs Process ProcessProofs ProcessSpec.
From Verif Require P_Schema P_Meta P_Ddl.
From Verif Require Import P_Domain P_Process.
From Coq Require Import Sorted Permutation.

(** * Names *)
Definition lookup (L : list Job) (dbn coll : bytes) : option CollectionInfo :=
  match find (by_name dbn) (dbs_of L) with Some x => mget (di_colls x) coll | None => None end.
Lemma find_app_some {X} (f : X -> bool) l l' x : find f l = Some x -> find f (l ++ l') = Some x.
Proof. induction l as [|a l IH]; cbn [find app]; [discriminate|]. destruct (f a); [auto | exact IH]. Qed.
Lemma lookup_more L l dbn coll k : lookup L dbn coll = Some k -> lookup (L ++ l) dbn coll = Some k.
Proof.
  unfold lookup. rewrite dbs_app. destruct (find (by_name dbn) (dbs_of L)) as [x|] eqn:E; [|discriminate]. rewrite (find_app_some _ _ (dbs_of l) _ E). auto.
Qed.
Lemma seen_prefix L h dbn coll ci : cinv L h -> cacheCollectionInfo (option_map c_val (h_val h)) dbn coll = Some ci ->
  exists L0 L1 k, L = L0 ++ L1 /\ Z.of_nat (length L0) = version_of h /\ lookup L0 dbn coll = Some k /\ ci_id ci = ci_id k.
Proof.
  unfold cinv, version_of, cacheCollectionInfo. destruct (h_val h) as [c|]; [|discriminate]. cbn [option_map]. intros (_ & _ & L0 & L1 & E & N & G) H. exists L0, L1. specialize (G dbn). unfold lookup.
  unfold cache_dbs in H. destruct (mget (mc_dbs (c_val c)) dbn) as [y|]; [|discriminate]. destruct (find (by_name dbn) (dbs_of L0)) as [x|]; [|destruct G]. destruct G as (_ & _ & _ & G). specialize (G coll). rewrite H in G.
  destruct (mget (di_colls x) coll) as [k|]; [|destruct G]. exists k. repeat split; auto. apply G.
Qed.
Lemma shows L h dbn coll L0 L1 k : cinv L h -> h_val h <> None -> L = L0 ++ L1 -> Z.of_nat (length L0) <= version_of h -> lookup L0 dbn coll = Some k ->
  exists ci, cacheCollectionInfo (option_map c_val (h_val h)) dbn coll = Some ci /\ ci_id ci = ci_id k.
Proof.
  unfold cinv, version_of, cacheCollectionInfo. destruct (h_val h) as [c|]; [|congruence]. intros (_ & _ & L2 & L3 & E & N & G) _ E0 V K.
  assert (P : exists l, L2 = L0 ++ l).
  { rewrite E in E0. clear -E0 N V. rewrite <- N in V. assert (Le : (length L0 <= length L2)%nat) by lia. clear V N. revert L2 Le E0. induction L0 as [|a L0 IH]; intros L2 Le E; [exists L2; reflexivity|].
    destruct L2 as [|b L2]; [cbn in Le; lia|]. cbn [app length] in *. injection E as -> E. destruct (IH L2 ltac:(lia) E) as (l & ->). exists l. reflexivity. }
  destruct P as (l & EL). apply (lookup_more _ l) in K. rewrite <- EL in K. unfold lookup in K. specialize (G dbn). cbn [option_map cache_dbs].
  destruct (find (by_name dbn) (dbs_of L2)) as [x|]; [|discriminate]. destruct (mget (mc_dbs (c_val c)) dbn) as [y|]; [|destruct G]. destruct G as (_ & _ & _ & G). specialize (G coll). rewrite K in G.
  destruct (mget (di_colls y) coll) as [ci|]; [|destruct G]. exists ci. split; [reflexivity | apply G].
Qed.
Lemma two_at {X Y} (f : X -> Y) (l : list X) a b : NoDup (map f l) -> In a l -> In b l -> f a = f b -> a = b.
Proof.
  induction l as [|x l IH]; intros N A1 A2 E; [destruct A1|]. cbn [map] in N. inversion N as [|? ? N1 N2]; subst. destruct A1 as [<-|A1], A2 as [<-|A2]; [reflexivity | | | exact (IH N2 A1 A2 E)]; exfalso; apply N1.
  - rewrite E. apply in_map. exact A2.
  - rewrite <- E. apply in_map. exact A1.
Qed.
Lemma find_by_name dbn l x : find (by_name dbn) l = Some x -> In x l /\ di_name x = dbn.
Proof. intros F. apply find_some in F. destruct F as [F1 F2]. split; [exact F1 | apply by_name_iff; exact F2]. Qed.
Lemma lookup_inj L dbn coll dbn' coll' k k' : NoDup (flat_map ids_of L) -> lookup L dbn coll = Some k -> lookup L dbn' coll' = Some k' -> ci_id k = ci_id k' -> dbn = dbn' /\ coll = coll'.
Proof.
  intros N H H' E. unfold lookup in *. destruct (find (by_name dbn) (dbs_of L)) as [x|] eqn:Fx; [|discriminate]. destruct (find (by_name dbn') (dbs_of L)) as [x'|] eqn:Fx'; [|discriminate].
  apply find_by_name in Fx. destruct Fx as [Ix Nx]. apply find_by_name in Fx'. destruct Fx' as [Ix' Nx'].
  assert (J1 : exists j, In j L /\ j_arg j = ArgDB x).
  { apply in_flat_map in Ix. destruct Ix as (j & A1 & A2). exists j. split; [exact A1|]. destruct (j_arg j); [|destruct A2..]. destruct A2 as [A2|[]]. congruence. }
  assert (J2 : exists j, In j L /\ j_arg j = ArgDB x').
  { apply in_flat_map in Ix'. destruct Ix' as (j & A1 & A2). exists j. split; [exact A1|]. destruct (j_arg j); [|destruct A2..]. destruct A2 as [A2|[]]. congruence. }
  destruct J1 as (j & I1 & E1). destruct J2 as (j' & I2 & E2).
  assert (C1 : In (ci_id k) (ids_of j)) by (unfold ids_of; rewrite E1; right; right; apply in_map; eapply mget_vals; exact H).
  assert (C2 : In (ci_id k) (ids_of j')) by (unfold ids_of; rewrite E2; right; right; rewrite E; apply in_map; eapply mget_vals; exact H').
  assert (j = j').
  { clear -N I1 I2 C1 C2. induction L as [|a L IH]; [destruct I1|]. cbn [flat_map] in N. apply nodup_app in N. destruct N as (_ & N2 & N3). destruct I1 as [<-|I1], I2 as [<-|I2]; [reflexivity | | | exact (IH N2 I1 I2)]; exfalso.
    - apply (N3 _ C1). apply in_flat_map. eauto.
    - apply (N3 _ C2). apply in_flat_map. eauto. }
  subst j'. assert (x = x') by congruence. subst x'. split; [congruence|].
  assert (ND : NoDup (map ci_id (vals (di_colls x)))).
  { apply in_split in I1. destruct I1 as (l1 & l2 & ->). rewrite flat_map_app in N. apply nodup_app in N. destruct N as (_ & N & _). cbn [flat_map] in N. apply nodup_app in N. destruct N as (N & _).
    unfold ids_of in N. rewrite E1 in N. inversion N as [|? ? _ N1]; subst. inversion N1; assumption. }
  destruct (di_colls x) as [m|]; [|discriminate]. cbn [mget] in H, H'. apply get_in in H. apply get_in in H'.
  assert (Q : (coll, k) = (coll', k')) by (apply (two_at (fun p => ci_id (snd p)) (entries m)); [|assumption..]; unfold vals in ND; rewrite map_map in ND; exact ND). congruence.
Qed.

Section WithJson.
Variable J : json.
Hypothesis JO : json_ok J.
Local Notation pinv := (pinv J).
Local Notation sinv := (sinv J).
Local Notation holds := (holds J).
Local Notation seqs L := (flat_map seqs_of L).
Lemma nodup_applied T p D R st A : pinv T p D R st A -> NoDup (flat_map ids_of (applied D R st)).
Proof. intros V. exact (applied_ids J _ _ _ _ _ _ (pv_s _ _ _ _ _ _ _ V)). Qed.
(** ** the schema a process shows never gets older *)
Lemma handle_step T p D R st A e : pinv T p D R st A -> pev_ok e -> single e -> T + pweight e < two63 -> p_up (pstep J p e) = true ->
  (p_up p = true /\ h_val (p_h (pstep J p e)) = h_val (p_h p)) \/
  (version_of (p_h (pstep J p e)) = Z.of_nat (length (applied D R st)) ).
Proof.
  intros V K Sg L U. destruct e as [sh ios|i io|i io|o sh io|io| |c io|c vs|t io|n| | |o io]; try destruct Sg; cbn [pweight pev_ok] in *; cbn [pstep] in *.
  - destruct (p_up p) eqn:Up; [left; auto|]. unfold domain_Init in *. destruct (reloadSchema J (y_db (p_sys p)) (p_h p) (p_next p)) as [h r] eqn:E. pose proof (llen_nonneg ios).
    destruct (reload_pinv J JO _ _ _ _ _ _ h r V ltac:(lia) E) as [(-> & ->)|(-> & C & CU)].
    + cbn in U. congruence.
    + destruct (ddl_Init J (y_db (p_sys p)) (p_reg p) sh ios) as [[d' G'] r']. right. destruct r'; cbn in U |- *; try congruence; apply CU.
  - destruct (p_up p) eqn:Up; [left; auto | congruence].
  - destruct (p_up p) eqn:Up; [left; auto | congruence].
  - destruct (p_up p) eqn:Up; cbn [andb] in *; [|congruence]. destruct (idle p); [|left; auto]. cbv zeta in *. destruct (e_res (iteration J o (y_vars (p_sys p)) (y_db (p_sys p)) io)); cbn in U; try (left; split; reflexivity). discriminate.
  - destruct (p_todo p) as [|[a c] l]; [left; auto|]. destruct (CreateSequence _ _ _ _ _ _) as [[d G] r]. destruct r; cbn in U; try (left; split; [exact U | reflexivity]). discriminate.
  - destruct (p_todo p) as [|ac l]; [|left; auto]. destruct (p_note p); [|left; auto]. unfold note_step in *. destruct (reloadSchema J (y_db (p_sys p)) (p_h p) (p_next p)) as [h r] eqn:E.
    destruct (reload_pinv J JO _ _ _ _ _ _ h r V ltac:(lia) E) as [(-> & ->)|(-> & C & CU)]; cbn in U |- *; [left; auto | right; apply CU].
  - destruct (p_reg p c) as [s|]; [|left; auto]. destruct (q_exec _ _ _ _ _ _) as [[d' s'] r]. cbn in U. left. auto.
  - destruct (p_reg p c) as [s|]; left; auto.
  - left. auto.
  - left. auto.
  - discriminate.
Qed.
Lemma version_inv T p D R st A : pinv T p D R st A -> version_of (p_h p) <= Z.of_nat (length (applied D R st)).
Proof.
  intros V. pose proof (pv_cinv _ _ _ _ _ _ _ V) as C. unfold cinv in C. unfold version_of. destruct (h_val (p_h p)) as [c|]; [|lia].
  destruct C as (_ & _ & L0 & L1 & E & N & _). rewrite E, app_length. lia.
Qed.
Lemma shown_inv n es : forall T p D R st A, pinv T p D R st A -> Forall pev_ok es -> Forall single es -> T + pload es < two63 -> n <= Z.of_nat (length (applied D R st)) -> (p_up p = true -> n <= version_of (p_h p)) ->
  p_up (prun J p es) = true -> n <= version_of (p_h (prun J p es)).
Proof.
  induction es as [|e es IH]; intros T p D R st A V F Sg L N H U; [exact (H U)|]. inversion F as [|? ? F1 F2]; subst. inversion Sg as [|? ? S1 S2]; subst. cbn [pload fold_right] in L. pose proof (pload_nonneg es) as L0. unfold pload in L0. pose proof (pweight_nonneg e).
  destruct (pstep_pinv J JO T p D R st A e V F1 S1 ltac:(lia)) as (D1 & R1 & st1 & A1 & V1 & l1 & E1). cbn [prun fold_left] in *. fold (prun J (pstep J p e) es) in *.
  apply (IH (T + pweight e) (pstep J p e) D1 R1 st1 A1 V1 F2 S2); [unfold pload; lia | rewrite E1, app_length; lia | | exact U].
  intros U1. destruct (handle_step T p D R st A e V F1 S1 ltac:(lia) U1) as [[X Y]|X]; [|lia]. unfold version_of. rewrite Y. apply H. exact X.
Qed.

(** * Document counters *)
(** what is stored determines the counters *)
Lemma did_fun n n' d A A' a c : holds n d A -> holds n' d A' -> is_i64 a -> is_i64 c -> m_did A a c = m_did A' a c.
Proof.
  intros (_ & S0 & R & M) (_ & S1 & R' & M') Ha Hc. destruct (rep_want _ _ _ _ R) as (Ls & W & _). destruct (rep_want _ _ _ _ R') as (Ls' & W' & _).
  specialize (W (KHD (dbKeyByID a) (didSequenceKeyByID c)) Logic.I). specialize (W' (KHD (dbKeyByID a) (didSequenceKeyByID c)) Logic.I). rewrite W in W'. cbn [want] in W'.
  pose proof (rd_did _ _ _ _ (mr_db J _ _ M a Ha)) as T0. pose proof (rd_did _ _ _ _ (mr_db J _ _ M' a Ha)) as T1. rewrite (tab_get T0 c Hc), (tab_get T1 c Hc) in W'.
  destruct (m_did A a c) as [v|] eqn:E, (m_did A' a c) as [v'|] eqn:E'; cbn [option_map] in W'; try congruence. f_equal.
  pose proof (proj2 (tab_wf T0 _ _ E)) as X. pose proof (proj2 (tab_wf T1 _ _ E')) as X'. assert (Q : Encode2Human v = Encode2Human v') by (apply (f_equal (fun o => match o with Some e => e_val e | None => [] end)) in W'; exact W'). apply (f_equal as_int) in Q.
  rewrite !as_int_enc in Q by assumption. congruence.
Qed.
Lemma lease n d A a c io : holds n d A -> n + 1 < two63 -> is_i64 a -> is_i64 c -> 0 <= somez (m_did A a c) -> somez (m_did A a c) + 1000 < two63 ->
  (run_update d d (loc_inc (did_loc a c) 1000) [] io = (d, Err EIO) /\ io = true) \/
  exists d' A', run_update d d (loc_inc (did_loc a c) 1000) [] io = (d', Ok (somez (m_did A a c) + 1000)) /\ holds (n + 1) d' A' /\
    somez (m_did A' a c) = somez (m_did A a c) + 1000 /\ forall a' c', (a', c') <> (a, c) -> m_did A' a' c' = m_did A a' c'.
Proof.
  intros H L Ha Hc L0 L1. assert (Hs : is_i64 1000) by (unfold is_i64; rewrite two63_val; lia).
  assert (EI : inc64 (m_did A a c) 1000 = somez (m_did A a c) + 1000).
  { unfold inc64, somez in *. destruct (m_did A a c) as [v|]; [|lia]. apply to_i64_id. unfold is_i64. rewrite two63_val in *. lia. }
  destruct (update_run J _ _ _ _ _ _ _ io Z.le_0_1 H L (DidInc_d J A a c 1000 Ha Hc Hs)) as [(E & Eio)|(d' & E & H')]; unfold did_loc; cbn [loc_inc]; [left; split; [exact E | exact (proj1 Eio)]|]. right. rewrite EI in *.
  eexists d', _. split; [exact E|]. split; [exact H'|]. cbn [with_did m_did]. unfold zupd. rewrite !Z.eqb_refl. split; [reflexivity|]. intros a' c' N.
  destruct (Z.eqb_spec a' a) as [->|]; [|reflexivity]. destruct (Z.eqb_spec c' c) as [->|]; [congruence | reflexivity].
Qed.
(** ** the allocators of a process, the counters and the ids in use *)
Definition apart (s : seq) (v : Z) : Prop := v <= q_next s \/ q_leased s < v.
Record owns (A : mst) (held : list (Z * Z)) (a c : Z) (s : seq) : Prop := {
  ow_loc : q_loc s = did_loc a c;
  ow_open : q_closed s = false;
  ow_bw : q_bw s = 1000;
  ow_lo : 0 <= q_next s <= q_leased s;
  ow_hi : q_leased s <= somez (m_did A a c);
  ow_nd : NoDup (q_put s);
  ow_puts : forall v, In v (q_put s) -> 0 < v <= somez (m_did A a c) /\ apart s v /\ ~ In (c, v) held;
  ow_held : forall v, In (c, v) held -> apart s v
}.
Record linv (L : list (Z * Z)) (T : Z) (A : mst) (G : registry) (held : list (Z * Z)) : Prop := {
  li_nd : NoDup held;
  li_ctr : forall a c, is_i64 a -> is_i64 c -> 0 <= somez (m_did A a c) <= 1000 * T;
  li_held : forall c v, In (c, v) held -> exists a, In (a, c) L /\ 0 < v <= somez (m_did A a c);
  li_reg : forall c s, G c = Some s -> exists a, In (a, c) L /\ owns A held a c s
}.
Definition names_ok (L : list (Z * Z)) : Prop := NoDup (map snd L) /\ forall a c, In (a, c) L -> is_i64 a /\ is_i64 c.
Lemma only_a L a a' c : names_ok L -> In (a, c) L -> In (a', c) L -> a = a'.
Proof. intros [N _] X Y. assert (E : (a, c) = (a', c)) by (apply (two_at snd L); [exact N | exact X | exact Y | reflexivity]). congruence. Qed.
Lemma linv_le L T T' A G held : T <= T' -> linv L T A G held -> linv L T' A G held.
Proof. intros H [I1 I2 I3 I4]. split; try assumption. intros a c Ha Hc. specialize (I2 a c Ha Hc). lia. Qed.
Lemma linv_more L l T A G held : linv L T A G held -> linv (L ++ l) T A G held.
Proof.
  intros [I1 I2 I3 I4]. split; try assumption.
  - intros c v X. destruct (I3 c v X) as (a & Y & Q). exists a. split; [apply in_or_app; left; exact Y | exact Q].
  - intros c s X. destruct (I4 c s X) as (a & Y & Q). exists a. split; [apply in_or_app; left; exact Y | exact Q].
Qed.
Lemma owns_ext A A' held a c s : m_did A' a c = m_did A a c -> owns A held a c s -> owns A' held a c s.
Proof. intros E [O1 O2 O3 O4 O5 O6 O7 O8]. split; rewrite ?E; assumption. Qed.
Lemma linv_ext L T A A' G held : names_ok L -> (forall a c, is_i64 a -> is_i64 c -> m_did A' a c = m_did A a c) -> linv L T A G held -> linv L T A' G held.
Proof.
  intros [_ W] E [I1 I2 I3 I4]. split; try assumption.
  - intros a c Ha Hc. rewrite E by assumption. auto.
  - intros c v X. destruct (I3 c v X) as (a & Y & Q). exists a. split; [exact Y|]. destruct (W _ _ Y). rewrite E by assumption. exact Q.
  - intros c s X. destruct (I4 c s X) as (a & Y & Q). exists a. split; [exact Y|]. destruct (W _ _ Y). apply (owns_ext A); [apply E; assumption | exact Q].
Qed.
Lemma linv_crash L T A G held : linv L T A G held -> linv L T A no_sequences held.
Proof. intros [I1 I2 I3 I4]. split; try assumption. intros c s X. discriminate. Qed.
Lemma linv_fewer L T A G held f : linv L T A G held -> linv L T A G (filter f held).
Proof.
  intros [I1 I2 I3 I4]. split; try assumption.
  - apply NoDup_filter. exact I1.
  - intros c v X. apply filter_In in X. apply I3. apply X.
  - intros c s X. destruct (I4 c s X) as (a & Y & [O1 O2 O3 O4 O5 O6 O7 O8]). exists a. split; [exact Y|]. split; try assumption.
    + intros v Z0. destruct (O7 v Z0) as (Q1 & Q2 & Q3). split; [exact Q1|]. split; [exact Q2|]. intros X0. apply filter_In in X0. apply Q3. apply X0.
    + intros v X0. apply filter_In in X0. apply O8. apply X0.
Qed.
(** a lease of 1000 more ids by (a, c)'s allocator, which becomes [s] *)
Lemma linv_lease L T A A' G held a c s put : names_ok L -> In (a, c) L -> linv L T A G held ->
  somez (m_did A' a c) = somez (m_did A a c) + 1000 -> (forall a' c', (a', c') <> (a, c) -> m_did A' a' c' = m_did A a' c') ->
  s = Seq (did_loc a c) 1000 false (somez (m_did A a c)) (somez (m_did A a c) + 1000) put ->
  NoDup put -> (forall v, In v put -> 0 < v <= somez (m_did A a c) /\ ~ In (c, v) held) ->
  linv L (T + 1) A' (reg_set G c s) held.
Proof.
  intros W X [I1 I2 I3 I4] E1 E2 -> NP HP. destruct (proj2 W _ _ X) as [Wa Wc]. pose proof (I2 a c Wa Wc) as B. split.
  - exact I1.
  - intros a' c' Ha Hc. destruct (Z.eq_dec a' a) as [->|Na]; [destruct (Z.eq_dec c' c) as [->|Nc]|]; [rewrite E1; lia| |]; (rewrite E2 by congruence; specialize (I2 _ _ Ha Hc); lia).
  - intros c' v Y. destruct (I3 c' v Y) as (a' & Y1 & Y2). exists a'. split; [exact Y1|]. destruct (Z.eq_dec c' c) as [->|Nc]; [assert (a' = a) by (eapply only_a; eassumption); subst a'; rewrite E1; lia | rewrite E2 by congruence; exact Y2].
  - intros c' s' Y. unfold reg_set in Y. destruct (Z.eqb_spec c' c) as [->|Nc].
    + injection Y as <-. exists a. split; [exact X|]. split; cbn [q_loc q_closed q_bw q_next q_leased q_put]; try reflexivity; try lia; try exact NP.
      * intros v Hv. destruct (HP v Hv) as [Q1 Q2]. split; [lia|]. split; [left; cbn [q_next]; lia | exact Q2].
      * intros v Hv. left. cbn [q_next]. destruct (I3 c v Hv) as (a' & Y1 & Y2). assert (a' = a) by (eapply only_a; eassumption). subst a'. lia.
    + destruct (I4 c' s' Y) as (a' & Y1 & Y2). exists a'. split; [exact Y1|]. apply (owns_ext A); [apply E2; congruence | exact Y2].
Qed.
(** the next id is taken from the lease *)
Lemma linv_take L T A G held a c s : names_ok L -> In (a, c) L -> G c = Some s -> linv L T A G held -> q_next s < q_leased s ->
  linv L T A (reg_set G c (set_lease s (q_next s + 1) (q_leased s))) (held ++ [(c, q_next s + 1)]) /\ ~ In (c, q_next s + 1) held /\ 0 < q_next s + 1.
Proof.
  intros W X Gc [I1 I2 I3 I4] Lt. destruct (I4 c s Gc) as (a' & X' & O). assert (a' = a) by (eapply only_a; eassumption). subst a'. destruct O as [O1 O2 O3 O4 O5 O6 O7 O8].
  assert (NEW : ~ In (c, q_next s + 1) held) by (intros Y; destruct (O8 _ Y); lia). split; [|split; [exact NEW | lia]]. split.
  - apply (Permutation_NoDup (Permutation_cons_append held (c, q_next s + 1))). constructor; assumption.
  - exact I2.
  - intros c' v Y. apply in_app_iff in Y. destruct Y as [Y|[Y|[]]]; [exact (I3 c' v Y)|]. assert (c' = c /\ v = q_next s + 1) as [-> ->] by (split; congruence). exists a. split; [exact X | lia].
  - intros c' s' Y. unfold reg_set in Y. destruct (Z.eqb_spec c' c) as [->|Nc].
    + injection Y as <-. exists a. split; [exact X|]. split; cbn [set_lease q_loc q_closed q_bw q_next q_leased q_put]; try assumption; try lia.
      * intros v Hv. destruct (O7 v Hv) as (Q1 & Q2 & Q3). split; [exact Q1|]. split; [destruct Q2; [left | right]; cbn [set_lease q_next q_leased]; lia|].
        intros Y. apply in_app_iff in Y. destruct Y as [Y|[Y|[]]]; [exact (Q3 Y)|]. assert (v = q_next s + 1) by congruence. destruct Q2; lia.
      * intros v Hv. apply in_app_iff in Hv. destruct Hv as [Hv|[Hv|[]]]; [destruct (O8 v Hv); [left | right]; cbn [set_lease q_next q_leased]; lia|]. left. cbn [set_lease q_next]. assert (v = q_next s + 1) by congruence. lia.
    + destruct (I4 c' s' Y) as (a' & Y1 & [P1 P2 P3 P4 P5 P6 P7 P8]). exists a'. split; [exact Y1|]. split; try assumption.
      * intros v Hv. destruct (P7 v Hv) as (Q1 & Q2 & Q3). split; [exact Q1|]. split; [exact Q2|]. intros Z0. apply in_app_iff in Z0. destruct Z0 as [Z0|[Z0|[]]]; [exact (Q3 Z0) | congruence].
      * intros v Hv. apply in_app_iff in Hv. destruct Hv as [Hv|[Hv|[]]]; [exact (P8 v Hv) | congruence].
Qed.
(** an id that was put back is taken *)
Lemma linv_reuse L T A G held a c s l v : names_ok L -> In (a, c) L -> G c = Some s -> linv L T A G held -> q_put s = l ++ [v] ->
  linv L T A (reg_set G c (set_put s l)) (held ++ [(c, v)]) /\ ~ In (c, v) held /\ 0 < v.
Proof.
  intros W X Gc [I1 I2 I3 I4] Ep. destruct (I4 c s Gc) as (a' & X' & O). assert (a' = a) by (eapply only_a; eassumption). subst a'. destruct O as [O1 O2 O3 O4 O5 O6 O7 O8].
  destruct (O7 v) as (V1 & V2 & V3); [rewrite Ep; apply in_or_app; right; left; reflexivity|]. split; [|split; [exact V3 | lia]]. split.
  - apply (Permutation_NoDup (Permutation_cons_append held (c, v))). constructor; assumption.
  - exact I2.
  - intros c' v' Y. apply in_app_iff in Y. destruct Y as [Y|[Y|[]]]; [exact (I3 c' v' Y)|]. assert (c' = c /\ v' = v) as [-> ->] by (split; congruence). exists a. split; [exact X | exact V1].
  - intros c' s' Y. unfold reg_set in Y. destruct (Z.eqb_spec c' c) as [->|Nc].
    + injection Y as <-. rewrite Ep in O6. apply nodup_app in O6. destruct O6 as (N1 & _ & N3). exists a. split; [exact X|]. split; cbn [set_put q_loc q_closed q_bw q_next q_leased q_put]; try assumption; try lia.
      * intros v' Hv. destruct (O7 v') as (Q1 & Q2 & Q3); [rewrite Ep; apply in_or_app; left; exact Hv|]. split; [exact Q1|]. split; [exact Q2|].
        intros Y. apply in_app_iff in Y. destruct Y as [Y|[Y|[]]]; [exact (Q3 Y)|]. apply (N3 v' Hv). left. congruence.
      * intros v' Hv. apply in_app_iff in Hv. destruct Hv as [Hv|[Hv|[]]]; [exact (O8 v' Hv)|]. replace v' with v by congruence. exact V2.
    + destruct (I4 c' s' Y) as (a' & Y1 & [P1 P2 P3 P4 P5 P6 P7 P8]). exists a'. split; [exact Y1|]. split; try assumption.
      * intros v' Hv. destruct (P7 v' Hv) as (Q1 & Q2 & Q3). split; [exact Q1|]. split; [exact Q2|]. intros Z0. apply in_app_iff in Z0. destruct Z0 as [Z0|[Z0|[]]]; [exact (Q3 Z0) | congruence].
      * intros v' Hv. apply in_app_iff in Hv. destruct Hv as [Hv|[Hv|[]]]; [exact (P8 v' Hv) | congruence].
Qed.
(** ids are put back *)
Lemma without_in held c vs c' v : In (c', v) (without held c vs) <-> In (c', v) held /\ ~ (c' = c /\ In v vs).
Proof.
  unfold without. rewrite filter_In. cbn [fst snd]. split; intros [X Y]; (split; [exact X|]).
  - intros [-> Q]. rewrite Z.eqb_refl in Y. cbn [andb] in Y. assert (E : existsb (Z.eqb v) vs = true) by (apply existsb_exists; exists v; split; [exact Q | apply Z.eqb_refl]). rewrite E in Y. discriminate.
  - destruct (Z.eqb_spec c' c) as [->|]; [|reflexivity]. cbn [andb]. destruct (existsb (Z.eqb v) vs) eqn:E; [|reflexivity]. exfalso. apply existsb_exists in E. destruct E as (w & E1 & E2). apply Z.eqb_eq in E2. subst w. apply Y. auto.
Qed.
Lemma linv_put L T A G held a c s vs : names_ok L -> In (a, c) L -> G c = Some s -> linv L T A G held -> NoDup vs -> (forall v, In v vs -> In (c, v) held) ->
  linv L T A (reg_set G c (q_PutBack s vs)) (without held c vs).
Proof.
  intros W X Gc I0 Nv Hv. pose proof I0 as [I1 I2 I3 I4]. destruct (linv_fewer _ _ _ _ _ (fun x => negb ((fst x =? c) && existsb (Z.eqb (snd x)) vs)) I0) as [J1 J2 J3 J4]. fold (without held c vs) in *.
  destruct (I4 c s Gc) as (a' & X' & O). assert (a' = a) by (eapply only_a; eassumption). subst a'. destruct O as [O1 O2 O3 O4 O5 O6 O7 O8]. split; try assumption.
  intros c' s' Y. unfold reg_set in Y. destruct (Z.eqb_spec c' c) as [->|Nc]; [|exact (J4 c' s' Y)]. injection Y as <-. exists a. split; [exact X|].
  split; unfold q_PutBack; cbn [set_put q_loc q_closed q_bw q_next q_leased q_put]; try assumption.
  - apply NoDup_app_intro'; [exact O6 | exact Nv|]. intros v V1 V2. destruct (O7 v V1) as (_ & _ & Q). exact (Q (Hv v V2)).
  - intros v V. apply in_app_iff in V. rewrite without_in. destruct V as [V|V].
    + destruct (O7 v V) as (Q1 & Q2 & Q3). split; [exact Q1|]. split; [exact Q2 | tauto].
    + destruct (I3 c v (Hv v V)) as (a' & Y1 & Y2). assert (a' = a) by (eapply only_a; eassumption). subst a'. split; [exact Y2|]. split; [exact (O8 v (Hv v V)) | tauto].
  - intros v V. apply without_in in V. apply O8. apply V.
Qed.
(** ** new allocators *)
Lemma create_linv L T n d A G held a c io d' G' r : names_ok L -> In (a, c) L -> holds n d A -> n + 1 < two63 -> 1000 * (T + 1) < two63 -> linv L T A G held ->
  CreateSequence d G a c 0 io = (d', G', r) -> exists n' A', n' <= n + 1 /\ holds n' d' A' /\ linv L (T + 1) A' G' held.
Proof.
  intros W X H L1 L2 I E. assert (SAME : exists n' A', n' <= n + 1 /\ holds n' d A' /\ linv L (T + 1) A' G held) by (exists n, A; split; [lia|]; split; [exact H | eapply linv_le; [|exact I]; lia]).
  unfold CreateSequence in E. destruct (G c) as [s0|] eqn:Gc; [assert (d' = d /\ G' = G) as [-> ->] by (split; congruence); exact SAME|].
  unfold NewDocIDSequence in E. replace (if 0 <=? 0 then defaultDIDBandWidth else 0) with 1000 in E by reflexivity. rewrite did_loc_new in E by lia. unfold renewLease in E. cbv zeta in E. cbn [q_loc q_bw] in E.
  replace (if 0 =? 0 then 1000 else 0) with 1000 in E by reflexivity. destruct (proj2 W _ _ X) as [Wa Wc]. pose proof (li_ctr _ _ _ _ _ I a c Wa Wc) as B.
  destruct (lease n d A a c io H L1 Wa Wc ltac:(lia) ltac:(lia)) as [(E1 & _)|(d1 & A1 & E1 & H1 & V1 & V2)]; rewrite E1 in E.
  - assert (d' = d /\ G' = G) as [-> ->] by (split; congruence). exact SAME.
  - exists (n + 1), A1. split; [lia|].
    assert (Ev : to_i64 (somez (m_did A a c) + 1000 - 1000) = somez (m_did A a c)) by (replace (somez (m_did A a c) + 1000 - 1000) with (somez (m_did A a c)) by lia; apply to_i64_id; unfold is_i64; rewrite two63_val in *; lia).
    rewrite Ev in E. unfold set_lease in E. cbn [q_loc q_bw q_closed q_put] in E.
    assert (d' = d1 /\ G' = reg_set G c (Seq (did_loc a c) 1000 false (somez (m_did A a c)) (somez (m_did A a c) + 1000) [])) as [-> ->] by (split; congruence).
    split; [exact H1|]. eapply linv_lease; try eassumption; [reflexivity | constructor | intros v []].
Qed.
Lemma seqs_linv l : forall L T n d A G held ios d' G' r, names_ok L -> (forall a c, In (a, c) l -> In (a, c) L) -> holds n d A -> n + llen ios < two63 -> 1000 * (T + llen ios) < two63 -> linv L T A G held ->
  create_seqs d G l ios = (d', G', r) -> exists n' A', holds n' d' A' /\ linv L (T + llen ios) A' G' held.
Proof.
  induction l as [|[a c] l IH]; intros L T n d A G held ios d' G' r W X H L1 L2 I E; cbn [create_seqs] in E; pose proof (llen_nonneg ios) as L0.
  - assert (d' = d /\ G' = G) as [-> ->] by (split; congruence). exists n, A. split; [exact H | eapply linv_le; [|exact I]; lia].
  - destruct ios as [|io ios]; [assert (d' = d /\ G' = G) as [-> ->] by (split; congruence); exists n, A; split; [exact H | eapply linv_le; [|exact I]; lia]|].
    rewrite llen_cons in *. pose proof (llen_nonneg ios) as L3. destruct (CreateSequence d G a c 0 io) as [[d1 G1] r1] eqn:E1.
    destruct (create_linv L T n d A G held a c io d1 G1 r1 W (X a c (or_introl eq_refl)) H ltac:(lia) ltac:(lia) I E1) as (n1 & A1 & N1 & H1 & I1).
    assert (STOP : exists n' A', holds n' d1 A' /\ linv L (T + (1 + llen ios)) A' G1 held) by (exists n1, A1; split; [exact H1 | eapply linv_le; [|exact I1]; lia]).
    destruct r1 as [u|er|]; [|assert (d' = d1 /\ G' = G1) as [-> ->] by (split; congruence); exact STOP..].
    destruct (IH L (T + 1) n1 d1 A1 G1 held ios d' G' r W (fun a' c' Y => X a' c' (or_intror Y)) H1 ltac:(lia) ltac:(lia) I1 E) as (n2 & A2 & H2 & I2). exists n2, A2. split; [exact H2|]. replace (T + (1 + llen ios)) with (T + 1 + llen ios) by lia. exact I2.
Qed.
(** ** Next *)
Lemma next_linv L T n d A G held c s io d' s' r : names_ok L -> holds n d A -> n + 1 < two63 -> 1000 * (T + 1) < two63 -> linv L T A G held -> G c = Some s ->
  q_exec d d [] io s QNext = (d', s', r) ->
  exists n' A', holds n' d' A' /\
    match r with
    | Ok (QId v) => linv L (T + 1) A' (reg_set G c s') (held ++ [(c, v)]) /\ ~ In (c, v) held /\ 0 < v
    | Ok _ | Panic => False
    | Err _ => io = true /\ linv L (T + 1) A' (reg_set G c s') held
    end.
Proof.
  intros W H L1 L2 I Gc E. destruct (li_reg _ _ _ _ _ I c s Gc) as (a & X & O). destruct (proj2 W _ _ X) as [Wa Wc]. pose proof (li_ctr _ _ _ _ _ I a c Wa Wc) as B.
  pose proof (ow_lo _ _ _ _ _ O) as Lo. pose proof (ow_hi _ _ _ _ _ O) as Hi. unfold q_exec in E. rewrite (ow_open _ _ _ _ _ O) in E. unfold q_Next in E.
  pose proof (linv_le L T (T + 1) A G held ltac:(lia) I) as I1. destruct (rev (q_put s)) as [|v l] eqn:Ep.
  - assert (Ep' : q_put s = []) by (rewrite <- (rev_involutive (q_put s)), Ep; reflexivity). destruct (q_leased s <=? q_next s) eqn:Le.
    + unfold renewLease in E. cbv zeta in E. replace (if 0 =? 0 then q_bw s else 0) with 1000 in E by (cbn; rewrite (ow_bw _ _ _ _ _ O); reflexivity). rewrite (ow_loc _ _ _ _ _ O) in E.
      destruct (lease n d A a c io H L1 Wa Wc ltac:(lia) ltac:(lia)) as [(E1 & Eio)|(d1 & A1 & E1 & H1 & V1 & V2)]; rewrite E1 in E.
      * assert (d' = d /\ s' = s /\ r = Err EIO) as (-> & -> & ->) by (repeat split; congruence). exists n, A. split; [exact H|]. split; [exact Eio|]. destruct I1 as [Q1 Q2 Q3 Q4]. split; try assumption.
        intros c' s' Y. unfold reg_set in Y. destruct (Z.eqb_spec c' c) as [->|]; [|exact (Q4 c' s' Y)]. injection Y as <-. exists a. auto.
      * assert (Ev : to_i64 (somez (m_did A a c) + 1000 - 1000) = somez (m_did A a c)) by (replace (somez (m_did A a c) + 1000 - 1000) with (somez (m_did A a c)) by lia; apply to_i64_id; unfold is_i64; rewrite two63_val in *; lia).
        rewrite Ev in E. unfold set_lease at 1 in E. unfold set_lease in E. cbn [q_loc q_bw q_closed q_put q_next q_leased] in E.
        assert (Ew : to_i64 (somez (m_did A a c) + 1) = somez (m_did A a c) + 1) by (apply to_i64_id; unfold is_i64; rewrite two63_val in *; lia). rewrite Ew in E.
        set (s1 := Seq (did_loc a c) 1000 false (somez (m_did A a c)) (somez (m_did A a c) + 1000) []).
        assert (M1 : linv L (T + 1) A1 (reg_set G c s1) held) by (eapply linv_lease; try eassumption; [reflexivity | constructor | intros v []]).
        destruct (linv_take L (T + 1) A1 (reg_set G c s1) held a c s1 W X (reg_set_eq G c s1) M1) as (M2 & M3 & M4); [unfold s1; cbn [q_next q_leased]; lia|].
        rewrite (ow_loc _ _ _ _ _ O), (ow_bw _ _ _ _ _ O), (ow_open _ _ _ _ _ O), Ep' in E. cbn [s1 q_next q_leased] in M2, M3, M4. change (q_next s1) with (somez (m_did A a c)) in *. change (q_leased s1) with (somez (m_did A a c) + 1000) in *.
        assert (d' = d1 /\ r = Ok (QId (somez (m_did A a c) + 1))) as [-> ->] by (split; congruence).
        assert (Es : s' = set_lease s1 (somez (m_did A a c) + 1) (somez (m_did A a c) + 1000)) by (unfold set_lease, s1; cbn [q_loc q_bw q_closed q_put]; congruence). subst s'.
        exists (n + 1), A1. split; [exact H1|]. split; [|auto]. destruct M2 as [Q1 Q2 Q3 Q4]. split; try assumption. intros c' s' Y. apply Q4. unfold reg_set in *. destruct (Z.eqb_spec c' c); exact Y.
    + assert (Ew : to_i64 (q_next s + 1) = q_next s + 1) by (apply to_i64_id; unfold is_i64; rewrite two63_val in *; lia). rewrite Ew in E.
      assert (d' = d /\ s' = set_lease s (q_next s + 1) (q_leased s) /\ r = Ok (QId (q_next s + 1))) as (-> & -> & ->) by (repeat split; congruence). exists n, A. split; [exact H|]. apply (linv_take L (T + 1) A G held a c s W X Gc I1). lia.
  - assert (Ep' : q_put s = rev l ++ [v]) by (rewrite <- (rev_involutive (q_put s)), Ep; reflexivity). assert (d' = d /\ s' = set_put s (rev l) /\ r = Ok (QId v)) as (-> & -> & ->) by (repeat split; congruence).
    exists n, A. split; [exact H|]. exact (linv_reuse L (T + 1) A G held a c s (rev l) v W X Gc I1 Ep').
Qed.

(** * Every step *)
Lemma names_pinv T p D R st A : pinv T p D R st A -> T < two63 -> names_ok (seqs (applied D R st)).
Proof.
  intros V L. split; [apply snd_seqs; eapply nodup_applied; exact V|]. intros a c X. exact (applied_range J _ _ _ _ _ _ _ _ (pv_s _ _ _ _ _ _ _ V) L X).
Qed.
Lemma restart_db p : y_db (p_sys (restart J p)) = y_db (p_sys p).
Proof. reflexivity. Qed.
Lemma lstep T p D R st A e held : pinv T p D R st A -> linv (seqs (applied D R st)) T A (p_reg p) held -> pev_ok e -> single e -> 1000 * (T + pweight e) < two63 -> put_ok held e ->
  exists n A2, holds n (y_db (p_sys (pstep J p e))) A2 /\ linv (seqs (applied D R st)) (T + pweight e) A2 (p_reg (pstep J p e)) (held_step p held e) /\
    (forall c v, gave p e = Some (c, v) -> ~ In (c, v) held /\ 0 < v).
Proof.
  intros V I K Sg L PO. pose proof (pweight_nonneg e) as W0. pose proof (pv_s _ _ _ _ _ _ _ V) as Y. pose proof (si_holds _ _ _ _ _ _ _ Y) as H. pose proof (room_le T D R st) as RL.
  assert (T0 : 0 <= T) by (pose proof (si_gid _ _ _ _ _ _ _ Y); lia). assert (LT : T + pweight e < two63) by lia. pose proof (names_pinv _ _ _ _ _ _ V ltac:(lia)) as NO.
  assert (I' : linv (seqs (applied D R st)) (T + pweight e) A (p_reg p) held) by (eapply linv_le; [|exact I]; lia).
  assert (IC : linv (seqs (applied D R st)) (T + pweight e) A no_sequences held) by (eapply linv_crash; exact I').
  assert (NG : forall c v, None = Some (c, v) -> ~ In (c, v) held /\ 0 < v) by discriminate.
  assert (SAME : exists n A2, holds n (y_db (p_sys p)) A2 /\ linv (seqs (applied D R st)) (T + pweight e) A2 (p_reg p) held /\ forall c v, None = Some (c, v) -> ~ In (c, v) held /\ 0 < v) by (exists (room T D R st), A; auto).
  destruct e as [sh ios|i io|i io|o sh io|io| |c io|c vs|t io|n| | |o io]; try destruct Sg; cbn [pev_ok held_step gave put_ok] in *.
  - cbn [pstep]. destruct (p_up p); [exact SAME|]. cbn [pweight] in *. unfold domain_Init. destruct (reloadSchema J (y_db (p_sys p)) (p_h p) (p_next p)) as [h r] eqn:E.
    destruct (reload_pinv J JO _ _ _ _ _ _ h r V ltac:(lia) E) as [(-> & ->)|(-> & _ & _)]; [exact SAME|].
    unfold ddl_Init. destruct (listed J JO _ _ _ _ _ _ Y ltac:(lia)) as (l & -> & Pm). pose proof (init_seqs sh l _ K Pm) as PS. destruct (create_seqs (y_db (p_sys p)) (p_reg p) (seqs_listed sh l) ios) as [[d G] ri] eqn:EC.
    assert (LR : room T D R st + llen ios < two63) by lia. destruct (seqs_linv _ _ _ _ _ _ _ _ _ _ _ _ NO (fun a c X => Permutation_in _ PS X) H LR L I EC) as (n' & A' & H' & M). pose proof (linv_crash _ _ _ _ _ M) as MC.
    exists n', A'. destruct ri; cbn; (split; [exact H'|]; split; [assumption | exact NG]).
  - cbn [pstep]. destruct (p_up p); [|exact SAME]. destruct (create_inv_did J JO _ _ _ _ _ _ i io Y K LT) as (R' & A' & Y' & E). exists (room (T + dweight (DCreate i io)) D R' st), A'. split; [apply (si_holds _ _ _ _ _ _ _ Y')|].
    split; [|exact NG]. cbn [with_sys p_reg]. apply (linv_ext _ _ A); [exact NO | intros; rewrite E; reflexivity | exact I'].
  - cbn [pstep]. destruct (p_up p); [|exact SAME]. destruct (index_inv_did J JO _ _ _ _ _ _ i io Y K LT) as (R' & A' & Y' & E). exists (room (T + dweight (DIndex i io)) D R' st), A'. split; [apply (si_holds _ _ _ _ _ _ _ Y')|].
    split; [|exact NG]. cbn [with_sys p_reg]. apply (linv_ext _ _ A); [exact NO | intros; rewrite E; reflexivity | exact I'].
  - cbn [pstep]. destruct (p_up p && idle p); [|exact SAME]. destruct K as [K1 K2]. destruct (work_after J JO T (p_sys p) D R st A o io Y K1 ltac:(lia)) as (D' & R' & st' & A' & Y' & E & NP & _).
    cbv zeta in *. exists (room T D' R' st'), A'. pose proof (si_holds _ _ _ _ _ _ _ Y') as H'.
    assert (M : linv (seqs (applied D R st)) (T + pweight (PWork o sh io)) A' (p_reg p) held) by (apply (linv_ext _ _ A); [exact NO | intros; rewrite E; reflexivity | exact I']).
    destruct (e_res (iteration J o (y_vars (p_sys p)) (y_db (p_sys p)) io)); [|  | destruct (NP eq_refl)]; (split; [exact H'|]; split; [exact M | exact NG]).
  - cbn [pstep]. destruct (p_todo p) as [|[a c] l] eqn:Td; [exact SAME|]. destruct (pv_todo _ _ _ _ _ _ _ V a c) as [X Gc]; [rewrite Td; left; reflexivity|]. cbn [pweight] in *.
    destruct (CreateSequence (y_db (p_sys p)) (p_reg p) a c 0 io) as [[d G] r] eqn:E. assert (LR : room T D R st + 1 < two63) by lia. destruct (create_linv _ _ _ _ _ _ _ _ _ _ _ _ _ NO X H LR L I E) as (n' & A' & _ & H' & M). pose proof (linv_crash _ _ _ _ _ M) as MC.
    exists n', A'. destruct r; cbn; (split; [exact H'|]; split; [assumption | exact NG]).
  - cbn [pstep]. destruct (p_todo p); [|exact SAME]. destruct (p_note p); [|exact SAME]. unfold note_step. destruct (reloadSchema J (y_db (p_sys p)) (p_h p) (p_next p)) as [h r].
    exists (room T D R st), A. destruct r; cbn; (split; [exact H|]; split; [assumption | exact NG]).
  - cbn [pstep]. destruct (p_reg p c) as [s|] eqn:Gc; [|exact SAME]. cbn [pweight] in *. destruct (q_exec (y_db (p_sys p)) (y_db (p_sys p)) [] io s QNext) as [[d' s'] r] eqn:E.
    assert (LR : room T D R st + 1 < two63) by lia. destruct (next_linv _ _ _ _ _ _ _ _ _ _ _ _ _ NO H LR L I Gc E) as (n' & A' & H' & M). exists n', A'. cbn [with_reg with_db with_sys p_reg p_sys y_db]. split; [exact H'|].
    destruct r as [[|v|rs]|er|]; try (destruct M; fail); [|split; [exact (proj2 M) | exact NG]]. destruct M as (M1 & M2 & M3). split; [exact M1|]. intros c0 v0 Q. injection Q as <- <-. auto.
  - cbn [pstep]. destruct PO as [P1 P2]. destruct (p_reg p c) as [s|] eqn:Gc.
    + destruct (li_reg _ _ _ _ _ I' c s Gc) as (a & X & _). exists (room T D R st), A. split; [exact H|]. split; [|exact NG]. cbn [with_reg p_reg]. exact (linv_put _ _ _ _ _ a c s vs NO X Gc I' P1 P2).
    + exists (room T D R st), A. split; [exact H|]. split; [|exact NG]. apply linv_fewer. exact I'.
  - cbn [pstep]. destruct (commit (y_db (p_sys p)) t io) as [[d' t'] r] eqn:E. exists (room T D R st), A. split; [|split; [exact I' | exact NG]]. cbn [with_sys p_sys dstep]. rewrite E. cbn [y_db fst].
    eapply holds_other; [exact H | eapply commit_db_ok; [exact (proj1 H) | exact E]|]. intros k Hk. eapply commit_other; [exact K | exact E | exact Hk].
  - exact SAME.
  - exists (room T D R st), A. split; [exact H|]. split; [exact IC | exact NG].
Qed.
Lemma lstep_pinv T p D R st A e held : pinv T p D R st A -> linv (seqs (applied D R st)) T A (p_reg p) held -> pev_ok e -> single e -> 1000 * (T + pweight e) < two63 -> put_ok held e ->
  exists D' R' st' A', pinv (T + pweight e) (pstep J p e) D' R' st' A' /\ linv (seqs (applied D' R' st')) (T + pweight e) A' (p_reg (pstep J p e)) (held_step p held e) /\
    (exists l, applied D' R' st' = applied D R st ++ l) /\ (forall c v, gave p e = Some (c, v) -> ~ In (c, v) held /\ 0 < v).
Proof.
  intros V I K Sg L PO. pose proof (pweight_nonneg e) as W0. pose proof (pv_s _ _ _ _ _ _ _ V) as Y. assert (T0 : 0 <= T) by (pose proof (si_gid _ _ _ _ _ _ _ Y); lia).
  destruct (lstep T p D R st A e held V I K Sg L PO) as (n & A2 & H2 & M & N). destruct (pstep_pinv J JO T p D R st A e V K Sg ltac:(lia)) as (D' & R' & st' & A' & V' & l & E).
  exists D', R', st', A'. split; [exact V'|]. split; [|split; [exists l; exact E | exact N]]. rewrite E, flat_map_app. apply linv_more.
  apply (linv_ext _ _ A2); [eapply names_pinv; [exact V | lia] | | exact M]. intros a c Ha Hc. exact (did_fun _ _ _ _ _ a c (si_holds _ _ _ _ _ _ _ (pv_s _ _ _ _ _ _ _ V')) H2 Ha Hc).
Qed.
Lemma lrun es : forall T p D R st A held, pinv T p D R st A -> linv (seqs (applied D R st)) T A (p_reg p) held -> Forall pev_ok es -> Forall single es -> 1000 * (T + pload es) < two63 -> puts_from J p held es ->
  exists D' R' st' A', pinv (T + pload es) (prun J p es) D' R' st' A' /\ linv (seqs (applied D' R' st')) (T + pload es) A' (p_reg (prun J p es)) (held_from J p held es) /\ exists l, applied D' R' st' = applied D R st ++ l.
Proof.
  induction es as [|e es IH]; intros T p D R st A held V I F Sg L PO.
  - exists D, R, st, A. cbn [pload fold_right prun fold_left held_from]. rewrite Z.add_0_r. split; [exact V|]. split; [exact I|]. exists []. rewrite app_nil_r. reflexivity.
  - inversion F as [|? ? F1 F2]; subst. inversion Sg as [|? ? S1 S2]; subst. cbn [pload fold_right] in L. pose proof (pload_nonneg es) as L0. unfold pload in L0. pose proof (pweight_nonneg e). cbn [puts_from] in PO. destruct PO as [P1 P2].
    destruct (lstep_pinv T p D R st A e held V I F1 S1 ltac:(lia) P1) as (D1 & R1 & st1 & A1 & V1 & I1 & (l1 & E1) & _). cbn [prun fold_left held_from]. fold (prun J (pstep J p e) es).
    destruct (IH _ _ _ _ _ _ _ V1 I1 F2 S2) as (D2 & R2 & st2 & A2 & V2 & I2 & (l2 & E2)); [unfold pload; lia | exact P2|]. exists D2, R2, st2, A2. cbn [pload fold_right]. rewrite Z.add_assoc. split; [exact V2|]. split; [exact I2|].
    exists (l1 ++ l2). rewrite E2, E1, app_assoc. reflexivity.
Qed.
Lemma start_linv d : linv [] 0 m_empty (p_reg (pstart d)) [].
Proof. split; [constructor | intros a c _ _; cbn; lia | intros c v [] | intros c s X; discriminate]. Qed.
End WithJson.
