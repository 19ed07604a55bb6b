(** The worker's iteration as triples over the specification's metadata. *)
From Verif Require Import Bytes SMap Provider ProviderProofs World Memcmp MemcmpProofs Numeric KvUtil KeyModel Struct
  StructProofs StructHash StructList UtilTxn Sequence SequenceProofs Model Meta MetaSpec MetaProofs MetaOps MetaRun Ddl DdlProofs.
From Coq Require Import Sorted Permutation.

Local Notation P := MetaPrefix.

(** * Values of maps *)
Definition mapped {A B} (f : A -> B) (l : list (bytes * A)) : list (bytes * B) := map (fun p => (fst p, f (snd p))) l.
Lemma mapped_sorted {A B} (f : A -> B) (l : list (bytes * A)) : sortedb l = true -> sortedb (mapped f l) = true.
Proof.
  induction l as [|[k v] l IH]; intros S; [reflexivity|]. apply sortedb_cons in S. destruct S as [S1 S2]. cbn [mapped map fst snd]. apply sortedb_cons. split; [|apply IH; exact S2].
  intros k' v' I. apply in_map_iff in I. destruct I as ([a b] & E & I). injection E as <- <-. eapply S1. exact I.
Qed.
Lemma entries_smap_map {A B} (f : A -> B) (m : smap A) : entries (smap_map f m) = mapped f (entries m).
Proof.
  set (m' := {| sm_list := mapped f (entries m); sm_ok := mapped_sorted f (entries m) (sm_ok m) |}).
  assert (E : smap_map f m = m'); [|rewrite E; reflexivity].
  apply smap_ext. intros k. rewrite get_smap_map. apply option_ext. intros x. rewrite (get_in m' k x). unfold m'. cbn [entries sm_list]. split.
  - destruct (get m k) as [a|] eqn:G; cbn [option_map]; [|discriminate]. intros H. injection H as <-. apply get_in in G. apply (in_map (fun p => (fst p, f (snd p)))) in G. exact G.
  - intros I. apply in_map_iff in I. destruct I as ([a b] & H & I). cbn [fst snd] in H. injection H as <- <-. apply get_in in I. rewrite I. reflexivity.
Qed.
Lemma vals_map {A B} (f : A -> B) o : vals (option_map (smap_map f) o) = map f (vals o).
Proof. destruct o as [m|]; [|reflexivity]. cbn [option_map vals]. rewrite entries_smap_map. unfold mapped. rewrite !map_map. reflexivity. Qed.
Lemma vals_pub d : vals (di_colls (pub_di d)) = map pub_ci (vals (di_colls d)).
Proof. apply vals_map. Qed.
Lemma coll_ids_pub d : map ci_id (vals (di_colls (pub_di d))) = coll_ids d.
Proof. rewrite vals_pub, map_map. reflexivity. Qed.
Lemma wf_pub_ii i : wf_ii i -> wf_ii (pub_ii i).
Proof. intros H. exact H. Qed.
Lemma wf_smap_map {A} (f : A -> A) (W : A -> Prop) (o : option (smap A)) : (forall a, W a -> W (f a)) -> wf_map W o -> wf_map W (option_map (smap_map f) o).
Proof.
  intros H. destruct o as [m|]; cbn [option_map wf_map wf_opt]; [|auto]. intros X k a. rewrite get_smap_map. destruct (get m k) as [b|] eqn:E; cbn [option_map]; [|discriminate].
  intros Y. injection Y as <-. destruct (X k b E). auto.
Qed.
Lemma wf_pub_ci c : wf_ci c -> wf_ci (pub_ci c).
Proof. intros (H1 & H2 & H3 & H4). split; [exact H1|]. split; [exact H2|]. split; [|exact H4]. apply wf_smap_map; [exact wf_pub_ii | exact H3]. Qed.
Lemma wf_pub_di d : wf_di d -> wf_di (pub_di d).
Proof. intros (H1 & H2 & H3 & H4). split; [exact H1|]. split; [exact H2|]. split; [|exact H4]. apply wf_smap_map; [exact wf_pub_ci | exact H3]. Qed.
Lemma wf_vals d : wf_di d -> Forall wf_ci (vals (di_colls d)).
Proof.
  intros (_ & _ & H & _). destruct (di_colls d) as [m|]; [|constructor]. apply Forall_forall. intros c I. apply vals_in in I. destruct I as (k & E). apply (H k c E).
Qed.

(** * Adding collections *)
Definition add_all (f : Z -> option CollectionInfo) (l : list CollectionInfo) : Z -> option CollectionInfo :=
  fun c => match find (fun x => ci_id x =? c) l with Some x => Some x | None => f c end.
Lemma find_id l x : NoDup (map ci_id l) -> In x l -> find (fun y => ci_id y =? ci_id x) l = Some x.
Proof.
  induction l as [|a l IH]; intros N I; [destruct I|]. cbn [map find] in *. inversion N as [|? ? N1 N2]; subst. destruct I as [->|I]; [rewrite Z.eqb_refl; reflexivity|].
  destruct (Z.eqb_spec (ci_id a) (ci_id x)) as [E|_]; [|apply IH; assumption]. exfalso. apply N1. rewrite E. apply in_map. exact I.
Qed.
Lemma find_id_none l c : find (fun y => ci_id y =? c) l = None <-> ~ In c (map ci_id l).
Proof.
  split.
  - intros H I. apply in_map_iff in I. destruct I as (x & <- & I). pose proof (find_none _ _ H x I) as X. cbn beta in X. rewrite Z.eqb_refl in X. discriminate.
  - intros H. destruct (find _ l) as [y|] eqn:F; [|reflexivity]. apply find_some in F. destruct F as [F1 F2]. apply Z.eqb_eq in F2. subst c. exfalso. apply H. apply in_map. exact F1.
Qed.
Lemma add_all_perm f l l' : Permutation l l' -> NoDup (map ci_id l) -> forall c, add_all f l c = add_all f l' c.
Proof.
  intros Pm N c. assert (N' : NoDup (map ci_id l')) by (eapply Permutation_NoDup; [apply Permutation_map; exact Pm | exact N]). unfold add_all.
  destruct (find (fun x => ci_id x =? c) l) as [y|] eqn:F.
  - apply find_some in F. destruct F as [F1 F2]. apply Z.eqb_eq in F2. subst c. rewrite (find_id l' y N'); [reflexivity|]. eapply Permutation_in; eassumption.
  - apply find_id_none in F. assert (X : find (fun x => ci_id x =? c) l' = None); [|rewrite X; reflexivity]. apply find_id_none. intros I. apply F.
    eapply Permutation_in; [apply Permutation_map, Permutation_sym; exact Pm | exact I].
Qed.
(** ranging over a map: some order of its values *)
Definition orders_ok (o : orders) : Prop := forall l, Permutation (o_create o l) l /\ Permutation (o_ids o l) l.

Section WithJson.
Variable J : json.
Hypothesis JO : json_ok J.
Local Notation mrep := (mrep J).
Local Notation mdo := (mdo J).
Local Notation mgets := (mgets J).

Lemma meq_refl A : meq A A.
Proof. repeat split. Qed.
Lemma meq_trans A B C : meq A B -> meq B C -> meq A C.
Proof. unfold meq. intuition (try congruence); etransitivity; eauto. Qed.
Lemma create_all_d i l : is_i64 i -> Forall wf_ci l -> NoDup (map ci_id l) -> forall A, exists_db A i = true ->
  (forall c, In c l -> exists_coll A i (ci_id c) = false) ->
  mdo (llen l) A (create_all J i l) (Ok tt) (with_coll A (zupd (m_coll A) i (add_all (m_coll A i) l))).
Proof.
  intros Hi. induction l as [|c l IH]; intros W N A X E; cbn [create_all].
  - apply mdo_meq with (A' := A); [|apply mdo_ret]. repeat split. intros j c. cbn. unfold zupd. destruct (Z.eqb_spec j i) as [->|]; reflexivity.
  - inversion W as [|? ? W1 W2]; subst. cbn [map] in N. inversion N as [|? ? N1 N2]; subst.
    pose proof (CreateCollection_d J JO A i c Hi W1) as H. rewrite X, (E c (or_introl eq_refl)) in H.
    set (A1 := with_coll A (zupd (m_coll A) i (zupd (m_coll A i) (ci_id c) (Some c)))) in *.
    assert (IH1 := IH W2 N2 A1 X). apply mdo_meq with (A' := with_coll A1 (zupd (m_coll A1) i (add_all (m_coll A1 i) l))).
    + repeat split. intros j c'. cbn [with_coll m_coll A1]. unfold zupd. destruct (Z.eqb_spec j i) as [->|]; [|reflexivity]. rewrite Z.eqb_refl.
      unfold add_all. cbn [find]. destruct (Z.eqb_spec (ci_id c) c') as [<-|Ne].
      * destruct (find _ l) as [y|] eqn:F; [|rewrite Z.eqb_refl; reflexivity]. apply find_some in F. destruct F as [F1 F2]. apply Z.eqb_eq in F2. exfalso. apply N1. rewrite <- F2. apply in_map. exact F1.
      * destruct (find _ l); [reflexivity|]. destruct (Z.eqb_spec c' (ci_id c)); [congruence | reflexivity].
    + eapply (mdo_then J 1 (llen l)); [lia | unfold llen; lia | unfold llen; cbn [length]; lia | exact H|]. apply IH1.
      intros c' I. unfold exists_coll, A1. cbn [with_coll m_coll]. unfold zupd. rewrite Z.eqb_refl. destruct (Z.eqb_spec (ci_id c') (ci_id c)) as [Ec|_].
      * exfalso. apply N1. rewrite <- Ec. apply in_map. exact I.
      * apply (E c'). right. exact I.
Qed.
Definition ver A := somez (m_ver A).
Lemma inc_ver A : 0 <= ver A -> ver A + 1 < two63 -> inc64 (m_ver A) 1 = ver A + 1.
Proof. unfold ver. destruct (m_ver A) as [g|]; cbn [somez inc64]; intros; [apply to_i64_id; unfold is_i64; lia | lia]. Qed.
Lemma updateVersion_d A j cids : 0 <= ver A -> ver A + 1 < two63 -> is_u8 (j_type j) -> wf_arg (j_arg j) -> Forall is_i64 cids ->
  mdo 0 A (updateSchemaVersion J j cids) (Ok (ver A + 1))
    (with_diff (with_ver A (ver A + 1)) (zupd (m_diff A) (ver A + 1) (Some (SD (ver A + 1) (j_type j) cids (j_arg j))))).
Proof.
  intros V1 V2 T W C. unfold updateSchemaVersion. eapply (mdo_then J 0 0); [lia | lia | lia | apply GenSchemaVersion_d|]. rewrite inc_ver by assumption.
  eapply (mdo_then J 0 0); [lia | lia | lia | apply SetSchemaDiff_d | apply mdo_ret].
  split; [unfold is_i64; cbn [sd_version]; rewrite two63_val in *; lia|]. auto.
Qed.
(** the metadata once the schema of a job has been created *)
Definition created (A : mst) (d : DBInfo) (cids : list Z) : mst :=
  with_diff (with_ver (with_coll (with_db A (zupd (m_db A) (di_id d) (Some (pub_di d))))
                                 (zupd (m_coll A) (di_id d) (add_all (m_coll A (di_id d)) (map pub_ci (vals (di_colls d))))))
                      (ver A + 1))
            (zupd (m_diff A) (ver A + 1) (Some (SD (ver A + 1) ActionCreateSchema cids (ArgDB d)))).
Lemma Forall_perm {X} (W : X -> Prop) l l' : Permutation l l' -> Forall W l' -> Forall W l.
Proof. intros Pm F. apply Forall_forall. intros x I. rewrite Forall_forall in F. apply F. eapply Permutation_in; eassumption. Qed.
Lemma llen_perm {X} (l l' : list X) : Permutation l l' -> llen l = llen l'.
Proof. intros H. unfold llen. rewrite (Permutation_length H). reflexivity. Qed.
Lemma onCreate_ok A o j d : orders_ok o -> j_arg j = ArgDB d -> j_type j = ActionCreateSchema -> wf_di d -> 0 <= ver A -> ver A + 1 < two63 ->
  ~ used_name A (di_name d) -> m_db A (di_id d) = None -> (forall c, In c (coll_ids d) -> m_coll A (di_id d) c = None) -> NoDup (coll_ids d) ->
  mdo (1 + llen (vals (di_colls d))) A (onCreateSchema J o j)
    (Ok (JOut (set_sstate (set_state j JDone) Public) false false (map (fun c => (di_id d, c)) (coll_ids d))))
    (created A d (map ci_id (o_ids o (vals (di_colls (pub_di d)))))).
Proof.
  intros O Ea Et W V1 V2 N D C ND. unfold onCreateSchema. rewrite Ea. assert (L0 : 0 <= llen (vals (di_colls d))) by (unfold llen; lia).
  assert (ID : is_i64 (di_id d)) by apply W. destruct (O (vals (di_colls (pub_di d)))) as [O1 O2].
  eapply mdo_get; [lia | apply checkName_free; [exact JO | exact N]|]. cbv iota zeta.
  pose proof (CreateDatabase_d J JO A (pub_di d) (wf_pub_di d W)) as H. cbn [di_id pub_di] in H. unfold exists_db in H at 1 2. rewrite D in H.
  replace (if match (None : option DBInfo) with Some _ => true | None => false end then Err ErrDBExists else Ok tt) with (@Ok unit tt) in H by reflexivity.
  eapply (mdo_then J 1 (llen (vals (di_colls d)))); [lia | lia | lia | exact H|]. set (A1 := with_db A (zupd (m_db A) (di_id d) (Some (pub_di d)))).
  change (di_id (pub_di d)) with (di_id d). set (l := o_create o (vals (di_colls (pub_di d)))) in *. set (l2 := o_ids o (vals (di_colls (pub_di d)))) in *.
  assert (ND' : NoDup (map ci_id l)) by (eapply Permutation_NoDup; [apply Permutation_map, Permutation_sym; exact O1 | rewrite coll_ids_pub; exact ND]).
  assert (WC : Forall wf_ci (vals (di_colls (pub_di d)))) by (apply wf_vals, wf_pub_di, W).
  assert (LL : llen l = llen (vals (di_colls d))) by (rewrite (llen_perm _ _ O1), vals_pub; unfold llen; rewrite map_length; reflexivity).
  assert (X1 : exists_db A1 (di_id d) = true) by (unfold exists_db, A1; cbn [with_db m_db]; unfold zupd; rewrite Z.eqb_refl; reflexivity).
  assert (X2 : forall c, In c l -> exists_coll A1 (di_id d) (ci_id c) = false).
  { intros c I. unfold exists_coll, A1. cbn [with_db m_coll]. rewrite C; [reflexivity|]. rewrite <- coll_ids_pub. apply in_map. eapply Permutation_in; [exact O1 | exact I]. }
  eapply (mdo_then J (llen l) 0); [lia | lia | lia | apply create_all_d; [exact ID | eapply Forall_perm; [exact O1 | exact WC] | exact ND' | exact X1 | exact X2]|].
  set (A2 := with_coll A1 _). assert (VA : ver A2 = ver A) by reflexivity.
  eapply (mdo_then J 0 0); [lia | lia | lia | apply updateVersion_d; rewrite ?VA; try lia|].
  - rewrite Et. unfold is_u8, ActionCreateSchema. lia.
  - rewrite Ea. exact W.
  - apply Forall_forall. intros x I. apply in_map_iff in I. destruct I as (c & <- & I). apply (Permutation_in c O2) in I. rewrite Forall_forall in WC. apply (WC c I).
  - rewrite VA, Et, Ea. rewrite vals_pub at 1. rewrite map_map. replace (map (fun x => (di_id d, ci_id (pub_ci x))) (vals (di_colls d))) with (map (fun c => (di_id d, c)) (coll_ids d)) by (unfold coll_ids; rewrite map_map; reflexivity).
    apply mdo_meq with (A' := with_diff (with_ver A2 (ver A + 1)) (zupd (m_diff A2) (ver A + 1) (Some (SD (ver A + 1) ActionCreateSchema (map ci_id l2) (ArgDB d))))); [|apply mdo_ret].
    repeat split. intros i c. unfold created, A2, A1. cbn [with_diff with_ver with_coll with_db m_coll]. unfold zupd. destruct (Z.eqb_spec i (di_id d)) as [->|]; [|reflexivity].
    rewrite (add_all_perm _ l (vals (di_colls (pub_di d))) O1 ND'). rewrite vals_pub. reflexivity.
Qed.

(** * The iteration *)
Lemma head_r A j l : queue A = j :: l -> mgets A (GetDDLJobByIdx J DefaultJobList 0) (jread (Some j)).
Proof.
  intros Q. assert (I0 : is_i64 0) by (unfold is_i64; rewrite two63_val; lia). pose proof (GetDDLJobByIdx_r J JO A DefaultJobList 0 I0) as H. unfold job_at in H. unfold queue in Q. rewrite Q in H.
  unfold position in H. cbn [length] in H. rewrite Nat2Z.inj_succ in H. replace (0 <=? 0) with true in H by lia. replace (0 <? Z.succ (Z.of_nat (length l))) with true in H by lia. exact H.
Qed.
Lemma iter_nojob A o v : queue A = [] -> mdo 0 A (iter_body J o v) (Ok (IOut v true [] (Ok tt))) A.
Proof.
  intros Q. unfold iter_body. replace 0 with (0 + 0) by lia. eapply mdo_try; [lia | lia | | apply mgets_mdo; assert (I0 : is_i64 0) by (unfold is_i64; rewrite two63_val; lia); pose proof (GetDDLJobByIdx_r J JO A DefaultJobList 0 I0) as H; unfold job_at in H; unfold queue in Q; rewrite Q in H; exact H | apply mdo_ret]. discriminate.
Qed.
(** a head job that cannot be read *)
Lemma iter_unreadable A o v j l : queue A = j :: l -> j_err j = true -> mdo 0 A (iter_body J o v) (Ok (IOut v false [] (Err EDecode))) A.
Proof.
  intros Q E. unfold iter_body. pose proof (head_r A j l Q) as H. cbn [jread] in H. rewrite E in H. replace 0 with (0 + 0) by lia.
  eapply mdo_try; [lia | lia | | apply mgets_mdo; exact H | apply mdo_ret]. discriminate.
Qed.
Lemma finish_d A j j0 l : queue A = j0 :: l -> j_err j0 = false -> wf_job j ->
  mdo 1 A (finishJob J j) (Ok tt) (with_hist (with_queue A DefaultJobList l) (zupd (m_hist A) (j_id j) (Some j))).
Proof.
  intros Q E W. unfold finishJob. pose proof (DeQueueDDLJob_d J JO A DefaultJobList) as H. unfold queue in Q. rewrite Q in H. cbn [hd_error jread] in H. rewrite E in H.
  eapply (mdo_then J 0 1); [lia | lia | lia | exact H|]. exact (AddHistoryDDLJob_d J JO (with_queue A DefaultJobList l) j W).
Qed.
Lemma update_d A j j0 l : queue A = j0 :: l -> wf_job j -> mdo 0 A (UpdateDDLJob J DefaultJobList 0 j) (Ok tt) (with_queue A DefaultJobList (j :: l)).
Proof.
  intros Q W. assert (I0 : is_i64 0) by (unfold is_i64; rewrite two63_val; lia). pose proof (UpdateDDLJob_d J A DefaultJobList 0 j I0 W) as H. unfold queue in Q. rewrite Q in H.
  unfold position in H. cbn [length] in H. rewrite Nat2Z.inj_succ in H. replace (0 <=? 0) with true in H by lia. replace (0 <? Z.succ (Z.of_nat (length l))) with true in H by lia. exact H.
Qed.
Lemma ending_d c A v after m A' r : 0 <= c -> r <> Panic -> mdo c A m r A' -> mdo c A (ending v after m) (Ok (IOut v false after r)) A'.
Proof. intros C N H. unfold ending. replace c with (c + 0) by lia. eapply mdo_try; [exact C | lia | exact N | exact H | apply mdo_ret]. Qed.
(** a readable head job that is done *)
Lemma iter_done A o v j l : queue A = j :: l -> j_err j = false -> j_state j = JDone -> wf_job j ->
  mdo 1 A (iter_body J o v) (Ok (IOut v false [] (Ok tt))) (with_hist (with_queue A DefaultJobList l) (zupd (m_hist A) (j_id j) (Some (set_state j JSynced)))).
Proof.
  intros Q E D W. unfold iter_body. pose proof (head_r A j l Q) as H. cbn [jread] in H. rewrite E in H. replace 1 with (0 + 1) by lia.
  eapply mdo_try with (ra := Ok (Some j)); [lia | lia | discriminate | apply mgets_mdo; exact H|]. cbv beta iota. unfold IsDone, IsRollbackDone. rewrite D. cbn [jstate_eqb orb].
  apply ending_d; [lia | discriminate|]. apply (finish_d A (set_state j JSynced) j l Q E). exact W.
Qed.
(** what the rest of the iteration does with runJob's outcome *)
Definition settle (v : wvars) (j : Job) (r : result jout) : Tx iout :=
  let '(j1, v1, after) := match r with Ok x => (jo_job x, WV (jo_fail x) (jo_err x), jo_after x) | _ => (set_state j JCancelling, v, []) end in
  let j2 := if v_err v1 then add_error j1 else j1 in
  ending v1 after
    (if v_err v1 && (v_fail v1 || (3 <=? j_errcount j2)) then finishJob J j2
     else if IsCancelled j2 then finishJob J j2
     else UpdateDDLJob J DefaultJobList 0 j2).
Lemma iter_run A o v j l c1 c2 r A1 x A2 : 0 <= c1 -> 0 <= c2 -> queue A = j :: l -> j_err j = false -> IsDone j || IsRollbackDone j = false ->
  mdo c1 A (runJob J o j) r A1 -> mdo c2 A1 (settle v j r) x A2 -> mdo (c1 + c2) A (iter_body J o v) x A2.
Proof.
  intros C1 C2 Q E D H1 H2. unfold iter_body. pose proof (head_r A j l Q) as H. cbn [jread] in H. rewrite E in H. replace (c1 + c2) with (0 + (c1 + c2)) by lia.
  eapply mdo_try with (ra := Ok (Some j)); [lia | lia | discriminate | apply mgets_mdo; exact H|]. cbv beta iota. rewrite D. eapply mdo_recovering; [exact C1 | exact C2 | exact H1 | exact H2].
Qed.
Lemma caught_ok c A j m x A' : mdo c A m (Ok x) A' -> 0 <= c -> mdo c A (caught j m) (Ok x) A'.
Proof. intros H C. unfold caught. replace c with (c + 0) by lia. eapply mdo_try with (ra := Ok x); [exact C | lia | discriminate | exact H | apply mdo_ret]. Qed.
Lemma caught_err c A j m e A' : mdo c A m (Err e) A' -> 0 <= c -> mdo c A (caught j m) (Ok (JOut j false true [])) A'.
Proof. intros H C. unfold caught. replace c with (c + 0) by lia. eapply mdo_try with (ra := Err e); [exact C | lia | discriminate | exact H | apply mdo_ret]. Qed.
Lemma caught_panic c A j m A' : mdo c A m Panic A' -> mdo c A (caught j m) Panic A'.
Proof. intros H. unfold caught. apply mdo_try_panic. exact H. Qed.

(** create-schema jobs *)
Definition done_job (j : Job) : Job := set_sstate (set_state j JDone) Public.
Definition failed_job (j : Job) : Job := add_error (set_state j JRunning).
Definition runnable (j : Job) : Prop := j_err j = false /\ (j_state j = JNone \/ j_state j = JRunning).
Lemma runnable_not_done j : runnable j -> IsDone j || IsRollbackDone j = false /\ IsFinished j = false.
Proof. intros [_ [H|H]]; unfold IsDone, IsFinished, IsRollbackDone, IsCancelled, IsDone; rewrite H; split; reflexivity. Qed.
Lemma running_of j : runnable j -> match j_state j with JRollingback | JCancelling => j | _ => set_state j JRunning end = set_state j JRunning.
Proof. intros [_ [H|H]]; rewrite H; reflexivity. Qed.
Lemma iter_create A o v j l d : orders_ok o -> queue A = j :: l -> runnable j -> wf_job j -> j_arg j = ArgDB d -> j_type j = ActionCreateSchema ->
  0 <= ver A -> ver A + 1 < two63 -> ~ used_name A (di_name d) -> m_db A (di_id d) = None ->
  (forall c, In c (coll_ids d) -> m_coll A (di_id d) c = None) -> NoDup (coll_ids d) ->
  mdo (1 + llen (vals (di_colls d))) A (iter_body J o v) (Ok (IOut vars0 false (map (fun c => (di_id d, c)) (coll_ids d)) (Ok tt)))
    (with_queue (created A d (map ci_id (o_ids o (vals (di_colls (pub_di d)))))) DefaultJobList (done_job j :: l)).
Proof.
  intros O Q Rn W Ea Et V1 V2 N D C ND. destruct (runnable_not_done j Rn) as [X1 X2]. assert (L0 : 0 <= llen (vals (di_colls d))) by (unfold llen; lia).
  replace (1 + llen (vals (di_colls d))) with ((1 + llen (vals (di_colls d))) + 0) by lia.
  eapply (iter_run A o v j l); [lia | lia | exact Q | apply Rn | exact X1 | |].
  - unfold runJob. rewrite X2, (running_of j Rn), Et. replace (ActionCreateSchema =? ActionCreateSchema) with true by reflexivity.
    apply caught_ok; [|lia]. apply (onCreate_ok A o (set_state j JRunning) d); try assumption. pose proof (proj2 (proj2 (proj2 W))) as Wa. rewrite Ea in Wa. exact Wa.
  - unfold settle. cbn [jo_job jo_fail jo_err jo_after v_err v_fail andb]. apply ending_d; [lia | discriminate|].
    apply (update_d _ (done_job j) j l); [exact Q | exact W].
Qed.
Lemma wf_failed j : wf_job j -> j_errcount j = 0 -> wf_job (failed_job j).
Proof.
  intros (W1 & W2 & W3 & W4) E. split; [exact W1|]. split; [exact W2|]. split; [|exact W4]. cbn [failed_job add_error set_state j_errcount]. rewrite E. apply to_i64_range.
Qed.
Lemma iter_create_used A o v j l d : queue A = j :: l -> runnable j -> wf_job j -> j_errcount j = 0 -> j_arg j = ArgDB d -> j_type j = ActionCreateSchema ->
  used_name A (di_name d) ->
  mdo 0 A (iter_body J o v) (Ok (IOut (WV false true) false [] (Ok tt))) (with_queue A DefaultJobList (failed_job j :: l)).
Proof.
  intros Q Rn W Ec Ea Et N. destruct (runnable_not_done j Rn) as [X1 X2]. replace 0 with (0 + 0) by lia.
  eapply (iter_run A o v j l); [lia | lia | exact Q | apply Rn | exact X1 | |].
  - unfold runJob. rewrite X2, (running_of j Rn), Et. replace (ActionCreateSchema =? ActionCreateSchema) with true by reflexivity.
    apply caught_err with (e := ErrDBAlreadyExists); [|lia]. unfold onCreateSchema. cbn [j_arg set_state]. rewrite Ea. apply mdo_bind_err, mgets_mdo, checkName_used; assumption.
  - unfold settle. cbn [jo_job jo_fail jo_err jo_after v_err v_fail andb orb]. cbn [add_error set_state j_errcount]. rewrite Ec.
    replace (to_i64 (0 + 1)) with 1 by (symmetry; apply to_i64_id; unfold is_i64; rewrite two63_val; lia).
    replace (3 <=? 1) with false by reflexivity. unfold IsCancelled. cbn [j_state jstate_eqb]. apply ending_d; [lia | discriminate|].
    pose proof (update_d A (failed_job j) j l Q (wf_failed j W Ec)) as X. unfold failed_job, add_error, set_state in X. cbn [j_id j_type j_state j_errcount j_arg j_sstate] in X. rewrite Ec in X.
    replace (to_i64 (0 + 1)) with 1 in X by (symmetry; apply to_i64_id; unfold is_i64; rewrite two63_val; lia). unfold failed_job, add_error, set_state. cbn [j_id j_type j_state j_errcount j_arg j_sstate]. rewrite Ec.
    replace (to_i64 (0 + 1)) with 1 by (symmetry; apply to_i64_id; unfold is_i64; rewrite two63_val; lia). exact X.
Qed.

(** ** add-index jobs *)
Definition named (A : mst) (name : bytes) (x : DBInfo) : Prop :=
  m_db A (di_id x) = Some x /\ di_name x = name /\ (forall id y, m_db A id = Some y -> di_name y = name -> y = x).
Lemma getDbInfo_named A name x : named A name x -> mgets A (getDbInfo J name) (Ok (Some x)).
Proof. intros (H1 & H2 & H3). eapply getDbInfo_some; eassumption. Qed.
(** the collection of an index job and the index in it *)
Record idx_job (A : mst) (j : Job) (i : IndexInfo) (rd : IndexInfoRedundant) (x : DBInfo) (c : CollectionInfo) : Prop := {
  ij_type : j_type j = ActionAddIndex;
  ij_arg : j_arg j = ArgIndex i;
  ij_red : ii_red i = Some rd;
  ij_db : named A (ir_db rd) x;
  ij_coll : mget (di_colls x) (ir_collection rd) = Some c
}.
Definition tries (j : Job) : Prop := j_err j = false /\ (j_state j = JNone \/ j_state j = JRunning \/ j_state j = JCancelling).
Lemma tries_not_done j : tries j -> IsDone j || IsRollbackDone j = false /\ IsFinished j = false.
Proof. intros [_ [H|[H|H]]]; unfold IsDone, IsFinished, IsRollbackDone, IsCancelled, IsDone; rewrite H; split; reflexivity. Qed.
Definition started (j : Job) : Job := match j_state j with JRollingback | JCancelling => j | _ => set_state j JRunning end.
Lemma run_index A o j c r A' : tries j -> j_type j = ActionAddIndex -> mdo c A (caught (started j) (onAddIndex J (started j))) r A' -> mdo c A (runJob J o j) r A'.
Proof.
  intros T Et H. unfold runJob. rewrite (proj2 (tries_not_done j T)), Et. replace (ActionAddIndex =? ActionCreateSchema) with false by reflexivity.
  replace (ActionAddIndex =? ActionAddIndex) with true by reflexivity. exact H.
Qed.
Lemma started_same j : j_arg (started j) = j_arg j /\ j_type (started j) = j_type j /\ j_sstate (started j) = j_sstate j /\ j_err (started j) = j_err j /\ j_id (started j) = j_id j /\ j_errcount (started j) = j_errcount j.
Proof. unfold started. destruct (j_state j); repeat split. Qed.
Lemma onAdd_panic A j i rd x c : idx_job A j i rd x c -> j_sstate j = Absent -> ci_indices c = None -> mdo 0 A (onAddIndex J j) Panic A.
Proof.
  intros [_ Ea Er Hn Hc] Es Ei. unfold onAddIndex. rewrite Ea, Er. eapply mdo_get; [lia | apply getDbInfo_named; exact Hn|]. cbv iota. rewrite Hc. cbv zeta. rewrite Es, Ei. cbn [mget].
  unfold AddIndexInfo. rewrite Ei. cbn [mget map_assign lift_r]. apply mdo_bind_panic, mdo_panic.
Qed.
Lemma idx_started A j i rd x c : idx_job A j i rd x c -> idx_job A (started j) i rd x c.
Proof. intros [H1 H2 H3 H4 H5]. destruct (started_same j) as (E1 & E2 & _). split; congruence. Qed.
Lemma iter_index_panic A o v j l i rd x c : v_err v = false -> queue A = j :: l -> tries j -> wf_job j -> idx_job A j i rd x c -> j_sstate j = Absent -> ci_indices c = None ->
  mdo 0 A (iter_body J o v) (Ok (IOut v false [] (Ok tt))) (with_queue A DefaultJobList (set_state j JCancelling :: l)).
Proof.
  intros V Q T W I Es Ei. replace 0 with (0 + 0) by lia.
  eapply (iter_run A o v j l); [lia | lia | exact Q | apply T | apply (proj1 (tries_not_done j T)) | |].
  - apply run_index; [exact T | apply I|]. apply caught_panic. eapply onAdd_panic; [apply idx_started; exact I | rewrite (proj1 (proj2 (proj2 (started_same j)))); exact Es | exact Ei].
  - unfold settle. rewrite V. cbn [andb]. unfold IsCancelled. cbn [set_state j_state jstate_eqb]. apply ending_d; [lia | discriminate|]. apply (update_d A _ j l Q). exact W.
Qed.
(** failing at once: no such database, no such collection, or the index exists *)
Lemma iter_fail_now A o v j l : queue A = j :: l -> tries j -> wf_job j -> j_errcount j = 0 -> j_type j = ActionAddIndex ->
  mdo 0 A (onAddIndex J (started j)) (Ok (JOut (started j) true true [])) A ->
  mdo 1 A (iter_body J o v) (Ok (IOut (WV true true) false [] (Ok tt)))
    (with_hist (with_queue A DefaultJobList l) (zupd (m_hist A) (j_id j) (Some (add_error (started j))))).
Proof.
  intros Q T W Ec Et H. replace 1 with (0 + 1) by lia. eapply (iter_run A o v j l); [lia | lia | exact Q | apply T | apply (proj1 (tries_not_done j T)) | |].
  - apply run_index; [exact T | exact Et|]. apply caught_ok; [exact H | lia].
  - unfold settle. cbn [jo_job jo_fail jo_err jo_after v_err v_fail andb orb]. apply ending_d; [lia | discriminate|].
    destruct (started_same j) as (E1 & E2 & E3 & E4 & E5 & E6).
    pose proof (finish_d A (add_error (started j)) j l Q (proj1 T)) as X. cbn [add_error j_id] in X. rewrite E5 in X. apply X.
    destruct W as (W1 & W2 & W3 & W4). unfold add_error. split; [cbn [j_id]; rewrite E5; exact W1|]. split; [cbn [j_type]; rewrite E2; exact W2|]. split; [cbn [j_errcount]; apply to_i64_range | cbn [j_arg]; rewrite E1; exact W4].
Qed.
Lemma onAdd_no_db A j i rd : j_arg j = ArgIndex i -> ii_red i = Some rd -> ~ used_name A (ir_db rd) -> mdo 0 A (onAddIndex J j) (Ok (JOut j true true [])) A.
Proof. intros Ea Er N. unfold onAddIndex. rewrite Ea, Er. eapply mdo_get; [lia | apply getDbInfo_none; [exact JO | exact N] | apply mdo_ret]. Qed.
Lemma onAdd_no_coll A j i rd x : j_arg j = ArgIndex i -> ii_red i = Some rd -> named A (ir_db rd) x -> mget (di_colls x) (ir_collection rd) = None -> mdo 0 A (onAddIndex J j) (Ok (JOut j true true [])) A.
Proof. intros Ea Er N Hc. unfold onAddIndex. rewrite Ea, Er. eapply mdo_get; [lia | apply getDbInfo_named; exact N|]. cbv iota. rewrite Hc. apply mdo_ret. Qed.
Lemma onAdd_exists A j i rd x c k : idx_job A j i rd x c -> j_sstate j = Absent -> mget (ci_indices c) (ii_name i) = Some k -> mdo 0 A (onAddIndex J j) (Ok (JOut j true true [])) A.
Proof. intros [_ Ea Er Hn Hc] Es Ei. unfold onAddIndex. rewrite Ea, Er. eapply mdo_get; [lia | apply getDbInfo_named; exact Hn|]. cbv iota. rewrite Hc. cbv zeta. rewrite Es, Ei. apply mdo_ret. Qed.

(** ** moving an index forward *)
(** the collection [c] of database [x] replaced by [c'] under its name *)
Definition moved (A : mst) (x : DBInfo) (c' : CollectionInfo) (j : Job) (cid : Z) : mst :=
  with_diff (with_ver (with_db (with_coll A (zupd (m_coll A) (di_id x) (zupd (m_coll A (di_id x)) (ci_id c') (Some c'))))
                               (zupd (m_db A) (di_id x) (Some (set_colls x (option_map (fun m => set m (ci_name c') c') (di_colls x))))))
                      (ver A + 1))
            (zupd (m_diff A) (ver A + 1) (Some (SD (ver A + 1) (j_type j) [cid] (j_arg j)))).
Lemma update_coll_d A j cid x key c c' : 0 <= ver A -> ver A + 1 < two63 -> wf_job j -> is_i64 cid -> m_db A (di_id x) = Some x -> wf_di x -> wf_ci c' ->
  mget (di_colls x) key = Some c -> ci_name c' = key -> exists_coll A (di_id x) (ci_id c') = true ->
  mdo 2 A (updateCollectionAndVersion J j cid x key c') (Ok (ver A + 1)) (moved A x c' j cid).
Proof.
  intros V1 V2 W Wc D Wx Wc' Hc Nk X. unfold updateCollectionAndVersion. destruct (di_colls x) as [m|] eqn:Em; [|discriminate]. cbn [mget] in Hc.
  pose proof (UpdateCollection_d J JO A (di_id x) c' (proj1 Wx) Wc') as H. unfold exists_db in H. rewrite D, X in H.
  replace (if true then if true then @Ok unit tt else Err ErrCollectionNotExists else Err ErrDBNotExists) with (@Ok unit tt) in H by reflexivity.
  eapply (mdo_then J 1 1); [lia | lia | lia | exact H|]. unfold UpdateCollectionInfo. cbn [option_map set_colls di_colls]. rewrite Nk, get_set_eq, set_set.
  set (A1 := with_coll A _). set (x' := set_colls (set_colls x (Some (set m key c'))) (Some (set m key c'))).
  assert (Wx' : wf_di x').
  { destruct Wx as (X1 & X2 & X3 & X4). split; [exact X1|]. split; [exact X2|]. split; [|exact X4]. cbn [x' set_colls di_colls wf_map wf_opt]. intros k a. rewrite get_set. rewrite Em in X3. cbn [wf_map wf_opt] in X3.
    destruct (bytes_eqb k key) eqn:Eb; [|apply X3]. intros Y. injection Y as <-. apply bytes_eqb_eq in Eb. subst k. split; [apply (X3 _ _ Hc) | exact Wc']. }
  pose proof (UpdateDatabase_d J JO A1 x' Wx') as H2. change (di_id x') with (di_id x) in H2. unfold exists_db in H2. replace (m_db A1 (di_id x)) with (Some x) in H2 by (symmetry; exact D).
  eapply (mdo_then J 1 0); [lia | lia | lia | exact H2|]. set (A2 := with_db A1 _).
  eapply mdo_meq; [|apply (updateVersion_d A2 j [cid]); try assumption].
  - unfold moved. rewrite Em. repeat split; intros; cbn; rewrite ?Nk; reflexivity.
  - apply W.
  - apply W.
  - constructor; [exact Wc | constructor].
Qed.
End WithJson.
