(** The transactions of the schema (Meta.v, Ddl.v, Process.v) write metadata keys only. *)
From Verif Require Import Bytes SMap KeyModel Provider ProviderProofs World Numeric KvUtil Struct StructProofs UtilTxn TxPost Sequence SequenceProofs Model Meta Ddl DdlSpec Schema Domain Process Wrote.
From Verif Require DocKeys.

Local Notation W := (wr meta_key).
Lemma k_s key o : meta_key (encodeStringDataKey MetaPrefix key) o. Proof. exact (meta_ek (KS key) o). Qed.
Lemma k_hm key o : meta_key (encodeHashMetaKey MetaPrefix key) o. Proof. exact (meta_ek (KHM key) o). Qed.
Lemma k_hd key f o : meta_key (encodeHashDataKey MetaPrefix key f) o. Proof. exact (meta_ek (KHD key f) o). Qed.
Lemma k_lm key o : meta_key (encodeListMetaKey MetaPrefix key) o. Proof. exact (meta_ek (KLM key) o). Qed.
Lemma k_ld key i o : meta_key (encodeListDataKey MetaPrefix key i) o. Proof. exact (meta_ek (KLD key i) o). Qed.
Ltac wk := first [apply k_s | apply k_hm | apply k_hd | apply k_lm | apply k_ld].
Ltac w1 :=
  match goal with
  | |- wr _ (ret _) => apply wr_ret
  | |- wr _ (fail _) => apply wr_fail
  | |- wr _ gopanic => apply wr_panic
  | |- wr _ (tget _) => apply wr_tget
  | |- wr _ (texists _) => apply wr_texists
  | |- wr _ (tset _ _) => apply wr_tset; wk
  | |- wr _ (tdel _) => apply wr_tdel; wk
  | |- wr _ (bind _ _) => apply wr_bind; [|intros ?]
  | |- wr _ (try _ _) => apply wr_try; [|intros ?]
  | |- wr _ (updateHash _ _ _ _) => apply wr_updateHash
  | |- wr _ (let '(_, _) := ?x in _) => destruct x
  | |- wr _ (match ?x with _ => _ end) => destruct x
  | |- wr _ (if ?x then _ else _) => destruct x
  end.
Ltac w := repeat (w1 || solve [auto]).
Lemma wr_parse v : W (parse_int v). Proof. unfold parse_int. w. Qed.
Lemma wr_GetInt64 k : W (GetInt64 k). Proof. unfold GetInt64. w. apply wr_parse. Qed.
Lemma wr_SInc k n : W (SInc MetaPrefix k n).
Proof. exact (wr_loc_inc (AtString k) n). Qed.
Lemma wr_SSet k v : W (SSet MetaPrefix k v). Proof. unfold SSet. w. Qed.
Lemma wr_HSet k f v : W (HSet MetaPrefix k f v). Proof. unfold HSet. w. Qed.
Lemma wr_HGet k f : W (HGet MetaPrefix k f). Proof. unfold HGet. w. Qed.
Lemma wr_HGetAll k : W (HGetAll MetaPrefix k).
Proof.
  unfold HGetAll, iterateHash, finish. w. apply wr_tscan. intros k0 e Hk s. unfold iter_cb. w. unfold cb_pairs. cbv zeta. w.
Qed.
Lemma wr_loadList k : W (loadListMeta MetaPrefix k). Proof. unfold loadListMeta. w. Qed.
Lemma wr_orEmpty k : W (orEmpty (loadListMeta MetaPrefix k)). Proof. unfold orEmpty. apply wr_try; [apply wr_loadList|]. intros. w. Qed.
Lemma wr_push k lft vs : forall m, W (push_loop MetaPrefix k lft vs m).
Proof. induction vs as [|v vs IH]; intros m; cbn [push_loop]; [w|]. destruct lft; cbv zeta iota beta; (apply wr_bind; [w | intros _; apply IH]). Qed.
Lemma wr_RPush k vs : W (RPush MetaPrefix k vs).
Proof. unfold RPush, listPush. destruct vs; [w|]. apply wr_bind; [apply wr_orEmpty|]. intros m. apply wr_bind; [apply wr_push|]. intros m'. w. Qed.
Lemma wr_LPop k : W (LPop MetaPrefix k).
Proof. unfold LPop, listPop. apply wr_bind; [apply wr_loadList|]. intros m. cbv iota. w. Qed.
Lemma wr_LIndex k i : W (LIndex MetaPrefix k i). Proof. unfold LIndex. apply wr_bind; [apply wr_loadList|]. intros m. cbv zeta. w. Qed.
Lemma wr_LSet k i v : W (LSet MetaPrefix k i v). Proof. unfold LSet. apply wr_bind; [apply wr_loadList|]. intros m. cbv zeta. w. Qed.
Lemma wr_LLen k : W (LLen MetaPrefix k). Proof. unfold LLen. apply wr_try; [apply wr_loadList|]. intros m. w. Qed.
Lemma wr_decode {A} (c : jcodec A) b : W (decode c b). Proof. unfold decode. w. Qed.
Lemma wr_decode_all {A} (c : jcodec A) l : W (decode_all c l).
Proof. induction l as [|b l IH]; cbn [decode_all]; [w|]. apply wr_bind; [apply wr_decode|]. intros a. apply wr_bind; [exact IH|]. intros. w. Qed.
Section WithJson.
Variable J : json.
Lemma wr_ListDatabases : W (ListDatabases J).
Proof. unfold ListDatabases. apply wr_bind; [apply wr_HGetAll|]. intros. apply wr_decode_all. Qed.
Lemma wr_getDb name : W (getDbInfo J name).
Proof. unfold getDbInfo. apply wr_bind; [apply wr_ListDatabases|]. intros. w. Qed.
Lemma wr_noDb name : W (checkDBNameNotExists J name).
Proof. unfold checkDBNameNotExists. apply wr_bind; [apply wr_getDb|]. intros. w. Qed.
Lemma wr_enqueue q j : W (EnQueueDDLJob J q j). Proof. apply wr_RPush. Qed.
Lemma wr_ids n : W (GenGlobalIDs n). Proof. unfold GenGlobalIDs. apply wr_bind; [apply wr_SInc|]. intros. w. Qed.
Lemma wr_lift {A} (r : result A) : W (lift_r r). Proof. unfold lift_r. w. Qed.
Lemma wr_CreateSchemaTx i : W (CreateSchemaTx J i).
Proof.
  unfold CreateSchemaTx. apply wr_bind; [apply wr_LLen|]. intros q. destruct (maxJobsInQueue <? q); [w|]. apply wr_bind; [apply wr_noDb|]. intros x. destruct x; [w|].
  apply wr_bind; [apply wr_ids|]. intros p. cbv zeta. apply wr_bind; [apply wr_lift|]. intros [[m order] next]. apply wr_bind; [apply wr_enqueue|]. intros. w.
Qed.
Lemma wr_AddIndexTx i : W (AddIndexTx J i).
Proof.
  unfold AddIndexTx, checkIndexNameNotExists. apply wr_bind; [apply wr_bind; [apply wr_getDb|]; intros; w|]. intros x. destruct x; [w|].
  apply wr_bind; [apply wr_ids|]. intros p. cbv zeta. apply wr_bind; [apply wr_enqueue|]. intros. w.
Qed.
Lemma wr_optional {A} m (c : jcodec A) : W m -> W (optional m c).
Proof. intros H. unfold optional. apply wr_try; [exact H|]. intros [b|e|]; [|destruct e; w|w]. apply wr_bind; [apply wr_decode|]. intros. w. Qed.
Lemma wr_must m e : W m -> W (must_exist m e). Proof. intros H. unfold must_exist. apply wr_try; [exact H|]. intros. w. Qed.
Lemma wr_must_not m e : W m -> W (must_not_exist m e). Proof. intros H. unfold must_not_exist. apply wr_try; [exact H|]. intros. w. Qed.
Lemma wr_CreateDatabase d : W (CreateDatabase J d).
Proof. unfold CreateDatabase. apply wr_bind; [apply wr_must_not, wr_HGet|]. intros. apply wr_HSet. Qed.
Lemma wr_UpdateDatabase d : W (UpdateDatabase J d).
Proof. unfold UpdateDatabase. apply wr_bind; [apply wr_must, wr_HGet|]. intros. apply wr_HSet. Qed.
Lemma wr_CreateCollection a c : W (CreateCollection J a c).
Proof. unfold CreateCollection. apply wr_bind; [apply wr_must, wr_HGet|]. intros. apply wr_bind; [apply wr_must_not, wr_HGet|]. intros. apply wr_HSet. Qed.
Lemma wr_UpdateCollection a c : W (UpdateCollection J a c).
Proof. unfold UpdateCollection. apply wr_bind; [apply wr_must, wr_HGet|]. intros. apply wr_bind; [apply wr_must, wr_HGet|]. intros. apply wr_HSet. Qed.
Lemma wr_version j ids : W (updateSchemaVersion J j ids).
Proof. unfold updateSchemaVersion, GenSchemaVersion. apply wr_bind; [apply wr_SInc|]. intros. apply wr_bind; [apply wr_SSet|]. intros. w. Qed.
Lemma wr_create_all a l : W (create_all J a l).
Proof. induction l as [|c l IH]; cbn [create_all]; [w|]. apply wr_bind; [apply wr_CreateCollection|]. intros. exact IH. Qed.
Lemma wr_onCreate o j : W (onCreateSchema J o j).
Proof.
  unfold onCreateSchema. destruct (j_arg j) as [d| |]; [|w..]. apply wr_bind; [apply wr_noDb|]. intros x. destruct x; [w|]. cbv zeta. apply wr_bind; [apply wr_CreateDatabase|]. intros.
  apply wr_bind; [apply wr_create_all|]. intros. apply wr_bind; [apply wr_version|]. intros. w.
Qed.
Lemma wr_collver j cid d key c : W (updateCollectionAndVersion J j cid d key c).
Proof.
  unfold updateCollectionAndVersion. apply wr_bind; [apply wr_UpdateCollection|]. intros. destruct (UpdateCollectionInfo _ _); [|w]. apply wr_bind; [apply wr_UpdateDatabase|]. intros. apply wr_version.
Qed.
Lemma wr_onAdd j : W (onAddIndex J j).
Proof.
  unfold onAddIndex. destruct (j_arg j) as [d|i|]; [w| |w]. destruct (ii_red i) as [rd|]; [|w]. apply wr_bind; [apply wr_getDb|]. intros [d|]; [|w]. destruct (mget (di_colls d) (ir_collection rd)) as [c|]; [|w]. cbv zeta.
  assert (M : forall s, W (match mget (ci_indices c) (ii_name i) with
                                | None => gopanic
                                | Some x => match UpdateIndexInfo c (set_istate x s) with
                                            | None => gopanic
                                            | Some c' => updateCollectionAndVersion J j (ir_cid rd) d (ir_collection rd) c' ;;;
                                                         ret (JOut (set_sstate j s) false false [])
                                            end
                                end)).
  { intros s. destruct (mget (ci_indices c) (ii_name i)); [|w]. destruct (UpdateIndexInfo _ _); [|w]. apply wr_bind; [apply wr_collver|]. intros. w. }
  destruct (j_sstate j); try apply M; try (w; fail). destruct (mget (ci_indices c) (ii_name i)); [w|]. apply wr_bind; [apply wr_lift|]. intros [c'|]; [|w]. apply wr_bind; [apply wr_collver|]. intros. w.
Qed.
Lemma wr_caught j m : W m -> W (caught j m). Proof. intros H. unfold caught. apply wr_try; [exact H|]. intros. w. Qed.
Lemma wr_runJob o j : W (runJob J o j).
Proof.
  unfold runJob. destruct (IsFinished j); [w|]. cbv zeta. destruct (j_type j =? ActionCreateSchema); [apply wr_caught, wr_onCreate|]. destruct (j_type j =? ActionAddIndex); [apply wr_caught, wr_onAdd | w].
Qed.
Lemma wr_finish j : W (finishJob J j).
Proof. unfold finishJob. apply wr_bind; [apply wr_optional, wr_LPop|]. intros. apply wr_HSet. Qed.
Lemma wr_ending v l m : W m -> W (ending v l m). Proof. intros H. unfold ending. apply wr_try; [exact H|]. intros. w. Qed.
Lemma wr_recovering {A B} (m : Tx A) (k : result A -> Tx B) : W m -> (forall r, W (k r)) -> W (recovering m k).
Proof. intros H1 H2 t t' r. unfold recovering. destruct (m t) as [t1 r1] eqn:E. intros X. eapply wrote_trans; [eapply H1; exact E | eapply H2; exact X]. Qed.
Lemma wr_UpdateJob q i j : W (UpdateDDLJob J q i j).
Proof. unfold UpdateDDLJob. apply wr_try; [apply wr_LSet|]. intros. w. Qed.
Lemma wr_iter o v : W (iter_body J o v).
Proof.
  unfold iter_body. apply wr_try; [apply wr_optional, wr_LIndex|]. intros [[j|]|e|]; [|w..]. destruct (IsDone j || IsRollbackDone j); [apply wr_ending, wr_finish|].
  apply wr_recovering; [apply wr_runJob|]. intros r. destruct (match r with Ok x => (jo_job x, WV (jo_fail x) (jo_err x), jo_after x) | _ => (set_state j JCancelling, v, []) end) as [[j1 v1] after]. cbv zeta.
  apply wr_ending. match goal with |- wr _ (if ?b then _ else _) => destruct b end; [apply wr_finish|]. match goal with |- wr _ (if ?b then _ else _) => destruct b end; [apply wr_finish | apply wr_UpdateJob].
Qed.

(** * So no other key changes *)
(** clock, values and commit timestamps of the other keys *)
Record keeps_rest (d d' : db) : Prop := {
  kr_now : d_now d' = d_now d;
  kr_kv : forall k, (forall o, ~ meta_key k o) -> get (d_kv d') k = get (d_kv d) k;
  kr_last : forall k, (forall o, ~ meta_key k o) -> get (d_last d') k = get (d_last d) k
}.
Lemma keeps_refl d : keeps_rest d d. Proof. split; reflexivity. Qed.
Lemma keeps_trans a b c : keeps_rest a b -> keeps_rest b c -> keeps_rest a c.
Proof.
  intros H1 H2. split; [rewrite (kr_now _ _ H2); apply (kr_now _ _ H1)| |]; intros k N; [rewrite (kr_kv _ _ H2 k N); apply (kr_kv _ _ H1 k N) | rewrite (kr_last _ _ H2 k N); apply (kr_last _ _ H1 k N)].
Qed.
Lemma get_fold_last (l : list (bytes * option ent)) (ts : nat) k : forall m : smap nat, get (fold_left (fun m p => set m (fst p) ts) l m) k = if existsb (fun p => bytes_eqb k (fst p)) l then Some ts else get m k.
Proof.
  induction l as [|[j o] l IH]; intros m; cbn [fold_left existsb fst]; [reflexivity|]. rewrite IH, get_set. destruct (bytes_eqb k j); cbn [orb]; destruct (existsb _ l); reflexivity.
Qed.
Lemma commit_keeps d t io d' t' r : (forall k o, get (t_pend t) k = Some o -> meta_key k o) -> commit d t io = (d', t', r) -> keeps_rest d d'.
Proof.
  intros H C. unfold commit in C. destruct (negb (t_open t)); [inversion C; subst; apply keeps_refl|]. destruct (entries (t_pend t)) as [|x l] eqn:En; [inversion C; subst; apply keeps_refl|].
  destruct (conflict d t); [inversion C; subst; apply keeps_refl|]. destruct io; [inversion C; subst; apply keeps_refl|]. inversion C. subst.
  assert (NK : forall k, (forall o, ~ meta_key k o) -> get (t_pend t) k = None) by (intros k N; destruct (get (t_pend t) k) as [o|] eqn:G; [destruct (N o (H k o G)) | reflexivity]).
  split; cbn [publish d_now d_kv d_last]; [reflexivity| |]; intros k N.
  - rewrite get_apply_pend, (NK k N). reflexivity.
  - rewrite get_fold_last. destruct (existsb _ _) eqn:X; [|reflexivity]. apply existsb_exists in X. destruct X as ([k1 o] & I1 & Ek). cbn [fst] in Ek. apply bytes_eqb_eq in Ek. subst k1.
    apply get_in in I1. rewrite (NK k N) in I1. discriminate.
Qed.
Lemma wrote_meta d lim t : wrote meta_key (new_txn d true lim) t -> forall k o, get (t_pend t) k = Some o -> meta_key k o.
Proof. intros (_ & G) k o X. destruct (G k) as [Y|(o' & Y & M)]; [rewrite X in Y; cbn [new_txn t_pend] in Y; rewrite get_empty in Y; discriminate | exact M]. Qed.
Lemma update_keeps {A} d0 d (f : Tx A) lim io : W f -> keeps_rest d (fst (run_update d0 d f lim io)).
Proof.
  intros H. destruct (run_update d0 d f lim io) as [d' r] eqn:E. cbn [fst]. destruct (run_update_cases _ _ _ _ _ _ _ E) as [(t & t' & a & _ & F & C)|[_ ->]]; [|apply keeps_refl].
  eapply commit_keeps; [|exact C]. eapply wrote_meta. exact (H _ _ _ F).
Qed.
Lemma renewLease_keeps d0 d1 lim io s n : keeps_rest d1 (fst (fst (renewLease d0 d1 lim io s n))).
Proof.
  unfold renewLease. set (st := if n =? 0 then q_bw s else n). pose proof (update_keeps d0 d1 (loc_inc (q_loc s) st) lim io (wr_loc_inc _ _)) as H.
  destruct (run_update d0 d1 (loc_inc (q_loc s) st) lim io) as [d' [a|e|]]; exact H.
Qed.
Lemma next_keeps d0 d1 lim io s : keeps_rest d1 (fst (fst (q_exec d0 d1 lim io s QNext))).
Proof.
  pose proof (renewLease_keeps d0 d1 lim io s 0) as R. cbn [q_exec]. destruct (q_closed s); [apply keeps_refl|]. unfold q_Next. destruct (rev (q_put s)); [|apply keeps_refl].
  destruct (q_leased s <=? q_next s); [|apply keeps_refl]. destruct (renewLease d0 d1 lim io s 0) as [[d2 s2] [a|e|]]; exact R.
Qed.
Lemma newSeq_keeps d0 d1 lim io L bw : keeps_rest d1 (fst (fst (newSeq d0 d1 lim io L bw))).
Proof.
  unfold newSeq.
  assert (R : keeps_rest d1 (fst (fst (match renewLease d0 d1 lim io (Seq L bw false 0 0 []) 0 with
            | (d, s, Ok _) => (d, Some s, Ok tt)
            | (d, _, r) => (d, None, r)
            end)))).
  { pose proof (renewLease_keeps d0 d1 lim io (Seq L bw false 0 0 []) 0) as H. destruct (renewLease d0 d1 lim io (Seq L bw false 0 0 []) 0) as [[d2 s2] [a|e|]]; exact H. }
  destruct L as [[|b0 k0]|[|b0 k0] [|b1 f0]]; cbn beta iota; try apply keeps_refl; (destruct (bw =? 0); [apply keeps_refl | exact R]).
Qed.
Lemma CreateSchema_keeps d i io : keeps_rest d (fst (CreateSchema J d i io)).
Proof. unfold CreateSchema. destruct (ValidateCreateSchema i); [apply keeps_refl | apply update_keeps, wr_CreateSchemaTx]. Qed.
Lemma AddIndex_keeps d i io : keeps_rest d (fst (AddIndex J d i io)).
Proof. apply update_keeps, wr_AddIndexTx. Qed.
Lemma iteration_keeps o v d io : keeps_rest d (e_db (iteration J o v d io)).
Proof.
  unfold iteration. destruct (iter_body J o v (new_txn d true [])) as [t r] eqn:E. pose proof (wrote_meta _ _ _ (wr_iter o v _ _ _ E)) as G.
  destruct r as [x|e|]; try apply keeps_refl. destruct (i_res x); try apply keeps_refl. destruct (commit d t io) as [[d' t'] r'] eqn:C.
  pose proof (commit_keeps _ _ _ _ _ _ G C) as K. destruct r'; exact K.
Qed.
Lemma CreateSequence_keeps d G a c bw io : keeps_rest d (fst (fst (CreateSequence d G a c bw io))).
Proof.
  unfold CreateSequence. destruct (G c); [apply keeps_refl|]. unfold NewDocIDSequence.
  pose proof (newSeq_keeps d d [] io (did_loc a c) (if bw <=? 0 then defaultDIDBandWidth else bw)) as H. destruct (newSeq _ _ _ _ _ _) as [[d' [s|]] [u|e|]]; exact H.
Qed.
Lemma create_seqs_keeps l : forall d G ios, keeps_rest d (fst (fst (create_seqs d G l ios))).
Proof.
  induction l as [|[a c] l IH]; intros d G ios; cbn [create_seqs]; [apply keeps_refl|]. destruct ios as [|io ios]; [apply keeps_refl|]. pose proof (CreateSequence_keeps d G a c 0 io) as H.
  destruct (CreateSequence d G a c 0 io) as [[d' G'] r]. cbn [fst] in H. destruct r; [eapply keeps_trans; [exact H | apply IH] | exact H..].
Qed.
Lemma domain_Init_keeps d h p G sh ios : keeps_rest d (fst (fst (fst (domain_Init J d h p G sh ios)))).
Proof.
  unfold domain_Init. destruct (reloadSchema J d h p) as [h' r]. destruct r; try apply keeps_refl. unfold ddl_Init. destruct (run_view d (ListDatabases J)) as [l|e|]; try apply keeps_refl.
  pose proof (create_seqs_keeps (seqs_listed sh l) d G ios) as H. destruct (create_seqs d G (seqs_listed sh l) ios) as [[d' G'] r]. exact H.
Qed.
(** every step of a process but another transaction's commit *)
Lemma pstep_keeps p e : match e with POther _ _ => False | _ => True end -> keeps_rest (y_db (p_sys p)) (y_db (p_sys (pstep J p e))).
Proof.
  intros X. destruct e as [sh ios|i io|i io|o sh io|io| |c io|c vs|t io|n| | |o io]; cbn [pstep]; try apply keeps_refl; [| | | | | | | | destruct X | |].
  - destruct (p_up p); [apply keeps_refl|]. pose proof (domain_Init_keeps (y_db (p_sys p)) (p_h p) (p_next p) (p_reg p) sh ios) as H. destruct (domain_Init _ _ _ _ _ _ _) as [[[d h] G] r]. destruct r; exact H.
  - destruct (p_up p); [|apply keeps_refl]. cbn [with_sys p_sys dstep]. pose proof (CreateSchema_keeps (y_db (p_sys p)) i io) as H. destruct (CreateSchema J (y_db (p_sys p)) i io) as [d r]. exact H.
  - destruct (p_up p); [|apply keeps_refl]. cbn [with_sys p_sys dstep]. pose proof (AddIndex_keeps (y_db (p_sys p)) i io) as H. destruct (AddIndex J (y_db (p_sys p)) i io) as [d r]. exact H.
  - destruct (p_up p && idle p); [|apply keeps_refl]. cbv zeta. pose proof (iteration_keeps o (y_vars (p_sys p)) (y_db (p_sys p)) io) as H. destruct (e_res _); exact H.
  - destruct (p_todo p) as [|[a c] l]; [apply keeps_refl|]. pose proof (CreateSequence_keeps (y_db (p_sys p)) (p_reg p) a c 0 io) as H. destruct (CreateSequence _ _ _ _ _ _) as [[d G] r]. destruct r; exact H.
  - destruct (p_todo p); [|apply keeps_refl]. destruct (p_note p); [|apply keeps_refl]. unfold note_step. destruct (reloadSchema _ _ _ _) as [h r]. destruct r; apply keeps_refl.
  - destruct (p_reg p c) as [s|]; [|apply keeps_refl]. pose proof (next_keeps (y_db (p_sys p)) (y_db (p_sys p)) [] io s) as H. destruct (q_exec _ _ _ _ _ _) as [[d s'] r]. exact H.
  - destruct (p_reg p c); apply keeps_refl.
  - destruct (p_up p); [|apply keeps_refl]. destruct (reloadSchema _ _ _ _) as [h r]. destruct r; apply keeps_refl.
  - apply iteration_keeps.
Qed.
End WithJson.
