(** Documents of named collections, end to end, over the life of processes: C84.
    The specification is DocLifeSpec.v; the hypotheses on histories ([lev_ok], [lload], [no_documents]) are at the top of
    DocLifeProofs.v. encoding/json is a parameter J meeting the contract [json_ok] (MetaCodec.v has an instance). *)
From Verif Require Import Bytes SMap Provider ProviderProofs World Memcmp MemcmpProofs Numeric KvUtil KeyModel Struct
  StructProofs UtilTxn TxPost Sequence SequenceProofs Model Meta MetaCodec MetaSpec MetaProofs MetaOps MetaRun Schema DocTxn DocKeys Dml DmlProofs Wrote Ddl DdlSpec DdlProofs DdlWorker DdlSys DdlIndex DdlMore Domain DomainProofs Process ProcessProofs ProcessSpec ProcessIds MetaWrites DocLife DocLifeSpec DocLifeProofs.
From Verif Require P_Schema P_Meta P_Ddl P_Dml.
From Verif Require Import P_Domain P_Process P_ProcessIds.
From Coq Require Import Sorted Permutation.

(** a new store, on which processes run [es] *)
Definition docs_ok (d0 : db) (es : list lev) : Prop := db_ok d0 /\ P_Meta.no_meta d0 /\ no_documents d0 /\ Forall lev_ok es /\ 1000 * lload es < two63.
Definition lives (J : json) (d0 : db) (es : list lev) : proc := fst (lev_run J (pstart d0) es).
Definition answers (J : json) (d0 : db) (es : list lev) : list ans := snd (lev_run J (pstart d0) es).

(** * C84 *)
(** Every answer, in every process, is the one of finite maps kept by name *)
Theorem C84_answers_are_those_of_maps : forall J, json_ok J -> forall d0 es, docs_ok d0 es -> exists s, told J false (pstart d0) nothing es (answers J d0 es) s.
Proof.
  intros J JO d0 es (H1 & H2 & H3 & H4 & H5). destruct (lev_told J JO es 0 (pstart d0) nothing (start_dinv J d0 H1 H2 H3) H4 H5) as (s & To & _). exists s. exact To.
Qed.

(** ** ids given by InsertOne *)
(** UpsertOne and InsertOneManually are only used with ids that are not positive *)
Definition own_ids_op (o : docop) : Prop := match o with OInsert k _ | OUpsert k _ => k <= 0 | _ => True end.
Definition own_ids_stmt (s : stmt) : Prop := match s with SOp _ _ o => own_ids_op o | _ => True end.
Definition own_ids (e : lev) : Prop :=
  match e with
  | LCall (CAuto _ _ o _) => own_ids_op o
  | LCall (CTxn _ ss _) => Forall own_ids_stmt ss
  | _ => True
  end.
Definition given_only (s : nstate) : Prop := forall dbn coll k, zget (fst s dbn coll) k <> None -> k <= 0 \/ In (dbn, coll, k) (snd s).
Lemma zdel_has m k j : zget (zdel m k) j <> None -> zget m j <> None.
Proof.
  induction m as [|[i w] m IH]; cbn [zdel zget]; [auto|]. destruct (k =? i) eqn:E.
  - intros H. destruct (j =? i); [discriminate | exact H].
  - cbn [zget]. destruct (j =? i); [discriminate | exact IH].
Qed.
Lemma zdel_ne m k j : j <> k -> zget (zdel m k) j = zget m j.
Proof.
  intros N. induction m as [|[i w] m IH]; cbn [zdel zget]; [reflexivity|]. destruct (Z.eqb_spec k i) as [->|Nk].
  - replace (j =? i) with false; [reflexivity|]. symmetry. apply Z.eqb_neq. exact N.
  - cbn [zget]. destruct (j =? i); [reflexivity | exact IH].
Qed.
Lemma nupd_case N dbn coll m a b : (a = dbn /\ b = coll /\ nupd N dbn coll m a b = m) \/ nupd N dbn coll m a b = N a b.
Proof. unfold nupd. destruct (bytes_eqb a dbn) eqn:E1; [|right; reflexivity]. destruct (bytes_eqb b coll) eqn:E2; [|right; reflexivity]. apply bytes_eqb_eq in E1. apply bytes_eqb_eq in E2. left. auto. Qed.
Lemma op_adds m o k : own_ids_op o -> zget (snd (doc_spec m o)) k <> None -> k <= 0 \/ zget m k <> None.
Proof.
  intros W H. destruct o; cbn [doc_spec snd] in H; auto; try (destruct (zgetmany m dids); auto); try (left; cbn [own_ids_op] in W; fail).
  - destruct (Dml.has m did) eqn:E; [|auto]. cbn [snd] in H. rewrite zget_zset in H. destruct (Z.eqb_spec k did) as [->|]; [|auto]. right. unfold Dml.has in E. destruct (zget m did); [discriminate | discriminate].
  - cbn [own_ids_op] in W. rewrite zget_zset in H. destruct (Z.eqb_spec k did) as [->|]; auto.
  - cbn [own_ids_op] in W. destruct (Dml.has m did); cbn [snd] in H; [auto|]. rewrite zget_zset in H. destruct (Z.eqb_spec k did) as [->|]; auto.
  - right. eapply zdel_has. exact H.
Qed.
Lemma given_nop shown N I dbn coll o : own_ids_op o -> given_only (N, I) -> given_only (snd (nop shown N dbn coll o), I).
Proof.
  intros W G. unfold nop. destruct (shown dbn coll); [|exact G]. destruct (doc_spec (N dbn coll) o) as [r m] eqn:E. cbn [snd]. intros a b k H. cbn [fst snd] in *.
  destruct (nupd_case N dbn coll m a b) as [(-> & -> & X)|X]; rewrite X in H; [|exact (G a b k H)]. destruct (op_adds (N dbn coll) o k W) as [Y|Y]; [rewrite E; exact H | auto | exact (G dbn coll k Y)].
Qed.
Section Given.
Variable shown : bytes -> bytes -> bool.
Lemma given_stmt s x r s1 : own_ids_stmt x -> given_only s -> nstmt shown false s x r s1 -> nstmt shown true s x r s1 /\ given_only s1 /\ forall y, In y (snd s) -> In y (snd s1).
Proof.
  intros W G X. destruct X as [N I dbn coll o|N I dbn coll data sio did H1 H2 H3 _|N I dbn coll data e H|N I dbn coll data sio H].
  - split; [constructor|]. split; [apply given_nop; assumption | auto].
  - split; [constructor; try assumption; intros _; destruct (zget (N dbn coll) did) eqn:E; [|reflexivity]; exfalso; destruct (G dbn coll did) as [Y|Y]; [cbn [fst]; rewrite E; discriminate | lia | exact (H3 Y)]|].
    split; [|intros y Y; cbn [snd] in *; apply in_or_app; left; exact Y]. intros a b k H. cbn [fst snd] in *. destruct (nupd_case N dbn coll (zset (N dbn coll) did data) a b) as [(-> & -> & Q)|Q]; rewrite Q in H.
    + rewrite zget_zset in H. destruct (Z.eqb_spec k did) as [Ek|Nk]; [rewrite Ek; right; apply in_or_app; right; left; reflexivity|]. destruct (G dbn coll k H) as [Y|Y]; [auto | right; apply in_or_app; left; exact Y].
    + destruct (G a b k H) as [Y|Y]; [auto | right; apply in_or_app; left; exact Y].
  - split; [constructor; assumption | auto].
  - split; [constructor; assumption | auto].
Qed.
Lemma given_stmts s ss rs s1 : Forall own_ids_stmt ss -> given_only s -> nstmts shown false s ss rs s1 -> nstmts shown true s ss rs s1 /\ given_only s1 /\ forall y, In y (snd s) -> In y (snd s1).
Proof.
  intros W G X. revert W G. induction X as [s|s x r s1 xs rs s2 H1 H2 IH]; intros W G; [split; [constructor | auto]|]. inversion W as [|? ? Wx Wxs]; subst. destruct (given_stmt _ _ _ _ Wx G H1) as (A1 & A2 & A3).
  destruct (IH Wxs A2) as (B1 & B2 & B3). split; [econstructor; eassumption | auto].
Qed.
Lemma given_call s c a s1 : own_ids (LCall c) -> given_only s -> ncall shown false s c a s1 -> ncall shown true s c a s1 /\ given_only s1.
Proof.
  intros W G X. destruct X as [N I dbn coll o io|N I dbn coll o v e H1 H2|s dbn coll data sio io did r s1 H|s dbn coll data sio did s1 e H|s upd ss rs s1 H|s upd ss rs s1 io H|s upd ss rs s1 e H]; cbn [own_ids] in W.
  - split; [constructor | apply given_nop; assumption].
  - split; [econstructor; eassumption | exact G].
  - destruct (given_stmt s (SInsert dbn coll data sio) _ _ Logic.I G H) as (A1 & A2 & _). split; [constructor; exact A1 | exact A2].
  - destruct (given_stmt s (SInsert dbn coll data sio) _ _ Logic.I G H) as (A1 & _ & _). split; [econstructor; exact A1 | exact G].
  - destruct (given_stmts _ _ _ _ W G H) as (A1 & _ & A3). split; [constructor; exact A1|]. intros a b k Q. cbn [fst snd] in *. destruct (G a b k Q); auto.
  - destruct (given_stmts _ _ _ _ W G H) as (A1 & A2 & _). split; [constructor; exact A1 | exact A2].
  - destruct (given_stmts _ _ _ _ W G H) as (A1 & _ & _). split; [econstructor; exact A1 | exact G].
Qed.
End Given.
Lemma given_told J es : forall p s l s', Forall own_ids es -> given_only s -> told J false p s es l s' -> told J true p s es l s'.
Proof.
  induction es as [|e es IH]; intros p s l s' W G To; destruct l as [|a l]; cbn [told] in *; try exact To. destruct To as (s1 & s2 & Sm & St & To). inversion W as [|? ? We Ws]; subst.
  assert (G1 : given_only s1) by (destruct Sm as [E1 E2]; intros x y k H; rewrite <- E2; rewrite <- E1 in H; exact (G x y k H)). exists s1, s2. split; [exact Sm|].
  destruct e as [e|c].
  - split; [exact St|]. destruct St as [_ ->]. exact (IH _ _ _ _ Ws G1 To).
  - destruct (p_up p); [|split; [exact St|]; destruct St as [_ ->]; exact (IH _ _ _ _ Ws G1 To)]. destruct (given_call _ _ _ _ _ We G1 St) as (A1 & A2). split; [exact A1 | exact (IH _ _ _ _ Ws A2 To)].
Qed.
(** If the caller chooses no positive ids, InsertOne never overwrites a document *)
Theorem C84_insert_destroys_nothing : forall J, json_ok J -> forall d0 es, docs_ok d0 es -> Forall own_ids es -> exists s, told J true (pstart d0) nothing es (answers J d0 es) s.
Proof.
  intros J JO d0 es H W. destruct (C84_answers_are_those_of_maps J JO d0 es H) as (s & To). exists s. apply given_told; [exact W | | exact To]. intros dbn coll k X. cbn [nothing fst zget] in X. congruence.
Qed.

(** ** durability *)
Lemma run_app J es : forall p es', fst (lev_run J p (es ++ es')) = fst (lev_run J (fst (lev_run J p es)) es').
Proof.
  induction es as [|e es IH]; intros p es'; [reflexivity|]. cbn [app lev_run]. destruct (lev_step J p e) as [p1 a]. specialize (IH p1 es'). destruct (lev_run J p1 (es ++ es')), (lev_run J p1 es). exact IH.
Qed.
Lemma lload_app es es' : lload (es ++ es') = lload es + lload es'.
Proof. induction es as [|e es IH]; cbn [app lload fold_right]; [reflexivity|]. fold (lload es) (lload (es ++ es')). lia. Qed.
(** a collection that was visible once is visible in every later process whose Init succeeded *)
Theorem C84_visible_stays_visible : forall J, json_ok J -> forall d0 es es', docs_ok d0 (es ++ es') -> p_up (lives J d0 (es ++ es')) = true ->
  forall dbn coll, sees (lives J d0 es) dbn coll = true -> sees (lives J d0 (es ++ es')) dbn coll = true.
Proof.
  intros J JO d0 es es' (H1 & H2 & _ & H4 & H5) U dbn coll. unfold lives in *. rewrite run_app in *. apply Forall_app in H4. destruct H4 as [F1 F2]. rewrite lload_app in H5. pose proof (lload_pos es) as P1. pose proof (lload_pos es') as P2.
  destruct (run_moves J es (pstart d0) F1) as (a & Ea & A1 & A2 & A3). destruct (run_moves J es' (fst (lev_run J (pstart d0) es)) F2) as (b & Eb & B1 & B2 & B3). rewrite Eb in U |- *. rewrite Ea in U |- *.
  assert (LO : life_ok d0 (a ++ b)) by (split; [exact H1|]; split; [exact H2|]; split; [apply Forall_app; auto|]; split; [apply Forall_app; auto | rewrite pload_app; lia]).
  rewrite !sees_iff. rewrite <- prun_app in U |- *. pose proof (C82_visible_stays_visible J JO d0 a b LO U dbn coll) as V. unfold life in V. destruct (visible (prun J (pstart d0) a) dbn coll) as [ci|]; [|discriminate].
  destruct (V ci eq_refl) as (ci' & -> & _). reflexivity.
Qed.
(** the calls that can change or remove document [did] of a collection *)
Definition names_doc (dbn coll : bytes) (did : Z) (a b : bytes) (o : docop) : Prop :=
  a = dbn /\ b = coll /\ match o with OUpdate k _ | OUpsert k _ | ODelete k => k = did | ODeleteAll => True | _ => False end.
Definition spares (dbn coll : bytes) (did : Z) (e : lev) : Prop :=
  match e with
  | LCall (CAuto a b o _) => ~ names_doc dbn coll did a b o
  | LCall (CTxn _ ss _) => Forall (fun s => match s with SOp a b o => ~ names_doc dbn coll did a b o | _ => True end) ss
  | _ => True
  end.
Section Stays.
Variables (dbn coll : bytes) (did : Z) (data : bytes).
Definition there (s : nstate) : Prop := zget (fst s dbn coll) did = Some data /\ In (dbn, coll, did) (snd s).
Lemma stays_op shown N a b o : ~ names_doc dbn coll did a b o -> zget (N dbn coll) did = Some data -> zget (snd (nop shown N a b o) dbn coll) did = Some data.
Proof.
  intros W H. unfold nop. destruct (shown a b); [|exact H]. destruct (doc_spec (N a b) o) as [r m] eqn:E. cbn [snd].
  destruct (nupd_case N a b m dbn coll) as [(Ea & Eb & X)|X]; rewrite X; [|exact H]. subst a b. clear X.
  assert (W' : ~ match o with OUpdate k _ | OUpsert k _ | ODelete k => k = did | ODeleteAll => True | _ => False end) by (intros Q; apply W; split; [reflexivity|]; split; [reflexivity | exact Q]). clear W.
  destruct o; cbn [doc_spec] in E; try (assert (m = N dbn coll) by congruence; subst m; exact H); try (exfalso; apply W'; exact Logic.I).
  - assert (Em : m = if Dml.has (N dbn coll) did0 then zset (N dbn coll) did0 data0 else N dbn coll) by congruence. subst m. destruct (Dml.has (N dbn coll) did0); [|exact H]. rewrite zget_zset. destruct (Z.eqb_spec did did0); [congruence | exact H].
  - assert (Em : m = zset (N dbn coll) did0 data0) by congruence. subst m. rewrite zget_zset. destruct (Z.eqb_spec did did0); [congruence | exact H].
  - destruct (Dml.has (N dbn coll) did0) eqn:Hs; [assert (m = N dbn coll) by congruence; subst m; exact H|]. assert (Em : m = zset (N dbn coll) did0 data0) by congruence. subst m. rewrite zget_zset. destruct (Z.eqb_spec did did0) as [->|]; [|exact H].
    unfold Dml.has in Hs. rewrite H in Hs. discriminate.
  - assert (Em : m = zdel (N dbn coll) did0) by congruence. subst m. rewrite zdel_ne by congruence. exact H.
Qed.
Lemma stays_stmt shown s x r s1 : match x with SOp a b o => ~ names_doc dbn coll did a b o | _ => True end -> there s -> nstmt shown false s x r s1 -> there s1.
Proof.
  intros W [H1 H2] X. destruct X as [N I a b o|N I a b v sio k Q1 Q2 Q3 _|N I a b v e H|N I a b v sio H]; [split; [apply stays_op; assumption | exact H2] | | split; assumption | split; assumption].
  cbn [fst snd] in *. split; [|cbn [snd]; apply in_or_app; left; exact H2]. cbn [fst]. destruct (nupd_case N a b (zset (N a b) k v) dbn coll) as [(Ea & Eb & Q)|Q]; rewrite Q; [|exact H1]. subst a b. rewrite zget_zset.
  destruct (Z.eqb_spec did k) as [->|]; [contradiction | exact H1].
Qed.
Lemma stays_stmts shown s ss rs s1 : Forall (fun x => match x with SOp a b o => ~ names_doc dbn coll did a b o | _ => True end) ss -> there s -> nstmts shown false s ss rs s1 -> there s1.
Proof. intros W T X. revert W T. induction X as [s|s x r s1 xs rs s2 H1 H2 IH]; intros W T; [exact T|]. inversion W as [|? ? Wx Wxs]; subst. apply IH; [exact Wxs|]. eapply stays_stmt; [exact Wx | exact T | exact H1]. Qed.
Lemma stays_call shown s c a s1 : spares dbn coll did (LCall c) -> there s -> ncall shown false s c a s1 -> there s1.
Proof.
  intros W T X. destruct X as [N I x y o io|N I x y o v e H1 H2|s x y v sio io k r s1 H|s x y v sio k s1 e H|s upd ss rs s1 H|s upd ss rs s1 io H|s upd ss rs s1 e H]; cbn [spares] in W; try exact T.
  - destruct T as [T1 T2]. split; [apply stays_op; assumption | exact T2].
  - eapply (stays_stmt shown s (SInsert x y v sio)); [exact Logic.I | exact T | exact H].
  - pose proof (stays_stmts _ _ _ _ _ W T H) as T1. split; [exact (proj1 T) | exact (proj2 T1)].
  - eapply stays_stmts; eassumption.
Qed.
Lemma stays_told J es : forall p s l s', Forall (spares dbn coll did) es -> there s -> told J false p s es l s' -> there s'.
Proof.
  assert (SM : forall s s', nsame s s' -> there s -> there s') by (intros s s' [E1 E2] [T1 T2]; split; [rewrite <- E1 | rewrite <- E2]; assumption).
  induction es as [|e es IH]; intros p s l s' W T To; destruct l as [|a l]; cbn [told] in *; try contradiction; [exact (SM _ _ To T)|]. destruct To as (s1 & s2 & Sm & St & To). inversion W as [|? ? We Ws]; subst. pose proof (SM _ _ Sm T) as T1.
  refine (IH _ _ _ _ Ws _ To). destruct e as [e|c]; [destruct St as [_ ->]; exact T1|]. destruct (p_up p); [eapply stays_call; eassumption | destruct St as [_ ->]; exact T1].
Qed.
End Stays.
(** A document whose InsertOne succeeded is returned by GetOne of its id, in this process and in all later ones whose Init
    succeeded, as long as no call names that id to write it or removes all documents of the collection *)
Theorem C84_inserted_document_stays : forall J, json_ok J -> forall d0 es dbn coll data sio io did es', docs_ok d0 (es ++ LCall (CInsert dbn coll data sio io) :: es') ->
  snd (do_call (lives J d0 es) (CInsert dbn coll data sio io)) = NInsert did (Ok tt) -> did <> 0 -> Forall (spares dbn coll did) es' ->
  let p := lives J d0 (es ++ LCall (CInsert dbn coll data sio io) :: es') in p_up p = true ->
  forall io', snd (do_call p (CAuto dbn coll (OGet did) io')) = NAuto (Ok (VDoc data)).
Proof.
  intros J JO d0 es dbn coll data sio io did es' OK An Nz Sp p U io'. assert (OK' := OK). destruct OK' as (H1 & H2 & H3 & H4 & H5). apply Forall_app in H4. destruct H4 as [F1 F2]. inversion F2 as [|? ? Fc F3]; subst.
  rewrite lload_app in H5. cbn [lload fold_right] in H5. fold (lload es') in H5. cbn [lweight] in H5. pose proof (lload_pos es) as P1. pose proof (lload_pos es') as P2.
  assert (L1 : 1000 * (0 + lload es) < two63) by lia. destruct (lev_told J JO es 0 (pstart d0) nothing (start_dinv J d0 H1 H2 H3) F1 L1) as (s1 & _ & D1). fold (lives J d0 es) in D1. set (p1 := lives J d0 es) in *.
  assert (L2 : 1000 * (0 + lload es + lweight (LCall (CInsert dbn coll data sio io))) < two63) by (cbn [lweight]; lia).
  destruct (lev_dinv J JO _ p1 s1 _ D1 Fc L2) as (s2 & D2 & St). cbn [lev_step] in D2, St. assert (U1 : p_up p1 = true) by (destruct (p_up p1) eqn:X; [reflexivity|]; exfalso; unfold do_call in An; rewrite X in An; discriminate).
  rewrite U1, An in St. set (p2 := fst (do_call p1 (CInsert dbn coll data sio io))) in *.
  assert (T2 : there dbn coll did data s2 /\ sees p1 dbn coll = true).
  { inversion St as [| |? ? ? ? ? ? ? ? ? H| | | |]; subst. inversion H; subst; [|congruence]. split; [|assumption]. split; cbn [fst snd]; [rewrite nupd_eq, zget_zset, Z.eqb_refl; reflexivity | apply in_or_app; right; left; reflexivity]. }
  destruct T2 as [T2 Se]. assert (L3 : 1000 * (0 + lload es + lweight (LCall (CInsert dbn coll data sio io)) + lload es') < two63) by (cbn [lweight]; lia).
  destruct (lev_told J JO es' _ p2 s2 D2 F3 L3) as (s3 & To & D3). pose proof (stays_told _ _ _ _ _ _ _ _ _ _ Sp T2 To) as T3.
  assert (Ep : fst (lev_run J p2 es') = p).
  { unfold p, lives. rewrite run_app. fold (lives J d0 es). fold p1. cbn [lev_run lev_step]. unfold p2. destruct (do_call p1 (CInsert dbn coll data sio io)) as [q a]. cbn [fst]. destruct (lev_run J q es'). reflexivity. }
  rewrite Ep in D3. pose proof (C84_visible_stays_visible J JO d0 es _ OK U dbn coll Se) as Se'. fold p in Se'. destruct s3 as [N I].
  assert (L4 : 1000 * (0 + lload es + lweight (LCall (CInsert dbn coll data sio io)) + lload es') < two63) by exact L3.
  destruct (auto_dinv J JO _ p N I dbn coll (OGet did) io' D3 U L4) as (p4 & a & s4 & E & NC & _).
  { split; [|discriminate]. cbn [op_ids]. destruct D2 as (DD & R & st & A & held & Dm & V & LI & _ & _ & Id). destruct (Id dbn coll did (proj2 T2)) as (k & K & X). destruct (li_held _ _ _ _ _ LI _ _ X) as (a & Xa & B).
    assert (LT : 0 + lload es + lweight (LCall (CInsert dbn coll data sio io)) < two63) by (cbn [lweight]; lia). pose proof (applied_range J _ _ _ _ _ _ _ _ (pv_s _ _ _ _ _ _ _ V) LT Xa) as [Wa Wc]. pose proof (li_ctr _ _ _ _ _ LI a (ci_id k) Wa Wc).
    constructor; [|constructor]. unfold is_i64. rewrite two63_val in *. lia. }
  rewrite E. cbn [snd]. inversion NC as [|? ? ? ? ? ? ? ? W| | | | |]; subst; [|discriminate]. unfold nop. rewrite Se'. cbn [doc_spec fst]. destruct T3 as [T3 _]. cbn [fst] in T3. rewrite T3. reflexivity.
Qed.

(** * Non-vacuity *)
Definition q1 : list lev := map LProc [PInit same []; PCreate two false; work; work; PSeq false; PSeq false; PNote].
Definition us : bytes := str "users".
Definition sh : bytes := str "shop".
(** inserts, a failed commit, a failed lease, a transaction, a crash, a restart, a discarded transaction *)
Definition q2 : list lev :=
  [ LCall (CInsert sh us (str "a") false false); LCall (CInsert sh us (str "b") false true); LCall (CInsert sh us (str "c") false false);
    LCall (CTxn true [SInsert sh us (str "d") false; SOp sh us (OUpdate 1 (str "A")); SOp sh us OGetAll] (Some false));
    LCall (CInsert sh (str "nobody") (str "x") false false);
    LProc PCrash; LCall (CAuto sh us OCount false); LProc (PInit same [false; false]);
    LCall (CAuto sh us OGetAll false); LCall (CTxn true [SInsert sh us (str "e") false; SOp sh us (ODelete 1)] None); LCall (CTxn true [SInsert sh us (str "f") false; SOp sh us (ODelete 1)] (Some true));
    LCall (CAuto sh us (OGet 1) false); LCall (CAuto sh us (OUpsert (-5) (str "z")) false); LCall (CAuto sh us OGetAll false); LCall (CTxn false [SOp sh us OCount] (Some true)) ].
Lemma q_ok : docs_ok P_Ddl.d00 (q1 ++ q2).
Proof.
  split; [apply db_ok_init|]. split; [exact P_Meta.no_meta_init|]. split; [intros c k _ _; reflexivity|]. split; [|vm_compute; reflexivity].
  assert (Sm : forall X (l : list X), Permutation (same l) l) by (intros X l; apply Permutation_refl).
  assert (I64 : forall z, -1000 <= z <= 1000 -> is_i64 z) by (intros z H; unfold is_i64; rewrite two63_val; lia).
  apply Forall_app. split.
  - unfold q1, work. cbn [map]. repeat (apply Forall_cons || apply Forall_nil); cbn [lev_ok single]; (split; [|split; exact Logic.I]); cbn [pev_ok]; try exact Logic.I; try (apply P_Ddl.bare_ok; reflexivity); try (exact (Sm _)); try (split; [exact P_Ddl.ident_ok | exact (Sm _)]).
  - unfold q2. repeat (apply Forall_cons || apply Forall_nil); cbn [lev_ok call_ok single pev_ok]; try exact Logic.I; try (split; [first [exact Logic.I | exact (Sm _)] | split; exact Logic.I]).
    all: try (split; [repeat (apply Forall_cons || apply Forall_nil); apply I64; lia | discriminate]).
    all: repeat (apply Forall_cons || apply Forall_nil); cbn [stmt_ok]; try reflexivity; (split; [repeat (apply Forall_cons || apply Forall_nil); apply I64; lia | split; [discriminate | try reflexivity; discriminate]]).
Qed.
Example C84_nonvacuous : json_ok demo_json /\ docs_ok P_Ddl.d00 (q1 ++ q2) /\ Forall own_ids (q1 ++ q2) /\
  skipn 7 (answers demo_json P_Ddl.d00 (q1 ++ q2)) =
  [ NInsert 1 (Ok tt); NInsert 2 (Err EIO); NInsert 2 (Ok tt); NTxn [RInsert 3 (Ok tt); ROp (Ok (VBool true)); ROp (Ok (VDocs [str "A"; str "c"; str "d"] None))] (Ok tt);
    NInsert 0 (Ok tt); NNone; NNone; NNone; NAuto (Ok (VDocs [str "A"; str "c"; str "d"] None)); NTxn [RInsert 1001 (Ok tt); ROp (Ok VUnit)] (Ok tt); NTxn [RInsert 1002 (Ok tt); ROp (Ok VUnit)] (Err EIO);
    NAuto (Ok (VDoc (str "A"))); NAuto (Ok (VBool true)); NAuto (Ok (VDocs [str "z"; str "A"; str "c"; str "d"] None)); NTxn [ROp (Ok (VNum 4))] (Ok tt) ].
Proof.
  split; [exact demo_json_ok|]. split; [exact q_ok|]. split.
  - unfold q1, q2, work. cbn [map app]. repeat (apply Forall_cons || apply Forall_nil); cbn [own_ids own_ids_op]; try exact Logic.I; try lia; repeat (apply Forall_cons || apply Forall_nil); exact Logic.I.
  - vm_compute. reflexivity.
Qed.
(** the document with id 2, inserted before the crash *)
Example C84_stays_nonvacuous : q1 ++ q2 = (q1 ++ firstn 2 q2) ++ LCall (CInsert sh us (str "c") false false) :: skipn 3 q2 /\
  snd (do_call (lives demo_json P_Ddl.d00 (q1 ++ firstn 2 q2)) (CInsert sh us (str "c") false false)) = NInsert 2 (Ok tt) /\ Forall (spares sh us 2) (skipn 3 q2) /\ p_up (lives demo_json P_Ddl.d00 (q1 ++ q2)) = true /\
  sees (lives demo_json P_Ddl.d00 q1) sh us = true.
Proof.
  split; [reflexivity|]. split; [vm_compute; reflexivity|]. split; [|split; vm_compute; reflexivity].
  unfold q2. cbn [skipn]. assert (N : forall a b o, match o with OUpdate k _ | OUpsert k _ | ODelete k => k <> 2 | ODeleteAll => False | _ => True end -> ~ names_doc sh us 2 a b o) by (intros a b o H (_ & _ & X); destruct o; contradiction).
  repeat (apply Forall_cons || apply Forall_nil); cbn [spares]; try exact Logic.I; try (apply N; exact Logic.I || lia); repeat (apply Forall_cons || apply Forall_nil); try exact Logic.I; apply N; exact Logic.I || lia.
Qed.
(** the restriction of [C84_insert_destroys_nothing] is needed: UpsertOne with the id that InsertOne takes next *)
Example C84_chosen_id_is_overwritten : let es := q1 ++ [LCall (CAuto sh us (OUpsert 1 (str "mine")) false); LCall (CInsert sh us (str "new") false false); LCall (CAuto sh us OGetAll false)] in
  docs_ok P_Ddl.d00 es /\ skipn 7 (answers demo_json P_Ddl.d00 es) = [NAuto (Ok (VBool true)); NInsert 1 (Ok tt); NAuto (Ok (VDocs [str "new"] None))].
Proof.
  cbv zeta. set (es := q1 ++ _). assert (OK : docs_ok P_Ddl.d00 es).
  { destruct q_ok as (H1 & H2 & H3 & H4 & _). split; [exact H1|]. split; [exact H2|]. split; [exact H3|]. split; [|vm_compute; reflexivity]. apply Forall_app in H4. apply Forall_app. split; [apply H4|].
    repeat (apply Forall_cons || apply Forall_nil); cbn [lev_ok call_ok]; try exact Logic.I; (split; [|discriminate]); repeat (apply Forall_cons || apply Forall_nil). unfold is_i64. rewrite two63_val. lia. }
  split; [exact OK | vm_compute; reflexivity].
Qed.
Print Assumptions C84_answers_are_those_of_maps.
Print Assumptions C84_insert_destroys_nothing.
Print Assumptions C84_visible_stays_visible.
Print Assumptions C84_inserted_document_stays.
