(** Names and ids over the life of processes: C82, C83.
    encoding/json is a parameter J meeting the contract [json_ok] (MetaCodec.v has an instance). *)
From Verif Require Import Bytes SMap Provider ProviderProofs World Memcmp MemcmpProofs Numeric KvUtil KeyModel Struct
  StructProofs StructHash StructList UtilTxn Sequence SequenceProofs Model Meta MetaCodec MetaSpec MetaProofs MetaOps MetaRun Schema Ddl DdlSpec DdlProofs DdlWorker DdlSys DdlIndex DdlMore Domain DomainProofs Process ProcessProofs ProcessSpec ProcessIds.
From Verif Require P_Schema P_Meta P_Ddl.
From Verif Require Import P_Domain P_Process.
From Coq Require Import Sorted Permutation.

Lemma life_pre d0 es es' : life_ok d0 (es ++ es') -> life_ok d0 es /\ Forall pev_ok es' /\ Forall single es' /\ pload es + pload es' < two63.
Proof.
  intros (H1 & H2 & H3 & H4 & H5). apply Forall_app in H3. apply Forall_app in H4. rewrite pload_app in H5. pose proof (pload_nonneg es'). destruct H3, H4.
  split; [repeat split; try assumption; lia|]. auto.
Qed.
Lemma life_two J (JO : json_ok J) d0 es es' : life_ok d0 (es ++ es') -> let p := life J d0 es in let p' := life J d0 (es ++ es') in
  exists D R st A D' R' st' A' l, pinv J (pload es) p D R st A /\ pinv J (pload (es ++ es')) p' D' R' st' A' /\ applied D' R' st' = applied D R st ++ l.
Proof.
  intros H p p'. destruct (life_pre _ _ _ H) as ((H1 & H2 & H3 & H4 & H5) & F & Sg & L). destruct (hist_pinv J JO d0 es H1 H2 H3 H4 H5) as (D & R & st & A & V).
  destruct (prun_pinv J JO es' (pload es) p D R st A V F Sg L) as (D' & R' & st' & A' & V' & l & E). exists D, R, st, A, D', R', st', A', l.
  split; [exact V|]. split; [|exact E]. unfold p', life. rewrite prun_app, pload_app. exact V'.
Qed.
Lemma seen_lookup J T p D R st A dbn coll ci : pinv J T p D R st A -> visible p dbn coll = Some ci -> exists k, lookup (applied D R st) dbn coll = Some k /\ ci_id ci = ci_id k.
Proof.
  intros V H. destruct (seen_prefix _ _ _ _ _ (pv_cinv _ _ _ _ _ _ _ V) H) as (L0 & L1 & k & E & _ & K & Ei). exists k. split; [|exact Ei]. rewrite E. apply lookup_more. exact K.
Qed.

(** * C82 *)
(** In every process, now and later, a collection's name stands for the same collection id *)
Theorem C82_a_name_keeps_its_id : forall J, json_ok J -> forall d0 es es', life_ok d0 (es ++ es') -> let p := life J d0 es in let p' := life J d0 (es ++ es') in
  forall dbn coll ci ci', visible p dbn coll = Some ci -> visible p' dbn coll = Some ci' -> ci_id ci' = ci_id ci.
Proof.
  intros J JO d0 es es' H p p' dbn coll ci ci' Vi Vi'. destruct (life_two J JO d0 es es' H) as (D & R & st & A & D' & R' & st' & A' & l & V & V' & E).
  destruct (seen_lookup _ _ _ _ _ _ _ _ _ _ V Vi) as (k & K & Ei). destruct (seen_lookup _ _ _ _ _ _ _ _ _ _ V' Vi') as (k' & K' & Ei'). apply (lookup_more _ l) in K. rewrite <- E in K. congruence.
Qed.
(** and no two names ever stand for the same id *)
Theorem C82_an_id_has_one_name : forall J, json_ok J -> forall d0 es es', life_ok d0 (es ++ es') -> let p := life J d0 es in let p' := life J d0 (es ++ es') in
  forall dbn coll ci dbn' coll' ci', visible p dbn coll = Some ci -> visible p' dbn' coll' = Some ci' -> ci_id ci' = ci_id ci -> dbn' = dbn /\ coll' = coll.
Proof.
  intros J JO d0 es es' H p p' dbn coll ci dbn' coll' ci' Vi Vi' Eid. destruct (life_two J JO d0 es es' H) as (D & R & st & A & D' & R' & st' & A' & l & V & V' & E).
  destruct (seen_lookup _ _ _ _ _ _ _ _ _ _ V Vi) as (k & K & Ei). destruct (seen_lookup _ _ _ _ _ _ _ _ _ _ V' Vi') as (k' & K' & Ei'). apply (lookup_more _ l) in K. rewrite <- E in K.
  eapply lookup_inj; [eapply nodup_applied; exact V' | exact K' | exact K | congruence].
Qed.
(** A collection that was visible once is visible in every process whose Init succeeded: nothing is forgotten *)
Theorem C82_visible_stays_visible : forall J, json_ok J -> forall d0 es es', life_ok d0 (es ++ es') -> let p := life J d0 es in let p' := life J d0 (es ++ es') in
  p_up p' = true -> forall dbn coll ci, visible p dbn coll = Some ci -> exists ci', visible p' dbn coll = Some ci' /\ ci_id ci' = ci_id ci.
Proof.
  intros J JO d0 es es' H p p' U dbn coll ci Vi. destruct (life_two J JO d0 es es' H) as (D & R & st & A & D' & R' & st' & A' & l & V & V' & E).
  destruct (life_pre _ _ _ H) as (_ & F & Sg & L). destruct (seen_prefix _ _ _ _ _ (pv_cinv _ _ _ _ _ _ _ V) Vi) as (L0 & L1 & k & E0 & N & K & Ei).
  assert (VE : version_of (p_h p) <= version_of (p_h p')).
  { assert (Ep : p' = prun J p es') by (unfold p', p, life; apply prun_app). rewrite Ep in U |- *. apply (shown_inv J JO (version_of (p_h p)) es' _ _ _ _ _ _ V F Sg L); [eapply version_inv; exact V | intros _; apply Z.le_refl | exact U]. }
  assert (V1 : 1 <= version_of (p_h p)).
  { pose proof (pv_cinv _ _ _ _ _ _ _ V) as C. unfold cinv, version_of, visible in *. fold p in C. destruct (h_val (p_h p)) as [c|]; [apply C | discriminate]. }
  destruct (shows (applied D' R' st') (p_h p') dbn coll L0 (L1 ++ l) k) as (ci' & Vi' & Ei').
  - exact (pv_cinv _ _ _ _ _ _ _ V').
  - intros X. unfold version_of in V1, VE. rewrite X in VE. lia.
  - rewrite E, E0, app_assoc. reflexivity.
  - fold p in N. lia.
  - exact K.
  - exists ci'. split; [exact Vi' | congruence].
Qed.

(** * C83 *)
Section WithJson.
Variable J : json.
Hypothesis JO : json_ok J.
Lemma life_linv d0 es : life_ok d0 es -> 1000 * pload es < two63 -> puts_ok J d0 es ->
  exists D R st A, pinv J (pload es) (life J d0 es) D R st A /\ linv (flat_map seqs_of (applied D R st)) (pload es) A (p_reg (life J d0 es)) (in_use J d0 es).
Proof.
  intros (H1 & H2 & H3 & H4 & H5) L PO. destruct (lrun J JO es 0 (pstart d0) [] [] HFresh m_empty [] (start_pinv J d0 (P_Ddl.empty_holds J d0 H1 H2)) (start_linv d0) H3 H4 L PO) as (D & R & st & A & V & I & _).
  exists D, R, st, A. rewrite Z.add_0_l in *. auto.
Qed.
Lemma held_app es : forall p held es', held_from J p held (es ++ es') = held_from J (prun J p es) (held_from J p held es) es'.
Proof. induction es as [|e es IH]; intros p held es'; [reflexivity|]. cbn [app held_from prun fold_left]. apply IH. Qed.
Lemma puts_app es : forall p held es', puts_from J p held (es ++ es') <-> puts_from J p held es /\ puts_from J (prun J p es) (held_from J p held es) es'.
Proof. induction es as [|e es IH]; intros p held es'; cbn [app puts_from held_from prun fold_left]; [tauto|]. rewrite IH. fold (prun J (pstep J p e) es). tauto. Qed.
Lemma held_given es : forall p held, Forall (fun e => match e with PPut _ _ => False | _ => True end) es -> held_from J p held es = held ++ given_from J p es /\ puts_from J p held es.
Proof.
  induction es as [|e es IH]; intros p held F; cbn [held_from given_from puts_from]; [rewrite app_nil_r; auto|]. inversion F as [|? ? F1 F2]; subst. destruct (IH (pstep J p e) (held_step p held e) F2) as [E1 E2]. rewrite E1.
  split; [|split; [destruct e; exact Logic.I || destruct F1 | exact E2]]. rewrite app_assoc. f_equal. destruct e; cbn [held_step gave]; try (rewrite app_nil_r; reflexivity); [|destruct F1].
  destruct (p_reg p cid) as [s|]; [|rewrite app_nil_r; reflexivity]. destruct (q_exec _ _ _ _ _ _) as [[d s'] r]. destruct r as [[|v|rs]|er|]; rewrite ?app_nil_r; reflexivity.
Qed.
End WithJson.
(** The ids in use are all different and positive, whatever crashes, restarts and failed commits came in between *)
Theorem C83_ids_in_use_differ : forall J, json_ok J -> forall d0 es, life_ok d0 es -> 1000 * pload es < two63 -> puts_ok J d0 es ->
  NoDup (in_use J d0 es) /\ forall c v, In (c, v) (in_use J d0 es) -> 0 < v.
Proof.
  intros J JO d0 es H L PO. destruct (life_linv J JO d0 es H L PO) as (D & R & st & A & V & I). split; [exact (li_nd _ _ _ _ _ I)|]. intros c v X. destruct (li_held _ _ _ _ _ I c v X) as (a & _ & Q). lia.
Qed.
(** An id given out is not in use *)
Theorem C83_given_id_is_free : forall J, json_ok J -> forall d0 es e, life_ok d0 (es ++ [e]) -> 1000 * pload (es ++ [e]) < two63 -> puts_ok J d0 es ->
  forall c v, gave (life J d0 es) e = Some (c, v) -> ~ In (c, v) (in_use J d0 es) /\ 0 < v.
Proof.
  intros J JO d0 es e H L PO c v G. destruct (life_pre _ _ _ H) as (H0 & F & Sg & _). rewrite pload_app in L. pose proof (pload_nonneg [e]). destruct (life_linv J JO d0 es H0 ltac:(lia) PO) as (D & R & st & A & V & I).
  inversion F; subst. inversion Sg; subst. assert (PE : put_ok (in_use J d0 es) e) by (destruct e; exact Logic.I || discriminate).
  destruct (lstep_pinv J JO _ _ _ _ _ _ e _ V I ltac:(assumption) ltac:(assumption)) as (_ & _ & _ & _ & _ & _ & _ & N); [cbn [pload fold_right] in L; lia | exact PE | exact (N c v G)].
Qed.
(** If no id is put back, all ids ever given out are different *)
Theorem C83_all_ids_differ : forall J, json_ok J -> forall d0 es, life_ok d0 es -> 1000 * pload es < two63 -> Forall (fun e => match e with PPut _ _ => False | _ => True end) es -> NoDup (given J d0 es).
Proof.
  intros J JO d0 es H L F. destruct (held_given J es (pstart d0) [] F) as [E PO]. cbn [app] in E. unfold given. rewrite <- E. apply (C83_ids_in_use_differ J JO d0 es H L PO).
Qed.

(** * Non-vacuity *)
(** two schemas, a failed commit, a crash between allocators, a restart with ids given out before and after, one put back *)
Definition es_ids : list pev := es_demo ++ [PSeq false; PReaders 0; PNote; PNext 2 false; PNext 3 true; PCrash; PInit same [false; false; false]; PNext 2 false; PNext 3 false; PNext 6 false].
Lemma es_ids_ok : life_ok P_Ddl.d00 es_ids /\ 1000 * pload es_ids < two63 /\ puts_ok demo_json P_Ddl.d00 es_ids.
Proof.
  destruct es_demo_ok as (H1 & H2 & H3 & H4 & H5). split; [|split].
  - unfold es_ids. split; [exact H1|]. split; [exact H2|]. split; [apply Forall_app; split; [exact H3 | repeat (apply Forall_cons || apply Forall_nil); cbn [pev_ok]; try exact Logic.I; intros l; apply Permutation_refl]|].
    split; [apply Forall_app; split; [exact H4 | repeat (apply Forall_cons || apply Forall_nil); exact Logic.I] | vm_compute; reflexivity].
  - vm_compute. reflexivity.
  - unfold puts_ok, es_ids. apply puts_app. split.
    + unfold es_demo. change [PInit same []; PCreate two false; PWork P_Ddl.ident same true; work; PSeq true; PSeq false; PCrash; PInit (rev (A:=CollectionInfo)) [false; false]; work; PNote; PNext 2 false; PNext 3 false; PPut 3 [1]; PReaders 2; PCreate (P_Ddl.bare (str "blog") [str "posts"]) false; work]
        with ([PInit same []; PCreate two false; PWork P_Ddl.ident same true; work; PSeq true; PSeq false; PCrash; PInit (rev (A:=CollectionInfo)) [false; false]; work; PNote; PNext 2 false; PNext 3 false] ++ [PPut 3 [1]; PReaders 2; PCreate (P_Ddl.bare (str "blog") [str "posts"]) false; work]).
      apply puts_app. split; [apply held_given; repeat (apply Forall_cons || apply Forall_nil); exact Logic.I|].
      match goal with |- puts_from _ ?p ?h _ => set (P := p); assert (E : h = [(2, 1001); (3, 1)]) by (vm_compute; reflexivity); rewrite E; clearbody P; clear E end.
      cbn [puts_from put_ok]. split; [|split; [|split; [|split]]; exact Logic.I]. split; [repeat constructor; cbn; tauto|]. intros v [<-|[]]. right. left. reflexivity.
    + apply held_given. repeat (apply Forall_cons || apply Forall_nil); exact Logic.I.
Qed.
Example C82_nonvacuous : let p := life demo_json P_Ddl.d00 es_demo in let p' := life demo_json P_Ddl.d00 es_ids in
  option_map ci_id (visible p (str "shop") (str "users")) = Some 3 /\ option_map ci_id (visible p' (str "shop") (str "users")) = Some 3 /\ option_map ci_id (visible p' (str "blog") (str "posts")) = Some 6 /\
  p_up p' = true /\ p_run p = 1%nat /\ p_run p' = 2%nat.
Proof. cbv zeta. split; [vm_compute; reflexivity|]. split; [vm_compute; reflexivity|]. split; [vm_compute; reflexivity|]. split; [vm_compute; reflexivity|]. split; vm_compute; reflexivity. Qed.
Example C83_nonvacuous : json_ok demo_json /\ in_use demo_json P_Ddl.d00 es_ids = [(2, 1001); (2, 1002); (3, 1); (2, 2001); (3, 1001); (6, 1001)].
Proof. split; [exact demo_json_ok | vm_compute; reflexivity]. Qed.
(** the condition on put-backs is needed: an id put back twice is given out twice *)
Example C83_put_back_twice : let es := es_demo ++ [PPut 2 [1001; 1001]; PNext 2 false; PNext 2 false] in
  life_ok P_Ddl.d00 es /\ ~ NoDup (in_use demo_json P_Ddl.d00 es).
Proof.
  destruct es_demo_ok as (H1 & H2 & H3 & H4 & H5). cbv zeta. split.
  - split; [exact H1|]. split; [exact H2|]. split; [apply Forall_app; split; [exact H3 | repeat (apply Forall_cons || apply Forall_nil); exact Logic.I]|].
    split; [apply Forall_app; split; [exact H4 | repeat (apply Forall_cons || apply Forall_nil); exact Logic.I] | vm_compute; reflexivity].
  - assert (E : in_use demo_json P_Ddl.d00 (es_demo ++ [PPut 2 [1001; 1001]; PNext 2 false; PNext 2 false]) = [(2, 1001); (2, 1001)]) by (vm_compute; reflexivity).
    rewrite E. intros X. inversion X as [|? ? N _]; subst. apply N. left. reflexivity.
Qed.
Print Assumptions C82_a_name_keeps_its_id.
Print Assumptions C82_an_id_has_one_name.
Print Assumptions C82_visible_stays_visible.
Print Assumptions C83_ids_in_use_differ.
Print Assumptions C83_given_id_is_free.
Print Assumptions C83_all_ids_differ.
