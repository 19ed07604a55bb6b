(** The in-memory copy of the index catalogue (OldIndex.v) of one object, when its map updates follow its commits. *)
From Verif Require Import Bytes SMap Memcmp MemcmpProofs KeyModel Compact Provider ProviderProofs World Numeric UtilTxn TxPost Sequence SequenceProofs OldSequence DocKeys P_DocKeys OldDoc InsertWorld DdlSys OldInsert OldIndex OldIndexProofs OldIndexRun.
From Coq Require Import Sorted Permutation.

(** Object i0 makes all index calls; between the commit of one of them and its map update there is no other commit,
    and i0 does not open a collection. *)
Definition m_allowed (i0 : nat) (w : xworld) (e : xev) : Prop :=
  match e with
  | XCreate i _ _ _ | XDrop i _ _ _ => i = i0
  | XPut _ _ | XDropPut _ _ => xw_todo w = []
  | XOpen i _ => i = i0 -> xw_todo w = []
  | _ => True
  end.
Fixpoint mallowed (bm : idef -> bytes) (bu : bytes -> option idef) (i0 : nat) (w : xworld) (es : list xev) : Prop :=
  match es with
  | [] => True
  | e :: es' => m_allowed i0 w e /\ mallowed bm bu i0 (fst (xstep bm bu w e)) es'
  end.

Lemma fsort_id l : StronglySorted fle l -> fsort l = l.
Proof. induction 1 as [|x l S IH F]; [reflexivity|]. cbn [fsort]. rewrite IH. destruct F as [|y l Hy F]; [reflexivity|]. cbn [finsert]. unfold fle in Hy. rewrite Hy. reflexivity. Qed.
Lemma norm_idem l : norm_fields (norm_fields l) = norm_fields l.
Proof.
  destruct l as [|f [|g l]]; [reflexivity | reflexivity|]. change (norm_fields (f :: g :: l)) with (fsort (f :: g :: l)). pose proof (Permutation_length (fsort_perm (f :: g :: l))) as L.
  pose proof (fsort_id _ (fsort_sorted (f :: g :: l))) as Id. destruct (fsort (f :: g :: l)) as [|a [|b m]]; try discriminate L. exact Id.
Qed.
Lemma normed_idem x : normed (normed x) = normed x.
Proof. unfold normed. cbn [i_name i_fields i_unique]. rewrite norm_idem. reflexivity. Qed.
Lemma load_app l : forall f n, fold_left (fun f x => fun n => if bytes_eqb n (i_name x) then Some x else f n) l f n =
  match find (fun x => bytes_eqb n (i_name x)) (rev l) with Some x => Some x | None => f n end.
Proof.
  induction l as [|x l IH]; intros f n; [reflexivity|]. cbn [fold_left rev]. rewrite IH. 
  assert (F : forall (p : idef -> bool) a b, find p (a ++ b) = match find p a with Some y => Some y | None => find p b end).
  { intros p a b. induction a as [|y a IHa]; [reflexivity|]. cbn. destruct (p y); [reflexivity | exact IHa]. }
  rewrite F. destruct (find _ (rev l)); [reflexivity|]. cbn. destruct (bytes_eqb n (i_name x)); reflexivity.
Qed.
Lemma load_listing C l : listing C l -> (forall n x, C n = Some x -> i_name x = n) -> forall n, load l n = C n.
Proof.
  intros [_ L] Nm n. unfold load. rewrite load_app. destruct (find _ (rev l)) as [x|] eqn:E.
  - apply find_some in E. destruct E as [H E]. apply in_rev, L in H. apply bytes_eqb_eq in E. subst n. symmetry. exact H.
  - destruct (C n) as [x|] eqn:Ec; [|reflexivity]. exfalso. pose proof (Nm n x Ec) as X. assert (H : In x l) by (apply L; rewrite X; exact Ec).
    apply in_rev in H. pose proof (find_none _ _ E x H) as Y. cbn beta in Y. rewrite X, bytes_eqb_refl in Y. discriminate.
Qed.

Section proofs.
Context (bm : idef -> bytes) (bu : bytes -> option idef) (OK : bson_ok bm bu) (i0 : nat).
(** the map of i0, with its pending update *)
Definition settled (w : xworld) : xmem := match xw_todo w with (i, c, n, v) :: _ => mem_set (xw_mem w) i c n v | [] => xw_mem w end.
Definition mem_is (m : xmem) (C : cat) : Prop := forall cid f, is_i64 cid -> m i0 cid = Some f -> forall n, option_map normed (f n) = option_map normed (C cid n).
Record minv (w : xworld) (C : cat) : Prop := {
  mi_beg : forall k, In k (xw_beg w) -> xc_i k = i0;
  mi_wait : forall i k, xw_wait w i = Some k -> xc_i k = i0;
  mi_has : forall p, In p (xw_has w) -> xc_i (fst p) = i0;
  mi_drop : forall x, In x (xw_drop w) -> xd_i x = i0;
  mi_todo : xw_todo w = [] \/ exists c n v, xw_todo w = [(i0, c, n, v)];
  mi_mem : mem_is (settled w) C }.
Lemma mem_set_is m C cid n v x : mem_is m C -> option_map normed v = option_map normed x -> mem_is (mem_set m i0 cid n v) (cat_set C cid n x).
Proof.
  intros M E c f Hc. unfold mem_set, cat_set. rewrite Nat.eqb_refl. cbn [andb]. destruct (Z.eqb_spec c cid) as [->|N]; [|intros G k; cbn [andb]; exact (M c f Hc G k)].
  destruct (m i0 cid) as [g|] eqn:G; [|discriminate]. cbn [option_map]. intros F. inversion F. subst f. intros k. cbn [andb]. destruct (bytes_eqb k n); [exact E | exact (M cid g Hc G k)].
Qed.
Lemma minv_lists w C w' : minv w C -> xw_todo w' = xw_todo w -> xw_mem w' = xw_mem w ->
  (forall k, In k (xw_beg w') -> xc_i k = i0) -> (forall i k, xw_wait w' i = Some k -> xc_i k = i0) -> (forall p, In p (xw_has w') -> xc_i (fst p) = i0) -> (forall x, In x (xw_drop w') -> xd_i x = i0) ->
  minv w' C.
Proof. intros [M1 M2 M3 M4 M5 M6] Et Em H1 H2 H3 H4. split; try assumption; [rewrite Et; exact M5 | unfold settled in *; rewrite Et, Em; exact M6]. Qed.
Lemma mstep_inv strict rem w used c R C D e : 0 <= rem -> xinv bm strict (rem + 1) w used c R -> cat_eq C (cat_of R) -> cat_eq D C -> x_allowed strict C w e -> m_allowed i0 w e ->
  minv w D -> minv (fst (xstep bm bu w e)) (cat_step D (snd (xstep bm bu w e))).
Proof.
  intros Hr I CE DE A Am M. pose proof M as [M1 M2 M3 M4 M5 M6].
  assert (SAME : forall w', xw_todo w' = xw_todo w -> xw_mem w' = xw_mem w -> (forall k, In k (xw_beg w') -> In k (xw_beg w)) -> (forall i k, xw_wait w' i = Some k -> In k (xw_beg w) \/ xw_wait w i = Some k) ->
     (forall p, In p (xw_has w') -> In p (xw_has w)) -> (forall x, In x (xw_drop w') -> In x (xw_drop w)) -> minv w' D).
  { intros w' Et Em H1 H2 H3 H4. apply (minv_lists w D w' M Et Em); auto. intros i k H. destruct (H2 i k H); eauto. }
  assert (ID : minv w D) by exact M.
  destruct e as [i|i|i lim io|i cid x lim|n|n io|i cid nm lim|n io|n|i cid|who|t io|n]; cbn [xstep].
  - destruct (ow_seq (xw_o w) i); [exact M|]. apply SAME; auto.
  - apply SAME; auto.
  - destruct (ostep xK (xw_o w) (OEnd i lim io)) as [o r].
    assert (FU : forall j k, fupd (xw_wait w) i None j = Some k -> xw_wait w j = Some k) by (intros j k; unfold fupd; destruct (Nat.eqb j i); [discriminate | auto]).
    destruct (xw_wait w i) as [k|] eqn:Ew; [|apply SAME; auto]. destruct r as [[v|er|]|]; cbn [fst snd cat_step]; try (apply SAME; cbn [xw_wait]; auto; fail).
    apply (minv_lists w D _ M); cbn [xw_todo xw_mem xw_beg xw_wait xw_has xw_drop]; auto; [intros j k' H; eapply M2, FU; exact H|]. intros p [<-|H]; [exact (M2 i k Ew) | auto].
  - cbn [m_allowed] in Am. subst i. destruct (i_name x), (i_fields x); try exact M. destruct (ci_check cid x (new_txn (xw_db w) true lim)) as [t [[]|er|]]; try exact M.
    apply (minv_lists w D _ M); cbn [fst xw_todo xw_mem xw_beg xw_wait xw_has xw_drop]; auto. intros k [<-|H]; [reflexivity | auto].
  - destruct (nth_error (xw_beg w) n) as [k|] eqn:En; [|exact M]. destruct (xw_wait w (xc_i k)); [exact M|]. destruct (ow_call (xw_o w) (xc_i k)); [exact M|]. destruct (ow_seq (xw_o w) (xc_i k)); [|exact M].
    apply SAME; cbn [fst xw_todo xw_mem xw_beg xw_wait xw_has xw_drop]; auto; [intros k' H; eapply drop_in; exact H|].
    intros j k'. unfold fupd. destruct (Nat.eqb j (xc_i k)); [|auto]. intros E. inversion E. subst. left. eapply nth_error_In; exact En.
  - cbn [m_allowed] in Am. destruct (nth_error (xw_has w) n) as [[k iid]|] eqn:En; [|exact M].
    assert (REST : minv (XW (xw_o w) (xw_beg w) (xw_wait w) (drop_nth n (xw_has w)) (xw_drop w) (xw_todo w) (xw_mem w)) D).
    { apply SAME; cbn [xw_todo xw_mem xw_beg xw_wait xw_has xw_drop]; auto. intros p H. eapply drop_in; exact H. }
    destruct (ci_put bm (xc_cid k) (xc_def k) iid (xc_t k)) as [t [[]|er|]]; try exact REST. destruct (commit (xw_db w) t io) as [[d2 t2] [[]|er|]]; try exact REST.
    pose proof (M3 _ (nth_error_In _ _ En)) as Ei. cbn [fst] in Ei. rewrite Ei.
    split; cbn [fst snd xw_todo xw_mem xw_beg xw_wait xw_has xw_drop]; auto; [intros p H; eapply M3, drop_in; exact H | right; rewrite Am; eauto |].
    unfold settled in *. cbn [xw_todo xw_mem]. rewrite Am in M6. cbn [cat_step]. apply mem_set_is; [exact M6|]. cbn [option_map]. rewrite normed_idem. reflexivity.
  - cbn [m_allowed] in Am. subst i. destruct nm as [|b nm]; [exact M|]. destruct (di_read bu cid (b :: nm) (new_txn (xw_db w) true lim)) as [t [[[iid x]|]|er|]]; try exact M.
    destruct (di_del cid (b :: nm) iid x t) as [t' [[]|er|]]; try exact M.
    apply (minv_lists w D _ M); cbn [fst xw_todo xw_mem xw_beg xw_wait xw_has xw_drop]; auto. intros y [<-|H]; [reflexivity | auto].
  - cbn [m_allowed] in Am. destruct (nth_error (xw_drop w) n) as [x|] eqn:En; [|exact M].
    assert (REST : minv (XW (xw_o w) (xw_beg w) (xw_wait w) (xw_has w) (drop_nth n (xw_drop w)) (xw_todo w) (xw_mem w)) D).
    { apply SAME; cbn [xw_todo xw_mem xw_beg xw_wait xw_has xw_drop]; auto. intros p H. eapply drop_in; exact H. }
    destruct (commit (xw_db w) (xd_t x) io) as [[d2 t2] [[]|er|]]; try exact REST.
    pose proof (M4 _ (nth_error_In _ _ En)) as Ei. rewrite Ei. rewrite (do_name _ _ _ (xi_drop _ _ _ _ _ _ _ I x (nth_error_In _ _ En))).
    split; cbn [fst snd xw_todo xw_mem xw_beg xw_wait xw_has xw_drop]; auto; [intros y H; eapply M4, drop_in; exact H | right; rewrite Am; eauto |].
    unfold settled in *. cbn [xw_todo xw_mem]. rewrite Am in M6. cbn [cat_step]. apply mem_set_is; [exact M6 | reflexivity].
  - destruct M5 as [Et|(c1 & n1 & v1 & Et)]; rewrite Et; [destruct n; exact M|]. destruct n as [|n]; cbn [nth_error]; [|destruct n; exact M].
    split; cbn [fst snd xw_todo xw_mem xw_beg xw_wait xw_has xw_drop drop_nth cat_step]; auto. unfold settled in *. cbn [xw_todo xw_mem]. rewrite Et in M6. exact M6.
  - cbn [m_allowed] in Am. destruct (xw_mem w i cid) eqn:Em; [exact M|]. cbn [x_allowed] in A.
    destruct (getIndexes_lists bm bu OK (xw_db w) R cid (xi_cat _ _ _ _ _ _ _ I) A) as (l & El & Ll). rewrite El.
    split; cbn [fst snd xw_todo xw_mem xw_beg xw_wait xw_has xw_drop cat_step]; auto.
    destruct (Nat.eq_dec i i0) as [->|N].
    + specialize (Am eq_refl). unfold settled in *. cbn [xw_todo xw_mem]. rewrite Am in *. intros c1 f Hc1. rewrite Nat.eqb_refl. cbn [andb]. destruct (Z.eqb_spec c1 cid) as [->|Nc]; [|apply M6; exact Hc1].
      intros F. inversion F. subst f. intros n. rewrite (load_listing _ _ Ll); [rewrite (DE cid n A), (CE cid n A); reflexivity|].
      intros n1 x1 E1. destruct (R cid n1) as [[j y]|] eqn:Er; [|discriminate]. cbn in E1. inversion E1. subst y. apply (ct_row _ _ _ (xi_cat _ _ _ _ _ _ _ I) cid n1 j x1 A Er).
    + assert (Nb : Nat.eqb i0 i = false) by (apply Nat.eqb_neq; congruence).
      unfold settled in *. cbn [xw_todo xw_mem]. destruct (xw_todo w) as [|[[[i1 c1] n1] v1] tl]; intros c2 f Hc2; unfold mem_set in *; [rewrite Nb | rewrite Nb]; cbn [andb]; intros F; exact (M6 c2 f Hc2 F).
  - split; cbn [fst snd xw_todo xw_mem xw_beg xw_wait xw_has xw_drop cat_step].
    + intros k H. apply filter_In in H. apply M1, H.
    + intros j k. destruct (who j); [discriminate | apply M2].
    + intros p H. apply filter_In in H. apply M3, H.
    + intros x H. apply filter_In in H. apply M4, H.
    + destruct M5 as [-> | (c1 & n1 & v1 & ->)]; [left; reflexivity|]. cbn [filter fst]. destruct (who i0); cbn [negb]; [left; reflexivity | right; eauto].
    + unfold settled in *. cbn [xw_todo xw_mem]. destruct (who i0) eqn:Wi.
      * assert (Et : filter (fun p : nat * Z * bytes * option idef => negb (who (fst (fst (fst p))))) (xw_todo w) = []).
        { destruct M5 as [-> | (c1 & n1 & v1 & ->)]; [reflexivity|]. cbn [filter fst]. rewrite Wi. reflexivity. }
        rewrite Et. intros c2 f Hc2. cbv beta. rewrite Wi. discriminate.
      * assert (Et : filter (fun p : nat * Z * bytes * option idef => negb (who (fst (fst (fst p))))) (xw_todo w) = xw_todo w).
        { destruct M5 as [-> | (c1 & n1 & v1 & ->)]; [reflexivity|]. cbn [filter fst]. rewrite Wi. reflexivity. }
        rewrite Et. destruct (xw_todo w) as [|[[[i1 c1] n1] v1] tl]; intros c2 f Hc2; unfold mem_set in *; cbv beta; rewrite Wi; intros F; exact (M6 c2 f Hc2 F).
  - apply SAME; auto.
  - apply SAME; auto.
Qed.
Lemma mrun_inv es : forall strict rem w used c R C D, 0 <= rem -> xinv bm strict (rem + Z.of_nat (length es)) w used c R -> cat_eq C (cat_of R) -> cat_eq D C ->
  xallowed bm bu strict C w es -> mallowed bm bu i0 w es -> minv w D -> minv (fst (xrun bm bu w es)) (cat_after D (snd (xrun bm bu w es))).
Proof.
  induction es as [|e es IH]; intros strict rem w used c R C D Hr I CE DE A Am M; [exact M|].
  cbn [length] in I. replace (rem + Z.of_nat (S (length es))) with (rem + Z.of_nat (length es) + 1) in I by lia. destruct A as [A1 A2]. destruct Am as [B1 B2].
  destruct (xstep_inv bm bu OK strict (rem + Z.of_nat (length es)) w used c R C e ltac:(lia) I CE A1) as (used1 & c1 & R1 & _ & I1 & _ & CE1).
  pose proof (mstep_inv strict (rem + Z.of_nat (length es)) w used c R C D e ltac:(lia) I CE DE A1 B1 M) as M1.
  cbn [xrun]. destruct (xstep bm bu w e) as [w1 r]. cbn [fst snd] in *.
  assert (DE1 : cat_eq (cat_step D r) (cat_step C r)) by (apply (cat_after_eq [r] D C DE)).
  specialize (IH strict rem w1 used1 c1 R1 (cat_step C r) (cat_step D r) Hr I1 CE1 DE1 A2 B2 M1). destruct (xrun bm bu w1 es) as [w2 rs]. exact IH.
Qed.
End proofs.
