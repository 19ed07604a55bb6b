(** Proofs for InsertSerial.v (C96) *)
From Verif Require Import Memcmp Numeric KvUtil KeyModel Struct.
From Verif Require Import Bytes SMap Provider ProviderProofs World UtilTxn Sequence Model Meta MetaCodec MetaSpec MetaProofs Schema DocTxn DocKeys Dml Ddl DdlSpec DdlSys Domain.
From Verif Require Import P_Domain DdlSerial DdlSerialProofs P_DdlSerial DomSerial DomSerialProofs DocSerial DocLifeSpec AllSerial AllSerialProofs P_Leases InsertSerial.
From Verif Require P_AllSerial ProcessProofs P_Ddl ProcessIds.

(** * The allocators *)
(** what is used of [inserts_ok], for the events performed *)
Definition shape_ok (B : Z) (e : iev) : Prop :=
  match e with
  | IDo (GCall _ (InsertOne _ _ _ _ _ _)) => False
  | IDo (GDdl (KBegin _ (KDid _ _ _))) | IDo (GDdl (KBegin _ (KRelease _ _ _))) => False
  | ILease _ _ _ _ s => 0 < s <= B
  | _ => True
  end.
Definition performed_ok (J : json) (B : Z) (d : db) (es : list iev) : Prop :=
  0 < B /\ Forall (shape_ok B) es /\ world_ok J d (performed J (istart d) es) /\ B * gload J (gstart d) (performed J (istart d) es) < two63.
Definition fns_t := list (nat * Z * Z).
Definition inpool (m : memory) (p : nat) (c d : Z) : Prop := exists q, m p c = Some q /\ (In d (al_put q) \/ al_next q < d <= al_leased q).
Definition held (fns : fns_t) (gone : list nat) (f : nat) (c d : Z) : Prop := ~ In f gone /\ exists p, nth_error fns f = Some (p, c, d).
Record pinv (m : memory) (fns : fns_t) (gone : list nat) (ls : list lease) : Prop := {
  pi_held : forall f f' c d, held fns gone f c d -> held fns gone f' c d -> f = f';
  pi_out : forall f c d q, held fns gone f c d -> ~ inpool m q c d;
  pi_one : forall p q c d, inpool m p c d -> inpool m q c d -> p = q;
  pi_put : forall p c q, m p c = Some q -> NoDup (al_put q) /\ forall d, In d (al_put q) -> ~ (al_next q < d <= al_leased q);
  pi_from : forall f p c d, nth_error fns f = Some (p, c, d) \/ inpool m p c d -> exists l, In l ls /\ l_coll l = c /\ l_from l < d <= l_to l;
}.
Lemma pinv_start : pinv (fun _ _ => None) [] [] [].
Proof.
  split.
  - intros f f' c d (_ & p & X). destruct f; discriminate X.
  - intros f c d q (_ & p & X). destruct f; discriminate X.
  - intros p q c d (x & X & _). discriminate X.
  - discriminate.
  - intros f p c d [X|(x & X & _)]; [destruct f; discriminate X | discriminate X].
Qed.
Lemma pinv_more m fns gone ls ls' : pinv m fns gone ls -> pinv m fns gone (ls ++ ls').
Proof. intros [A B C D E]. split; try assumption. intros f p c d X. destruct (E f p c d X) as (l & Y & Z). exists l. split; [apply in_or_app; auto | exact Z]. Qed.
Lemma pinv_sub m m' fns gone ls : pinv m fns gone ls -> (forall p c q, m' p c = Some q -> m p c = Some q) -> pinv m' fns gone ls.
Proof.
  intros [A B C D E] S. assert (P : forall p c d, inpool m' p c d -> inpool m p c d) by (intros p c d (q & X & Y); exists q; auto). split; try assumption.
  - intros f c d q H X. exact (B f c d q H (P _ _ _ X)).
  - intros p q c d X Y. exact (C p q c d (P _ _ _ X) (P _ _ _ Y)).
  - intros p c q X. exact (D p c q (S _ _ _ X)).
  - intros f p c d [X|X]; apply (E f p c d); [left; exact X | right; exact (P _ _ _ X)].
Qed.
Lemma mset_some m p c q p' c' q' : mset m p c q p' c' = Some q' -> p' = p /\ c' = c /\ q' = q \/ (p', c') <> (p, c) /\ m p' c' = Some q'.
Proof.
  unfold mset. destruct (Nat.eqb_spec p' p) as [->|N]; cbn [andb]; [destruct (Z.eqb_spec c' c) as [->|N]|].
  - intros X. left. repeat split; congruence.
  - intros X. right. split; [congruence | exact X].
  - intros X. right. split; [congruence | exact X].
Qed.
Lemma mset_eq m p c q : mset m p c q p c = Some q.
Proof. unfold mset. rewrite Nat.eqb_refl, Z.eqb_refl. reflexivity. Qed.
Lemma mset_in m p c q p' c' d : inpool (mset m p c q) p' c' d -> p' = p /\ c' = c /\ (In d (al_put q) \/ al_next q < d <= al_leased q) \/ (p', c') <> (p, c) /\ inpool m p' c' d.
Proof.
  intros (x & X & Y). apply mset_some in X. destruct X as [(-> & -> & ->)|[N X]]; [left; auto | right]. split; [exact N|]. exists x. auto.
Qed.
(** a lease above all ids of the collection given out so far *)
Lemma pinv_lease m fns gone ls p l : pinv m fns gone ls -> (forall x, In x ls -> l_coll x = l_coll l -> l_to x <= l_from l) ->
  pinv (mset m p (l_coll l) (renew (m p (l_coll l)) l)) fns gone (ls ++ [l]).
Proof.
  intros [A B C D E] N. set (c0 := l_coll l) in *.
  assert (NEW : forall d, l_from l < d <= l_to l -> (forall f q, nth_error fns f <> Some (q, c0, d)) /\ forall q, ~ inpool m q c0 d).
  { intros d Hd. split.
    - intros f q X. destruct (E f q c0 d (or_introl X)) as (x & X1 & X2 & X3). specialize (N x X1 X2). lia.
    - intros q X. destruct (E 0%nat q c0 d (or_intror X)) as (x & X1 & X2 & X3). specialize (N x X1 X2). lia. }
  assert (OLD : forall d, In d (al_put (renew (m p c0) l)) -> inpool m p c0 d).
  { intros d. unfold renew. cbn [al_put]. destruct (m p c0) as [q|] eqn:Q; [|intros []]. intros X. exists q. auto. }
  assert (IN : forall q c d, inpool (mset m p c0 (renew (m p c0) l)) q c d -> inpool m q c d \/ q = p /\ c = c0 /\ l_from l < d <= l_to l).
  { intros q c d X. apply mset_in in X. destruct X as [(-> & -> & [X|X])|[_ X]]; [left; exact (OLD d X) | right; auto | left; exact X]. }
  split.
  - exact A.
  - intros f c d q H X. apply IN in X. destruct X as [X|(-> & -> & X)]; [exact (B f c d q H X)|]. destruct H as (_ & r & H). exact (proj1 (NEW d X) f r H).
  - intros q r c d X Y. apply IN in X. apply IN in Y. destruct X as [X|(-> & -> & X)], Y as [Y|(-> & Y1 & Y)].
    + exact (C q r c d X Y).
    + subst c. exfalso. exact (proj2 (NEW d Y) q X).
    + exfalso. exact (proj2 (NEW d X) r Y).
    + reflexivity.
  - intros q c x X. apply mset_some in X. destruct X as [(-> & -> & ->)|[_ X]]; [|exact (D q c x X)]. split.
    + unfold renew. cbn [al_put]. destruct (m p c0) as [y|] eqn:Q; [exact (proj1 (D p c0 y Q)) | constructor].
    + intros d Hd X. apply OLD in Hd. unfold renew in X. cbn [al_next al_leased] in X. exact (proj2 (NEW d X) p Hd).
  - intros f q c d [X|X].
    + destruct (E f q c d (or_introl X)) as (x & X1 & X2). exists x. split; [apply in_or_app; auto | exact X2].
    + apply IN in X. destruct X as [X|(-> & -> & X)].
      * destruct (E f q c d (or_intror X)) as (x & X1 & X2). exists x. split; [apply in_or_app; auto | exact X2].
      * exists l. split; [apply in_or_app; right; left; reflexivity | auto].
Qed.
Lemma rev_cons_eq {X} (l : list X) v r : rev l = v :: r -> l = rev r ++ [v].
Proof. intros H. apply (f_equal (@rev X)) in H. rewrite rev_involutive in H. cbn [rev] in H. exact H. Qed.
Lemma take_spec q d q' : take q = Some (d, q') -> NoDup (al_put q) -> (forall x, In x (al_put q) -> ~ (al_next q < x <= al_leased q)) ->
  (In d (al_put q) \/ al_next q < d <= al_leased q) /\ ~ (In d (al_put q') \/ al_next q' < d <= al_leased q') /\
  (forall x, In x (al_put q') \/ al_next q' < x <= al_leased q' -> In x (al_put q) \/ al_next q < x <= al_leased q) /\
  NoDup (al_put q') /\ (forall x, In x (al_put q') -> ~ (al_next q' < x <= al_leased q')).
Proof.
  intros H N O. unfold take in H. destruct (rev (al_put q)) as [|v r] eqn:R.
  - destruct (Z.ltb_spec (al_next q) (al_leased q)) as [L|L]; [|discriminate H]. assert (X : d = al_next q + 1 /\ q' = Alloc (al_next q + 1) (al_leased q) []) by (split; congruence). destruct X as [-> ->]. cbn [al_put al_next al_leased].
    split; [right; lia|]. split; [intros [[]|X]; lia|]. split; [intros x [[]|X]; right; lia|]. split; [constructor | intros x []].
  - apply rev_cons_eq in R. assert (X : d = v /\ q' = Alloc (al_next q) (al_leased q) (rev r)) by (split; congruence). destruct X as [-> ->]. cbn [al_put al_next al_leased].
    assert (IV : In v (al_put q)) by (rewrite R; apply in_or_app; right; left; reflexivity). assert (SUB : forall x, In x (rev r) -> In x (al_put q)) by (intros x X; rewrite R; apply in_or_app; auto).
    rewrite R in N. apply nodup_app in N. destruct N as (N1 & _ & N3).
    split; [left; exact IV|]. split; [intros [X|X]; [apply (N3 v X); left; reflexivity | exact (O v IV X)]|]. split; [intros x [X|X]; auto|]. split; [exact N1|]. intros x X. exact (O x (SUB x X)).
Qed.
Lemma nth_error_snoc {X} (l : list X) y f x : nth_error (l ++ [y]) f = Some x -> nth_error l f = Some x \/ f = length l /\ x = y.
Proof.
  intros H. destruct (Nat.lt_ge_cases f (length l)) as [L|L]; [rewrite nth_error_app1 in H by exact L; auto|]. rewrite nth_error_app2 in H by exact L. destruct (f - length l)%nat as [|k] eqn:K.
  - cbn [nth_error] in H. right. split; [lia | congruence].
  - destruct k; discriminate H.
Qed.
Lemma pinv_take m fns gone ls p c q d q' : pinv m fns gone ls -> m p c = Some q -> take q = Some (d, q') -> pinv (mset m p c q') (fns ++ [(p, c, d)]) gone ls.
Proof.
  intros [A B C D E] Q T. destruct (D p c q Q) as [D1 D2]. destruct (take_spec q d q' T D1 D2) as (T1 & T2 & T3 & T4 & T5).
  assert (WAS : inpool m p c d) by (exists q; auto).
  assert (IN : forall r e x, inpool (mset m p c q') r e x -> inpool m r e x /\ ((r, e) = (p, c) -> x <> d)).
  { intros r e x X. apply mset_in in X. destruct X as [(-> & -> & X)|[N X]]; [|split; [exact X | congruence]]. split; [exists q; auto|]. intros _ ->. exact (T2 X). }
  assert (HE : forall f e x, held (fns ++ [(p, c, d)]) gone f e x -> held fns gone f e x \/ f = length fns /\ e = c /\ x = d).
  { intros f e x (H1 & r & H2). apply nth_error_snoc in H2. destruct H2 as [H2|[-> H2]]; [left; split; [exact H1 | exists r; exact H2] | right]. repeat split; congruence. }
  split.
  - intros f f' e x H H'. apply HE in H. apply HE in H'. destruct H as [H|(-> & -> & ->)], H' as [H'|(-> & E1 & E2)].
    + exact (A f f' e x H H').
    + subst e x. exfalso. exact (B f c d p H WAS).
    + exfalso. exact (B f' c d p H' WAS).
    + reflexivity.
  - intros f e x r H X. apply IN in X. destruct X as [X1 X2]. apply HE in H. destruct H as [H|(-> & -> & ->)]; [exact (B f e x r H X1)|]. pose proof (C r p c d X1 WAS) as ->. exact (X2 eq_refl eq_refl).
  - intros r r' e x X Y. exact (C r r' e x (proj1 (IN _ _ _ X)) (proj1 (IN _ _ _ Y))).
  - intros r e x X. apply mset_some in X. destruct X as [(-> & -> & ->)|[_ X]]; [auto | exact (D r e x X)].
  - intros f r e x [X|X]; [|exact (E f r e x (or_intror (proj1 (IN _ _ _ X))))]. apply nth_error_snoc in X. destruct X as [X|[_ X]]; [exact (E f r e x (or_introl X))|].
    assert (X' : r = p /\ e = c /\ x = d) by (repeat split; congruence). destruct X' as (-> & -> & ->). exact (E f p c d (or_intror WAS)).
Qed.
Lemma pinv_back m fns gone ls f : pinv m fns gone ls -> ~ In f gone -> pinv (run_cancel fns m f) fns (gone ++ [f]) ls.
Proof.
  intros [A B C D E] G. assert (HE : forall g e x, held fns (gone ++ [f]) g e x -> held fns gone g e x /\ g <> f).
  { intros g e x (H1 & H2). split; [split; [intros X; apply H1, in_or_app; auto | exact H2]|]. intros ->. apply H1, in_or_app. right. left. reflexivity. }
  unfold run_cancel. destruct (nth_error fns f) as [[[p c] d]|] eqn:F.
  2:{ split; try assumption; [intros g g' e x H H'; exact (A g g' e x (proj1 (HE _ _ _ H)) (proj1 (HE _ _ _ H'))) | intros g e x q H; exact (B g e x q (proj1 (HE _ _ _ H)))]. }
  destruct (m p c) as [q|] eqn:Q.
  2:{ split; try assumption; [intros g g' e x H H'; exact (A g g' e x (proj1 (HE _ _ _ H)) (proj1 (HE _ _ _ H'))) | intros g e x q H; exact (B g e x q (proj1 (HE _ _ _ H)))]. }
  assert (HF : held fns gone f c d) by (split; [exact G | exists p; exact F]).
  assert (IN : forall r e x, inpool (mset m p c (giveback d q)) r e x -> inpool m r e x \/ r = p /\ e = c /\ x = d).
  { intros r e x X. apply mset_in in X. destruct X as [(-> & -> & X)|[_ X]]; [|left; exact X]. unfold giveback in X. cbn [al_put al_next al_leased] in X. destruct X as [X|X]; [|left; exists q; auto].
    apply in_app_or in X. destruct X as [X|[<-|[]]]; [left; exists q; auto | right; auto]. }
  split.
  - intros g g' e x H H'. exact (A g g' e x (proj1 (HE _ _ _ H)) (proj1 (HE _ _ _ H'))).
  - intros g e x r H X. apply HE in H. destruct H as [H N]. apply IN in X. destruct X as [X|(-> & -> & ->)]; [exact (B g e x r H X)|]. apply N. exact (A g f c d H HF).
  - intros r r' e x X Y. apply IN in X. apply IN in Y. destruct X as [X|(-> & -> & ->)], Y as [Y|(-> & E1 & E2)].
    + exact (C r r' e x X Y).
    + subst e x. exfalso. exact (B f c d r HF X).
    + exfalso. exact (B f c d r' HF Y).
    + reflexivity.
  - intros r e x X. apply mset_some in X. destruct X as [(-> & -> & ->)|[_ X]]; [|exact (D r e x X)]. destruct (D p c q Q) as [D1 D2]. unfold giveback. cbn [al_put al_next al_leased]. split.
    + apply nodup_app_intro; [exact D1 | repeat constructor; intros [] |]. intros x Hx [<-|[]]. apply (B f c d p HF). exists q. auto.
    + intros x Hx X. apply in_app_or in Hx. destruct Hx as [Hx|[<-|[]]]; [exact (D2 x Hx X)|]. apply (B f c d p HF). exists q. auto.
  - intros g r e x [X|X]; [exact (E g r e x (or_introl X))|]. apply IN in X. destruct X as [X|(-> & -> & ->)]; [exact (E g r e x (or_intror X)) | exact (E f p c d (or_introl F))].
Qed.
Lemma pinv_backs ran : forall m fns gone ls, pinv m fns gone ls -> NoDup ran -> (forall f, In f ran -> ~ In f gone) -> pinv (fold_left (run_cancel fns) ran m) fns (gone ++ ran) ls.
Proof.
  induction ran as [|f ran IH]; intros m fns gone ls P N G; cbn [fold_left]; [rewrite app_nil_r; exact P|]. inversion N as [|? ? N1 N2]; subst.
  replace (gone ++ f :: ran) with ((gone ++ [f]) ++ ran) by (rewrite <- app_assoc; reflexivity). apply IH; [apply pinv_back; [exact P | apply G; left; reflexivity] | exact N2|].
  intros x Hx X. apply in_app_or in X. destruct X as [X|[<-|[]]]; [exact (G x (or_intror Hx) X) | exact (N1 Hx)].
Qed.

(** * The transactions and the notes *)
Definition pget (sees : bytes -> bytes -> bool) (p : call * result docval) : list (nat * (bytes * bytes * Z)) :=
  match p with
  | (InsertOne _ dbn coll did _ f, Ok _) => if sees dbn coll then [(f, (dbn, coll, did))] else []
  | _ => []
  end.
Definition pairs (e : entry) : list (nat * (bytes * bytes * Z)) := flat_map (pget (n_sees e)) (n_calls e).
Lemma pairs_inserted e : inserted_by e = map snd (pairs e).
Proof.
  unfold inserted_by, pairs. induction (n_calls e) as [|[c r] l IH]; [reflexivity|]. cbn [flat_map]. rewrite map_app, IH. f_equal. destruct c as [m a b o|m a b did v f]; [reflexivity|]. cbn [got pget].
  destruct r; [|reflexivity..]. destruct (n_sees e a b); reflexivity.
Qed.
Section Catalogue.
Variable L : list Job.
(** the closure of an id was registered under that id, and the name stands for that collection *)
Definition noted (fns : fns_t) (e : entry) : Prop :=
  forall f a b d, In (f, (a, b, d)) (pairs e) -> exists p k, nth_error fns f = Some (p, ci_id k, d) /\ lookup L a b = Some k.
Definition txs := nat -> option (nat * dtxn * option handle).
Record tinvi (fns : fns_t) (gone : list nat) (tx : txs) (nw : nat -> option (nat * handle)) (j : glog) : Prop := {
  ti_own : forall n p x o, tx n = Some (p, x, o) -> NoDup (dt_cancels x) /\ forall f, In f (dt_cancels x) -> (f < length fns)%nat /\ ~ In f gone;
  ti_apart : forall n m p x o q y o' f, tx n = Some (p, x, o) -> tx m = Some (q, y, o') -> In f (dt_cancels x) -> In f (dt_cancels y) -> n = m;
  ti_open : forall n p x o, tx n = Some (p, x, o) -> exists e h, lfind n (l_open j) = Some e /\ NoDup (map fst (pairs e)) /\ incl (map fst (pairs e)) (dt_cancels x) /\
     n_sees e = shown_by h /\ dt_start x = h_val h /\ cinv L h /\ noted fns e;
  ti_done : NoDup (flat_map (fun e => map fst (pairs e)) (l_done j));
  ti_kept : forall f, In f (flat_map (fun e => map fst (pairs e)) (l_done j)) -> (f < length fns)%nat /\ ~ In f gone /\ forall n p x o, tx n = Some (p, x, o) -> ~ In f (dt_cancels x);
  ti_noted : forall e, In e (l_done j) -> noted fns e;
  ti_new : forall n p h, nw n = Some (p, h) -> cinv L h;
  ti_gone : forall f, In f gone -> (f < length fns)%nat
}.
Lemma noted_more fns l e : noted fns e -> noted (fns ++ l) e.
Proof. intros N f a b d X. destruct (N f a b d X) as (p & k & H1 & H2). exists p, k. split; [|exact H2]. rewrite nth_error_app1; [exact H1 | apply nth_error_Some; congruence]. Qed.
Lemma tinvi_more fns l gone tx nw j : tinvi fns gone tx nw j -> tinvi (fns ++ l) gone tx nw j.
Proof.
  intros [A B C D E F G GN]. split; try assumption.
  - intros n p x o X. destruct (A n p x o X) as [Y Z]. split; [exact Y|]. intros f Hf. destruct (Z f Hf). rewrite app_length. split; [lia | assumption].
  - intros n p x o X. destruct (C n p x o X) as (e & h & Y1 & Y2 & Y3 & Y4 & Y5 & Y6 & Y7). exists e, h. repeat (split; [assumption|]). apply noted_more. exact Y7.
  - intros f Hf. destruct (E f Hf) as (Y1 & Y2 & Y3). rewrite app_length. split; [lia | auto].
  - intros e He. apply noted_more. exact (F e He).
  - intros f Hf. rewrite app_length. specialize (GN f Hf). lia.
Qed.
(** fewer transactions *)
Lemma tinvi_sub fns gone tx tx' nw nw' j : tinvi fns gone tx nw j -> (forall n p x o, tx' n = Some (p, x, o) -> exists o0, tx n = Some (p, x, o0)) ->
  (forall n p h, nw' n = Some (p, h) -> nw n = Some (p, h)) -> tinvi fns gone tx' nw' j.
Proof.
  intros [A B C D E F G GN] S T. split; try assumption.
  - intros n p x o X. destruct (S n p x o X) as (o0 & Y). exact (A n p x o0 Y).
  - intros n m p x o q y o' f X Y. destruct (S n p x o X) as (o0 & X'). destruct (S m q y o' Y) as (o1 & Y'). exact (B _ _ _ _ _ _ _ _ _ X' Y').
  - intros n p x o X. destruct (S n p x o X) as (o0 & Y). exact (C n p x o0 Y).
  - intros f Hf. destruct (E f Hf) as (Y1 & Y2 & Y3). split; [exact Y1|]. split; [exact Y2|]. intros n p x o X. destruct (S n p x o X) as (o0 & Y). exact (Y3 n p x o0 Y).
  - intros n p h X. exact (G n p h (T n p h X)).
Qed.
Lemma lfind_forget n m l : m <> n -> lfind m (lforget n l) = lfind m l.
Proof.
  intros N. unfold lfind, lforget. induction l as [|[a e] l IH]; [reflexivity|]. cbn [filter fst find]. destruct (Nat.eqb_spec n a) as [<-|D]; cbn [negb find fst].
  - destruct (Nat.eqb_spec m n) as [->|]; [congruence | exact IH].
  - destruct (Nat.eqb m a); [reflexivity | exact IH].
Qed.
Lemma lfind_cons n e l : lfind n ((n, e) :: l) = Some e.
Proof. unfold lfind. cbn [find fst]. rewrite Nat.eqb_refl. reflexivity. Qed.
Lemma lfind_other n m e l : m <> n -> lfind m ((n, e) :: l) = lfind m l.
Proof. intros N. unfold lfind. cbn [find fst]. destruct (Nat.eqb_spec m n) as [->|]; [congruence | reflexivity]. Qed.
(** transaction [n] is over, and its notes are put away *)
Lemma tinvi_drop fns gone tx nw j n nw' rest : tinvi fns gone tx nw j -> (forall m p h, nw' m = Some (p, h) -> nw m = Some (p, h) \/ cinv L h) ->
  tinvi fns gone (upd tx n None) nw' (GLog (lforget n (l_open j)) (l_done j) rest).
Proof.
  intros I T. assert (S : forall m p x o, upd tx n None m = Some (p, x, o) -> m <> n /\ tx m = Some (p, x, o)).
  { intros m p x o. unfold upd. destruct (Nat.eqb_spec m n) as [->|N]; [discriminate | auto]. }
  destruct I as [A B C D E F G GN]. split; cbn [l_open l_done]; try assumption.
  - intros m p x o X. exact (A m p x o (proj2 (S _ _ _ _ X))).
  - intros m m' p x o q y o' f X Y. exact (B _ _ _ _ _ _ _ _ _ (proj2 (S _ _ _ _ X)) (proj2 (S _ _ _ _ Y))).
  - intros m p x o X. apply S in X. destruct X as [N X]. destruct (C m p x o X) as (e & h & Y). exists e, h. rewrite lfind_forget by exact N. exact Y.
  - intros f Hf. destruct (E f Hf) as (Y1 & Y2 & Y3). split; [exact Y1|]. split; [exact Y2|]. intros m p x o X. exact (Y3 m p x o (proj2 (S _ _ _ _ X))).
  - intros m p h X. destruct (T m p h X) as [Y|Y]; [exact (G m p h Y) | exact Y].
Qed.
(** cancel functions of nobody's any more run *)
Lemma tinvi_gone fns gone ran tx nw j : tinvi fns gone tx nw j -> (forall n p x o f, tx n = Some (p, x, o) -> In f (dt_cancels x) -> ~ In f ran) ->
  (forall f, In f (flat_map (fun e => map fst (pairs e)) (l_done j)) -> ~ In f ran) -> (forall f, In f ran -> (f < length fns)%nat) -> tinvi fns (gone ++ ran) tx nw j.
Proof.
  intros [A B C D E F G GN] S T RN. split; try assumption.
  - intros n p x o X. destruct (A n p x o X) as [Y Z]. split; [exact Y|]. intros f Hf. destruct (Z f Hf) as [Z1 Z2]. split; [exact Z1|]. intros W. apply in_app_or in W. destruct W as [W|W]; [exact (Z2 W) | exact (S n p x o f X Hf W)].
  - intros f Hf. destruct (E f Hf) as (Y1 & Y2 & Y3). split; [exact Y1|]. split; [|exact Y3]. intros W. apply in_app_or in W. destruct W as [W|W]; [exact (Y2 W) | exact (T f Hf W)].
  - intros f Hf. apply in_app_or in Hf. destruct Hf; auto.
Qed.
(** transaction [n] has committed *)
Lemma tinvi_commit fns gone tx nw j n p x o e : tinvi fns gone tx nw j -> tx n = Some (p, x, o) -> lfind n (l_open j) = Some e ->
  tinvi fns gone (upd tx n None) nw (GLog (lforget n (l_open j)) (l_done j ++ [e]) (l_rest j)).
Proof.
  intros I X Le. pose proof (tinvi_drop fns gone tx nw j n nw (l_rest j) I (fun m q h Y => or_introl Y)) as [A' B' C' D' E' F' G' GN']. cbn [l_open l_done] in *. destruct I as [A B C D E F G GN].
  destruct (C n p x o X) as (e0 & h & Y1 & Y2 & Y3 & _ & _ & _ & Y7). assert (e0 = e) by congruence. subst e0. destruct (A n p x o X) as [A1 A2].
  split; cbn [l_open l_done]; try assumption.
  - rewrite flat_map_app. cbn [flat_map]. rewrite app_nil_r. apply nodup_app_intro; [exact D | exact Y2|]. intros f Hf Hf'. destruct (E f Hf) as (_ & _ & Z). exact (Z n p x o X (Y3 f Hf')).
  - intros f Hf. rewrite flat_map_app in Hf. cbn [flat_map] in Hf. rewrite app_nil_r in Hf. apply in_app_or in Hf. destruct Hf as [Hf|Hf]; [exact (E' f Hf)|]. apply Y3 in Hf. destruct (A2 f Hf) as [Z1 Z2]. split; [exact Z1|]. split; [exact Z2|].
    intros m q y o' Y Hy. unfold upd in Y. destruct (Nat.eqb_spec m n) as [->|N]; [discriminate Y|]. apply N. exact (B _ _ _ _ _ _ _ _ _ Y X Hy Hf).
  - intros e0 He. apply in_app_or in He. destruct He as [He|[<-|[]]]; [exact (F e0 He) | exact Y7].
Qed.
(** transaction [n] begins *)
Lemma tinvi_begin fns gone tx nw nw' j n p h d u rest : tinvi fns gone tx nw j -> cinv L h -> (forall m p h, nw' m = Some (p, h) -> nw m = Some (p, h)) ->
  tinvi fns gone (upd tx n (Some (p, NewTxn h d u [], None))) nw' (GLog ((n, Entry p (shown_by h) u (length (l_done j)) []) :: lforget n (l_open j)) (l_done j) rest).
Proof.
  intros I CH T. pose proof (tinvi_drop fns gone tx nw j n nw' rest I (fun m q h Y => or_introl (T m q h Y))) as [A B C D E F G GN]. cbn [l_open l_done] in *.
  assert (S : forall m q x o, upd tx n (Some (p, NewTxn h d u [], None)) m = Some (q, x, o) -> m = n /\ x = NewTxn h d u [] \/ m <> n /\ upd tx n None m = Some (q, x, o)).
  { intros m q x o. unfold upd. destruct (Nat.eqb_spec m n) as [->|N]; [intros X; left; split; congruence | auto]. }
  split; cbn [l_open l_done]; try assumption.
  - intros m q x o X. apply S in X. destruct X as [[_ ->]|[_ X]]; [|exact (A m q x o X)]. split; [constructor | intros f []].
  - intros m m' q x o q' y o' f X Y Hx Hy. apply S in X. apply S in Y. destruct X as [[_ ->]|[_ X]]; [destruct Hx|]. destruct Y as [[_ ->]|[_ Y]]; [destruct Hy|]. exact (B _ _ _ _ _ _ _ _ _ X Y Hx Hy).
  - intros m q x o X. apply S in X. destruct X as [[-> ->]|[N X]].
    + eexists. exists h. split; [apply lfind_cons|]. unfold pairs. cbn [n_calls flat_map map]. split; [constructor|]. split; [intros f []|]. split; [reflexivity|]. split; [reflexivity|]. split; [exact CH|]. intros f a b z [].
    + rewrite lfind_other by exact N. exact (C m q x o X).
  - intros f Hf. destruct (E f Hf) as (Y1 & Y2 & Y3). split; [exact Y1|]. split; [exact Y2|]. intros m q x o X. apply S in X. destruct X as [[_ ->]|[_ X]]; [intros [] | exact (Y3 m q x o X)].
Qed.
(** a call: the cancel functions [l] are added, [g] is noted *)
Lemma tinvi_call fns gone tx nw j n p x x' e c r l : tinvi fns gone tx nw j -> tx n = Some (p, x, None) -> lfind n (l_open j) = Some e ->
  dt_cancels x' = dt_cancels x ++ l -> dt_start x' = dt_start x -> NoDup l ->
  (forall f, In f l -> (f < length fns)%nat /\ ~ In f gone /\ ~ In f (flat_map (fun e => map fst (pairs e)) (l_done j)) /\ forall m q y o, tx m = Some (q, y, o) -> ~ In f (dt_cancels y)) ->
  NoDup (map fst (pget (n_sees e) (c, r))) -> incl (map fst (pget (n_sees e) (c, r))) l ->
  (forall f a b d, In (f, (a, b, d)) (pget (n_sees e) (c, r)) -> exists q k, nth_error fns f = Some (q, ci_id k, d) /\ lookup L a b = Some k) ->
  tinvi fns gone (upd tx n (Some (p, x', None))) nw (GLog ((n, Entry (n_proc e) (n_sees e) (n_upd e) (n_seen e) (n_calls e ++ [(c, r)])) :: lforget n (l_open j)) (l_done j) (l_rest j)).
Proof.
  intros I X Le Ec Es Nl Hl Np Ip Nt. destruct I as [A B C D E F G GN].
  assert (S : forall m q y o, upd tx n (Some (p, x', None)) m = Some (q, y, o) -> m = n /\ y = x' \/ m <> n /\ tx m = Some (q, y, o)).
  { intros m q y o. unfold upd. destruct (Nat.eqb_spec m n) as [->|N]; [intros Y; left; split; congruence | auto]. }
  destruct (A n p x None X) as [A1 A2].
  split; cbn [l_open l_done]; try assumption.
  - intros m q y o Y. apply S in Y. destruct Y as [[-> ->]|[_ Y]]; [|exact (A m q y o Y)]. rewrite Ec. split.
    + apply nodup_app_intro; [exact A1 | exact Nl|]. intros f H1 H2. destruct (Hl f H2) as (_ & _ & _ & H3). exact (H3 n p x None X H1).
    + intros f Hf. apply in_app_or in Hf. destruct Hf as [Hf|Hf]; [exact (A2 f Hf)|]. destruct (Hl f Hf) as (H1 & H2 & _). auto.
  - intros m m' q y o q' y' o' f Y Y' H H'. apply S in Y. apply S in Y'. destruct Y as [[-> ->]|[N Y]], Y' as [[-> ->]|[N' Y']].
    + reflexivity.
    + rewrite Ec in H. apply in_app_or in H. destruct H as [H|H]; [exact (B _ _ _ _ _ _ _ _ _ X Y' H H')|]. exfalso. destruct (Hl f H) as (_ & _ & _ & H3). exact (H3 _ _ _ _ Y' H').
    + rewrite Ec in H'. apply in_app_or in H'. destruct H' as [H'|H']; [exact (B _ _ _ _ _ _ _ _ _ Y X H H')|]. exfalso. destruct (Hl f H') as (_ & _ & _ & H3). exact (H3 _ _ _ _ Y H).
    + exact (B _ _ _ _ _ _ _ _ _ Y Y' H H').
  - intros m q y o Y. apply S in Y. destruct Y as [[-> ->]|[N Y]].
    + destruct (C n p x None X) as (e0 & h & Y1 & Y2 & Y3 & Y4 & Y5 & Y6 & Y7). assert (e0 = e) by congruence. subst e0.
      assert (PE : pairs (Entry (n_proc e) (n_sees e) (n_upd e) (n_seen e) (n_calls e ++ [(c, r)])) = pairs e ++ pget (n_sees e) (c, r)).
      { unfold pairs. cbn [n_calls n_sees]. rewrite flat_map_app. cbn [flat_map]. rewrite app_nil_r. reflexivity. }
      eexists. exists h. split; [apply lfind_cons|]. rewrite PE, map_app, Ec, Es. cbn [n_sees]. split; [|split; [|split; [exact Y4|split; [exact Y5|split; [exact Y6|]]]]].
      * apply nodup_app_intro; [exact Y2 | exact Np|]. intros f H1 H2. apply Y3 in H1. apply Ip in H2. destruct (Hl f H2) as (_ & _ & _ & H3). exact (H3 n p x None X H1).
      * intros f H. apply in_app_or in H. apply in_or_app. destruct H as [H|H]; [left; exact (Y3 f H) | right; exact (Ip f H)].
      * intros f a b d H. rewrite PE in H. apply in_app_or in H. destruct H as [H|H]; [exact (Y7 f a b d H) | exact (Nt f a b d H)].
    + rewrite lfind_other by exact N. rewrite lfind_forget by exact N. exact (C m q y o Y).
  - intros f Hf. destruct (E f Hf) as (Y1 & Y2 & Y3). split; [exact Y1|]. split; [exact Y2|]. intros m q y o Y. apply S in Y. destruct Y as [[-> ->]|[_ Y]]; [|exact (Y3 m q y o Y)].
    rewrite Ec. intros H. apply in_app_or in H. destruct H as [H|H]; [exact (Y3 n p x None X H)|]. destruct (Hl f H) as (_ & _ & H3 & _). exact (H3 Hf).
Qed.
(** * One step *)
Lemma op_keeps m dbn coll o x x' r : call_exec x (Op m dbn coll o) = (x', r) -> dt_cancels x' = dt_cancels x /\ dt_start x' = dt_start x.
Proof.
  cbn [call_exec]. unfold with_coll. destruct (resolve (dt_start x) dbn coll) as [c|]; [|intros E; assert (x' = x) by congruence; subst; auto].
  destruct (op_tx c o (dt_t (if m then ReferredCollections x [c] else x))) as [t v]. intros E. assert (x' = with_t (if m then ReferredCollections x [c] else x) t) by congruence. subst x'. destruct m; auto.
Qed.
Lemma insert_keeps m dbn coll did data f x x' r c : call_exec x (InsertOne m dbn coll did data f) = (x', r) -> resolve (dt_start x) dbn coll = Some c ->
  dt_start x' = dt_start x /\ (dt_cancels x' = dt_cancels x ++ [f] \/ dt_cancels x' = dt_cancels x /\ r = Panic).
Proof.
  cbn [call_exec]. intros E R. rewrite R in E. set (x1 := if m then ReferredCollections x [c] else x) in *. assert (S1 : dt_start x1 = dt_start x /\ dt_cancels x1 = dt_cancels x) by (unfold x1; destruct m; auto). destruct S1 as [S1 S2].
  destruct (tset (docKey c did) data (dt_t x1)) as [t v]. unfold AddCancelFunc in E. destruct (negb (dt_upd (with_t x1 t))).
  - match type of E with (?a, ?b) = _ => assert (X : x' = a /\ r = b) by (split; congruence) end. destruct X as [-> ->]. cbn [with_t dt_start dt_cancels]. split; [exact S1 | right; split; [exact S2 | reflexivity]].
  - match type of E with (?a, ?b) = _ => assert (X : x' = a /\ r = b) by (split; congruence) end. destruct X as [-> _]. cbn [with_t dt_start dt_cancels]. split; [exact S1 | left; rewrite S2; reflexivity].
Qed.
Lemma insert_unseen m dbn coll did data f x x' r : call_exec x (InsertOne m dbn coll did data f) = (x', r) -> resolve (dt_start x) dbn coll = None -> x' = x.
Proof. cbn [call_exec]. intros E R. rewrite R in E. congruence. Qed.
Lemma dcommit_ran h d io x h' d' x' r ran : dcommit h d io x = (h', d', x', r, ran) -> ran = [] \/ ran = dt_cancels x /\ r <> Ok tt.
Proof.
  unfold dcommit. destruct (negb (dt_upd x)); [intros E; left; congruence|]. destruct (Check h false (dt_start x) (dt_refs x)) as [h1 [[|]| |]].
  - destruct (commit d (dt_t x) io) as [[d1 t1] [u|e|]]; intros E; [left; congruence | right; split; congruence | left; congruence].
  - intros E. right. split; congruence.
  - intros E. right. split; congruence.
  - intros E. left. congruence.
Qed.
Definition new_leases (g : gsys) (e : gev) : list lease := match e with GDdl k => granted (g_k g) k | _ => [] end.
Lemma granted_one y e : granted y e = [] \/ exists l, granted y e = [l].
Proof.
  destruct e as [n c|n io|n|p|t io]; cbn [granted]; auto. destruct (k_open y n) as [[[[i|i|p o|a b s|a b s] d0] v]|]; auto. destruct (snd (run_update _ _ _ _ _)); eauto.
Qed.
Lemma upd_cases {X} (f : nat -> option X) n x m z : upd f n x m = Some z -> m = n /\ x = Some z \/ m <> n /\ f m = Some z.
Proof. unfold upd. destruct (Nat.eqb_spec m n) as [->|N]; auto. Qed.
Variable J : json.
Variable B : Z.
Lemma istep_inv s j ls gone e ge : pinv (i_mem s) (i_fns s) gone ls -> tinvi (i_fns s) gone (g_tx (i_g s)) (g_new (i_g s)) j -> shape_ok B e -> (forall p, cinv L (g_h (i_g s) p)) ->
  performs s e = Some ge -> (forall l x, In l (new_leases (i_g s) ge) -> In x ls -> l_coll x = l_coll l -> l_to x <= l_from l) ->
  exists gone', pinv (i_mem (istep J s e)) (i_fns (istep J s e)) gone' (ls ++ new_leases (i_g s) ge) /\
    tinvi (i_fns (istep J s e)) gone' (g_tx (i_g (istep J s e))) (g_new (i_g (istep J s e))) (lstep (i_g s) j ge (snd (gstep J (i_g s) ge))).
Proof.
  intros P T K CH PE DIS. unfold istep. rewrite PE. destruct s as [g m rq fns]. cbn [i_g i_mem i_req i_fns] in *. destruct e as [e|n p a c st|n mark dbn coll data].
  - assert (Ege : ge = e) by (cbn [performs] in PE; congruence). subst ge. destruct e as [e|p|p|n p|n u|n c|n|n io|n].
    + destruct e as [n c|n io|n|p|t io]; cbn [recall i_g i_mem i_req i_fns new_leases granted gstep fst snd lstep g_tx g_new]; rewrite ?app_nil_r.
      * exists gone. auto.
      * exists gone. split; [|exact T]. fold (granted (g_k g) (KEnd n io)). cbn [new_leases] in DIS. destruct (granted_one (g_k g) (KEnd n io)) as [E|(l & E)]; rewrite E in *.
        { destruct (rq n); rewrite app_nil_r; exact P. }
        destruct (rq n) as [p|]; [|apply pinv_more; exact P]. apply pinv_lease; [exact P|]. intros x Hx. apply DIS; [left; reflexivity | exact Hx].
      * exists gone. auto.
      * exists gone. split.
        { eapply pinv_sub; [exact P|]. intros q c y. cbv beta. destruct (Nat.eqb q p); [discriminate | auto]. }
        eapply tinvi_sub; [exact T | |].
        { intros n q x o X. apply survives_some in X. eauto. }
        { intros n q h X. apply stays_some in X. exact X. }
      * exists gone. auto.
    + exists gone. cbn [recall i_g i_mem i_req i_fns new_leases gstep lstep]. rewrite app_nil_r. split; [exact P|]. destruct (g_rel g p); exact T.
    + exists gone. cbn [recall i_g i_mem i_req i_fns new_leases gstep lstep]. rewrite app_nil_r. split; [exact P|]. destruct (g_rel g p) as [d|]; [|exact T]. destruct (reloadSchema J d (g_h g p) (g_next g)). exact T.
    + exists gone. cbn [recall i_g i_mem i_req i_fns new_leases gstep lstep fst snd g_tx g_new]. rewrite app_nil_r. split; [exact P|]. eapply tinvi_drop; [exact T|]. intros k q h X. apply upd_cases in X. destruct X as [[_ X]|[_ X]]; [right | left; exact X].
      assert (h = g_h g p) by congruence. subst h. apply CH.
    + exists gone. cbn [recall i_g i_mem i_req i_fns new_leases gstep lstep]. rewrite app_nil_r. split; [exact P|]. destruct (g_new g n) as [[p h]|] eqn:Nw; [|exact T]. cbn [fst snd g_tx g_new].
      eapply tinvi_begin; [exact T | exact (ti_new _ _ _ _ _ T n p h Nw)|]. intros k q h' X. apply upd_cases in X. destruct X as [[_ X]|[_ X]]; [discriminate X | exact X].
    + exists gone. cbn [recall i_g i_mem i_req i_fns new_leases gstep]. rewrite app_nil_r. split; [exact P|]. destruct (g_tx g n) as [[[p x] [h|]]|] eqn:X; [exact T | | exact T].
      destruct c as [mk dbn coll o|mk dbn coll did v f]; [|destruct K]. destruct (call_exec x (Op mk dbn coll o)) as [x' r] eqn:Ec. cbn [fst snd set_tx g_tx g_new lstep].
      destruct (ti_open _ _ _ _ _ T n p x None X) as (e & h & Le & _). rewrite Le. destruct (op_keeps _ _ _ _ _ _ _ Ec) as [E1 E2].
      eapply tinvi_call with (l := []); [exact T | exact X | exact Le | rewrite app_nil_r; exact E1 | exact E2 | constructor | intros f [] | constructor | intros f [] | intros f a b d []].
    + exists gone. cbn [recall i_g i_mem i_req i_fns new_leases gstep]. rewrite app_nil_r. split; [exact P|]. destruct (g_tx g n) as [[[p x] [h|]]|] eqn:X; [exact T | | exact T]. destruct (dt_upd x); [|exact T]. cbn [fst snd lstep g_tx g_new].
      eapply tinvi_sub; [exact T | | auto]. intros k q y o Y. apply upd_cases in Y. destruct Y as [[-> Y]|[_ Y]]; [|eauto]. exists None. congruence.
    + cbn [recall i_g i_mem i_req i_fns new_leases gstep]. rewrite app_nil_r. unfold cancelled. destruct (g_tx g n) as [[[p x] [h|]]|] eqn:X; [| |exists gone; auto].
      * destruct (dcommit h (g_db g) io x) as [[[[h1 d1] x1] r] ran] eqn:Ed. cbn [fst snd g_tx g_new]. destruct (ti_open _ _ _ _ _ T n p x (Some h) X) as (e & h0 & Le & _). destruct (dcommit_ran _ _ _ _ _ _ _ _ _ Ed) as [->|[-> Nr]].
        { exists gone. cbn [fold_left]. split; [exact P|]. cbn [lstep]. destruct r as [u|er|].
          - rewrite Le. destruct (nchanged e); [eapply tinvi_commit; [exact T | exact X | exact Le] | eapply tinvi_drop; [exact T | auto]].
          - eapply tinvi_drop; [exact T | auto].
          - eapply tinvi_drop; [exact T | auto]. }
        { destruct (ti_own _ _ _ _ _ T n p x (Some h) X) as [O1 O2]. exists (gone ++ dt_cancels x). split; [apply pinv_backs; [exact P | exact O1 | intros f Hf; exact (proj2 (O2 f Hf))]|].
          assert (TT : tinvi fns (gone ++ dt_cancels x) (upd (g_tx g) n None) (g_new g) (GLog (lforget n (l_open j)) (l_done j) (l_rest j ++ lleft n (l_open j)))).
          { eapply tinvi_gone; [eapply tinvi_drop; [exact T | auto] | | | intros f Hf; exact (proj1 (O2 f Hf))].
            - intros k q y o f Y Hf Hx. apply upd_cases in Y. destruct Y as [[_ Y]|[N Y]]; [discriminate Y|]. apply N. exact (ti_apart _ _ _ _ _ T _ _ _ _ _ _ _ _ _ Y X Hf Hx).
            - cbn [l_done]. intros f Hf Hx. destruct (ti_kept _ _ _ _ _ T f Hf) as (_ & _ & Z). exact (Z n p x (Some h) X Hx). }
          cbn [lstep]. destruct r as [u|er|]; [destruct u; congruence | exact TT | exact TT]. }
      * exists gone. cbn [fold_left]. split; [exact P|]. destruct (dt_upd x); [exact T|]. cbn [fst snd set_tx g_tx g_new lstep]. destruct (ti_open _ _ _ _ _ T n p x None X) as (e & h0 & Le & _). rewrite Le.
        destruct (nchanged e); [eapply tinvi_commit; [exact T | exact X | exact Le] | eapply tinvi_drop; [exact T | auto]].
    + exists gone. cbn [recall i_g i_mem i_req i_fns new_leases gstep lstep fst snd set_tx g_tx g_new]. rewrite app_nil_r. split; [exact P|]. eapply tinvi_drop; [exact T | auto].
  - cbn [performs i_g] in PE. destruct (issued (k_jobs (g_k g)) a c); [|discriminate PE]. assert (Ege : ge = GDdl (KBegin n (KDid a c st))) by congruence. subst ge. exists gone. cbn [recall i_g i_mem i_req i_fns new_leases granted gstep fst snd lstep g_tx g_new]. rewrite app_nil_r. auto.
  - cbn [performs i_g i_fns] in PE. cbn [recall i_g i_mem i_req i_fns]. destruct (draw (ISys g m rq fns) n dbn coll) as [[did up]|] eqn:Dr; [|discriminate PE]. assert (Ege : ge = GCall n (InsertOne mark dbn coll did data (length fns))) by congruence. subst ge. clear PE.
    unfold draw in Dr. cbn [i_g i_mem] in Dr. cbn [gstep new_leases]. rewrite app_nil_r. destruct (g_tx g n) as [[[p x] [h|]]|] eqn:X; try discriminate Dr.
    destruct (call_exec x (InsertOne mark dbn coll did data (length fns))) as [x' r] eqn:Ec. cbn [fst snd set_tx lstep]. destruct (ti_open _ _ _ _ _ T n p x None X) as (e & h & Le & _ & _ & SE & SX & CI & _). rewrite Le.
    destruct (resolve (dt_start x) dbn coll) as [c|] eqn:R.
    + destruct (m p c) as [q|] eqn:Q; [|discriminate Dr]. destruct (take q) as [[d q']|] eqn:Tk; [|discriminate Dr]. assert (E : did = d /\ up = Some (p, c, q')) by (split; congruence). destruct E as [-> ->].
      exists gone. cbn [i_mem i_fns i_g g_tx g_new]. split; [eapply pinv_take; eassumption|].
      destruct (insert_keeps _ _ _ _ _ _ _ _ _ _ Ec R) as [E1 E2]. rewrite SX in R. destruct (cached_lookup L h dbn coll c CI R) as (k & Lk & Ek).
      assert (FR : (length fns < length (fns ++ [(p, c, d)]))%nat /\ ~ In (length fns) gone /\ ~ In (length fns) (flat_map (fun e => map fst (pairs e)) (l_done j)) /\ forall m0 q0 y o, g_tx g m0 = Some (q0, y, o) -> ~ In (length fns) (dt_cancels y)) .
      { rewrite app_length. cbn [length]. split; [lia|]. split; [intros Z; apply (ti_gone _ _ _ _ _ T) in Z; lia|]. split; [intros Z; destruct (ti_kept _ _ _ _ _ T _ Z) as (Z1 & _); lia|].
        intros m0 q0 y o Y Z. destruct (ti_own _ _ _ _ _ T _ _ _ _ Y) as [_ O2]. destruct (O2 _ Z) as [O3 _]. lia. }
      pose proof (tinvi_more fns [(p, c, d)] gone _ _ _ T) as T'.
      destruct E2 as [E2|[E2 ->]].
      * eapply tinvi_call with (l := [length fns]); [exact T' | exact X | exact Le | exact E2 | exact E1 | repeat constructor; intros [] | intros f [<-|[]]; exact FR | | |]; cbn [pget].
        { destruct r as [rv|re|]; [|constructor..]. destruct (n_sees e dbn coll); cbn [map]; repeat constructor; intros []. }
        { destruct r as [rv|re|]; [|intros f []..]. destruct (n_sees e dbn coll); cbn [map fst]; [intros f Hf; exact Hf | intros f []]. }
        { destruct r as [rv|re|]; [|intros f a b z []..]. destruct (n_sees e dbn coll); [|intros f a b z []]. intros f a b z [Z|[]]. assert (Z' : f = length fns /\ a = dbn /\ b = coll /\ z = d) by (repeat split; congruence). destruct Z' as (-> & -> & -> & ->).
          exists p, k. split; [|exact Lk]. rewrite nth_error_app2 by lia. rewrite Nat.sub_diag, Ek. reflexivity. }
      * eapply tinvi_call with (l := []); [exact T' | exact X | exact Le | rewrite app_nil_r; exact E2 | exact E1 | constructor | intros f [] | constructor | intros f [] | intros f a b z []].
    + assert (E : did = 0 /\ up = None) by (split; congruence). destruct E as [-> ->]. exists gone. cbn [i_mem i_fns i_g g_tx g_new]. split; [exact P|]. pose proof (insert_unseen _ _ _ _ _ _ _ _ _ Ec R). subst x'.
      assert (NS : n_sees e dbn coll = false) by (rewrite SE, shown_resolve, <- SX, R; reflexivity).
      assert (PG : pget (n_sees e) (InsertOne mark dbn coll 0 data (length fns), r) = []) by (cbn [pget]; rewrite NS; destruct r; reflexivity).
      eapply tinvi_call with (l := []); [exact T | exact X | exact Le | rewrite app_nil_r; reflexivity | reflexivity | constructor | intros f [] | rewrite PG; constructor | rewrite PG; intros f [] | rewrite PG; intros f a b z []].
Qed.
(** * Any history *)
Fixpoint gleases (g : gsys) (es : list gev) : list lease := match es with [] => [] | e :: es' => new_leases g e ++ gleases (fst (gstep J g e)) es' end.
Definition rises (l : list lease) : Prop := forall A y Z x, l = A ++ y :: Z -> In x A -> l_coll x = l_coll y -> l_to x <= l_from y.
Lemma rises_at ls n r l x : rises (ls ++ n ++ r) -> length n = 1%nat \/ n = [] -> In l n -> In x ls -> l_coll x = l_coll l -> l_to x <= l_from l.
Proof.
  intros H [N|N] I X E; [|subst n; destruct I]. destruct n as [|y [|z n]]; try discriminate N. destruct I as [<-|[]]. exact (H ls y r x eq_refl X E).
Qed.
Lemma iworked_inv es : forall s j ls gone, pinv (i_mem s) (i_fns s) gone ls -> tinvi (i_fns s) gone (g_tx (i_g s)) (g_new (i_g s)) j -> Forall (shape_ok B) es ->
  (forall a b, performed J s es = a ++ b -> forall p, cinv L (g_h (grun J (i_g s) a) p)) -> rises (ls ++ gleases (i_g s) (performed J s es)) ->
  let '(s', j') := iworked J s j es in exists gone' ls', pinv (i_mem s') (i_fns s') gone' ls' /\ tinvi (i_fns s') gone' (g_tx (i_g s')) (g_new (i_g s')) j' /\ ls' = ls ++ gleases (i_g s) (performed J s es).
Proof.
  induction es as [|e es IH]; intros s j ls gone P T F CH RI; cbn [iworked performed] in *; [exists gone, ls; cbn [gleases]; rewrite app_nil_r; auto|]. inversion F as [|? ? F1 F2]; subst.
  destruct (performs s e) as [ge|] eqn:PE.
  - assert (G1 : i_g (istep J s e) = fst (gstep J (i_g s) ge)).
    { unfold istep. rewrite PE. destruct (recall s e) as [[m r] fns]. reflexivity. }
    cbn [gleases] in RI.
    assert (N1 : length (new_leases (i_g s) ge) = 1%nat \/ new_leases (i_g s) ge = []).
    { destruct ge as [k| | | | | | | |]; auto. cbn [new_leases]. destruct (granted_one (g_k (i_g s)) k) as [E|(l & E)]; rewrite E; auto. }
    destruct (istep_inv s j ls gone e ge P T F1 (CH [] (ge :: performed J (istep J s e) es) eq_refl) PE (fun l x => rises_at _ _ _ l x RI N1)) as (gone' & P' & T').
    pose proof (IH (istep J s e) (lstep (i_g s) j ge (snd (gstep J (i_g s) ge))) (ls ++ new_leases (i_g s) ge) gone' P' T' F2) as X.
    destruct (iworked J (istep J s e) (lstep (i_g s) j ge (snd (gstep J (i_g s) ge))) es) as [s' j']. destruct X as (gone2 & ls2 & X1 & X2 & X3).
    + intros a b E p. rewrite G1. apply (CH (ge :: a) b). rewrite E. reflexivity.
    + rewrite G1, <- app_assoc. exact RI.
    + exists gone2, ls2. split; [exact X1|]. split; [exact X2|]. cbn [gleases]. rewrite X3, G1, app_assoc. reflexivity.
  - assert (S1 : istep J s e = s) by (unfold istep; rewrite PE; reflexivity). rewrite S1 in *. eapply IH; eassumption.
Qed.
(** the notes are those of the events of AllSerial.v *)
Lemma iworked_worked es : forall s j, i_g (fst (iworked J s j es)) = fst (worked J (i_g s) j (performed J s es)) /\ snd (iworked J s j es) = snd (worked J (i_g s) j (performed J s es)).
Proof.
  induction es as [|e es IH]; intros s j; cbn [iworked performed]; [auto|]. destruct (performs s e) as [ge|] eqn:PE.
  - assert (G1 : i_g (istep J s e) = fst (gstep J (i_g s) ge)).
    { unfold istep. rewrite PE. destruct (recall s e) as [[m r] fns]. reflexivity. }
    cbn [worked]. specialize (IH (istep J s e) (lstep (i_g s) j ge (snd (gstep J (i_g s) ge)))). rewrite G1 in IH. destruct (gstep J (i_g s) ge) as [g1 an]. exact IH.
  - assert (S1 : istep J s e = s) by (unfold istep; rewrite PE; reflexivity). rewrite S1 in *. apply IH.
Qed.
End Catalogue.

(** * The catalogue and the leases of a history *)
Section Whole.
Variable J : json.
Hypothesis JO : json_ok J.
Lemma falong es : forall T G f D R st A, finv J T G f D R st A -> Forall kev_ok (ddl_of es) -> fok J f es -> T + kload J (f_k f) (ddl_of es) < two63 ->
  exists T' G' D' R' st' A', finv J T' G' (frun J f es) D' R' st' A' /\ (exists l, applied D' R' st' = applied D R st ++ l) /\ forall es1 es2, es = es1 ++ es2 -> forall p, cinv (applied D' R' st') (f_h (frun J f es1) p).
Proof.
  induction es as [|e es IH]; intros T G f D R st A I F O LT.
  { exists T, G, D, R, st, A. split; [exact I|]. split; [apply grew|]. intros [|x es1] es2 E p; [|discriminate E]. exact (proj1 (proj2 (fi_h _ _ _ _ _ _ _ _ I p))). }
  assert (EQ : kload J (f_k f) (ddl_of (e :: es)) = fweight f e + kload J (f_k (fstep J f e)) (ddl_of es)).
  { rewrite fstep_k. destruct e; cbn [ddl_of flat_map app fweight]; try reflexivity. }
  destruct O as [O1 O2]. assert (F2 : Forall kev_ok (ddl_of es)) by (destruct e; cbn [ddl_of flat_map app] in F; [inversion F; assumption | exact F ..]).
  assert (F1 : forall k, e = FDdl k -> kev_ok k) by (intros k ->; cbn [ddl_of flat_map app] in F; inversion F; assumption).
  pose proof (kload_nonneg J (ddl_of es) (f_k (fstep J f e))) as L0. rewrite EQ in *.
  destruct (fstep_inv J JO T G f D R st A e I F1 O1 ltac:(lia)) as (D1 & R1 & st1 & A1 & I1 & (l1 & G1) & _).
  destruct (IH _ _ _ _ _ _ _ I1 F2 O2 ltac:(lia)) as (T' & G' & D2 & R2 & st2 & A2 & I2 & (l2 & G2) & H). exists T', G', D2, R2, st2, A2. split; [exact I2|]. split; [exists (l1 ++ l2); rewrite G2, G1, app_assoc; reflexivity|].
  intros [|x es1] es2 E p.
  - cbn [frun fold_left]. rewrite G2, G1, <- app_assoc. apply cinv_more. exact (proj1 (proj2 (fi_h _ _ _ _ _ _ _ _ I p))).
  - assert (E' : x = e /\ es = es1 ++ es2) by (cbn [app] in E; split; congruence). destruct E' as [-> E']. unfold frun. cbn [fold_left]. exact (H es1 es2 E' p).
Qed.
Variable now : Z.
Variable clamp : bool.
Notation d0 := (db_init now clamp).
Lemma gfrel : frel (gstart d0) (fstart d0).
Proof. split; try reflexivity; cbn [gstart g_tx ftxn]; discriminate. Qed.
Lemma gtinv : tinv (gstart d0).
Proof. intros m0 q x o X. discriminate X. Qed.
Lemma catalogue gs : world_ok J d0 gs -> exists L, ids_apart L /\ (forall a b, gs = a ++ b -> forall p, cinv L (g_h (grun J (gstart d0) a) p)) /\ NoDup (flat_map ids_of (k_jobs (g_k (grun J (gstart d0) gs)))).
Proof.
  intros (F & _ & LT). destruct (gprojs_run J gs _ _ gtinv gfrel F) as ([R0 _ _ _ _] & R2 & R3 & R4).
  destruct (falong (gprojs J (gstart d0) gs) 0 _ _ _ _ _ _ (fstart_inv J d0 (P_Ddl.empty_holds J d0 (db_ok_init now clamp) ltac:(intros k _; reflexivity)) ltac:(intros k e X; discriminate X)) R3 R2 ltac:(rewrite R4; lia)) as (T' & G' & D & R & st & A & I & _ & H).
  pose proof (fi_k _ _ _ _ _ _ _ _ I) as K. exists (applied D R st). split; [|split].
  - intros a b a' b' k k' K1 K2 E. eapply ProcessIds.lookup_inj; [|exact K1 | exact K2 | exact E]. exact (ProcessProofs.applied_ids J _ _ _ _ _ _ (ki_sys _ _ _ _ _ _ _ K)).
  - intros a b -> p. apply Forall_app in F. destruct F as [Fa _]. destruct (gprojs_run J a _ _ gtinv gfrel Fa) as ([_ A2 _ _ _] & _). rewrite <- A2. apply (H _ (gprojs J (grun J (gstart d0) a) b)). apply gprojs_app.
  - rewrite <- R0. pose proof (ki_sys _ _ _ _ _ _ _ K) as Sy. pose proof (si_jobs _ _ _ _ _ _ _ Sy) as X. cbn [ksnap y_jobs] in X. rewrite X. exact (proj1 (ds_ids _ _ _ _ (si_state _ _ _ _ _ _ _ Sy))).
Qed.
Lemma leases_app es : forall y es', leases J y (es ++ es') = leases J y es ++ leases J (krun J y es) es'.
Proof. induction es as [|e es IH]; intros y es'; [reflexivity|]. cbn [app leases]. rewrite IH, app_assoc. reflexivity. Qed.
Lemma leases_proj g e : leases J (g_k g) (ddl_of (gproj g e)) = new_leases g e.
Proof.
  destruct e as [e|p|p|n p|n u|n c|n|n io|n]; cbn [gproj ddl_of flat_map app leases new_leases]; rewrite ?app_nil_r; try reflexivity.
  - destruct (g_tx g n) as [[[p x] [h|]]|]; try reflexivity. destruct (dt_upd x); reflexivity.
  - destruct (g_tx g n) as [[[p x] [h|]]|]; try reflexivity. destruct (snd (Check h false (dt_start x) (dt_refs x))) as [[|]| |]; reflexivity.
Qed.
Lemma gleases_leases gs : forall g f, tinv g -> frel g f -> Forall gev_ok gs -> gleases J g gs = leases J (g_k g) (ddl_of (gprojs J g gs)).
Proof.
  induction gs as [|e gs IH]; intros g f T R F; [reflexivity|]. inversion F as [|? ? F1 F2]; subst. cbn [gleases gprojs]. rewrite ddl_of_app, leases_app, leases_proj. f_equal.
  destruct (gproj_step J g f e T R F1) as (R1 & _). rewrite (IH _ _ (tinv_step J g e T) R1 F2). f_equal. pose proof (frun_k J (gproj g e) f) as X. rewrite (fr_k _ _ R1), (fr_k _ _ R) in X. exact X.
Qed.
Lemma leasing_proj B g e : match e with GDdl k => leasing B k | _ => True end -> Forall (leasing B) (ddl_of (gproj g e)).
Proof.
  destruct e as [e|p|p|n p|n u|n c|n|n io|n]; cbn [gproj ddl_of flat_map app]; intros H; try constructor; try exact H; try constructor.
  - destruct (g_tx g n) as [[[p x] [h|]]|]; try constructor. destruct (dt_upd x); constructor.
  - destruct (g_tx g n) as [[[p x] [h|]]|]; try constructor. destruct (snd (Check h false (dt_start x) (dt_refs x))) as [[|]| |]; cbn; repeat constructor.
Qed.
Lemma performed_leasing B es : forall s, Forall (shape_ok B) es -> Forall (fun e => match e with GDdl k => leasing B k | _ => True end) (performed J s es).
Proof.
  induction es as [|e es IH]; intros s F; cbn [performed]; [constructor|]. inversion F as [|? ? F1 F2]; subst. destruct (performs s e) as [ge|] eqn:P; [|exact (IH _ F2)]. constructor; [|exact (IH _ F2)].
  destruct e as [e|n p a c st|n mark dbn coll data]; cbn [performs] in P.
  - assert (ge = e) by congruence. subst ge. destruct e as [[n [i|i|p o|a c s0|a c s0]|n io|n|p|t io]| | | | | | | |]; cbn [shape_ok] in F1; try exact Logic.I; destruct F1.
  - destruct (issued _ a c); [|discriminate P]. assert (E : ge = GDdl (KBegin n (KDid a c st))) by congruence. rewrite E. exact F1.
  - destruct (draw s n dbn coll) as [[d up]|]; [|discriminate P]. assert (E : ge = GCall n (InsertOne mark dbn coll d data (length (i_fns s)))) by congruence. rewrite E. exact Logic.I.
Qed.
Lemma leasing_projs B gs : forall g, Forall (fun e => match e with GDdl k => leasing B k | _ => True end) gs -> Forall (leasing B) (ddl_of (gprojs J g gs)).
Proof. induction gs as [|e gs IH]; intros g F; cbn [gprojs]; [constructor|]. inversion F as [|? ? F1 F2]; subst. rewrite ddl_of_app. apply Forall_app. split; [apply leasing_proj; exact F1 | apply IH; exact F2]. Qed.
(** every lease is for a collection of an accepted request *)
Definition from_jobs (y : ksys) : Prop := forall n a c s d v, k_open y n = Some (KDid a c s, d, v) -> issued (k_jobs y) a c = true.
Lemma issued_more l l' a c : issued l a c = true -> issued (l ++ l') a c = true.
Proof. unfold issued. intros H. rewrite existsb_app, H. reflexivity. Qed.
Lemma kstep_jobs y e : exists l, k_jobs (kstep J y e) = k_jobs y ++ l.
Proof.
  destruct e as [n c|n io|n|p|t io]; cbn [kstep]; try apply grew. destruct (k_open y n) as [[[c d] v]|]; [|apply grew]. apply (kend_jobs J (set_open y n None)).
Qed.
Lemma gstep_jobs g e : exists l, k_jobs (g_k (fst (gstep J g e))) = k_jobs (g_k g) ++ l.
Proof.
  destruct e as [e|p|p|n p|n u|n c|n|n io|n]; cbn [gstep]; try apply grew.
  - destruct (kstep_jobs (g_k g) e) as (l & E). exists l. destruct e; exact E.
  - destruct (g_rel g p); apply grew.
  - destruct (g_rel g p) as [d|]; [|apply grew]. destruct (reloadSchema J d (g_h g p) (g_next g)). apply grew.
  - destruct (g_new g n) as [[p h]|]; apply grew.
  - destruct (g_tx g n) as [[[p x] [h|]]|]; try apply grew. destruct (call_exec x c). apply grew.
  - destruct (g_tx g n) as [[[p x] [h|]]|]; try apply grew. destruct (dt_upd x); apply grew.
  - destruct (g_tx g n) as [[[p x] [h|]]|]; try apply grew.
    + destruct (dcommit h (g_db g) io x) as [[[[h1 d1] x1] r] ran]. apply grew.
    + destruct (dt_upd x); apply grew.
Qed.
Lemma grun_jobs gs : forall g, exists l, k_jobs (g_k (grun J g gs)) = k_jobs (g_k g) ++ l.
Proof. induction gs as [|e gs IH]; intros g; [apply grew|]. unfold grun. cbn [fold_left]. destruct (IH (fst (gstep J g e))) as (l & E). destruct (gstep_jobs g e) as (l' & E'). unfold grun in E. rewrite E, E'. exists (l' ++ l). rewrite app_assoc. reflexivity. Qed.
Lemma gstep_open g e n c : (forall m a b s, e = GDdl (KBegin m (KDid a b s)) -> False) -> k_open (g_k (fst (gstep J g e))) n = Some c -> match fst (fst c) with KDid _ _ _ => k_open (g_k g) n = Some c | _ => True end.
Proof.
  intros ND H. assert (K : k_open (g_k (fst (gstep J g e))) n = Some c -> k_open (g_k g) n = Some c \/ exists k c', e = GDdl k /\ k = KBegin n c' /\ fst (fst c) = c').
  { destruct e as [e|p|p|m p|m u|m q|m|m io|m]; cbn [gstep]; auto.
    - intros X. assert (Y : k_open (kstep J (g_k g) e) n = Some c) by (destruct e; exact X). apply step_open in Y. destruct Y as [Y|(c' & E & Y)]; [auto | right; exists e, c'; auto].
    - destruct (g_rel g p); auto.
    - destruct (g_rel g p) as [d|]; auto. destruct (reloadSchema J d (g_h g p) (g_next g)); auto.
    - destruct (g_new g m) as [[p h]|]; auto.
    - destruct (g_tx g m) as [[[p x] [h|]]|]; auto. destruct (call_exec x q); auto.
    - destruct (g_tx g m) as [[[p x] [h|]]|]; auto. destruct (dt_upd x); auto.
    - destruct (g_tx g m) as [[[p x] [h|]]|]; auto.
      + destruct (dcommit h (g_db g) io x) as [[[[h1 d1] x1] r] ran]. auto.
      + destruct (dt_upd x); auto. }
  destruct (K H) as [X|(k & c' & E1 & E2 & E3)]; destruct c as [[c d] v]; cbn [fst] in *; destruct c; auto. exfalso. subst. exact (ND _ _ _ _ eq_refl).
Qed.
Lemma lease_job g e l : from_jobs (g_k g) -> In l (new_leases g e) -> issued (k_jobs (g_k g)) (l_db l) (l_coll l) = true.
Proof.
  intros F I. destruct e as [e| | | | | | | |]; try destruct I. cbn [new_leases] in I. destruct e as [n c|n io|n|p|t io]; cbn [granted] in I; try destruct I. destruct (k_open (g_k g) n) as [[[[i|i|p o|a b s|a b s] d] v]|] eqn:E; try destruct I.
  destruct (snd (run_update _ _ _ _ _)); try destruct I as [<-|[]]; try destruct I. cbn [l_db l_coll]. exact (F _ _ _ _ _ _ E).
Qed.
Lemma all_issued B es : forall s, Forall (shape_ok B) es -> from_jobs (g_k (i_g s)) -> forall l, In l (gleases J (i_g s) (performed J s es)) -> issued (k_jobs (g_k (grun J (i_g s) (performed J s es)))) (l_db l) (l_coll l) = true.
Proof.
  induction es as [|e es IH]; intros s F FJ l; cbn [performed]; [intros []|]. inversion F as [|? ? F1 F2]; subst. destruct (performs s e) as [ge|] eqn:P.
  - assert (G1 : i_g (istep J s e) = fst (gstep J (i_g s) ge)).
    { unfold istep. rewrite P. destruct (recall s e) as [[m r] fns]. reflexivity. }
    assert (FJ' : from_jobs (g_k (fst (gstep J (i_g s) ge)))).
    { intros n a c st d v O. destruct (gstep_jobs (i_g s) ge) as (l0 & E0).
      destruct e as [e|n0 p0 a0 c0 st0|n0 mark dbn coll data]; cbn [performs] in P.
      - assert (ge = e) by congruence. subst ge. apply gstep_open in O; [cbn [fst] in O; rewrite E0; apply issued_more; exact (FJ _ _ _ _ _ _ O)|]. intros m a1 b1 s1 ->. exact F1.
      - destruct (issued (k_jobs (g_k (i_g s))) a0 c0) eqn:IS; [|discriminate P]. assert (E : ge = GDdl (KBegin n0 (KDid a0 c0 st0))) by congruence. subst ge. rewrite E0. apply issued_more. cbn [gstep fst g_k kstep] in O. cbn [set_open k_open] in O.
        destruct (Nat.eqb n n0); [|exact (FJ _ _ _ _ _ _ O)]. assert (a = a0 /\ c = c0) as [-> ->] by (split; congruence). exact IS.
      - destruct (draw s n0 dbn coll) as [[dd up]|]; [|discriminate P]. assert (E : ge = GCall n0 (InsertOne mark dbn coll dd data (length (i_fns s)))) by congruence. rewrite E in *. apply gstep_open in O; [cbn [fst] in O; rewrite E0; apply issued_more; exact (FJ _ _ _ _ _ _ O) | discriminate]. }
    cbn [gleases]. intros I. apply in_app_or in I. unfold grun. cbn [fold_left]. fold (grun J (fst (gstep J (i_g s) ge)) (performed J (istep J s e) es)). destruct I as [I|I].
    + destruct (gstep_jobs (i_g s) ge) as (l0 & E0). destruct (grun_jobs (performed J (istep J s e) es) (fst (gstep J (i_g s) ge))) as (l1 & E1). rewrite E1, E0. do 2 apply issued_more. exact (lease_job _ _ _ FJ I).
    + rewrite <- G1 in *. exact (IH _ F2 FJ' l I).
  - assert (S1 : istep J s e = s) by (unfold istep; rewrite P; reflexivity). rewrite S1 in *. exact (IH s F2 FJ l).
Qed.
Lemma issued_one jobs a a' c : NoDup (flat_map ids_of jobs) -> issued jobs a c = true -> issued jobs a' c = true -> a = a'.
Proof.
  intros N H H'. unfold issued in *. apply existsb_exists in H. apply existsb_exists in H'. destruct H as (j & I1 & H), H' as (j' & I2 & H'). destruct (j_arg j) as [x| |] eqn:E1; try discriminate H. destruct (j_arg j') as [x'| |] eqn:E2; try discriminate H'.
  apply andb_prop in H. apply andb_prop in H'. destruct H as [H1 H], H' as [H1' H']. apply Z.eqb_eq in H1. apply Z.eqb_eq in H1'. apply existsb_exists in H. apply existsb_exists in H'. destruct H as (k & K1 & K2), H' as (k' & K1' & K2'). apply Z.eqb_eq in K2. apply Z.eqb_eq in K2'.
  assert (C1 : In c (ids_of j)) by (unfold ids_of; rewrite E1; right; right; rewrite <- K2; apply in_map; exact K1).
  assert (C2 : In c (ids_of j')) by (unfold ids_of; rewrite E2; right; right; rewrite <- K2'; apply in_map; exact K1').
  assert (j = j').
  { clear -N I1 I2 C1 C2. induction jobs as [|y l IH]; [destruct I1|]. cbn [flat_map] in N. apply nodup_app in N. destruct N as (_ & N2 & N3). destruct I1 as [<-|I1], I2 as [<-|I2]; [reflexivity | | | exact (IH N2 I1 I2)]; exfalso.
    - apply (N3 _ C1). apply in_flat_map. eauto.
    - apply (N3 _ C2). apply in_flat_map. eauto. }
  congruence.
Qed.
(** ids of leases are int64 values *)
Definition gives {X} (P : X -> Prop) (m : Tx X) : Prop := forall t t' a, m t = (t', Ok a) -> P a.
Lemma gives_ret {X} (P : X -> Prop) a : P a -> gives P (ret a).
Proof. intros H t t' b E. unfold ret in E. congruence. Qed.
Lemma gives_fail {X} (P : X -> Prop) e : gives P (@fail X e).
Proof. intros t t' b E. discriminate E. Qed.
Lemma gives_panic {X} (P : X -> Prop) : gives P (@gopanic X).
Proof. intros t t' b E. discriminate E. Qed.
Lemma gives_bind {X Y} (P : Y -> Prop) (m : Tx X) (k : X -> Tx Y) : (forall x, gives P (k x)) -> gives P (bind m k).
Proof. intros H t t' b E. unfold bind in E. destruct (m t) as [t1 [x|e|]]; [exact (H _ _ _ _ E) | discriminate E | discriminate E]. Qed.
Lemma gives_try {X Y} (P : Y -> Prop) (m : Tx X) (k : result X -> Tx Y) : (forall r, gives P (k r)) -> gives P (try m k).
Proof. intros H t t' b E. unfold try in E. destruct (m t) as [t1 r]. destruct r; [exact (H _ _ _ _ E) | exact (H _ _ _ _ E) | discriminate E]. Qed.
Lemma inc_i64 P key f s : gives is_i64 (HInc P key f s).
Proof.
  unfold HInc. fold (bump s). assert (BI : forall o w x, bump s o = Ok (w, x) -> is_i64 x).
  { intros o w x E. destruct o as [b|]; unfold bump in E.
    - destruct (DecodeFromHuman (Some b)) as [n|er]; [|discriminate E]. assert (X : x = to_i64 (n + s)) by congruence. rewrite X. apply to_i64_range.
    - assert (X : x = to_i64 (0 + s)) by congruence. rewrite X. apply to_i64_range. }
  unfold updateHash. apply gives_try. intros r. destruct r as [o|e|]; [ | destruct e; try apply gives_fail | apply gives_panic].
  - destruct (bump s (nil_of o)) as [[w x]|e|] eqn:E; [|apply gives_fail | apply gives_panic]. pose proof (BI _ _ _ E). destruct (bequal o w); [apply gives_ret; assumption|]. cbn [negb]. apply gives_bind. intros _. apply gives_ret. assumption.
  - destruct (bump s (nil_of [])) as [[w x]|e|] eqn:E; [|apply gives_fail | apply gives_panic]. pose proof (BI _ _ _ E). destruct (bequal [] w); [apply gives_ret; assumption|]. cbn [negb]. repeat (apply gives_bind; intros ?). apply gives_ret. assumption.
Qed.
Lemma granted_i64 y e l : In l (granted y e) -> is_i64 (l_to l).
Proof.
  destruct e as [n c|n io|n|p|t io]; cbn [granted]; try intros []. destruct (k_open y n) as [[[[i|i|p o|a b s|a b s] d] v]|]; try intros [].
  cbn [loc_inc]. unfold run_update. destruct (HInc MetaPrefix (dbKeyByID a) (didSequenceKeyByID b) s (new_txn d true [])) as [t [z|er|]] eqn:E; cbn [snd]; try intros []. 
  destruct (commit (k_db y) t io) as [[d2 t2] [u|er|]]; cbn [snd]; try intros []; [|destruct H]. subst l. cbn [l_to]. exact (inc_i64 _ _ _ _ _ _ _ E).
Qed.
Lemma gleases_i64 gs : forall g l, In l (gleases J g gs) -> is_i64 (l_to l).
Proof.
  induction gs as [|e gs IH]; intros g l; cbn [gleases]; [intros []|]. intros I. apply in_app_or in I. destruct I as [I|I]; [|exact (IH _ _ I)]. destruct e; try destruct I. exact (granted_i64 _ _ _ I).
Qed.
Lemma history_inv B es : performed_ok J B d0 es -> exists L gone ls, ids_apart L /\ let '(s, j) := iworked J (istart d0) log0 es in
  pinv (i_mem s) (i_fns s) gone ls /\ tinvi L (i_fns s) gone (g_tx (i_g s)) (g_new (i_g s)) j /\ forall l, In l ls -> 0 <= l_from l /\ is_i64 (l_to l).
Proof.
  intros (BP & F & W & LB). set (gs := performed J (istart d0) es) in *. destruct (catalogue gs W) as (L & IA & CH & ND). pose proof W as (F' & _ & LT).
  assert (RI : rises (gleases J (gstart d0) gs) /\ forall l, In l (gleases J (gstart d0) gs) -> 0 <= l_from l < l_to l).
  { destruct (gprojs_run J gs _ _ gtinv gfrel F') as (_ & _ & R3 & R4). cbn [fstart f_k] in R4. pose proof (gleases_leases gs _ _ gtinv gfrel F') as GL. cbn [gstart g_k] in GL.
    destruct (C94_leases_of_a_collection_grow J JO B d0 (ddl_of (gprojs J (gstart d0) gs))) as [G0 G].
    - split; [apply db_ok_init|]. split; [intros k _; reflexivity|]. split; [intros k e X; discriminate X|]. split; [exact R3 | rewrite R4; exact LT].
    - exact BP.
    - apply leasing_projs. apply performed_leasing. exact F.
    - rewrite R4. exact LB.
    - rewrite <- GL in G0. split; [|exact G0]. intros A y Z x E I C. assert (IX : In x (gleases J (gstart d0) gs)) by (rewrite E; apply in_or_app; auto). assert (IY : In y (gleases J (gstart d0) gs)) by (rewrite E; apply in_or_app; right; left; reflexivity).
      assert (S0 : from_jobs (g_k (i_g (istart d0)))) by (intros n a c s d v X; discriminate X).
      pose proof (all_issued B es (istart d0) F S0 x IX) as JX. pose proof (all_issued B es (istart d0) F S0 y IY) as JY. rewrite <- C in JY. pose proof (issued_one _ _ _ _ ND JX JY) as Ed.
      rewrite GL in E. apply In_nth_error in I. destruct I as (i & Ei). assert (Li : (i < length A)%nat) by (apply nth_error_Some; congruence).
      apply (G i (length A) x y Li); [rewrite E, nth_error_app1 by exact Li; exact Ei | rewrite E, nth_error_app2, Nat.sub_diag by lia; reflexivity | exact Ed | exact C]. }
  destruct RI as [RI PO]. pose proof (iworked_inv L J B es (istart d0) log0 [] []) as X. destruct (iworked J (istart d0) log0 es) as [s j]. destruct X as (gone & ls & P & T & EL).
  - exact pinv_start.
  - cbn [istart i_fns i_g gstart g_tx g_new log0]. split; cbn [l_open l_done flat_map]; try discriminate; try (intros ? []); constructor.
  - exact F.
  - exact CH.
  - exact RI.
  - exists L, gone, ls. split; [exact IA|]. split; [exact P|]. split; [exact T|]. rewrite EL. intros l Hl. cbn [app] in Hl. split; [exact (proj1 (PO l Hl)) | exact (gleases_i64 _ _ _ Hl)].
Qed.
(** * What is assumed of the events given follows for those performed *)
Lemma job_ids gs : world_ok J d0 gs -> Forall is_i64 (flat_map ids_of (k_jobs (g_k (grun J (gstart d0) gs)))).
Proof.
  intros (F & _ & LT). destruct (gprojs_run J gs _ _ gtinv gfrel F) as ([R0 _ _ _ _] & R2 & R3 & R4). cbn [fstart f_k] in R4.
  destruct (frun_inv J JO (gprojs J (gstart d0) gs) 0 _ _ _ _ _ _ (fstart_inv J d0 (P_Ddl.empty_holds J d0 (db_ok_init now clamp) ltac:(intros k _; reflexivity)) ltac:(intros k e X; discriminate X)) R3 R2) as (G' & D & R & st & A & I & _).
  - cbn [fstart f_k]. rewrite R4. exact LT.
  - cbn [fstart f_k] in I. rewrite R4 in I. pose proof (ki_sys _ _ _ _ _ _ _ (fi_k _ _ _ _ _ _ _ _ I)) as Sy. rewrite <- R0. pose proof (si_jobs _ _ _ _ _ _ _ Sy) as X. cbn [ksnap y_jobs] in X. rewrite X.
    pose proof (proj2 (ds_ids _ _ _ _ (si_state _ _ _ _ _ _ _ Sy))) as B. pose proof (si_gid _ _ _ _ _ _ _ Sy) as G. unfold DdlProofs.gid in G. eapply Forall_impl; [|exact B]. intros z Hz. cbv beta in Hz. unfold is_i64. lia.
Qed.
Definition irun (s : isys) (es : list iev) : isys := fold_left (istep J) es s.
Lemma iworked_fst es : forall s j, fst (iworked J s j es) = irun s es.
Proof. induction es as [|e es IH]; intros s j; cbn [iworked]; [reflexivity|]. apply IH. Qed.
Lemma performed_app es : forall s es', performed J s (es ++ es') = performed J s es ++ performed J (irun s es) es'.
Proof. induction es as [|e es IH]; intros s es'; [reflexivity|]. cbn [app performed]. rewrite IH. destruct (performs s e); reflexivity. Qed.
Lemma gload_app l : forall g l', gload J g (l ++ l') = gload J g l + gload J (grun J g l) l'.
Proof. induction l as [|e l IH]; intros g l'; [reflexivity|]. cbn [app gload]. rewrite IH. unfold grun. cbn [fold_left]. lia. Qed.
Lemma irun_g es s : i_g (irun s es) = grun J (i_g s) (performed J s es).
Proof. rewrite <- (iworked_fst es s log0), <- (worked_fst J _ _ log0). apply iworked_worked. Qed.
Lemma performed_reads es : only_reads es -> forall s, (forall n c, In (GBegin n false) (performed J s es) -> In (GCall n c) (performed J s es) -> call_writes c = false).
Proof.
  intros O s n c H1 H2.
  assert (X : forall es s ge, In ge (performed J s es) -> exists e s', In e es /\ performs s' e = Some ge).
  { induction es0 as [|e es0 IH]; intros s0 ge I; cbn [performed] in I; [destruct I|]. destruct (performs s0 e) as [g1|] eqn:P.
    - destruct I as [<-|I]; [exists e, s0; split; [left; reflexivity | exact P]|]. destruct (IH _ _ I) as (e' & s' & A & B). exists e', s'. split; [right; exact A | exact B].
    - destruct (IH _ _ I) as (e' & s' & A & B). exists e', s'. split; [right; exact A | exact B]. }
  assert (B : In (IDo (GBegin n false)) es).
  { destruct (X _ _ _ H1) as (e & s' & I & P). destruct e as [e|n0 p a c0 st|n0 m dbn coll data]; cbn [performs] in P.
    - assert (e = GBegin n false) by congruence. subst e. exact I.
    - destruct (issued _ a c0); discriminate P.
    - destruct (draw s' n0 dbn coll) as [[d up]|]; discriminate P. }
  destruct (O n B) as [O1 O2]. destruct (X _ _ _ H2) as (e & s' & I & P). destruct e as [e|n0 p a c0 st|n0 m dbn coll data]; cbn [performs] in P.
  - assert (e = GCall n c) by congruence. subst e. exact (O1 c I).
  - destruct (issued _ a c0); discriminate P.
  - exfalso. destruct (draw s' n0 dbn coll) as [[d up]|]; [|discriminate P]. assert (n0 = n) by congruence. subst n0. exact (O2 _ _ _ _ I).
Qed.
Lemma shape B e : iev_ok B e -> shape_ok B e.
Proof. destruct e as [[[n [i|i|p o|a c s0|a c s0]|n io|n|p|t io]| | | | |n [m x y o|m x y d v f]| | |]|n p a c st|n m dbn coll data]; cbn [iev_ok shape_ok]; auto. Qed.
Lemma inserts_performed B es : inserts_ok J B d0 es -> performed_ok J B d0 es.
Proof.
  assert (LOAD : forall es, inserts_ok J B d0 es -> gload J (gstart d0) (performed J (istart d0) es) < two63).
  { intros es0 (BP & _ & _ & LB). pose proof (gload_nonneg J (performed J (istart d0) es0) (gstart d0)). nia. }
  enough (H : inserts_ok J B d0 es -> Forall gev_ok (performed J (istart d0) es)).
  { intros I. pose proof (LOAD es I) as L. specialize (H I). destruct I as (BP & F & O & LB). split; [lia|]. split; [eapply Forall_impl; [|exact F]; apply shape|]. split; [|exact LB]. split; [exact H|]. split; [exact (performed_reads es O (istart d0)) | exact L]. }
  induction es as [|e es IH] using rev_ind; intros I; [constructor|].
  assert (I' : inserts_ok J B d0 es).
  { destruct I as (BP & F & O & LB). apply Forall_app in F. split; [exact BP|]. split; [apply F|]. split.
    - intros n Hn. destruct (O n (in_or_app _ _ _ (or_introl Hn))) as [O1 O2]. split; [intros c Hc; apply O1; apply in_or_app; auto | intros m dbn coll data Hc; apply (O2 m dbn coll data); apply in_or_app; auto].
    - rewrite performed_app, gload_app in LB. pose proof (gload_nonneg J (performed J (irun (istart d0) es) [e]) (grun J (gstart d0) (performed J (istart d0) es))). nia. }
  specialize (IH I'). rewrite performed_app. apply Forall_app. split; [exact IH|].
  assert (PO : performed_ok J B d0 es).
  { pose proof (LOAD es I') as L. destruct I' as (BP & F & O & LB). split; [lia|]. split; [eapply Forall_impl; [|exact F]; apply shape|]. split; [|exact LB]. split; [exact IH|]. split; [exact (performed_reads es O (istart d0)) | exact L]. }
  cbn [performed]. destruct (performs (irun (istart d0) es) e) as [ge|] eqn:P; [|constructor]. constructor; [|constructor].
  destruct (history_inv B es PO) as (L & gone & ls & _ & X). pose proof (iworked_fst es (istart d0) log0) as E1. destruct (iworked J (istart d0) log0 es) as [s j]. cbn [fst] in E1. subst s. destruct X as (PI & _ & LS). pose proof (irun_g es (istart d0)) as EG. set (s := irun (istart d0) es) in *.
  destruct I as (BP & F & _ & _). apply Forall_app in F. destruct F as [_ F]. inversion F as [|? ? FE _]; subst. clear F.
  destruct e as [e|n p a c st|n m dbn coll data]; cbn [performs] in P.
  - assert (ge = e) by congruence. subst ge. destruct e as [[n [i|i|p o|a c s0|a c s0]|n io|n|p|t io]| | | | |n [m x y o|m x y d v f]| | |]; cbn [iev_ok] in FE; try exact FE; destruct FE.
  - destruct (issued _ a c) eqn:IS; [|discriminate P]. assert (E : ge = GDdl (KBegin n (KDid a c st))) by congruence. rewrite E. cbn [gev_ok kev_ok kcall_ok]. cbn [iev_ok] in FE.
    pose proof (job_ids _ (proj1 (proj2 (proj2 PO)))) as JI. cbn [istart i_g] in EG. rewrite <- EG in JI. rewrite Forall_forall in JI. unfold issued in IS. apply existsb_exists in IS. destruct IS as (jb & J1 & J2). destruct (j_arg jb) as [x| |] eqn:EJ; try discriminate J2.
    apply andb_prop in J2. destruct J2 as [J2 J3]. apply Z.eqb_eq in J2. apply existsb_exists in J3. destruct J3 as (k & J3 & J4). apply Z.eqb_eq in J4.
    split; [|split; [|unfold is_i64; lia]]; apply JI; apply in_flat_map; exists jb; (split; [exact J1|]); unfold ids_of; rewrite EJ; right; [left; exact J2 | right; rewrite <- J4; apply in_map; exact J3].
  - destruct (draw s n dbn coll) as [[d up]|] eqn:DR; [|discriminate P]. assert (E : ge = GCall n (InsertOne m dbn coll d data (length (i_fns s)))) by congruence. rewrite E. cbn [gev_ok call_ids]. split; [|intros; discriminate]. constructor; [|constructor].
    unfold draw in DR. destruct (g_tx (i_g s) n) as [[[p x] [h|]]|]; try discriminate DR. destruct (resolve (dt_start x) dbn coll) as [c|]; [|assert (Ed : d = 0) by congruence; rewrite Ed; unfold is_i64; rewrite two63_val; lia].
    destruct (i_mem s p c) as [q|] eqn:Q; [|discriminate DR]. destruct (take q) as [[d1 q']|] eqn:TK; [|discriminate DR]. assert (d1 = d) by congruence. subst d1.
    destruct (pi_put _ _ _ _ PI p c q Q) as [N1 N2]. destruct (take_spec q d q' TK N1 N2) as (T1 & _). destruct (pi_from _ _ _ _ PI 0%nat p c d) as (l & L1 & _ & L2); [right; exists q; split; [exact Q | exact T1]|].
    destruct (LS l L1) as [L3 L4]. unfold is_i64 in *. lia.
Qed.
End Whole.
