(** Finite maps from byte strings, kept as strictly sorted association lists: the
    abstract content of a key-value store. Equal contents are equal values. *)
From Verif Require Import Bytes.
From Coq Require Import Eqdep_dec.

(** ** Raw association lists *)
Section Raw.
Context {V : Type}.
Notation kvs := (list (bytes * V)).

Fixpoint l_get (l : kvs) (k : bytes) : option V :=
  match l with
  | [] => None
  | (k', v) :: l' => if bytes_eqb k k' then Some v else l_get l' k
  end.
Fixpoint l_set (l : kvs) (k : bytes) (v : V) : kvs :=
  match l with
  | [] => [(k, v)]
  | (k', v') :: l' =>
      match bytes_cmp k k' with
      | Lt => (k, v) :: (k', v') :: l'
      | Eq => (k, v) :: l'
      | Gt => (k', v') :: l_set l' k v
      end
  end.
Fixpoint l_del (l : kvs) (k : bytes) : kvs :=
  match l with
  | [] => []
  | (k', v') :: l' => if bytes_eqb k k' then l' else (k', v') :: l_del l' k
  end.
Fixpoint sortedb (l : kvs) : bool :=
  match l with
  | [] => true
  | (k, _) :: l' => forallb (fun p => bytes_ltb k (fst p)) l' && sortedb l'
  end.

Lemma sortedb_cons k v l : sortedb ((k, v) :: l) = true <->
  (forall k' v', In (k', v') l -> bytes_lt k k') /\ sortedb l = true.
Proof.
  cbn. rewrite andb_true_iff, forallb_forall. split.
  - intros [H1 H2]. split; [|exact H2]. intros k' v' Hin. apply bytes_ltb_lt. exact (H1 _ Hin).
  - intros [H1 H2]. split; [|exact H2]. intros [k' v'] Hin. apply bytes_ltb_lt. exact (H1 _ _ Hin).
Qed.

Lemma l_get_in l k v : sortedb l = true -> (l_get l k = Some v <-> In (k, v) l).
Proof.
  induction l as [|[k' v'] l IH]; intros S; cbn [l_get In].
  - split; [discriminate | tauto].
  - apply sortedb_cons in S. destruct S as [S1 S2]. destruct (bytes_eqb k k') eqn:E.
    + apply bytes_eqb_eq in E. subst k'. split.
      * intros H. inversion H. left. reflexivity.
      * intros [H|H]; [inversion H; reflexivity|]. exfalso. exact (bytes_lt_irrefl k (S1 k v H)).
    + apply bytes_eqb_neq in E. rewrite IH by exact S2. split; [tauto|].
      intros [H|H]; [inversion H; congruence | exact H].
Qed.
Lemma l_get_none l k : l_get l k = None <-> forall v, ~ In (k, v) l.
Proof.
  induction l as [|[k' v'] l IH]; cbn [l_get In]; [split; [intros _ v [] | reflexivity]|].
  destruct (bytes_eqb k k') eqn:E.
  - apply bytes_eqb_eq in E. subst. split; [discriminate|]. intros H. exfalso. apply (H v'). left. reflexivity.
  - apply bytes_eqb_neq in E. rewrite IH. split; intros H v.
    + intros [G|G]; [inversion G; congruence | exact (H v G)].
    + intros G. apply (H v). right. exact G.
Qed.

Lemma l_set_in l k v : sortedb l = true ->
  sortedb (l_set l k v) = true /\
  (forall k' v', In (k', v') (l_set l k v) <-> (k' = k /\ v' = v) \/ (k' <> k /\ In (k', v') l)).
Proof.
  induction l as [|[k0 v0] l IH]; intros S; cbn [l_set].
  - split; [reflexivity|]. intros k' v'. cbn. split; [intros [H|[]]; inversion H; auto | intros [[-> ->]|[_ []]]; auto].
  - pose proof S as S'. apply sortedb_cons in S. destruct S as [S1 S2]. destruct (IH S2) as [IH1 IH2]. clear IH.
    destruct (bytes_cmp k k0) eqn:E.
    + apply bytes_cmp_eq in E. subst k0. split; [apply sortedb_cons; auto|].
      intros k' v'. cbn [In]. split.
      * intros [H|H]; [inversion H; auto|]. right. split; [|right; exact H].
        intros ->. exact (bytes_lt_irrefl _ (S1 _ _ H)).
      * intros [[-> ->]|[N [H|H]]]; [auto | inversion H; congruence | auto].
    + change (bytes_lt k k0) in E. split.
      * apply sortedb_cons. split; [|exact S']. intros k' v' [H|H]; [inversion H; subst; exact E|].
        exact (bytes_lt_trans _ _ _ E (S1 _ _ H)).
      * intros k' v'. cbn [In]. split.
        -- intros [H|[H|H]]; [inversion H; auto | right | right].
           ++ inversion H; subst. split; [intros ->; exact (bytes_lt_irrefl _ E) | auto].
           ++ split; [|auto]. intros ->. exact (bytes_lt_irrefl _ (bytes_lt_trans _ _ _ E (S1 _ _ H))).
        -- intros [[-> ->]|[N H]]; auto.
    + apply bytes_cmp_gt in E. split.
      * apply sortedb_cons. split; [|exact IH1]. intros k' v' H. apply IH2 in H.
        destruct H as [[-> ->]|[_ H]]; [exact E | exact (S1 _ _ H)].
      * intros k' v'. cbn [In]. rewrite IH2. split.
        -- intros [H|[H|[N H]]]; [|auto|auto]. inversion H; subst. right.
           split; [intros ->; exact (bytes_lt_irrefl _ E) | auto].
        -- intros [H|[N [H|H]]]; auto.
Qed.

Lemma l_del_in l k : sortedb l = true ->
  sortedb (l_del l k) = true /\
  (forall k' v', In (k', v') (l_del l k) <-> (k' <> k /\ In (k', v') l)).
Proof.
  induction l as [|[k0 v0] l IH]; intros S; cbn [l_del]; [split; [reflexivity | cbn; tauto]|].
  apply sortedb_cons in S. destruct S as [S1 S2]. destruct (IH S2) as [IH1 IH2]. clear IH.
  destruct (bytes_eqb k k0) eqn:E.
  - apply bytes_eqb_eq in E. subst k0. split; [exact S2|]. intros k' v'. cbn [In]. split.
    + intros H. split; [|auto]. intros ->. exact (bytes_lt_irrefl _ (S1 _ _ H)).
    + intros [N [H|H]]; [inversion H; congruence | exact H].
  - apply bytes_eqb_neq in E. split.
    + apply sortedb_cons. split; [|exact IH1]. intros k' v' H. apply IH2 in H. exact (S1 _ _ (proj2 H)).
    + intros k' v'. cbn [In]. rewrite IH2. split.
      * intros [H|H]; [inversion H; subst; split; [congruence | auto] | tauto].
      * intros [N [H|H]]; auto.
Qed.

Lemma sorted_ext l l' : sortedb l = true -> sortedb l' = true ->
  (forall k v, In (k, v) l <-> In (k, v) l') -> l = l'.
Proof.
  revert l'. induction l as [|[k v] l IH]; intros [|[k' v'] l'] S S' H.
  - reflexivity.
  - exfalso. apply (H k' v'). left. reflexivity.
  - exfalso. apply (H k v). left. reflexivity.
  - apply sortedb_cons in S, S'. destruct S as [S1 S2], S' as [S1' S2'].
    assert (E : (k, v) = (k', v')).
    { pose proof (proj1 (H k v) (or_introl eq_refl)) as A. pose proof (proj2 (H k' v') (or_introl eq_refl)) as B.
      cbn [In] in A, B. destruct A as [A|A]; [congruence|]. destruct B as [B|B]; [congruence|].
      exfalso. exact (bytes_lt_asym _ _ (S1 _ _ B) (S1' _ _ A)). }
    inversion E; subst k' v'. f_equal. apply IH; try assumption. intros k' v'. split; intros G.
    + pose proof (proj1 (H k' v') (or_intror G)) as A. destruct A as [A|A]; [|exact A].
      inversion A; subst. exfalso. exact (bytes_lt_irrefl _ (S1 _ _ G)).
    + pose proof (proj2 (H k' v') (or_intror G)) as A. destruct A as [A|A]; [|exact A].
      inversion A; subst. exfalso. exact (bytes_lt_irrefl _ (S1' _ _ G)).
Qed.

Lemma sorted_filter f l : sortedb l = true -> sortedb (filter f l) = true.
Proof.
  induction l as [|[k v] l IH]; intros S; cbn [filter]; [reflexivity|].
  apply sortedb_cons in S. destruct S as [S1 S2]. destruct (f (k, v)); [|apply IH; exact S2].
  apply sortedb_cons. split; [|apply IH; exact S2]. intros k' v' H. apply filter_In in H. exact (S1 _ _ (proj1 H)).
Qed.
End Raw.

(** ** Bundled maps *)
Record smap (V : Type) := SMap { sm_list : list (bytes * V); sm_ok : sortedb sm_list = true }.
Arguments SMap {V}. Arguments sm_list {V}. Arguments sm_ok {V}.

Lemma smap_eq {V} (m m' : smap V) : sm_list m = sm_list m' -> m = m'.
Proof.
  destruct m as [l H], m' as [l' H']. cbn. intros <-. f_equal. apply UIP_dec. apply bool_dec.
Qed.

(** all entries in ascending key order *)
Definition entries {V} (m : smap V) : list (bytes * V) := sm_list m.
Definition get {V} (m : smap V) (k : bytes) : option V := l_get (sm_list m) k.
Definition set {V} (m : smap V) (k : bytes) (v : V) : smap V :=
  SMap (l_set (sm_list m) k v) (proj1 (l_set_in _ k v (sm_ok m))).
Definition del {V} (m : smap V) (k : bytes) : smap V :=
  SMap (l_del (sm_list m) k) (proj1 (l_del_in _ k (sm_ok m))).
Definition empty {V} : smap V := SMap [] eq_refl.
Definition sfilter {V} (f : bytes * V -> bool) (m : smap V) : smap V :=
  SMap (filter f (sm_list m)) (sorted_filter f _ (sm_ok m)).

Section Laws.
Context {V : Type}.
Implicit Types (m : smap V) (k : bytes) (v : V).

Lemma get_in m k v : get m k = Some v <-> In (k, v) (entries m).
Proof. apply l_get_in, sm_ok. Qed.
Lemma get_none m k : get m k = None <-> forall v, ~ In (k, v) (entries m).
Proof. apply l_get_none. Qed.
Lemma option_ext {A} (a b : option A) : (forall x, a = Some x <-> b = Some x) -> a = b.
Proof.
  intros H. destruct a as [x|]; [symmetry; apply H; reflexivity|].
  destruct b as [y|]; [|reflexivity]. apply H. reflexivity.
Qed.
Lemma get_set m k v k' : get (set m k v) k' = if bytes_eqb k' k then Some v else get m k'.
Proof.
  apply option_ext. intros x. rewrite get_in. unfold entries, set. cbn [sm_list].
  rewrite (proj2 (l_set_in _ k v (sm_ok m))). destruct (bytes_eqb k' k) eqn:E.
  - apply bytes_eqb_eq in E. subst. split; [intros [[_ ->]|[N _]]; congruence | intros H; inversion H; auto].
  - apply bytes_eqb_neq in E. rewrite get_in. unfold entries. split; [intros [[-> _]|[_ H]]; [congruence | exact H] | auto].
Qed.
Lemma get_del m k k' : get (del m k) k' = if bytes_eqb k' k then None else get m k'.
Proof.
  apply option_ext. intros x. rewrite get_in. unfold entries, del. cbn [sm_list].
  rewrite (proj2 (l_del_in _ k (sm_ok m))). destruct (bytes_eqb k' k) eqn:E.
  - apply bytes_eqb_eq in E. subst. split; [intros [N _]; congruence | discriminate].
  - apply bytes_eqb_neq in E. rewrite get_in. unfold entries. tauto.
Qed.
Lemma get_set_eq m k v : get (set m k v) k = Some v.
Proof. rewrite get_set, bytes_eqb_refl. reflexivity. Qed.
Lemma get_set_ne m k v k' : k' <> k -> get (set m k v) k' = get m k'.
Proof. intros H. rewrite get_set. apply bytes_eqb_neq in H. rewrite H. reflexivity. Qed.
Lemma get_del_eq m k : get (del m k) k = None.
Proof. rewrite get_del, bytes_eqb_refl. reflexivity. Qed.
Lemma get_del_ne m k k' : k' <> k -> get (del m k) k' = get m k'.
Proof. intros H. rewrite get_del. apply bytes_eqb_neq in H. rewrite H. reflexivity. Qed.
Lemma get_empty k : get (@empty V) k = None.
Proof. reflexivity. Qed.

Lemma smap_ext m m' : (forall k, get m k = get m' k) -> m = m'.
Proof.
  intros H. apply smap_eq. apply sorted_ext; try apply sm_ok. intros k v.
  change (In (k, v) (entries m) <-> In (k, v) (entries m')). rewrite <- !get_in, H. reflexivity.
Qed.

Lemma set_set m k v v' : set (set m k v) k v' = set m k v'.
Proof. apply smap_ext. intros j. rewrite !get_set. destruct (bytes_eqb j k); reflexivity. Qed.
Lemma set_comm m k v k' v' : k <> k' -> set (set m k v) k' v' = set (set m k' v') k v.
Proof.
  intros N. apply smap_ext. intros j. rewrite !get_set.
  destruct (bytes_eqb j k) eqn:E; destruct (bytes_eqb j k') eqn:E'; try reflexivity.
  apply bytes_eqb_eq in E, E'. congruence.
Qed.
Lemma set_same m k v : get m k = Some v -> set m k v = m.
Proof.
  intros H. apply smap_ext. intros j. rewrite get_set. destruct (bytes_eqb j k) eqn:E; [|reflexivity].
  apply bytes_eqb_eq in E. subst. auto.
Qed.
Lemma del_none m k : get m k = None -> del m k = m.
Proof.
  intros H. apply smap_ext. intros j. rewrite get_del. destruct (bytes_eqb j k) eqn:E; [|reflexivity].
  apply bytes_eqb_eq in E. subst. auto.
Qed.
Lemma del_set m k v : del (set m k v) k = del m k.
Proof. apply smap_ext. intros j. rewrite !get_del, get_set. destruct (bytes_eqb j k); reflexivity. Qed.
Lemma set_del m k v : set (del m k) k v = set m k v.
Proof. apply smap_ext. intros j. rewrite !get_set, get_del. destruct (bytes_eqb j k); reflexivity. Qed.

Lemma entries_filter f m : entries (sfilter f m) = filter f (entries m).
Proof. reflexivity. Qed.
Lemma get_sfilter f m k : get (sfilter f m) k =
  match get m k with Some v => if f (k, v) then Some v else None | None => None end.
Proof.
  apply option_ext. intros x. rewrite get_in, entries_filter, filter_In, <- get_in.
  destruct (get m k) as [v|]; [|intuition congruence].
  split.
  - intros [H1 H2]. inversion H1. subst. rewrite H2. reflexivity.
  - destruct (f (k, v)) eqn:E; [|discriminate]. intros H. inversion H. subst. auto.
Qed.

Lemma entries_nil_iff m : entries m = [] <-> m = empty.
Proof.
  split; [intros H; apply smap_eq; exact H | intros ->; reflexivity].
Qed.

(** list of entries after set, when the key is new or not: by membership *)
Lemma entries_set_in m k v k' v' :
  In (k', v') (entries (set m k v)) <-> (k' = k /\ v' = v) \/ (k' <> k /\ In (k', v') (entries m)).
Proof. apply l_set_in, sm_ok. Qed.
Lemma entries_del_in m k k' v' :
  In (k', v') (entries (del m k)) <-> (k' <> k /\ In (k', v') (entries m)).
Proof. apply l_del_in, sm_ok. Qed.

Lemma keys_nodup m : NoDup (map fst (entries m)).
Proof.
  destruct m as [l S]. unfold entries. cbn [sm_list]. induction l as [|[k v] l IH]; [constructor|].
  apply sortedb_cons in S. destruct S as [S1 S2]. cbn. constructor; [|apply IH; exact S2].
  rewrite in_map_iff. intros ([k' v'] & E & H). cbn in E. subst k'. exact (bytes_lt_irrefl _ (S1 _ _ H)).
Qed.
End Laws.

(** number of entries satisfying a predicate, under set/del *)
Section Count.
Context {V : Type}.
Implicit Types (l : list (bytes * V)).
Definition cnt (f : bytes * V -> bool) l : nat := length (filter f l).

Lemma l_set_cnt (f : bytes * V -> bool) l k v : sortedb l = true -> 
  (forall k' v1 v2, f (k', v1) = f (k', v2)) ->
  cnt f (l_set l k v) =
    match l_get l k with
    | Some _ => cnt f l
    | None => (if f (k, v) then S (cnt f l) else cnt f l)
    end.
Proof.
  intros S F. unfold cnt. induction l as [|[k0 v0] l IH]; cbn [l_set l_get filter length].
  - destruct (f (k, v)); reflexivity.
  - apply sortedb_cons in S. destruct S as [S1 S2]. specialize (IH S2).
    destruct (bytes_cmp k k0) eqn:E.
    + apply bytes_cmp_eq in E. subst k0. rewrite bytes_eqb_refl. cbn [filter]. rewrite (F k v v0).
      destruct (f (k, v0)); reflexivity.
    + assert (NE : bytes_eqb k k0 = false) by (unfold bytes_eqb; rewrite E; reflexivity). rewrite NE.
      assert (NG : l_get l k = None).
      { apply l_get_none. intros v' Hin. pose proof (S1 _ _ Hin) as H.
        exact (bytes_lt_irrefl _ (bytes_lt_trans _ _ _ E H)). }
      rewrite NG. cbn [filter]. destruct (f (k, v)), (f (k0, v0)); reflexivity.
    + assert (NE : bytes_eqb k k0 = false) by (unfold bytes_eqb; rewrite E; reflexivity). rewrite NE.
      cbn [filter]. destruct (f (k0, v0)); cbn [length]; rewrite IH; destruct (l_get l k); try reflexivity;
      destruct (f (k, v)); reflexivity.
Qed.
Lemma l_del_cnt (f : bytes * V -> bool) l k : sortedb l = true ->
  cnt f (l_del l k) =
    match l_get l k with
    | Some v => (if f (k, v) then cnt f l - 1 else cnt f l)%nat
    | None => cnt f l
    end.
Proof.
  intros S. unfold cnt. induction l as [|[k0 v0] l IH]; cbn [l_del l_get filter length]; [reflexivity|].
  apply sortedb_cons in S. destruct S as [S1 S2]. specialize (IH S2).
  destruct (bytes_eqb k k0) eqn:E.
  - apply bytes_eqb_eq in E. subst k0. destruct (f (k, v0)); cbn [length]; lia.
  - cbn [filter]. destruct (f (k0, v0)); cbn [length]; rewrite IH; [|reflexivity].
    destruct (l_get l k) as [w|] eqn:G; [|reflexivity]. destruct (f (k, w)) eqn:FW; [|reflexivity].
    assert (In (k, w) (filter f l)) by (apply filter_In; split; [apply l_get_in; assumption | exact FW]).
    destruct (filter f l); [contradiction | cbn [length]; lia].
Qed.
Lemma cnt_set (f : bytes * V -> bool) (m : smap V) k v : (forall k' v1 v2, f (k', v1) = f (k', v2)) ->
  cnt f (entries (set m k v)) =
    match get m k with Some _ => cnt f (entries m) | None => if f (k, v) then S (cnt f (entries m)) else cnt f (entries m) end.
Proof. intros F. apply l_set_cnt; [apply sm_ok | exact F]. Qed.
Lemma cnt_del (f : bytes * V -> bool) (m : smap V) k :
  cnt f (entries (del m k)) =
    match get m k with Some v => if f (k, v) then (cnt f (entries m) - 1)%nat else cnt f (entries m) | None => cnt f (entries m) end.
Proof. apply l_del_cnt, sm_ok. Qed.
End Count.

(** ** takeWhile / dropWhile on sorted lists *)
Fixpoint dropWhile {A} (f : A -> bool) (l : list A) : list A :=
  match l with [] => [] | x :: l' => if f x then dropWhile f l' else l end.
Fixpoint takeWhile {A} (f : A -> bool) (l : list A) : list A :=
  match l with [] => [] | x :: l' => if f x then x :: takeWhile f l' else [] end.

Lemma takeWhile_all {A} (f : A -> bool) l : (forall x, f x = true) -> takeWhile f l = l.
Proof. intros H. induction l as [|x l IH]; [reflexivity|]. cbn. rewrite H, IH. reflexivity. Qed.
Lemma dropWhile_filter {A} (f : A -> bool) (R : A -> A -> Prop) l :
  (forall x y, R x y -> f y = true -> f x = true) ->
  (forall i j x y, (i < j)%nat -> nth_error l i = Some x -> nth_error l j = Some y -> R x y) ->
  dropWhile f l = filter (fun x => negb (f x)) l.
Proof.
  intros M. induction l as [|x l IH]; intros S; cbn [dropWhile filter]; [reflexivity|].
  destruct (f x) eqn:E; cbn [negb].
  - apply IH. intros i j a b Hij Ha Hb. apply (S (Datatypes.S i) (Datatypes.S j)); [lia | exact Ha | exact Hb].
  - f_equal. assert (G : forall y, In y l -> f y = false).
    { intros y Hy. apply In_nth_error in Hy. destruct Hy as [j Hj].
      destruct (f y) eqn:F; [|reflexivity]. rewrite <- E. symmetry.
      apply (M x y); [|exact F]. apply (S 0%nat (Datatypes.S j)); [lia | reflexivity | exact Hj]. }
    clear - G. induction l as [|y l IH]; [reflexivity|]. cbn. rewrite G by (left; reflexivity). cbn.
    f_equal. apply IH. intros z Hz. apply G. right. exact Hz.
Qed.

Lemma takeWhile_filter {A} (f : A -> bool) (R : A -> A -> Prop) l :
  (forall x y, R x y -> f y = true -> f x = true) ->
  (forall i j x y, (i < j)%nat -> nth_error l i = Some x -> nth_error l j = Some y -> R x y) ->
  takeWhile f l = filter f l.
Proof.
  intros M. induction l as [|x l IH]; intros S; cbn [takeWhile filter]; [reflexivity|].
  destruct (f x) eqn:E.
  - f_equal. apply IH. intros i j a b Hij Ha Hb. apply (S (Datatypes.S i) (Datatypes.S j)); [lia | exact Ha | exact Hb].
  - assert (G : forall y, In y l -> f y = false).
    { intros y Hy. apply In_nth_error in Hy. destruct Hy as [j Hj].
      destruct (f y) eqn:F; [|reflexivity]. rewrite <- E. symmetry.
      apply (M x y); [|exact F]. apply (S 0%nat (Datatypes.S j)); [lia | reflexivity | exact Hj]. }
    clear - G. induction l as [|y l IH]; [reflexivity|]. cbn. rewrite G by (left; reflexivity).
    apply IH. intros z Hz. apply G. right. exact Hz.
Qed.

Lemma sorted_nth {V} (l : list (bytes * V)) i j x y : sortedb l = true -> (i < j)%nat ->
  nth_error l i = Some x -> nth_error l j = Some y -> bytes_lt (fst x) (fst y).
Proof.
  revert i j. induction l as [|[k v] l IH]; intros i j S L Hi Hj; [destruct i; discriminate|].
  apply sortedb_cons in S. destruct S as [S1 S2]. destruct i as [|i], j as [|j]; try lia.
  - cbn in Hi, Hj. inversion Hi; subst x. destruct y as [k' v']. apply nth_error_In in Hj. exact (S1 _ _ Hj).
  - cbn in Hi, Hj. apply (IH i j); [exact S2 | lia | exact Hi | exact Hj].
Qed.

Lemma rev_nth_error {A} (l : list A) i : (i < length l)%nat ->
  nth_error (rev l) i = nth_error l (length l - 1 - i).
Proof.
  revert i. induction l as [|a l IH]; intros i H; cbn [length] in *; [lia|]. cbn [rev].
  destruct (Nat.ltb_spec i (length l)) as [L|L].
  - rewrite nth_error_app1 by (rewrite rev_length; exact L). rewrite IH by exact L.
    replace (S (length l) - 1 - i)%nat with (S (length l - 1 - i)) by lia. reflexivity.
  - rewrite nth_error_app2 by (rewrite rev_length; lia). rewrite rev_length.
    replace (i - length l)%nat with 0%nat by lia. replace (S (length l) - 1 - i)%nat with 0%nat by lia. reflexivity.
Qed.

Lemma sorted_nth_rev {V} (l : list (bytes * V)) i j x y : sortedb l = true -> (i < j)%nat ->
  nth_error (rev l) i = Some x -> nth_error (rev l) j = Some y -> bytes_lt (fst y) (fst x).
Proof.
  intros S L Hi Hj.
  assert (Li : (i < length l)%nat) by (rewrite <- rev_length; apply nth_error_Some; congruence).
  assert (Lj : (j < length l)%nat) by (rewrite <- rev_length; apply nth_error_Some; congruence).
  rewrite rev_nth_error in Hi, Hj by assumption.
  apply (sorted_nth l (length l - 1 - j) (length l - 1 - i)); [exact S | lia | exact Hj | exact Hi].
Qed.

Lemma rev_filter {A} (f : A -> bool) l : rev (filter f l) = filter f (rev l).
Proof.
  induction l as [|x l IH]; [reflexivity|]. cbn. rewrite filter_app. cbn.
  destruct (f x); cbn; rewrite IH; [reflexivity | rewrite app_nil_r; reflexivity].
Qed.
Lemma filter_filter {A} (f g : A -> bool) l : filter f (filter g l) = filter (fun x => g x && f x) l.
Proof.
  induction l as [|x l IH]; [reflexivity|]. cbn. destruct (g x); cbn; [destruct (f x); rewrite IH; reflexivity | exact IH].
Qed.
Lemma filter_ext_in {A} (f g : A -> bool) l : (forall x, In x l -> f x = g x) -> filter f l = filter g l.
Proof.
  induction l as [|x l IH]; intros H; [reflexivity|]. cbn. rewrite (H x) by (left; reflexivity).
  rewrite IH by (intros y Hy; apply H; right; exact Hy). reflexivity.
Qed.

(** [m] restricted to two maps agreeing outside a key set: frame equality *)
Definition same_except {V} (P : bytes -> Prop) (m m' : smap V) : Prop :=
  forall k, ~ P k -> get m k = get m' k.
