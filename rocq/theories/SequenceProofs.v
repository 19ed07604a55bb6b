(** Invariant of the allocators on one counter. *)
From Verif Require Import Bytes SMap Provider ProviderProofs World Memcmp MemcmpProofs Numeric KvUtil Struct StructProofs StructHash UtilTxn TxPost Sequence.

(** how a database can change in one commit *)
Lemma commit_next d t io d' t' r : commit d t io = (d', t', r) -> d' = d \/ d' = publish d t.
Proof.
  unfold commit. destruct (negb (t_open t)); [intros H; inversion H; auto|].
  destruct (entries (t_pend t)); [intros H; inversion H; auto|].
  destruct (conflict d t); [intros H; inversion H; auto|]. destruct io; intros H; inversion H; auto.
Qed.
Lemma commit_db_ok d t io d' t' r : db_ok d -> commit d t io = (d', t', r) -> db_ok d'.
Proof. intros K H. destruct (commit_next _ _ _ _ _ _ H) as [-> | ->]; [exact K | apply db_ok_publish; exact K]. Qed.
Lemma commit_tx_ok d t io d' t' r tj : db_ok d -> commit d t io = (d', t', r) -> tx_ok d tj -> tx_ok d' tj.
Proof. intros K H X. destruct (commit_next _ _ _ _ _ _ H) as [-> | ->]; [exact X | apply publish_ok; assumption]. Qed.
Lemma tx_ok_new d u lim : tx_ok d (new_txn d u lim).
Proof. split; [reflexivity|]. reflexivity. Qed.
Lemma tx_ok_ext d t t' : ext t t' -> tx_ok d t -> tx_ok d t'.
Proof. intros (E1 & E2 & _) [H1 H2]. unfold tx_ok. rewrite E1, E2. split; assumption. Qed.
Lemma run_update_cases {A} d0 d1 (f : Tx A) lim io d' r : run_update d0 d1 f lim io = (d', r) ->
  (exists t t' a, r = Ok a /\ f (new_txn d0 true lim) = (t, Ok a) /\ commit d1 t io = (d', t', Ok tt)) \/
  ((forall a, r <> Ok a) /\ d' = d1).
Proof.
  unfold run_update. destruct (f (new_txn d0 true lim)) as [t [a|e|]].
  - destruct (commit d1 t io) as [[d2 t2] r2] eqn:C. destruct r2 as [[]|e|]; intros H; inversion H; subst.
    + left. exists t, t2, a. auto.
    + right. split; [discriminate|]. destruct (commit_cases _ _ _ _ _ _ C) as [(X & _)|[_ X]]; [discriminate | exact X].
    + right. split; [discriminate|]. destruct (commit_cases _ _ _ _ _ _ C) as [(X & _)|[_ X]]; [discriminate | exact X].
  - intros H. inversion H. right. split; [discriminate | reflexivity].
  - intros H. inversion H. right. split; [discriminate | reflexivity].
Qed.
Lemma run_update_db_ok {A} d0 d1 (f : Tx A) lim io : db_ok d1 -> db_ok (fst (run_update d0 d1 f lim io)).
Proof.
  intros K. destruct (run_update d0 d1 f lim io) as [d' r] eqn:E.
  destruct (run_update_cases _ _ _ _ _ _ _ E) as [(t & t' & a & _ & _ & C)|[_ ->]]; [|exact K]. eapply commit_db_ok; eassumption.
Qed.
Lemma run_update_tx_ok {A} d0 d1 (f : Tx A) lim io tj : db_ok d1 -> tx_ok d1 tj -> tx_ok (fst (run_update d0 d1 f lim io)) tj.
Proof.
  intros K X. destruct (run_update d0 d1 f lim io) as [d' r] eqn:E.
  destruct (run_update_cases _ _ _ _ _ _ _ E) as [(t & t' & a & _ & _ & C)|[_ ->]]; [|exact X]. eapply commit_tx_ok; eassumption.
Qed.

(** * The stored counter *)
Definition cell (L : loc) (d : db) (c : Z) : Prop :=
  (get (d_kv d) (counter_key L) = None /\ c = 0) \/ get (d_kv d) (counter_key L) = Some (mk (Encode2Human c)).
Lemma meta_prefix_good : good_prefix MetaPrefix.
Proof. unfold good_prefix, MetaPrefix. cbn. discriminate. Qed.
Lemma counter_key_nonempty L : counter_key L <> [].
Proof. destruct L; [apply (ek_nonempty MetaPrefix (KS keyword)) | apply (ek_nonempty MetaPrefix (KHD key field))]. Qed.
Lemma cell_view L d c lim : cell L d c ->
  (get (view (new_txn d true lim)) (counter_key L) = None /\ c = 0) \/ get (view (new_txn d true lim)) (counter_key L) = Some (mk (Encode2Human c)).
Proof.
  intros [[H ->]|H]; [left; split; [|reflexivity]; exact (get_view_fresh d true lim _ None H) | right; exact (get_view_fresh d true lim _ (Some _) H)].
Qed.
Lemma human_inj a b : is_i64 a -> is_i64 b -> Encode2Human a = Encode2Human b -> a = b.
Proof. intros Ha Hb E. pose proof (as_int_enc a Ha) as X. rewrite E, (as_int_enc b Hb) in X. congruence. Qed.
Lemma cell_fun L d c c' : is_i64 c -> is_i64 c' -> cell L d c -> cell L d c' -> c = c'.
Proof. intros I1 I2 [[H1 ->]|H1] [[H2 ->]|H2]; try congruence. rewrite H1 in H2. apply human_inj; [assumption..|]. inversion H2. reflexivity. Qed.
Lemma decode_human n : is_i64 n -> DecodeFromHuman (Some (Encode2Human n)) = NOk n.
Proof. intros H. apply DecodeFromHuman_spec. split; [unfold Encode2Human; apply decimal_FormatInt; exact H | exact H]. Qed.
Lemma nil_of_human n : nil_of (Encode2Human n) = Some (Encode2Human n).
Proof. unfold nil_of. pose proof (human_nonempty n). destruct (Encode2Human n); [congruence | reflexivity]. Qed.

Lemma loc_inc_post L d0 lim step t v c : cell L d0 c -> is_i64 c -> is_i64 step -> is_i64 (c + step) -> step <> 0 ->
  loc_inc L step (new_txn d0 true lim) = (t, Ok v) ->
  ext (new_txn d0 true lim) t /\ In (counter_key L) (t_reads t) /\ v = c + step /\
  get (t_pend t) (counter_key L) = Some (Some (mk (Encode2Human v))).
Proof.
  intros C Ic Is Ics Nz H. pose proof (cell_view L d0 c lim C) as V. destruct L as [k|k f]; cbn [loc_inc counter_key] in *.
  - apply IncInt64_post in H; try reflexivity; [|apply (ek_nonempty MetaPrefix (KS k))]. destruct H as (E & R & I & Pd).
    split; [exact E|]. split; [exact R|]. split.
    + destruct V as [[V ->]|V]; rewrite V in I; cbn [option_map inc_res e_val mk] in I; [inversion I; reflexivity|].
      rewrite (as_int_enc c Ic) in I. inversion I. apply to_i64_id. exact Ics.
    + rewrite Pd, get_set_eq. reflexivity.
  - apply updateHash_post in H; try reflexivity. cbv zeta in H. destruct H as (E & R & nv & Fn & W). split; [exact E|]. split; [exact R|].
    assert (X : nv = Encode2Human v /\ v = c + step).
    { destruct V as [[V ->]|V]; rewrite V in Fn; cbn [e_val mk nil_of] in Fn.
      - rewrite Z.add_0_l, (to_i64_id step Is) in Fn. inversion Fn. auto.
      - rewrite nil_of_human, (decode_human c Ic) in Fn. inversion Fn. rewrite to_i64_id by exact Ics. auto. }
    destruct X as [-> ->]. split; [reflexivity|]. destruct W as [[W _]|[_ W]]; [|exact W]. exfalso.
    destruct V as [[V ->]|V]; rewrite V in W; cbn [e_val mk] in W; [exact (human_nonempty _ W)|].
    apply human_inj in W; try assumption. lia.
Qed.
Lemma loc_set_post L d0 lim v t a c : cell L d0 c -> is_i64 c -> is_i64 v -> v <> c ->
  loc_set L v (new_txn d0 true lim) = (t, Ok a) ->
  ext (new_txn d0 true lim) t /\ get (t_pend t) (counter_key L) = Some (Some (mk (Encode2Human v))).
Proof.
  intros C Ic Iv Ne H. pose proof (cell_view L d0 c lim C) as V. destruct L as [k|k f]; cbn [loc_set counter_key] in *.
  - unfold SSetInt64, SetInt64 in H. apply tset_ok in H. destruct H as [l ->]. split; [apply ext_put|]. rewrite get_put, bytes_eqb_refl. reflexivity.
  - unfold HSetInt64, HSet in H. apply updateHash_post in H; try reflexivity. cbv zeta in H. destruct H as (E & R & nv & Fn & W). split; [exact E|].
    inversion Fn. subst nv. destruct W as [[W _]|[_ W]]; [|exact W]. exfalso.
    destruct V as [[V ->]|V]; rewrite V in W; cbn [e_val mk] in W; [exact (human_nonempty _ W)|].
    apply human_inj in W; try assumption. congruence.
Qed.

(** renewing a lease, whatever happened in between: on success the stored counter moved by [step] *)
Lemma renew_ok L d0 d1 lim io step d' v c0 : db_ok d1 -> tx_ok d1 (new_txn d0 true lim) ->
  cell L d0 c0 -> is_i64 c0 -> is_i64 step -> is_i64 (c0 + step) -> step <> 0 ->
  run_update d0 d1 (loc_inc L step) lim io = (d', Ok v) ->
  cell L d1 c0 /\ v = c0 + step /\ cell L d' v.
Proof.
  intros K T C Ic Is Ics Nz H. destruct (run_update_cases _ _ _ _ _ _ _ H) as [(t & t' & a & E & F & Cm)|[X _]]; [|exfalso; exact (X v eq_refl)].
  inversion E. subst a. destruct (loc_inc_post L d0 lim step t v c0 C Ic Is Ics Nz F) as (Ex & R & -> & G).
  destruct (commit_cases _ _ _ _ _ _ Cm) as [(_ & Kv & Nc)|[X _]]; [|congruence].
  assert (Ne : entries (t_pend t) <> []). { intros X. apply entries_nil_iff in X. rewrite X, get_empty in G. discriminate. }
  assert (Eq : get (d_kv d1) (counter_key L) = get (d_kv d0) (counter_key L)).
  { rewrite (conflict_free d1 t); [|eapply tx_ok_ext; eassumption | exact (Nc Ne) | exact R]. destruct Ex as (-> & _). reflexivity. }
  split; [unfold cell in *; rewrite Eq; exact C|]. split; [reflexivity|]. right. rewrite Kv, G. reflexivity.
Qed.
Lemma update_ok L d0 d1 lim io v d' a c0 : cell L d0 c0 -> is_i64 c0 -> is_i64 v -> v <> c0 ->
  run_update d0 d1 (loc_set L v) lim io = (d', Ok a) -> cell L d' v.
Proof.
  intros C Ic Iv Ne H. destruct (run_update_cases _ _ _ _ _ _ _ H) as [(t & t' & a' & E & F & Cm)|[X _]]; [|exfalso; exact (X a eq_refl)].
  destruct (loc_set_post L d0 lim v t a' c0 C Ic Iv Ne F) as [_ G].
  destruct (commit_cases _ _ _ _ _ _ Cm) as [(_ & Kv & _)|[X _]]; [|congruence]. right. rewrite Kv, G. reflexivity.
Qed.
Lemma run_update_fail {A} d0 d1 (f : Tx A) lim io d' r : run_update d0 d1 f lim io = (d', r) -> (forall a, r <> Ok a) -> d' = d1.
Proof. intros H N. destruct (run_update_cases _ _ _ _ _ _ _ H) as [(t & t' & a & E & _)|[_ X]]; [exfalso; exact (N a E) | exact X]. Qed.

(** * What callers must respect (the hypotheses of the uniqueness theorems) *)
Inductive policy := One | Many.
(** object i exists and is not closed, or is being created *)
Definition active (w : qworld) (i : nat) : Prop :=
  match qw_seq w i with Some s => q_closed s = false | None => qw_call w i <> None end.
Definition allowed (pol : policy) (B : Z) (L : loc) (w : qworld) (used : list Z) (e : qev) : Prop :=
  match e with
  | QBegin i (CNew bw) => 0 < bw <= B /\ (pol = One -> forall j, ~ active w j)
  | QBegin i (COp o) =>
      match o with
      | QClear => False
      | QNextN n => 0 < n
      | QRelease | QClose true => pol = One
      | _ => True
      end
  | QEnd i _ _ => (* a NextN in progress asks for no more than what is left of the lease *)
      forall d0 n s, qw_call w i = Some (d0, COp (QNextN n)) -> qw_seq w i = Some s -> q_closed s = false -> q_next s + n <= q_leased s
  | QPut i vs => NoDup vs /\ incl vs used
  | QForeign t _ => get (t_pend t) (counter_key L) = None
  | _ => True
  end.
Fixpoint callers_ok (pol : policy) (B : Z) (L : loc) (w : qworld) (used : list Z) (es : list qev) : Prop :=
  match es with
  | [] => True
  | e :: es' => allowed pol B L w used e /\
                callers_ok pol B L (fst (qstep L w e)) (used_after used e (snd (qstep L w e))) es'
  end.

(** * Invariant *)
Definition pool (s : seq) (v : Z) : Prop := (q_next s < v <= q_leased s) \/ In v (q_put s).
Record qinv (pol : policy) (B : Z) (L : loc) (c00 : Z) (rem : Z) (w : qworld) (used : list Z) (c : Z) : Prop := {
  qi_cell : cell L (qw_db w) c;
  qi_range : 0 <= c00 <= c /\ c + B * rem < two63;
  qi_db : db_ok (qw_db w);
  qi_obj : forall i s, qw_seq w i = Some s -> q_loc s = L /\ 0 < q_bw s <= B;
  qi_open : forall i s, qw_seq w i = Some s -> q_closed s = false ->
     c00 <= q_next s <= q_leased s /\ q_leased s <= c /\ NoDup (q_put s) /\
     (forall v, In v (q_put s) -> c00 < v <= c /\ ~ (q_next s < v <= q_leased s)) /\ (forall v, In v used -> ~ pool s v);
  qi_disj : forall i j s s', i <> j -> qw_seq w i = Some s -> qw_seq w j = Some s' -> q_closed s = false -> q_closed s' = false ->
     forall v, pool s v -> ~ pool s' v;
  qi_used : forall v, In v used -> c00 < v <= c;
  qi_call : forall i d0 k, qw_call w i = Some (d0, k) ->
     tx_ok (qw_db w) (new_txn d0 true []) /\ (exists c0, cell L d0 c0 /\ 0 <= c0 /\ c0 + B * rem < two63) /\
     match k with
     | CNew bw => 0 < bw <= B /\ qw_seq w i = None
     | COp o => (exists s, qw_seq w i = Some s) /\
         match o with
         | QClear => False
         | QNextN n => 0 < n
         | QRelease | QClose true => pol = One
         | _ => True
         end
     end;
  qi_one : pol = One ->
     (forall i j, active w i -> active w j -> i = j) /\
     (forall i s, qw_seq w i = Some s -> q_closed s = false -> q_leased s = c) /\
     (forall i d0 k, qw_call w i = Some (d0, k) -> active w i -> get (d_kv d0) (counter_key L) = get (d_kv (qw_db w)) (counter_key L))
}.

Lemma fupd_eq {A} (f : nat -> option A) i o : fupd f i o i = o.
Proof. unfold fupd. rewrite Nat.eqb_refl. reflexivity. Qed.
Lemma fupd_ne {A} (f : nat -> option A) i o j : j <> i -> fupd f i o j = f j.
Proof. intros H. unfold fupd. apply Nat.eqb_neq in H. rewrite H. reflexivity. Qed.
Definition weq (w w' : qworld) : Prop :=
  qw_db w = qw_db w' /\ (forall i, qw_seq w i = qw_seq w' i) /\ (forall i, qw_call w i = qw_call w' i).
Lemma active_weq w w' i : weq w w' -> active w i <-> active w' i.
Proof. intros (_ & E1 & E2). unfold active. rewrite E1, E2. reflexivity. Qed.
Lemma inv_weq pol B L c00 rem w w' used c : weq w w' -> qinv pol B L c00 rem w used c -> qinv pol B L c00 rem w' used c.
Proof.
  intros E [I1 I2 I3 I4 I5 I6 I7 I8 I9]. pose proof (fun i => active_weq w w' i E) as AE. destruct E as (E0 & E1 & E2). split.
  - rewrite <- E0. exact I1.
  - exact I2.
  - rewrite <- E0. exact I3.
  - intros i s. rewrite <- E1. apply I4.
  - intros i s. rewrite <- E1. apply I5.
  - intros i j s s' N. rewrite <- !E1. apply I6. exact N.
  - exact I7.
  - intros i d0 k. rewrite <- E2. intros H. rewrite <- E0. destruct (I8 i d0 k H) as (X1 & X2 & X3). split; [exact X1|]. split; [exact X2|].
    destruct k as [bw|o]; [rewrite <- E1; exact X3|]. rewrite <- E1. destruct o; exact X3.
  - intros P. destruct (I9 P) as (X1 & X2 & X3). split; [|split].
    + intros i j A1 A2. apply X1; apply AE; assumption.
    + intros i s. rewrite <- E1. apply X2.
    + intros i d0 k. rewrite <- E2, <- E0. intros H A. apply (X3 i d0 k H). apply AE. exact A.
Qed.

Section inv.
Context (pol : policy) (B : Z) (L : loc) (c00 : Z) (HB : 0 < B).
Notation qinv := (qinv pol B L c00).

Definition old_pool (w : qworld) (i : nat) (v : Z) : Prop := exists s, qw_seq w i = Some s /\ q_closed s = false /\ pool s v.

Lemma call_keep rem w used c i d' (seq' : nat -> option seq) : 0 <= rem -> qinv (rem + 1) w used c ->
  (forall tj, tx_ok (qw_db w) tj -> tx_ok d' tj) -> (forall j, j <> i -> seq' j = qw_seq w j) ->
  forall j d0 k, fupd (qw_call w) i None j = Some (d0, k) ->
     tx_ok d' (new_txn d0 true []) /\ (exists c0, cell L d0 c0 /\ 0 <= c0 /\ c0 + B * rem < two63) /\
     match k with
     | CNew bw => 0 < bw <= B /\ seq' j = None
     | COp o => (exists s, seq' j = Some s) /\
         match o with
         | QClear => False
         | QNextN n => 0 < n
         | QRelease | QClose true => pol = One
         | _ => True
         end
     end.
Proof.
  intros R I T S j d0 k. unfold fupd. destruct (Nat.eqb j i) eqn:E; [discriminate|]. apply Nat.eqb_neq in E. intros H.
  destruct (qi_call _ _ _ _ _ _ _ _ I j d0 k H) as (X1 & (c0 & Y1 & Y2 & Y3) & X3). split; [apply T; exact X1|].
  split; [exists c0; split; [exact Y1|]; split; [exact Y2 | nia]|].
  rewrite (S j E). exact X3.
Qed.

Lemma inv_put rem w used c d' c' i s' ids : 0 <= rem -> qinv (rem + 1) w used c -> active w i ->
  q_closed s' = false -> q_loc s' = L -> 0 < q_bw s' <= B ->
  c <= c' -> c' + B * rem < two63 -> cell L d' c' -> db_ok d' -> (forall tj, tx_ok (qw_db w) tj -> tx_ok d' tj) ->
  c00 <= q_next s' <= q_leased s' -> q_leased s' <= c' -> NoDup (q_put s') -> (forall v, In v (q_put s') -> ~ (q_next s' < v <= q_leased s')) ->
  (forall v, pool s' v -> old_pool w i v \/ c < v <= c') ->
  (forall v, In v ids -> (old_pool w i v \/ c < v <= c') /\ ~ pool s' v) ->
  (pol = One -> q_leased s' = c') ->
  qinv rem (QW d' (fupd (qw_seq w) i (Some s')) (fupd (qw_call w) i None)) (ids ++ used) c' /\ (forall v, In v ids -> ~ In v used).
Proof.
  intros R I A Cl Lc Bw Cc Ub Ce Dk Tx Nx Ld Nd Pd Po Id On.
  assert (OLD : forall v, old_pool w i v -> c00 < v <= c /\ ~ In v used).
  { intros v (s & Hs & Hc & Hp). destruct (qi_open _ _ _ _ _ _ _ _ I i s Hs Hc) as (X1 & X2 & X3 & X4 & X5). split; [|intros Hu; exact (X5 v Hu Hp)].
    destruct Hp as [Hp|Hp]; [lia | apply X4; exact Hp]. }
  pose proof (qi_range _ _ _ _ _ _ _ _ I) as Rg. pose proof (qi_used _ _ _ _ _ _ _ _ I) as Us.
  assert (OTH : forall j s v, j <> i -> qw_seq w j = Some s -> q_closed s = false -> pool s v -> ~ pool s' v /\ ~ In v ids /\ c00 < v <= c).
  { intros j s v N Hs Hc Hp. assert (V : c00 < v <= c).
    { destruct (qi_open _ _ _ _ _ _ _ _ I j s Hs Hc) as (X1 & X2 & X3 & X4 & X5). destruct Hp as [Hp|Hp]; [lia | apply X4; exact Hp]. }
    assert (NO : ~ old_pool w i v).
    { intros (si & Hsi & Hci & Hpi). exact (qi_disj _ _ _ _ _ _ _ _ I j i s si N Hs Hsi Hc Hci v Hp Hpi). }
    split; [|split; [|exact V]].
    - intros Hp'. destruct (Po v Hp') as [X|X]; [exact (NO X) | lia].
    - intros Hi. destruct (Id v Hi) as [[X|X] _]; [exact (NO X) | lia]. }
  split.
  2:{ intros v Hv Hu. destruct (Id v Hv) as [[X|X] _]; [exact (proj2 (OLD v X) Hu) | specialize (Us v Hu); lia]. }
  split; cbn [qw_db qw_seq qw_call].
  - exact Ce.
  - split; [lia | exact Ub].
  - exact Dk.
  - intros j s. unfold fupd. destruct (Nat.eqb j i) eqn:E; [intros X; inversion X; subst; auto | apply (qi_obj _ _ _ _ _ _ _ _ I)].
  - intros j s. destruct (Nat.eq_dec j i) as [->|N].
    + rewrite fupd_eq. intros X _. inversion X. subst s. split; [exact Nx|]. split; [exact Ld|]. split; [exact Nd|]. split.
      * intros v Hv. split; [|apply Pd; exact Hv]. destruct (Po v (or_intror Hv)) as [X'|X']; [apply OLD in X'; lia | lia].
      * intros v Hv Hp. apply in_app_or in Hv. destruct Hv as [Hv|Hv]; [exact (proj2 (Id v Hv) Hp)|].
        destruct (Po v Hp) as [X'|X']; [exact (proj2 (OLD v X') Hv) | specialize (Us v Hv); lia].
    + rewrite fupd_ne by exact N. intros Hs Hc. destruct (qi_open _ _ _ _ _ _ _ _ I j s Hs Hc) as (X1 & X2 & X3 & X4 & X5).
      split; [exact X1|]. split; [lia|]. split; [exact X3|]. split; [intros v Hv; specialize (X4 v Hv); split; [lia | tauto]|].
      intros v Hv Hp. apply in_app_or in Hv. destruct Hv as [Hv|Hv]; [|exact (X5 v Hv Hp)]. destruct (OTH j s v N Hs Hc Hp) as (_ & Y & _). exact (Y Hv).
  - intros j1 j2 s1 s2 N. destruct (Nat.eq_dec j1 i) as [->|N1]; [|destruct (Nat.eq_dec j2 i) as [->|N2]].
    + rewrite fupd_eq, fupd_ne by congruence. intros E1 E2 H1 H2 v Hp1 Hp2. inversion E1. subst s1.
      destruct (OTH j2 s2 v (not_eq_sym N) E2 H2 Hp2) as (Y & _). exact (Y Hp1).
    + rewrite fupd_eq, fupd_ne by congruence. intros E1 E2 H1 H2 v Hp1 Hp2. inversion E2. subst s2.
      destruct (OTH j1 s1 v N1 E1 H1 Hp1) as (Y & _). exact (Y Hp2).
    + rewrite !fupd_ne by assumption. apply (qi_disj _ _ _ _ _ _ _ _ I). exact N.
  - intros v Hv. apply in_app_or in Hv. destruct Hv as [Hv|Hv]; [|specialize (Us v Hv); lia].
    destruct (Id v Hv) as [[X|X] _]; [apply OLD in X; lia | lia].
  - apply (call_keep rem w used c); try assumption. intros j N. apply fupd_ne. exact N.
  - intros P. destruct (qi_one _ _ _ _ _ _ _ _ I P) as (U & _ & _).
    assert (AC : forall j, active (QW d' (fupd (qw_seq w) i (Some s')) (fupd (qw_call w) i None)) j -> j = i).
    { intros j Aj. destruct (Nat.eq_dec j i) as [E|N]; [exact E|]. apply U; [|exact A]. unfold active in *. cbn [qw_seq qw_call] in Aj.
      rewrite !fupd_ne in Aj by exact N. exact Aj. }
    split; [|split].
    + intros j1 j2 A1 A2. rewrite (AC j1 A1), (AC j2 A2). reflexivity.
    + intros j s Hs Hc. assert (E : j = i). { apply AC. unfold active. cbn [qw_seq qw_call]. rewrite Hs. exact Hc. }
      subst j. rewrite fupd_eq in Hs. inversion Hs. subst s. apply On. exact P.
    + intros j d0 k Hk Aj. apply AC in Aj. subst j. rewrite fupd_eq in Hk. discriminate.
Qed.

(** object i disappears or is closed; nothing was stored *)
Lemma inv_gone rem w used c i (o : option seq) : 0 <= rem -> qinv (rem + 1) w used c ->
  (forall s, o = Some s -> q_closed s = true /\ q_loc s = L /\ 0 < q_bw s <= B) ->
  qinv rem (QW (qw_db w) (fupd (qw_seq w) i o) (fupd (qw_call w) i None)) used c.
Proof.
  intros R I Ho. pose proof (qi_range _ _ _ _ _ _ _ _ I) as Rg.
  split; cbn [qw_db qw_seq qw_call].
  - apply (qi_cell _ _ _ _ _ _ _ _ I).
  - split; [tauto | nia].
  - apply (qi_db _ _ _ _ _ _ _ _ I).
  - intros j s. destruct (Nat.eq_dec j i) as [->|N]; [rewrite fupd_eq; intros E; apply Ho in E; tauto | rewrite fupd_ne by exact N; apply (qi_obj _ _ _ _ _ _ _ _ I)].
  - intros j s. destruct (Nat.eq_dec j i) as [->|N]; [rewrite fupd_eq; intros E Hc; apply Ho in E; destruct E; congruence | rewrite fupd_ne by exact N; apply (qi_open _ _ _ _ _ _ _ _ I)].
  - intros j1 j2 s1 s2 N. destruct (Nat.eq_dec j1 i) as [->|N1]; [rewrite fupd_eq; intros E _ Hc; apply Ho in E; destruct E; congruence|].
    destruct (Nat.eq_dec j2 i) as [->|N2]; [rewrite fupd_eq; intros _ E _ Hc; apply Ho in E; destruct E; congruence|].
    rewrite !fupd_ne by assumption. apply (qi_disj _ _ _ _ _ _ _ _ I). exact N.
  - apply (qi_used _ _ _ _ _ _ _ _ I).
  - apply (call_keep rem w used c); try assumption; [auto|]. intros j N. apply fupd_ne. exact N.
  - intros P. destruct (qi_one _ _ _ _ _ _ _ _ I P) as (U & V & W).
    assert (AC : forall j, active (QW (qw_db w) (fupd (qw_seq w) i o) (fupd (qw_call w) i None)) j -> j <> i /\ active w j).
    { intros j Aj. unfold active in *. cbn [qw_seq qw_call] in Aj. destruct (Nat.eq_dec j i) as [->|N].
      - rewrite !fupd_eq in Aj. destruct o as [s|]; [|congruence]. destruct (Ho s eq_refl). congruence.
      - rewrite !fupd_ne in Aj by exact N. auto. }
    split; [|split].
    + intros j1 j2 A1 A2. apply U; [apply AC in A1; tauto | apply AC in A2; tauto].
    + intros j s. destruct (Nat.eq_dec j i) as [->|N]; [rewrite fupd_eq; intros E Hc; apply Ho in E; destruct E; congruence | rewrite fupd_ne by exact N; apply V].
    + intros j d0 k Hk Aj. apply AC in Aj. destruct Aj as [N Aj]. rewrite fupd_ne in Hk by exact N. exact (W j d0 k Hk Aj).
Qed.
(** the call on object i ended without effect *)
Lemma inv_same rem w used c i : 0 <= rem -> qinv (rem + 1) w used c ->
  qinv rem (QW (qw_db w) (qw_seq w) (fupd (qw_call w) i None)) used c.
Proof.
  intros R I. pose proof (qi_range _ _ _ _ _ _ _ _ I) as Rg. split; cbn [qw_db qw_seq qw_call].
  - apply (qi_cell _ _ _ _ _ _ _ _ I).
  - split; [tauto | nia].
  - apply (qi_db _ _ _ _ _ _ _ _ I).
  - apply (qi_obj _ _ _ _ _ _ _ _ I).
  - apply (qi_open _ _ _ _ _ _ _ _ I).
  - apply (qi_disj _ _ _ _ _ _ _ _ I).
  - apply (qi_used _ _ _ _ _ _ _ _ I).
  - apply (call_keep rem w used c); try assumption; auto.
  - intros P. destruct (qi_one _ _ _ _ _ _ _ _ I P) as (U & V & W).
    assert (AC : forall j, active (QW (qw_db w) (qw_seq w) (fupd (qw_call w) i None)) j -> active w j).
    { intros j Aj. unfold active in *. cbn [qw_seq qw_call] in Aj. destruct (qw_seq w j); [exact Aj|].
      unfold fupd in Aj. destruct (Nat.eqb j i); congruence. }
    split; [|split].
    + intros j1 j2 A1 A2. apply U; auto.
    + exact V.
    + intros j d0 k Hk Aj. unfold fupd in Hk. destruct (Nat.eqb j i); [discriminate|]. exact (W j d0 k Hk (AC j Aj)).
Qed.
(** the release of the unused lease, one allocator at a time *)
Lemma inv_release rem w used c i s d' s' : 0 <= rem -> qinv (rem + 1) w used c -> pol = One ->
  qw_seq w i = Some s -> q_closed s = false -> cell L d' (q_next s) -> db_ok d' -> (forall tj, tx_ok (qw_db w) tj -> tx_ok d' tj) ->
  q_loc s' = L -> 0 < q_bw s' <= B -> q_next s' = q_next s -> q_leased s' = q_next s -> q_put s' = q_put s ->
  qinv rem (QW d' (fupd (qw_seq w) i (Some s')) (fupd (qw_call w) i None)) used (q_next s).
Proof.
  intros R I P Hs Hc Ce Dk Tx Lc Bw E1 E2 E3.
  destruct (qi_one _ _ _ _ _ _ _ _ I P) as (U & V & W). pose proof (V i s Hs Hc) as Ld.
  destruct (qi_open _ _ _ _ _ _ _ _ I i s Hs Hc) as (X1 & X2 & X3 & X4 & X5). pose proof (qi_range _ _ _ _ _ _ _ _ I) as Rg.
  pose proof (qi_used _ _ _ _ _ _ _ _ I) as Us.
  assert (ACT : active w i) by (unfold active; rewrite Hs; exact Hc).
  assert (NOO : forall j sj, j <> i -> qw_seq w j = Some sj -> q_closed sj = true).
  { intros j sj N Hj. destruct (q_closed sj) eqn:Q; [reflexivity|]. exfalso. apply N. apply U; [|exact ACT]. unfold active. rewrite Hj. exact Q. }
  assert (PU : forall v, In v (q_put s) -> c00 < v <= q_next s) by (intros v Hv; specialize (X4 v Hv); lia).
  assert (UU : forall v, In v used -> c00 < v <= q_next s).
  { intros v Hv. pose proof (Us v Hv). pose proof (X5 v Hv) as X. unfold pool in X. destruct (Z.leb_spec v (q_next s)); [lia|]. exfalso. apply X. left. lia. }
  split; cbn [qw_db qw_seq qw_call].
  - exact Ce.
  - split; [lia | nia].
  - exact Dk.
  - intros j sj. destruct (Nat.eq_dec j i) as [->|N]; [rewrite fupd_eq; intros E; inversion E; subst; auto | rewrite fupd_ne by exact N; apply (qi_obj _ _ _ _ _ _ _ _ I)].
  - intros j sj. destruct (Nat.eq_dec j i) as [->|N].
    + rewrite fupd_eq. intros E Hcj. inversion E. subst sj. rewrite E1, E2, E3. split; [lia|]. split; [lia|]. split; [exact X3|]. split.
      * intros v Hv. split; [apply PU; exact Hv | lia].
      * intros v Hv [Hp|Hp]; [lia|]. rewrite E3 in Hp. apply (X5 v Hv). right. exact Hp.
    + rewrite fupd_ne by exact N. intros Hj Hcj. rewrite (NOO j sj N Hj) in Hcj. discriminate.
  - intros j1 j2 s1 s2 N H1 H2 Q1 Q2. exfalso. destruct (Nat.eq_dec j1 i) as [->|N1].
    + rewrite fupd_ne in H2 by congruence. rewrite (NOO j2 s2) in Q2; [discriminate | congruence | exact H2].
    + rewrite fupd_ne in H1 by exact N1. rewrite (NOO j1 s1) in Q1; [discriminate | congruence | exact H1].
  - exact UU.
  - apply (call_keep rem w used c); try assumption. intros j N. apply fupd_ne. exact N.
  - intros _.
    assert (AC : forall j, active (QW d' (fupd (qw_seq w) i (Some s')) (fupd (qw_call w) i None)) j -> j = i).
    { intros j Aj. destruct (Nat.eq_dec j i) as [E|N]; [exact E|]. apply U; [|exact ACT]. unfold active in *. cbn [qw_seq qw_call] in Aj.
      rewrite !fupd_ne in Aj by exact N. exact Aj. }
    split; [|split].
    + intros j1 j2 A1 A2. rewrite (AC j1 A1), (AC j2 A2). reflexivity.
    + intros j sj Hj Hcj. assert (E : j = i). { apply AC. unfold active. cbn [qw_seq qw_call]. rewrite Hj. exact Hcj. }
      subst j. rewrite fupd_eq in Hj. inversion Hj. subst sj. exact E2.
    + intros j d0 k Hk Aj. apply AC in Aj. subst j. rewrite fupd_eq in Hk. discriminate.
Qed.
End inv.

Section steps.
Context (pol : policy) (B : Z) (L : loc) (c00 : Z) (HB : 0 < B).
Notation qinv := (qinv pol B L c00).

Lemma renew_abs rem w used c i d0 k lim io s d' s1 r : 0 <= rem -> qinv (rem + 1) w used c -> qw_call w i = Some (d0, k) ->
  q_loc s = L -> 0 < q_bw s <= B -> renewLease d0 (qw_db w) lim io s 0 = (d', s1, r) ->
  db_ok d' /\ (forall tj, tx_ok (qw_db w) tj -> tx_ok d' tj) /\
  ((r = Ok tt /\ s1 = set_lease s c (c + q_bw s) /\ cell L d' (c + q_bw s)) \/ (r <> Ok tt /\ d' = qw_db w /\ s1 = s)).
Proof.
  intros R I Hk Lc Bw E. pose proof (qi_range _ _ _ _ _ _ _ _ I) as Rg.
  destruct (qi_call _ _ _ _ _ _ _ _ I i d0 k Hk) as (T & (c0 & C0 & P0 & U0) & _). pose proof (qi_db _ _ _ _ _ _ _ _ I) as Dk.
  unfold renewLease in E. rewrite Z.eqb_refl, Lc in E. 
  destruct (run_update d0 (qw_db w) (loc_inc L (q_bw s)) lim io) as [d1 r1] eqn:Er.
  assert (D1 : db_ok d1) by (replace d1 with (fst (run_update d0 (qw_db w) (loc_inc L (q_bw s)) lim io)) by (rewrite Er; reflexivity); apply run_update_db_ok; exact Dk).
  assert (T1 : forall tj, tx_ok (qw_db w) tj -> tx_ok d1 tj).
  { intros tj X. replace d1 with (fst (run_update d0 (qw_db w) (loc_inc L (q_bw s)) lim io)) by (rewrite Er; reflexivity). apply run_update_tx_ok; assumption. }
  assert (Ic0 : is_i64 c0) by (unfold is_i64; nia). assert (Ibw : is_i64 (q_bw s)) by (unfold is_i64; nia).
  assert (Isum : is_i64 (c0 + q_bw s)) by (unfold is_i64; nia).
  destruct r1 as [v|e|]; inversion E; subst d' s1 r; (split; [exact D1|]); (split; [exact T1|]).
  - left. destruct (renew_ok L d0 (qw_db w) lim io (q_bw s) d1 v c0) as (C1 & -> & C2); try assumption; [lia|].
    assert (c0 = c). { apply (cell_fun L (qw_db w)); try assumption; [unfold is_i64; nia | apply (qi_cell _ _ _ _ _ _ _ _ I)]. } subst c0.
    split; [reflexivity|]. split; [|exact C2]. f_equal. rewrite to_i64_id; [lia|]. unfold is_i64. nia.
  - right. split; [discriminate|]. split; [|reflexivity]. apply (run_update_fail _ _ _ _ _ _ _ Er). discriminate.
  - right. split; [discriminate|]. split; [|reflexivity]. apply (run_update_fail _ _ _ _ _ _ _ Er). discriminate.
Qed.
Lemma update_abs rem w used c i d0 k lim io s d' s1 r : 0 <= rem -> qinv (rem + 1) w used c -> qw_call w i = Some (d0, k) -> pol = One ->
  qw_seq w i = Some s -> q_closed s = false -> q_leased s <> q_next s ->
  forall s2, q_loc s2 = L -> q_next s2 = q_next s -> updateLeased d0 (qw_db w) lim io s2 = (d', s1, r) ->
  db_ok d' /\ (forall tj, tx_ok (qw_db w) tj -> tx_ok d' tj) /\
  ((r = Ok tt /\ s1 = set_lease s2 (q_next s) (q_next s) /\ cell L d' (q_next s)) \/ (r <> Ok tt /\ d' = qw_db w /\ s1 = s2)).
Proof.
  intros R I Hk P Hs Hc Ne s2 Lc Nx E. pose proof (qi_range _ _ _ _ _ _ _ _ I) as Rg. pose proof (qi_db _ _ _ _ _ _ _ _ I) as Dk.
  destruct (qi_one _ _ _ _ _ _ _ _ I P) as (U & V & W). pose proof (V i s Hs Hc) as Ld.
  destruct (qi_open _ _ _ _ _ _ _ _ I i s Hs Hc) as (X1 & X2 & _).
  assert (ACT : active w i) by (unfold active; rewrite Hs; exact Hc).
  assert (C0 : cell L d0 c). { pose proof (qi_cell _ _ _ _ _ _ _ _ I) as Cc. unfold cell in *. rewrite (W i d0 k Hk ACT). exact Cc. }
  unfold updateLeased in E. rewrite Lc, Nx in E.
  destruct (run_update d0 (qw_db w) (loc_set L (q_next s)) lim io) as [d1 r1] eqn:Er.
  assert (D1 : db_ok d1) by (replace d1 with (fst (run_update d0 (qw_db w) (loc_set L (q_next s)) lim io)) by (rewrite Er; reflexivity); apply run_update_db_ok; exact Dk).
  assert (T1 : forall tj, tx_ok (qw_db w) tj -> tx_ok d1 tj).
  { intros tj X. replace d1 with (fst (run_update d0 (qw_db w) (loc_set L (q_next s)) lim io)) by (rewrite Er; reflexivity). apply run_update_tx_ok; assumption. }
  destruct r1 as [v|e|]; inversion E; subst d' s1 r; (split; [exact D1|]); (split; [exact T1|]).
  - left. split; [reflexivity|]. split; [reflexivity|]. apply (update_ok L d0 (qw_db w) lim io (q_next s) d1 v c); try assumption; [unfold is_i64; nia | unfold is_i64; nia | lia].
  - right. split; [discriminate|]. split; [|reflexivity]. apply (run_update_fail _ _ _ _ _ _ _ Er). discriminate.
  - right. split; [discriminate|]. split; [|reflexivity]. apply (run_update_fail _ _ _ _ _ _ _ Er). discriminate.
Qed.

Definition fresh_out (ids used : list Z) : Prop := NoDup ids /\ forall v, In v ids -> ~ In v used.
Lemma fresh_nil used : fresh_out [] used.
Proof. split; [constructor | intros v []]. Qed.

Lemma in_range_ids a b v : In v (range_ids (a, b)) <-> a < v <= b.
Proof.
  unfold range_ids. cbn [fst snd]. rewrite in_map_iff. split.
  - intros (k & <- & H). apply in_seq in H. lia.
  - intros H. exists (Z.to_nat (v - a - 1)). split; [lia|]. apply in_seq. lia.
Qed.
Lemma nodup_range a b : NoDup (range_ids (a, b)).
Proof.
  unfold range_ids. cbn [fst snd]. generalize 0%nat as k, (Z.to_nat (b - a)) as n. intros k n. revert k.
  induction n as [|n IH]; intros k; cbn [List.seq map]; constructor; [|apply IH].
  rewrite in_map_iff. intros (j & E & H). apply in_seq in H. lia.
Qed.

Lemma pair3_inj {A1 A2 A3} (a a' : A1) (b b' : A2) (x x' : A3) : (a, b, x) = (a', b', x') -> a = a' /\ b = b' /\ x = x'.
Proof. intros H. inversion H. auto. Qed.
(** a call on object i in state s (open, of this counter) *)
Lemma exec_inv rem w used c i d0 o lim io s d' s' r : 0 <= rem -> qinv (rem + 1) w used c -> qw_call w i = Some (d0, COp o) ->
  qw_seq w i = Some s -> q_exec d0 (qw_db w) lim io s o = (d', s', r) ->
  (forall n, o = QNextN n -> q_closed s = false -> q_next s + n <= q_leased s) ->
  fresh_out (ids_of (Some r)) used /\
  exists c', qinv rem (QW d' (fupd (qw_seq w) i (Some s')) (fupd (qw_call w) i None)) (ids_of (Some r) ++ used) c'.
Proof.
  intros R I Hk Hs E Hlease. pose proof (qi_range _ _ _ _ _ _ _ _ I) as Rg. pose proof (qi_db _ _ _ _ _ _ _ _ I) as Dk.
  pose proof (qi_cell _ _ _ _ _ _ _ _ I) as Cc.
  destruct (qi_call _ _ _ _ _ _ _ _ I i d0 _ Hk) as (T & _ & _ & Ho).
  destruct (qi_obj _ _ _ _ _ _ _ _ I i s Hs) as (Lc & Bw).
  assert (SAME : forall x, d' = qw_db w -> s' = s -> r = x -> ids_of (Some x) = [] -> fresh_out (ids_of (Some r)) used /\
     exists c', qinv rem (QW d' (fupd (qw_seq w) i (Some s')) (fupd (qw_call w) i None)) (ids_of (Some r) ++ used) c').
  { intros x -> -> -> Ex. rewrite Ex. split; [apply fresh_nil|]. exists c. cbn [app].
    apply (inv_weq _ _ _ _ _ (QW (qw_db w) (qw_seq w) (fupd (qw_call w) i None))); [|apply inv_same; assumption].
    split; [reflexivity|]. split; [|reflexivity]. intros j. cbn [qw_seq]. unfold fupd. destruct (Nat.eqb j i) eqn:Ej; [|reflexivity].
    apply Nat.eqb_eq in Ej. subst j. exact Hs. }
  destruct (q_closed s) eqn:Hc.
  { destruct o as [|[|p|p]| | |rel|]; cbn [q_exec] in E; rewrite ?Hc in E; apply pair3_inj in E; destruct E as (Ea & Eb & Ec); (eapply SAME; [symmetry; exact Ea | symmetry; exact Eb | symmetry; exact Ec | reflexivity]). }
  assert (ACT : active w i) by (unfold active; rewrite Hs; exact Hc).
  destruct (qi_open _ _ _ _ _ _ _ _ I i s Hs Hc) as (X1 & X2 & X3 & X4 & X5).
  assert (OP : forall v, pool s v -> old_pool w i v) by (intros v Hv; exists s; auto).
  assert (ONE : pol = One -> q_leased s = c) by (intros P; apply (proj1 (proj2 (qi_one _ _ _ _ _ _ _ _ I P)) i s Hs Hc)).
  (* taking ids from what the object already holds *)
  assert (TAKE : forall s2 ids, d' = qw_db w -> s' = s2 -> ids_of (Some r) = ids -> q_closed s2 = false -> q_loc s2 = L -> q_bw s2 = q_bw s ->
     q_leased s2 = q_leased s -> q_next s <= q_next s2 <= q_leased s -> NoDup (q_put s2) -> incl (q_put s2) (q_put s) -> NoDup ids ->
     (forall v, In v ids -> pool s v /\ ~ pool s2 v) -> fresh_out (ids_of (Some r)) used /\
     exists c', qinv rem (QW d' (fupd (qw_seq w) i (Some s')) (fupd (qw_call w) i None)) (ids_of (Some r) ++ used) c').
  { intros s2 ids -> -> -> Q1 Q2 Q3 Q4 Q5 Q6 Q7 Q8 Q9.
    destruct (inv_put pol B L c00 HB rem w used c (qw_db w) c i s2 ids) as [J1 J2]; try assumption; try lia; try auto.
    - intros v Hv. specialize (X4 v (Q7 v Hv)). lia.
    - intros v [Hv|Hv]; left; apply OP; [left; lia | right; apply Q7; exact Hv].
    - intros v Hv. destruct (Q9 v Hv) as [Y1 Y2]. split; [left; apply OP; exact Y1 | exact Y2].
    - split; [split; assumption|]. exists c. exact J1. }
  (* a new lease: (c, c+bw], of which the ids up to nx are handed out *)
  assert (LEASE : forall s2 ids, s' = s2 -> ids_of (Some r) = ids -> db_ok d' -> (forall tj, tx_ok (qw_db w) tj -> tx_ok d' tj) ->
     cell L d' (c + q_bw s) -> q_closed s2 = false -> q_loc s2 = L -> q_bw s2 = q_bw s -> q_put s2 = q_put s ->
     q_leased s2 = c + q_bw s -> c <= q_next s2 <= c + q_bw s -> NoDup ids -> (forall v, In v ids -> c < v <= q_next s2) ->
     fresh_out (ids_of (Some r)) used /\
     exists c', qinv rem (QW d' (fupd (qw_seq w) i (Some s')) (fupd (qw_call w) i None)) (ids_of (Some r) ++ used) c').
  { intros s2 ids -> -> D1 T1 Cd Q1 Q2 Q3 Q4 Q5 Q6 Q7 Q8.
    destruct (inv_put pol B L c00 HB rem w used c d' (c + q_bw s) i s2 ids) as [J1 J2]; try assumption; try lia; try auto.
    - rewrite Q4. exact X3.
    - rewrite Q4. intros v Hv. specialize (X4 v Hv). lia.
    - intros v [Hv|Hv]; [right; lia|]. left. apply OP. right. rewrite <- Q4. exact Hv.
    - intros v Hv. specialize (Q8 v Hv). split; [right; lia|]. intros [Hv2|Hv2]; [lia|]. rewrite Q4 in Hv2. specialize (X4 v Hv2). lia.
    - split; [split; assumption|]. exists (c + q_bw s). exact J1. }
  destruct o as [|n| | |rel|].
  - (* Next *)
    cbn [q_exec] in E. rewrite Hc in E. unfold q_Next in E. destruct (rev (q_put s)) as [|v l] eqn:Rv.
    + destruct (q_leased s <=? q_next s) eqn:Le.
      * destruct (renewLease d0 (qw_db w) lim io s 0) as [[d2 s2] r2] eqn:Rn.
        destruct (renew_abs rem w used c i d0 _ lim io s d2 s2 r2 R I Hk Lc Bw Rn) as (D1 & T1 & [(-> & -> & Cd)|(Nr & -> & ->)]).
        -- inversion E. subst d' s' r. cbn [set_lease q_next q_leased] in *. rewrite to_i64_id in * by (unfold is_i64; nia).
           eapply (LEASE _ _ eq_refl eq_refl); try assumption; cbn [set_lease q_next q_leased q_put q_bw q_loc q_closed]; try reflexivity; try assumption; try lia.
           ++ repeat constructor. intros [].
           ++ intros v [<-|[]]. lia.
        -- destruct r2 as [[]|e|]; [congruence| |]; apply pair3_inj in E; destruct E as (Ea & Eb & Ec); (eapply SAME; [symmetry; exact Ea | symmetry; exact Eb | symmetry; exact Ec | reflexivity]).
      * apply Z.leb_gt in Le. inversion E. subst d' s' r. rewrite to_i64_id in * by (unfold is_i64; nia).
        eapply (TAKE _ _ eq_refl eq_refl eq_refl); cbn [set_lease q_next q_leased q_put q_bw q_loc q_closed]; try reflexivity; try assumption; try lia.
        -- apply incl_refl.
        -- repeat constructor. intros [].
        -- intros v [<-|[]]. split; [left; lia|]. intros [Hv|Hv]; cbn [set_lease q_next q_leased q_put] in Hv; [lia|]. specialize (X4 _ Hv). lia.
    + inversion E. subst d' s' r.
      assert (EP : q_put s = rev l ++ [v]) by (rewrite <- (rev_involutive (q_put s)), Rv; reflexivity).
      pose proof X3 as ND. rewrite EP in ND.
      assert (NV : ~ In v (rev l)). { pose proof (NoDup_remove_2 (rev l) [] v ND) as X. rewrite app_nil_r in X. exact X. }
      eapply (TAKE _ _ eq_refl eq_refl eq_refl); cbn [set_put q_next q_leased q_put q_bw q_loc q_closed]; try reflexivity; try assumption; try lia.
      * pose proof (NoDup_remove_1 (rev l) [] v ND) as X. rewrite app_nil_r in X. exact X.
      * rewrite EP. apply incl_appl, incl_refl.
      * repeat constructor. intros [].
      * intros x [<-|[]]. assert (Hin : In v (q_put s)) by (rewrite EP; apply in_or_app; right; left; reflexivity).
        split; [right; exact Hin|]. intros [Hv|Hv]; cbn [set_put q_next q_leased q_put] in Hv; [specialize (X4 v Hin); lia | exact (NV Hv)].
  - (* NextN *)
    pose proof Ho as Hn. pose proof (Hlease n eq_refl eq_refl) as Hf. destruct n as [|p|p]; try lia. cbn [q_exec] in E. rewrite Hc in E. unfold q_NextN in E.
    set (n := Z.pos p) in *. rewrite to_i64_id in E by (unfold is_i64; nia). replace (q_next s + n <=? q_leased s) with true in E by lia.
    inversion E. subst d' s' r. eapply (TAKE _ _ eq_refl eq_refl eq_refl); cbn [set_lease q_next q_leased q_put q_bw q_loc q_closed]; try reflexivity; try assumption; try lia.
    + apply incl_refl.
    + cbn [ids_of map concat]. rewrite app_nil_r. apply nodup_range.
    + cbn [ids_of map concat]. rewrite app_nil_r. intros v Hv. apply in_range_ids in Hv. split; [left; lia|].
      intros [Hv2|Hv2]; cbn [set_lease q_next q_leased q_put] in Hv2; [lia|]. specialize (X4 v Hv2). lia.
  - (* ReNew *)
    cbn [q_exec] in E. rewrite Hc in E. destruct (renewLease d0 (qw_db w) lim io s 0) as [[d2 s2] r2] eqn:Rn. cbn [done] in E.
    destruct (renew_abs rem w used c i d0 _ lim io s d2 s2 r2 R I Hk Lc Bw Rn) as (D1 & T1 & [(-> & -> & Cd)|(Nr & -> & ->)]).
    + inversion E. subst d' s' r. eapply (LEASE _ _ eq_refl eq_refl); try assumption; cbn [set_lease q_next q_leased q_put q_bw q_loc q_closed]; try reflexivity; try assumption; try lia.
      * constructor.
      * intros v [].
    + destruct r2 as [[]|e|]; [congruence| |]; apply pair3_inj in E; destruct E as (Ea & Eb & Ec); (eapply SAME; [symmetry; exact Ea | symmetry; exact Eb | symmetry; exact Ec | reflexivity]).
  - (* ReleaseRemaining *)
    cbn [q_exec] in E. rewrite Hc in E. unfold releaseRemaining in E. destruct (q_leased s =? q_next s) eqn:Eq.
    + apply pair3_inj in E; destruct E as (Ea & Eb & Ec); (eapply SAME; [symmetry; exact Ea | symmetry; exact Eb | symmetry; exact Ec | reflexivity]).
    + apply Z.eqb_neq in Eq. destruct (updateLeased d0 (qw_db w) lim io s) as [[d2 s2] r2] eqn:Up. cbn [done] in E.
      destruct (update_abs rem w used c i d0 _ lim io s d2 s2 r2 R I Hk Ho Hs Hc Eq s Lc eq_refl Up) as (D1 & T1 & [(-> & -> & Cd)|(Nr & -> & ->)]).
      * inversion E. subst d' s' r. split; [apply fresh_nil|]. exists (q_next s). cbn [ids_of app].
        apply (inv_release pol B L c00 HB rem w used c i s); try assumption; reflexivity.
      * destruct r2 as [[]|e|]; [congruence| |]; apply pair3_inj in E; destruct E as (Ea & Eb & Ec); (eapply SAME; [symmetry; exact Ea | symmetry; exact Eb | symmetry; exact Ec | reflexivity]).
  - (* Close *)
    cbn [q_exec] in E. rewrite Hc in E.
    assert (CLOSE : forall s2, d' = qw_db w -> s' = s2 -> ids_of (Some r) = [] -> q_closed s2 = true -> q_loc s2 = L -> q_bw s2 = q_bw s ->
      fresh_out (ids_of (Some r)) used /\ exists c', qinv rem (QW d' (fupd (qw_seq w) i (Some s')) (fupd (qw_call w) i None)) (ids_of (Some r) ++ used) c').
    { intros s2 -> -> -> Q1 Q2 Q3. split; [apply fresh_nil|]. exists c. cbn [app]. apply inv_gone; try assumption.
      intros x Hx. inversion Hx. subst x. rewrite Q3. auto. }
    destruct rel.
    + unfold releaseRemaining in E. cbn [set_closed q_leased q_next] in E. destruct (q_leased s =? q_next s) eqn:Eq.
      * inversion E. subst. eapply CLOSE; try reflexivity; assumption.
      * apply Z.eqb_neq in Eq. destruct (updateLeased d0 (qw_db w) lim io (set_closed s)) as [[d2 s2] r2] eqn:Up. cbn [done] in E.
        destruct (update_abs rem w used c i d0 _ lim io s d2 s2 r2 R I Hk Ho Hs Hc Eq (set_closed s) Lc eq_refl Up) as (D1 & T1 & [(-> & -> & Cd)|(Nr & -> & ->)]).
        -- inversion E. subst d' s' r. split; [apply fresh_nil|]. exists (q_next s). cbn [ids_of app].
           apply (inv_release pol B L c00 HB rem w used c i s); try assumption; reflexivity.
        -- destruct r2 as [[]|e|]; [congruence| |]; inversion E; subst; (eapply CLOSE; try reflexivity; assumption).
    + inversion E. subst. eapply CLOSE; try reflexivity; assumption.
  - destruct Ho.
Qed.
End steps.

Section run.
Context (pol : policy) (B : Z) (L : loc) (c00 : Z) (HB : 0 < B).
Notation qinv := (qinv pol B L c00).

Lemma inv_rem rem w used c : 0 <= rem -> qinv (rem + 1) w used c -> qinv rem w used c.
Proof.
  intros R I. pose proof (qi_range _ _ _ _ _ _ _ _ I) as Rg. destruct I as [I1 I2 I3 I4 I5 I6 I7 I8 I9]. split; try assumption.
  - split; [tauto | nia].
  - intros i d0 k Hk. destruct (I8 i d0 k Hk) as (X1 & (c0 & Y1 & Y2 & Y3) & X3). split; [exact X1|]. split; [|exact X3].
    exists c0. split; [exact Y1|]. split; [exact Y2 | nia].
Qed.
(** a commit of someone else *)
Lemma inv_foreign rem w used c d' : qinv rem w used c -> get (d_kv d') (counter_key L) = get (d_kv (qw_db w)) (counter_key L) ->
  db_ok d' -> (forall tj, tx_ok (qw_db w) tj -> tx_ok d' tj) -> qinv rem (QW d' (qw_seq w) (qw_call w)) used c.
Proof.
  intros [I1 I2 I3 I4 I5 I6 I7 I8 I9] G Dk Tx. split; cbn [qw_db qw_seq qw_call]; try assumption.
  - unfold cell in *. rewrite G. exact I1.
  - intros i d0 k Hk. destruct (I8 i d0 k Hk) as (X1 & X2 & X3). split; [apply Tx; exact X1|]. split; [exact X2 | exact X3].
  - intros P. destruct (I9 P) as (U & V & W). split; [exact U|]. split; [exact V|]. intros i d0 k Hk A. rewrite G. exact (W i d0 k Hk A).
Qed.
Lemma tx_ok_tick d n tj : tx_ok d tj -> tx_ok (tick d n) tj.
Proof. intros H. exact H. Qed.
Lemma inv_crash rem w used c (who : nat -> bool) : qinv rem w used c ->
  qinv rem (QW (qw_db w) (fun j => if who j then None else qw_seq w j) (fun j => if who j then None else qw_call w j)) used c.
Proof.
  intros [I1 I2 I3 I4 I5 I6 I7 I8 I9]. 
  assert (AC : forall j, active (QW (qw_db w) (fun j => if who j then None else qw_seq w j) (fun j => if who j then None else qw_call w j)) j -> active w j).
  { intros j. unfold active. cbn [qw_seq qw_call]. destruct (who j); [congruence | auto]. }
  split; cbn [qw_db qw_seq qw_call]; try assumption.
  - intros i s. destruct (who i); [discriminate | apply I4].
  - intros i s. destruct (who i); [discriminate | apply I5].
  - intros i j s s' N. destruct (who i); [discriminate|]. destruct (who j); [discriminate|]. apply I6. exact N.
  - intros i d0 k. destruct (who i); [discriminate | apply I8].
  - intros P. destruct (I9 P) as (U & V & W). split; [|split].
    + intros i j A1 A2. apply U; apply AC; assumption.
    + intros i s. destruct (who i); [discriminate | apply V].
    + intros i d0 k Hk A. destruct (who i); [discriminate|]. exact (W i d0 k Hk (AC i A)).
Qed.
Lemma inv_begin rem w used c i k : qinv rem w used c -> qw_call w i = None -> allowed pol B L w used (QBegin i k) ->
  match k with CNew _ => qw_seq w i = None | COp _ => exists s, qw_seq w i = Some s end ->
  qinv rem (QW (qw_db w) (qw_seq w) (fupd (qw_call w) i (Some (qw_db w, k)))) used c.
Proof.
  intros I N A Hk. destruct I as [I1 I2 I3 I4 I5 I6 I7 I8 I9]. split; cbn [qw_db qw_seq qw_call]; try assumption.
  - intros j d0 k0. destruct (Nat.eq_dec j i) as [->|Nj]; [|rewrite fupd_ne by exact Nj; apply I8].
    rewrite fupd_eq. intros E. inversion E. subst d0 k0. split; [apply tx_ok_new|].
    split; [exists c; split; [exact I1|]; split; [lia | tauto]|].
    destruct k as [bw|o]; cbn [allowed] in A; [split; [tauto | exact Hk] | split; [exact Hk|]].
    destruct o; exact A.
  - intros P. destruct (I9 P) as (U & V & W).
    set (w' := QW (qw_db w) (qw_seq w) (fupd (qw_call w) i (Some (qw_db w, k)))).
    assert (AC : forall j, j <> i -> active w' j -> active w j).
    { intros j Nj. unfold active, w'. cbn [qw_seq qw_call]. rewrite fupd_ne by exact Nj. auto. }
    split; [|split].
    + intros j1 j2 A1 A2. destruct k as [bw|o].
      * destruct A as [_ A]. specialize (A P). destruct (Nat.eq_dec j1 i) as [->|N1]; [|exfalso; exact (A j1 (AC j1 N1 A1))].
        destruct (Nat.eq_dec j2 i) as [->|N2]; [reflexivity|exfalso; exact (A j2 (AC j2 N2 A2))].
      * assert (AC2 : forall j, active w' j -> active w j).
        { intros j Aj. destruct (Nat.eq_dec j i) as [->|Nj]; [|exact (AC j Nj Aj)]. destruct Hk as [s Hs]. unfold active, w' in *. cbn [qw_seq] in Aj. rewrite Hs in *. exact Aj. }
        apply U; auto.
    + exact V.
    + intros j d0 k0. destruct (Nat.eq_dec j i) as [->|Nj]; [rewrite fupd_eq; intros E _; inversion E; reflexivity|].
      rewrite fupd_ne by exact Nj. intros Hj Aj. exact (W j d0 k0 Hj (AC j Nj Aj)).
Qed.
Lemma used_filter used vs v : In v (filter (fun v => negb (existsb (Z.eqb v) vs)) used) <-> In v used /\ ~ In v vs.
Proof.
  rewrite filter_In. rewrite negb_true_iff, <- not_true_iff_false, existsb_exists. split; intros [H1 H2]; (split; [exact H1|]).
  - intros H. apply H2. exists v. split; [exact H | apply Z.eqb_refl].
  - intros (x & Hx & E). apply Z.eqb_eq in E. subst x. exact (H2 Hx).
Qed.
Lemma inv_putback rem w used c i s vs : qinv rem w used c -> qw_call w i = None -> qw_seq w i = Some s -> NoDup vs -> incl vs used ->
  qinv rem (QW (qw_db w) (fupd (qw_seq w) i (Some (q_PutBack s vs))) (qw_call w)) (filter (fun v => negb (existsb (Z.eqb v) vs)) used) c.
Proof.
  intros [I1 I2 I3 I4 I5 I6 I7 I8 I9] Nc Hs Nd Inc.
  assert (PB : forall v, pool (q_PutBack s vs) v -> pool s v \/ In v vs).
  { intros v [H|H]; [left; left; exact H|]. cbn [q_PutBack set_put q_put] in H. apply in_app_or in H. destruct H; [left; right; exact H | auto]. }
  assert (AC : forall j, active (QW (qw_db w) (fupd (qw_seq w) i (Some (q_PutBack s vs))) (qw_call w)) j -> active w j).
  { intros j. unfold active. cbn [qw_seq qw_call]. destruct (Nat.eq_dec j i) as [->|N]; [rewrite fupd_eq, Hs; auto | rewrite fupd_ne by exact N; auto]. }
  split; cbn [qw_db qw_seq qw_call]; try assumption.
  - intros j sj. destruct (Nat.eq_dec j i) as [->|N]; [rewrite fupd_eq; intros E; inversion E; apply (I4 i s Hs) | rewrite fupd_ne by exact N; apply I4].
  - intros j sj. destruct (Nat.eq_dec j i) as [->|N].
    + rewrite fupd_eq. intros E Hc. inversion E. subst sj. cbn [q_PutBack set_put q_closed q_next q_leased q_put] in *.
      destruct (I5 i s Hs Hc) as (X1 & X2 & X3 & X4 & X5). split; [exact X1|]. split; [exact X2|]. split; [|split].
      * clear - X3 X5 Nd Inc. assert (D : forall v, In v (q_put s) -> ~ In v vs) by (intros v H1 H2; apply (X5 v (Inc v H2)); right; exact H1).
        revert X3 D. induction (q_put s) as [|x l IH]; intros X3 D; [exact Nd|]. cbn [app]. inversion X3. subst. constructor.
        -- intros H. apply in_app_or in H. destruct H as [H|H]; [contradiction | exact (D x (or_introl eq_refl) H)].
        -- apply IH; [assumption|]. intros v Hv. apply D. right. exact Hv.
      * intros v Hv. apply in_app_or in Hv. destruct Hv as [Hv|Hv]; [apply X4; exact Hv|]. split; [apply I7, Inc, Hv|].
        intros H. apply (X5 v (Inc v Hv)). left. exact H.
      * intros v Hv Hp. apply used_filter in Hv. destruct Hv as [Hv1 Hv2]. apply PB in Hp. destruct Hp as [Hp|Hp]; [exact (X5 v Hv1 Hp) | exact (Hv2 Hp)].
    + rewrite fupd_ne by exact N. intros Hj Hc. destruct (I5 j sj Hj Hc) as (X1 & X2 & X3 & X4 & X5). split; [exact X1|]. split; [exact X2|].
      split; [exact X3|]. split; [exact X4|]. intros v Hv. apply used_filter in Hv. apply X5. tauto.
  - assert (OTH : forall j sj v, j <> i -> qw_seq w j = Some sj -> q_closed sj = false -> q_closed s = false -> pool (q_PutBack s vs) v -> ~ pool sj v).
    { intros j sj v N Hj Hcj Hcs Hp Hpj. apply PB in Hp. destruct Hp as [Hp|Hp].
      - exact (I6 i j s sj (not_eq_sym N) Hs Hj Hcs Hcj v Hp Hpj).
      - destruct (I5 j sj Hj Hcj) as (_ & _ & _ & _ & X5). exact (X5 v (Inc v Hp) Hpj). }
    intros j1 j2 s1 s2 N. destruct (Nat.eq_dec j1 i) as [->|N1]; [|destruct (Nat.eq_dec j2 i) as [->|N2]].
    + rewrite fupd_eq, fupd_ne by congruence. intros E1 E2 H1 H2 v Hp. inversion E1. subst s1. apply (OTH j2); try assumption. congruence.
    + rewrite fupd_eq, fupd_ne by congruence. intros E1 E2 H1 H2 v Hp1 Hp2. inversion E2. subst s2. exact (OTH j1 s1 v N1 E1 H1 H2 Hp2 Hp1).
    + rewrite !fupd_ne by assumption. apply I6. exact N.
  - intros v Hv. apply used_filter in Hv. apply I7. tauto.
  - intros j d0 k Hk. destruct (Nat.eq_dec j i) as [->|N]; [congruence|]. rewrite fupd_ne by exact N. exact (I8 j d0 k Hk).
  - intros P. destruct (I9 P) as (U & V & W). split; [|split].
    + intros j1 j2 A1 A2. apply U; auto.
    + intros j sj. destruct (Nat.eq_dec j i) as [->|N]; [rewrite fupd_eq; intros E; inversion E; exact (V i s Hs) | rewrite fupd_ne by exact N; apply V].
    + intros j d0 k Hk A. exact (W j d0 k Hk (AC j A)).
Qed.

Lemma new_inv rem w used c i d0 bw lim io d' o r : 0 <= rem -> qinv (rem + 1) w used c -> qw_call w i = Some (d0, CNew bw) ->
  newSeq d0 (qw_db w) lim io L bw = (d', o, r) ->
  exists c', qinv rem (QW d' (fupd (qw_seq w) i o) (fupd (qw_call w) i None)) used c'.
Proof.
  intros R I Hk E. pose proof (qi_range _ _ _ _ _ _ _ _ I) as Rg. pose proof (qi_db _ _ _ _ _ _ _ _ I) as Dk.
  destruct (qi_call _ _ _ _ _ _ _ _ I i d0 _ Hk) as (T & _ & Bw & Hn).
  assert (GONE : d' = qw_db w -> o = None -> exists c', qinv rem (QW d' (fupd (qw_seq w) i o) (fupd (qw_call w) i None)) used c').
  { intros -> ->. exists c. apply inv_gone; try assumption. discriminate. }
  unfold newSeq in E.
  destruct (match L with AtString [] => Some ErrEmptyKeywordForStringSequence | AtHash [] _ => Some ErrEmptyKeyForHashSequence
            | AtHash _ [] => Some ErrEmptyFieldForHashSequence | _ => if bw =? 0 then Some ErrZeroBandwidth else None end).
  { apply pair3_inj in E. destruct E as (E1 & E2 & E3). apply GONE; congruence. }
  destruct (renewLease d0 (qw_db w) lim io (Seq L bw false 0 0 []) 0) as [[d2 s2] r2] eqn:Rn.
  destruct (renew_abs pol B L c00 HB rem w used c i d0 _ lim io (Seq L bw false 0 0 []) d2 s2 r2 R I Hk eq_refl Bw Rn) as (D1 & T1 & [(-> & -> & Cd)|(Nr & -> & ->)]).
  - apply pair3_inj in E. destruct E as (<- & <- & _). exists (c + bw).
    assert (ACT : active w i) by (unfold active; rewrite Hn, Hk; discriminate).
    destruct (inv_put pol B L c00 HB rem w used c d2 (c + bw) i (set_lease (Seq L bw false 0 0 []) c (c + bw)) []) as [J1 J2];
      cbn [set_lease q_loc q_bw q_closed q_next q_leased q_put] in *; try assumption; try reflexivity; try lia.
    + constructor.
    + intros v [].
    + intros v [Hv|[]]. right. cbn [set_lease q_next q_leased] in Hv. lia.
    + intros v [].
  - destruct r2 as [[]|e|]; [congruence| |]; apply pair3_inj in E; destruct E as (E1 & E2 & E3); apply GONE; congruence.
Qed.

Lemma step_inv rem w used c e : 0 <= rem -> qinv (rem + 1) w used c -> allowed pol B L w used e ->
  fresh_out (ids_of (snd (qstep L w e))) used /\
  exists c', qinv rem (fst (qstep L w e)) (used_after used e (snd (qstep L w e))) c'.
Proof.
  intros R I A. pose proof (inv_rem rem w used c R I) as I0.
  assert (NOP : fresh_out (ids_of None) used /\ exists c', qinv rem w (used_after used e None) c').
  { split; [apply fresh_nil|]. exists c. destruct e; exact I0. }
  destruct e as [i k|i lim io|i vs|who|t io|n]; cbn [qstep].
  - destruct (qw_call w i) eqn:Hc; [exact NOP|]. 
    destruct k as [bw|o]; (destruct (qw_seq w i) as [s|] eqn:Hs; [|]); try exact NOP; (split; [apply fresh_nil|]); exists c; cbn [fst snd used_after ids_of app];
      (apply inv_begin; [exact I0 | exact Hc | exact A | eauto]).
  - destruct (qw_call w i) as [[d0 [bw|o]]|] eqn:Hc; [| |exact NOP].
    + destruct (newSeq d0 (qw_db w) lim io L bw) as [[d2 o2] r2] eqn:E. cbn [fst snd]. 
      assert (IE : ids_of (Some match r2 with Ok _ => Ok QUnit | Err x => Err x | Panic => Panic end) = []) by (destruct r2; reflexivity).
      unfold used_after. rewrite IE. split; [apply fresh_nil|]. cbn [app]. eapply new_inv; eassumption.
    + destruct (qw_seq w i) as [s|] eqn:Hs; [|exact NOP]. destruct (q_exec d0 (qw_db w) lim io s o) as [[d2 s2] r2] eqn:E. cbn [fst snd used_after].
      eapply exec_inv; try eassumption. intros n -> Cl. exact (A d0 n s Hc Hs Cl).
  - destruct (qw_call w i) as [x|] eqn:Hc; [exact NOP|]. destruct (qw_seq w i) as [s|] eqn:Hs; [|exact NOP]. cbn [fst snd used_after].
    split; [apply fresh_nil|]. exists c. destruct A as [A1 A2]. apply inv_putback; assumption.
  - cbn [fst snd used_after ids_of app]. split; [apply fresh_nil|]. exists c. apply inv_crash. exact I0.
  - destruct (commit (qw_db w) t io) as [[d2 t2] r2] eqn:E. cbn [fst snd used_after ids_of app]. split; [apply fresh_nil|]. exists c.
    apply inv_foreign; [exact I0| | |].
    + destruct (commit_cases _ _ _ _ _ _ E) as [(_ & Kv & _)|[_ ->]]; [|reflexivity]. rewrite Kv. cbn [allowed] in A. rewrite A. reflexivity.
    + eapply commit_db_ok; [apply (qi_db _ _ _ _ _ _ _ _ I) | exact E].
    + intros tj. eapply commit_tx_ok; [apply (qi_db _ _ _ _ _ _ _ _ I) | exact E].
  - cbn [fst snd used_after ids_of app]. split; [apply fresh_nil|]. exists c. apply inv_foreign; [exact I0 | reflexivity | apply (qi_db _ _ _ _ _ _ _ _ I) | auto].
Qed.
Lemma run_inv es : forall rem w used c, 0 <= rem -> qinv (rem + Z.of_nat (length es)) w used c -> callers_ok pol B L w used es ->
  never_twice used es (snd (qrun L w es)) /\ exists used' c', qinv rem (fst (qrun L w es)) used' c'.
Proof.
  induction es as [|e es IH]; intros rem w used c R I A.
  - cbn [length] in I. replace (rem + Z.of_nat 0) with rem in I by lia. split; [exact Logic.I | exists used, c; exact I].
  - cbn [length] in I. replace (rem + Z.of_nat (S (length es))) with (rem + Z.of_nat (length es) + 1) in I by lia. destruct A as [A1 A2].
    destruct (step_inv (rem + Z.of_nat (length es)) w used c e ltac:(lia) I A1) as (F & c' & I1).
    cbn [qrun]. destruct (qstep L w e) as [w1 r] eqn:E. cbn [fst snd] in *.
    destruct (IH rem w1 _ c' R I1 A2) as (N & F2). destruct (qrun L w1 es) as [w2 rs]. cbn [fst snd never_twice] in *.
    split; [split; [exact F | exact N] | exact F2].
Qed.
End run.

(** the ids handed out are above the value stored at the start *)
Lemma run_above pol B L c00 (HB : 0 < B) es : forall rem w used c, 0 <= rem -> qinv pol B L c00 (rem + Z.of_nat (length es)) w used c ->
  callers_ok pol B L w used es -> Forall (fun r => forall v, In v (ids_of r) -> c00 < v) (snd (qrun L w es)).
Proof.
  induction es as [|e es IH]; intros rem w used c R I A; [constructor|].
  cbn [length] in I. replace (rem + Z.of_nat (S (length es))) with (rem + Z.of_nat (length es) + 1) in I by lia. destruct A as [A1 A2].
  destruct (step_inv pol B L c00 HB (rem + Z.of_nat (length es)) w used c e ltac:(lia) I A1) as (F & c' & I1).
  cbn [qrun]. destruct (qstep L w e) as [w1 r] eqn:E. cbn [fst snd] in *. specialize (IH rem w1 _ c' R I1 A2).
  destruct (qrun L w1 es) as [w2 rs]. cbn [snd] in *. constructor; [|exact IH]. intros v Hv.
  pose proof (qi_used _ _ _ _ _ _ _ _ I1 v) as X.
  destruct e; cbn [used_after] in X; try (specialize (X (in_or_app _ _ _ (or_introl Hv))); lia).
  cbn [qstep] in E. destruct (qw_call w i); [inversion E; subst r; destruct Hv|]. destruct (qw_seq w i); inversion E; subst r; destruct Hv.
Qed.

(** NextN that needs a new lease: the ids are new *)
Lemma nextn_slow pol B L c00 (HB : 0 < B) rem w used c i d0 n lim io s d' s' l : qinv pol B L c00 (rem + 1) w used c -> 0 <= rem -> n <= B * rem ->
  qw_call w i = Some (d0, COp (QNextN n)) -> qw_seq w i = Some s -> q_closed s = false -> q_leased s < q_next s + n ->
  q_exec d0 (qw_db w) lim io s (QNextN n) = (d', s', Ok (QRanges l)) ->
  fresh_out (concat (map range_ids l)) used /\ Z.of_nat (length (concat (map range_ids l))) = n.
Proof.
  intros I R Hn Hk Hs Hc Hlt E. pose proof (qi_range _ _ _ _ _ _ _ _ I) as Rg. pose proof (qi_db _ _ _ _ _ _ _ _ I) as Dk.
  destruct (qi_call _ _ _ _ _ _ _ _ I i d0 _ Hk) as (T & (c0 & C0 & P0 & U0) & _ & Hpos). cbn in Hpos.
  destruct (qi_obj _ _ _ _ _ _ _ _ I i s Hs) as (Lc & Bw). destruct (qi_open _ _ _ _ _ _ _ _ I i s Hs Hc) as (X1 & X2 & X3 & X4 & X5).
  destruct n as [|p|p]; try lia. cbn [q_exec] in E. rewrite Hc in E. unfold q_NextN in E. set (n := Z.pos p) in *.
  assert (Hn2 : n <= B * rem + B) by lia.
  rewrite (to_i64_id (q_next s + n)) in E by (unfold is_i64; nia). replace (q_next s + n <=? q_leased s) with false in E by lia.
  rewrite (to_i64_id (q_leased s - q_next s)) in E by (unfold is_i64; nia). set (m := q_leased s - q_next s) in *.
  rewrite (to_i64_id (n + q_bw s - m)) in E by (unfold is_i64; nia).
  unfold renewLease in E. replace (n + q_bw s - m =? 0) with false in E by lia. rewrite Lc in E. set (step := n + q_bw s - m) in *.
  destruct (run_update d0 (qw_db w) (loc_inc L step) lim io) as [d1 [v|e|]] eqn:Er; try discriminate.
  assert (Ic0 : is_i64 c0) by (unfold is_i64; nia). assert (Ist : is_i64 step) by (unfold is_i64; nia). assert (Isum : is_i64 (c0 + step)) by (unfold is_i64; nia).
  destruct (renew_ok L d0 (qw_db w) lim io step d1 v c0) as (C1 & -> & C2); try assumption; [lia|].
  assert (c0 = c). { apply (cell_fun L (qw_db w)); try assumption; [unfold is_i64; nia | apply (qi_cell _ _ _ _ _ _ _ _ I)]. } subst c0.
  replace (to_i64 (c + step - step)) with c in E by (rewrite to_i64_id; [lia | unfold is_i64; nia]). cbn [set_lease q_next] in E.
  rewrite (to_i64_id (q_next s + m)) in E by (unfold is_i64; nia). rewrite (to_i64_id (c + n - m)) in E by (unfold is_i64; nia).
  assert (EL : l = (if 0 <? m then [(q_next s, q_next s + m)] else []) ++ [(c, c + n - m)]) by congruence. clear E.
  assert (M : forall x, In x (concat (map range_ids l)) <-> (q_next s < x <= q_leased s) \/ c < x <= c + n - m).
  { intros x. rewrite EL. destruct (0 <? m) eqn:Em; cbn [app map concat]; rewrite ?app_nil_r, ?in_app_iff, !in_range_ids; lia. }
  split; [split|].
  - rewrite EL. destruct (0 <? m); cbn [app map concat]; rewrite ?app_nil_r; [|apply nodup_range].
    assert (ND : forall a b : list Z, NoDup a -> NoDup b -> (forall x, In x a -> ~ In x b) -> NoDup (a ++ b)).
    { induction a as [|x a IH]; intros b Ha Hb Hd; [exact Hb|]. inversion Ha. subst. cbn [app]. constructor.
      - intros H. apply in_app_or in H. destruct H as [H|H]; [contradiction | exact (Hd x (or_introl eq_refl) H)].
      - apply IH; [assumption..|]. intros y Hy. apply Hd. right. exact Hy. }
    apply ND; [apply nodup_range..|]. intros x. rewrite !in_range_ids. lia.
  - intros x Hx Hu. apply M in Hx. destruct Hx as [Hx|Hx]; [apply (X5 x Hu); left; exact Hx|].
    pose proof (qi_used _ _ _ _ _ _ _ _ I x Hu). lia.
  - rewrite EL. destruct (0 <? m) eqn:Em; cbn [app map concat]; rewrite ?app_nil_r, ?app_length; unfold range_ids; rewrite ?map_length, ?seq_length; cbn [fst snd]; lia.
Qed.

(** * No gaps: one allocator at a time, always closed with release *)
Definition frugal1 (w : qworld) (e : qev) (r : option (result qval)) : Prop :=
  match e with
  | QCrash _ | QPut _ _ | QBegin _ (COp QReNew) | QBegin _ (COp (QClose false)) => False
  | QEnd i _ _ => forall d0 s, qw_call w i = Some (d0, COp (QClose true)) -> qw_seq w i = Some s -> q_closed s = false -> r = Some (Ok QUnit)
  | _ => True
  end.
Fixpoint frugal (L : loc) (w : qworld) (es : list qev) : Prop :=
  match es with
  | [] => True
  | e :: es' => frugal1 w e (snd (qstep L w e)) /\ frugal L (fst (qstep L w e)) es'
  end.
Record gapless (w : qworld) (h c : Z) : Prop := {
  g_open : forall i s, qw_seq w i = Some s -> q_closed s = false -> q_next s = h /\ q_put s = [];
  g_none : (forall i s, qw_seq w i = Some s -> q_closed s = true) -> c = h;
  g_call : forall i d0 k, qw_call w i = Some (d0, k) -> match k with COp QReNew | COp (QClose false) => False | _ => True end
}.
Lemma range_ids_nil h : range_ids (h, h) = [].
Proof. unfold range_ids. cbn [fst snd]. rewrite Z.sub_diag. reflexivity. Qed.
Lemma range_ids_one h : range_ids (h, h + 1) = [h + 1].
Proof. unfold range_ids. cbn [fst snd]. replace (h + 1 - h) with 1 by lia. change (Z.to_nat 1) with 1%nat. cbn [List.seq map Z.of_nat]. rewrite Z.add_0_r. reflexivity. Qed.
Lemma range_ids_app a b d : a <= b -> b <= d -> range_ids (a, b) ++ range_ids (b, d) = range_ids (a, d).
Proof.
  intros H1 H2. unfold range_ids. cbn [fst snd]. replace (Z.to_nat (d - a)) with (Z.to_nat (b - a) + Z.to_nat (d - b))%nat by lia.
  rewrite seq_app, map_app. f_equal. cbn [plus]. 
  assert (X : forall n k, List.seq (k + Z.to_nat (b - a)) n = map (fun j => (j + Z.to_nat (b - a))%nat) (List.seq k n)).
  { induction n as [|n IH]; intros k; cbn [List.seq map]; [reflexivity|]. f_equal. apply (IH (S k)). }
  pose proof (X (Z.to_nat (d - b)) 0%nat) as Y. cbn [plus] in Y. rewrite Y, map_map. apply map_ext. intros j. lia.
Qed.
Lemma range_ids_len a b : a <= b -> a + Z.of_nat (length (range_ids (a, b))) = b.
Proof. intros H. unfold range_ids. rewrite map_length, seq_length. cbn [fst snd]. lia. Qed.

Section gap.
Context (B : Z) (L : loc) (c00 : Z) (HB : 0 < B).
Notation qinv := (qinv One B L c00).

Lemma gap_replace w h c i s' h' c' d' k' : gapless w h c -> (forall j s, j <> i -> qw_seq w j = Some s -> q_closed s = true) ->
  (q_closed s' = false -> q_next s' = h' /\ q_put s' = []) -> (q_closed s' = true -> c' = h') ->
  (forall j x, k' j = Some x -> qw_call w j = Some x) ->
  gapless (QW d' (fupd (qw_seq w) i (Some s')) k') h' c'.
Proof.
  intros [G1 G2 G3] O H1 H2 Hk. split; cbn [qw_seq qw_call].
  - intros j s. destruct (Nat.eq_dec j i) as [->|N]; [rewrite fupd_eq; intros E; inversion E; subst; exact H1 |].
    rewrite fupd_ne by exact N. intros Hs Hc. rewrite (O j s N Hs) in Hc. discriminate.
  - intros All. apply H2. apply (All i s'). rewrite fupd_eq. reflexivity.
  - intros j d0 k Hj. apply Hk in Hj. exact (G3 j d0 k Hj).
Qed.
Lemma fupd_none_incl {A} (f : nat -> option A) i j x : fupd f i None j = Some x -> f j = Some x.
Proof. unfold fupd. destruct (Nat.eqb j i); [discriminate | auto]. Qed.
Lemma only_active rem w used c i : qinv rem w used c -> active w i -> forall j s, j <> i -> qw_seq w j = Some s -> q_closed s = true.
Proof.
  intros I A j s N Hs. destruct (q_closed s) eqn:Q; [reflexivity|]. exfalso. apply N.
  apply (proj1 (qi_one _ _ _ _ _ _ _ _ I eq_refl)); [|exact A]. unfold active. rewrite Hs. exact Q.
Qed.

(** same world up to the call of i *)
Lemma gap_same w h c i : gapless w h c -> gapless (QW (qw_db w) (qw_seq w) (fupd (qw_call w) i None)) h c.
Proof. intros [G1 G2 G3]. split; cbn; [exact G1 | exact G2 |]. intros j d0 k Hj. apply fupd_none_incl in Hj. exact (G3 j d0 k Hj). Qed.
Lemma gap_weq w w' h c : weq w w' -> gapless w h c -> gapless w' h c.
Proof.
  intros (E0 & E1 & E2) [G1 G2 G3]. split.
  - intros i s. rewrite <- E1. apply G1.
  - intros H. apply G2. intros i s. rewrite E1. apply H.
  - intros i d0 k. rewrite <- E2. apply G3.
Qed.

Lemma cell_val rem w used c x : qinv rem w used c -> 0 <= rem -> cell L (qw_db w) x -> 0 <= x < two63 -> x = c.
Proof.
  intros I R C Hx. pose proof (qi_range _ _ _ _ _ _ _ _ I). apply (cell_fun L (qw_db w)); [unfold is_i64; lia | unfold is_i64; nia | exact C | apply (qi_cell _ _ _ _ _ _ _ _ I)].
Qed.

Lemma gap_step rem w used c h e : 0 <= rem -> qinv (rem + 1) w used c -> gapless w h c -> allowed One B L w used e ->
  frugal1 w e (snd (qstep L w e)) ->
  exists c', let h' := h + Z.of_nat (length (ids_of (snd (qstep L w e)))) in
    qinv rem (fst (qstep L w e)) (used_after used e (snd (qstep L w e))) c' /\
    gapless (fst (qstep L w e)) h' c' /\ ids_of (snd (qstep L w e)) = range_ids (h, h').
Proof.
  intros R I G A Fr. destruct (step_inv One B L c00 HB rem w used c e R I A) as (_ & c' & I').
  exists c'. cbv zeta. split; [exact I'|].
  pose proof (qi_range _ _ _ _ _ _ _ _ I) as Rg. pose proof (qi_range _ _ _ _ _ _ _ _ I') as Rg'.
  assert (CV : forall x, 0 <= x < two63 -> cell L (qw_db (fst (qstep L w e))) x -> x = c').
  { intros x Hx Hcx. exact (cell_val _ _ _ _ x I' R Hcx Hx). }
  assert (CS : get (d_kv (qw_db (fst (qstep L w e)))) (counter_key L) = get (d_kv (qw_db w)) (counter_key L) -> c = c').
  { intros Ek. apply CV; [nia|]. pose proof (qi_cell _ _ _ _ _ _ _ _ I) as Cc. unfold cell in *. rewrite Ek. exact Cc. }
  assert (NIL : forall w2, ids_of (snd (qstep L w e)) = [] -> fst (qstep L w e) = w2 -> gapless w2 h c' -> 
     gapless (fst (qstep L w e)) (h + Z.of_nat (length (ids_of (snd (qstep L w e))))) c' /\
     ids_of (snd (qstep L w e)) = range_ids (h, h + Z.of_nat (length (ids_of (snd (qstep L w e)))))).
  { intros w2 -> -> Gw. cbn [length]. rewrite Z.add_0_r. split; [exact Gw | symmetry; apply range_ids_nil]. }
  destruct e as [i k|i lim io|i vs|who|t io|n]; try contradiction.
  - (* begin *)
    cbn [qstep] in *. destruct (qw_call w i) eqn:Hc.
    { apply (NIL w); try reflexivity. rewrite <- (CS eq_refl). exact G. }
    assert (X : gapless (QW (qw_db w) (qw_seq w) (fupd (qw_call w) i (Some (qw_db w, k)))) h c).
    { destruct G as [G1 G2 G3]. split; cbn; [exact G1 | exact G2|]. intros j d0 k0. destruct (Nat.eq_dec j i) as [->|N].
      - rewrite fupd_eq. intros E. inversion E. subst. destruct k0 as [bw|[| | | |[|]|]]; cbn in Fr; auto.
      - rewrite fupd_ne by exact N. apply G3. }
    destruct k as [bw|o]; (destruct (qw_seq w i) as [s|]; cbn [fst snd qw_db] in * ); (eapply NIL; [reflexivity | reflexivity | rewrite <- (CS eq_refl)]); first [exact G | exact X].
  - (* end *)
    cbn [qstep] in *. destruct (qw_call w i) as [[d0 k]|] eqn:Hc.
    2:{ apply (NIL w); try reflexivity. rewrite <- (CS eq_refl). exact G. }
    destruct k as [bw|o].
    + destruct (newSeq d0 (qw_db w) lim io L bw) as [[d2 o2] r2] eqn:E. cbn [fst snd qw_db] in *.
      assert (IE : ids_of (Some match r2 with Ok _ => Ok QUnit | Err x => Err x | Panic => Panic end) = []) by (destruct r2; reflexivity).
      destruct (qi_call _ _ _ _ _ _ _ _ I i d0 _ Hc) as (T & _ & Bw & Hn).
      assert (ACT : active w i) by (unfold active; rewrite Hn, Hc; discriminate).
      pose proof (only_active _ _ _ _ _ I ACT) as OA.
      assert (ALL : forall j s, qw_seq w j = Some s -> q_closed s = true).
      { intros j s Hs. destruct (Nat.eq_dec j i) as [->|N]; [congruence | exact (OA j s N Hs)]. }
      pose proof (g_none _ _ _ G ALL) as Ech.
      assert (GONE : d2 = qw_db w -> o2 = None -> gapless (QW d2 (fupd (qw_seq w) i o2) (fupd (qw_call w) i None)) h c').
      { intros -> ->. rewrite <- (CS eq_refl). apply (gap_weq (QW (qw_db w) (qw_seq w) (fupd (qw_call w) i None))); [|apply gap_same; exact G].
        split; [reflexivity|]. split; [|reflexivity]. intros j. cbn [qw_seq]. unfold fupd. destruct (Nat.eqb j i) eqn:Ej; [|reflexivity].
        apply Nat.eqb_eq in Ej. subst j. exact Hn. }
      eapply NIL; [exact IE | reflexivity|]. unfold newSeq in E.
      destruct (match L with AtString [] => Some ErrEmptyKeywordForStringSequence | AtHash [] _ => Some ErrEmptyKeyForHashSequence
            | AtHash _ [] => Some ErrEmptyFieldForHashSequence | _ => if bw =? 0 then Some ErrZeroBandwidth else None end).
      { apply pair3_inj in E. destruct E as (E1 & E2 & E3). apply GONE; congruence. }
      destruct (renewLease d0 (qw_db w) lim io (Seq L bw false 0 0 []) 0) as [[d3 s3] r3] eqn:Rn.
      destruct (renew_abs One B L c00 HB rem w used c i d0 _ lim io (Seq L bw false 0 0 []) d3 s3 r3 R I Hc eq_refl Bw Rn) as (D1 & T1 & [(-> & -> & Cd)|(Nr & -> & ->)]).
      * apply pair3_inj in E. destruct E as (<- & <- & _). eapply gap_replace; [exact G | exact OA | | | apply fupd_none_incl]; cbn [set_lease q_closed q_next q_put]; [auto | discriminate].
      * destruct r3 as [[]|e|]; [congruence| |]; apply pair3_inj in E; destruct E as (E1 & E2 & E3); apply GONE; congruence.
    + destruct (qw_seq w i) as [s|] eqn:Hs.
      2:{ apply (NIL w); try reflexivity. rewrite <- (CS eq_refl). exact G. }
      destruct (q_exec d0 (qw_db w) lim io s o) as [[d2 s2] r2] eqn:E. cbn [fst snd qw_db] in *.
      pose proof (qi_call _ _ _ _ _ _ _ _ I i d0 _ Hc) as (T & _ & _ & Ho). pose proof (g_call _ _ _ G i d0 _ Hc) as Hg.
      destruct (qi_obj _ _ _ _ _ _ _ _ I i s Hs) as (Lc & Bw).
      assert (SAME : forall x, d2 = qw_db w -> s2 = s -> r2 = x -> ids_of (Some x) = [] ->
         gapless (QW d2 (fupd (qw_seq w) i (Some s2)) (fupd (qw_call w) i None)) (h + Z.of_nat (length (ids_of (Some r2)))) c' /\
         ids_of (Some r2) = range_ids (h, h + Z.of_nat (length (ids_of (Some r2))))).
      { intros x -> -> -> Ex. eapply NIL; [exact Ex | reflexivity|]. rewrite <- (CS eq_refl).
        apply (gap_weq (QW (qw_db w) (qw_seq w) (fupd (qw_call w) i None))); [|apply gap_same; exact G].
        split; [reflexivity|]. split; [|reflexivity]. intros j. cbn [qw_seq]. unfold fupd. destruct (Nat.eqb j i) eqn:Ej; [|reflexivity].
        apply Nat.eqb_eq in Ej. subst j. exact Hs. }
      destruct (q_closed s) eqn:Hcl.
      { destruct o as [|[|p|p]| | |rel|]; cbn [q_exec] in E; rewrite ?Hcl in E; apply pair3_inj in E; destruct E as (Ea & Eb & Ec);
          (eapply SAME; [symmetry; exact Ea | symmetry; exact Eb | symmetry; exact Ec | reflexivity]). }
      assert (ACT : active w i) by (unfold active; rewrite Hs; exact Hcl).
      pose proof (only_active _ _ _ _ _ I ACT) as OA.
      destruct (g_open _ _ _ G i s Hs Hcl) as [Nx Pt]. destruct (qi_open _ _ _ _ _ _ _ _ I i s Hs Hcl) as (X1 & X2 & _).
      pose proof (proj1 (proj2 (qi_one _ _ _ _ _ _ _ _ I eq_refl)) i s Hs Hcl) as Ld.
      destruct o as [|n| | |[|]|]; try contradiction.
      * (* Next *)
        cbn [q_exec] in E. rewrite Hcl in E. unfold q_Next in E. rewrite Pt in E. cbn [rev] in E.
        assert (DO : forall s3, s2 = s3 -> r2 = Ok (QId (h + 1)) -> q_closed s3 = false -> q_next s3 = h + 1 -> q_put s3 = [] ->
          gapless (QW d2 (fupd (qw_seq w) i (Some s2)) (fupd (qw_call w) i None)) (h + Z.of_nat (length (ids_of (Some r2)))) c' /\
          ids_of (Some r2) = range_ids (h, h + Z.of_nat (length (ids_of (Some r2))))).
        { intros s3 -> -> Y1 Y2 Y3. cbn [ids_of length]. change (Z.of_nat 1) with 1. split; [|symmetry; apply range_ids_one].
          eapply gap_replace; [exact G | exact OA | auto | congruence | apply fupd_none_incl]. }
        destruct (q_leased s <=? q_next s) eqn:Le.
        -- apply Z.leb_le in Le. destruct (renewLease d0 (qw_db w) lim io s 0) as [[d3 s3] r3] eqn:Rn.
           destruct (renew_abs One B L c00 HB rem w used c i d0 _ lim io s d3 s3 r3 R I Hc Lc Bw Rn) as (D1 & T1 & [(-> & -> & Cd)|(Nr & -> & ->)]).
           ++ apply pair3_inj in E. destruct E as (Ea & Eb & Ec). cbn [set_lease q_next q_leased] in *. rewrite to_i64_id in * by (unfold is_i64; nia).
              eapply DO; [symmetry; exact Eb | rewrite <- Ec; repeat f_equal; lia | exact Hcl | cbn; lia | exact Pt].
           ++ destruct r3 as [[]|e|]; [congruence| |]; apply pair3_inj in E; destruct E as (Ea & Eb & Ec);
              (eapply SAME; [symmetry; exact Ea | symmetry; exact Eb | symmetry; exact Ec | reflexivity]).
        -- apply Z.leb_gt in Le. apply pair3_inj in E. destruct E as (Ea & Eb & Ec). rewrite to_i64_id in * by (unfold is_i64; nia).
           eapply DO; [symmetry; exact Eb | rewrite <- Ec; repeat f_equal; lia | exact Hcl | cbn; lia | exact Pt].
      * (* NextN *)
        cbn [allowed] in A. pose proof (A d0 n s Hc Hs Hcl) as Hf. cbn in Ho. destruct n as [|p|p]; try lia. cbn [q_exec] in E. rewrite Hcl in E. unfold q_NextN in E.
        set (n := Z.pos p) in *. rewrite to_i64_id in E by (unfold is_i64; nia). replace (q_next s + n <=? q_leased s) with true in E by lia.
        apply pair3_inj in E. destruct E as (Ea & Eb & Ec). rewrite <- Ec, <- Eb. cbn [ids_of map concat]. rewrite app_nil_r, Nx.
        pose proof (range_ids_len h (h + n) ltac:(lia)) as RL. rewrite RL. split; [|reflexivity].
        eapply gap_replace; [exact G | exact OA | cbn; intros _; split; [lia | exact Pt] | cbn; congruence | apply fupd_none_incl].
      * (* ReleaseRemaining *)
        cbn [q_exec] in E. rewrite Hcl in E. unfold releaseRemaining in E. destruct (q_leased s =? q_next s) eqn:Eq.
        -- apply pair3_inj in E. destruct E as (Ea & Eb & Ec). eapply SAME; [symmetry; exact Ea | symmetry; exact Eb | symmetry; exact Ec | reflexivity].
        -- apply Z.eqb_neq in Eq. destruct (updateLeased d0 (qw_db w) lim io s) as [[d3 s3] r3] eqn:Up. cbn [done] in E.
           destruct (update_abs One B L c00 HB rem w used c i d0 _ lim io s d3 s3 r3 R I Hc eq_refl Hs Hcl Eq s Lc eq_refl Up) as (D1 & T1 & [(-> & -> & Cd)|(Nr & -> & ->)]).
           ++ apply pair3_inj in E. destruct E as (Ea & Eb & Ec). eapply NIL; [rewrite <- Ec; reflexivity | reflexivity|]. rewrite <- Eb.
              eapply gap_replace; [exact G | exact OA | cbn; intros _; split; [exact Nx | exact Pt] | cbn; congruence | apply fupd_none_incl].
           ++ destruct r3 as [[]|e|]; [congruence| |]; apply pair3_inj in E; destruct E as (Ea & Eb & Ec);
              (eapply SAME; [symmetry; exact Ea | symmetry; exact Eb | symmetry; exact Ec | reflexivity]).
      * (* Close(true) *)
        cbn [q_exec] in E. rewrite Hcl in E. unfold releaseRemaining in E. cbn [set_closed q_leased q_next] in E.
        assert (CL : forall s3, s2 = s3 -> r2 = Ok QUnit -> cell L d2 h ->
          gapless (QW d2 (fupd (qw_seq w) i (Some s2)) (fupd (qw_call w) i None)) (h + Z.of_nat (length (ids_of (Some r2)))) c' /\
          ids_of (Some r2) = range_ids (h, h + Z.of_nat (length (ids_of (Some r2)))) \/ q_closed s3 = false).
        { intros s3 -> -> Cd. destruct (q_closed s3) eqn:Q; [left | right; reflexivity]. eapply NIL; [reflexivity | reflexivity|].
          eapply gap_replace; [exact G | exact OA | congruence | intros _; symmetry; apply CV; [nia | exact Cd] | apply fupd_none_incl]. }
        destruct (q_leased s =? q_next s) eqn:Eq.
        -- apply Z.eqb_eq in Eq. apply pair3_inj in E. destruct E as (Ea & Eb & Ec).
           destruct (CL _ (eq_sym Eb) (eq_sym Ec)) as [X|X]; [|exact X|discriminate X]. rewrite <- Ea. replace h with c by lia. apply (qi_cell _ _ _ _ _ _ _ _ I).
        -- apply Z.eqb_neq in Eq. destruct (updateLeased d0 (qw_db w) lim io (set_closed s)) as [[d3 s3] r3] eqn:Up. cbn [done] in E.
           destruct (update_abs One B L c00 HB rem w used c i d0 _ lim io s d3 s3 r3 R I Hc eq_refl Hs Hcl Eq (set_closed s) Lc eq_refl Up) as (D1 & T1 & [(-> & -> & Cd)|(Nr & -> & ->)]).
           ++ apply pair3_inj in E. destruct E as (Ea & Eb & Ec).
              destruct (CL _ (eq_sym Eb) (eq_sym Ec)) as [X|X]; [|exact X|discriminate X]. rewrite <- Ea, <- Nx. exact Cd.
           ++ exfalso. apply pair3_inj in E. destruct E as (Ea & Eb & Ec). subst r2. specialize (Fr d0 s Hc Hs Hcl).
              destruct r3 as [[]|x|]; [congruence| |]; discriminate.
  - (* foreign *)
    cbn [qstep] in *. destruct (commit (qw_db w) t io) as [[d2 t2] r2] eqn:E. cbn [fst snd qw_db] in *.
    eapply NIL; [reflexivity | reflexivity|]. rewrite <- CS; [destruct G as [G1 G2 G3]; split; assumption|].
    destruct (commit_cases _ _ _ _ _ _ E) as [(_ & Kv & _)|[_ ->]]; [|reflexivity]. rewrite Kv. cbn [allowed] in A. rewrite A. reflexivity.
  - eapply NIL; [reflexivity | reflexivity|]. rewrite <- CS; [destruct G as [G1 G2 G3]; split; assumption | reflexivity].
Qed.
End gap.
