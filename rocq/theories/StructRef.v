(** The structures as plain data: what a user expects from each operation, and the simulation of
    whole histories of transactions. *)
From Verif Require Import Bytes SMap Provider ProviderProofs World Memcmp MemcmpProofs Numeric KvUtil KeyModel Struct
  StructProofs StructHash StructList UtilTxn.

Inductive sop :=
| OGet (k : bytes) | OSet (k v : bytes) | OClear (k : bytes) | OGetInt (k : bytes) | OSetInt (k : bytes) (n : Z) | OInc (k : bytes) (step : Z)
| OHSet (k f v : bytes) | OHGet (k f : bytes) | OHInc (k f : bytes) (step : Z) | OHGetInt (k f : bytes) | OHSetInt (k f : bytes) (n : Z)
| OHLen (k : bytes) | OHDel (k : bytes) (fs : list bytes) | OHKeys (k : bytes) | OHGetN (k : bytes) (n : Z) | OHGetAll (k : bytes)
| OHGetNDesc (k : bytes) (n : Z) | OHClear (k : bytes)
| OLPush (k : bytes) (vs : list bytes) | ORPush (k : bytes) (vs : list bytes) | OLPop (k : bytes) | ORPop (k : bytes) | OLLen (k : bytes)
| OLGetAll (k : bytes) | OLIndex (k : bytes) (i : Z) | OLSet (k : bytes) (i : Z) (v : bytes) | OLClear (k : bytes).
Inductive sval := VUnit | VBytes (v : bytes) | VInt (n : Z) | VList (l : list bytes) | VPairs (l : list (bytes * bytes)).
Definition lift {A} (f : A -> sval) (m : Tx A) : Tx sval := a <- m ;; ret (f a).
Definition rmap {A B} (f : A -> B) (r : result A) : result B := match r with Ok a => Ok (f a) | Err e => Err e | Panic => Panic end.
Definition vunit (_ : unit) : sval := VUnit.
(** the code *)
Definition sexec (P : bytes) (o : sop) : Tx sval :=
  match o with
  | OGet k => lift VBytes (SGet P k) | OSet k v => lift vunit (SSet P k v) | OClear k => lift vunit (SClear P k)
  | OGetInt k => lift VInt (SGetInt64 P k) | OSetInt k n => lift vunit (SSetInt64 P k n) | OInc k s => lift VInt (SInc P k s)
  | OHSet k f v => lift vunit (HSet P k f v) | OHGet k f => lift VBytes (HGet P k f) | OHInc k f s => lift VInt (HInc P k f s)
  | OHGetInt k f => lift VInt (HGetInt64 P k f) | OHSetInt k f n => lift vunit (HSetInt64 P k f n) | OHLen k => lift VInt (HLen P k)
  | OHDel k fs => lift vunit (HDel P k fs) | OHKeys k => lift VList (HKeys P k) | OHGetN k n => lift VPairs (HGetN P k n)
  | OHGetAll k => lift VPairs (HGetAll P k) | OHGetNDesc k n => lift VPairs (HGetNDesc P k n) | OHClear k => lift vunit (HClear P k)
  | OLPush k vs => lift vunit (LPush P k vs) | ORPush k vs => lift vunit (RPush P k vs) | OLPop k => lift VBytes (LPop P k)
  | ORPop k => lift VBytes (RPop P k) | OLLen k => lift VInt (LLen P k) | OLGetAll k => lift VList (LGetAll P k)
  | OLIndex k i => lift VBytes (LIndex P k i) | OLSet k i v => lift vunit (LSet P k i v) | OLClear k => lift vunit (LClear P k)
  end.
(** the reference: a map of strings, a map of ordered maps, and lists *)
Definition notfound {A} (o : option A) : result A := match o with Some a => Ok a | None => Err ErrKeyNotFound end.
Definition sref (S : sst) (o : sop) : result sval * sst :=
  match o with
  | OGet k => (rmap VBytes (notfound (get (s_str S) k)), S)
  | OSet k v => (Ok VUnit, put_str S (set (s_str S) k v))
  | OClear k => (Ok VUnit, put_str S (del (s_str S) k))
  | OGetInt k => (rmap VInt (int_res (get (s_str S) k)), S)
  | OSetInt k n => (Ok VUnit, put_str S (set (s_str S) k (Encode2Human n)))
  | OInc k s => match inc_res (get (s_str S) k) s with
                | Ok n => (Ok (VInt n), put_str S (set (s_str S) k (Encode2Human n)))
                | Err e => (Err e, S) | Panic => (Panic, S) end
  | OHSet k f v => (Ok VUnit, put_hash S k (hput (s_hash S k) f v))
  | OHGet k f => (rmap VBytes (notfound (get (s_hash S k) f)), S)
  | OHInc k f s => match hinc_res (get (s_hash S k) f) s with
                   | Ok n => (Ok (VInt n), put_hash S k (set (s_hash S k) f (Encode2Human n)))
                   | Err e => (Err e, S) | Panic => (Panic, S) end
  | OHGetInt k f => (rmap VInt (int_res (get (s_hash S k) f)), S)
  | OHSetInt k f n => (Ok VUnit, put_hash S k (set (s_hash S k) f (Encode2Human n)))
  | OHLen k => (Ok (VInt (hsize (s_hash S k))), S)
  | OHDel k fs => (Ok VUnit, put_hash S k (hdels (s_hash S k) fs))
  | OHKeys k => (Ok (VList (map fst (entries (s_hash S k)))), S)
  | OHGetN k n => (Ok (VPairs (firstn (Z.to_nat n) (entries (s_hash S k)))), S)
  | OHGetAll k => (Ok (VPairs (entries (s_hash S k))), S)
  | OHGetNDesc k n => (Ok (VPairs (firstn (Z.to_nat n) (rev (entries (s_hash S k))))), S)
  | OHClear k => (Ok VUnit, put_hash S k empty)
  | OLPush k vs => (Ok VUnit, put_list S k (rev vs ++ s_list S k))
  | ORPush k vs => (Ok VUnit, put_list S k (s_list S k ++ vs))
  | OLPop k => match s_list S k with [] => (Err ErrKeyNotFound, S) | x :: l => (Ok (VBytes x), put_list S k l) end
  | ORPop k => match rev (s_list S k) with [] => (Err ErrKeyNotFound, S) | x :: l => (Ok (VBytes x), put_list S k (rev l)) end
  | OLLen k => (Ok (VInt (llen (s_list S k))), S)
  | OLGetAll k => (Ok (VList (rev (s_list S k))), S)
  | OLIndex k i => (rmap VBytes (lindex_res (s_list S k) i), S)
  | OLSet k i v => (rmap vunit (lset_res (s_list S k) i), put_list S k (lset_list (s_list S k) i v))
  | OLClear k => (Ok VUnit, put_list S k [])
  end.
(** arguments the Go types allow *)
Definition sok (o : sop) : Prop :=
  match o with OInc _ s | OHInc _ _ s => is_i64 s | OLIndex _ i | OLSet _ i _ => is_i64 i | _ => True end.
(** how much an operation can enlarge a structure *)
Definition scost (o : sop) : Z :=
  match o with OHSet _ _ _ | OHInc _ _ _ | OHSetInt _ _ _ => 1 | OLPush _ vs | ORPush _ vs => llen vs | _ => 0 end.
Definition is_read (o : sop) : bool :=
  match o with
  | OGet _ | OGetInt _ | OHGet _ _ | OHGetInt _ _ | OHLen _ | OHKeys _ | OHGetN _ _ | OHGetAll _ | OHGetNDesc _ _
  | OLLen _ | OLGetAll _ | OLIndex _ _ => true
  | _ => false
  end.
Lemma scost_nonneg o : 0 <= scost o.
Proof. destruct o; cbn [scost]; try lia; apply llen_nonneg. Qed.

Lemma lift_sspec {A} P c (f : A -> sval) (m : Tx A) S r S' : 0 <= c -> sspec P c m S r S' -> r <> Panic -> sspec P c (lift f m) S (rmap f r) S'.
Proof.
  intros C H N. unfold lift. destruct r as [a|e|]; [|apply sspec_bind_err; exact H|congruence].
  replace c with (c + 0) by lia. eapply sspec_bind; [exact C | lia | exact H | apply sspec_ret].
Qed.
Lemma lift_sread {A} P (f : A -> sval) (m : Tx A) S r : sread P m S r -> r <> Panic -> sread P (lift f m) S (rmap f r).
Proof.
  intros H N. unfold lift. destruct r as [a|e|]; [|apply sread_bind_err; exact H|congruence].
  eapply sread_bind; [exact H | apply sread_ret].
Qed.
Lemma int_res_np o : int_res o <> Panic.
Proof. destruct o as [b|]; cbn [int_res]; [destruct (as_int b)|]; discriminate. Qed.
Lemma lindex_np l i : lindex_res l i <> Panic.
Proof. unfold lindex_res. destruct l; [discriminate|]. destruct (lpos _ _); discriminate. Qed.
Lemma sread_sim P S o : is_read o = true -> sok o -> sread P (sexec P o) S (fst (sref S o)) /\ snd (sref S o) = S.
Proof.
  intros R K. destruct o; try discriminate; cbn [sexec sref fst snd sok] in *; split; try reflexivity.
  - apply lift_sread; [|destruct (get (s_str S) k); discriminate]. pose proof (SGet_read P k S) as H. destruct (get (s_str S) k); exact H.
  - apply lift_sread; [apply SGetInt64_read | apply int_res_np].
  - apply lift_sread; [|destruct (get (s_hash S k) f); discriminate]. pose proof (HGet_read P k f S) as H. destruct (get (s_hash S k) f); exact H.
  - apply lift_sread; [apply HGetInt64_read | apply int_res_np].
  - exact (lift_sread P VInt _ S _ (HLen_read P k S) ltac:(discriminate)).
  - exact (lift_sread P VList _ S _ (HKeys_read P k S) ltac:(discriminate)).
  - exact (lift_sread P VPairs _ S _ (HGetN_read P k n S) ltac:(discriminate)).
  - exact (lift_sread P VPairs _ S _ (HGetAll_read P k S) ltac:(discriminate)).
  - exact (lift_sread P VPairs _ S _ (HGetNDesc_read P k n S) ltac:(discriminate)).
  - exact (lift_sread P VInt _ S _ (LLen_read P k S) ltac:(discriminate)).
  - exact (lift_sread P VList _ S _ (LGetAll_read P k S) ltac:(discriminate)).
  - apply lift_sread; [apply LIndex_read; exact K | apply lindex_np].
Qed.
Lemma sst_eq_refl S : sst_eq S S.
Proof. repeat split. Qed.
Lemma sim P S o : good_prefix P -> sok o -> sspec P (scost o) (sexec P o) S (fst (sref S o)) (snd (sref S o)).
Proof.
  intros G K. destruct (is_read o) eqn:R.
  - destruct (sread_sim P S o R K) as [H E]. rewrite E. eapply sspec_le; [apply scost_nonneg | apply sread_sspec; exact H].
  - destruct o; try discriminate; cbn [sexec sref fst snd sok scost] in *.
    + exact (lift_sspec P 0 vunit _ S _ _ ltac:(lia) (SSet_spec P k v S G) ltac:(discriminate)).
    + exact (lift_sspec P 0 vunit _ S _ _ ltac:(lia) (SClear_spec P k S G) ltac:(discriminate)).
    + exact (lift_sspec P 0 vunit _ S _ _ ltac:(lia) (SSetInt64_spec P k n S G) ltac:(discriminate)).
    + pose proof (SInc_spec P k step S G) as H.
      assert (N : inc_res (get (s_str S) k) step <> Panic) by (unfold inc_res; destruct (get (s_str S) k) as [b|]; [destruct (as_int b)|]; discriminate).
      pose proof (lift_sspec P 0 VInt _ S _ _ ltac:(lia) H N) as X. destruct (inc_res (get (s_str S) k) step); [exact X | exact X | congruence].
    + exact (lift_sspec P 1 vunit _ S _ _ ltac:(lia) (HSet_spec P k f v S G) ltac:(discriminate)).
    + pose proof (HInc_spec P k f step S G K) as H.
      assert (N : hinc_res (get (s_hash S k) f) step <> Panic) by (unfold hinc_res; destruct (get (s_hash S k) f) as [[|c b]|]; try discriminate; destruct (as_int (c :: b)); discriminate).
      pose proof (lift_sspec P 1 VInt _ S _ _ ltac:(lia) H N) as X. destruct (hinc_res (get (s_hash S k) f) step); [exact X | exact X | congruence].
    + exact (lift_sspec P 1 vunit _ S _ _ ltac:(lia) (HSetInt64_spec P k f n S G) ltac:(discriminate)).
    + exact (lift_sspec P 0 vunit _ S _ _ ltac:(lia) (HDel_spec P k fs S G) ltac:(discriminate)).
    + exact (lift_sspec P 0 vunit _ S _ _ ltac:(lia) (HClear_spec P k S G) ltac:(discriminate)).
    + exact (lift_sspec P _ vunit _ S _ _ ltac:(apply llen_nonneg) (push_spec P k true vs S G) ltac:(discriminate)).
    + exact (lift_sspec P _ vunit _ S _ _ ltac:(apply llen_nonneg) (push_spec P k false vs S G) ltac:(discriminate)).
    + pose proof (LPop_spec P k S G) as H. assert (N : match s_list S k with [] => Err ErrKeyNotFound | x :: _ => Ok x end <> Panic) by (destruct (s_list S k); discriminate).
      pose proof (lift_sspec P 0 VBytes _ S _ _ ltac:(lia) H N) as X. destruct (s_list S k); exact X.
    + pose proof (RPop_spec P k S G) as H. assert (N : match rev (s_list S k) with [] => Err ErrKeyNotFound | x :: _ => Ok x end <> Panic) by (destruct (rev (s_list S k)); discriminate).
      pose proof (lift_sspec P 0 VBytes _ S _ _ ltac:(lia) H N) as X. destruct (rev (s_list S k)); exact X.
    + refine (lift_sspec P 0 vunit _ S _ _ ltac:(lia) (LSet_spec P k i v S G K) _). unfold lset_res. destruct (lpos _ _); discriminate.
    + exact (lift_sspec P 0 vunit _ S _ _ ltac:(lia) (LClear_spec P k S G) ltac:(discriminate)).
Qed.
Lemma sref_np S o : fst (sref S o) <> Panic.
Proof.
  destruct o; cbn [sref fst]; try discriminate.
  - destruct (get (s_str S) k); discriminate.
  - destruct (get (s_str S) k) as [b|]; cbn [int_res]; [destruct (as_int b)|]; discriminate.
  - destruct (get (s_str S) k) as [b|]; cbn [inc_res]; [destruct (as_int b)|]; discriminate.
  - destruct (get (s_hash S k) f); discriminate.
  - destruct (get (s_hash S k) f) as [[|c b]|]; cbn [hinc_res]; try discriminate. destruct (as_int (c :: b)); discriminate.
  - destruct (get (s_hash S k) f) as [b|]; cbn [int_res]; [destruct (as_int b)|]; discriminate.
  - destruct (s_list S k); discriminate.
  - destruct (rev (s_list S k)); discriminate.
  - unfold lindex_res. destruct (s_list S k); [discriminate|]. destruct (lpos _ _); discriminate.
  - unfold lset_res. destruct (lpos _ _); discriminate.
Qed.

(** sequences of operations in one transaction: an error does not stop the sequence *)
Fixpoint sref_run (S : sst) (l : list sop) : sst * list (result sval) :=
  match l with
  | [] => (S, [])
  | o :: l' => let '(r, S1) := sref S o in let '(S2, rs) := sref_run S1 l' in (S2, r :: rs)
  end.
Definition cost (l : list sop) : Z := fold_right (fun o n => scost o + n) 0 l.
Lemma cost_nonneg l : 0 <= cost l.
Proof. induction l as [|o l IH]; cbn [cost fold_right]; [lia|]. pose proof (scost_nonneg o). unfold cost in IH. lia. Qed.
Lemma run_sim P l : good_prefix P -> Forall sok l -> forall S,
  sspec P (cost l) (collect_run (map (sexec P) l)) S (Ok (snd (sref_run S l))) (fst (sref_run S l)).
Proof.
  intros G. induction l as [|o l IH]; intros F S; [apply sspec_ret|].
  inversion F as [|? ? K F']. subst. cbn [map collect_run sref_run cost fold_right].
  pose proof (sim P S o G K) as H. pose proof (sref_np S o) as N. destruct (sref S o) as [r S1]. cbn [fst snd] in *.
  specialize (IH F' S1). destruct (sref_run S1 l) as [S2 rs]. cbn [fst snd] in *.
  eapply sspec_try; [apply scost_nonneg | apply cost_nonneg | exact H | exact N|].
  replace (fold_right (fun o n => scost o + n) 0 l) with (cost l + 0) by (unfold cost; lia).
  eapply sspec_bind; [apply cost_nonneg | lia | exact IH | apply sspec_ret].
Qed.
Lemma read_run_sim P l S : Forall (fun o => is_read o = true /\ sok o) l ->
  sread P (collect_run (map (sexec P) l)) S (Ok (snd (sref_run S l))) /\ fst (sref_run S l) = S.
Proof.
  induction l as [|o l IH]; intros F; [split; [apply sread_ret | reflexivity]|].
  inversion F as [|? ? [R K] F']. subst. cbn [map collect_run sref_run]. destruct (sread_sim P S o R K) as [H E].
  pose proof (sref_np S o) as N. destruct (sref S o) as [r S1]. cbn [fst snd] in *. subst S1. destruct (IH F') as [H2 E2].
  destruct (sref_run S l) as [S2 rs]. cbn [fst snd] in *. subst S2. split; [|reflexivity].
  eapply sread_try; [exact H | exact N|]. eapply sread_bind; [exact H2 | apply sread_ret].
Qed.

(** histories of transactions: an update transaction that commits, one whose body fails after its
    operations (everything is rolled back), or a read-only transaction *)
Inductive batch := BCommit (l : list sop) | BAbort (l : list sop) | BView (l : list sop).
Definition batch_ops (b : batch) : list sop := match b with BCommit l | BAbort l | BView l => l end.
Definition batch_ok (b : batch) : Prop :=
  match b with BCommit l | BAbort l => Forall sok l | BView l => Forall (fun o => is_read o = true /\ sok o) l end.
Definition bcost (b : batch) : Z := cost (batch_ops b).
(** the code's side: results observed, and the database after *)
Definition bexec (P : bytes) (d : db) (b : batch) : db * list (result sval) :=
  match b with
  | BCommit l => match run_update d d (collect_run (map (sexec P) l)) [] false with
                 | (d', Ok rs) => (d', rs)
                 | (d', _) => (d', [])
                 end
  | BAbort l => (* the caller's function runs the operations, then returns an error *)
      match collect_run (map (sexec P) l) (new_txn d true []) with
      | (_, Ok rs) => (fst (run_update d d (rs <- collect_run (map (sexec P) l) ;; @fail unit (ENamed (str "abort"))) [] false), rs)
      | (_, _) => (d, [])
      end
  | BView l => (d, match run_view d (collect_run (map (sexec P) l)) with Ok rs => rs | _ => [] end)
  end.
Fixpoint hexec (P : bytes) (d : db) (h : list batch) : db * list (list (result sval)) :=
  match h with
  | [] => (d, [])
  | b :: h' => let '(d1, r) := bexec P d b in let '(d2, rs) := hexec P d1 h' in (d2, r :: rs)
  end.
(** the reference's side *)
Definition bref (S : sst) (b : batch) : sst * list (result sval) :=
  match b with
  | BCommit l => sref_run S l
  | BAbort l => (S, snd (sref_run S l))
  | BView l => (S, snd (sref_run S l))
  end.
Fixpoint href (S : sst) (h : list batch) : sst * list (list (result sval)) :=
  match h with
  | [] => (S, [])
  | b :: h' => let '(S1, r) := bref S b in let '(S2, rs) := href S1 h' in (S2, r :: rs)
  end.
Definition hcost (h : list batch) : Z := fold_right (fun b n => bcost b + n) 0 h.
Lemma hcost_nonneg h : 0 <= hcost h.
Proof. induction h as [|b h IH]; cbn [hcost fold_right]; [lia|]. pose proof (cost_nonneg (batch_ops b)). unfold hcost, bcost in *. lia. Qed.

Lemma hist_sim P : good_prefix P -> forall h n d S, db_ok d -> rep P n (dview d) S -> Forall batch_ok h -> n + hcost h < two63 ->
  snd (hexec P d h) = snd (href S h) /\ rep P (n + hcost h) (dview (fst (hexec P d h))) (fst (href S h)) /\
  outside P (dview d) (dview (fst (hexec P d h))) /\ db_ok (fst (hexec P d h)).
Proof.
  intros G. induction h as [|b h IH]; intros n d S K R F L; cbn [hexec href hcost fold_right] in *.
  - split; [reflexivity|]. rewrite Z.add_0_r. split; [exact R|]. split; [apply outside_refl | exact K].
  - inversion F as [|? ? B F']. subst. pose proof (hcost_nonneg h) as NH. unfold hcost in NH.
    pose proof (cost_nonneg (batch_ops b)) as NB.
    assert (H1 : exists d1, bexec P d b = (d1, snd (bref S b)) /\ db_ok d1 /\ rep P (n + bcost b) (dview d1) (fst (bref S b)) /\ outside P (dview d) (dview d1)).
    { destruct b as [l|l|l]; cbn [batch_ok bexec bref batch_ops fst snd] in *; unfold bcost in *; cbn [batch_ops] in *.
      - destruct (run_sim P l G B S n (dview d) R ltac:(lia)) as (M' & Sp & R' & O).
        destruct (run_update_ok d _ _ M' K Sp) as (d1 & E & V & K1 & _). exists d1. rewrite E. split; [reflexivity|]. split; [exact K1|].
        rewrite V. split; [exact R' | exact O].
      - destruct (run_sim P l G B S n (dview d) R ltac:(lia)) as (M' & Sp & R' & O).
        exists d. split; [|split; [exact K|]; split; [eapply rep_le; [exact R | lia] | apply outside_refl]].
        destruct (Sp (new_txn d true [])) as (t & E & _); [apply okt_new; reflexivity | apply view_new|]. rewrite E.
        rewrite (run_update_err d _ (ENamed (str "abort")) M'); [reflexivity|]. eapply spec_bind; [exact Sp | apply spec_fail].
      - destruct (read_run_sim P l S B) as [Sp E]. exists d. split; [|split; [exact K|]; split; [eapply rep_le; [exact R | lia] | apply outside_refl]].
        rewrite (run_view_spec d _ _ (dview d) (Sp false n (dview d) R ltac:(lia))). reflexivity. }
    destruct H1 as (d1 & E1 & K1 & R1 & O1). rewrite E1. destruct (bref S b) as [S1 r1]. cbn [fst snd] in *.
    destruct (IH (n + bcost b) d1 S1 K1 R1 F') as (E2 & R2 & O2 & K2); [unfold hcost; lia|].
    destruct (hexec P d1 h) as [d2 rs]. destruct (href S1 h) as [S2 rs']. cbn [fst snd] in *.
    split; [rewrite E2; reflexivity|]. split; [|split; [eapply outside_trans; eassumption | exact K2]].
    replace (n + (bcost b + fold_right (fun b n => bcost b + n) 0 h)) with (n + bcost b + hcost h) by (unfold hcost; lia). exact R2.
Qed.
