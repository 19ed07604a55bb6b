(** Proofs for C87. *)
From Verif Require Import Bytes SMap Provider ProviderProofs World UtilTxn.
From Verif Require SerialProofs.
From Verif Require Import Sequence Model Schema DocTxn DocKeys Dml DmlProofs DocSerial.

Notation alike := SerialProofs.alike.
Notation eternal := SerialProofs.eternal.

(** ** a computation gives the same answers on two transactions that agree on what the first reads *)
Definition pend_eternal (t : txn) : Prop := forall k e, get (t_pend t) k = Some (Some e) -> e_exp e = 0.
Definition tl (t1 t2 : txn) : Prop := eternal (t_snap t1) /\ eternal (t_snap t2) /\ pend_eternal t1.
Definition mono (t t' : txn) : Prop := keeps t t' /\ t_open t' = t_open t /\ forall k, In k (t_reads t) -> In k (t_reads t').
Lemma mono_refl t : mono t t.
Proof. split; [apply keeps_refl|]. auto. Qed.
Lemma mono_trans a b c : mono a b -> mono b c -> mono a c.
Proof. intros (K1 & O1 & R1) (K2 & O2 & R2). split; [eapply keeps_trans; eassumption|]. split; [congruence | auto]. Qed.
Definition steady {A} (m : Tx A) : Prop := forall t1 t1' r, m t1 = (t1', r) -> t_upd t1 = true ->
  mono t1 t1' /\
  forall t2, alike t1 t2 -> tl t1 t2 -> (forall k, In k (t_reads t1') -> get (t_snap t1) k = get (t_snap t2) k) ->
  exists t2', m t2 = (t2', r) /\ alike t1' t2' /\ tl t1' t2' /\ keeps t2 t2'.
Lemma steady_const {A} (r : result A) : steady (fun t => (t, r)).
Proof.
  intros t1 t1' r' E U. inversion E. subst. split; [apply mono_refl|]. intros t2 A2 T _. exists t2. auto using keeps_refl.
Qed.
Lemma steady_try {A B} (m : Tx A) (k : result A -> Tx B) : steady m -> (forall r, steady (k r)) -> steady (try m k).
Proof.
  intros S1 S2 t1 t1' r E U. unfold try in *. destruct (m t1) as [ta ra] eqn:Ea. destruct (S1 _ _ _ Ea U) as [Ma Ga].
  assert (Ua : t_upd ta = true) by (destruct Ma as [(_ & _ & _ & X & _) _]; congruence).
  destruct ra as [a|e|].
  3:{ inversion E. subst. split; [exact Ma|]. intros t2 A2 T R. destruct (Ga t2 A2 T R) as (t2' & -> & X). exists t2'. auto. }
  all: destruct (S2 _ _ _ _ E Ua) as [Mb Gb]; split; [eapply mono_trans; eassumption|]; intros t2 A2 T R;
    (destruct (Ga t2 A2 T) as (t2' & -> & A3 & T3 & K3); [intros j Hj; apply R; destruct Mb as (_ & _ & X); auto|]);
    (destruct (Gb t2' A3 T3) as (t3 & -> & A4 & T4 & K4);
      [intros j Hj; destruct Ma as [(-> & _) _]; destruct K3 as (-> & _); apply R, Hj|]); exists t3; eauto using keeps_trans.
Qed.
Lemma steady_bind {A B} (m : Tx A) (k : A -> Tx B) : steady m -> (forall a, steady (k a)) -> steady (bind m k).
Proof.
  intros S1 S2 t1 t1' r E U. unfold bind in *. destruct (m t1) as [ta ra] eqn:Ea. destruct (S1 _ _ _ Ea U) as [Ma Ga].
  assert (Ua : t_upd ta = true) by (destruct Ma as [(_ & _ & _ & X & _) _]; congruence).
  destruct ra as [a|e|].
  2,3: inversion E; subst; split; [exact Ma|]; intros t2 A2 T R; destruct (Ga t2 A2 T R) as (t2' & -> & X); exists t2'; auto.
  destruct (S2 _ _ _ _ E Ua) as [Mb Gb]. split; [eapply mono_trans; eassumption|]. intros t2 A2 T R.
  destruct (Ga t2 A2 T) as (t2' & -> & A3 & T3 & K3); [intros j Hj; apply R; destruct Mb as (_ & _ & X); auto|].
  destruct (Gb t2' A3 T3) as (t3 & -> & A4 & T4 & K4); [intros j Hj; destruct Ma as [(-> & _) _]; destruct K3 as (-> & _); apply R, Hj|].
  exists t3. eauto using keeps_trans.
Qed.
(** a command of the provider *)
Lemma steady_exec c : Serial.scans c = false -> SerialProofs.plain c -> steady (exec c).
Proof.
  intros NS P t1 t1' r E U. destruct (exec_keeps _ _ _ _ E) as [K O]. destruct (exec_trace _ _ _ _ E) as (Pd & M & _).
  split; [split; [exact K | split; [exact O | exact M]]|]. intros t2 A (T1 & T2 & T3) R.
  destruct (SerialProofs.exec_alike c [] t1 t2 t1' r A U NS) as (t2' & E2 & A2 & _); [|exact E | exact R|].
  { right. split; [constructor; [exact P | constructor]|]. auto. }
  exists t2'. destruct (exec_keeps _ _ _ _ E2) as [K2 _]. split; [exact E2|]. split; [exact A2|]. split; [|exact K2].
  unfold tl. destruct K as (-> & _). destruct K2 as (-> & _). split; [exact T1|]. split; [exact T2|]. intros k e G. rewrite Pd in G.
  destruct (write_of (t_now t1) c r k) as [o|] eqn:W; [|eapply T3; exact G]. inversion G. subst o.
  destruct c as [k0 v m|k0| | |]; cbn [write_of] in W; destruct r; try discriminate W; destruct (bytes_eqb k k0); inversion W.
  cbn in P. subst m. reflexivity.
Qed.
Lemma steady_map {A B} (m : Tx A) (f : A -> B) : (forall a b, f a = f b -> a = b) -> steady (x <- m ;; ret (f x)) -> steady m.
Proof.
  intros I S t1 t1' r E U.
  destruct (S t1 t1' (match r with Ok a => Ok (f a) | Err e => Err e | Panic => Panic end)) as [M G]; [unfold bind, ret; rewrite E; destruct r; reflexivity | exact U|].
  split; [exact M|]. intros t2 A2 T R. destruct (G t2 A2 T R) as (t2' & E2 & X). exists t2'. split; [|exact X].
  unfold bind, ret in E2. destruct (m t2) as [t r2]. destruct r2 as [a|e|]; inversion E2; subst; destruct r; try discriminate; f_equal; try (f_equal; apply I); congruence.
Qed.
Lemma steady_set k v : steady (tset k v).
Proof.
  apply (steady_map _ (fun _ => OUnit)); [intros [] []; reflexivity|]. apply (steady_exec (CSet k v None)); reflexivity.
Qed.
Lemma steady_del k : steady (tdel k).
Proof. apply (steady_map _ (fun _ => OUnit)); [intros [] []; reflexivity|]. apply (steady_exec (CDel k)); [reflexivity | exact Logic.I]. Qed.
Lemma steady_exists k : steady (texists k).
Proof. apply (steady_map _ OBool); [congruence|]. apply (steady_exec (CExists k)); [reflexivity | exact Logic.I]. Qed.
Lemma steady_getm k : steady (tgetm k).
Proof. apply (steady_map _ OEnt); [congruence|]. apply (steady_exec (CGet k)); [reflexivity | exact Logic.I]. Qed.
Lemma steady_get k : steady (tget k).
Proof. apply steady_bind; [apply steady_getm | intros a; apply steady_const]. Qed.

Lemma steady_doc_get c did : steady (doc_get c did).
Proof. apply steady_try; [apply steady_get|]. intros [v|e|]; try apply steady_const. destruct e; apply steady_const. Qed.
Lemma steady_getmany c dids : forall acc, steady (doc_getmany c dids acc).
Proof.
  induction dids as [|did dids IH]; intros acc; cbn [doc_getmany]; [apply steady_const|].
  apply steady_try; [apply steady_doc_get|]. intros [v|e|]; [apply IH | apply steady_const | apply steady_const].
Qed.
Lemma steady_update md c did v : steady (doc_update md c did v).
Proof.
  apply steady_bind; [apply steady_exists|]. intros ex. destruct md; [destruct ex| |destruct ex]; try apply steady_const;
    (apply steady_bind; [apply steady_set | intros; apply steady_const]).
Qed.
Lemma steady_op cid o : scans (Op true [] [] o) = false -> steady (op_tx cid o).
Proof.
  destruct o; cbn [scans]; intros N; try discriminate N; cbn [op_tx]; apply steady_bind;
    auto using steady_update, steady_del, steady_doc_get, steady_getmany; intros; apply steady_const.
Qed.

(** ** calls on a transaction *)
Fixpoint calls_exec (x : dtxn) (l : list call) : dtxn * list (result docval) :=
  match l with
  | [] => (x, [])
  | c :: l' => let '(x1, r) := call_exec x c in let '(x2, rs) := calls_exec x1 l' in (x2, r :: rs)
  end.
Lemma calls_exec_app a : forall b x, calls_exec x (a ++ b) =
  let '(x1, r1) := calls_exec x a in let '(x2, r2) := calls_exec x1 b in (x2, r1 ++ r2).
Proof.
  induction a as [|c a IH]; intros b x; cbn [app calls_exec].
  - destruct (calls_exec x b). reflexivity.
  - destruct (call_exec x c) as [x1 r]. rewrite IH. destruct (calls_exec x1 a) as [x2 rs]. destruct (calls_exec x2 b). reflexivity.
Qed.
Definition twin (x1 x2 : dtxn) : Prop := dt_start x1 = dt_start x2 /\ dt_upd x1 = dt_upd x2 /\ alike (dt_t x1) (dt_t x2) /\ tl (dt_t x1) (dt_t x2).
Lemma call_twin c x1 x1' r : call_exec x1 c = (x1', r) -> t_upd (dt_t x1) = true -> scans c = false ->
  mono (dt_t x1) (dt_t x1') /\
  forall x2, twin x1 x2 -> (forall k, In k (t_reads (dt_t x1')) -> get (t_snap (dt_t x1)) k = get (t_snap (dt_t x2)) k) ->
  exists x2', call_exec x2 c = (x2', r) /\ twin x1' x2' /\ keeps (dt_t x2) (dt_t x2').
Proof.
  intros E U NS. destruct c as [mark dbn coll o|mark dbn coll did data f]; cbn [call_exec] in *.
  - unfold with_coll in *. destruct (resolve (dt_start x1) dbn coll) as [cid|] eqn:Rs.
    + pose proof (steady_op cid o NS) as S.
      assert (Et : dt_t (if mark then ReferredCollections x1 [cid] else x1) = dt_t x1) by (destruct mark; reflexivity).
      rewrite Et in E. destruct (op_tx cid o (dt_t x1)) as [t r0] eqn:Eo. inversion E. subst r0 x1'. clear E.
      destruct (S _ _ _ Eo U) as [M G]. cbn [with_t dt_t]. split; [exact M|]. intros x2 (T1 & T2 & T3 & T4) R.
      rewrite <- T1, Rs. destruct (G (dt_t x2) T3 T4 R) as (t2' & E2 & A2 & L2 & K2).
      assert (Et2 : dt_t (if mark then ReferredCollections x2 [cid] else x2) = dt_t x2) by (destruct mark; reflexivity).
      rewrite Et2, E2. eexists. split; [reflexivity|]. split; [|exact K2]. destruct mark; repeat split; try assumption; cbn; try assumption; apply A2 || apply L2.
    + inversion E. subst. split; [apply mono_refl|]. intros x2 T R. destruct T as (T1 & T2 & T3 & T4). rewrite <- T1, Rs. exists x2.
      split; [reflexivity|]. split; [repeat split; try assumption; apply T3 || apply T4 | apply keeps_refl].
  - destruct (resolve (dt_start x1) dbn coll) as [cid|] eqn:Rs.
    + pose proof (steady_set (docKey cid did) data) as S.
      assert (Et : dt_t (if mark then ReferredCollections x1 [cid] else x1) = dt_t x1) by (destruct mark; reflexivity).
      rewrite Et in E. destruct (tset (docKey cid did) data (dt_t x1)) as [t r0] eqn:Eo.
      destruct (S _ _ _ Eo U) as [M G].
      assert (Q : dt_t x1' = t).
      { unfold AddCancelFunc in E. destruct (negb _); inversion E; destruct mark; reflexivity. }
      rewrite Q. split; [exact M|]. intros x2 (T1 & T2 & T3 & T4) R.
      rewrite <- T1, Rs. destruct (G (dt_t x2) T3 T4 R) as (t2' & E2 & A2 & L2 & K2).
      assert (Et2 : dt_t (if mark then ReferredCollections x2 [cid] else x2) = dt_t x2) by (destruct mark; reflexivity).
      rewrite Et2, E2. unfold AddCancelFunc in *.
      assert (U1 : dt_upd (with_t (if mark then ReferredCollections x1 [cid] else x1) t) = dt_upd x1) by (destruct mark; reflexivity).
      assert (U2 : dt_upd (with_t (if mark then ReferredCollections x2 [cid] else x2) t2') = dt_upd x1) by (destruct mark; rewrite T2; reflexivity).
      rewrite U1 in E. rewrite U2. destruct (negb (dt_upd x1)); inversion E; subst x1' r; eexists; (split; [reflexivity|]); (split; [|destruct mark; exact K2]);
        destruct mark; repeat split; cbn; try assumption; try congruence; apply A2 || apply L2.
    + inversion E. subst. split; [apply mono_refl|]. intros x2 T R. destruct T as (T1 & T2 & T3 & T4). rewrite <- T1, Rs. exists x2.
      split; [reflexivity|]. split; [repeat split; try assumption; apply T3 || apply T4 | apply keeps_refl].
Qed.
Lemma calls_twin l : forall x1 x1' rs, calls_exec x1 l = (x1', rs) -> t_upd (dt_t x1) = true -> forallb (fun c => negb (scans c)) l = true ->
  mono (dt_t x1) (dt_t x1') /\
  forall x2, twin x1 x2 -> (forall k, In k (t_reads (dt_t x1')) -> get (t_snap (dt_t x1)) k = get (t_snap (dt_t x2)) k) ->
  exists x2', calls_exec x2 l = (x2', rs) /\ twin x1' x2' /\ keeps (dt_t x2) (dt_t x2').
Proof.
  induction l as [|c l IH]; intros x1 x1' rs E U NS; cbn [calls_exec forallb] in *.
  - inversion E. subst. split; [apply mono_refl|]. intros x2 T R. exists x2. auto using keeps_refl.
  - apply andb_prop in NS. destruct NS as [N1 N2]. apply negb_true_iff in N1.
    destruct (call_exec x1 c) as [xa r] eqn:Ea. destruct (calls_exec xa l) as [xb rs'] eqn:Eb. inversion E. subst.
    destruct (call_twin _ _ _ _ Ea U N1) as [M1 G1].
    destruct (IH _ _ _ Eb) as [M2 G2]; [destruct M1 as [(_ & _ & _ & X & _) _]; congruence | exact N2|].
    split; [eapply mono_trans; eassumption|]. intros x2 T R.
    destruct (G1 x2 T) as (x2' & -> & T' & K'); [intros k Hk; apply R; destruct M2 as (_ & _ & X); auto|].
    destruct (G2 x2' T') as (x3 & -> & T3 & K3); [intros k Hk; destruct M1 as [(-> & _) _]; destruct K' as (-> & _); apply R, Hk|].
    exists x3. split; [reflexivity|]. split; [exact T3 | eapply keeps_trans; eassumption].
Qed.

(** ** calls refine the maps *)
Definition handle_ok (h : handle) : Prop := forall dbn coll c, resolve (h_val h) dbn coll = Some c -> is_i64 c.
Definition call_ok (c : call) : Prop := Forall is_i64 (call_ids c) /\ forall m dbn coll, c <> Op m dbn coll ORange.
Lemma call_refines h upd c x D : handle_ok h -> call_ok c -> (upd = false -> call_writes c = false) ->
  dt_start x = h_val h -> dt_upd x = upd -> okt upd (dt_t x) -> rep (view (dt_t x)) D ->
  exists x', call_exec x c = (x', fst (call_spec h D c)) /\ dt_start x' = h_val h /\ dt_upd x' = upd /\
    okt upd (dt_t x') /\ rep (view (dt_t x')) (snd (call_spec h D c)) /\ keeps (dt_t x) (dt_t x').
Proof.
  intros H [I NR] RO St Up O R. destruct c as [mark dbn coll o|mark dbn coll did data f]; cbn [call_exec call_spec call_ids call_writes] in *.
  - unfold with_coll, store_spec. rewrite St. destruct (resolve (h_val h) dbn coll) as [cid|] eqn:Rs.
    + assert (Et : dt_t (if mark then ReferredCollections x [cid] else x) = dt_t x) by (destruct mark; reflexivity). rewrite Et.
      destruct (op_spec upd _ D cid o R (H _ _ _ Rs) I) as (M' & Sp & R' & _).
      { intros ->. apply (NR mark dbn coll). reflexivity. }
      { intros W. destruct upd; [reflexivity|]. rewrite (RO eq_refl) in W. discriminate. }
      destruct (Sp (dt_t x) O eq_refl) as (t' & E & O' & V' & K'). rewrite E. destruct (doc_spec (D cid) o) as [r m]. cbn [fst snd] in *.
      eexists. split; [reflexivity|]. split; [destruct mark; exact St|]. split; [destruct mark; exact Up|]. cbn [with_t dt_t]. split; [exact O'|].
      split; [rewrite V'; exact R' | exact K'].
    + exists x. cbn [fst snd]. repeat (split; [first [reflexivity | assumption]|]). apply keeps_refl.
  - destruct upd; [|specialize (RO eq_refl); discriminate RO]. rewrite St. destruct (resolve (h_val h) dbn coll) as [cid|] eqn:Rs.
    + assert (Et : dt_t (if mark then ReferredCollections x [cid] else x) = dt_t x) by (destruct mark; reflexivity). rewrite Et.
      destruct (spec_tset (docKey cid did) data (view (dt_t x)) (docKey_good cid did) (dt_t x) O eq_refl) as (t' & E & O' & V' & K').
      rewrite E. unfold AddCancelFunc. replace (dt_upd (with_t (if mark then ReferredCollections x [cid] else x) t')) with true by (destruct mark; symmetry; exact Up).
      cbn [negb]. eexists. split; [reflexivity|]. cbn [dt_t dt_start dt_upd]. split; [destruct mark; exact St|]. split; [reflexivity|].
      assert (Q : dt_t (with_t (if mark then ReferredCollections x [cid] else x) t') = t') by reflexivity. rewrite Q.
      split; [exact O'|]. split; [|exact K']. rewrite V'. cbn [fst snd]. apply rep_set; [exact R | apply (H _ _ _ Rs) | inversion I; assumption].
    + exists x. cbn [fst snd]. repeat (split; [first [reflexivity | assumption]|]). apply keeps_refl.
Qed.
Lemma calls_refine h upd l : handle_ok h -> Forall call_ok l -> (upd = false -> Forall (fun c => call_writes c = false) l) ->
  forall x D, dt_start x = h_val h -> dt_upd x = upd -> okt upd (dt_t x) -> rep (view (dt_t x)) D ->
  exists x', calls_exec x l = (x', fst (calls_spec h D l)) /\ dt_start x' = h_val h /\ dt_upd x' = upd /\
    okt upd (dt_t x') /\ rep (view (dt_t x')) (snd (calls_spec h D l)) /\ keeps (dt_t x) (dt_t x').
Proof.
  intros H. induction l as [|c l IH]; intros F RO x D St Up O R; cbn [calls_exec calls_spec].
  - exists x. cbn [fst snd]. repeat (split; [first [reflexivity | assumption]|]). apply keeps_refl.
  - inversion F as [|? ? F1 F2]. subst.
    destruct (call_refines h (dt_upd x) c x D H F1) as (x1 & E1 & S1 & U1 & O1 & R1 & K1); try assumption; [|reflexivity|].
    { intros E. specialize (RO E). inversion RO. assumption. }
    rewrite E1. destruct (call_spec h D c) as [r D1]. cbn [fst snd] in *.
    destruct (IH F2) with (x := x1) (D := D1) as (x2 & E2 & S2 & U2 & O2 & R2 & K2); try assumption.
    { intros E. specialize (RO E). inversion RO. assumption. }
    rewrite E2. destruct (calls_spec h D1 l) as [rs D2]. cbn [fst snd] in *. exists x2. split; [reflexivity|]. eauto 6 using keeps_trans.
Qed.

(** ** which calls leave something to write *)
Definition quiet {A} (m : Tx A) : Prop := forall t t' r, m t = (t', r) -> t_pend t' = t_pend t.
Definition grows {A} (m : Tx A) : Prop := forall t t' r, m t = (t', r) -> forall k, get (t_pend t) k <> None -> get (t_pend t') k <> None.
Lemma quiet_const {A} (r : result A) : quiet (fun t => (t, r)).
Proof. intros t t' r' E. inversion E. reflexivity. Qed.
Lemma quiet_bind {A B} (m : Tx A) (k : A -> Tx B) : quiet m -> (forall a, quiet (k a)) -> quiet (bind m k).
Proof.
  intros Q1 Q2 t t' r E. unfold bind in E. destruct (m t) as [t1 r1] eqn:E1. apply Q1 in E1.
  destruct r1; [apply Q2 in E; congruence| |]; inversion E; subst; exact E1.
Qed.
Lemma quiet_try {A B} (m : Tx A) (k : result A -> Tx B) : quiet m -> (forall a, quiet (k a)) -> quiet (try m k).
Proof.
  intros Q1 Q2 t t' r E. unfold try in E. destruct (m t) as [t1 r1] eqn:E1. apply Q1 in E1.
  destruct r1; [apply Q2 in E; congruence|apply Q2 in E; congruence|]; inversion E; subst; exact E1.
Qed.
Lemma grows_const {A} (r : result A) : grows (fun t => (t, r)).
Proof. intros t t' r' E. inversion E. auto. Qed.
Lemma grows_try {A B} (m : Tx A) (k : result A -> Tx B) : grows m -> (forall a, grows (k a)) -> grows (try m k).
Proof.
  intros Q1 Q2 t t' r E j G. unfold try in E. destruct (m t) as [t1 r1] eqn:E1. pose proof (Q1 _ _ _ E1 j G) as G1.
  destruct r1; [eapply Q2; eassumption | eapply Q2; eassumption | inversion E; subst; exact G1].
Qed.
Lemma exec_pend_cmd c t t' r : exec c t = (t', r) ->
  forall k, get (t_pend t') k = match write_of (t_now t) c r k with Some o => Some o | None => get (t_pend t) k end.
Proof. intros E. apply (proj1 (exec_trace _ _ _ _ E)). Qed.
Lemma quiet_exists k : quiet (texists k).
Proof.
  intros t t' r E. assert (X : exec (CExists k) t = (t', match r with Ok b => Ok (OBool b) | Err e => Err e | Panic => Panic end)).
  { cbn [exec]. unfold bind, ret. rewrite E. destruct r; reflexivity. }
  apply smap_ext. intros j. rewrite (exec_pend_cmd _ _ _ _ X). reflexivity.
Qed.
Lemma quiet_getm k : quiet (tgetm k).
Proof.
  intros t t' r E. assert (X : exec (CGet k) t = (t', match r with Ok b => Ok (OEnt b) | Err e => Err e | Panic => Panic end)).
  { cbn [exec]. unfold bind, ret. rewrite E. destruct r; reflexivity. }
  apply smap_ext. intros j. rewrite (exec_pend_cmd _ _ _ _ X). reflexivity.
Qed.
Lemma quiet_get k : quiet (tget k).
Proof. apply quiet_bind; [apply quiet_getm | intros; apply quiet_const]. Qed.
Lemma set_pend k v t t' r : tset k v t = (t', r) ->
  match r with Ok _ => get (t_pend t') k <> None | _ => t_pend t' = t_pend t end.
Proof.
  intros E. assert (X : exec (CSet k v None) t = (t', match r with Ok _ => Ok OUnit | Err e => Err e | Panic => Panic end)).
  { cbn [exec]. unfold bind, ret. change (tsetm k v None) with (tset k v). rewrite E. destruct r; reflexivity. }
  pose proof (exec_pend_cmd _ _ _ _ X) as P. destruct r as [u|e|]; cbn [write_of] in P.
  - rewrite P, bytes_eqb_refl. discriminate.
  - apply smap_ext. exact P.
  - apply smap_ext. exact P.
Qed.
Lemma del_pend k t t' r : tdel k t = (t', r) ->
  match r with Ok _ => get (t_pend t') k <> None | _ => t_pend t' = t_pend t end /\ forall j, get (t_pend t) j <> None -> get (t_pend t') j <> None.
Proof.
  intros E. assert (X : exec (CDel k) t = (t', match r with Ok _ => Ok OUnit | Err e => Err e | Panic => Panic end)).
  { cbn [exec]. unfold bind, ret. rewrite E. destruct r; reflexivity. }
  pose proof (exec_pend_cmd _ _ _ _ X) as P. split.
  - destruct r as [u|e|]; cbn [write_of] in P; [rewrite P, bytes_eqb_refl; discriminate | apply smap_ext; exact P | apply smap_ext; exact P].
  - intros j G. rewrite P. destruct (write_of _ _ _ j); [discriminate | exact G].
Qed.
Lemma grows_del k : grows (tdel k).
Proof. intros t t' r E. apply (del_pend _ _ _ _ E). Qed.
Lemma quiet_grows {A} (m : Tx A) : quiet m -> grows m.
Proof. intros Q t t' r E k G. rewrite (Q _ _ _ E). exact G. Qed.
Lemma del_cb_shape k e s t t' r : del_cb k e s t = (t', r) ->
  match r with
  | Ok (s', true) => s' = (S (fst s), None) /\ get (t_pend t') k <> None
  | Ok (s', false) => snd s' <> None
  | _ => True
  end.
Proof.
  unfold del_cb, try. destruct (tdel k t) as [t1 r1] eqn:E1. destruct (del_pend _ _ _ _ E1) as [P _].
  destruct r1 as [u|x|]; intros E; inversion E; subst; cbn; auto. discriminate.
Qed.
Lemma grows_del_cb k e s : grows (del_cb k e s).
Proof. apply grows_try; [apply grows_del|]. intros [a|x|]; apply grows_const. Qed.
Lemma pend_add_read k t : t_pend (add_read k t) = t_pend t.
Proof. unfold add_read. destruct (t_upd t); reflexivity. Qed.
Lemma grows_del_loop l : forall s, grows (scan_loop l del_cb s).
Proof.
  induction l as [|[k e] l IH]; intros s; cbn [scan_loop]; [apply grows_const|]. intros t t' r E j G. unfold bind in E.
  destruct (del_cb k e s (add_read k t)) as [t1 r1] eqn:E1. pose proof (grows_del_cb _ _ _ _ _ _ E1 j) as G1. rewrite pend_add_read in G1. specialize (G1 G).
  destruct r1 as [[s1 b]|x|]; [|inversion E; subst; exact G1 | inversion E; subst; exact G1].
  cbn [fst snd] in E. destruct b; [eapply IH; eassumption | inversion E; subst; exact G1].
Qed.
Lemma del_loop_count l : forall n t t' n' e', scan_loop l del_cb (n, None) t = (t', Ok (n', e')) -> e' = None -> (n <= n')%nat /\ (l <> [] -> n < n')%nat.
Proof.
  induction l as [|[k e] l IH]; intros n t t' n' e' E N; cbn [scan_loop] in E; [inversion E; subst; split; [lia | congruence]|].
  unfold bind in E. destruct (del_cb k e (n, None) (add_read k t)) as [t1 r1] eqn:E1. apply del_cb_shape in E1.
  destruct r1 as [[s1 b]|x|]; try discriminate E. cbn [fst snd] in E, E1. destruct b.
  - destruct E1 as [-> _]. apply IH in E; [|exact N]. lia.
  - inversion E. subst. cbn in E1. congruence.
Qed.
Lemma deleteall_pend c t t' n : doc_deleteall c t = (t', Ok n) ->
  if Nat.eqb n 0 then t_pend t' = t_pend t else exists k, get (t_pend t') k <> None.
Proof.
  unfold doc_deleteall. fold del_cb. intros E. unfold bind in E at 1.
  change (fun (k : bytes) (_ : ent) (s : nat * option err) => try (tdel k) (fun r => match r with Ok _ => ret (S (fst s), None, true) | Err e => ret (fst s, Some e, false) | Panic => gopanic end)) with del_cb in E.
  destruct (tscan (ScanOpt false (docPrefix c) []) del_cb (0%nat, None) t) as [t1 r1] eqn:E1.
  destruct r1 as [[m e]|x|]; try (inversion E; fail). cbn [fst snd] in E. destruct e as [e|]; [inversion E|]. inversion E. subst t1 m. clear E.
  unfold tscan in E1. destruct (negb (t_open t)) eqn:O; [inversion E1; fail|].
  set (L := scan_items (t_clamp t) (view t) (ScanOpt false (docPrefix c) [])) in E1.
  destruct L as [|[k e] l]; [cbn [scan_loop] in E1; inversion E1; subst; reflexivity|].
  pose proof (del_loop_count _ _ _ _ _ _ E1 eq_refl) as [_ X]. specialize (X ltac:(discriminate)).
  destruct (Nat.eqb_spec n 0) as [->|_]; [lia|]. exists k. cbn [scan_loop] in E1. unfold bind in E1.
  destruct (del_cb k e (0%nat, None) (add_read k t)) as [t2 r2] eqn:E2. pose proof (del_cb_shape _ _ _ _ _ _ E2) as Y.
  destruct r2 as [[s b]|x|]; try (inversion E1; fail). cbn [fst snd] in *. destruct b.
  - destruct Y as [-> Y]. exact (grows_del_loop _ _ _ _ _ E1 k Y).
  - inversion E1. subst. cbn in Y. congruence.
Qed.
Lemma quiet_doc_get c did : quiet (doc_get c did).
Proof. apply quiet_try; [apply quiet_get|]. intros [v|e|]; try apply quiet_const. destruct e; apply quiet_const. Qed.
Lemma quiet_getmany c dids : forall acc, quiet (doc_getmany c dids acc).
Proof.
  induction dids as [|did dids IH]; intros acc; cbn [doc_getmany]; [apply quiet_const|].
  apply quiet_try; [apply quiet_doc_get|]. intros [v|e|]; [apply IH | apply quiet_const | apply quiet_const].
Qed.
Lemma quiet_scan {S} o (fn : bytes -> ent -> S -> Tx (S * bool)) s : (forall k e s, quiet (fn k e s)) -> quiet (tscan o fn s).
Proof.
  intros Q t t' r E. unfold tscan in E. destruct (negb (t_open t)); [inversion E; reflexivity|].
  remember (scan_items (t_clamp t) (view t) o) as l eqn:X. clear X. revert s t E.
  induction l as [|[k e] l IH]; intros s t E; cbn [scan_loop] in E; [inversion E; reflexivity|]. unfold bind in E.
  destruct (fn k e s (add_read k t)) as [t1 r1] eqn:E1. apply Q in E1. rewrite pend_add_read in E1. rewrite <- E1.
  destruct r1 as [[s1 b]|x|]; [|inversion E; subst; reflexivity | inversion E; subst; reflexivity].
  cbn [fst snd] in E. destruct b; [eapply IH; exact E | inversion E; subst; reflexivity].
Qed.
Definition leaves (p : bool) (t t' : txn) : Prop := if p then exists k, get (t_pend t') k <> None else t_pend t' = t_pend t.
Lemma op_leaves cid o t t' r (b : bool) : op_tx cid o t = (t', r) ->
  (o = ODeleteAll -> exists v, r = Ok v) ->
  b = match r with Ok v => match o, v with
      | OUpdate _ _, VBool b => b
      | OUpsert _ _, _ | OInsert _ _, _ | ODelete _, _ => true
      | ODeleteAll, VNum n => negb (Nat.eqb n 0)
      | _, _ => false
      end | _ => false end ->
  leaves b t t'.
Proof.
  intros E ND ->. unfold leaves. destruct o as [did v|did v|did v|did|did|dids| | | |]; cbn [op_tx] in E.
  - unfold doc_update, bind, ret in E. destruct (texists (docKey cid did) t) as [t1 r1] eqn:E1. pose proof (quiet_exists _ _ _ _ E1) as Q1.
    destruct r1 as [ex|x|]; [|inversion E; subst; exact Q1 | inversion E; subst; exact Q1]. destruct ex; [|inversion E; subst; exact Q1].
    destruct (tset (docKey cid did) v t1) as [t2 r2] eqn:E2. apply set_pend in E2. destruct r2; inversion E; subst; [eauto | congruence | congruence].
  - unfold doc_update, bind, ret in E. destruct (texists (docKey cid did) t) as [t1 r1] eqn:E1. pose proof (quiet_exists _ _ _ _ E1) as Q1.
    destruct r1 as [ex|x|]; [|inversion E; subst; exact Q1 | inversion E; subst; exact Q1].
    destruct (tset (docKey cid did) v t1) as [t2 r2] eqn:E2. apply set_pend in E2. destruct r2; inversion E; subst; [eauto | congruence | congruence].
  - unfold doc_update, bind, ret, fail in E. destruct (texists (docKey cid did) t) as [t1 r1] eqn:E1. pose proof (quiet_exists _ _ _ _ E1) as Q1.
    destruct r1 as [ex|x|]; [|inversion E; subst; exact Q1 | inversion E; subst; exact Q1]. destruct ex; [inversion E; subst; exact Q1|].
    destruct (tset (docKey cid did) v t1) as [t2 r2] eqn:E2. apply set_pend in E2. destruct r2; inversion E; subst; [eauto | congruence | congruence].
  - unfold bind, ret in E. destruct (tdel (docKey cid did) t) as [t1 r1] eqn:E1. destruct (del_pend _ _ _ _ E1) as [P _].
    destruct r1; inversion E; subst; [eauto | exact P | exact P].
  - assert (Q : quiet (v <- doc_get cid did ;; ret (VDoc v))) by (apply quiet_bind; [apply quiet_doc_get | intros; apply quiet_const]).
    apply Q in E. destruct r as [x|x|]; [destruct x|..]; exact E.
  - assert (Q : quiet (r <- doc_getmany cid dids [] ;; ret (VDocs (fst r) (snd r)))) by (apply quiet_bind; [apply quiet_getmany | intros; apply quiet_const]).
    apply Q in E. destruct r as [x|x|]; [destruct x|..]; exact E.
  - assert (Q : quiet (l <- doc_getall cid ;; ret (VDocs l None))) by (apply quiet_bind; [apply quiet_scan; intros; apply quiet_const | intros; apply quiet_const]).
    apply Q in E. destruct r as [x|x|]; [destruct x|..]; exact E.
  - assert (Q : quiet (l <- doc_count cid ;; ret (VNum l))) by (apply quiet_bind; [apply quiet_scan; intros; apply quiet_const | intros; apply quiet_const]).
    apply Q in E. destruct r as [x|x|]; [destruct x|..]; exact E.
  - destruct (ND eq_refl) as (x & ->). unfold bind, ret in E. destruct (doc_deleteall cid t) as [t1 r1] eqn:E1. destruct r1 as [n|e|]; try (inversion E; fail).
    inversion E. subst. apply deleteall_pend in E1. destruct (Nat.eqb n 0); exact E1.
  - assert (Q : quiet (r <- doc_range cid ;; ret (VRange (fst r) (snd r)))).
    { apply quiet_bind; [|intros; apply quiet_const]. unfold doc_range. apply quiet_bind; [apply quiet_scan; intros; apply quiet_const|]. intros a.
      apply quiet_bind; [destruct a; apply quiet_const|]. intros a1. apply quiet_bind; [apply quiet_scan; intros; apply quiet_const|]. intros a2.
      apply quiet_bind; [destruct a2; apply quiet_const|]. intros; apply quiet_const. }
    apply Q in E. destruct r as [x|x|]; [destruct x|..]; exact E.
Qed.
Lemma call_leaves h c x x' D : dt_start x = h_val h -> dt_upd x = true -> call_exec x c = (x', fst (call_spec h D c)) ->
  leaves (wrote h (c, fst (call_spec h D c))) (dt_t x) (dt_t x').
Proof.
  intros St Up E. destruct c as [mark dbn coll o|mark dbn coll did data f]; cbn [call_exec call_spec] in *.
  - unfold with_coll in E. unfold store_spec in *. rewrite St in E. destruct (resolve (h_val h) dbn coll) as [cid|] eqn:Rs.
    + assert (Et : dt_t (if mark then ReferredCollections x [cid] else x) = dt_t x) by (destruct mark; reflexivity). rewrite Et in E.
      destruct (op_tx cid o (dt_t x)) as [t r] eqn:Eo. destruct (doc_spec (D cid) o) as [r0 m] eqn:Ed. cbn [fst snd] in *.
      apply (f_equal snd) in E as Er. apply (f_equal fst) in E. cbn [fst snd] in E, Er. subst r0 x'.
      apply (op_leaves _ _ _ _ _ _ Eo); [|destruct r as [v|e|]; reflexivity]. intros ->. cbn [doc_spec] in Ed. inversion Ed. eauto.
    + cbn [fst] in *. inversion E. subst. reflexivity.
  - rewrite St in E. cbn [fst wrote]. destruct (resolve (h_val h) dbn coll) as [cid|] eqn:Rs; [|inversion E; subst; reflexivity].
    assert (Et : dt_t (if mark then ReferredCollections x [cid] else x) = dt_t x) by (destruct mark; reflexivity). rewrite Et in E.
    destruct (tset (docKey cid did) data (dt_t x)) as [t r] eqn:Eo. apply set_pend in Eo. unfold AddCancelFunc in E.
    replace (dt_upd (with_t (if mark then ReferredCollections x [cid] else x) t)) with true in E by (destruct mark; symmetry; exact Up). cbn [negb] in E.
    destruct r; inversion E. subst x'. cbn [dt_t with_t]. exists (docKey cid did). exact Eo.
Qed.
Lemma pend_nonempty (p : smap (option ent)) : (exists k, get p k <> None) <-> entries p <> [].
Proof.
  split.
  - intros (k & G) N. apply entries_nil_iff in N. subst p. apply G. reflexivity.
  - intros N. destruct (entries p) as [|[k o] l] eqn:E; [congruence|]. exists k. assert (X : get p k = Some o) by (apply get_in; rewrite E; left; reflexivity). congruence.
Qed.
Lemma calls_leave h l : handle_ok h -> Forall call_ok l ->
  forall x D x' rs, dt_start x = h_val h -> dt_upd x = true -> okt true (dt_t x) -> rep (view (dt_t x)) D -> calls_exec x l = (x', rs) ->
  (if existsb (wrote h) (combine l rs) then entries (t_pend (dt_t x')) <> [] else t_pend (dt_t x') = t_pend (dt_t x)) /\
  (entries (t_pend (dt_t x)) <> [] -> entries (t_pend (dt_t x')) <> []).
Proof.
  intros H. induction l as [|c l IH]; intros F x D x' rs St Up O R E; cbn [calls_exec] in E.
  - inversion E. subst. cbn [combine existsb]. split; [reflexivity | tauto].
  - inversion F as [|? ? F1 F2]. subst.
    destruct (call_refines h true c x D H F1) as (x1 & E1 & S1 & U1 & O1 & R1 & K1); try assumption; [discriminate|].
    pose proof (call_leaves h c x x1 D St Up E1) as L. rewrite E1 in E. destruct (calls_exec x1 l) as [x2 rs'] eqn:E2. inversion E. subst.
    destruct (IH F2 x1 _ x' rs' S1 U1 O1 R1 E2) as [A B]. cbn [combine existsb]. unfold leaves in L.
    destruct (wrote h (c, fst (call_spec h D c))); cbn [orb].
    + apply pend_nonempty in L. auto.
    + rewrite L in A, B. auto.
Qed.

(** ** histories *)
Lemma dhist_app a : forall b w, dhist w (a ++ b) =
  let '(w1, r1) := dhist w a in let '(w2, r2) := dhist w1 b in (w2, r1 ++ r2).
Proof.
  induction a as [|e a IH]; intros b w; cbn [app dhist].
  - destruct (dhist w b). reflexivity.
  - destruct (dstep w e) as [w1 r]. rewrite IH. destruct (dhist w1 a) as [w2 rs]. destruct (dhist w2 b). reflexivity.
Qed.
Lemma dhist_length es : forall w, length (snd (dhist w es)) = length es.
Proof. induction es as [|e es IH]; intros w; cbn [dhist]; [reflexivity|]. destruct (dstep w e) as [w1 r]. specialize (IH w1). destruct (dhist w1 es). cbn in *. lia. Qed.
Lemma journal_snoc w a e : journal_of w (a ++ [e]) = jstep (journal_of w a) (e, snd (dstep (fst (dhist w a)) e)).
Proof.
  unfold journal_of. rewrite dhist_app. pose proof (dhist_length a w) as L. destruct (dhist w a) as [w1 r1]. cbn [fst snd dhist] in *.
  destruct (dstep w1 e) as [w2 r2]. cbn [snd]. rewrite SerialProofs.combine_app by (symmetry; exact L). apply fold_left_app.
Qed.
Lemma dhist_snoc w a e : fst (dhist w (a ++ [e])) = fst (dstep (fst (dhist w a)) e).
Proof. rewrite dhist_app. destruct (dhist w a) as [w1 r1]. cbn [fst dhist]. destruct (dstep w1 e). reflexivity. Qed.
Lemma find_forget i j l : find_tx i (forget j l) = if Nat.eqb i j then None else find_tx i l.
Proof.
  unfold find_tx, forget. induction l as [|[k d] l IH]; cbn [filter find fst]; [destruct (Nat.eqb i j); reflexivity|].
  destruct (Nat.eqb j k) eqn:E; cbn [negb].
  - apply Nat.eqb_eq in E. subst k. rewrite IH. destruct (Nat.eqb i j); reflexivity.
  - cbn [find fst]. destruct (Nat.eqb i k) eqn:Ek; [|exact IH]. apply Nat.eqb_eq in Ek. subst k. rewrite Nat.eqb_sym, E. reflexivity.
Qed.
Lemma find_cons i j d l : find_tx i ((j, d) :: l) = if Nat.eqb i j then Some d else find_tx i l.
Proof. unfold find_tx. cbn [find fst]. destruct (Nat.eqb i j); reflexivity. Qed.
Lemma docs_after_snoc l d : docs_after (l ++ [d]) = snd (calls_spec (s_h d) (docs_after l) (calls d)).
Proof. unfold docs_after. rewrite fold_left_app. reflexivity. Qed.
Lemma replays_snoc l d : replays (fun _ => []) l -> answers d = fst (calls_spec (s_h d) (docs_after l) (calls d)) -> replays (fun _ => []) (l ++ [d]).
Proof.
  unfold docs_after. generalize (fun _ : Z => @nil (Z * bytes)). induction l as [|a l IH]; intros D; cbn [app replays fold_left]; [auto|].
  intros [H1 H2] H3. split; [exact H1|]. apply IH; assumption.
Qed.

Definition origin (es : list dev) (done : list deed) (i : nat) (d : deed) (x : dtxn) : Prop :=
  exists d0, eternal (d_kv d0) /\ rep (d_kv d0) (docs_after (firstn (s_seen d) done)) /\ (s_seen d <= length done)%nat /\
    calls_exec (NewTxn (s_h d) d0 (s_upd d) []) (calls d) = (x, answers d) /\
    handle_ok (s_h d) /\ Forall call_ok (calls d) /\ (s_upd d = false -> Forall (fun c => call_writes c = false) (calls d)) /\
    In (DBegin (s_h d) i (s_upd d)) es.
Definition told (done : list deed) (d : deed) : Prop :=
  (s_seen d <= length done)%nat /\ answers d = fst (calls_spec (s_h d) (docs_after (firstn (s_seen d) done)) (calls d)).
Record winv (es : list dev) (w : dworld) (J : journal) : Prop := {
  v_ok : db_ok (dw_db w);
  v_et : eternal (d_kv (dw_db w));
  v_rep : rep (d_kv (dw_db w)) (docs_after (j_done J));
  v_replays : replays (fun _ => []) (j_done J);
  v_tx : forall i x, dw_tx w i = Some x -> tx_ok (dw_db w) (dt_t x);
  v_open : forall i, match find_tx i (j_open J), dw_tx w i with
                     | Some d, Some x => origin es (j_done J) i d x
                     | None, None => True
                     | _, _ => False
                     end;
  v_told : forall d, In d (j_rest J ++ j_done J) -> told (j_done J) d;
  v_order : forall n d, nth_error (j_done J) n = Some d -> (s_seen d <= n)%nat
}.
Lemma dview_eternal d : eternal (d_kv d) -> dview d = d_kv d.
Proof.
  intros E. apply smap_ext. intros k. unfold dview, live_map. rewrite get_sfilter. destruct (get (d_kv d) k) as [e|] eqn:G; [|reflexivity].
  cbn [snd]. rewrite SerialProofs.live_eternal by (eapply E; exact G). reflexivity.
Qed.
Lemma origin_told es done i d x : origin es done i d x -> told done d /\ okt (s_upd d) (dt_t x) /\ dt_upd x = s_upd d /\ dt_start x = h_val (s_h d).
Proof.
  intros (d0 & E & R & L & C & H & F & RO & _).
  destruct (calls_refine (s_h d) (s_upd d) (calls d) H F RO (NewTxn (s_h d) d0 (s_upd d) []) (docs_after (firstn (s_seen d) done))) as (x' & C' & S' & U' & O' & R' & _).
  - reflexivity.
  - reflexivity.
  - apply okt_new. reflexivity.
  - cbn [NewTxn dt_t]. rewrite view_new_dview, dview_eternal by exact E. exact R.
  - rewrite C in C'. inversion C'. subst. split; [split; [exact L | congruence]|]. auto.
Qed.
Lemma told_more done l d : told done d -> told (done ++ l) d.
Proof.
  intros [L A]. split; [rewrite app_length; lia|]. rewrite firstn_app. replace (s_seen d - length done)%nat with 0%nat by lia. cbn [firstn]. rewrite app_nil_r. exact A.
Qed.
Lemma origin_more es done e l i d x : origin es done i d x -> origin (es ++ [e]) (done ++ l) i d x.
Proof.
  intros (d0 & E & R & L & C & H & F & RO & B). exists d0. split; [exact E|]. split.
  - rewrite firstn_app. replace (s_seen d - length done)%nat with 0%nat by lia. cbn [firstn]. rewrite app_nil_r. exact R.
  - split; [rewrite app_length; lia|]. repeat (split; [assumption|]). apply in_or_app. left. exact B.
Qed.
Lemma origin_more0 es done e i d x : origin es done i d x -> origin (es ++ [e]) done i d x.
Proof. intros H. apply (origin_more _ _ e []) in H. rewrite app_nil_r in H. exact H. Qed.
Lemma left_told es w J i : winv es w J -> forall d, In d (left_over i (j_open J)) -> told (j_done J) d.
Proof.
  intros V d Hd. unfold left_over in Hd. pose proof (v_open _ _ _ V i) as O. destruct (find_tx i (j_open J)) as [d'|]; [|destruct Hd].
  destruct Hd as [<-|[]]. destruct (dw_tx w i) as [x|]; [|destruct O]. apply (origin_told _ _ _ _ _ O).
Qed.
(** an event that neither commits changes nor touches documents *)
Lemma winv_quiet es w J e w' open rest : winv es w J ->
  db_ok (dw_db w') -> eternal (d_kv (dw_db w')) -> rep (d_kv (dw_db w')) (docs_after (j_done J)) ->
  (forall i x, dw_tx w' i = Some x -> tx_ok (dw_db w') (dt_t x)) ->
  (forall i, match find_tx i open, dw_tx w' i with
             | Some d, Some x => origin (es ++ [e]) (j_done J) i d x
             | None, None => True
             | _, _ => False
             end) ->
  (forall d, In d rest -> told (j_done J) d) ->
  winv (es ++ [e]) w' (Journal open (j_done J) rest).
Proof.
  intros V K E R T O Q. split; cbn [j_open j_done j_rest]; try assumption; [apply (v_replays _ _ _ V)| |apply (v_order _ _ _ V)].
  intros d Hd. apply in_app_or in Hd. destruct Hd as [Hd|Hd]; [apply Q, Hd|]. apply (v_told _ _ _ V). apply in_or_app. right. exact Hd.
Qed.
Lemma winv_drop es w J e i : winv es w J ->
  winv (es ++ [e]) (DW (dw_db w) (dw_upd (dw_tx w) i None)) (Journal (forget i (j_open J)) (j_done J) (j_rest J ++ left_over i (j_open J))).
Proof.
  intros V. apply (winv_quiet es w); try apply V; try exact V; cbn [dw_db dw_tx].
  - intros j x. unfold dw_upd. destruct (Nat.eqb j i); [discriminate | apply (v_tx _ _ _ V)].
  - intros j. rewrite find_forget. unfold dw_upd. destruct (Nat.eqb j i); [exact Logic.I|]. pose proof (v_open _ _ _ V j) as O.
    destruct (find_tx j (j_open J)), (dw_tx w j); try exact O. apply origin_more0. exact O.
  - intros d Hd. apply in_app_or in Hd. destruct Hd as [Hd|Hd]; [apply (v_told _ _ _ V), in_or_app; left; exact Hd | eapply left_told; eassumption].
Qed.
Lemma eternal_apply m (p : smap (option ent)) : eternal m -> (forall k e, get p k = Some (Some e) -> e_exp e = 0) -> eternal (apply_pend m p).
Proof.
  intros E P k e G. rewrite get_apply_pend in G. destruct (get p k) as [o|] eqn:X; [subst o; eapply P; exact X | eapply E; exact G].
Qed.
Lemma call_pend_eternal c x x' r : call_exec x c = (x', r) -> t_upd (dt_t x) = true -> scans c = false -> eternal (t_snap (dt_t x)) ->
  pend_eternal (dt_t x) -> pend_eternal (dt_t x').
Proof.
  intros E U NS S P. destruct (call_twin _ _ _ _ E U NS) as [M G].
  assert (T : twin x x) by (split; [reflexivity|]; split; [reflexivity|]; split; [repeat split | split; [exact S | split; [exact S | exact P]]]).
  destruct (G x T ltac:(reflexivity)) as (x2 & _ & (_ & _ & _ & (_ & _ & Q)) & _). exact Q.
Qed.
(** what is known of an open transaction *)
Lemma origin_state es done i d x : origin es done i d x -> exists d0, eternal (d_kv d0) /\ keeps (new_txn d0 (s_upd d) []) (dt_t x) /\
  okt (s_upd d) (dt_t x) /\ dt_upd x = s_upd d /\ dt_start x = h_val (s_h d) /\
  rep (view (dt_t x)) (snd (calls_spec (s_h d) (docs_after (firstn (s_seen d) done)) (calls d))) /\
  calls_exec (NewTxn (s_h d) d0 (s_upd d) []) (calls d) = (x, answers d) /\
  (s_upd d = true -> if changed d then entries (t_pend (dt_t x)) <> [] else t_pend (dt_t x) = empty).
Proof.
  intros (d0 & E & R & L & C & H & F & RO & _). exists d0. split; [exact E|].
  assert (V : rep (view (dt_t (NewTxn (s_h d) d0 (s_upd d) []))) (docs_after (firstn (s_seen d) done))).
  { cbn [NewTxn dt_t]. rewrite view_new_dview, dview_eternal by exact E. exact R. }
  destruct (calls_refine (s_h d) (s_upd d) (calls d) H F RO (NewTxn (s_h d) d0 (s_upd d) []) (docs_after (firstn (s_seen d) done))) as (x' & C' & S' & U' & O' & R' & K').
  - reflexivity.
  - reflexivity.
  - apply okt_new. reflexivity.
  - exact V.
  - rewrite C in C'. assert (x' = x) by congruence. subst x'. cbn [NewTxn dt_t] in K'. repeat (split; [assumption|]). intros U. rewrite U in *.
    destruct (calls_leave (s_h d) (calls d) H F (NewTxn (s_h d) d0 true []) (docs_after (firstn (s_seen d) done)) x (answers d)) as [A _]; try assumption; try reflexivity.
    { apply okt_new. reflexivity. }
    unfold changed, calls, answers in *.
    replace (combine (map fst (s_calls d)) (map snd (s_calls d))) with (s_calls d) in A; [exact A|].
    generalize (s_calls d). clear. induction l as [|[a b] l IH]; cbn; congruence.
Qed.
Lemma keeps_tx_ok d t t' : t_snap t = t_snap t' -> t_rts t = t_rts t' -> tx_ok d t -> tx_ok d t'.
Proof. intros A B [H1 H2]. split; [rewrite <- B; exact H1|]. rewrite <- A, <- B. exact H2. Qed.
Lemma step_call es w J i c : winv es w J -> history_ok (es ++ [DCall i c]) ->
  winv (es ++ [DCall i c]) (fst (dstep w (DCall i c))) (jstep J (DCall i c, snd (dstep w (DCall i c)))).
Proof.
  intros V HO. cbn [dstep]. pose proof (v_open _ _ _ V i) as O. destruct (dw_tx w i) as [x|] eqn:Ex.
  - destruct (find_tx i (j_open J)) as [d|] eqn:Ef; [|destruct O]. destruct (call_exec x c) as [x' r] eqn:Ec. cbn [fst snd jstep]. rewrite Ef.
    assert (IN : In (DCall i c) (es ++ [DCall i c])) by (apply in_or_app; right; left; reflexivity).
    set (d1 := Deed (s_h d) (s_upd d) (s_seen d) (s_calls d ++ [(c, r)])).
    assert (O1 : origin (es ++ [DCall i c]) (j_done J) i d1 x').
    { destruct O as (d0 & E & R & L & C & H & F & RO & B). exists d0. unfold calls, answers, d1. cbn [s_h s_upd s_seen s_calls]. rewrite !map_app. cbn [map fst snd].
      split; [exact E|]. split; [exact R|]. split; [exact L|]. split; [rewrite calls_exec_app; unfold calls in C; rewrite C; cbn [calls_exec]; rewrite Ec; reflexivity|].
      split; [exact H|]. split; [apply Forall_app; split; [exact F|]; constructor; [|constructor]; split; [eapply (ok_ids _ HO); exact IN | eapply (ok_range _ HO); exact IN]|].
      split.
      - intros U. apply Forall_app. split; [exact (RO U)|]. constructor; [|constructor]. rewrite U in B.
        apply (ok_ro _ HO (s_h d) i c); [apply in_or_app; left; exact B | exact IN].
      - apply in_or_app. left. exact B. }
    apply (winv_quiet es w); try apply V; try exact V; cbn [dw_db dw_tx].
    + intros j y. unfold dw_upd. destruct (Nat.eqb j i) eqn:Ej; [|apply (v_tx _ _ _ V)]. intros Y. inversion Y. subst y.
      destruct (origin_state _ _ _ _ _ O) as (da & _ & (A1 & A2 & _) & _ & _ & _ & _ & C1 & _).
      destruct (origin_state _ _ _ _ _ O1) as (db & _ & (B1 & B2 & _) & _ & _ & _ & _ & C2 & _).
      (* same first state: both come from the same calls *)
      destruct O as (d0 & E & R & L & C & H & F & RO & B).
      assert (K : keeps (dt_t x) (dt_t x')).
      { destruct (calls_refine (s_h d) (s_upd d) (calls d) H F RO (NewTxn (s_h d) d0 (s_upd d) []) (docs_after (firstn (s_seen d) (j_done J)))) as (x0 & C' & S' & U' & O' & R' & K');
          [reflexivity | reflexivity | apply okt_new; reflexivity | cbn [NewTxn dt_t]; rewrite view_new_dview, dview_eternal by exact E; exact R|].
        rewrite C in C'. assert (x0 = x) by congruence. subst x0.
        destruct (call_refines (s_h d) (s_upd d) c x (snd (calls_spec (s_h d) (docs_after (firstn (s_seen d) (j_done J))) (calls d)))) as (x1 & Q1 & _ & _ & _ & _ & Q2); try assumption.
        - split; [eapply (ok_ids _ HO); exact IN | eapply (ok_range _ HO); exact IN].
        - intros U. rewrite U in B. apply (ok_ro _ HO (s_h d) i c); [apply in_or_app; left; exact B | exact IN].
        - rewrite Ec in Q1. assert (x1 = x') by congruence. subst x1. exact Q2. }
      destruct K as (K1 & K2 & _). apply (keeps_tx_ok _ (dt_t x)); [congruence | congruence | apply (v_tx _ _ _ V i); exact Ex].
    + intros j. rewrite find_cons, find_forget. unfold dw_upd. destruct (Nat.eqb j i) eqn:Ej; [apply Nat.eqb_eq in Ej; subst j; exact O1|].
      pose proof (v_open _ _ _ V j) as Oj. destruct (find_tx j (j_open J)), (dw_tx w j); try exact Oj. apply origin_more0. exact Oj.
    + intros q Hq. apply (v_told _ _ _ V). apply in_or_app. left. exact Hq.
  - cbn [fst snd jstep]. destruct J as [jo jd jr]. apply (winv_quiet es w (Journal jo jd jr)); try apply V; try exact V.
    + intros j. pose proof (v_open _ _ _ V j) as Oj. cbn [j_open j_done] in *. destruct (find_tx j jo), (dw_tx w j); try exact Oj. apply origin_more0. exact Oj.
    + intros q Hq. apply (v_told _ _ _ V). apply in_or_app. left. exact Hq.
Qed.
Lemma step_commit es w J h i io : winv es w J ->
  (forall d, In d (j_done (jstep J (DCommit h i io, snd (dstep w (DCommit h i io))))) -> forallb (fun c => negb (scans c)) (calls d) = true) ->
  winv (es ++ [DCommit h i io]) (fst (dstep w (DCommit h i io))) (jstep J (DCommit h i io, snd (dstep w (DCommit h i io)))).
Proof.
  intros V NS. cbn [dstep] in *. pose proof (v_open _ _ _ V i) as O. destruct (dw_tx w i) as [x|] eqn:Ex.
  2:{ cbn [fst snd jstep]. destruct (find_tx i (j_open J)) as [d|] eqn:Ef; [destruct O|]. pose proof (winv_drop _ _ _ (DCommit h i io) i V) as W.
      unfold left_over in *. rewrite Ef in *.
      destruct W as [W1 W2 W3 W4 W5 W6 W7 W8]. split; cbn [dw_db dw_tx j_open j_done j_rest] in *; try assumption.
      - apply V.
      - intros j. specialize (W6 j). unfold dw_upd in W6. destruct (Nat.eqb j i) eqn:Ej; [|exact W6]. apply Nat.eqb_eq in Ej. subst j.
        rewrite find_forget, Nat.eqb_refl, Ex. exact Logic.I. }
  destruct (find_tx i (j_open J)) as [d|] eqn:Ef; [|destruct O].
  assert (DROP : winv (es ++ [DCommit h i io]) (DW (dw_db w) (dw_upd (dw_tx w) i None)) (Journal (forget i (j_open J)) (j_done J) (j_rest J ++ [d]))).
  { pose proof (winv_drop _ _ _ (DCommit h i io) i V) as W. unfold left_over in W. rewrite Ef in W. exact W. }
  destruct (origin_state _ _ _ _ _ O) as (d0 & Et & K & Ok_ & Up & St & Rv & C & Ch).
  unfold dcommit in *. rewrite Up in *. destruct (s_upd d) eqn:U; cbn [negb] in *.
  2:{ cbn [fst snd jstep] in *. rewrite Ef in *. replace (changed d) with false; [exact DROP|].
      symmetry. destruct O as (_ & _ & _ & _ & _ & _ & _ & RO & _). specialize (RO U). unfold changed, calls in *. clear - RO.
      induction (s_calls d) as [|[c a] l IH]; [reflexivity|]. inversion RO as [|? ? R1 R2]. subst. cbn [existsb]. rewrite (IH R2), orb_false_r. cbn [fst] in R1.
      destruct c as [m dbn coll o|m dbn coll did data f]; [|discriminate R1]. destruct a as [v|e|]; [|reflexivity|reflexivity]. cbn [call_writes wrote] in *.
      destruct o; try discriminate R1; destruct v; reflexivity. }
  destruct (Check h false (dt_start x) (dt_refs x)) as [h1 [[|]| |]]; cbn [fst snd jstep] in *;
    try (unfold left_over; rewrite Ef; exact DROP).
  specialize (Ch eq_refl). destruct (commit (dw_db w) (dt_t x) io) as [[d1 t1] r] eqn:Ecm. unfold commit in Ecm.
  destruct Ok_ as [Op Ok_]. specialize (Ok_ eq_refl). rewrite Op in Ecm. cbn [negb] in Ecm.
  destruct (changed d) eqn:Cd.
  - destruct (entries (t_pend (dt_t x))) as [|p0 l0] eqn:Ep; [congruence|]. clear Ch.
    destruct (conflict (dw_db w) (dt_t x)) eqn:Cf; [inversion Ecm; subst; cbn [fst snd jstep] in *; unfold left_over; rewrite Ef; exact DROP|].
    destruct io; [inversion Ecm; subst; cbn [fst snd jstep] in *; unfold left_over; rewrite Ef; exact DROP|].
    inversion Ecm. subst d1 t1 r. clear Ecm. cbn [fst snd jstep] in *. rewrite Ef, Cd in *.
    assert (NSd : forallb (fun c => negb (scans c)) (calls d) = true) by (apply NS; cbn [j_done]; apply in_or_app; right; left; reflexivity).
    pose proof O as (dx & Etx & _ & Lx & Cx & Hh & Fc & _ & B).
    (* the same calls on a transaction created now *)
    destruct (calls_twin (calls d) (NewTxn (s_h d) d0 true []) x (answers d) C eq_refl NSd) as [M G].
    destruct K as (K1 & K2 & K3 & K4 & K5). cbn [new_txn t_snap t_rts t_now t_upd] in K1, K2, K3, K4.
    pose proof (v_tx _ _ _ V i x Ex) as TX.
    destruct (G (NewTxn (s_h d) (dw_db w) true [])) as (x2 & C2 & (T1 & T2 & T3 & T4) & K6).
    { split; [reflexivity|]. split; [reflexivity|]. split; [repeat split|]. split; [exact Et|]. split; [apply (v_et _ _ _ V)|]. intros k e X. discriminate X. }
    { intros k Hk. cbn [NewTxn dt_t new_txn t_snap]. rewrite <- K1. symmetry. eapply conflict_free; [exact TX | exact Cf | exact Hk]. }
    destruct (calls_refine (s_h d) true (calls d) Hh Fc ltac:(discriminate) (NewTxn (s_h d) (dw_db w) true []) (docs_after (j_done J))) as (x3 & C3 & _ & _ & _ & R3 & _);
      [reflexivity | reflexivity | apply okt_new; reflexivity | cbn [NewTxn dt_t]; rewrite view_new_dview, dview_eternal by apply (v_et _ _ _ V); apply (v_rep _ _ _ V)|].
    rewrite C2 in C3. assert (x3 = x2) by congruence. subst x3.
    assert (AN : answers d = fst (calls_spec (s_h d) (docs_after (j_done J)) (calls d))) by congruence.
    destruct T3 as (_ & _ & _ & P3). destruct T4 as (_ & _ & PE).
    assert (EP : eternal (apply_pend (d_kv (dw_db w)) (t_pend (dt_t x)))) by (apply eternal_apply; [apply (v_et _ _ _ V) | exact PE]).
    assert (VW : view (dt_t x2) = apply_pend (d_kv (dw_db w)) (t_pend (dt_t x))).
    { apply smap_ext. intros k. rewrite get_view, <- P3. destruct K6 as (Q1 & _). rewrite Q1. cbn [NewTxn dt_t new_txn t_snap].
      rewrite <- get_apply_pend. destruct (get (apply_pend (d_kv (dw_db w)) (t_pend (dt_t x))) k) as [e|] eqn:Ge; [|reflexivity].
      rewrite SerialProofs.live_eternal by (eapply EP; exact Ge). reflexivity. }
    split; cbn [dw_db dw_tx j_open j_done j_rest].
    + apply db_ok_publish, (v_ok _ _ _ V).
    + exact EP.
    + cbn [publish d_kv]. rewrite docs_after_snoc, <- VW. exact R3.
    + apply replays_snoc; [apply (v_replays _ _ _ V) | exact AN].
    + intros j y. unfold dw_upd. destruct (Nat.eqb j i); [discriminate|]. intros Y. apply publish_ok; [apply (v_ok _ _ _ V) | apply (v_tx _ _ _ V j), Y].
    + intros j. rewrite find_forget. unfold dw_upd. destruct (Nat.eqb j i); [exact Logic.I|]. pose proof (v_open _ _ _ V j) as Oj.
      destruct (find_tx j (j_open J)), (dw_tx w j); try exact Oj. apply origin_more. exact Oj.
    + intros q Hq. rewrite app_assoc in Hq. apply in_app_or in Hq. destruct Hq as [Hq|[<-|[]]]; apply told_more; [apply (v_told _ _ _ V), Hq|].
      apply (origin_told _ _ _ _ _ O).
    + intros n q Hq. destruct (Nat.lt_ge_cases n (length (j_done J))) as [Ln|Ln].
      * rewrite nth_error_app1 in Hq by exact Ln. apply (v_order _ _ _ V n q Hq).
      * rewrite nth_error_app2 in Hq by exact Ln. destruct (n - length (j_done J))%nat as [|m] eqn:Em; [|destruct m; discriminate Hq].
        cbn in Hq. inversion Hq. subst q. lia.
  - rewrite Ch in Ecm. cbn [empty entries] in Ecm. inversion Ecm. subst. cbn [fst snd jstep] in *. rewrite Ef, Cd in *. exact DROP.
Qed.
Lemma step_winv es w J e : winv es w J -> history_ok (es ++ [e]) ->
  (forall d, In d (j_done (jstep J (e, snd (dstep w e)))) -> forallb (fun c => negb (scans c)) (calls d) = true) ->
  winv (es ++ [e]) (fst (dstep w e)) (jstep J (e, snd (dstep w e))).
Proof.
  intros V HO NS. destruct e as [h i u|i c|h i io|i|t io|n].
  - cbn [dstep fst snd jstep]. assert (IN : In (DBegin h i u) (es ++ [DBegin h i u])) by (apply in_or_app; right; left; reflexivity).
    apply (winv_quiet es w); try apply V; try exact V; cbn [dw_db dw_tx].
    + intros j x. unfold dw_upd. destruct (Nat.eqb j i); [|apply (v_tx _ _ _ V)]. intros Y. inversion Y. subst x. cbn [NewTxn dt_t]. split; [cbn; lia|]. reflexivity.
    + intros j. rewrite find_cons, find_forget. unfold dw_upd. destruct (Nat.eqb j i) eqn:Ej.
      * apply Nat.eqb_eq in Ej. subst j. exists (dw_db w). cbn [s_h s_upd s_seen s_calls calls answers map]. rewrite firstn_all.
        split; [apply V|]. split; [apply V|]. split; [lia|]. split; [reflexivity|]. split; [intros dbn coll cc; apply (ok_schema _ HO h i u IN)|]. split; [constructor|]. split; [constructor | exact IN].
      * pose proof (v_open _ _ _ V j) as Oj. destruct (find_tx j (j_open J)), (dw_tx w j); try exact Oj. apply origin_more0. exact Oj.
    + intros q Hq. apply in_app_or in Hq. destruct Hq as [Hq|Hq]; [apply (v_told _ _ _ V), in_or_app; left; exact Hq | eapply left_told; eassumption].
  - apply step_call; assumption.
  - apply step_commit; assumption.
  - cbn [dstep fst snd jstep]. apply winv_drop. exact V.
  - cbn [dstep]. destruct (ok_other _ HO t io) as [H1 H2]; [apply in_or_app; right; left; reflexivity|].
    assert (CM : exists t' r, commit (dw_db w) t io = (dw_db w, t', r) \/ commit (dw_db w) t io = (publish (dw_db w) t, t', r)).
    { unfold commit. destruct (negb (t_open t)); [eauto|]. destruct (entries (t_pend t)); [eauto|]. destruct (conflict (dw_db w) t); [eauto|]. destruct io; eauto. }
    assert (OP : forall j, match find_tx j (j_open J), dw_tx w j with Some d, Some x => origin (es ++ [DOther t io]) (j_done J) j d x | None, None => True | _, _ => False end).
    { intros j. pose proof (v_open _ _ _ V j) as Oj. destruct (find_tx j (j_open J)), (dw_tx w j); try exact Oj. apply origin_more0. exact Oj. }
    assert (TL : forall q, In q (j_rest J) -> told (j_done J) q) by (intros q Hq; apply (v_told _ _ _ V), in_or_app; left; exact Hq).
    assert (ET : J = Journal (j_open J) (j_done J) (j_rest J)) by (destruct J; reflexivity).
    destruct CM as (t' & r & [-> | ->]); cbn [fst snd jstep]; rewrite ET.
    + apply (winv_quiet es w); try apply V; assumption.
    + apply (winv_quiet es w); try assumption; cbn [dw_db dw_tx].
      * apply db_ok_publish, V.
      * cbn [publish d_kv]. apply eternal_apply; [apply V | exact H2].
      * cbn [publish d_kv]. apply (rep_frame (d_kv (dw_db w))); [apply V|]. intros c k Hc P. rewrite get_apply_pend, (H1 c k Hc P). reflexivity.
      * intros j x Y. apply publish_ok; [apply V | apply (v_tx _ _ _ V j x Y)].
  - cbn [dstep fst snd jstep].
    assert (ET : J = Journal (j_open J) (j_done J) (j_rest J)) by (destruct J; reflexivity). rewrite ET.
    apply (winv_quiet es w); try apply V; try exact V; cbn [dw_db dw_tx].
    + intros j. pose proof (v_open _ _ _ V j) as Oj. destruct (find_tx j (j_open J)), (dw_tx w j); try exact Oj. apply origin_more0. exact Oj.
    + intros q Hq. apply (v_told _ _ _ V), in_or_app. left. exact Hq.
Qed.
Lemma done_snoc w es e : exists l, committed w (es ++ [e]) = committed w es ++ l.
Proof.
  unfold committed. rewrite journal_snoc. destruct e as [h i u|i c|h i io|i|t io|n]; cbn [jstep];
    try (exists []; rewrite app_nil_r; reflexivity).
  - destruct (snd (dstep _ _)); try (exists []; rewrite app_nil_r; reflexivity).
    destruct (find_tx _ _); exists []; rewrite app_nil_r; reflexivity.
  - destruct (snd (dstep _ _)) as [r|[r|r|]|]; try (exists []; rewrite app_nil_r; reflexivity).
    destruct (find_tx _ _) as [d|]; [|exists []; rewrite app_nil_r; reflexivity]. destruct (changed d); [exists [d] | exists []; rewrite app_nil_r]; reflexivity.
Qed.
Lemma history_ok_snoc es e : history_ok (es ++ [e]) -> history_ok es.
Proof.
  intros H. assert (I : forall x, In x es -> In x (es ++ [e])) by (intros x Hx; apply in_or_app; left; exact Hx). split.
  - intros h i u Hx. apply (ok_schema _ H h i u), I, Hx.
  - intros i c Hx. apply (ok_ids _ H i), I, Hx.
  - intros i c Hx. apply (ok_range _ H i), I, Hx.
  - intros h i c Hx Hy. apply (ok_ro _ H h i); apply I; assumption.
  - intros t io Hx. apply (ok_other _ H t io), I, Hx.
Qed.
Lemma winv_run now clamp es : history_ok es ->
  (forall d, In d (committed (dfresh now clamp) es) -> forallb (fun c => negb (scans c)) (calls d) = true) ->
  winv es (fst (dhist (dfresh now clamp) es)) (journal_of (dfresh now clamp) es).
Proof.
  induction es as [|e es IH] using rev_ind; intros H NS.
  - split; cbn; auto.
    + apply db_ok_init.
    + discriminate.
    + apply rep_empty.
    + discriminate.
    + intros d [].
    + intros [|n] d X; discriminate X.
  - rewrite dhist_snoc, journal_snoc. apply step_winv; [apply IH; [eapply history_ok_snoc; exact H|] | exact H |].
    + intros d Hd. apply NS. destruct (done_snoc (dfresh now clamp) es e) as (l & ->). apply in_or_app. left. exact Hd.
    + intros d Hd. apply NS. unfold committed. rewrite journal_snoc. exact Hd.
Qed.
