(** Inserting into one collection by any number of transactions, with the collection's allocators, under
    any schedule, failures and crashes. Built from the code models of Dml.v (insertFunc, coll_op),
    DocTxn.v (NewTxn, dcommit, ddiscard) and Sequence.v (qstep); only the composition is defined here. *)
From Verif Require Import Bytes SMap KeyModel Provider ProviderProofs World Numeric KvUtil Struct StructProofs UtilTxn TxPost Sequence SequenceProofs Model Schema DocTxn DocKeys Dml DmlProofs Wrote.

(** * The process *)
(** an InsertOne(data, t) in progress: it has taken the allocator's mutex. [na_mark]: t is the caller's *)
Record insarg := InsArg { na_j : nat; na_mark : bool; na_db : bytes; na_coll : bytes; na_data : bytes }.
Record iworld := IW {
  iw_q : qworld;                    (* the store and the allocators ever registered for the collection *)
  iw_tx : nat -> option dtxn;       (* open transactions *)
  iw_ins : nat -> option insarg;    (* by allocator: the insert waiting for it *)
  iw_fn : list (option (nat * Z));  (* the functions given to AddCancelFunc, by name: PutBack of an id to
                                       an allocator of this collection, or anything else *)
  iw_back : list (nat * Z)          (* put-backs a failed Commit still has to make *)
}.
Inductive iev :=
| ENew (j : nat) (h : handle) (upd : bool) (lim : list bool)
| EOp (j : nat) (dbn coll : bytes) (o : docop)              (* any method but InsertOne, on any collection *)
| ERaw (j : nat) (m : Tx unit)                              (* other reads and writes *)
| ERawCancel (j : nat)                                      (* AddCancelFunc of something else *)
| EInsert (j i : nat) (mark : bool) (dbn coll data : bytes) (* InsertOne up to the call of Next *)
| EInsertEnd (i : nat) (lim : list bool) (io : bool)        (* the rest of it *)
| ECommit (j : nat) (h : handle) (io : bool)
| EDiscard (j : nat)
| EPutBack (n : nat)                                        (* the n-th pending put-back *)
| EAlloc (e : qev)                                          (* other uses of the allocators *)
| EForeign (t : txn) (io : bool)
| ECrash
| ETick (n : nat).
(** what callers see *)
Inductive iobs :=
| INone
| IIns (j : nat) (did : Z) (r : result unit)   (* InsertOne returned (did, err) or panicked; 0: no id *)
| ICommit (j : nat) (r : result unit)
| IDiscard (j : nat)
| ICrash.
Definition closures (fns : list (option (nat * Z))) (cs : list nat) : list (nat * Z) :=
  flat_map (fun f => match nth_error fns f with Some (Some p) => [p] | _ => [] end) cs.
Definition with_q (w : iworld) (q : qworld) : iworld := IW q (iw_tx w) (iw_ins w) (iw_fn w) (iw_back w).
Definition with_tx (w : iworld) (j : nat) (o : option dtxn) : iworld := IW (iw_q w) (fupd (iw_tx w) j o) (iw_ins w) (iw_fn w) (iw_back w).
Fixpoint drop_nth {A} (n : nat) (l : list A) : list A :=
  match l, n with [], _ => [] | _ :: l', O => l' | x :: l', S n' => x :: drop_nth n' l' end.
Section step.
Context (C : Z) (L : loc).
Definition istep (w : iworld) (e : iev) : iworld * iobs :=
  match e with
  | ENew j h upd lim =>
      match iw_tx w j with
      | Some _ => (w, INone)
      | None => (with_tx w j (Some (NewTxn h (qw_db (iw_q w)) upd lim)), INone)
      end
  | EOp j dbn coll o =>
      match iw_tx w j with
      | None => (w, INone)
      | Some x => (with_tx w j (Some (fst (coll_op x dbn coll o))), INone)
      end
  | ERaw j m =>
      match iw_tx w j with
      | None => (w, INone)
      | Some x => (with_tx w j (Some (with_t x (fst (m (dt_t x))))), INone)
      end
  | ERawCancel j =>
      match iw_tx w j with
      | None => (w, INone)
      | Some x => (IW (iw_q w) (fupd (iw_tx w) j (Some (fst (AddCancelFunc x (length (iw_fn w)))))) (iw_ins w) (iw_fn w ++ [None]) (iw_back w), INone)
      end
  | EInsert j i mark dbn coll data =>
      match qw_call (iw_q w) i, qw_seq (iw_q w) i with
      | None, Some _ => (IW (fst (qstep L (iw_q w) (QBegin i (COp QNext)))) (iw_tx w) (fupd (iw_ins w) i (Some (InsArg j mark dbn coll data))) (iw_fn w) (iw_back w), INone)
      | _, _ => (w, INone)    (* no allocator: ErrSequenceNotExists; or its mutex is taken *)
      end
  | EInsertEnd i lim io =>
      match iw_ins w i, qw_call (iw_q w) i, qw_seq (iw_q w) i with
      | Some a, Some (d0, COp QNext), Some s =>
          match iw_tx w (na_j a) with
          | None => (w, INone)
          | Some x =>
              match resolve (dt_start x) (na_db a) (na_coll a) with
              | None => (w, INone)     (* not this collection *)
              | Some c =>
                  if negb (c =? C) then (w, INone)
                  else
                    let '(S', d, x', (did, r)) :=
                      insertFunc (na_mark a) (zupd (fun _ => None) C (Some s)) x (na_db a) (na_coll a) (na_data a) (length (iw_fn w)) d0 (qw_db (iw_q w)) lim io in
                    (IW (QW d (fupd (qw_seq (iw_q w)) i (S' C)) (fupd (qw_call (iw_q w)) i None)) (fupd (iw_tx w) (na_j a) (Some x'))
                        (fupd (iw_ins w) i None) (iw_fn w ++ [Some (i, did)]) (iw_back w), IIns (na_j a) did r)
              end
          end
      | _, _, _ => (w, INone)
      end
  | ECommit j h io =>
      match iw_tx w j with
      | None => (w, INone)
      | Some x =>
          let '(_, d', _, r, ran) := dcommit h (qw_db (iw_q w)) io x in
          (IW (QW d' (qw_seq (iw_q w)) (qw_call (iw_q w))) (fupd (iw_tx w) j None) (iw_ins w) (iw_fn w) (iw_back w ++ closures (iw_fn w) ran), ICommit j r)
      end
  | EDiscard j => (with_tx w j None, IDiscard j)
  | EPutBack n =>
      match nth_error (iw_back w) n with
      | None => (w, INone)
      | Some (i, v) =>
          match qw_call (iw_q w) i, qw_seq (iw_q w) i with
          | None, Some _ => (IW (fst (qstep L (iw_q w) (QPut i [v]))) (iw_tx w) (iw_ins w) (iw_fn w) (drop_nth n (iw_back w)), INone)
          | _, _ => (w, INone)
          end
      end
  | EAlloc e =>
      match e with
      | QEnd i _ _ => match iw_ins w i with Some _ => (w, INone) | None => (with_q w (fst (qstep L (iw_q w) e)), INone) end
      | _ => (with_q w (fst (qstep L (iw_q w) e)), INone)
      end
  | EForeign t io => (with_q w (fst (qstep L (iw_q w) (QForeign t io))), INone)
  | ECrash => (IW (fst (qstep L (iw_q w) (QCrash (fun _ => true)))) (fun _ => None) (fun _ => None) (iw_fn w) [], ICrash)
  | ETick n => (with_q w (fst (qstep L (iw_q w) (QTick n))), INone)
  end.
Fixpoint irun (w : iworld) (es : list iev) : iworld * list iobs :=
  match es with
  | [] => (w, [])
  | e :: es' => let '(w1, o) := istep w e in let '(w2, os) := irun w1 es' in (w2, o :: os)
  end.

(** * What callers must respect *)
Definition foreign_key (k : bytes) (o : option ent) : Prop := has_prefix k (docPrefix C) = false /\ k <> counter_key L.
Definition iallowed (B c0 : Z) (w : iworld) (e : iev) : Prop :=
  match e with
  | EOp j dbn coll o =>
      forall x c, iw_tx w j = Some x -> resolve (dt_start x) dbn coll = Some c ->
        is_i64 c /\
        (c = C -> Forall is_i64 (op_ids o) /\
          (* ids chosen by the application are not above the counter, or have a document already *)
          match o with
          | OUpsert did _ | OInsert did _ => did <= c0 \/ get (view (dt_t x)) (docKey C did) <> None
          | _ => True
          end)
  | ERaw j m => wr foreign_key m
  | EAlloc e => match e with QBegin _ _ | QEnd _ _ _ => allowed One B L (iw_q w) [] e | _ => False end
  | EForeign t _ => get (t_pend t) (counter_key L) = None /\ forall v, get (t_pend t) (docKey C v) = None
  | _ => True
  end.
Fixpoint icallers_ok (B c0 : Z) (w : iworld) (es : list iev) : Prop :=
  match es with
  | [] => True
  | e :: es' => iallowed B c0 w e /\ icallers_ok B c0 (fst (istep w e)) es'
  end.
End step.

(** * Specification: the ids taken *)
(** [g_taken]: returned by an insert whose transaction did not fail to commit (so far);
    [g_mine j]: those of the open transaction j *)
Record ighost := IG { g_taken : list Z; g_mine : nat -> list Z }.
Definition nset (f : nat -> list Z) (j : nat) (l : list Z) : nat -> list Z := fun i => if Nat.eqb i j then l else f i.
Definition got_id (o : iobs) : option (nat * Z) :=
  match o with
  | IIns j did Panic => None
  | IIns j did _ => if did =? 0 then None else Some (j, did)
  | _ => None
  end.
Definition gstep (g : ighost) (o : iobs) : ighost :=
  match o with
  | IIns _ _ _ => match got_id o with Some (j, did) => IG (did :: g_taken g) (nset (g_mine g) j (did :: g_mine g j)) | None => g end
  | ICommit j (Err _) => IG (filter (fun v => negb (existsb (Z.eqb v) (g_mine g j))) (g_taken g)) (nset (g_mine g) j [])
  | ICommit j _ | IDiscard j => IG (g_taken g) (nset (g_mine g) j [])
  | ICrash => IG (g_taken g) (fun _ => [])
  | INone => g
  end.
Definition g_none : ighost := IG [] (fun _ => []).
Definition ghost_of (os : list iobs) : ighost := fold_left gstep os g_none.
Fixpoint ids_fresh (g : ighost) (os : list iobs) : Prop :=
  match os with
  | [] => True
  | o :: os' => (forall j did, got_id o = Some (j, did) -> ~ In did (g_taken g)) /\ ids_fresh (gstep g o) os'
  end.

(** * Invariant *)
Lemma nset_eq f j l : nset f j l j = l.
Proof. unfold nset. rewrite Nat.eqb_refl. reflexivity. Qed.
Lemma nset_ne f j l i : i <> j -> nset f j l i = f i.
Proof. intros N. unfold nset. apply Nat.eqb_neq in N. rewrite N. reflexivity. Qed.
Lemma closures_app fns a b : closures fns (a ++ b) = closures fns a ++ closures fns b.
Proof. apply flat_map_app. Qed.
Lemma closures_grow fns o cs : Forall (fun f => (f < length fns)%nat) cs -> closures (fns ++ [o]) cs = closures fns cs.
Proof.
  induction 1 as [|f cs H F IH]; [reflexivity|]. unfold closures in *. cbn [flat_map]. rewrite IH, nth_error_app1 by exact H. reflexivity.
Qed.
Lemma in_filter_not v l m : In v (filter (fun v => negb (existsb (Z.eqb v) m)) l) <-> In v l /\ ~ In v m.
Proof.
  rewrite filter_In. split; intros [H1 H2]; (split; [exact H1|]).
  - intros H. apply negb_true_iff in H2. rewrite <- not_true_iff_false in H2. apply H2. apply existsb_exists. exists v. split; [exact H | apply Z.eqb_refl].
  - apply negb_true_iff, not_true_iff_false. intros H. apply existsb_exists in H. destruct H as (y & Hy & E). apply Z.eqb_eq in E. subst. contradiction.
Qed.
Section inv.
Context (C : Z) (L : loc) (B c0 : Z) (HB : 0 < B) (HC : is_i64 C).
Record gwf (g : ighost) : Prop := {
  gw_nodup : forall j, NoDup (g_mine g j);
  gw_incl : forall j, incl (g_mine g j) (g_taken g);
  gw_disj : forall i j v, i <> j -> In v (g_mine g i) -> ~ In v (g_mine g j)
}.
Definition settled (g : ighost) (v : Z) : Prop := v <= c0 \/ (In v (g_taken g) /\ forall j, ~ In v (g_mine g j)).
Definition held (g : ighost) (j : nat) (v : Z) : Prop := v <= c0 \/ (In v (g_taken g) /\ forall j', j' <> j -> ~ In v (g_mine g j')).
Lemma settled_held g j v : settled g v -> held g j v.
Proof. intros [H|[H1 H2]]; [left; exact H | right; split; [exact H1 | auto]]. Qed.
Definition store_ok (g : ighost) (m : smap ent) : Prop := forall v e, is_i64 v -> get m (docKey C v) = Some e -> settled g v.
Record txok (g : ighost) (fns : list (option (nat * Z))) (j : nat) (x : dtxn) : Prop := {
  to_snap : store_ok g (t_snap (dt_t x));
  to_pend : forall v e, is_i64 v -> get (t_pend (dt_t x)) (docKey C v) = Some (Some e) -> held g j v;
  to_counter : get (t_pend (dt_t x)) (counter_key L) = None;
  to_upd : t_upd (dt_t x) = dt_upd x;
  to_fns : Forall (fun f => (f < length fns)%nat) (dt_cancels x);
  to_mine : map snd (closures fns (dt_cancels x)) = rev (g_mine g j);
  to_ro : dt_upd x = false -> g_mine g j = []
}.
Record iinv (rem : Z) (w : iworld) (g : ighost) (used : list Z) (c : Z) : Prop := {
  ii_q : qinv One B L c0 rem (iw_q w) used c;
  ii_g : gwf g;
  ii_taken : incl (g_taken g) used;
  ii_gone : forall j, iw_tx w j = None -> g_mine g j = [];
  ii_store : store_ok g (d_kv (qw_db (iw_q w)));
  ii_tx : forall j x, iw_tx w j = Some x -> txok g (iw_fn w) j x;
  ii_back : NoDup (map snd (iw_back w)) /\ forall v, In v (map snd (iw_back w)) -> In v used /\ ~ In v (g_taken g)
}.
(** changes of the ghost *)
Record gle (J : nat -> Prop) (g g' : ighost) : Prop := {   (* what was settled, or held by j in J, still is *)
  gl_settled : forall v, settled g v -> settled g' v;
  gl_held : forall j v, J j -> held g j v -> held g' j v;
  gl_mine : forall j, J j -> g_mine g' j = g_mine g j
}.
Lemma gle_refl J g : gle J g g.
Proof. split; auto. Qed.
Lemma txok_gle J g g' fns j x : gle J g g' -> J j -> txok g fns j x -> txok g' fns j x.
Proof.
  intros [G1 G2 G3] Hj [T1 T2 T3 T4 T5 T6 T7]. split; try assumption.
  - intros v e Hv H. apply G1. exact (T1 v e Hv H).
  - intros v e Hv H. apply G2; [exact Hj|]. exact (T2 v e Hv H).
  - rewrite (G3 j Hj). exact T6.
  - rewrite (G3 j Hj). exact T7.
Qed.
Lemma txok_fns g fns o j x : txok g fns j x -> txok g (fns ++ [o]) j x.
Proof.
  intros [T1 T2 T3 T4 T5 T6 T7]. split; try assumption.
  - eapply Forall_impl; [|exact T5]. intros f H. cbn beta in *. rewrite app_length. lia.
  - rewrite closures_grow by exact T5. exact T6.
Qed.
Lemma gle_insert g j v : gwf g -> ~ In v (g_taken g) -> gle (fun i => i <> j) g (IG (v :: g_taken g) (nset (g_mine g) j (v :: g_mine g j))).
Proof.
  intros W N. split.
  - intros u [H|[H1 H2]]; [left; exact H|]. right. split; [right; exact H1|]. intros i. cbn [g_mine]. destruct (Nat.eq_dec i j) as [->|E]; [rewrite nset_eq | rewrite nset_ne by exact E; apply H2].
    intros [->|H]; [contradiction | exact (H2 j H)].
  - intros i u Ni [H|[H1 H2]]; [left; exact H|]. right. split; [right; exact H1|]. intros i' N'. cbn [g_mine]. destruct (Nat.eq_dec i' j) as [->|E]; [rewrite nset_eq | rewrite nset_ne by exact E; apply H2; exact N'].
    intros [->|H]; [contradiction | exact (H2 j N' H)].
  - intros i Ni. cbn [g_mine]. apply nset_ne. exact Ni.
Qed.
Lemma gwf_insert g j v : gwf g -> ~ In v (g_taken g) -> gwf (IG (v :: g_taken g) (nset (g_mine g) j (v :: g_mine g j))).
Proof.
  intros [W1 W2 W3] N. assert (Nm : forall i, ~ In v (g_mine g i)) by (intros i H; exact (N (W2 i v H))). split; cbn [g_mine g_taken].
  - intros i. destruct (Nat.eq_dec i j) as [->|E]; [rewrite nset_eq; constructor; [apply Nm | apply W1] | rewrite nset_ne by exact E; apply W1].
  - intros i. destruct (Nat.eq_dec i j) as [->|E]; [rewrite nset_eq | rewrite nset_ne by exact E; intros u H; right; exact (W2 i u H)].
    intros u [->|H]; [left; reflexivity | right; exact (W2 j u H)].
  - intros i k u Nik. destruct (Nat.eq_dec i j) as [->|E].
    + rewrite nset_eq, nset_ne by congruence. intros [->|H]; [apply Nm | exact (W3 j k u Nik H)].
    + rewrite nset_ne by exact E. destruct (Nat.eq_dec k j) as [->|E']; [rewrite nset_eq | rewrite nset_ne by exact E'; apply W3; exact Nik].
      intros H [->|H']; [exact (Nm i H) | exact (W3 i j u Nik H H')].
Qed.
Lemma gle_end g j : gle (fun i => i <> j) g (IG (g_taken g) (nset (g_mine g) j [])).
Proof.
  split.
  - intros u [H|[H1 H2]]; [left; exact H|]. right. split; [exact H1|]. intros i. cbn [g_mine]. destruct (Nat.eq_dec i j) as [->|E]; [rewrite nset_eq; auto | rewrite nset_ne by exact E; apply H2].
  - intros i u Ni [H|[H1 H2]]; [left; exact H|]. right. split; [exact H1|]. intros i' N'. cbn [g_mine]. destruct (Nat.eq_dec i' j) as [->|E]; [rewrite nset_eq; auto | rewrite nset_ne by exact E; apply H2; exact N'].
  - intros i Ni. cbn [g_mine]. apply nset_ne. exact Ni.
Qed.
Lemma gwf_end g j : gwf g -> gwf (IG (g_taken g) (nset (g_mine g) j [])).
Proof.
  intros [W1 W2 W3]. split; cbn [g_mine g_taken].
  - intros i. destruct (Nat.eq_dec i j) as [->|E]; [rewrite nset_eq; constructor | rewrite nset_ne by exact E; apply W1].
  - intros i. destruct (Nat.eq_dec i j) as [->|E]; [rewrite nset_eq; intros u [] | rewrite nset_ne by exact E; apply W2].
  - intros i k u Nik. destruct (Nat.eq_dec i j) as [->|E]; [rewrite nset_eq; intros [] | rewrite nset_ne by exact E].
    destruct (Nat.eq_dec k j) as [->|E']; [rewrite nset_eq; auto | rewrite nset_ne by exact E'; apply W3; exact Nik].
Qed.
Definition g_fail (g : ighost) (j : nat) : ighost := IG (filter (fun v => negb (existsb (Z.eqb v) (g_mine g j))) (g_taken g)) (nset (g_mine g) j []).
Lemma gle_fail g j : gwf g -> gle (fun i => i <> j) g (g_fail g j).
Proof.
  intros W. split.
  - intros u [H|[H1 H2]]; [left; exact H|]. right. cbn [g_fail g_taken g_mine]. rewrite in_filter_not. split; [split; [exact H1 | apply H2]|]. intros i. destruct (Nat.eq_dec i j) as [->|E]; [rewrite nset_eq; auto | rewrite nset_ne by exact E; apply H2].
  - intros i u Ni [H|[H1 H2]]; [left; exact H|]. right. cbn [g_fail g_taken g_mine]. rewrite in_filter_not. split; [split; [exact H1 | apply H2; congruence]|]. intros i' N'. destruct (Nat.eq_dec i' j) as [->|E]; [rewrite nset_eq; auto | rewrite nset_ne by exact E; apply H2; exact N'].
  - intros i Ni. cbn [g_fail g_mine]. apply nset_ne. exact Ni.
Qed.
Lemma gwf_fail g j : gwf g -> gwf (g_fail g j).
Proof.
  intros W. pose proof (gwf_end g j W) as [W1 W2 W3]. split; [exact W1 | | exact W3]. intros i u. cbn [g_fail g_mine g_taken].
  destruct (Nat.eq_dec i j) as [->|E]; [rewrite nset_eq; intros [] | rewrite nset_ne by exact E]. intros H. apply in_filter_not. split; [exact (gw_incl _ W i u H)|].
  exact (gw_disj _ W i j u E H).
Qed.
Lemma view_held g fns j x v : txok g fns j x -> is_i64 v -> get (view (dt_t x)) (docKey C v) <> None -> held g j v.
Proof.
  intros T Hv. rewrite get_view. destruct (get (t_pend (dt_t x)) (docKey C v)) as [[e|]|] eqn:P.
  - intros _. exact (to_pend _ _ _ _ T v e Hv P).
  - congruence.
  - destruct (get (t_snap (dt_t x)) (docKey C v)) as [e|] eqn:S; [|congruence]. intros _. apply settled_held. exact (to_snap _ _ _ _ T v e Hv S).
Qed.
(** a transaction that writes only such keys stays in order *)
Lemma txok_wrote P g fns j x t : txok g fns j x -> wrote P (dt_t x) t ->
  (forall v e, is_i64 v -> P (docKey C v) (Some e) -> held g j v) -> (forall o, ~ P (counter_key L) o) ->
  txok g fns j (with_t x t).
Proof.
  intros [T1 T2 T3 T4 T5 T6 T7] ((W1 & W2 & W4) & W3) D N. split; cbn [with_t dt_t dt_upd dt_cancels]; try assumption.
  - rewrite W1. exact T1.
  - intros v e Hv. destruct (W3 (docKey C v)) as [E|(o & E & X)]; rewrite E; [apply T2; exact Hv|]. intros H. apply (D v e Hv). congruence.
  - destruct (W3 (counter_key L)) as [E|(o & E & X)]; rewrite E; [exact T3 | exfalso; exact (N _ X)].
  - congruence.
Qed.
Lemma txok_refs g fns j x ids : txok g fns j x -> txok g fns j (ReferredCollections x ids).
Proof. intros [T1 T2 T3 T4 T5 T6 T7]. split; assumption. Qed.
Lemma counter_meta : meta_key (counter_key L) None.
Proof. destruct L as [k|k f]; [exact (meta_ek (KS k) None) | exact (meta_ek (KHD k f) None)]. Qed.
Lemma counter_not_doc c : has_prefix (counter_key L) (docPrefix c) = false.
Proof.
  pose proof counter_meta as H. unfold meta_key in H. apply not_true_iff_false. intros X. apply has_prefix_spec in H. apply has_prefix_spec in X.
  destruct H as [a Ha]. destruct X as [b Hb]. rewrite Ha, docPrefix_app in Hb. cbn in Hb. discriminate.
Qed.
Lemma txok_op g fns j x dbn coll o : txok g fns j x ->
  (forall c, resolve (dt_start x) dbn coll = Some c -> is_i64 c /\
        (c = C -> Forall is_i64 (op_ids o) /\
          match o with
          | OUpsert did _ | OInsert did _ => did <= c0 \/ get (view (dt_t x)) (docKey C did) <> None
          | _ => True
          end)) ->
  txok g fns j (fst (coll_op x dbn coll o)).
Proof.
  intros T A. unfold coll_op, with_coll. destruct (resolve (dt_start x) dbn coll) as [c|] eqn:R; [|exact T]. destruct (A c eq_refl) as (Hc & Ac).
  cbn [dt_t ReferredCollections]. destruct (op_tx c o (dt_t x)) as [t r] eqn:E. cbn [fst]. change (dt_t x) with (dt_t (ReferredCollections x [c])) in E.
  pose proof (wr_op c o _ _ _ E) as W. pose proof (txok_refs g fns j x [c] T) as T'.
  assert (NC : forall v, ~ op_may c o (counter_key L) v) by (intros v [X _]; rewrite counter_not_doc in X; discriminate).
  destruct (Z.eq_dec c C) as [->|N].
  2:{ eapply txok_wrote; [exact T' | exact W | | exact NC]. intros v e Hv [X _]. apply docKey_has_prefix in X; [congruence | assumption..]. }
  destruct (Ac eq_refl) as (Fi & Am).
  assert (WT : (forall v e, is_i64 v -> op_may C o (docKey C v) (Some e) -> held g j v) -> txok g fns j (with_t (ReferredCollections x [C]) t)).
  { intros H. eapply txok_wrote; [exact T' | exact W | exact H | exact NC]. }
  assert (KV : forall v did, is_i64 v -> is_i64 did -> docKey C v = docKey C did -> v = did) by (intros v did Hv Hd H; apply docKey_inj in H; tauto).
  destruct o as [did data|did data|did data|did|did|dids| | | |]; cbn [op_ids] in Fi; try (apply WT; intros v e Hv [_ X]; cbn in X; (discriminate || contradiction)).
  - assert (Hd : is_i64 did) by (inversion Fi; assumption). destruct (update_existing _ _ _ _ _ _ E) as [P|P].
    + eapply (txok_wrote (fun _ _ => False)); [exact T' | | intros v e Hv [] | intros o []]. apply wrote_pend; [apply W | apply W | apply W | exact P].
    + apply WT. intros v e Hv [_ X]. cbn in X. apply KV in X; [|assumption..]. subst v. exact (view_held _ _ _ _ did T' Hd P).
  - assert (Hd : is_i64 did) by (inversion Fi; assumption). apply WT. intros v e Hv [_ X]. cbn in X. apply KV in X; [|assumption..]. subst v.
    destruct Am as [Am|Am]; [left; exact Am | exact (view_held _ _ _ _ did T Hd Am)].
  - assert (Hd : is_i64 did) by (inversion Fi; assumption). apply WT. intros v e Hv [_ X]. cbn in X. apply KV in X; [|assumption..]. subst v.
    destruct Am as [Am|Am]; [left; exact Am | exact (view_held _ _ _ _ did T Hd Am)].
Qed.

(** ** Steps *)
Lemma store_same g m m' : (forall v, get m' (docKey C v) = get m (docKey C v)) -> store_ok g m -> store_ok g m'.
Proof. intros E H v e Hv X. rewrite E in X. exact (H v e Hv X). Qed.
Lemma store_gle J g g' m : gle J g g' -> store_ok g m -> store_ok g' m.
Proof. intros G H v e Hv X. apply (gl_settled _ _ _ G). exact (H v e Hv X). Qed.
Lemma qstep_frame rem w used c e k : qinv One B L c0 rem w used c -> (forall x, ~ meta_key k x) ->
  match e with QForeign _ _ => False | _ => True end -> get (d_kv (qw_db (fst (qstep L w e)))) k = get (d_kv (qw_db w)) k.
Proof.
  intros I N F. destruct e as [i k0|i lim io|i vs|who|t io|n]; cbn [qstep]; try contradiction; try reflexivity.
  - destruct (qw_call w i); [reflexivity|]. destruct k0, (qw_seq w i); reflexivity.
  - destruct (qw_call w i) as [[d0 [bw|o]]|] eqn:Hc; [| |reflexivity].
    + pose proof (newSeq_frame d0 (qw_db w) lim io L bw k N) as H. destruct (newSeq d0 (qw_db w) lim io L bw) as [[d s] r]. exact H.
    + destruct (qw_seq w i) as [s|]; [|reflexivity]. destruct (qi_call _ _ _ _ _ _ _ _ I i d0 _ Hc) as (_ & _ & _ & Ho).
      assert (NC : o <> QClear) by (intros ->; exact Ho). pose proof (q_exec_frame d0 (qw_db w) lim io s o k N NC) as H.
      destruct (q_exec d0 (qw_db w) lim io s o) as [[d s'] r]. exact H.
  - destruct (qw_call w i), (qw_seq w i); reflexivity.
Qed.
Lemma inv_drop rem w g used c : 0 <= rem -> iinv (rem + 1) w g used c -> iinv rem w g used c.
Proof. intros R [I1 I2 I3 I4 I5 I6 I7]. split; try assumption. apply (inv_rem One B L c0 HB); assumption. Qed.
(** a step of the allocators that touches no document and puts nothing back *)
Lemma inv_qstep rem w g used c e ins : 0 <= rem -> iinv (rem + 1) w g used c -> allowed One B L (iw_q w) used e ->
  match e with QPut _ _ => False | _ => True end ->
  (forall v, get (d_kv (qw_db (fst (qstep L (iw_q w) e)))) (docKey C v) = get (d_kv (qw_db (iw_q w))) (docKey C v)) ->
  exists used' c', iinv rem (IW (fst (qstep L (iw_q w) e)) (iw_tx w) ins (iw_fn w) (iw_back w)) g used' c'.
Proof.
  intros R [I1 I2 I3 I4 I5 I6 I7] A NP F. destruct (step_inv One B L c0 HB rem (iw_q w) used c e R I1 A) as (_ & c' & Q).
  assert (U : used_after used e (snd (qstep L (iw_q w) e)) = ids_of (snd (qstep L (iw_q w) e)) ++ used) by (destruct e; [reflexivity.. | contradiction | reflexivity | reflexivity | reflexivity]).
  rewrite U in Q. eexists _, c'. split; cbn [iw_q iw_tx iw_fn iw_back]; [exact Q | exact I2 | | exact I4 | eapply store_same; [exact F | exact I5] | exact I6 |].
  - intros v Hv. apply in_or_app. right. exact (I3 v Hv).
  - destruct I7 as [I7 I8]. split; [exact I7|]. intros v Hv. destruct (I8 v Hv) as [X1 X2]. split; [apply in_or_app; right; exact X1 | exact X2].
Qed.
(** replacing a transaction, ghost unchanged *)
Lemma inv_tx rem w g used c j x x' fns : iinv rem w g used c -> iw_tx w j = Some x -> (forall i y, txok g (iw_fn w) i y -> txok g fns i y) -> txok g fns j x' ->
  iinv rem (IW (iw_q w) (fupd (iw_tx w) j (Some x')) (iw_ins w) fns (iw_back w)) g used c.
Proof.
  intros [I1 I2 I3 I4 I5 I6 I7] Hj Hf T. split; cbn [iw_q iw_tx iw_fn iw_back]; try assumption.
  - intros i. destruct (Nat.eq_dec i j) as [->|E]; [rewrite fupd_eq; discriminate | rewrite fupd_ne by exact E; apply I4].
  - intros i y. destruct (Nat.eq_dec i j) as [->|E]; [rewrite fupd_eq; intros X; inversion X; subst; exact T | rewrite fupd_ne by exact E; intros X; apply Hf, I6; exact X].
Qed.
(** a transaction goes away, its ids stay *)
Lemma inv_end rem w g used c j : iinv rem w g used c -> iinv rem (with_tx w j None) (IG (g_taken g) (nset (g_mine g) j [])) used c.
Proof.
  intros [I1 I2 I3 I4 I5 I6 I7]. pose proof (gle_end g j) as G. split; cbn [with_tx iw_q iw_tx iw_fn iw_back]; try assumption.
  - apply gwf_end. exact I2.
  - intros i. cbn [g_mine]. destruct (Nat.eq_dec i j) as [->|E]; [rewrite nset_eq; reflexivity | rewrite nset_ne by exact E; rewrite fupd_ne by exact E; apply I4].
  - eapply store_gle; [exact G | exact I5].
  - intros i y. destruct (Nat.eq_dec i j) as [->|E]; [rewrite fupd_eq; discriminate | rewrite fupd_ne by exact E; intros X].
    eapply txok_gle; [exact G | exact E | apply I6; exact X].
Qed.
Lemma txok_new g fns j h d upd lim : store_ok g (d_kv d) -> g_mine g j = [] -> txok g fns j (NewTxn h d upd lim).
Proof.
  intros S M. split; cbn [NewTxn dt_t dt_upd dt_cancels new_txn t_snap t_pend t_upd]; try reflexivity.
  - exact S.
  - intros v e _. rewrite get_empty. discriminate.
  - apply Forall_nil.
  - rewrite M. reflexivity.
  - auto.
Qed.
Lemma foreign_docs v o : ~ foreign_key C L (docKey C v) o.
Proof. intros [H _]. rewrite docKey_self in H. discriminate. Qed.
Lemma dcommit_store h d io x h' d' x' r ran : dcommit h d io x = (h', d', x', r, ran) ->
  d' = d \/ (r = Ok tt /\ exists t', commit d (dt_t x) io = (d', t', Ok tt)).
Proof.
  unfold dcommit. destruct (negb (dt_upd x)); [intros E; inversion E; auto|].
  destruct (Check h false (dt_start x) (dt_refs x)) as [h1 [[|]| |]]; try (intros E; inversion E; auto; fail).
  destruct (commit d (dt_t x) io) as [[d1 t1] [[]|e|]] eqn:Cm; intros E; inversion E; subst; [right; eauto | | ].
  - left. destruct (commit_cases _ _ _ _ _ _ Cm) as [(X & _)|[_ X]]; [discriminate | exact X].
  - left. destruct (commit_cases _ _ _ _ _ _ Cm) as [(X & _)|[_ X]]; [discriminate | exact X].
Qed.
Lemma eta_q q : QW (qw_db q) (qw_seq q) (qw_call q) = q.
Proof. destruct q. reflexivity. Qed.
Lemma drop_nth_in {A} (l : list A) : forall n x, In x (drop_nth n l) -> In x l.
Proof. induction l as [|a l IH]; intros [|n] x; cbn; [intros [] | intros [] | auto | intros [->|H]; [auto | right; exact (IH n x H)]]. Qed.
Lemma drop_nth_map {A A2} (f : A -> A2) (l : list A) : forall n, map f (drop_nth n l) = drop_nth n (map f l).
Proof. induction l as [|a l IH]; intros [|n]; cbn; try reflexivity. rewrite IH. reflexivity. Qed.
Lemma drop_nth_nodup {A} (l : list A) : forall n x, NoDup l -> nth_error l n = Some x -> NoDup (drop_nth n l) /\ ~ In x (drop_nth n l).
Proof.
  induction l as [|a l IH]; intros [|n] x ND E; cbn in *; try discriminate; inversion ND; subst.
  - inversion E. subst. auto.
  - destruct (IH n x H2 E) as [X1 X2]. split.
    + constructor; [intros H; apply H1; exact (drop_nth_in _ _ _ H) | exact X1].
    + intros [->|H]; [apply H1; eapply nth_error_In; exact E | contradiction].
Qed.
Lemma nodup_join {A} (l m : list A) : NoDup l -> (forall x, In x l -> ~ In x m) -> NoDup m -> NoDup (l ++ m).
Proof.
  induction l as [|a l IH]; intros N D M; [exact M|]. inversion N. subst. cbn [app]. constructor.
  - intros H. apply in_app_or in H. destruct H as [H|H]; [contradiction | exact (D a (or_introl eq_refl) H)].
  - apply IH; [assumption | intros x Hx; apply D; right; exact Hx | exact M].
Qed.
Definition fresh_id (used : list Z) (o : iobs) : Prop := forall j did, got_id o = Some (j, did) -> c0 < did /\ is_i64 did /\ ~ In did used.
Lemma tset_ro k v t : t_upd t = false -> exists e, tset k v t = (t, Err e).
Proof. intros H. unfold tset, tsetm, map_err, modify. cbn [entry_of]. rewrite H. cbn [negb]. eexists. reflexivity. Qed.
Lemma insert_inv rem w g used c i lim io : 0 <= rem -> iinv (rem + 1) w g used c ->
  let '(w', o) := istep C L w (EInsertEnd i lim io) in fresh_id used o /\ exists used' c', iinv rem w' (gstep g o) used' c'.
Proof.
  intros R I. pose proof (inv_drop rem w g used c R I) as I0. cbn [istep].
  assert (NOP : fresh_id used INone /\ exists used' c', iinv rem w g used' c') by (split; [discriminate | eauto]).
  destruct (iw_ins w i) as [a|]; [|exact NOP]. destruct (qw_call (iw_q w) i) as [[d0 [bw|[| | | | |]]]|] eqn:Hc; try exact NOP.
  destruct (qw_seq (iw_q w) i) as [s|] eqn:Hs; [|exact NOP]. destruct (iw_tx w (na_j a)) as [x|] eqn:Hx; [|exact NOP].
  destruct (resolve (dt_start x) (na_db a) (na_coll a)) as [cc|] eqn:Rs; [|exact NOP]. destruct (cc =? C) eqn:Ec; [|exact NOP]. apply Z.eqb_eq in Ec. subst cc. cbn [negb].
  unfold insertFunc. rewrite Rs. unfold zupd at 1. rewrite Z.eqb_refl. set (j := na_j a) in *.
  set (x1 := if na_mark a then ReferredCollections x [C] else x).
  destruct (q_exec d0 (qw_db (iw_q w)) lim io s QNext) as [[sd q'] rq] eqn:E.
  pose proof (ii_q _ _ _ _ _ I) as Q.
  assert (QE : qstep L (iw_q w) (QEnd i lim io) = (QW sd (fupd (qw_seq (iw_q w)) i (Some q')) (fupd (qw_call (iw_q w)) i None), Some rq)) by (cbn [qstep]; rewrite Hc, Hs, E; reflexivity).
  assert (AL : allowed One B L (iw_q w) used (QEnd i lim io)) by (cbn [allowed]; intros d1 n s1 X; rewrite Hc in X; discriminate).
  destruct (step_inv One B L c0 HB rem (iw_q w) used c _ R Q AL) as (Fr & c' & Q'). rewrite QE in Fr, Q'. cbn [fst snd used_after] in Fr, Q'.
  assert (DOC : forall v, get (d_kv sd) (docKey C v) = get (d_kv (qw_db (iw_q w))) (docKey C v)).
  { intros v. pose proof (qstep_frame _ _ _ _ (QEnd i lim io) (docKey C v) Q (docKey_not_meta C v) Logic.I) as H. rewrite QE in H. exact H. }
  assert (ZU : forall o, zupd (zupd (fun _ : Z => None) C (Some s)) C o C = o) by (intros o; unfold zupd; rewrite Z.eqb_refl; reflexivity).
  pose proof (ii_tx _ _ _ _ _ I j x Hx) as T.
  assert (T1 : txok g (iw_fn w) j x1) by (unfold x1; destruct (na_mark a); [apply txok_refs | ]; exact T).
  destruct I0 as [_ I2 I3 I4 I5 I6 [I7 I8]].
  (* without a new id for a transaction *)
  assert (KEEP : forall fn x' o, txok g (iw_fn w) j x' -> got_id o = None -> (match o with IIns _ _ _ => True | _ => False end) -> fresh_id used o /\ exists used' c', iinv rem
     (IW (QW sd (fupd (qw_seq (iw_q w)) i (Some q')) (fupd (qw_call (iw_q w)) i None)) (fupd (iw_tx w) j (Some x')) (fupd (iw_ins w) i None) (iw_fn w ++ [fn]) (iw_back w)) (gstep g o) used' c').
  { intros fn x' o Tx Gn Go. split; [intros ? ? X; congruence|]. exists (ids_of (Some rq) ++ used), c'.
    assert (Gs : gstep g o = g) by (destruct o; try contradiction; cbn [gstep]; rewrite Gn; reflexivity). rewrite Gs.
    split; cbn [iw_q iw_tx iw_fn iw_back qw_db].
    - exact Q'.
    - exact I2.
    - intros v Hv. apply in_or_app. right. exact (I3 v Hv).
    - intros k. destruct (Nat.eq_dec k j) as [->|N]; [rewrite fupd_eq; discriminate | rewrite fupd_ne by exact N; apply I4].
    - eapply store_same; [exact DOC | exact I5].
    - intros k y. destruct (Nat.eq_dec k j) as [->|N]; [rewrite fupd_eq; intros X; inversion X; subst y; apply txok_fns; exact Tx | rewrite fupd_ne by exact N; intros X; apply txok_fns, I6; exact X].
    - split; [exact I7|]. intros v Hv. destruct (I8 v Hv) as [X1 X2]. split; [apply in_or_app; right; exact X1 | exact X2]. }
  destruct rq as [[|did|rl]|e|].
  - cbv beta iota. rewrite ZU. apply KEEP; [exact T1 | reflexivity | exact Logic.I].
  - (* an id *)
    cbn [ids_of] in Fr, Q'. destruct Fr as [_ Fr]. specialize (Fr did (or_introl eq_refl)).
    pose proof (qi_used _ _ _ _ _ _ _ _ Q' did (or_introl eq_refl)) as Rd. pose proof (qi_range _ _ _ _ _ _ _ _ Q') as Rg.
    assert (Hd : is_i64 did) by (unfold is_i64; nia). assert (Nz : (did =? 0) = false) by lia.
    assert (Nt : ~ In did (g_taken g)) by (intros X; exact (Fr (I3 did X))).
    destruct (tset (docKey C did) (na_data a) (dt_t x1)) as [t r] eqn:Et.
    assert (U1 : dt_upd x1 = dt_upd x) by (unfold x1; destruct (na_mark a); reflexivity).
    assert (Tt : t_upd (dt_t x1) = dt_upd x1) by apply T1.
    unfold AddCancelFunc. cbn [with_t dt_upd dt_t dt_start dt_refs dt_cancels]. destruct (dt_upd x1) eqn:Up; cbn [negb].
    + (* registered *)
      assert (Wt : wrote (fun k _ => k = docKey C did) (dt_t x1) t) by (eapply wr_tset; [|exact Et]; reflexivity).
      rewrite ZU. assert (Gi : got_id (IIns j did (match (Ok tt : result unit) with Panic => Panic | _ => r end)) = Some (j, did)).
      { destruct (tset_post _ _ _ _ _ Et) as [(-> & _)|(e & -> & _)]; cbn [got_id]; rewrite Nz; reflexivity. }
      split; [intros j' did' X; rewrite Gi in X; inversion X; subst; split; [lia | split; [exact Hd | exact Fr]]|].
      exists (did :: used), c'. cbn [gstep]. rewrite Gi.
      pose proof (gle_insert g j did I2 Nt) as G. pose proof (gwf_insert g j did I2 Nt) as W'.
      set (g' := IG (did :: g_taken g) (nset (g_mine g) j (did :: g_mine g j))) in *.
      split; cbn [iw_q iw_tx iw_fn iw_back qw_db].
      * exact Q'.
      * exact W'.
      * intros v [->|Hv]; [left; reflexivity | right; exact (I3 v Hv)].
      * intros k. destruct (Nat.eq_dec k j) as [->|N]; [rewrite fupd_eq; discriminate|]. rewrite fupd_ne by exact N. intros X. rewrite (gl_mine _ _ _ G k N). apply I4. exact X.
      * eapply store_gle; [exact G|]. eapply store_same; [exact DOC | exact I5].
      * intros k y. destruct (Nat.eq_dec k j) as [->|N].
        2:{ rewrite fupd_ne by exact N. intros X. apply txok_fns. eapply txok_gle; [exact G | exact N | apply I6; exact X]. }
        rewrite fupd_eq. intros X. inversion X. subst y. clear X.
        pose proof (proj1 Wt) as (Ws & _ & Wu). pose proof (proj2 Wt) as Wk.
        split; cbn [dt_t dt_upd dt_cancels].
        -- rewrite Ws. eapply store_gle; [exact G | apply T1].
        -- intros v e Hv He. assert (Hh : v = did \/ held g j v).
           { destruct (Wk (docKey C v)) as [Y|(o & _ & Y)]; [right; rewrite Y in He; exact (to_pend _ _ _ _ T1 v e Hv He) | left; apply docKey_inj in Y; tauto]. }
           destruct Hh as [->|[H|[H1 H2]]]; [right|left; exact H|right]; cbn [g' g_taken g_mine].
           ++ split; [left; reflexivity|]. intros j' N. rewrite nset_ne by exact N. intros X. exact (Nt (gw_incl _ I2 j' did X)).
           ++ split; [right; exact H1|]. intros j' N. rewrite nset_ne by exact N. apply H2. exact N.
        -- destruct (Wk (counter_key L)) as [Y|(o & _ & Y)]; [rewrite Y; apply T1|]. exfalso. pose proof (counter_not_doc C) as X. rewrite Y, docKey_self in X. discriminate.
        -- congruence.
        -- apply Forall_app. split; [eapply Forall_impl; [|exact (to_fns _ _ _ _ T1)]; intros f H; cbn beta in *; rewrite app_length; lia|].
           constructor; [|constructor]. rewrite app_length. cbn [length]. lia.
        -- rewrite closures_app, map_app, closures_grow by apply T1. rewrite (to_mine _ _ _ _ T1). unfold closures. cbn [flat_map].
           rewrite nth_error_app2, Nat.sub_diag by lia. cbn [nth_error app map snd g' g_mine]. rewrite nset_eq. reflexivity.
        -- congruence.
      * split; [exact I7|]. intros v Hv. destruct (I8 v Hv) as [X1 X2]. split; [right; exact X1|]. cbn [g' g_taken]. intros [->|X]; [exact (Fr X1) | exact (X2 X)].
    + rewrite ZU. destruct (tset_ro (docKey C did) (na_data a) (dt_t x1) Tt) as [e Er]. rewrite Er in Et. inversion Et. subst t r.
      apply KEEP; [|reflexivity | exact Logic.I]. replace (with_t x1 (dt_t x1)) with x1 by (destruct x1; reflexivity). exact T1.
  - cbv beta iota. rewrite ZU. apply KEEP; [exact T1 | reflexivity | exact Logic.I].
  - cbv beta iota. rewrite ZU. apply KEEP; [exact T1 | reflexivity | exact Logic.I].
  - cbv beta iota. rewrite ZU. apply KEEP; [exact T1 | reflexivity | exact Logic.I].
Qed.
Lemma commit_inv rem w g used c j h io : 0 <= rem -> iinv (rem + 1) w g used c ->
  let '(w', o) := istep C L w (ECommit j h io) in exists used' c', iinv rem w' (gstep g o) used' c'.
Proof.
  intros R I. pose proof (inv_drop rem w g used c R I) as I0. cbn [istep]. destruct (iw_tx w j) as [x|] eqn:Hx; [|eexists _, _; exact I0].
  destruct (dcommit h (qw_db (iw_q w)) io x) as [[[[h' d'] x'] r] ran] eqn:E.
  pose proof (dcommit_store _ _ _ _ _ _ _ _ _ E) as D. destruct (dcommit_fields _ _ _ _ _ _ _ _ _ E) as (_ & _ & _ & K). clear E.
  pose proof (ii_tx _ _ _ _ _ I j x Hx) as T. destruct I0 as [I1 I2 I3 I4 I5 I6 [I7 I8]].
  (* the store *)
  assert (QD : exists c', qinv One B L c0 rem (QW d' (qw_seq (iw_q w)) (qw_call (iw_q w))) used c').
  { destruct D as [->|(_ & t' & Cm)]; [rewrite eta_q; eauto|].
    destruct (step_inv One B L c0 HB rem (iw_q w) used c (QForeign (dt_t x) io) R (ii_q _ _ _ _ _ I) (to_counter _ _ _ _ T)) as (_ & c' & Q').
    cbn [qstep] in Q'. rewrite Cm in Q'. cbn [fst snd used_after ids_of app] in Q'. eauto. }
  destruct QD as (c' & Q').
  assert (GONE : forall i, nset (g_mine g) j [] i = [] \/ i <> j) by (intros i; destruct (Nat.eq_dec i j) as [->|N]; [left; apply nset_eq | auto]).
  destruct K as [((e & ->) & -> & _)|(Ne & -> & _)].
  - (* failed *)
    destruct D as [->|(X & _)]; [|discriminate]. pose proof (gle_fail g j I2) as G. exists used, c'. cbn [gstep]. fold (g_fail g j).
    assert (Bk : forall v, In v (map snd (closures (iw_fn w) (dt_cancels x))) <-> In v (g_mine g j)) by (intros v; rewrite (to_mine _ _ _ _ T); symmetry; apply in_rev).
    split; cbn [iw_q iw_tx iw_fn iw_back qw_db].
    + exact Q'.
    + apply gwf_fail. exact I2.
    + intros v Hv. cbn [g_fail g_taken] in Hv. apply in_filter_not in Hv. apply I3. tauto.
    + intros k. destruct (Nat.eq_dec k j) as [->|N]; [intros _; cbn [g_fail g_mine]; apply nset_eq|]. rewrite fupd_ne by exact N. rewrite (gl_mine _ _ _ G k N). apply I4.
    + eapply store_gle; [exact G | exact I5].
    + intros k y. destruct (Nat.eq_dec k j) as [->|N]; [rewrite fupd_eq; discriminate|]. rewrite fupd_ne by exact N. intros X. eapply txok_gle; [exact G | exact N | apply I6; exact X].
    + rewrite map_app. split.
      * apply nodup_join; [exact I7 | | rewrite (to_mine _ _ _ _ T); apply NoDup_rev, (gw_nodup _ I2)].
        intros v Hv Hm. apply Bk in Hm. exact (proj2 (I8 v Hv) (gw_incl _ I2 j v Hm)).
      * intros v Hv. apply in_app_or in Hv. cbn [g_fail g_taken]. rewrite in_filter_not. destruct Hv as [Hv|Hv].
        -- destruct (I8 v Hv) as [X1 X2]. split; [exact X1 | tauto].
        -- apply Bk in Hv. split; [apply I3; exact (gw_incl _ I2 j v Hv) | tauto].
  - (* not failed *)
    pose proof (gle_end g j) as G. exists used, c'.
    assert (Gs : gstep g (ICommit j r) = IG (g_taken g) (nset (g_mine g) j [])) by (destruct r as [a|e|]; [reflexivity | exfalso; exact (Ne e eq_refl) | reflexivity]). rewrite Gs.
    split; cbn [iw_q iw_tx iw_fn iw_back qw_db].
    + exact Q'.
    + apply gwf_end. exact I2.
    + exact I3.
    + intros k. destruct (Nat.eq_dec k j) as [->|N]; [intros _; cbn [g_mine]; apply nset_eq|]. rewrite fupd_ne by exact N. rewrite (gl_mine _ _ _ G k N). apply I4.
    + destruct D as [->|(_ & t' & Cm)]; [eapply store_gle; [exact G | exact I5]|]. destruct (commit_cases _ _ _ _ _ _ Cm) as [(_ & Kv & _)|[X _]]; [|congruence].
      intros v e Hv He. rewrite Kv in He. destruct (get (t_pend (dt_t x)) (docKey C v)) as [o|] eqn:P; [|apply (gl_settled _ _ _ G); exact (I5 v e Hv He)].
      subst o. destruct (to_pend _ _ _ _ T v e Hv P) as [H|[H1 H2]]; [left; exact H|]. right. split; [exact H1|]. intros k. cbn [g_mine].
      destruct (Nat.eq_dec k j) as [->|N]; [rewrite nset_eq; auto | rewrite nset_ne by exact N; apply H2; exact N].
    + intros k y. destruct (Nat.eq_dec k j) as [->|N]; [rewrite fupd_eq; discriminate|]. rewrite fupd_ne by exact N. intros X. eapply txok_gle; [exact G | exact N | apply I6; exact X].
    + unfold closures. cbn [flat_map]. rewrite app_nil_r. split; assumption.
Qed.
Lemma istep_inv rem w g used c e : 0 <= rem -> iinv (rem + 1) w g used c -> iallowed C L B c0 w e ->
  let '(w', o) := istep C L w e in fresh_id used o /\ exists used' c', iinv rem w' (gstep g o) used' c'.
Proof.
  intros R I A. pose proof (inv_drop rem w g used c R I) as I0.
  assert (NOP : fresh_id used INone /\ exists used' c', iinv rem w g used' c') by (split; [discriminate | eauto]).
  assert (FR : forall o, got_id o = None -> fresh_id used o) by (intros o H j did X; congruence).
  destruct e as [j h upd lim|j dbn coll o|j m|j|j i mark dbn coll data|i lim io|j h io|j|n|e|t io| |n].
  - cbn [istep]. destruct (iw_tx w j) eqn:Hx; [exact NOP|]. split; [apply FR; reflexivity|]. exists used, c. cbn [gstep].
    destruct I0 as [I1 I2 I3 I4 I5 I6 I7]. split; cbn [with_tx iw_q iw_tx iw_fn iw_back]; try assumption.
    + intros k. destruct (Nat.eq_dec k j) as [->|N]; [rewrite fupd_eq; discriminate | rewrite fupd_ne by exact N; apply I4].
    + intros k y. destruct (Nat.eq_dec k j) as [->|N]; [rewrite fupd_eq; intros X; inversion X; subst y | rewrite fupd_ne by exact N; apply I6].
      apply txok_new; [exact I5 | apply I4; exact Hx].
  - cbn [istep iallowed] in *. destruct (iw_tx w j) as [x|] eqn:Hx; [|exact NOP]. split; [apply FR; reflexivity|]. exists used, c. cbn [gstep].
    eapply inv_tx; [exact I0 | exact Hx | auto|]. apply txok_op; [exact (ii_tx _ _ _ _ _ I j x Hx)|]. intros cc Hr. exact (A x cc eq_refl Hr).
  - cbn [istep iallowed] in *. destruct (iw_tx w j) as [x|] eqn:Hx; [|exact NOP]. split; [apply FR; reflexivity|]. exists used, c. cbn [gstep].
    eapply inv_tx; [exact I0 | exact Hx | auto|]. destruct (m (dt_t x)) as [t r] eqn:E. cbn [fst].
    eapply txok_wrote; [exact (ii_tx _ _ _ _ _ I j x Hx) | exact (A _ _ _ E) | intros v e Hv X; exfalso; exact (foreign_docs v _ X) | intros o [_ X]; congruence].
  - cbn [istep]. destruct (iw_tx w j) as [x|] eqn:Hx; [|exact NOP]. split; [apply FR; reflexivity|]. exists used, c. cbn [gstep].
    pose proof (ii_tx _ _ _ _ _ I j x Hx) as T. eapply inv_tx; [exact I0 | exact Hx | intros; apply txok_fns; assumption|].
    unfold AddCancelFunc. destruct (dt_upd x) eqn:Up; cbn [negb fst]; [|apply txok_fns; exact T].
    pose proof (txok_fns _ _ None _ _ T) as [T1 T2 T3 T4 T5 T6 T7]. split; cbn [dt_t dt_upd dt_cancels]; try assumption.
    + congruence.
    + apply Forall_app. split; [exact T5|]. constructor; [|constructor]. rewrite app_length. cbn [length]. lia.
    + rewrite closures_app, map_app, T6. unfold closures. cbn [flat_map]. rewrite nth_error_app2, Nat.sub_diag by lia. cbn [nth_error app map]. apply app_nil_r.
    + congruence.
  - cbn [istep]. destruct (qw_call (iw_q w) i) eqn:Hc; [exact NOP|]. destruct (qw_seq (iw_q w) i) eqn:Hs; [|exact NOP]. split; [apply FR; reflexivity|]. cbn [gstep].
    apply (inv_qstep rem w g used c (QBegin i (COp QNext))); try assumption; try exact Logic.I. intros v. eapply qstep_frame; [exact (ii_q _ _ _ _ _ I) | apply docKey_not_meta | exact Logic.I].
  - apply (insert_inv rem w g used c); assumption.
  - pose proof (commit_inv rem w g used c j h io R I) as H. cbn [istep] in *. destruct (iw_tx w j) as [x|]; [|exact NOP].
    destruct (dcommit h (qw_db (iw_q w)) io x) as [[[[h' d'] x'] r] ran]. split; [apply FR; reflexivity | exact H].
  - cbn [istep]. split; [apply FR; reflexivity|]. exists used, c. cbn [gstep]. apply inv_end. exact I0.
  - cbn [istep]. destruct (nth_error (iw_back w) n) as [[i v]|] eqn:Hn; [|exact NOP]. destruct (qw_call (iw_q w) i) eqn:Hc; [exact NOP|]. destruct (qw_seq (iw_q w) i) as [s|] eqn:Hs; [|exact NOP].
    split; [apply FR; reflexivity|]. cbn [gstep]. pose proof (map_nth_error snd _ _ Hn) as Hv. cbn [snd] in Hv. destruct (ii_back _ _ _ _ _ I) as [B1 B2].
    destruct (B2 v (nth_error_In _ _ Hv)) as [Vu Vt].
    assert (AL : allowed One B L (iw_q w) used (QPut i [v])) by (split; [constructor; [intros [] | constructor] | intros u [<-|[]]; exact Vu]).
    destruct (step_inv One B L c0 HB rem (iw_q w) used c _ R (ii_q _ _ _ _ _ I) AL) as (_ & c' & Q').
    eexists _, c'. destruct I0 as [I1 I2 I3 I4 I5 I6 I7]. split; cbn [iw_q iw_tx iw_fn iw_back].
    + exact Q'.
    + exact I2.
    + cbn [qstep]. rewrite Hc, Hs. cbn [snd used_after]. intros u Hu. apply in_filter_not. split; [exact (I3 u Hu)|]. intros [->|[]]. contradiction.
    + exact I4.
    + eapply store_same; [|exact I5]. intros u. eapply qstep_frame; [exact (ii_q _ _ _ _ _ I) | apply docKey_not_meta | exact Logic.I].
    + exact I6.
    + destruct (drop_nth_nodup _ _ _ B1 Hv) as [X1 X2]. rewrite drop_nth_map. split; [exact X1|]. intros u Hu. destruct (B2 u (drop_nth_in _ _ _ Hu)) as [Y1 Y2]. split; [|exact Y2].
      cbn [qstep]. rewrite Hc, Hs. cbn [snd used_after]. apply in_filter_not. split; [exact Y1|]. intros [->|[]]. contradiction.
  - cbn [iallowed] in A.
    assert (GO : match e with QBegin _ _ | QEnd _ _ _ => True | _ => False end -> allowed One B L (iw_q w) [] e -> fresh_id used INone /\ exists used' c', iinv rem (with_q w (fst (qstep L (iw_q w) e))) (gstep g INone) used' c').
    { intros H1 H2. split; [apply FR; reflexivity|]. cbn [gstep]. apply (inv_qstep rem w g used c e); try assumption.
      - destruct e; try contradiction; exact H2.
      - destruct e; try contradiction; exact Logic.I.
      - intros v. eapply qstep_frame; [exact (ii_q _ _ _ _ _ I) | apply docKey_not_meta | destruct e; try contradiction; exact Logic.I]. }
    cbn [istep]. destruct e as [i k|i lim io|i vs|who|t io|n]; try contradiction; [apply (GO Logic.I A)|]. destruct (iw_ins w i); [exact NOP | exact (GO Logic.I A)].
  - cbn [istep iallowed] in *. destruct A as [A1 A2]. split; [apply FR; reflexivity|]. cbn [gstep]. apply (inv_qstep rem w g used c (QForeign t io)); try assumption; try exact Logic.I.
    intros v. cbn [qstep]. destruct (commit (qw_db (iw_q w)) t io) as [[d' t'] r'] eqn:Cm. cbn [fst qw_db].
    destruct (commit_cases _ _ _ _ _ _ Cm) as [(_ & Kv & _)|[_ ->]]; [rewrite Kv, A2; reflexivity | reflexivity].
  - cbn [istep]. split; [apply FR; reflexivity|].
    destruct (step_inv One B L c0 HB rem (iw_q w) used c (QCrash (fun _ => true)) R (ii_q _ _ _ _ _ I) Logic.I) as (_ & c' & Q'). cbn [qstep snd used_after ids_of app] in Q'.
    exists used, c'. destruct I0 as [I1 I2 I3 I4 I5 I6 I7]. split; cbn [iw_q iw_tx iw_fn iw_back gstep g_taken g_mine]; try assumption.
    + split; cbn [g_mine g_taken]; [constructor | intros ? ? [] | intros ? ? ? _ []].
    + intros; reflexivity.
    + intros v e Hv He. destruct (I5 v e Hv He) as [H|[H1 H2]]; [left; exact H | right; split; [exact H1 | auto]].
    + discriminate.
    + split; [constructor | intros v []].
  - cbn [istep]. split; [apply FR; reflexivity|]. cbn [gstep]. apply (inv_qstep rem w g used c (QTick n)); try assumption; try exact Logic.I. intros v. reflexivity.
Qed.
Lemma irun_inv es : forall rem w g used c, 0 <= rem -> iinv (rem + Z.of_nat (length es)) w g used c -> icallers_ok C L B c0 w es ->
  ids_fresh g (snd (irun C L w es)) /\ exists used' c', iinv rem (fst (irun C L w es)) (fold_left gstep (snd (irun C L w es)) g) used' c'.
Proof.
  induction es as [|e es IH]; intros rem w g used c R I A.
  - cbn [length] in I. replace (rem + Z.of_nat 0) with rem in I by lia. split; [exact Logic.I | eauto].
  - cbn [length] in I. replace (rem + Z.of_nat (S (length es))) with (rem + Z.of_nat (length es) + 1) in I by lia. destruct A as [A1 A2].
    pose proof (istep_inv (rem + Z.of_nat (length es)) w g used c e ltac:(lia) I A1) as H. cbn [irun]. destruct (istep C L w e) as [w1 o] eqn:E. cbn [fst] in A2.
    destruct H as (F & u1 & c1 & I1). destruct (IH rem w1 (gstep g o) u1 c1 R I1 A2) as (N & F2). destruct (irun C L w1 es) as [w2 os]. cbn [fst snd ids_fresh fold_left] in *.
    split; [split; [|exact N] | exact F2]. intros j did X Y. destruct (F j did X) as (_ & _ & Z). apply Z. exact (ii_taken _ _ _ _ _ I did Y).
Qed.
End inv.
