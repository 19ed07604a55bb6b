(** C76, C77 and the rest of C68: the index catalogue of the older document package. *)
From Verif Require Import Bytes SMap Memcmp MemcmpProofs KeyModel Compact Provider ProviderProofs World Numeric UtilTxn TxPost Sequence SequenceProofs OldSequence DocKeys P_DocKeys OldDoc InsertWorld DdlSys OldInsert OldIndex OldIndexProofs OldIndexRun OldIndexMem.
From Coq Require Import Sorted.

Definition no_cat : cat := fun _ _ => None.
(** the store has no index yet, its index id counter is at c0, and n steps do not exhaust int64 *)
Definition good_start76 (d : db) (c0 : Z) (n : nat) : Prop := db_ok d /\ ocell reservedKeywordIndex d c0 /\ 0 <= c0 /\ c0 + 50 * Z.of_nat n < two63 /\ no_index d.
Lemma allowed_split bm bu strict e es : forall C w, xallowed bm bu strict C w (es ++ [e]) ->
  xallowed bm bu strict C w es /\ x_allowed strict (cat_after C (snd (xrun bm bu w es))) (fst (xrun bm bu w es)) e.
Proof.
  induction es as [|x es IH]; intros C w A; cbn [app xallowed xrun fst snd cat_after fold_left] in *; [tauto|]. destruct A as [A1 A2]. destruct (IH _ _ A2) as [B1 B2].
  destruct (xstep bm bu w x) as [w1 o]. cbn [fst snd] in *. destruct (xrun bm bu w1 es). cbn [fst snd fold_left] in *. auto.
Qed.
Lemma start76 bm bu (OK : bson_ok bm bu) strict d c0 es rem : good_start76 d c0 (rem + length es) -> xallowed bm bu strict no_cat (xstart d) es ->
  exists used c R, xinv bm strict (Z.of_nat rem) (fst (xrun bm bu (xstart d) es)) used c R /\ cat_eq (cat_after no_cat (snd (xrun bm bu (xstart d) es))) (cat_of R).
Proof.
  intros (G1 & G2 & G3 & G4 & G5) A. apply (xrun_inv bm bu OK es strict (Z.of_nat rem) (xstart d) [] c0 (fun _ _ => None) no_cat); [lia | | intros c n _; reflexivity | exact A].
  apply xinv_start; try assumption; unfold indexIDBandWidth; lia.
Qed.

(** * C76 *)
(** After any history - any number of DB objects in any processes, crashes, failed commits, reopening - what a
    (re)opened collection reads from the store is exactly the indexes created and not dropped, with their
    definitions. *)
Theorem C76_stored_indexes_are_the_catalogue_partial : forall bm bu, bson_ok bm bu -> forall d c0 es cid,
  good_start76 d c0 (length es) -> xallowed bm bu false no_cat (xstart d) es -> is_i64 cid ->
  exists l, run_view (xw_db (fst (xrun bm bu (xstart d) es))) (getIndexes bu cid) = Ok l /\ listing (cat_after no_cat (snd (xrun bm bu (xstart d) es)) cid) l.
Proof.
  intros bm bu OK d c0 es cid G A Hc. destruct (start76 bm bu OK false d c0 es 0 G A) as (used & c & R & I & CE).
  destruct (getIndexes_lists bm bu OK _ R cid (xi_cat _ _ _ _ _ _ _ I) Hc) as (l & E & S & L). exists l. split; [exact E|]. split; [exact S|].
  intros x. rewrite (L x), (CE cid (i_name x) Hc). reflexivity.
Qed.
(** A CreateIndex that succeeds found no index on the same columns; DropIndex says whether the index existed. *)
Theorem C76_create_and_drop_tell_the_truth_partial : forall bm bu, bson_ok bm bu -> forall d c0 es e,
  good_start76 d c0 (S (length es)) -> xallowed bm bu false no_cat (xstart d) (es ++ [e]) ->
  let w := fst (xrun bm bu (xstart d) es) in let C := cat_after no_cat (snd (xrun bm bu (xstart d) es)) in
  match snd (xstep bm bu w e) with
  | XoCreate cid x (Ok _) => is_i64 cid -> forall n y, C cid n = Some y -> ~ same_columns x y
  | XoDrop cid n (Ok b) => is_i64 cid -> (b = true <-> exists x, C cid n = Some x)
  | _ => True
  end.
Proof.
  intros bm bu OK d c0 es e G A w C. destruct (allowed_split _ _ _ _ _ _ _ A) as [A1 A2]. destruct (start76 bm bu OK false d c0 es 1 G A1) as (used & c & R & I & CE).
  destruct (xstep_inv bm bu OK false 0 w used c R C e ltac:(lia) I CE A2) as (_ & _ & _ & _ & _ & SG & _). destruct (snd (xstep bm bu w e)) as [|cid x [iid|er|]|cid n [b|er|]]; try exact Logic.I; cbn [step_good] in SG.
  - intros Hc n y Hy. apply (SG n y). unfold C in Hy. rewrite <- (CE cid n Hc). exact Hy.
  - intros Hc. rewrite SG. unfold C. rewrite (CE cid n Hc). destruct (cat_of R cid n) as [x|]; split; try discriminate; [intros _; eauto | intros _; reflexivity | intros [x X]; discriminate].
Qed.
(** No two successful CreateIndex calls return the same id, ever. *)
Theorem C76_index_ids_never_repeat_partial : forall bm bu, bson_ok bm bu -> forall d c0 es,
  good_start76 d c0 (length es) -> xallowed bm bu false no_cat (xstart d) es -> NoDup (xids (snd (xrun bm bu (xstart d) es))).
Proof.
  intros bm bu OK d c0 es (G1 & G2 & G3 & G4 & G5) A.
  pose proof (xids_fresh bm bu OK es false 0 (xstart d) [] c0 (fun _ _ => None) no_cat [] ltac:(lia)) as F. rewrite app_nil_r in F. rewrite <- (rev_involutive (xids _)). apply NoDup_rev. apply F.
  - apply xinv_start; try assumption; unfold indexIDBandWidth; lia.
  - intros c n _. reflexivity.
  - exact A.
  - constructor.
  - intros v [].
Qed.

(** * C68, the store *)
Lemma ErrColumnsIndexed_inj a b : ErrColumnsIndexed a = ErrColumnsIndexed b -> a = b.
Proof. unfold ErrColumnsIndexed. intros E. inversion E as [E1]. apply app_inv_tail in E1. exact E1. Qed.
(** If no name is created again while in use, CreateIndex refuses exactly the columns that are indexed, and names
    the index. *)
Theorem C68_create_refuses_exactly_indexed_columns_partial : forall bm bu, bson_ok bm bu -> forall d c0 es i cid x lim v,
  good_start76 d c0 (S (length es)) -> xallowed bm bu true no_cat (xstart d) (es ++ [XCreate i cid x lim]) -> i_name x <> [] -> i_fields x <> [] ->
  let w := fst (xrun bm bu (xstart d) es) in let C := cat_after no_cat (snd (xrun bm bu (xstart d) es)) in
  snd (xstep bm bu w (XCreate i cid x lim)) = XoCreate cid x (Err (ErrColumnsIndexed v)) <-> exists y, C cid v = Some y /\ same_columns x y.
Proof.
  intros bm bu OK d c0 es i cid x lim v G A Nn Nf w C. destruct (allowed_split _ _ _ _ _ _ _ A) as [A1 (Hc & Sm & _)]. destruct (start76 bm bu OK true d c0 es 1 G A1) as (used & c & R & I & CE).
  pose proof (xi_cat _ _ _ _ _ _ _ I) as Ct. destruct (xi_orphan _ _ _ _ _ _ _ I eq_refl) as [B1 _]. fold w in Ct, B1.
  cbn [xstep]. destruct (i_name x) as [|b0 nm] eqn:En; [congruence|]. destruct (i_fields x) as [|f0 fs] eqn:Ef; [congruence|].
  set (k := columnsKey cid (i_fields x)).
  assert (CK : forall o, get (d_kv (xw_db w)) k = option_map mk o ->
    (snd match ci_check cid x (new_txn (xw_db w) true lim) with (t, Ok _) => (XW (xw_o w) (XC i cid x t :: xw_beg w) (xw_wait w) (xw_has w) (xw_drop w) (xw_todo w) (xw_mem w), XoNone) | (_, Err e) => (w, XoCreate cid x (Err e)) | (_, Panic) => (w, XoCreate cid x Panic) end
      = XoCreate cid x (Err (ErrColumnsIndexed v))) <-> o = Some v /\ v <> []).
  { intros o Go. unfold ci_check, try. destruct (tget (columnsKey cid (i_fields x)) (new_txn (xw_db w) true lim)) as [t1 r1] eqn:E1. apply tget_post in E1; [|reflexivity | apply columns_nonempty]. destruct E1 as [-> ->].
    fold k. rewrite (get_view_fresh (xw_db w) true lim _ o Go). destruct o as [v0|]; cbn [option_map mk e_val].
    - destruct v0 as [|a v0]; cbn [ret snd]; [split; [discriminate | intros [X Y]; congruence]|]. unfold fail. cbn [snd]. split; [|intros [X _]; inversion X; reflexivity].
      intros X. assert (X' : ErrColumnsIndexed (a :: v0) = ErrColumnsIndexed v) by congruence. apply ErrColumnsIndexed_inj in X'. subst v. split; [reflexivity | discriminate].
    - cbn [ret snd]. split; [discriminate | intros [X _]; discriminate]. }
  rewrite <- Ef in Sm. split.
  - intros E. destruct (get (d_kv (xw_db w)) k) as [e|] eqn:Gk.
    + destruct (B1 cid _ e Hc Sm Gk) as (n & j & y & Ry & Sc). destruct (ct_row _ _ _ Ct cid n j y Hc Ry) as (_ & _ & _ & _ & _ & Gc).
      assert (Ek : columnsKey cid (i_fields y) = k) by (unfold k, columnsKey; rewrite Sc; reflexivity). rewrite Ek in Gc.
      apply (CK (Some n)) in E; [|rewrite <- Gk; exact Gc]. destruct E as [E _]. inversion E. subst v. exists y. split; [|exact (eq_sym Sc)]. unfold C. rewrite (CE cid n Hc). unfold cat_of. rewrite Ry. reflexivity.
    + apply (CK None) in E; [destruct E; discriminate | reflexivity].
  - intros (y & Hy & Sc). unfold C in Hy. rewrite (CE cid v Hc) in Hy. unfold cat_of in Hy. destruct (R cid v) as [[j y']|] eqn:Ry; [|discriminate]. cbn in Hy. inversion Hy. subst y'.
    destruct (ct_row _ _ _ Ct cid v j y Hc Ry) as (_ & _ & Nv & _ & _ & Gc). apply (CK (Some v)); [|auto].
    assert (Ek : columnsKey cid (i_fields y) = k) by (unfold k, columnsKey; rewrite <- Sc; reflexivity). rewrite Ek in Gc. exact Gc.
Qed.
(** and no key of a dropped or replaced index is left behind *)
Theorem C68_no_orphan_keys_partial : forall bm bu, bson_ok bm bu -> forall d c0 es,
  good_start76 d c0 (length es) -> xallowed bm bu true no_cat (xstart d) es ->
  let kv := d_kv (xw_db (fst (xrun bm bu (xstart d) es))) in let C := cat_after no_cat (snd (xrun bm bu (xstart d) es)) in
  (forall cid l e, is_i64 cid -> small_names l -> get kv (columnsKey cid l) = Some e -> exists n y, C cid n = Some y /\ norm_fields (i_fields y) = norm_fields l /\ e = mk n) /\
  (forall cid n e, is_i64 cid -> get kv (indexNameKey cid n) = Some e -> exists y, C cid n = Some y) /\
  (forall iid e, is_i64 iid -> get kv (metaIndexKey iid) = Some e -> exists cid n y, is_i64 cid /\ C cid n = Some y /\ e = mk (bm y)).
Proof.
  intros bm bu OK d c0 es G A kv C. destruct (start76 bm bu OK true d c0 es 0 G A) as (used & c & R & I & CE). pose proof (xi_cat _ _ _ _ _ _ _ I) as Ct. destruct (xi_orphan _ _ _ _ _ _ _ I eq_refl) as [B1 B2]. fold kv in Ct, B1, B2.
  assert (CR : forall cid n j y, is_i64 cid -> R cid n = Some (j, y) -> C cid n = Some y) by (intros cid n j y Hc Ry; unfold C; rewrite (CE cid n Hc); unfold cat_of; rewrite Ry; reflexivity).
  split; [|split].
  - intros cid l e Hc Sl Gk. destruct (B1 cid l e Hc Sl Gk) as (n & j & y & Ry & Sc). exists n, y. split; [exact (CR cid n j y Hc Ry)|]. split; [exact Sc|].
    destruct (ct_row _ _ _ Ct cid n j y Hc Ry) as (_ & _ & _ & _ & _ & Gc). assert (Ek : columnsKey cid (i_fields y) = columnsKey cid l) by (unfold columnsKey; rewrite Sc; reflexivity). rewrite Ek in Gc. congruence.
  - intros cid n e Hc Gk. rewrite (ct_name _ _ _ Ct cid n Hc) in Gk. destruct (R cid n) as [[j y]|] eqn:Ry; [|discriminate]. exists y. exact (CR cid n j y Hc Ry).
  - intros iid e Hi Gk. destruct (B2 iid e Hi Gk) as (cid & n & y & Hc & Ry). exists cid, n, y. split; [exact Hc|]. split; [exact (CR cid n iid y Hc Ry)|].
    destruct (ct_row _ _ _ Ct cid n iid y Hc Ry) as (_ & _ & _ & _ & Gm & _). congruence.
Qed.

(** * C77 *)
(** the same index, up to the order of its columns (and the direction of a single column) *)
Definition same_def (x y : idef) : Prop := i_name x = i_name y /\ i_unique x = i_unique y /\ same_columns x y.
(** One object makes all index calls, each call updating the map right after its commit: whenever no update is
    pending, what its GetIndexes returns is the catalogue. *)
Theorem C77_get_indexes_is_the_catalogue_partial : forall bm bu, bson_ok bm bu -> forall d c0 i0 es cid f,
  good_start76 d c0 (length es) -> xallowed bm bu false no_cat (xstart d) es -> mallowed bm bu i0 (xstart d) es -> is_i64 cid ->
  let w := fst (xrun bm bu (xstart d) es) in let C := cat_after no_cat (snd (xrun bm bu (xstart d) es)) in
  xw_todo w = [] -> xw_mem w i0 cid = Some f ->
  forall n, match f n, C cid n with Some x, Some y => same_def x y | None, None => True | _, _ => False end.
Proof.
  intros bm bu OK d c0 i0 es cid f (G1 & G2 & G3 & G4 & G5) A Am Hc w C Td Mf n.
  assert (M : minv i0 w C).
  { apply (mrun_inv bm bu OK i0 es false 0 (xstart d) [] c0 (fun _ _ => None) no_cat no_cat ltac:(lia)); try assumption.
    - apply xinv_start; try assumption; unfold indexIDBandWidth; lia.
    - intros c k _. reflexivity.
    - intros c k _. reflexivity.
    - split; cbn [xstart xw_beg xw_wait xw_has xw_drop xw_todo]; try (intros; contradiction); try (intros; discriminate); left; reflexivity. }
  pose proof (mi_mem _ _ _ M cid f Hc) as E. unfold settled in E. rewrite Td in E. specialize (E Mf n). destruct (f n) as [x|], (C cid n) as [y|]; try discriminate E; [|exact Logic.I].
  cbn [option_map] in E. unfold normed in E. inversion E. split; [assumption|]. split; assumption.
Qed.

(** * A codec, to run the model *)
Fixpoint estr (s : bytes) : bytes := match s with [] => [Byte.x00] | b :: s' => Byte.x01 :: b :: estr s' end.
Fixpoint dstr (l : bytes) : option (bytes * bytes) :=
  match l with
  | Byte.x00 :: r => Some ([], r)
  | Byte.x01 :: b :: r => option_map (fun p => (b :: fst p, snd p)) (dstr r)
  | _ => None
  end.
Definition eb (b : bool) : Byte.byte := if b then Byte.x01 else Byte.x00.
Definition db_ (b : Byte.byte) : bool := match b with Byte.x00 => false | _ => true end.
Fixpoint efs (l : list field) : bytes := match l with [] => [Byte.x00] | f :: l' => Byte.x01 :: eb (f_desc f) :: estr (f_name f) ++ efs l' end.
Fixpoint dfs (fuel : nat) (l : bytes) : option (list field) :=
  match fuel, l with
  | S n, Byte.x01 :: b :: r => match dstr r with Some (s, r') => option_map (cons (Field s (db_ b))) (dfs n r') | None => None end
  | S n, [Byte.x00] => Some []
  | _, _ => None
  end.
Definition demo_bm (x : idef) : bytes := estr (i_name x) ++ eb (i_unique x) :: efs (i_fields x).
Definition demo_bu (l : bytes) : option idef :=
  match dstr l with Some (n, u :: r) => option_map (fun fs => IDef n fs (db_ u)) (dfs (length r) r) | _ => None end.
Lemma dstr_estr s r : dstr (estr s ++ r) = Some (s, r).
Proof. induction s as [|b s IH]; [reflexivity|]. cbn. rewrite IH. reflexivity. Qed.
Lemma db_eb b : db_ (eb b) = b.
Proof. destruct b; reflexivity. Qed.
Lemma dfs_efs l : forall fuel, (length l < fuel)%nat -> dfs fuel (efs l) = Some l.
Proof.
  induction l as [|[n b] l IH]; intros [|fuel] H; cbn [length] in H; try lia; [reflexivity|]. cbn [efs dfs f_desc f_name]. rewrite dstr_estr, db_eb, IH by lia. reflexivity.
Qed.
Lemma efs_length l : (length l < length (efs l))%nat.
Proof. induction l as [|f l IH]; [cbn; lia|]. cbn [efs length]. rewrite app_length. lia. Qed.
Lemma demo_ok : bson_ok demo_bm demo_bu.
Proof. intros [n fs u]. unfold demo_bu, demo_bm. cbn [i_name i_fields i_unique]. rewrite dstr_estr, dfs_efs by apply efs_length. cbn [option_map]. rewrite db_eb. reflexivity. Qed.

(** * Runs *)
Definition d76 : db := db_init 0 false.
Notation drun es := (xrun demo_bm demo_bu (xstart d76) es).
Definition fx : field := Field (str "x") false.
Definition fy : field := Field (str "y") true.
Definition open76 (i : nat) : list xev := [XNewDB i; XSeq i [] false].
Definition mk76 (i : nat) (n : bytes) (fs : list field) : list xev := [XCreate i 7 (IDef n fs true) []; XNext 0; XSeq i [] false; XPut 0 false].
Definition rm76 (i : nat) (n : bytes) : list xev := [XDrop i 7 n []; XDropPut 0 false].
Definition vis76 (os : list xobs) : list xobs := filter (fun o => match o with XoNone => false | _ => true end) os.
Lemma good76 n : Z.of_nat n < 1000000 -> good_start76 d76 0 n.
Proof.
  intros L. split; [apply db_ok_init|]. split; [left; split; [apply get_empty | reflexivity]|]. split; [lia|]. split; [rewrite two63_val; lia|].
  split; [intros c k _ _; apply get_empty|]. split; intros; apply get_empty.
Qed.
Lemma i7 : is_i64 7.
Proof. unfold is_i64; rewrite two63_val; lia. Qed.
Lemma smallxy : small_names [fx; fy] /\ small_names [fy; fx] /\ small_names [fx] /\ small_names [fy].
Proof. unfold small_names. repeat match goal with |- _ /\ _ => split end; repeat (constructor; [cbn [fx fy f_name]; rewrite two63_val; vm_compute; reflexivity|]); constructor. Qed.
(** the hypotheses on histories, checked by computation *)
Definition x_static (e : xev) : Prop :=
  match e with
  | XCreate _ cid x lim => is_i64 cid /\ small_names (i_fields x) /\ nth 1 lim false = false
  | XDrop _ cid _ _ | XOpen _ cid => is_i64 cid
  | XOther _ _ => False
  | _ => True
  end.
Fixpoint x_names (C : cat) (w : xworld) (es : list xev) : bool :=
  match es with
  | [] => true
  | e :: es' =>
      match e with XPut n _ => match nth_error (xw_has w) n with Some (c, _) => match C (xc_cid c) (i_name (xc_def c)) with None => true | Some _ => false end | None => true end | _ => true end
      && (let '(w', o) := xstep demo_bm demo_bu w e in x_names (cat_step C o) w' es')
  end.
Fixpoint m_ok (i0 : nat) (w : xworld) (es : list xev) : bool :=
  match es with
  | [] => true
  | e :: es' =>
      match e with
      | XCreate i _ _ _ | XDrop i _ _ _ => Nat.eqb i i0
      | XPut _ _ | XDropPut _ _ | XOpen _ _ => match xw_todo w with [] => true | _ => false end
      | _ => true
      end && m_ok i0 (fst (xstep demo_bm demo_bu w e)) es'
  end.
Lemma allowed_static strict es : Forall x_static es -> forall C w, (strict = true -> x_names C w es = true) -> xallowed demo_bm demo_bu strict C w es.
Proof.
  induction 1 as [|e es He _ IH]; intros C w N; cbn [xallowed]; [exact Logic.I|]. split.
  - destruct e; try exact He; try exact Logic.I; [|destruct He]. cbn [x_allowed]. intros St. specialize (N St). cbn [x_names] in N. apply andb_prop in N. destruct N as [N _].
    destruct (nth_error (xw_has w) n) as [[c j]|]; [|exact Logic.I]. destruct (C (xc_cid c) (i_name (xc_def c))); [discriminate | reflexivity].
  - apply IH. intros St. specialize (N St). cbn [x_names] in N. apply andb_prop in N. destruct N as [_ N]. destruct (xstep demo_bm demo_bu w e) as [w' o]. exact N.
Qed.
Lemma mallowed_ok i0 es : forall w, m_ok i0 w es = true -> mallowed demo_bm demo_bu i0 w es.
Proof.
  induction es as [|e es IH]; intros w N; cbn [mallowed]; [exact Logic.I|]. cbn [m_ok] in N. apply andb_prop in N. destruct N as [N1 N2]. split; [|apply IH; exact N2].
  destruct e; cbn [m_allowed]; try exact Logic.I; try (apply Nat.eqb_eq; exact N1); try (intros _); destruct (xw_todo w); try reflexivity; discriminate.
Qed.
Ltac static76 := repeat (constructor; [first [exact Logic.I | exact i7 | split; [exact i7 | split; [cbn [i_fields]; first [apply smallxy]|reflexivity]]]|]); constructor.
(** two processes; the second tries the columns of the first's index, indexes others, the first drops its index while
    the second is at it, then crashes, and a third drops a name twice *)
Definition run76 : list xev :=
  open76 0 ++ open76 1 ++ [XOpen 0 7] ++ mk76 0 (str "a") [fy; fx] ++ [XMem 0] ++ [XCreate 1 7 (IDef (str "b") [fx; fy] true) []] ++ mk76 1 (str "b") [fy] ++
  [XCreate 1 7 (IDef (str "c") [fx] false) []; XNext 0; XSeq 1 [] false] ++ rm76 0 (str "a") ++ [XMem 0; XMem 0; XPut 0 false; XCrash (fun i => Nat.eqb i 0)] ++ open76 2 ++ rm76 2 (str "c") ++ rm76 2 (str "c").
Example C76_nonvacuous : vis76 (snd (drun run76)) =
    [XoCreate 7 (IDef (str "a") [fy; fx] true) (Ok 1); XoCreate 7 (IDef (str "b") [fx; fy] true) (Err (ErrColumnsIndexed (str "a"))); XoCreate 7 (IDef (str "b") [fy] true) (Ok 51);
     XoDrop 7 (str "a") (Ok true); XoCreate 7 (IDef (str "c") [fx] false) (Ok 52); XoDrop 7 (str "c") (Ok true); XoDrop 7 (str "c") (Ok false)] /\
  run_view (xw_db (fst (drun run76))) (getIndexes demo_bu 7) = Ok [IDef (str "b") [fy] true] /\
  good_start76 d76 0 (S (length run76)) /\ xallowed demo_bm demo_bu true no_cat (xstart d76) run76.
Proof.
  split; [vm_compute; reflexivity|]. split; [vm_compute; reflexivity|]. split; [apply good76; cbn; lia|].
  apply allowed_static; [static76 | intros _; vm_compute; reflexivity].
Qed.
(** one process: create, drop, reopen *)
Definition run77 : list xev :=
  open76 0 ++ [XOpen 0 7] ++ mk76 0 (str "a") [fy; fx] ++ [XMem 0] ++ mk76 0 (str "b") [fx] ++ [XMem 0] ++ rm76 0 (str "a") ++ [XMem 0].
Example C77_nonvacuous : exists f, xw_mem (fst (drun run77)) 0%nat 7 = Some f /\ f (str "a") = None /\ f (str "b") = Some (IDef (str "b") [fx] true) /\
  good_start76 d76 0 (length run77) /\ xallowed demo_bm demo_bu false no_cat (xstart d76) run77 /\ mallowed demo_bm demo_bu 0 (xstart d76) run77 /\ xw_todo (fst (drun run77)) = [].
Proof.
  eexists. split; [vm_compute; reflexivity|]. split; [vm_compute; reflexivity|]. split; [vm_compute; reflexivity|]. split; [apply good76; cbn; lia|]. split.
  - apply allowed_static; [static76 | discriminate].
  - split; [|vm_compute; reflexivity]. apply mallowed_ok. vm_compute. reflexivity.
Qed.

(** * Refuted *)
(** C68: creating a name again, on other columns, leaves the key of the old columns behind: after the name is dropped
    there is no index, yet the old columns can not be indexed. *)
Definition run68 : list xev := open76 0 ++ mk76 0 (str "a") [fx] ++ mk76 0 (str "a") [fy] ++ rm76 0 (str "a").
Theorem C68_recreating_a_name_leaves_an_orphan_refuted :
  let w := fst (drun run68) in
  xallowed demo_bm demo_bu false no_cat (xstart d76) run68 /\
  vis76 (snd (drun run68)) = [XoCreate 7 (IDef (str "a") [fx] true) (Ok 1); XoCreate 7 (IDef (str "a") [fy] true) (Ok 2); XoDrop 7 (str "a") (Ok true)] /\
  (forall n, cat_after no_cat (snd (drun run68)) 7 n = None) /\ run_view (xw_db w) (getIndexes demo_bu 7) = Ok [] /\
  snd (xstep demo_bm demo_bu w (XCreate 0 7 (IDef (str "b") [fx] false) [])) = XoCreate 7 (IDef (str "b") [fx] false) (Err (ErrColumnsIndexed (str "a"))).
Proof.
  split.
  { apply allowed_static; [static76 | discriminate]. }
  split; [vm_compute; reflexivity|]. split; [|split; vm_compute; reflexivity].
  intros n. assert (E : snd (drun run68) = [XoNone; XoNone; XoNone; XoNone; XoNone; XoCreate 7 (IDef (str "a") [fx] true) (Ok 1); XoNone; XoNone; XoNone; XoCreate 7 (IDef (str "a") [fy] true) (Ok 2); XoNone; XoDrop 7 (str "a") (Ok true)]) by (vm_compute; reflexivity).
  rewrite E. cbn [cat_after fold_left cat_step]. unfold cat_set, no_cat. cbn [Z.eqb andb i_name]. destruct (bytes_eqb n (str "a")); reflexivity.
Qed.
(** C76: CreateIndex does not look at the error of its second Set. If the store refuses that one (say the name makes
    the key too long), CreateIndex reports success, yet the index is not listed on reopening, can not be dropped, and
    its columns can not be indexed. *)
Definition run76b : list xev := open76 0 ++ [XCreate 0 7 (IDef (str "a") [fx] true) [false; true]; XNext 0; XSeq 0 [] false; XPut 0 false].
Theorem C76_ignored_error_loses_the_index_refuted :
  let w := fst (drun run76b) in
  vis76 (snd (drun run76b)) = [XoCreate 7 (IDef (str "a") [fx] true) (Ok 1)] /\ run_view (xw_db w) (getIndexes demo_bu 7) = Ok [] /\
  snd (xstep demo_bm demo_bu w (XDrop 0 7 (str "a") [])) = XoDrop 7 (str "a") (Ok false) /\
  snd (xstep demo_bm demo_bu w (XCreate 0 7 (IDef (str "b") [fx] false) [])) = XoCreate 7 (IDef (str "b") [fx] false) (Err (ErrColumnsIndexed (str "a"))).
Proof. split; [vm_compute; reflexivity|]. split; [vm_compute; reflexivity|]. split; vm_compute; reflexivity. Qed.
(** C77: two goroutines of one process. CreateIndex a commits, DropIndex a commits, then the maps are updated in the
    other order: GetIndexes shows an index that does not exist, until the process restarts. *)
Definition run77b : list xev := open76 0 ++ [XOpen 0 7] ++ mk76 0 (str "a") [fx] ++ rm76 0 (str "a") ++ [XMem 0; XMem 0].
Theorem C77_concurrent_calls_leave_a_ghost_refuted : exists f,
  xw_mem (fst (drun run77b)) 0%nat 7 = Some f /\ f (str "a") = Some (IDef (str "a") [fx] true) /\ run_view (xw_db (fst (drun run77b))) (getIndexes demo_bu 7) = Ok [].
Proof. eexists. split; [vm_compute; reflexivity|]. split; vm_compute; reflexivity. Qed.
(** C77: the definition GetIndexes returns is not the one given, and changes when the process restarts: columns come
    back sorted, and a single descending column as ascending. *)
Definition run77c : list xev := open76 0 ++ [XOpen 0 7] ++ mk76 0 (str "a") [fy; fx] ++ [XMem 0] ++ mk76 0 (str "b") [fy] ++ [XMem 0].
Theorem C77_definition_changes_on_restart_refuted : exists f g,
  xw_mem (fst (drun run77c)) 0%nat 7 = Some f /\ xw_mem (fst (drun (run77c ++ [XCrash (fun _ => true); XOpen 0 7]))) 0%nat 7 = Some g /\
  f (str "a") = Some (IDef (str "a") [fx; fy] true) /\ g (str "a") = Some (IDef (str "a") [fy; fx] true) /\
  f (str "b") = Some (IDef (str "b") [Field (str "y") false] true) /\ g (str "b") = Some (IDef (str "b") [Field (str "y") true] true).
Proof. eexists. eexists. split; [vm_compute; reflexivity|]. split; [vm_compute; reflexivity|]. split; [vm_compute; reflexivity|]. split; [vm_compute; reflexivity|]. split; vm_compute; reflexivity. Qed.

Print Assumptions C76_stored_indexes_are_the_catalogue_partial.
Print Assumptions C76_create_and_drop_tell_the_truth_partial.
Print Assumptions C76_index_ids_never_repeat_partial.
Print Assumptions C76_ignored_error_loses_the_index_refuted.
Print Assumptions C68_create_refuses_exactly_indexed_columns_partial.
Print Assumptions C68_no_orphan_keys_partial.
Print Assumptions C68_recreating_a_name_leaves_an_orphan_refuted.
Print Assumptions C77_get_indexes_is_the_catalogue_partial.
Print Assumptions C77_concurrent_calls_leave_a_ghost_refuted.
Print Assumptions C77_definition_changes_on_restart_refuted.
