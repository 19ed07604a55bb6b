(** Theorems about the objects of /repo/document/model/model.go as heap objects: C70. *)
From Verif Require Import Bytes SMap Model ModelHeap ModelHeapProofs.

(** * Specification: equal objects. A nil map and an empty map have the same contents. *)
Definition same_coll (c c' : CollectionInfo) : Prop :=
  ci_id c' = ci_id c /\ ci_name c' = ci_name c /\ ci_order c' = ci_order c /\ ci_state c' = ci_state c /\ forall n, mget (ci_indices c') n = mget (ci_indices c) n.
Definition same_db (d d' : DBInfo) : Prop :=
  di_id d' = di_id d /\ di_name d' = di_name d /\ di_order d' = di_order d /\ di_state d' = di_state d /\
  forall n, match mget (di_colls d) n, mget (di_colls d') n with Some c, Some c' => same_coll c c' | None, None => True | _, _ => False end.
(** objects without nil maps *)
Definition no_nil_coll (c : CollectionInfo) : Prop := ci_indices c <> None.
Definition no_nil_db (d : DBInfo) : Prop := di_colls d <> None /\ forall n c, mget (di_colls d) n = Some c -> no_nil_coll c.

Lemma same_clone_ci c : same_coll c (clone_ci c).
Proof. repeat (split; [reflexivity|]). intros n. cbn [clone_ci ci_indices]. rewrite mget_clone. destruct (mget (ci_indices c) n) as [i|]; cbn; [f_equal; apply clone_ii_eq | reflexivity]. Qed.
Lemma same_clone_di d : same_db d (clone_di d).
Proof. repeat (split; [reflexivity|]). intros n. cbn [clone_di di_colls]. rewrite mget_clone. destruct (mget (di_colls d) n) as [c|]; cbn; [apply same_clone_ci | exact I]. Qed.
Lemma clone_ci_id c : no_nil_coll c -> clone_ci c = c.
Proof. intros N. destruct c as [id nm [m|] o s]; [|destruct N; reflexivity]. unfold clone_ci. cbn. f_equal. unfold clone_map. f_equal. apply smap_map_id. intros k v _. apply clone_ii_eq. Qed.
Lemma clone_di_id d : no_nil_db d -> clone_di d = d.
Proof. intros [N F]. destruct d as [id nm [m|] o s]; [|destruct N; reflexivity]. unfold clone_di. cbn. f_equal. unfold clone_map. f_equal. apply smap_map_id. intros k v G. apply clone_ci_id. apply (F k). exact G. Qed.
Lemma alloc_lt h a : heap_ok h -> h_cell h a <> None -> (a < h_next h)%nat.
Proof. intros [O _] N. destruct (Nat.lt_ge_cases a (h_next h)) as [L|L]; [exact L|]. destruct N. apply O. exact L. Qed.
Lemma index_lt h a v : heap_ok h -> index_is h a v -> (a < h_next h)%nat.
Proof. intros O (red & cols & G & _). apply alloc_lt; [exact O | congruence]. Qed.
Lemma coll_lt h a v : heap_ok h -> coll_is h a v -> (a < h_next h)%nat.
Proof. intros O (red & cols & G & _). apply alloc_lt; [exact O | congruence]. Qed.
Lemma db_lt h a v : heap_ok h -> db_is h a v -> (a < h_next h)%nat.
Proof. intros O (red & cols & G & _). apply alloc_lt; [exact O | congruence]. Qed.
Lemma same_values_trans h1 h2 h3 b : same_values h1 h2 b -> same_values h2 h3 b -> same_values h1 h3 b.
Proof. intros (A1 & A2 & A3) (B1 & B2 & B3). repeat split; auto. Qed.
(** operations on one of two separate objects only *)
Lemma run_other a b os : forall h, heap_ok h -> separate h a b -> Forall (fun p => oper_safe (snd p)) os ->
  (forall p, In p os -> fst p = false) -> same_values h (orun2 a b os h) a.
Proof.
  induction os as [|[w o] os IH]; intros h Ok Sp F W; [apply same_values_refl|]. inversion F as [|? ? F1 F2]. subst. pose proof (W _ (or_introl eq_refl)) as Ew. cbn [fst] in Ew. subst w.
  destruct (step_separate h b a o Ok (separate_sym _ _ _ Sp) F1) as (X1 & X2 & X3). eapply same_values_trans; [exact X3|]. unfold orun2. cbn [fold_left fst snd].
  apply IH; [exact X1 | apply separate_sym; exact X2 | exact F2 | intros p Hp; apply W; right; exact Hp].
Qed.
Lemma clone_iso (f : addr -> H addr) h a h1 b os : (forall P n p, tri P n (f p) (fun n' x => own P n' [x])) -> heap_ok h -> (a < h_next h)%nat -> f a h = Some (h1, b) ->
  Forall (fun p => oper_safe (snd p)) os ->
  heap_ok (orun2 a b os h1) /\ (forall o, oper_safe o -> same_values (orun2 a b os h1) (ostep1 b o (orun2 a b os h1)) a /\ same_values (orun2 a b os h1) (ostep1 a o (orun2 a b os h1)) b).
Proof.
  intros T O L E F. destruct (clone_separate f T h a h1 b O L E) as [O1 Sp]. destruct (run_separate a b os h1 O1 Sp F) as [O2 Sp2]. split; [exact O2|]. intros o So. split.
  - destruct (step_separate _ b a o O2 (separate_sym _ _ _ Sp2) So) as (_ & _ & X). exact X.
  - destruct (step_separate _ a b o O2 Sp2 So) as (_ & _ & X). exact X.
Qed.

(** * C70: Clone *)
(** [DBInfo.Clone] of an object with value v: the result is another object, equal to v (exactly v when v has no nil
    map), and the original still has the value v. *)
Theorem C70_clone_db_equal : forall h a v, heap_ok h -> db_is h a v ->
  exists h' b v', DBInfo_Clone a h = Some (h', b) /\ heap_ok h' /\ b <> a /\ db_is h' a v /\ db_is h' b v' /\ same_db v v' /\ no_nil_db v' /\ (no_nil_db v -> v' = v).
Proof.
  intros h a v O D. pose proof (db_lt _ _ _ O D) as L. destruct (clone_di_ok h a v (proj1 O) D) as (h' & b & E & W & G & D'). destruct (clone_separate _ tri_clone_di h a h' b O L E) as [O' Sp].
  exists h', b, (clone_di v). split; [exact E|]. split; [exact O'|]. split; [intros X; subst b; destruct Sp as (SA & SB & X1 & X2 & _ & _ & X3 & _); exact (X3 a X1 X2)|].
  split; [exact (db_grows _ _ _ _ G D)|]. split; [exact D'|]. split; [apply same_clone_di|]. split; [|apply clone_di_id].
  split; [discriminate|]. intros n c. cbn [clone_di di_colls]. rewrite mget_clone. destruct (mget (di_colls v) n); [|discriminate]. cbn. intros X. inversion X. discriminate.
Qed.
Theorem C70_clone_collection_equal : forall h a v, heap_ok h -> coll_is h a v ->
  exists h' b v', CollectionInfo_Clone a h = Some (h', b) /\ heap_ok h' /\ b <> a /\ coll_is h' a v /\ coll_is h' b v' /\ same_coll v v' /\ no_nil_coll v' /\ (no_nil_coll v -> v' = v).
Proof.
  intros h a v O D. pose proof (coll_lt _ _ _ O D) as L. destruct (clone_ci_ok h a v (proj1 O) D) as (h' & b & E & W & G & D'). destruct (clone_separate _ tri_clone_ci h a h' b O L E) as [O' Sp].
  exists h', b, (clone_ci v). split; [exact E|]. split; [exact O'|]. split; [intros X; subst b; destruct Sp as (SA & SB & X1 & X2 & _ & _ & X3 & _); exact (X3 a X1 X2)|].
  split; [exact (coll_grows _ _ _ _ G D)|]. split; [exact D'|]. split; [apply same_clone_ci|]. split; [discriminate | apply clone_ci_id].
Qed.
Theorem C70_clone_index_equal : forall h a v, heap_ok h -> index_is h a v ->
  exists h' b, IndexInfo_Clone a h = Some (h', b) /\ heap_ok h' /\ b <> a /\ index_is h' a v /\ index_is h' b v.
Proof.
  intros h a v O D. pose proof (index_lt _ _ _ O D) as L. destruct (clone_ii_ok h a v (proj1 O) D) as (h' & b & E & W & G & D'). destruct (clone_separate _ tri_clone_ii h a h' b O L E) as [O' Sp].
  exists h', b. split; [exact E|]. split; [exact O'|]. split; [intros X; subst b; destruct Sp as (SA & SB & X1 & X2 & _ & _ & X3 & _); exact (X3 a X1 X2)|].
  split; [exact (index_grows _ _ _ _ G D)|]. rewrite clone_ii_eq in D'. exact D'.
Qed.
(** After a clone, and any interleaving of updates of the two objects (the methods with any argument, and assignments
    to exported fields, slice elements and map entries; not UpdateCollectionInfo with a pointer of the caller's, below):
    one more update of one of them leaves the value of the other unchanged. *)
Theorem C70_updates_independent_db_partial : forall h a v h1 b os o w, heap_ok h -> db_is h a v -> DBInfo_Clone a h = Some (h1, b) ->
  Forall (fun p => oper_safe (snd p)) os -> oper_safe o -> let h2 := orun2 a b os h1 in
  (db_is h2 a w -> db_is (ostep1 b o h2) a w) /\ (db_is h2 b w -> db_is (ostep1 a o h2) b w).
Proof. intros h a v h1 b os o w O D E F So h2. destruct (clone_iso _ h a h1 b os tri_clone_di O (db_lt _ _ _ O D) E F) as [_ X]. destruct (X o So) as [X1 X2]. split; [apply X1 | apply X2]. Qed.
Theorem C70_updates_independent_collection : forall h a v h1 b os o w, heap_ok h -> coll_is h a v -> CollectionInfo_Clone a h = Some (h1, b) ->
  Forall (fun p => oper_safe (snd p)) os -> oper_safe o -> let h2 := orun2 a b os h1 in
  (coll_is h2 a w -> coll_is (ostep1 b o h2) a w) /\ (coll_is h2 b w -> coll_is (ostep1 a o h2) b w).
Proof. intros h a v h1 b os o w O D E F So h2. destruct (clone_iso _ h a h1 b os tri_clone_ci O (coll_lt _ _ _ O D) E F) as [_ X]. destruct (X o So) as [X1 X2]. split; [apply X1 | apply X2]. Qed.
Theorem C70_updates_independent_index : forall h a v h1 b os o w, heap_ok h -> index_is h a v -> IndexInfo_Clone a h = Some (h1, b) ->
  Forall (fun p => oper_safe (snd p)) os -> oper_safe o -> let h2 := orun2 a b os h1 in
  (index_is h2 a w -> index_is (ostep1 b o h2) a w) /\ (index_is h2 b w -> index_is (ostep1 a o h2) b w).
Proof. intros h a v h1 b os o w O D E F So h2. destruct (clone_iso _ h a h1 b os tri_clone_ii O (index_lt _ _ _ O D) E F) as [_ X]. destruct (X o So) as [X1 X2]. split; [apply X1 | apply X2]. Qed.
(** In particular: updates of the clone alone leave the original as it was when it was cloned, *)
Theorem C70_original_unchanged_partial : forall h a v h1 b (os : list oper), heap_ok h -> db_is h a v -> DBInfo_Clone a h = Some (h1, b) ->
  Forall oper_safe os -> db_is (fold_left (fun h o => ostep1 b o h) os h1) a v.
Proof.
  intros h a v h1 b os O D E F. destruct (C70_clone_db_equal h a v O D) as (h' & b' & v' & E' & O' & _ & D' & _). rewrite E in E'. inversion E'. subst h' b'. clear E'.
  destruct (clone_separate _ tri_clone_di h a h1 b O (db_lt _ _ _ O D) E) as [_ Sp].
  destruct (run_other a b (map (fun o => (false, o)) os) h1 O' Sp) as (_ & _ & X).
  - apply Forall_forall. intros p Hp. apply in_map_iff in Hp. destruct Hp as (o & <- & Hp). rewrite Forall_forall in F. apply F. exact Hp.
  - intros p Hp. apply in_map_iff in Hp. destruct Hp as (o & <- & _). reflexivity.
  - specialize (X v D'). unfold orun2 in X. clear - X. revert X. generalize h1. induction os as [|o os IH]; intros g X; [exact X|]. cbn [map fold_left fst snd] in X |- *. apply IH. exact X.
Qed.
(** and an object has one value, so "unchanged" means that nothing else can be read there. *)
Theorem C70_value_unique : forall h a v w, db_is h a v -> db_is h a w -> v = w.
Proof. exact db_fun. Qed.

(** * A concrete heap: database "d" with collection "c" with index "i" on column "x"; and an index "j" *)
Definition demo_build : H (addr * addr) :=
  cols <~ halloc (CArr [str "x"]) ;; i <~ halloc (CIdx 7 (str "i") None (Some (cols, 1%nat)) false Public) ;;
  im <~ halloc (CIMap (set empty (str "i") i)) ;; io <~ halloc (CArr [str "i"; []]) ;; c <~ halloc (CCol 5 (str "c") (Some im) (Some (io, 1%nat)) Public) ;;
  cm <~ halloc (CCMap (set empty (str "c") c)) ;; co <~ halloc (CArr [str "c"]) ;; d <~ halloc (CDb 3 (str "d") (Some cm) (Some (co, 1%nat)) Public) ;;
  j <~ halloc (CIdx 9 (str "j") None None false Absent) ;; hret (d, j).
Definition heap0 : heap := Heap 0%nat (fun _ => None).
Definition demo_heap : heap := match demo_build heap0 with Some (h, _) => h | None => heap0 end.
Definition demo_i : IndexInfo := II 7 (str "i") None [str "x"] false Public.
Definition demo_j : IndexInfo := II 9 (str "j") None [] false Absent.
Definition demo_c : CollectionInfo := CI 5 (str "c") (Some (set empty (str "i") demo_i)) [str "i"] Public.
Definition demo_d : DBInfo := DI 3 (str "d") (Some (set empty (str "c") demo_c)) [str "c"] Public.
Lemma demo_build_eq : demo_build heap0 = Some (demo_heap, (7%nat, 8%nat)).
Proof. reflexivity. Qed.
Lemma demo_index_is h : h_cell h 0%nat = h_cell demo_heap 0%nat -> h_cell h 1%nat = h_cell demo_heap 1%nat -> index_is h 1%nat demo_i.
Proof. intros E0 E1. exists None, (Some (0%nat, 1%nat)). rewrite E1. split; [reflexivity|]. split; [exact I|]. exists [str "x"]. rewrite E0. split; [reflexivity|]. split; [cbn; lia | reflexivity]. Qed.
Lemma demo_ok : heap_ok demo_heap /\ db_is demo_heap 7%nat demo_d /\ no_nil_db demo_d.
Proof.
  split; [split|split].
  - intros a L. cbn in L. do 9 (destruct a as [|a]; [lia|]). reflexivity.
  - intros a c p G Hp. cbn [demo_heap demo_build hbind halloc hret heap0 h_next].
    do 9 (destruct a as [|a]; [cbn in G; inversion G; subst c; cbn in Hp; cbn; intuition lia|]). discriminate G.
  - exists (Some 5%nat), (Some (6%nat, 1%nat)). split; [reflexivity|]. split.
    + exists (set empty (str "c") 4%nat). split; [reflexivity|]. intros k. rewrite !get_set, !get_empty. destruct (bytes_eqb k (str "c")); [|exact I].
      exists (Some 2%nat), (Some (3%nat, 1%nat)). split; [reflexivity|]. split.
      * exists (set empty (str "i") 1%nat). split; [reflexivity|]. intros k'. rewrite !get_set, !get_empty. destruct (bytes_eqb k' (str "i")); [|exact I]. apply demo_index_is; reflexivity.
      * exists [str "i"; []]. split; [reflexivity|]. split; [cbn; lia | reflexivity].
    + exists [str "c"]. split; [reflexivity|]. split; [cbn; lia | reflexivity].
  - split; [discriminate|]. intros n c. cbn [mget di_colls demo_d]. rewrite get_set, get_empty. destruct (bytes_eqb n (str "c")); [|discriminate]. intros X. inversion X. discriminate.
Qed.
(** Non-vacuity: the updates of the clone do happen. Clone the database, then c.AddIndexInfo(j) through the clone, then
    overwrite the column of its index "i". *)
Definition demo_ops : list oper := [OpD (DColl (str "c") (CAdd 8%nat 2%nat)); OpD (DColl (str "c") (CIndex (str "i") (IColumn 0%nat (str "y"))))].
Definition demo_clone : heap * addr := match DBInfo_Clone 7%nat demo_heap with Some p => p | None => (heap0, 0%nat) end.
Definition read_order (h : heap) (d : addr) : option (list bytes) :=
  match get_coll d (str "c") h with
  | Some (_, c) => match h_cell h c with Some (CCol _ _ _ (Some (a, n)) _) => match h_cell h a with Some (CArr l) => Some (firstn n l) | _ => None end | _ => None end
  | None => None
  end.
Definition read_cols (h : heap) (d : addr) : option (list bytes) :=
  match (c <~ get_coll d (str "c") ;; get_idx c (str "i")) h with
  | Some (_, i) => match h_cell h i with Some (CIdx _ _ _ (Some (a, n)) _ _) => match h_cell h a with Some (CArr l) => Some (firstn n l) | _ => None end | _ => None end
  | None => None
  end.
Example C70_example : let h2 := fold_left (fun h o => ostep1 (snd demo_clone) o h) demo_ops (fst demo_clone) in
  DBInfo_Clone 7%nat demo_heap = Some demo_clone /\ Forall oper_safe demo_ops /\
  read_order h2 (snd demo_clone) = Some [str "i"; str "j"] /\ read_order h2 7%nat = Some [str "i"] /\
  read_cols h2 (snd demo_clone) = Some [str "y"] /\ read_cols h2 7%nat = Some [str "x"].
Proof. split; [reflexivity|]. split; [repeat constructor|]. vm_compute. repeat split. Qed.

(** * What the methods do *)
(** [order_unshared]: no index in the heap has the backing array of c's IndexOrder as its Columns. (Clone makes a new
    array, and so does decoding; an append within the capacity of a shared array would be seen there.) *)
Definition order_unshared (h : heap) (c : addr) : Prop :=
  forall id nm ind o n st, h_cell h c = Some (CCol id nm ind (Some (o, n)) st) ->
  forall a id' nm' red n' u st', h_cell h a <> Some (CIdx id' nm' red (Some (o, n')) u st').
(** an index keeps its value when only maps, collections and one unshared array are written *)
Lemma index_keeps h h' a v (o : addr -> Prop) : index_is h a v ->
  (forall x, o x -> forall b id' nm' red n' u st', h_cell h b <> Some (CIdx id' nm' red (Some (x, n')) u st')) ->
  (forall x c, h_cell h x = Some c -> match c with CIMap _ | CCMap _ | CCol _ _ _ _ _ | CDb _ _ _ _ _ => True | CArr _ => o x \/ h_cell h' x = Some c | _ => h_cell h' x = Some c end) ->
  index_is h' a v.
Proof.
  intros (red & cols & G & R & C) Ho K. exists red, cols. split; [exact (K _ _ G)|]. split.
  - destruct red as [r|], (ii_red v) as [q|]; cbn [red_is] in *; try assumption. exact (K _ _ R).
  - destruct cols as [[x n]|]; cbn [slice_is] in *; [|exact C]. destruct C as (arr & Ga & X). exists arr. split; [|exact X]. destruct (K _ _ Ga) as [Y|Y]; [|exact Y]. exfalso. exact (Ho x Y _ _ _ _ _ _ _ G).
Qed.
Lemma put_at_firstn {A} (v : A) : forall n l, (n < length l)%nat -> firstn (S n) (put_at n v l) = firstn n l ++ [v].
Proof. induction n as [|n IH]; intros [|x l] L; cbn [length] in L; try lia; cbn [put_at firstn app]; [reflexivity|]. f_equal. apply IH. lia. Qed.
Lemma put_at_length {A} (v : A) : forall n l, length (put_at n v l) = length l.
Proof. induction n as [|n IH]; intros [|x l]; cbn [put_at length]; try reflexivity. f_equal. apply IH. Qed.
(** append: the slice reads as before with the new element at the end; only its own array may be written *)
Lemma append_ok h s l v sp : wf h -> slice_is h s l -> exists h' s', append_slice s v sp h = Some (h', s') /\ wf h' /\ slice_is h' s' (l ++ [v]) /\
  forall x c, h_cell h x = Some c -> In x (slice_ptrs s) /\ (exists arr, c = CArr arr) \/ h_cell h' x = Some c.
Proof.
  intros W Sl. destruct s as [[x n]|]; cbn [slice_is append_slice] in *.
  - destruct Sl as (arr & G & L & ->). unfold hbind, hread. rewrite G. destruct (Nat.ltb_spec n (length arr)) as [Lt|Ge].
    + eexists. eexists. split; [reflexivity|]. split; [|split].
      * intros a La. cbn [h_next h_cell] in *. destruct (Nat.eqb_spec a x) as [->|N]; [rewrite (W x La) in G; discriminate | apply W; exact La].
      * cbn [slice_is h_cell]. rewrite Nat.eqb_refl. eexists. split; [reflexivity|]. rewrite put_at_length. split; [lia|]. symmetry. apply put_at_firstn. exact Lt.
      * intros y c Gy. cbn [h_cell slice_ptrs]. destruct (Nat.eqb_spec y x) as [->|N]; [left; split; [left; reflexivity|]; rewrite G in Gy; inversion Gy; eauto | right; exact Gy].
    + assert (n = length arr) by lia. subst n. rewrite firstn_all. destruct (halloc_ok h (CArr (arr ++ v :: repeat [] sp)) W) as (h' & a & E & W' & Gr & Ga). rewrite E.
      eexists. eexists. split; [reflexivity|]. split; [exact W'|]. split; [|intros y c Gy; right; apply Gr; exact Gy].
      cbn [slice_is]. eexists. split; [exact Ga|]. rewrite app_length. cbn [length]. split; [lia|]. replace (S (length arr)) with (length arr + 1)%nat by lia. rewrite firstn_app_2. reflexivity.
  - subst l. unfold hbind. destruct (halloc_ok h (CArr (v :: repeat [] sp)) W) as (h' & a & E & W' & Gr & Ga). rewrite E. eexists. eexists. split; [reflexivity|]. split; [exact W'|].
    split; [|intros y c Gy; right; apply Gr; exact Gy]. cbn [slice_is]. eexists. split; [exact Ga|]. cbn [length]. split; [lia | reflexivity].
Qed.
(** the addresses of a clone are new *)
Lemma clone_new h a h' b x : heap_ok h -> IndexInfo_Clone a h = Some (h', b) -> (x < h_next h)%nat ->
  h_cell h' x = h_cell h x /\ forall y id nm red n u st, (forall id nm red n u st, h_cell h y <> Some (CIdx id nm red (Some (x, n)) u st)) -> h_cell h' y <> Some (CIdx id nm red (Some (x, n)) u st).
Proof.
  intros Ok E Lx. set (P := fun x => (h_next h <= x)%nat).
  assert (I : inv P h). { split; [exact Ok| |]; unfold P; [intros y c p Ly G; destruct Ok as [O1 _]; rewrite (O1 y Ly) in G; discriminate | auto]. }
  destruct (tri_clone_ii P (h_next h) a h h' b I (Nat.le_refl _) E) as ([_ Cl Fr] & L & F & Ow). split; [apply F; unfold P; lia|].
  intros y id nm red n u st Hy G. destruct (Nat.lt_ge_cases y (h_next h)) as [Ly|Ly]; [rewrite F in G by (unfold P; lia); exact (Hy _ _ _ _ _ _ G)|].
  assert (P x) as X; [|unfold P in X; lia]. apply (Cl y _ x Ly G). cbn [ptrs]. apply in_or_app. right. left. reflexivity.
Qed.
(** Specification: a collection with one more index, and with one index replaced *)
Definition coll_add (v : CollectionInfo) (i : IndexInfo) : CollectionInfo :=
  CI (ci_id v) (ci_name v) (option_map (fun m => set m (ii_name i) i) (ci_indices v)) (ci_order v ++ [ii_name i]) (ci_state v).
Definition coll_replace (v : CollectionInfo) (i : IndexInfo) : CollectionInfo :=
  CI (ci_id v) (ci_name v) (option_map (fun m => set m (ii_name i) i) (ci_indices v)) (ci_order v) (ci_state v).
Lemma set_index h h2 m vm name p i (o : addr -> Prop) :
  (forall k, match get m k, get vm k with Some x, Some v => index_is h x v | None, None => True | _, _ => False end) -> index_is h p i ->
  (forall x, o x -> forall b id' nm' red n' u st', h_cell h b <> Some (CIdx id' nm' red (Some (x, n')) u st')) ->
  (forall x c, h_cell h x = Some c -> match c with CIMap _ | CCMap _ | CCol _ _ _ _ _ | CDb _ _ _ _ _ => True | CArr _ => o x \/ h_cell h2 x = Some c | _ => h_cell h2 x = Some c end) ->
  forall k, match get (set m name p) k, get (set vm name i) k with Some x, Some v => index_is h2 x v | None, None => True | _, _ => False end.
Proof.
  intros F Ip Ho K k. rewrite !get_set. destruct (bytes_eqb k name); [exact (index_keeps _ _ _ _ o Ip Ho K)|]. specialize (F k). destruct (get m k), (get vm k); auto. exact (index_keeps _ _ _ _ o F Ho K).
Qed.
(** [c.AddIndexInfo(i)]: true and the index is added at the end of the order, when c has no index of that name; false
    and nothing changes when it has one. The argument keeps its value, and is not shared (C70_updates_independent). *)
Theorem C70_add_index_info : forall h c v a i sp, heap_ok h -> coll_is h c v -> no_nil_coll v -> order_unshared h c -> index_is h a i ->
  match mget (ci_indices v) (ii_name i) with
  | Some _ => AddIndexInfo_h c a sp h = Some (h, false)
  | None => exists h', AddIndexInfo_h c a sp h = Some (h', true) /\ coll_is h' c (coll_add v i) /\ index_is h' a i
  end.
Proof.
  intros h c v a i sp Ok (ind & order & G & M & Od) N Un Ia. pose proof Ia as Ia0. destruct Ia as (red & cols & Gi & Ri & Ci).
  destruct (ci_indices v) as [vm|] eqn:Ev; [|destruct N; exact Ev]. destruct ind as [mp|]; [|destruct M]. cbn [map_is] in M. destruct M as (m & Gm & F).
  cbn [mget]. pose proof (F (ii_name i)) as Fi. destruct (get m (ii_name i)) as [x|] eqn:Gx, (get vm (ii_name i)) as [w|]; try contradiction; unfold AddIndexInfo_h; unfold hbind at 1, hread at 1; rewrite G; unfold hbind at 1, hread at 1; rewrite Gi; unfold hbind at 1, lookup, ptr_map at 1; unfold hbind at 1 2, hread at 1; rewrite Gm; unfold hret at 1 2; rewrite Gx; [reflexivity|].
  destruct (clone_ii_ok h a i (proj1 Ok) Ia0) as (h1 & p & E & W1 & Gr & Ip). rewrite clone_ii_eq in Ip. unfold hbind at 1. rewrite E.
  unfold hbind at 1, ptr_map. unfold hbind at 1, hread. rewrite (proj2 Gr _ _ Gm). unfold hret at 1. unfold hbind at 1, hwrite at 1.
  set (h2 := Heap (h_next h1) (fun x => if Nat.eqb x mp then Some (CIMap (set m (ii_name i) p)) else h_cell h1 x)).
  assert (W2 : wf h2). { intros y Ly. cbn [h2 h_cell h_next] in *. destruct (Nat.eqb_spec y mp) as [->|Ny]; [pose proof (proj2 Gr _ _ Gm) as X; rewrite (W1 mp Ly) in X; discriminate | apply W1; exact Ly]. }
  assert (S2 : slice_is h2 order (ci_order v)).
  { destruct order as [[x n]|]; cbn [slice_is] in *; [|exact Od]. destruct Od as (arr & Ga & X). exists arr. split; [|exact X]. cbn [h2 h_cell]. destruct (Nat.eqb_spec x mp) as [->|Ny]; [congruence | apply Gr; exact Ga]. }
  destruct (append_ok h2 order (ci_order v) (ii_name i) sp W2 S2) as (h3 & order' & E3 & W3 & S3 & K3). unfold hbind at 1. rewrite E3. unfold hbind, hwrite, hret.
  eexists. split; [reflexivity|]. set (h4 := Heap (h_next h3) (fun x => if Nat.eqb x c then Some (CCol (ci_id v) (ci_name v) (Some mp) order' (ci_state v)) else h_cell h3 x)).
  set (o := fun x => In x (slice_ptrs order)).
  assert (Ho : forall x, o x -> forall b id' nm' red n' u st', h_cell h1 b <> Some (CIdx id' nm' red (Some (x, n')) u st')).
  { intros x Ox b id' nm' red' n' u st'. unfold o in Ox. destruct order as [[x0 n]|]; cbn [slice_ptrs In] in Ox; [|destruct Ox]. destruct Ox as [->|[]].
    assert (Lx : (x < h_next h)%nat). { destruct Od as (arr & Ga & _). apply (alloc_lt h x Ok). congruence. }
    apply (proj2 (clone_new h a h1 p x Ok E Lx)). intros. apply (Un _ _ _ _ _ _ G). }
  assert (K : forall x k, h_cell h1 x = Some k -> match k with CIMap _ | CCMap _ | CCol _ _ _ _ _ | CDb _ _ _ _ _ => True | CArr _ => o x \/ h_cell h4 x = Some k | _ => h_cell h4 x = Some k end).
  { intros x k Gk. assert (forall y z, h_cell h1 x = Some y -> match y with CIMap _ | CCol _ _ _ _ _ => False | _ => True end -> z = y -> o x /\ (exists arr, y = CArr arr) \/ h_cell h4 x = Some y) as X.
    { intros y z Gy Hy _. assert (Nm : x <> mp) by (intros ->; rewrite (proj2 Gr _ _ Gm) in Gy; inversion Gy; subst y; exact Hy). assert (Nc : x <> c) by (intros ->; rewrite (proj2 Gr _ _ G) in Gy; inversion Gy; subst y; exact Hy).
      assert (G2 : h_cell h2 x = Some y) by (cbn [h2 h_cell]; apply Nat.eqb_neq in Nm; rewrite Nm; exact Gy). cbn [h4 h_cell]. apply Nat.eqb_neq in Nc. rewrite Nc. exact (K3 x y G2). }
    destruct k; try exact Logic.I; destruct (X _ _ Gk Logic.I eq_refl) as [[Y1 [arr Y2]]|Y]; auto; discriminate. }
  assert (Nmc : mp <> c) by congruence.
  split; [|exact (index_keeps h1 h4 a i o (index_grows _ _ _ _ Gr Ia0) Ho K)].
  exists (Some mp), order'. cbn [coll_add ci_id ci_name ci_state ci_indices ci_order]. split; [cbn [h4 h_cell]; rewrite Nat.eqb_refl; reflexivity|]. split.
  - rewrite Ev. cbn [map_is option_map]. exists (set m (ii_name i) p). split.
    + cbn [h4 h_cell]. apply Nat.eqb_neq in Nmc. rewrite Nmc. assert (G2 : h_cell h2 mp = Some (CIMap (set m (ii_name i) p))) by (cbn [h2 h_cell]; rewrite Nat.eqb_refl; reflexivity).
      destruct (K3 mp _ G2) as [[_ [arr X]]|X]; [discriminate | exact X].
    + apply (set_index h1 h4 m vm (ii_name i) p i o); [|exact Ip | exact Ho | exact K]. intros k. specialize (F k). destruct (get m k), (get vm k); auto. exact (index_grows _ _ _ _ Gr F).
  - destruct order' as [[x n]|]; cbn [slice_is] in *; [|exact S3]. destruct S3 as (arr & Ga & X). exists arr. split; [|exact X]. cbn [h4 h_cell]. destruct (Nat.eqb_spec x c) as [->|Ny]; [|exact Ga].
    exfalso. assert (G2 : h_cell h2 c = Some (CCol (ci_id v) (ci_name v) (Some mp) order (ci_state v))). { cbn [h2 h_cell]. destruct (Nat.eqb_spec c mp); [congruence|]. apply Gr. exact G. }
    destruct (K3 c _ G2) as [[_ [arr' Y]]|Y]; [discriminate | congruence].
Qed.
(** [c.UpdateIndexInfo(i)]: true and the index of that name is replaced, when there is one; false and nothing changes otherwise. *)
Theorem C70_update_index_info : forall h c v a i, heap_ok h -> coll_is h c v -> index_is h a i ->
  match mget (ci_indices v) (ii_name i) with
  | None => UpdateIndexInfo_h c a h = Some (h, false)
  | Some _ => exists h', UpdateIndexInfo_h c a h = Some (h', true) /\ coll_is h' c (coll_replace v i) /\ index_is h' a i
  end.
Proof.
  intros h c v a i Ok (ind & order & G & M & Od) Ia. pose proof Ia as Ia0. destruct Ia as (red & cols & Gi & Ri & Ci).
  destruct (ci_indices v) as [vm|] eqn:Ev, ind as [mp|]; try destruct M; [|unfold UpdateIndexInfo_h, hbind, hread; rewrite G, Gi; reflexivity]. rename x into m. destruct H as [Gm F]. cbn [mget].
  pose proof (F (ii_name i)) as Fi. destruct (get m (ii_name i)) as [x|] eqn:Gx, (get vm (ii_name i)) as [w|]; try contradiction; unfold UpdateIndexInfo_h; unfold hbind at 1, hread at 1; rewrite G; unfold hbind at 1, hread at 1; rewrite Gi; unfold hbind at 1, lookup, ptr_map at 1; unfold hbind at 1 2, hread at 1; rewrite Gm; unfold hret at 1 2; rewrite Gx; [|reflexivity].
  destruct (clone_ii_ok h a i (proj1 Ok) Ia0) as (h1 & p & E & W1 & Gr & Ip). rewrite clone_ii_eq in Ip. unfold hbind at 1. rewrite E.
  unfold hbind at 1, ptr_map. unfold hbind at 1, hread. rewrite (proj2 Gr _ _ Gm). unfold hret at 1. unfold hbind at 1, hwrite at 1. unfold hret. eexists. split; [reflexivity|].
  set (h2 := Heap (h_next h1) (fun x => if Nat.eqb x mp then Some (CIMap (set m (ii_name i) p)) else h_cell h1 x)).
  assert (K : forall x k, h_cell h1 x = Some k -> match k with CIMap _ | CCMap _ | CCol _ _ _ _ _ | CDb _ _ _ _ _ => True | CArr _ => False \/ h_cell h2 x = Some k | _ => h_cell h2 x = Some k end).
  { intros y k Gk. assert (match k with CIMap _ => False | _ => True end -> h_cell h2 y = Some k) as X.
    { intros Hk. cbn [h2 h_cell]. destruct (Nat.eqb_spec y mp) as [->|Ny]; [rewrite (proj2 Gr _ _ Gm) in Gk; inversion Gk; subst k; destruct Hk | exact Gk]. }
    destruct k; auto. }
  split; [|refine (index_keeps h1 h2 a i (fun _ => False) (index_grows _ _ _ _ Gr Ia0) _ K); intros ? []].
  exists (Some mp), order. cbn [coll_replace ci_id ci_name ci_state ci_indices ci_order]. split; [|split].
  - cbn [h2 h_cell]. destruct (Nat.eqb_spec c mp) as [->|Ny]; [congruence | apply Gr; exact G].
  - rewrite Ev. cbn [map_is option_map]. exists (set m (ii_name i) p). split; [cbn [h2 h_cell]; rewrite Nat.eqb_refl; reflexivity|].
    apply (set_index h1 h2 m vm (ii_name i) p i (fun _ => False)); [|exact Ip | intros ? [] | exact K]. intros k. specialize (F k). destruct (get m k), (get vm k); auto. exact (index_grows _ _ _ _ Gr F).
  - destruct order as [[y n]|]; cbn [slice_is] in *; [|exact Od]. destruct Od as (arr & Ga & X). exists arr. split; [|exact X]. cbn [h2 h_cell]. destruct (Nat.eqb_spec y mp) as [->|Ny]; [congruence | apply Gr; exact Ga].
Qed.
(** [d.UpdateCollectionInfo(c)]: the name of c must be there; then c takes its place (c itself, not a copy). *)
Theorem C70_update_collection_info : forall h d v a c, heap_ok h -> db_is h d v -> coll_is h a c ->
  match mget (di_colls v) (ci_name c) with
  | None => UpdateCollectionInfo_h d a h = Some (h, false)
  | Some _ => exists h', UpdateCollectionInfo_h d a h = Some (h', true) /\
      db_is h' d (DI (di_id v) (di_name v) (option_map (fun m => set m (ci_name c) c) (di_colls v)) (di_order v) (di_state v)) /\ get_coll d (ci_name c) h' = Some (h', a)
  end.
Proof.
  intros h d v a c Ok (ind & order & G & M & Od) Ia. pose proof Ia as Ia0. destruct Ia as (red & cols & Gi & Ri & Ci).
  destruct (di_colls v) as [vm|] eqn:Ev, ind as [mp|]; try destruct M; [|unfold UpdateCollectionInfo_h, hbind, hread; rewrite G, Gi; reflexivity]. rename x into m. destruct H as [Gm F]. cbn [mget].
  pose proof (F (ci_name c)) as Fi. destruct (get m (ci_name c)) as [x|] eqn:Gx, (get vm (ci_name c)) as [w|]; try contradiction; unfold UpdateCollectionInfo_h; unfold hbind at 1, hread at 1; rewrite G; unfold hbind at 1, hread at 1; rewrite Gi; unfold hbind at 1, lookup, ptr_map at 1; unfold hbind at 1 2, hread at 1; rewrite Gm; unfold hret at 1 2; rewrite Gx; [|reflexivity].
  unfold hbind at 1, ptr_map. unfold hbind at 1, hread. rewrite Gm. unfold hret at 1. unfold hbind at 1, hwrite at 1. unfold hret. eexists. split; [reflexivity|].
  set (h2 := Heap (h_next h) (fun x => if Nat.eqb x mp then Some (CCMap (set m (ci_name c) a)) else h_cell h x)).
  assert (K : forall y k, h_cell h y = Some k -> match k with CCMap _ => False | _ => True end -> h_cell h2 y = Some k).
  { intros y k Gk Hk. cbn [h2 h_cell]. destruct (Nat.eqb_spec y mp) as [->|Ny]; [rewrite Gm in Gk; inversion Gk; subst k; destruct Hk | exact Gk]. }
  assert (KI : forall y w, index_is h y w -> index_is h2 y w).
  { intros y w0 Iy. refine (index_keeps h h2 y w0 (fun _ => False) Iy _ _); [intros ? []|]. intros z k Gk. destruct k; try exact Logic.I; try (apply K; [exact Gk | exact Logic.I]). right. apply K; [exact Gk | exact Logic.I]. }
  assert (KC : forall y w, coll_is h y w -> coll_is h2 y w).
  { intros y w0 (i0 & o0 & Gy & My & Oy). exists i0, o0. split; [apply K; [exact Gy | exact Logic.I]|]. split.
    - destruct i0 as [q|], (ci_indices w0) as [vq|]; cbn [map_is] in *; auto. destruct My as (mq & Gq & Fq). exists mq. split; [apply K; [exact Gq | exact Logic.I]|]. intros k. specialize (Fq k). destruct (get mq k), (get vq k); auto.
    - destruct o0 as [[y0 n]|]; cbn [slice_is] in *; [|exact Oy]. destruct Oy as (arr & Ga & X). exists arr. split; [apply K; [exact Ga | exact Logic.I] | exact X]. }
  split.
  - exists (Some mp), order. cbn [di_id di_name di_state di_colls di_order]. split; [apply K; [exact G | exact Logic.I]|]. split.
    + cbn [option_map map_is]. exists (set m (ci_name c) a). split; [cbn [h2 h_cell]; rewrite Nat.eqb_refl; reflexivity|]. intros k. rewrite !get_set. destruct (bytes_eqb k (ci_name c)); [apply KC; exact Ia0|]. specialize (F k). destruct (get m k), (get vm k); auto.
    + destruct order as [[y0 n]|]; cbn [slice_is] in *; [|exact Od]. destruct Od as (arr & Ga & X). exists arr. split; [apply K; [exact Ga | exact Logic.I] | exact X].
  - unfold get_coll, lookup, ptr_map, hbind, hread, hret. rewrite (K _ _ G Logic.I). cbn [h2 h_cell]. rewrite Nat.eqb_refl. rewrite get_set_eq. reflexivity.
Qed.

Example C70_methods_example : heap_ok demo_heap /\ coll_is demo_heap 4%nat demo_c /\ no_nil_coll demo_c /\ order_unshared demo_heap 4%nat /\ index_is demo_heap 8%nat demo_j /\
  mget (ci_indices demo_c) (ii_name demo_j) = None /\ mget (ci_indices demo_c) (ii_name demo_i) = Some demo_i /\
  option_map snd (AddIndexInfo_h 4%nat 8%nat 0%nat demo_heap) = Some true /\ option_map snd (AddIndexInfo_h 4%nat 1%nat 0%nat demo_heap) = Some false.
Proof.
  split; [apply demo_ok|]. split; [|split; [discriminate|split; [|split; [|repeat split]]]].
  - exists (Some 2%nat), (Some (3%nat, 1%nat)). split; [reflexivity|]. split.
    + exists (set empty (str "i") 1%nat). split; [reflexivity|]. intros k'. rewrite !get_set, !get_empty. destruct (bytes_eqb k' (str "i")); [|exact I]. apply demo_index_is; reflexivity.
    + exists [str "i"; []]. split; [reflexivity|]. split; [cbn; lia | reflexivity].
  - intros id nm ind o n st G a id' nm' red n' u st' Ga. cbn in G. inversion G. subst o. do 9 (destruct a as [|a]; [cbn in Ga; discriminate Ga|]). discriminate Ga.
  - exists None, None. split; [reflexivity|]. split; [exact I | reflexivity].
Qed.

(** * Where it fails *)
Definition demo_h2 : heap := match UpdateCollectionInfo_h (snd demo_clone) 4%nat (fst demo_clone) with Some (h, _) => h | None => heap0 end.
Definition demo_h4 : heap := match AddIndexInfo_h 4%nat 8%nat 0%nat demo_h2 with Some (h, _) => h | None => heap0 end.
Lemma demo_facts : DBInfo_Clone 7%nat demo_heap = Some demo_clone /\ get_coll 7%nat (str "c") (fst demo_clone) = Some (fst demo_clone, 4%nat) /\
  UpdateCollectionInfo_h (snd demo_clone) 4%nat (fst demo_clone) = Some (demo_h2, true) /\ get_coll (snd demo_clone) (str "c") demo_h2 = Some (demo_h2, 4%nat) /\
  AddIndexInfo_h 4%nat 8%nat 0%nat demo_h2 = Some (demo_h4, true).
Proof. repeat split. Qed.
Lemma demo_cells2 : forall a, (a < 9)%nat -> h_cell demo_h2 a = h_cell demo_heap a.
Proof. intros a L. do 9 (destruct a as [|a]; [vm_compute; reflexivity|]). lia. Qed.
Lemma demo_cells4 : h_cell demo_h4 7%nat = h_cell demo_heap 7%nat /\ h_cell demo_h4 6%nat = h_cell demo_heap 6%nat /\ h_cell demo_h4 5%nat = h_cell demo_heap 5%nat /\
  h_cell demo_h4 1%nat = h_cell demo_heap 1%nat /\ h_cell demo_h4 0%nat = h_cell demo_heap 0%nat /\
  h_cell demo_h4 4%nat = Some (CCol 5 (str "c") (Some 2%nat) (Some (3%nat, 2%nat)) Public) /\ h_cell demo_h4 3%nat = Some (CArr [str "i"; str "j"]) /\
  h_cell demo_h4 2%nat = Some (CIMap (set (set empty (str "i") 1%nat) (str "j") 18%nat)) /\ h_cell demo_h4 18%nat = Some (CIdx 9 (str "j") None (Some (17%nat, 0%nat)) false Absent) /\ h_cell demo_h4 17%nat = Some (CArr []).
Proof. repeat (split; [vm_compute; reflexivity|]). vm_compute; reflexivity. Qed.
(** [d2.UpdateCollectionInfo(d1.CollectionInfo("c"))] on the clone d2 stores d1's collection in d2: then
    [d2.CollectionInfo("c").AddIndexInfo(j)], a later update of the clone through its methods, changes the original. *)
Theorem C70_stored_pointer_shared_refuted : exists h d1 d2 j v w h1 cells h2 h3 h4,
  heap_ok h /\ db_is h d1 v /\ no_nil_db v /\ DBInfo_Clone d1 h = Some (h1, d2) /\
  get_coll d1 (str "c") h1 = Some (h1, cells) /\ UpdateCollectionInfo_h d2 cells h1 = Some (h2, true) /\ db_is h2 d1 v /\
  get_coll d2 (str "c") h2 = Some (h3, cells) /\ AddIndexInfo_h cells j 0%nat h3 = Some (h4, true) /\ db_is h4 d1 w /\ w <> v.
Proof.
  destruct demo_ok as (O & D & N). destruct demo_facts as (E1 & G7 & U & Gb & Ad). destruct demo_cells4 as (C7 & C6 & C5 & C1 & C0 & C4 & C3 & C2 & Cj & Ca).
  exists demo_heap, 7%nat, (snd demo_clone), 8%nat, demo_d, (DI 3 (str "d") (Some (set empty (str "c") (CI 5 (str "c") (Some (set (set empty (str "i") demo_i) (str "j") demo_j)) [str "i"; str "j"] Public))) [str "c"] Public).
  exists (fst demo_clone), 4%nat, demo_h2, demo_h2, demo_h4. split; [exact O|]. split; [exact D|]. split; [exact N|]. split; [rewrite <- surjective_pairing; exact E1|]. split; [exact G7|]. split; [exact U|].
  split; [|split; [exact Gb|split; [exact Ad|split; [|intros X; apply (f_equal di_colls) in X; vm_compute in X; discriminate X]]]].
  { revert D. apply (db_frame demo_heap demo_h2 (fun x => (x < 9)%nat)); [| |lia].
    - destruct O as [_ O2]. intros a c p La G Hp. exact (O2 a c p G Hp).
    - intros a c La G. rewrite (demo_cells2 a La). exact G. }
  exists (Some 5%nat), (Some (6%nat, 1%nat)). rewrite C7. split; [reflexivity|]. split.
  + exists (set empty (str "c") 4%nat). rewrite C5. split; [reflexivity|]. cbn [di_colls]. intros k. rewrite !get_set, !get_empty. destruct (bytes_eqb k (str "c")); [|exact I].
    exists (Some 2%nat), (Some (3%nat, 2%nat)). split; [exact C4|]. split.
    * eexists. split; [exact C2|]. intros k'. rewrite !get_set, !get_empty. destruct (bytes_eqb k' (str "j")).
      -- exists None, (Some (17%nat, 0%nat)). split; [exact Cj|]. split; [exact I|]. exists []. split; [exact Ca|]. split; [cbn; lia | reflexivity].
      -- destruct (bytes_eqb k' (str "i")); [|exact I]. apply demo_index_is; assumption.
    * exists [str "i"; str "j"]. split; [exact C3|]. split; [cbn; lia | reflexivity].
  + exists [str "c"]. rewrite C6. split; [reflexivity|]. split; [cbn; lia | reflexivity].
Qed.
(** "Equal" is up to nil maps: a collection whose Indices is nil panics in AddIndexInfo, its clone does not. *)
Theorem C70_nil_map_not_equal_refuted : exists h c j v, heap_ok h /\ coll_is h c v /\ AddIndexInfo_h c j 0%nat h = None /\
  exists h1 c' h2, CollectionInfo_Clone c h = Some (h1, c') /\ AddIndexInfo_h c' j 0%nat h1 = Some (h2, true).
Proof.
  exists (Heap 2%nat (fun x => if Nat.eqb x 0%nat then Some (CCol 5 (str "c") None None Public) else if Nat.eqb x 1%nat then Some (CIdx 9 (str "j") None None false Absent) else None)), 0%nat, 1%nat, (CI 5 (str "c") None [] Public).
  split; [split|split; [|split]].
  - intros a L. cbn in *. do 2 (destruct a as [|a]; [lia|]). reflexivity.
  - intros a c p G Hp. cbn in *. do 2 (destruct a as [|a]; [cbn in G; inversion G; subst c; destruct Hp|]). discriminate.
  - exists None, None. split; [reflexivity|]. split; [exact I | reflexivity].
  - reflexivity.
  - eexists. eexists. eexists. split; reflexivity.
Qed.
Print Assumptions C70_clone_db_equal.
Print Assumptions C70_clone_collection_equal.
Print Assumptions C70_clone_index_equal.
Print Assumptions C70_updates_independent_db_partial.
Print Assumptions C70_updates_independent_collection.
Print Assumptions C70_updates_independent_index.
Print Assumptions C70_original_unchanged_partial.
Print Assumptions C70_value_unique.
Print Assumptions C70_stored_pointer_shared_refuted.
Print Assumptions C70_nil_map_not_equal_refuted.
Print Assumptions C70_add_index_info.
Print Assumptions C70_update_index_info.
Print Assumptions C70_update_collection_info.
