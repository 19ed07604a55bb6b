(** Model of /repo/document/model/model.go with an explicit heap: pointers, maps, slices with their backing arrays. *)
From Verif Require Import Bytes SMap Model.

Definition addr := nat.
(** a []string: nil, or a backing array and a length (the code never slices, so the offset is 0); the capacity is the
    size of the array *)
Definition slice := option (addr * nat).
(** what is allocated: backing arrays of []string, the structs of model.go:11-41, maps (values are pointers) *)
Inductive cell :=
| CArr (l : list bytes)
| CRed (r : IndexInfoRedundant)
| CIdx (id : Z) (name : bytes) (red : option addr) (cols : slice) (unique : bool) (st : sstate)
| CIMap (m : smap addr)
| CCol (id : Z) (name : bytes) (ind : option addr) (order : slice) (st : sstate)
| CCMap (m : smap addr)
| CDb (id : Z) (name : bytes) (colls : option addr) (order : slice) (st : sstate).
Record heap := Heap { h_next : addr; h_cell : addr -> option cell }.
(** code: None is a panic (nil or ill-typed dereference, assignment to a nil map) *)
Definition H (A : Type) := heap -> option (heap * A).
Definition hret {A} (a : A) : H A := fun h => Some (h, a).
Definition hbind {A B} (m : H A) (k : A -> H B) : H B := fun h => match m h with Some (h', a) => k a h' | None => None end.
Definition hpanic {A} : H A := fun _ => None.
Notation "x <~ m ;; k" := (hbind m (fun x => k)) (at level 61, m at next level, right associativity).
Definition hread (a : addr) : H cell := fun h => match h_cell h a with Some c => Some (h, c) | None => None end.
Definition hwrite (a : addr) (c : cell) : H unit := fun h => Some (Heap (h_next h) (fun x => if Nat.eqb x a then Some c else h_cell h x), tt).
Definition halloc (c : cell) : H addr := fun h => Some (Heap (S (h_next h)) (fun x => if Nat.eqb x (h_next h) then Some c else h_cell h x), h_next h).
(** make([]string, len(s)) and the copying loop *)
Definition copy_slice (s : slice) : H slice :=
  match s with
  | None => a <~ halloc (CArr []) ;; hret (Some (a, 0%nat))
  | Some (x, n) => c <~ hread x ;; match c with CArr l => a <~ halloc (CArr (firstn n l)) ;; hret (Some (a, n)) | _ => hpanic end
  end.
(** append(s, v): in place when the capacity allows, else a new array, with some spare capacity *)
Fixpoint put_at {A} (n : nat) (v : A) (l : list A) : list A :=
  match l, n with [], _ => [] | _ :: l', O => v :: l' | x :: l', S n' => x :: put_at n' v l' end.
Definition append_slice (s : slice) (v : bytes) (spare : nat) : H slice :=
  match s with
  | None => a <~ halloc (CArr (v :: repeat [] spare)) ;; hret (Some (a, 1%nat))
  | Some (x, n) =>
      c <~ hread x ;;
      match c with
      | CArr l => if Nat.ltb n (length l) then _ <~ hwrite x (CArr (put_at n v l)) ;; hret (Some (x, S n))
                  else a <~ halloc (CArr (firstn n l ++ v :: repeat [] spare)) ;; hret (Some (a, S n))
      | _ => hpanic
      end
  end.
(** IndexInfo.Clone, 226-237 *)
Definition IndexInfo_Clone (a : addr) : H addr :=
  c <~ hread a ;;
  match c with
  | CIdx id name red cols u st =>
      red' <~ match red with None => hret None | Some r => c <~ hread r ;; match c with CRed v => x <~ halloc (CRed v) ;; hret (Some x) | _ => hpanic end end ;;
      cols' <~ copy_slice cols ;;
      halloc (CIdx id name red' cols' u st)
  | _ => hpanic
  end.
(** the loops over maps, 169-171 and 183-185. Go's order of iteration is random; it decides only which fresh address
    each copy gets. The new map is allocated after its elements here, before them in the code. *)
Fixpoint clone_entries (f : addr -> H addr) (l : list (bytes * addr)) (acc : smap addr) : H (smap addr) :=
  match l with
  | [] => hret acc
  | (k, p) :: l' => p' <~ f p ;; clone_entries f l' (set acc k p')
  end.
Definition ptr_map (o : option addr) : H (smap addr) :=
  match o with None => hret empty | Some x => c <~ hread x ;; match c with CIMap m | CCMap m => hret m | _ => hpanic end end.
(** CollectionInfo.Clone, 179-190 *)
Definition CollectionInfo_Clone (a : addr) : H addr :=
  c <~ hread a ;;
  match c with
  | CCol id name ind order st =>
      m <~ ptr_map ind ;; m' <~ clone_entries IndexInfo_Clone (entries m) empty ;; ind' <~ halloc (CIMap m') ;;
      order' <~ copy_slice order ;;
      halloc (CCol id name (Some ind') order' st)
  | _ => hpanic
  end.
(** DBInfo.Clone, 165-176 *)
Definition DBInfo_Clone (a : addr) : H addr :=
  c <~ hread a ;;
  match c with
  | CDb id name colls order st =>
      m <~ ptr_map colls ;; m' <~ clone_entries CollectionInfo_Clone (entries m) empty ;; colls' <~ halloc (CCMap m') ;;
      order' <~ copy_slice order ;;
      halloc (CDb id name (Some colls') order' st)
  | _ => hpanic
  end.
(** lookup in a possibly nil map: 146, 161, 194, 205, 217 *)
Definition lookup (o : option addr) (k : bytes) : H (option addr) := m <~ ptr_map o ;; hret (get m k).
(** UpdateIndexInfo, 193-201 *)
Definition UpdateIndexInfo_h (c arg : addr) : H bool :=
  x <~ hread c ;; y <~ hread arg ;;
  match x, y with
  | CCol _ _ ind _ _, CIdx _ name _ _ _ _ =>
      o <~ lookup ind name ;;
      match o, ind with
      | None, _ => hret false
      | Some _, Some mp => p <~ IndexInfo_Clone arg ;; m <~ ptr_map ind ;; _ <~ hwrite mp (CIMap (set m name p)) ;; hret true
      | _, _ => hpanic
      end
  | _, _ => hpanic
  end.
(** AddIndexInfo, 204-213 *)
Definition AddIndexInfo_h (c arg : addr) (spare : nat) : H bool :=
  x <~ hread c ;; y <~ hread arg ;;
  match x, y with
  | CCol id nm ind order st, CIdx _ name _ _ _ _ =>
      o <~ lookup ind name ;;
      match o with
      | Some _ => hret false
      | None =>
          p <~ IndexInfo_Clone arg ;;
          match ind with
          | None => hpanic
          | Some mp => m <~ ptr_map ind ;; _ <~ hwrite mp (CIMap (set m name p)) ;;
                       order' <~ append_slice order name spare ;; _ <~ hwrite c (CCol id nm ind order' st) ;; hret true
          end
      end
  | _, _ => hpanic
  end.
(** UpdateCollectionInfo, 145-152: the pointer itself is stored *)
Definition UpdateCollectionInfo_h (d arg : addr) : H bool :=
  x <~ hread d ;; y <~ hread arg ;;
  match x, y with
  | CDb _ _ colls _ _, CCol _ name _ _ _ =>
      o <~ lookup colls name ;;
      match o, colls with
      | None, _ => hret false
      | Some _, Some mp => m <~ ptr_map colls ;; _ <~ hwrite mp (CCMap (set m name arg)) ;; hret true
      | _, _ => hpanic
      end
  | _, _ => hpanic
  end.
(** CollectionInfo(name), 160-162; IndexInfo(name), 216-218 (nil: the caller's dereference panics) *)
Definition get_coll (d : addr) (cn : bytes) : H addr :=
  x <~ hread d ;; match x with CDb _ _ colls _ _ => o <~ lookup colls cn ;; match o with Some p => hret p | None => hpanic end | _ => hpanic end.
Definition get_idx (c : addr) (n : bytes) : H addr :=
  x <~ hread c ;; match x with CCol _ _ ind _ _ => o <~ lookup ind n ;; match o with Some p => hret p | None => hpanic end | _ => hpanic end.

(** * What a holder of an object can do with it: the methods, and assignments to the exported fields *)
Inductive iop :=
| ISet (id : Z) (name : bytes) (u : bool) (st : sstate)  (* ii.ID, ii.Name, ii.Unique, ii.State = ... *)
| IColumn (j : nat) (v : bytes)                          (* ii.Columns[j] = v *)
| IRed (r : IndexInfoRedundant).                         (* *ii.JobRedundant = r *)
Inductive cop :=
| CAdd (arg : addr) (spare : nat)                        (* c.AddIndexInfo(arg) *)
| CUpdate (arg : addr)                                   (* c.UpdateIndexInfo(arg) *)
| CSet (id : Z) (name : bytes) (st : sstate)
| CDelete (idx : bytes)                                  (* delete(c.Indices, idx) *)
| COrder (v : bytes) (spare : nat)                       (* c.IndexOrder = append(c.IndexOrder, v) *)
| CIndex (idx : bytes) (o : iop).                        (* on c.IndexInfo(idx) *)
Inductive dop :=
| DUpdate (arg : addr)                                   (* d.UpdateCollectionInfo(arg) *)
| DUpdateClone (arg : addr)                              (* d.UpdateCollectionInfo(arg.Clone()) *)
| DUpdateOwn (cn : bytes)                                (* d.UpdateCollectionInfo(d.CollectionInfo(cn)) *)
| DSet (id : Z) (name : bytes) (st : sstate)
| DColl (cn : bytes) (o : cop).                          (* on d.CollectionInfo(cn) *)
Definition irun (p : addr) (o : iop) : H unit :=
  x <~ hread p ;;
  match x, o with
  | CIdx _ _ red cols _ _, ISet id name u st => hwrite p (CIdx id name red cols u st)
  | CIdx _ _ _ (Some (a, n)) _ _, IColumn j v => if Nat.ltb j n then y <~ hread a ;; match y with CArr l => hwrite a (CArr (put_at j v l)) | _ => hpanic end else hpanic
  | CIdx _ _ (Some a) _ _ _, IRed r => hwrite a (CRed r)
  | _, _ => hpanic
  end.
Definition crun (c : addr) (o : cop) : H unit :=
  match o with
  | CAdd arg sp => _ <~ AddIndexInfo_h c arg sp ;; hret tt
  | CUpdate arg => _ <~ UpdateIndexInfo_h c arg ;; hret tt
  | CIndex i o => p <~ get_idx c i ;; irun p o
  | _ => x <~ hread c ;;
      match x, o with
      | CCol _ _ ind order _, CSet id name st => hwrite c (CCol id name ind order st)
      | CCol id name ind order st, COrder v sp => order' <~ append_slice order v sp ;; hwrite c (CCol id name ind order' st)
      | CCol _ _ (Some mp) _ _, CDelete i => m <~ ptr_map (Some mp) ;; hwrite mp (CIMap (del m i))
      | CCol _ _ None _ _, CDelete i => hret tt
      | _, _ => hpanic
      end
  end.
Definition drun (d : addr) (o : dop) : H unit :=
  match o with
  | DUpdate arg => _ <~ UpdateCollectionInfo_h d arg ;; hret tt
  | DUpdateClone arg => c <~ CollectionInfo_Clone arg ;; _ <~ UpdateCollectionInfo_h d c ;; hret tt
  | DUpdateOwn cn => c <~ get_coll d cn ;; _ <~ UpdateCollectionInfo_h d c ;; hret tt
  | DSet id name st => x <~ hread d ;; match x with CDb _ _ colls order _ => hwrite d (CDb id name colls order st) | _ => hpanic end
  | DColl cn o => c <~ get_coll d cn ;; crun c o
  end.
(** operations on any of the three kinds of object; [oper_safe]: not the one storing a pointer of the caller's *)
Inductive oper := OpI (o : iop) | OpC (o : cop) | OpD (o : dop).
Definition orun1 (a : addr) (o : oper) : H unit := match o with OpI o => irun a o | OpC o => crun a o | OpD o => drun a o end.
Definition oper_safe (o : oper) : Prop := match o with OpD (DUpdate _) => False | _ => True end.
(** a panicking operation does nothing (the ones above panic before they write) *)
Definition ostep1 (a : addr) (o : oper) (h : heap) : heap := match orun1 a o h with Some (h', _) => h' | None => h end.
(** any interleaving of operations on two objects: true is the first *)
Definition orun2 (a b : addr) (os : list (bool * oper)) (h : heap) : heap :=
  fold_left (fun h p => ostep1 (if fst p : bool then a else b) (snd p) h) os h.

(** * Specification: the object at an address, as a value *)
Definition slice_is (h : heap) (s : slice) (l : list bytes) : Prop :=
  match s with
  | None => l = []
  | Some (a, n) => exists arr, h_cell h a = Some (CArr arr) /\ (n <= length arr)%nat /\ l = firstn n arr
  end.
Definition red_is (h : heap) (p : option addr) (o : option IndexInfoRedundant) : Prop :=
  match p, o with None, None => True | Some a, Some r => h_cell h a = Some (CRed r) | _, _ => False end.
Definition index_is (h : heap) (a : addr) (v : IndexInfo) : Prop :=
  exists red cols, h_cell h a = Some (CIdx (ii_id v) (ii_name v) red cols (ii_unique v) (ii_state v)) /\ red_is h red (ii_red v) /\ slice_is h cols (ii_cols v).
Definition map_is {A} (mk : smap addr -> cell) (el : heap -> addr -> A -> Prop) (h : heap) (p : option addr) (o : option (smap A)) : Prop :=
  match p, o with
  | None, None => True
  | Some a, Some vm => exists m, h_cell h a = Some (mk m) /\
      forall k, match get m k, get vm k with Some x, Some v => el h x v | None, None => True | _, _ => False end
  | _, _ => False
  end.
Definition coll_is (h : heap) (a : addr) (v : CollectionInfo) : Prop :=
  exists ind order, h_cell h a = Some (CCol (ci_id v) (ci_name v) ind order (ci_state v)) /\ map_is CIMap index_is h ind (ci_indices v) /\ slice_is h order (ci_order v).
Definition db_is (h : heap) (a : addr) (v : DBInfo) : Prop :=
  exists colls order, h_cell h a = Some (CDb (di_id v) (di_name v) colls order (di_state v)) /\ map_is CCMap coll_is h colls (di_colls v) /\ slice_is h order (di_order v).
(** pointers stored in a cell *)
Definition slice_ptrs (s : slice) : list addr := match s with Some (a, _) => [a] | None => [] end.
Definition opt_ptrs (o : option addr) : list addr := match o with Some a => [a] | None => [] end.
Definition ptrs (c : cell) : list addr :=
  match c with
  | CArr _ | CRed _ => []
  | CIdx _ _ red cols _ _ => opt_ptrs red ++ slice_ptrs cols
  | CIMap m | CCMap m => map snd (entries m)
  | CCol _ _ ind order _ => opt_ptrs ind ++ slice_ptrs order
  | CDb _ _ colls order _ => opt_ptrs colls ++ slice_ptrs order
  end.
(** heaps of Go programs: what is allocated lies below h_next, and points there *)
Definition heap_ok (h : heap) : Prop :=
  (forall a, (h_next h <= a)%nat -> h_cell h a = None) /\ (forall a c p, h_cell h a = Some c -> In p (ptrs c) -> (p < h_next h)%nat).
