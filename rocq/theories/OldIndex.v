(** Model of the index catalogue of the older document package, /repo/document/collection.go:370-601: CreateIndex,
    DropIndex, getIndexes and the in-memory copy, for any number of DB objects on one store, under any schedule.
    bson.Marshal and bson.Unmarshal of an IndexDefinition are parameters, with the contract [bson_ok]. *)
From Verif Require Import Bytes SMap Memcmp MemcmpProofs KeyModel Compact Provider ProviderProofs World Numeric UtilTxn TxPost Sequence SequenceProofs OldSequence DocKeys P_DocKeys OldDoc InsertWorld DdlSys.
From Coq Require Import Sorted.

(** IndexDefinition, document/collection.go:370-386 *)
Record idef := IDef { i_name : bytes; i_fields : list field; i_unique : bool }.
(** 100-109, 433 *)
Definition ErrIndexNameEmpty := ENamed (str "index name cannot be empty").
Definition ErrIndexFieldsEmpty := ENamed (str "index fields cannot be empty").
Definition ErrColumnsIndexed (n : bytes) := ENamed (str "there already exists index " ++ n ++ str " on the same columns").
(** keys.go:34 *)
Definition indexIDBandWidth : Z := 50.
(** EncodeCollectionColumnsIndexedKey (document/keys.go:88-95) sorts the caller's slice in place (or clears the direction of a
    single field); this is what CreateIndex puts in the in-memory map *)
Definition normed (x : idef) : idef := IDef (i_name x) (norm_fields (i_fields x)) (i_unique x).

Section code.
Context (bm : idef -> bytes) (bu : bytes -> option idef).
(** CreateIndex, 426-441: is there an index on the columns? (v != nil: a non-empty value) *)
Definition ci_check (cid : Z) (x : idef) : Tx unit :=
  try (tget (columnsKey cid (i_fields x))) (fun r =>
    match r with
    | Ok [] => ret tt
    | Ok v => fail (ErrColumnsIndexed v)
    | Err ErrKeyNotFound => ret tt
    | Err e => fail e
    | Panic => gopanic
    end).
(** 446-457: the result of the second Set is not looked at *)
Definition ci_put (cid : Z) (x : idef) (iid : Z) : Tx unit :=
  tset (columnsKey cid (i_fields x)) (i_name x) ;;;
  try (tset (indexNameKey cid (i_name x)) (EncodeVarint [] iid)) (fun _ => tset (metaIndexKey iid) (bm x)).
(** DropIndex, 553-575: an error other than not-found leaves an empty value, which does not decode *)
Definition di_read (cid : Z) (n : bytes) : Tx (option (Z * idef)) :=
  try (tget (indexNameKey cid n)) (fun r =>
    match r with
    | Err ErrKeyNotFound => ret None
    | Panic => gopanic
    | _ => match DecodeVarint (match r with Ok v => v | _ => [] end) with
           | COk _ iid => v <- tget (metaIndexKey iid) ;;
                          match bu v with Some x => ret (Some (iid, x)) | None => fail EDecode end
           | CErr _ => fail EDecode
           | CPanic => gopanic
           end
    end).
(** 578-590 *)
Definition di_del (cid : Z) (n : bytes) (iid : Z) (x : idef) : Tx unit :=
  tdel (columnsKey cid (i_fields x)) ;;; tdel (metaIndexKey iid) ;;; tdel (indexNameKey cid n).
(** getIndexes, 470-516 *)
Definition gi_cb (cid : Z) (k : bytes) (e : ent) (s : list idef * option err) : Tx (list idef * option err * bool) :=
  match decodeIndexNameKey k with
  | Err x => ret ((fst s, Some x), false)
  | Panic => gopanic
  | Ok (c, _) =>
      if negb (c =? cid) then ret ((fst s, None), false)
      else match DecodeVarint (e_val e) with
           | CErr _ => ret ((fst s, Some EDecode), false)
           | CPanic => gopanic
           | COk (_ :: _) _ => ret ((fst s, None), false)
           | COk [] iid => try (tget (metaIndexKey iid)) (fun r =>
               match r with
               | Ok v => match bu v with Some x => ret ((fst s ++ [x], None), true) | None => ret ((fst s, Some EDecode), false) end
               | Err er => ret ((fst s, Some er), false)
               | Panic => gopanic
               end)
           end
  end.
Definition getIndexes (cid : Z) : Tx (list idef) :=
  s <- tscan (ScanOpt false (indexNamePrefixOf cid) []) (gi_cb cid) ([], None) ;;
  match snd s with Some e => fail e | None => ret (fst s) end.

(** * Processes *)
(** calls in progress, of DB object xc_i: CreateIndex after its check, DropIndex before its commit *)
Record xcall := XC { xc_i : nat; xc_cid : Z; xc_def : idef; xc_t : txn }.
Record xdrop := XD { xd_i : nat; xd_cid : Z; xd_name : bytes; xd_def : idef; xd_t : txn }.
(** in-memory copies: by object and collection, name -> definition; None: not opened *)
Definition xmem := nat -> Z -> option (bytes -> option idef).
Record xworld := XW {
  xw_o : oworld;                       (* the store, and the index id sequences of the objects *)
  xw_beg : list xcall;                 (* CreateIndex calls about to draw an id *)
  xw_wait : nat -> option xcall;       (* by object: the call inside Next (it holds the sequence's mutex) *)
  xw_has : list (xcall * Z);           (* calls that drew an id *)
  xw_drop : list xdrop;
  xw_todo : list (nat * Z * bytes * option idef);  (* committed; the in-memory copy is still to be updated *)
  xw_mem : xmem }.
Definition xw_db (w : xworld) : db := ow_db (xw_o w).
Inductive xev :=
| XNewDB (i : nat) | XClose (i : nat) | XSeq (i : nat) (lim : list bool) (io : bool)
| XCreate (i : nat) (cid : Z) (x : idef) (lim : list bool)    (* CreateIndex up to its check *)
| XNext (n : nat)                                             (* the n-th of xw_beg calls nextIndexID *)
| XPut (n : nat) (io : bool)                                  (* the n-th of xw_has writes and commits *)
| XDrop (i : nat) (cid : Z) (name : bytes) (lim : list bool)  (* DropIndex up to its commit *)
| XDropPut (n : nat) (io : bool)                              (* the n-th of xw_drop commits *)
| XMem (n : nat)                                              (* the n-th of xw_todo updates the map and returns *)
| XOpen (i : nat) (cid : Z)                                   (* newCollection loads the map (collection.go:48-54) *)
| XCrash (who : nat -> bool) | XOther (t : txn) (io : bool) | XTick (n : nat).
(** what callers see: outcomes of CreateIndex and DropIndex, when they are decided *)
Inductive xobs := XoNone | XoCreate (cid : Z) (x : idef) (r : result Z) | XoDrop (cid : Z) (n : bytes) (r : result bool).
Notation xK := reservedKeywordIndex.
Definition xset_o (w : xworld) (o : oworld) : xworld := XW o (xw_beg w) (xw_wait w) (xw_has w) (xw_drop w) (xw_todo w) (xw_mem w).
Definition mem_set (m : xmem) (i : nat) (cid : Z) (n : bytes) (v : option idef) : xmem :=
  fun j c => if Nat.eqb j i && (c =? cid) then option_map (fun f => fun n' => if bytes_eqb n' n then v else f n') (m j c) else m j c.
(** fold of 50-52 *)
Definition load (l : list idef) : bytes -> option idef :=
  fold_left (fun f x => fun n => if bytes_eqb n (i_name x) then Some x else f n) l (fun _ => None).
Definition xstep (w : xworld) (e : xev) : xworld * xobs :=
  match e with
  | XNewDB i => match ow_seq (xw_o w) i with
                | Some _ => (w, XoNone)
                | None => (xset_o w (fst (ostep xK (xw_o w) (OBegin i (OcNew indexIDBandWidth)))), XoNone)
                end
  | XClose i => (xset_o w (fst (ostep xK (xw_o w) (OBegin i OcRelease))), XoNone)
  | XSeq i lim io =>
      let '(o, r) := ostep xK (xw_o w) (OEnd i lim io) in
      match xw_wait w i, r with
      | Some c, Some (Ok v) => (XW o (xw_beg w) (fupd (xw_wait w) i None) ((c, to_i64 v) :: xw_has w) (xw_drop w) (xw_todo w) (xw_mem w), XoNone)
      | Some c, Some (Err e) => (XW o (xw_beg w) (fupd (xw_wait w) i None) (xw_has w) (xw_drop w) (xw_todo w) (xw_mem w), XoCreate (xc_cid c) (xc_def c) (Err e))
      | Some c, Some Panic => (XW o (xw_beg w) (fupd (xw_wait w) i None) (xw_has w) (xw_drop w) (xw_todo w) (xw_mem w), XoCreate (xc_cid c) (xc_def c) Panic)
      | _, _ => (xset_o w o, XoNone)
      end
  | XCreate i cid x lim =>
      match i_name x, i_fields x with
      | [], _ => (w, XoCreate cid x (Err ErrIndexNameEmpty))
      | _, [] => (w, XoCreate cid x (Err ErrIndexFieldsEmpty))
      | _, _ =>
          match ci_check cid x (new_txn (xw_db w) true lim) with
          | (t, Ok _) => (XW (xw_o w) (XC i cid x t :: xw_beg w) (xw_wait w) (xw_has w) (xw_drop w) (xw_todo w) (xw_mem w), XoNone)
          | (_, Err e) => (w, XoCreate cid x (Err e))
          | (_, Panic) => (w, XoCreate cid x Panic)
          end
      end
  | XNext n =>
      match nth_error (xw_beg w) n with
      | None => (w, XoNone)
      | Some c =>
          match xw_wait w (xc_i c), ow_call (xw_o w) (xc_i c), ow_seq (xw_o w) (xc_i c) with
          | None, None, Some _ =>
              (XW (fst (ostep xK (xw_o w) (OBegin (xc_i c) OcNext))) (drop_nth n (xw_beg w)) (fupd (xw_wait w) (xc_i c) (Some c)) (xw_has w) (xw_drop w) (xw_todo w) (xw_mem w), XoNone)
          | _, _, _ => (w, XoNone)
          end
      end
  | XPut n io =>
      match nth_error (xw_has w) n with
      | None => (w, XoNone)
      | Some (c, iid) =>
          let rest (w0 : xworld) := XW (xw_o w0) (xw_beg w0) (xw_wait w0) (drop_nth n (xw_has w0)) (xw_drop w0) (xw_todo w0) (xw_mem w0) in
          match ci_put (xc_cid c) (xc_def c) iid (xc_t c) with
          | (t, Ok _) =>
              match commit (xw_db w) t io with
              | (_, _, Ok _) =>
                  (XW (fst (ostep xK (xw_o w) (OForeign t io))) (xw_beg w) (xw_wait w) (drop_nth n (xw_has w)) (xw_drop w)
                      ((xc_i c, xc_cid c, i_name (xc_def c), Some (normed (xc_def c))) :: xw_todo w) (xw_mem w),
                   XoCreate (xc_cid c) (xc_def c) (Ok iid))
              | (_, _, Err e) => (rest w, XoCreate (xc_cid c) (xc_def c) (Err e))
              | (_, _, Panic) => (rest w, XoCreate (xc_cid c) (xc_def c) Panic)
              end
          | (_, Err e) => (rest w, XoCreate (xc_cid c) (xc_def c) (Err e))
          | (_, Panic) => (rest w, XoCreate (xc_cid c) (xc_def c) Panic)
          end
      end
  | XDrop i cid name lim =>
      match name with
      | [] => (w, XoDrop cid name (Err ErrIndexNameEmpty))
      | _ =>
          match di_read cid name (new_txn (xw_db w) true lim) with
          | (_, Ok None) => (w, XoDrop cid name (Ok false))
          | (_, Err e) => (w, XoDrop cid name (Err e))
          | (_, Panic) => (w, XoDrop cid name Panic)
          | (t, Ok (Some (iid, x))) =>
              match di_del cid name iid x t with
              | (t', Ok _) => (XW (xw_o w) (xw_beg w) (xw_wait w) (xw_has w) (XD i cid name x t' :: xw_drop w) (xw_todo w) (xw_mem w), XoNone)
              | (_, Err e) => (w, XoDrop cid name (Err e))
              | (_, Panic) => (w, XoDrop cid name Panic)
              end
          end
      end
  | XDropPut n io =>
      match nth_error (xw_drop w) n with
      | None => (w, XoNone)
      | Some d =>
          let rest (w0 : xworld) := XW (xw_o w0) (xw_beg w0) (xw_wait w0) (xw_has w0) (drop_nth n (xw_drop w0)) (xw_todo w0) (xw_mem w0) in
          match commit (xw_db w) (xd_t d) io with
          | (_, _, Ok _) =>
              (XW (fst (ostep xK (xw_o w) (OForeign (xd_t d) io))) (xw_beg w) (xw_wait w) (xw_has w) (drop_nth n (xw_drop w))
                  ((xd_i d, xd_cid d, i_name (xd_def d), None) :: xw_todo w) (xw_mem w),
               XoDrop (xd_cid d) (xd_name d) (Ok true))
          | (_, _, Err e) => (rest w, XoDrop (xd_cid d) (xd_name d) (Err e))
          | (_, _, Panic) => (rest w, XoDrop (xd_cid d) (xd_name d) Panic)
          end
      end
  | XMem n =>
      match nth_error (xw_todo w) n with
      | None => (w, XoNone)
      | Some (i, cid, name, v) => (XW (xw_o w) (xw_beg w) (xw_wait w) (xw_has w) (xw_drop w) (drop_nth n (xw_todo w)) (mem_set (xw_mem w) i cid name v), XoNone)
      end
  | XOpen i cid =>
      match xw_mem w i cid, run_view (xw_db w) (getIndexes cid) with
      | None, Ok l => (XW (xw_o w) (xw_beg w) (xw_wait w) (xw_has w) (xw_drop w) (xw_todo w)
                          (fun j c => if Nat.eqb j i && (c =? cid) then Some (load l) else xw_mem w j c), XoNone)
      | _, _ => (w, XoNone)
      end
  | XCrash who =>
      (XW (fst (ostep xK (xw_o w) (OCrash who))) (filter (fun c => negb (who (xc_i c))) (xw_beg w)) (fun i => if who i then None else xw_wait w i)
          (filter (fun p => negb (who (xc_i (fst p)))) (xw_has w)) (filter (fun d => negb (who (xd_i d))) (xw_drop w))
          (filter (fun p => negb (who (fst (fst (fst p))))) (xw_todo w)) (fun i => if who i then fun _ => None else xw_mem w i), XoNone)
  | XOther t io => (xset_o w (fst (ostep xK (xw_o w) (OForeign t io))), XoNone)
  | XTick n => (xset_o w (fst (ostep xK (xw_o w) (OTick n))), XoNone)
  end.
Fixpoint xrun (w : xworld) (es : list xev) : xworld * list xobs :=
  match es with
  | [] => (w, [])
  | e :: es' => let '(w1, r) := xstep w e in let '(w2, rs) := xrun w1 es' in (w2, r :: rs)
  end.
Definition xstart (d : db) : xworld := XW (OW d (fun _ => None) (fun _ => None)) [] (fun _ => None) [] [] [] (fun _ _ => None).
End code.

(** the contract of the codec *)
Definition bson_ok (bm : idef -> bytes) (bu : bytes -> option idef) : Prop := forall x, bu (bm x) = Some x.

(** * Specification: the catalogue *)
(** by collection id and index name *)
Definition cat := Z -> bytes -> option idef.
Definition cat_set (C : cat) (cid : Z) (n : bytes) (v : option idef) : cat :=
  fun c m => if (c =? cid) && bytes_eqb m n then v else C c m.
Definition cat_step (C : cat) (o : xobs) : cat :=
  match o with
  | XoCreate cid x (Ok _) => cat_set C cid (i_name x) (Some x)
  | XoDrop cid n (Ok true) => cat_set C cid n None
  | _ => C
  end.
Definition cat_after (C : cat) (os : list xobs) : cat := fold_left cat_step os C.
Definition same_columns (x y : idef) : Prop := norm_fields (i_fields x) = norm_fields (i_fields y).
(** l lists the indexes of C, in the order of their names *)
Definition listing (C : bytes -> option idef) (l : list idef) : Prop :=
  StronglySorted (fun x y => bytes_lt (i_name x) (i_name y)) l /\ forall x, In x l <-> C (i_name x) = Some x.
