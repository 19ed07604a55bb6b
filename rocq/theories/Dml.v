(** Model of /repo/document/dml (collection.go, base.go, sequence.go): operations on the documents
    of a collection, inside a transaction of the caller or in one of their own.
    A document is represented by the bytes bson.Marshal produced; decoding them again into the
    caller's variable (bson.Unmarshal) and the failure of bson.Marshal are not modelled. *)
From Verif Require Import Bytes SMap KeyModel Provider World UtilTxn Sequence Model Schema DocTxn DocKeys.

Definition ErrDocNotFound := ENamed (str "document not found").
Definition ErrDocExists := ENamed (str "document already exists").
Definition ErrCollectionNotExists := ENamed (str "collection not exists").
Definition ErrSequenceNotExists := ENamed (str "sequence not exists").

(** * The statements executed for a collection of id [cid] *)
Inductive umode := ForUpdate | ForUpsert | ForInsert.
(** updateFunc, dml/collection.go:161-199, after the collection is found: (existsForUpdate, isNewForUpsert) *)
Definition doc_update (md : umode) (cid did : Z) (data : bytes) : Tx (bool * bool) :=
  let k := docKey cid did in
  ex <- texists k ;;
  match md with
  | ForUpdate => if ex then tset k data ;;; ret (ex, false) else ret (ex, false)
  | ForUpsert => tset k data ;;; ret (ex, negb ex)
  | ForInsert => if ex then fail ErrDocExists else tset k data ;;; ret (ex, false)
  end.
(** GetOne, 211-242 *)
Definition doc_get (cid did : Z) : Tx bytes :=
  try (tget (docKey cid did)) (fun r =>
    match r with Ok v => ret v | Err ErrKeyNotFound => fail ErrDocNotFound | Err e => fail e | Panic => gopanic end).
(** GetMany, 245-290: documents appended to the caller's slice before an error stay there *)
Fixpoint doc_getmany (cid : Z) (dids : list Z) (acc : list bytes) : Tx (list bytes * option err) :=
  match dids with
  | [] => ret (acc, None)
  | did :: dids' =>
      try (doc_get cid did) (fun r =>
        match r with Ok v => doc_getmany cid dids' (acc ++ [v]) | Err e => ret (acc, Some e) | Panic => gopanic end)
  end.
(** GetAll, 340-382 *)
Definition doc_getall (cid : Z) : Tx (list bytes) :=
  tscan (ScanOpt false (docPrefix cid) []) (fun _ e l => ret (l ++ [e_val e], true)) [].
(** Count, 385-410 *)
Definition doc_count (cid : Z) : Tx nat :=
  tscan (ScanOpt false (docPrefix cid) []) (fun _ _ n => ret (S n, true)) 0%nat.
(** deleteAllWithTxn, 427-453 *)
Definition doc_deleteall (cid : Z) : Tx nat :=
  s <- tscan (ScanOpt false (docPrefix cid) [])
         (fun k _ s => try (tdel k) (fun r =>
            match r with Ok _ => ret ((S (fst s), None), true) | Err e => ret ((fst s, Some e), false) | Panic => gopanic end))
         (0%nat, @None err) ;;
  match snd s with Some e => fail e | None => ret (fst s) end.
(** GetDidRange, 293-337: the callback stops at the first key; without any key the results keep
    their zero values *)
Definition range_cb (k : bytes) (e : ent) (s : result Z) : Tx (result Z * bool) :=
  ret (match decodeDocKey k with Ok (_, did) => Ok did | Err x => Err x | Panic => Panic end, false).
Definition of_result {A} (r : result A) : Tx A := match r with Ok a => ret a | Err e => fail e | Panic => gopanic end.
Definition doc_range (cid : Z) : Tx (Z * Z) :=
  mn <- tscan (ScanOpt false [] (docPrefix cid)) range_cb (Ok 0) ;;
  mn <- of_result mn ;;
  mx <- tscan (ScanOpt true [] (PrefixNext (docPrefix cid))) range_cb (Ok 0) ;;
  mx <- of_result mx ;;
  ret (mn, mx).

(** the exported methods except InsertOne *)
Inductive docop :=
| OUpdate (did : Z) (data : bytes)     (* UpdateOne *)
| OUpsert (did : Z) (data : bytes)     (* UpsertOne *)
| OInsert (did : Z) (data : bytes)     (* InsertOneManaged *)
| ODelete (did : Z)                    (* DeleteOne *)
| OGet (did : Z)                       (* GetOne *)
| OGetMany (dids : list Z)             (* GetMany *)
| OGetAll | OCount | ODeleteAll
| ORange.                              (* GetDidRange *)
Inductive docval :=
| VUnit | VBool (b : bool) | VDoc (v : bytes) | VDocs (l : list bytes) (e : option err) | VNum (n : nat) | VRange (mn mx : Z).
Definition op_tx (cid : Z) (o : docop) : Tx docval :=
  match o with
  | OUpdate did v => r <- doc_update ForUpdate cid did v ;; ret (VBool (fst r))
  | OUpsert did v => r <- doc_update ForUpsert cid did v ;; ret (VBool (snd r))
  | OInsert did v => doc_update ForInsert cid did v ;;; ret VUnit
  | ODelete did => tdel (docKey cid did) ;;; ret VUnit                           (* 118-140 *)
  | OGet did => v <- doc_get cid did ;; ret (VDoc v)
  | OGetMany dids => r <- doc_getmany cid dids [] ;; ret (VDocs (fst r) (snd r))
  | OGetAll => l <- doc_getall cid ;; ret (VDocs l None)
  | OCount => n <- doc_count cid ;; ret (VNum n)
  | ODeleteAll => n <- doc_deleteall cid ;; ret (VNum n)
  | ORange => r <- doc_range cid ;; ret (VRange (fst r) (snd r))
  end.
Definition op_writes (o : docop) : bool :=
  match o with OUpdate _ _ | OUpsert _ _ | OInsert _ _ | ODelete _ | ODeleteAll => true | _ => false end.

(** * With the caller's transaction *)
(** the collection a transaction resolves a name to: StartMetaCache().CollectionInfo *)
Definition resolve (start : option cref) (dbn coll : bytes) : option Z :=
  option_map ci_id (cacheCollectionInfo (option_map c_val start) dbn coll).
(** the common shape: find the collection, mark it (only in the caller's transaction), act *)
Definition with_coll {A} (mark : bool) (x : dtxn) (dbn coll : bytes) (f : Z -> Tx A) : dtxn * result A :=
  match resolve (dt_start x) dbn coll with
  | None => (x, Err ErrCollectionNotExists)
  | Some cid =>
      let x1 := if mark then ReferredCollections x [cid] else x in
      let '(t, r) := f cid (dt_t x1) in (with_t x1 t, r)
  end.
Definition coll_op (x : dtxn) (dbn coll : bytes) (o : docop) : dtxn * result docval :=
  with_coll true x dbn coll (fun cid => op_tx cid o).

(** * Without a transaction (t = nil) *)
(** RunInNewUpdateTxn, base.go:20-31: [h0],[d0] when the transaction is created, [h1],[d1] when it
    commits *)
Definition run_doc_update {A} (h0 h1 : handle) (d0 d1 : db) (lim : list bool) (io : bool)
    (f : dtxn -> dtxn * result A) : handle * db * result A * list nat :=
  match f (NewTxn h0 d0 true lim) with
  | (_, Err e) => (h1, d1, Err e, [])
  | (_, Panic) => (h1, d1, Panic, [])
  | (x, Ok a) =>
      let '(h', d', _, r, ran) := dcommit h1 d1 io x in
      (h', d', match r with Ok _ => Ok a | Err e => Err e | Panic => Panic end, ran)
  end.
Definition auto_op (h0 h1 : handle) (d0 d1 : db) (lim : list bool) (io : bool) (dbn coll : bytes) (o : docop) :
    handle * db * result docval :=
  if op_writes o then
    let '(h', d', r, _) := run_doc_update h0 h1 d0 d1 lim io (fun x => with_coll false x dbn coll (fun cid => op_tx cid o)) in (h', d', r)
  else (h1, d1, snd (with_coll false (NewTxn h0 d0 false []) dbn coll (fun cid => op_tx cid o))).

(** * InsertOne, 47-95 *)
(** the global map of sequences, dml/sequence.go:12-28: collection id to sequence *)
Definition seqmap := Z -> option seq.
Definition zupd {A} (f : Z -> option A) (i : Z) (o : option A) : Z -> option A := fun j => if Z.eqb j i then o else f j.
(** insertFunc, 55-87. [sd0],[sd1],[slim],[sio]: the databases and choices met by the transaction of
    the sequence; [f] names the new cancel function (PutBack of the id). The outcome carries the value
    of the named result did. Line 59 assigns ErrCollectionNotExists to the outer err, which lines 91-93
    overwrite with the nil ierr. Line 81 tests the outer err (nil), so a failing Set still registers
    the cancel function. *)
Definition insertFunc (mark : bool) (S : seqmap) (x : dtxn) (dbn coll data : bytes) (f : nat)
    (sd0 sd1 : db) (slim : list bool) (sio : bool) : seqmap * db * dtxn * (Z * result unit) :=
  match resolve (dt_start x) dbn coll with
  | None => (S, sd1, x, (0, Ok tt))
  | Some cid =>
      let x1 := if mark then ReferredCollections x [cid] else x in
      match S cid with
      | None => (S, sd1, x1, (0, Err ErrSequenceNotExists))
      | Some q =>
          match q_exec sd0 sd1 slim sio q QNext with
          | (sd, q', Ok (QId did)) =>
              let '(t, r) := tset (docKey cid did) data (dt_t x1) in
              let '(x2, r2) := AddCancelFunc (with_t x1 t) f in
              (zupd S cid (Some q'), sd, x2, (did, match r2 with Panic => Panic | _ => r end))
          | (sd, q', Ok _) => (zupd S cid (Some q'), sd, x1, (0, Ok tt))        (* Next returns an id *)
          | (sd, q', Err e) => (zupd S cid (Some q'), sd, x1, (0, Err e))
          | (sd, q', Panic) => (zupd S cid (Some q'), sd, x1, (0, Panic))
          end
      end
  end.

(** * Specification: a collection is a finite map from ids to documents *)
Definition zmap := list (Z * bytes).   (* sorted by id *)
Fixpoint zget (m : zmap) (k : Z) : option bytes :=
  match m with [] => None | (j, v) :: m' => if k =? j then Some v else zget m' k end.
Fixpoint zset (m : zmap) (k : Z) (v : bytes) : zmap :=
  match m with
  | [] => [(k, v)]
  | (j, w) :: m' => if k <? j then (k, v) :: m else if k =? j then (k, v) :: m' else (j, w) :: zset m' k v
  end.
Fixpoint zdel (m : zmap) (k : Z) : zmap :=
  match m with [] => [] | (j, w) :: m' => if k =? j then m' else (j, w) :: zdel m' k end.
Definition has (m : zmap) (k : Z) : bool := match zget m k with Some _ => true | None => false end.
Fixpoint zgetmany (m : zmap) (ks : list Z) : list bytes * option err :=
  match ks with
  | [] => ([], None)
  | k :: ks' => match zget m k with
                | None => ([], Some ErrDocNotFound)
                | Some v => let '(l, e) := zgetmany m ks' in (v :: l, e)
                end
  end.
(** the outcome of an operation and the collection afterwards *)
Definition doc_spec (m : zmap) (o : docop) : result docval * zmap :=
  match o with
  | OUpdate k v => (Ok (VBool (has m k)), if has m k then zset m k v else m)
  | OUpsert k v => (Ok (VBool (negb (has m k))), zset m k v)
  | OInsert k v => if has m k then (Err ErrDocExists, m) else (Ok VUnit, zset m k v)
  | ODelete k => (Ok VUnit, zdel m k)
  | OGet k => (match zget m k with Some v => Ok (VDoc v) | None => Err ErrDocNotFound end, m)
  | OGetMany ks => (let '(l, e) := zgetmany m ks in Ok (VDocs l e), m)
  | OGetAll => (Ok (VDocs (map snd m) None), m)
  | OCount => (Ok (VNum (length m)), m)
  | ODeleteAll => (Ok (VNum (length m)), [])
  | ORange => (match m with [] => Err ErrDocNotFound | (a, _) :: _ => Ok (VRange a (fst (last m (0, [])))) end, m)
  end.
(** all collections: by id; names are resolved by a schema *)
Definition dstore := Z -> zmap.
Definition dupd (D : dstore) (c : Z) (m : zmap) : dstore := fun j => if j =? c then m else D j.
Definition store_spec (cid : option Z) (D : dstore) (o : docop) : result docval * dstore :=
  match cid with
  | None => (Err ErrCollectionNotExists, D)
  | Some c => let '(r, m) := doc_spec (D c) o in (r, dupd D c m)
  end.
