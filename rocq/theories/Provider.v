(** Model of /repo/provider (Badger and LevelDB back ends) and of the parts of
    Badger v1.6.0 / goleveldb they call. The behaviour of Badger and goleveldb themselves
    is the assumed contract recorded in DESIGN.md. *)
From Verif Require Import Bytes SMap.

(** * Outcomes *)
Inductive err :=
| ErrKeyNotFound        (* kv/error.go:9 *)
| ErrTxnTooBig          (* kv/error.go:7 *)
| EBTooBig              (* badger.ErrTxnTooBig, before translation *)
| EBNotFound            (* badger.ErrKeyNotFound, before translation *)
| EEmptyKey | EInvalidKey | EReadOnlyTxn | EDiscardedTxn | EConflict   (* badger errors *)
| EIO                   (* any other failure of the storage engine *)
| EDecode               (* malformed stored data *)
| ENamed (name : bytes).  (* other errors.New / fmt.Errorf values of /repo, by text *)

(** a Go call ends with a value, an error, or a panic *)
Inductive result (A : Type) := Ok (a : A) | Err (e : err) | Panic.
Arguments Ok {A}. Arguments Err {A}. Arguments Panic {A}.

(** a stored entry: value, expiry time (0 = never) and user meta byte *)
Record ent := Ent { e_val : bytes; e_exp : Z; e_tag : byte }.
(** entry written by Set with nil meta *)
Definition mk (v : bytes) : ent := Ent v 0 Byte.x00.

(** badger isDeletedOrExpired: expiresAt 0 never expires, otherwise expired when <= now *)
Definition live (now : Z) (e : ent) : bool := (e_exp e =? 0) || (now <? e_exp e).

(** mondis.VMetaReq, provider.go:65-68 (TTL in seconds here: time.Duration truncated by Unix()) *)
Record vmeta := VMeta { m_ttl : Z; m_tag : byte }.

(** * Badger transactions *)
Record txn := Txn {
  t_snap : smap ent;             (* snapshot at the read timestamp *)
  t_pend : smap (option ent);    (* own writes; None = delete *)
  t_upd : bool;                  (* NewTransaction(update) *)
  t_open : bool;                 (* not discarded/committed *)
  t_lim : list bool;             (* outcome of checkSize for the next writes, true = too big;
                                    exhausted list = always accepted *)
  t_reads : list bytes;          (* keys read (conflict detection) *)
  t_rts : nat;                   (* read timestamp *)
  t_now : Z;                     (* clock; constant during a transaction (simplification) *)
  t_clamp : bool                 (* whether Iterator.Seek clamps a key below Prefix up to Prefix
                                    (differs between Badger releases; theorems quantify over it) *)
}.

Definition apply1 (m : smap ent) (p : bytes * option ent) : smap ent :=
  match snd p with Some e => set m (fst p) e | None => del m (fst p) end.
(** effect of a write set on a store *)
Definition apply_pend (m : smap ent) (p : smap (option ent)) : smap ent :=
  fold_left apply1 (entries p) m.
(** what the transaction sees: snapshot overlaid with its writes, expired entries hidden *)
Definition view (t : txn) : smap ent :=
  sfilter (fun p => live (t_now t) (snd p)) (apply_pend (t_snap t) (t_pend t)).

(** state + error monad over a transaction: [if err != nil { return }] is bind *)
Definition Tx (A : Type) : Type := txn -> txn * result A.
Definition ret {A} (a : A) : Tx A := fun t => (t, Ok a).
Definition fail {A} (e : err) : Tx A := fun t => (t, Err e).
Definition gopanic {A} : Tx A := fun t => (t, Panic).
Definition bind {A B} (m : Tx A) (k : A -> Tx B) : Tx B := fun t =>
  match m t with
  | (t', Ok a) => k a t'
  | (t', Err e) => (t', Err e)
  | (t', Panic) => (t', Panic)
  end.
(** inspect the outcome of a call (for code that tests err against a known error) *)
Definition try {A B} (m : Tx A) (k : result A -> Tx B) : Tx B := fun t =>
  match m t with
  | (t', Panic) => (t', Panic)
  | (t', r) => k r t'
  end.
Declare Scope tx_scope.
Delimit Scope tx_scope with tx.
Notation "x <- m ;; k" := (bind m (fun x => k)) (at level 61, m at next level, right associativity) : tx_scope.
Notation "m ;;; k" := (bind m (fun _ => k)) (at level 61, right associativity) : tx_scope.
Open Scope tx_scope.

Definition add_read (k : bytes) (t : txn) : txn :=
  if t_upd t then Txn (t_snap t) (t_pend t) (t_upd t) (t_open t) (t_lim t) (k :: t_reads t) (t_rts t) (t_now t) (t_clamp t)
  else t.
Definition put (k : bytes) (o : option ent) (lim : list bool) (t : txn) : txn :=
  Txn (t_snap t) (set (t_pend t) k o) (t_upd t) (t_open t) lim (t_reads t) (t_rts t) (t_now t) (t_clamp t).
Definition set_lim (lim : list bool) (t : txn) : txn :=
  Txn (t_snap t) (t_pend t) (t_upd t) (t_open t) lim (t_reads t) (t_rts t) (t_now t) (t_clamp t).

(** badger's reserved key prefix *)
Definition badger_prefix : bytes := str "!badger!".
(** key checks of badger Txn.modify. Simplification: the limits on key length (65000) and
    value length (value log file size) are not modelled. *)
Definition key_err (k : bytes) : option err :=
  match k with
  | [] => Some EEmptyKey
  | _ => if has_prefix k badger_prefix then Some EInvalidKey else None
  end.

(** badger Txn.modify: read-only, discarded, key checks, then checkSize, then record the write *)
Definition modify (k : bytes) (o : option ent) : Tx unit := fun t =>
  if negb (t_upd t) then (t, Err EReadOnlyTxn)
  else if negb (t_open t) then (t, Err EDiscardedTxn)
  else match key_err k with
       | Some e => (t, Err e)
       | None =>
           match t_lim t with
           | true :: l => (set_lim l t, Err EBTooBig)
           | false :: l => (put k o l t, Ok tt)
           | [] => (put k o [] t, Ok tt)
           end
       end.

(** reads are tracked only when not served by the transaction's own writes (badger Txn.Get) *)
Definition track (k : bytes) (t : txn) : txn :=
  match get (t_pend t) k with Some _ => t | None => add_read k t end.
(** badger Txn.Get *)
Definition bget (k : bytes) : Tx ent := fun t =>
  match k with
  | [] => (t, Err EEmptyKey)
  | _ => if negb (t_open t) then (t, Err EDiscardedTxn)
         else (track k t,
               match get (view t) k with Some e => Ok e | None => Err EBNotFound end)
  end.

(** error translation by the deferred functions, provider/badger_txn.go:14-18, 67-71 *)
Definition too_big (e : err) : err := match e with EBTooBig => ErrTxnTooBig | _ => e end.
Definition map_err {A} (f : err -> err) (m : Tx A) : Tx A := fun t =>
  match m t with (t', Err e) => (t', Err (f e)) | x => x end.

(** badger.NewEntry(k,v).WithTTL(ttl).WithMeta(tag): ExpiresAt = now + ttl, also for ttl = 0 *)
Definition entry_of (now : Z) (v : bytes) (meta : option vmeta) : ent :=
  match meta with
  | None => mk v
  | Some m => Ent v (now + m_ttl m) (m_tag m)
  end.

(** Txn.Set, provider/badger_txn.go:13-26 *)
Definition tsetm (k v : bytes) (meta : option vmeta) : Tx unit := fun t =>
  map_err too_big (modify k (Some (entry_of (t_now t) v meta))) t.
(** Set with nil meta (the only form used by the upper layers) *)
Definition tset (k v : bytes) : Tx unit := tsetm k v None.
(** Txn.Delete, provider/badger_txn.go:66-75 *)
Definition tdel (k : bytes) : Tx unit := map_err too_big (modify k None).
(** Txn.Get, provider/badger_txn.go:45-63. ValueCopy(nil) yields a nil slice exactly for an
    empty value, so [] also stands for nil in the returned value. *)
Definition not_found (e : err) : err := match e with EBNotFound => ErrKeyNotFound | _ => e end.
Definition tgetm (k : bytes) : Tx ent := map_err not_found (bget k).
Definition tget (k : bytes) : Tx bytes := e <- tgetm k ;; ret (e_val e).
(** Txn.Exists, provider/badger_txn.go:29-42 *)
Definition texists (k : bytes) : Tx bool :=
  try (bget k) (fun r => match r with
                         | Ok _ => ret true
                         | Err EBNotFound => ret false
                         | Err e => fail e
                         | Panic => gopanic
                         end).

(** mondis.ProviderScanOption, provider.go:53-62; empty Prefix = none; Offset nil/empty = none
    (badger Seek treats an empty key like Rewind) *)
Record scan_opt := ScanOpt { so_rev : bool; so_prefix : bytes; so_offset : bytes }.

(** badger Iterator Seek/Rewind/Valid/Next over the merged snapshot and pending writes, both
    fixed when the iterator is created: Seek positions over ALL keys, Valid requires the prefix.
    The start key is the offset, or the Prefix when the offset is empty, in both directions. *)
Definition seek_key (clamp : bool) (o : scan_opt) : bytes :=
  match so_offset o with
  | [] => so_prefix o
  | k => if clamp && bytes_ltb k (so_prefix o) then so_prefix o else k
  end.
Definition scan_items (clamp : bool) (m : smap ent) (o : scan_opt) : list (bytes * ent) :=
  let sk := seek_key clamp o in
  let from :=
    if so_rev o
    then match sk with
         | [] => rev (entries m)
         | _ => dropWhile (fun p => bytes_ltb sk (fst p)) (rev (entries m))
         end
    else dropWhile (fun p => bytes_ltb (fst p) sk) (entries m) in
  takeWhile (fun p => has_prefix (fst p) (so_prefix o)) from.

(** the loop of scanByBadgerTxn, provider/badger.go:120-131: visit items until the callback
    returns false; the callback may itself use the transaction. (Badger forbids a second open
    iterator in one update transaction; no code in /repo nests scans.) *)
Fixpoint scan_loop {S} (l : list (bytes * ent)) (fn : bytes -> ent -> S -> Tx (S * bool)) (s : S) : Tx S :=
  match l with
  | [] => ret s
  | (k, e) :: l' => fun t =>
      (r <- fn k e s ;; if snd r then scan_loop l' fn (fst r) else ret (fst r)) (add_read k t)
  end.
(** scanByBadgerTxn / Txn.Scan, provider/badger.go:103-133, badger_txn.go:94-98. NewIterator
    panics on a discarded transaction. *)
Definition tscan {S} (o : scan_opt) (fn : bytes -> ent -> S -> Tx (S * bool)) (s : S) : Tx S := fun t =>
  if negb (t_open t) then (t, Panic)
  else scan_loop (scan_items (t_clamp t) (view t) o) fn s t.
(** callback that collects (key, value) pairs, stopping after [n] when given *)
Definition collect (n : option nat) (k : bytes) (e : ent) (acc : list (bytes * ent)) :
    Tx (list (bytes * ent) * bool) :=
  ret (acc ++ [(k, e)],
       match n with None => true | Some n' => Nat.ltb (length acc + 1) n' end).

(** Txn.Discard *)
Definition close (t : txn) : txn :=
  Txn (t_snap t) (t_pend t) (t_upd t) false (t_lim t) (t_reads t) (t_rts t) (t_now t) (t_clamp t).
Definition discard (t : txn) : txn := close t.

(** * Badger databases *)
Record db := Db {
  d_kv : smap ent;        (* committed state *)
  d_ts : nat;             (* last commit timestamp *)
  d_last : smap nat;      (* last commit timestamp of each key *)
  d_now : Z;              (* clock *)
  d_clamp : bool
}.
Definition db_init (now : Z) (clamp : bool) : db := Db empty 0 empty now clamp.

(** Badger.NewTransaction, provider/badger.go:39-41 *)
Definition new_txn (d : db) (upd : bool) (lim : list bool) : txn :=
  Txn (d_kv d) empty upd true lim [] (d_ts d) (d_now d) (d_clamp d).

(** badger oracle.hasConflict. Badger compares 64-bit fingerprints of the keys; a collision can
    only add spurious conflicts (simplification: exact keys). *)
Definition conflict (d : db) (t : txn) : bool :=
  existsb (fun k => match get (d_last d) k with Some ts => Nat.ltb (t_rts t) ts | None => false end) (t_reads t).
Definition publish (d : db) (t : txn) : db :=
  let ts := S (d_ts d) in
  Db (apply_pend (d_kv d) (t_pend t)) ts
     (fold_left (fun m p => set m (fst p) ts) (entries (t_pend t)) (d_last d)) (d_now d) (d_clamp d).
(** Txn.Commit, provider/badger_txn.go:83-86, with badger's Commit: panics when discarded,
    nothing to do without writes, conflict check, then the atomic write, which may fail
    ([io]) without effect. The transaction is discarded in every case. *)
Definition commit (d : db) (t : txn) (io : bool) : db * txn * result unit :=
  if negb (t_open t) then (d, t, Panic)
  else match entries (t_pend t) with
       | [] => (d, close t, Ok tt)
       | _ => if conflict d t then (d, close t, Err EConflict)
              else if io then (d, close t, Err EIO)
              else (publish d t, close t, Ok tt)
       end.

(** Badger.Set / Delete / Get / Exists / Scan: one-operation transactions, badger.go:44-96.
    [lim]/[io] are the environment's choices for checkSize and the commit. *)
Definition bdb_write (d : db) (m : Tx unit) (lim : list bool) (io : bool) : db * result unit :=
  match m (new_txn d true lim) with
  | (t, Ok _) => let '(d', _, r) := commit d t io in (d', r)
  | (t, Err e) => (d, Err e)
  | (t, Panic) => (d, Panic)
  end.
Definition bdb_set d k v meta lim io := bdb_write d (tsetm k v meta) lim io.
(** Badger.Delete calls badger's Delete directly, so ErrTxnTooBig is not translated *)
Definition bdb_del d k lim io := bdb_write d (modify k None) lim io.
Definition bdb_get (d : db) (k : bytes) : result ent := snd (tgetm k (new_txn d false [])).
Definition bdb_exists (d : db) (k : bytes) : result bool := snd (texists k (new_txn d false [])).
Definition bdb_scan (d : db) (o : scan_opt) (n : option nat) : result (list (bytes * ent)) :=
  snd (tscan o (collect n) [] (new_txn d false [])).

(** * LevelDB, provider/leveldb.go *)
Definition ldb := smap bytes.
(** LevelDB.Set, 48-55 *)
Definition ldb_set (d : ldb) (k v : bytes) (meta : option vmeta) : ldb * result unit :=
  match meta with
  | Some _ => (d, Err (ENamed (str "meta not supported for LevelDB")))
  | None => (set d k v, Ok tt)
  end.
(** LevelDB.Get, 65-77: empty value returned as nil ([] here) *)
Definition ldb_get (d : ldb) (k : bytes) : result bytes :=
  match get d k with Some v => Ok v | None => Err ErrKeyNotFound end.
(** LevelDB.Exists, 58-62 *)
Definition ldb_exists (d : ldb) (k : bytes) : result bool :=
  Ok (match get d k with Some _ => true | None => false end).
(** LevelDB.Delete, 80-83 *)
Definition ldb_del (d : ldb) (k : bytes) : ldb * result unit := (del d k, Ok tt).
(** goleveldb util.BytesPrefix: upper limit = prefix truncated after its last byte < 0xFF,
    incremented; None = unbounded *)
Fixpoint lim_loop (r : bytes) : option bytes :=
  match r with
  | [] => None
  | x :: r' => if b2z x <? 255 then Some (z2b (b2z x + 1) :: r') else lim_loop r'
  end.
Definition prefix_limit (p : bytes) : option bytes := option_map (@rev byte) (lim_loop (rev p)).
Definition in_range (p k : bytes) : bool :=
  bytes_leb p k && match prefix_limit p with None => true | Some l => bytes_ltb k l end.
(** LevelDB.Scan, 88-119: iterator over the prefix range; Seek clips to the range *)
Definition ldb_items (d : ldb) (o : scan_opt) : list (bytes * bytes) :=
  let range := filter (fun p => in_range (so_prefix o) (fst p)) (entries d) in
  match so_offset o with
  | [] => range
  | k => dropWhile (fun p => bytes_ltb (fst p) k) range
  end.
Definition ldb_scan (d : ldb) (o : scan_opt) (n : option nat) : result (list (bytes * bytes)) :=
  if so_rev o then Err (ENamed (str "Reverse scan not supported for LevelDB"))
  else Ok (match n with None => ldb_items d o | Some n' => firstn (max 1 n') (ldb_items d o) end).

(** * Write batches, provider/badger_wb.go, provider/leveldb_wb.go *)
Inductive wop := WSet (k v : bytes) | WDel (k : bytes).
Definition wb_apply (m : smap ent) (o : wop) : smap ent :=
  match o with WSet k v => set m k (mk v) | WDel k => del m k end.
Definition wb_modify (o : wop) : Tx unit :=
  match o with WSet k v => modify k (Some (mk v)) | WDel k => modify k None end.
(** badgerWB.Set/Delete, badger_wb.go:7-13, over badger's WriteBatch: operations collect in a
    transaction; when it is full it is committed and the operation retried in a new one, whose
    size limits are [lim'] (badger commits asynchronously and reports a failure at Flush;
    simplification: the failure is reported by the operation itself) *)
Definition wb_op (d : db) (t : txn) (o : wop) (lim' : list bool) (io : bool) : db * txn * result unit :=
  match wb_modify o t with
  | (t1, Err EBTooBig) =>
      match commit d t1 io with
      | (d', _, Ok _) => let '(t2, r) := wb_modify o (new_txn d' true lim') in (d', t2, r)
      | (d', t2, Err e) => (d', t2, Err e)
      | (d', t2, Panic) => (d', t2, Panic)
      end
  | (t1, r) => (d, t1, r)
  end.
(** a sequence of batch operations; each carries the environment's choices *)
Fixpoint wb_run (d : db) (t : txn) (ops : list (wop * list bool * bool)) : db * txn * result unit :=
  match ops with
  | [] => (d, t, Ok tt)
  | (o, lim', io) :: ops' =>
      match wb_op d t o lim' io with
      | (d', t', Ok _) => wb_run d' t' ops'
      | x => x
      end
  end.
(** badgerWB.Commit (Flush) and Discard (Cancel), badger_wb.go:15-21 *)
Definition wb_flush (d : db) (t : txn) (io : bool) : db * txn * result unit := commit d t io.
Definition wb_cancel (t : txn) : txn := discard t.
(** goleveldb: Batch records, db.Write applies atomically in order *)
Definition lwb_apply (m : ldb) (o : wop) : ldb :=
  match o with WSet k v => set m k v | WDel k => del m k end.
Definition lwb_commit (d : ldb) (ops : list wop) : ldb * result unit := (fold_left lwb_apply ops d, Ok tt).
