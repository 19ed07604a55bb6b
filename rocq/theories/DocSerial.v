(** C87: any number of clients working on documents at the same time. Model of the histories of
    transactions of document/txn/txn.go used through document/dml/collection.go over one Badger
    database (provider/badger_txn.go), and what a client can write down about them.
    A call works on the private state of its transaction only (the snapshot it took when it was
    created and its own writes), so calls of different transactions interleave as whole steps;
    the database is met when a transaction is created and when it commits.
    Not modelled here: size limits (see C30, C31), a transaction used again after Commit or Discard
    (see C66). *)
From Verif Require Import Bytes SMap Provider World Model Schema DocTxn DocKeys Dml.

(** a call on a collection. [mark]: with the caller's transaction (collection.go marks the collection
    as referred to only then); otherwise with the transaction the method created for itself (t = nil).
    [InsertOne] is given the id its sequence handed out and the name of its cancel function. *)
Inductive call :=
| Op (mark : bool) (dbn coll : bytes) (o : docop)
| InsertOne (mark : bool) (dbn coll : bytes) (did : Z) (data : bytes) (f : nat).
(** collection.go:55-87 for InsertOne, after the id was obtained (61-71); the rest is [with_coll] *)
Definition call_exec (x : dtxn) (c : call) : dtxn * result docval :=
  match c with
  | Op mark dbn coll o => with_coll mark x dbn coll (fun cid => op_tx cid o)
  | InsertOne mark dbn coll did data f =>
      match resolve (dt_start x) dbn coll with
      | None => (x, Ok VUnit)
      | Some cid =>
          let x1 := if mark then ReferredCollections x [cid] else x in
          let '(t, r) := tset (docKey cid did) data (dt_t x1) in
          let '(x2, r2) := AddCancelFunc (with_t x1 t) f in
          (x2, match r2 with Panic => Panic | _ => match r with Ok _ => Ok VUnit | Err e => Err e | Panic => Panic end end)
      end
  end.

(** one database, any number of transactions named by numbers *)
Record dworld := DW { dw_db : db; dw_tx : nat -> option dtxn }.
Definition dw_upd (f : nat -> option dtxn) (i : nat) (o : option dtxn) : nat -> option dtxn :=
  fun j => if Nat.eqb j i then o else f j.
Inductive dev :=
| DBegin (h : handle) (i : nat) (upd : bool)      (* NewTxn (txn.go:24-28) when the schema handle is [h] *)
| DCall (i : nat) (c : call)
| DCommit (h : handle) (i : nat) (io : bool)      (* Commit (41-68), followed by Discard *)
| DDiscard (i : nat)
| DOther (t : txn) (io : bool)                    (* some other transaction commits: sequences, schema changes *)
| DTick (n : nat).
Inductive answer := AVal (r : result docval) | ADone (r : result unit) | ANone.
Definition dstep (w : dworld) (e : dev) : dworld * answer :=
  match e with
  | DBegin h i upd => (DW (dw_db w) (dw_upd (dw_tx w) i (Some (NewTxn h (dw_db w) upd []))), ANone)
  | DCall i c =>
      match dw_tx w i with
      | None => (w, ANone)
      | Some x => let '(x', r) := call_exec x c in (DW (dw_db w) (dw_upd (dw_tx w) i (Some x')), AVal r)
      end
  | DCommit h i io =>
      match dw_tx w i with
      | None => (w, ANone)
      | Some x => let '(_, d, _, r, _) := dcommit h (dw_db w) io x in (DW d (dw_upd (dw_tx w) i None), ADone r)
      end
  | DDiscard i => (DW (dw_db w) (dw_upd (dw_tx w) i None), ANone)
  | DOther t io => let '(d, _, _) := commit (dw_db w) t io in (DW d (dw_tx w), ANone)
  | DTick n => (DW (Db (d_kv (dw_db w)) (d_ts (dw_db w)) (d_last (dw_db w)) (d_now (dw_db w) + Z.of_nat n) (d_clamp (dw_db w))) (dw_tx w), ANone)
  end.
Fixpoint dhist (w : dworld) (es : list dev) : dworld * list answer :=
  match es with
  | [] => (w, [])
  | e :: es' => let '(w1, a) := dstep w e in let '(w2, l) := dhist w1 es' in (w2, a :: l)
  end.
Definition dfresh (now : Z) (clamp : bool) : dworld := DW (db_init now clamp) (fun _ => None).

(** * Specification *)
(** one call on the documents [D], names read in the schema of handle [h]. InsertOne in a collection
    that is not in the schema reports no error and does nothing (line 59 loses the error). *)
Definition call_spec (h : handle) (D : dstore) (c : call) : result docval * dstore :=
  match c with
  | Op _ dbn coll o => store_spec (resolve (h_val h) dbn coll) D o
  | InsertOne _ dbn coll did data _ =>
      (Ok VUnit, match resolve (h_val h) dbn coll with None => D | Some cid => dupd D cid (zset (D cid) did data) end)
  end.
Fixpoint calls_spec (h : handle) (D : dstore) (l : list call) : list (result docval) * dstore :=
  match l with
  | [] => ([], D)
  | c :: l' => let '(r, D1) := call_spec h D c in let '(rs, D2) := calls_spec h D1 l' in (r :: rs, D2)
  end.

(** what a client notes about one transaction: the schema handle and the number of committed writing
    transactions when it began, its calls and their answers *)
Record deed := Deed { s_h : handle; s_upd : bool; s_seen : nat; s_calls : list (call * result docval) }.
Definition calls (d : deed) : list call := map fst (s_calls d).
Definition answers (d : deed) : list (result docval) := map snd (s_calls d).
(** calls that report a change *)
Definition wrote (h : handle) (p : call * result docval) : bool :=
  match p with
  | (Op _ dbn coll o, Ok v) =>
      match o, v with
      | OUpdate _ _, VBool b => b
      | OUpsert _ _, _ | OInsert _ _, _ | ODelete _, _ => true
      | ODeleteAll, VNum n => negb (Nat.eqb n 0)
      | _, _ => false
      end
  | (InsertOne _ dbn coll _ _ _, Ok _) => match resolve (h_val h) dbn coll with Some _ => true | None => false end
  | _ => false
  end.
Definition changed (d : deed) : bool := existsb (wrote (s_h d)) (s_calls d).

(** the log of a history: transactions under way; those that committed changes, in the order of their
    commits; the others (nothing changed, refused at Commit, discarded, begun again) *)
Record journal := Journal { j_open : list (nat * deed); j_done : list deed; j_rest : list deed }.
Definition find_tx (i : nat) (l : list (nat * deed)) : option deed :=
  option_map snd (find (fun p => Nat.eqb i (fst p)) l).
Definition forget (i : nat) (l : list (nat * deed)) : list (nat * deed) :=
  filter (fun p => negb (Nat.eqb i (fst p))) l.
Definition left_over (i : nat) (l : list (nat * deed)) : list deed :=
  match find_tx i l with Some d => [d] | None => [] end.
Definition jstep (j : journal) (ea : dev * answer) : journal :=
  match ea with
  | (DBegin h i u, _) =>
      Journal ((i, Deed h u (length (j_done j)) []) :: forget i (j_open j)) (j_done j) (j_rest j ++ left_over i (j_open j))
  | (DCall i c, AVal a) =>
      match find_tx i (j_open j) with
      | Some d => Journal ((i, Deed (s_h d) (s_upd d) (s_seen d) (s_calls d ++ [(c, a)])) :: forget i (j_open j)) (j_done j) (j_rest j)
      | None => j
      end
  | (DCommit _ i _, ADone (Ok _)) =>
      match find_tx i (j_open j) with
      | Some d => if changed d then Journal (forget i (j_open j)) (j_done j ++ [d]) (j_rest j)
                  else Journal (forget i (j_open j)) (j_done j) (j_rest j ++ [d])
      | None => j
      end
  | (DCommit _ i _, _) | (DDiscard i, _) => Journal (forget i (j_open j)) (j_done j) (j_rest j ++ left_over i (j_open j))
  | _ => j
  end.
Definition journal_of (w : dworld) (es : list dev) : journal :=
  fold_left jstep (combine es (snd (dhist w es))) (Journal [] [] []).
Definition committed (w : dworld) (es : list dev) : list deed := j_done (journal_of w es).

(** one after the other, on the maps: the documents after the transactions of a list, and whether
    each got the answers of the maps *)
Definition docs_after (l : list deed) : dstore :=
  fold_left (fun D d => snd (calls_spec (s_h d) D (calls d))) l (fun _ => []).
Fixpoint replays (D : dstore) (l : list deed) : Prop :=
  match l with
  | [] => True
  | d :: l' => answers d = fst (calls_spec (s_h d) D (calls d)) /\ replays (snd (calls_spec (s_h d) D (calls d))) l'
  end.

(** calls that look for documents by a scan *)
Definition scans (c : call) : bool :=
  match c with Op _ _ _ OGetAll | Op _ _ _ OCount | Op _ _ _ ODeleteAll | Op _ _ _ ORange => true | _ => false end.
Definition call_writes (c : call) : bool :=
  match c with Op _ _ _ o => op_writes o | InsertOne _ _ _ _ _ _ => true end.
Definition call_ids (c : call) : list Z :=
  match c with
  | Op _ _ _ o => match o with OUpdate d _ | OUpsert d _ | OInsert d _ | ODelete d | OGet d => [d] | OGetMany l => l | _ => [] end
  | InsertOne _ _ _ did _ _ => [did]
  end.
(** what histories are considered: ids are int64 values, the schema gives collections int64 ids,
    GetDidRange is left to C51, a read-only transaction is only read, and other transactions write no
    document and nothing with a lifetime *)
Record history_ok (es : list dev) : Prop := {
  ok_schema : forall h i u, In (DBegin h i u) es -> forall dbn coll c, resolve (h_val h) dbn coll = Some c -> is_i64 c;
  ok_ids : forall i c, In (DCall i c) es -> Forall is_i64 (call_ids c);
  ok_range : forall i c, In (DCall i c) es -> (forall m dbn coll, c <> Op m dbn coll ORange);
  ok_ro : forall h i c, In (DBegin h i false) es -> In (DCall i c) es -> call_writes c = false;
  ok_other : forall t io, In (DOther t io) es ->
    (forall c k, is_i64 c -> has_prefix k (docPrefix c) = true -> get (t_pend t) k = None) /\
    (forall k e, get (t_pend t) k = Some (Some e) -> e_exp e = 0)
}.
