(** Documents of collections named by users, over the life of processes: calls to the methods of dml.Collection
    (Dml.v) in a process (Process.v).

    Simplification: a call, and a whole transaction of the caller, is one step. Its commit meets the store and the schema
    it started on, apart from what the leases of its own InsertOne calls changed. Interleaved transactions and a schema that
    changes under a transaction are the subject of C50, C52, C63, C66 and C72. *)
From Verif Require Import Bytes SMap KeyModel Provider World UtilTxn Sequence Model Meta Schema DocTxn DocKeys Dml Ddl DdlSpec Domain Process.

(** * Model *)
(** a statement of a transaction: any method but InsertOne and GetDidRange, or InsertOne; [sio]: the commit of the
    allocator's lease fails, if it needs one *)
Inductive stmt :=
| SOp (dbn coll : bytes) (o : docop)
| SInsert (dbn coll data : bytes) (sio : bool).
(** what it returns *)
Inductive reply := ROp (r : result docval) | RInsert (did : Z) (r : result unit).
Inductive call :=
| CAuto (dbn coll : bytes) (o : docop) (io : bool)            (* a method called with t = nil; [io]: its commit fails *)
| CInsert (dbn coll data : bytes) (sio io : bool)             (* InsertOne with t = nil *)
| CTxn (upd : bool) (ss : list stmt) (fin : option bool).     (* a transaction of the caller; None: Discard, Some io: Commit *)
Inductive ans := NAuto (r : result docval) | NInsert (did : Z) (r : result unit) | NTxn (rs : list reply) (r : result unit) | NNone.

Definition with_h (p : proc) (h : handle) : proc := Proc (p_sys p) h (p_next p) (p_reg p) (p_todo p) (p_note p) (p_up p) (p_run p).
(** InsertOne's insertFunc, dml/collection.go:55-87, in transaction [x]; [fns]: the functions given to AddCancelFunc so far,
    as the allocator (by collection id) and the id to put back *)
Definition insert_stmt (mark : bool) (p : proc) (x : dtxn) (fns : list (Z * Z)) (dbn coll data : bytes) (sio : bool) :
    proc * dtxn * list (Z * Z) * (Z * result unit) :=
  let d := y_db (p_sys p) in
  let '(G, d', x', (did, r)) := insertFunc mark (p_reg p) x dbn coll data (length fns) d d [] sio in
  (with_reg (with_db p d') G, x', fns ++ [(match resolve (dt_start x) dbn coll with Some c => c | None => 0 end, did)], (did, r)).
(** the cancel functions that ran, 83-85: seq.PutBack(did) *)
Definition put_back (fns : list (Z * Z)) (p : proc) (f : nat) : proc :=
  match nth_error fns f with
  | Some (c, v) => match p_reg p c with Some s => with_reg p (reg_set (p_reg p) c (q_PutBack s [v])) | None => p end
  | None => p
  end.
(** Txn.Commit, txn/txn.go:41-68 *)
Definition finish (p : proc) (x : dtxn) (fns : list (Z * Z)) (io : bool) : proc * result unit :=
  let '(h, d', _, r, ran) := dcommit (p_h p) (y_db (p_sys p)) io x in
  (fold_left (put_back fns) ran (with_h (with_db p d') h), r).
Definition stmt_step (st : proc * dtxn * list (Z * Z)) (s : stmt) : proc * dtxn * list (Z * Z) * reply :=
  let '(p, x, fns) := st in
  match s with
  | SOp dbn coll o => let '(x', r) := coll_op x dbn coll o in (p, x', fns, ROp r)
  | SInsert dbn coll data sio => let '(p', x', fns', (did, r)) := insert_stmt true p x fns dbn coll data sio in (p', x', fns', RInsert did r)
  end.
Fixpoint stmts_run (st : proc * dtxn * list (Z * Z)) (ss : list stmt) : proc * dtxn * list (Z * Z) * list reply :=
  match ss with
  | [] => (st, [])
  | s :: ss' => let '(st1, r) := stmt_step st s in let '(st2, rs) := stmts_run st1 ss' in (st2, r :: rs)
  end.
(** a call in an initialised process *)
Definition do_call (p : proc) (c : call) : proc * ans :=
  if negb (p_up p) then (p, NNone)
  else
    let d := y_db (p_sys p) in
    match c with
    | CAuto dbn coll o io => let '(h, d', r) := auto_op (p_h p) (p_h p) d d [] io dbn coll o in (with_h (with_db p d') h, NAuto r)
    | CInsert dbn coll data sio io =>       (* 47-95 and base.go:20-31 *)
        let '(p1, x, fns, (did, r)) := insert_stmt false p (NewTxn (p_h p) d true []) [] dbn coll data sio in
        match r with
        | Ok _ => let '(p2, r2) := finish p1 x fns io in (p2, NInsert did r2)
        | _ => (p1, NInsert did r)
        end
    | CTxn upd ss fin =>
        let '((p1, x, fns), rs) := stmts_run (p, NewTxn (p_h p) d upd [], []) ss in
        match fin with
        | None => (p1, NTxn rs (Ok tt))
        | Some io => let '(p2, r) := finish p1 x fns io in (p2, NTxn rs r)
        end
    end.
(** a step of a life: an event of the process (Process.v) or a call *)
Inductive lev := LProc (e : pev) | LCall (c : call).
Section WithJson.
Variable J : json.
Definition lev_step (p : proc) (e : lev) : proc * ans :=
  match e with LProc e => (pstep J p e, NNone) | LCall c => do_call p c end.
Fixpoint lev_run (p : proc) (es : list lev) : proc * list ans :=
  match es with [] => (p, []) | e :: es' => let '(p1, a) := lev_step p e in let '(p2, l) := lev_run p1 es' in (p2, a :: l) end.
End WithJson.
