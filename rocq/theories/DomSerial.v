(** Any number of processes with schema caches, over one store, while schema changes overlap (C90, C91).
    DdlSerial.v has the DDL transactions of all processes; here every process also has a schema handle that it
    reloads, each reload reading the snapshot of one moment and publishing at a later one, and document
    transactions that start with one cache and are checked against a later one. *)
From Verif Require Import Bytes SMap Provider World Struct UtilTxn Sequence Model Meta MetaSpec MetaRun Schema Ddl DdlSpec Domain DdlSerial.

(** * Handles by name: what a process's schema cache lets a caller open *)
Definition ErrNoDB := ENamed (str "db not exists").                    (* document/dml/db.go:18 *)
Definition ErrNoCollection := ENamed (str "collection not exists").    (* 20 *)
Definition ErrNoIndex := ENamed (str "index not exists").              (* 22 *)
(** Domain.DB, document/domain/domain.go:189-193, and NewDB, document/dml/db.go:26-37; the handle it gives holds the name *)
Definition OpenDB (h : handle) (dbn : bytes) : result bytes :=
  if CheckDBExists (option_map c_val (h_val h)) dbn then Ok dbn else Err ErrNoDB.
(** DB.Collection, document/dml/db.go:40-51; newCollection, collection.go:29-31 *)
Definition OpenCollection (h : handle) (dbn coll : bytes) : result (bytes * bytes) :=
  if CheckCollectionExists (option_map c_val (h_val h)) dbn coll then Ok (dbn, coll) else Err ErrNoCollection.
(** Collection.Index, document/dml/collection.go:34-44; newIndex, index.go:16-18 *)
Definition OpenIndex (h : handle) (dbn coll idx : bytes) : result (bytes * bytes * bytes) :=
  if CheckIndexExists (option_map c_val (h_val h)) dbn coll idx then Ok (dbn, coll, idx) else Err ErrNoIndex.

(** * The processes *)
(** Events: a step of the DDL transactions (a crash of process p ends its reload and its document transactions);
    process p starts a reload: domain.go:98-115, the mutex reloadMu is taken, the cache's version read, the snapshot taken
    (a reload waiting for the mutex has not started); process p's reload goes on to its end, 117-152 (the reads are
    those of the snapshot); process p starts document transaction n, document/txn/txn.go:24-28; transaction n, which
    referred to the collections [refs], checks its schema, txn.go:56-64, handle.go:32-68 ([cancelled]: its context ended). *)
Inductive fev :=
| FDdl (e : kev)
| FReload (p : nat)
| FReloaded (p : nat)
| FTxn (n p : nat)
| FCheck (n : nat) (cancelled : bool) (refs : list Z).
(** the store and the DDL calls; the handle of each process; the snapshot of its reload, if one is going on;
    the open document transactions, with their process and the cache they started with; fresh addresses *)
Record fsys := FSys { f_k : ksys; f_h : nat -> handle; f_rel : nat -> option db; f_txn : nat -> option (nat * option cref); f_next : nat }.
Definition upd {X} (f : nat -> X) (p : nat) (x : X) : nat -> X := fun q => if Nat.eqb q p then x else f q.
Definition gone (p : nat) (o : option (nat * option cref)) : option (nat * option cref) :=
  match o with Some (q, s) => if Nat.eqb q p then None else Some (q, s) | None => None end.
Definition fstep (J : json) (f : fsys) (e : fev) : fsys :=
  match e with
  | FDdl e =>
      let k := kstep J (f_k f) e in
      match e with
      | KCrash p => FSys k (upd (f_h f) p NewHandle) (upd (f_rel f) p None) (fun n => gone p (f_txn f n)) (f_next f)
      | _ => FSys k (f_h f) (f_rel f) (f_txn f) (f_next f)
      end
  | FReload p => match f_rel f p with
                 | None => FSys (f_k f) (f_h f) (upd (f_rel f) p (Some (k_db (f_k f)))) (f_txn f) (f_next f)
                 | Some _ => f
                 end
  | FReloaded p => match f_rel f p with
                   | Some d => let '(h, r) := reloadSchema J d (f_h f p) (f_next f) in
                       FSys (f_k f) (upd (f_h f) p h) (upd (f_rel f) p (match r with RBlocked => Some d | _ => None end)) (f_txn f) (S (f_next f))
                   | None => f
                   end
  | FTxn n p => FSys (f_k f) (f_h f) (f_rel f) (upd (f_txn f) n (Some (p, h_val (f_h f p)))) (f_next f)
  | FCheck n cancelled refs => match f_txn f n with
                               | Some (p, s) => FSys (f_k f) (upd (f_h f) p (fst (Check (f_h f p) cancelled s refs))) (f_rel f) (upd (f_txn f) n None) (f_next f)
                               | None => f
                               end
  end.
Definition frun (J : json) (f : fsys) (es : list fev) : fsys := fold_left (fstep J) es f.
Definition fstart (d : db) : fsys := FSys (kstart d) (fun _ => NewHandle) (fun _ => None) (fun _ => None) 0.

(** * What a history must satisfy *)
Definition ddl_of (es : list fev) : list kev := flat_map (fun e => match e with FDdl e => [e] | _ => [] end) es.
(** the collections a transaction refers to are some its cache shows: they are found by name in it, e.g. dml/collection.go:56-63 *)
Definition fev_ok (f : fsys) (e : fev) : Prop :=
  match e with
  | FCheck n _ refs => match f_txn f n with
                       | Some (_, s) => forall x, In x refs -> exists dbn coll c, cacheCollectionInfo (option_map c_val s) dbn coll = Some c /\ ci_id c = x
                       | None => True
                       end
  | _ => True
  end.
Fixpoint fok (J : json) (f : fsys) (es : list fev) : Prop :=
  match es with [] => True | e :: es' => fev_ok f e /\ fok J (fstep J f e) es' end.
