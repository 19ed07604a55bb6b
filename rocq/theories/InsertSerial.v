(** InsertOne's ids while everything overlaps (C96): AllSerial.v, where InsertOne is given its id by the allocator its
    process has for the collection, and allocators lease ids in transactions that overlap with everything else.
    Not modelled: allocators that return their lease when they are closed (see C44); InsertOne when the process has no
    allocator for the collection or no lease left and the new one is refused (it reports an error and writes nothing,
    see C50 and C78). *)
From Verif Require Import Bytes SMap Provider World UtilTxn Sequence Model Meta Schema DocTxn DocKeys Dml Ddl DdlSpec Domain DdlSerial DomSerial DocSerial DocLifeSpec AllSerial.
From Verif Require Import P_Leases.

(** * Model *)
(** an allocator, document/meta/sequence/sequence.go:22-32: the fields next, leased and putbacks *)
Record alloc := Alloc { al_next : Z; al_leased : Z; al_put : list Z }.
(** Next without a new lease, sequence.go:123-148: the last of putbacks, else the next of the lease *)
Definition take (q : alloc) : option (Z * alloc) :=
  match rev (al_put q) with
  | v :: l => Some (v, Alloc (al_next q) (al_leased q) (rev l))
  | [] => if al_next q <? al_leased q then Some (al_next q + 1, Alloc (al_next q + 1) (al_leased q) []) else None
  end.
(** the end of renewLeaseFunc, hash.go:47-49; [None]: NewHash (15-93), whose first act is a lease *)
Definition renew (o : option alloc) (l : lease) : alloc := Alloc (l_from l) (l_to l) (match o with Some q => al_put q | None => [] end).
(** PutBack, sequence.go:114-119 *)
Definition giveback (d : Z) (q : alloc) : alloc := Alloc (al_next q) (al_leased q) (al_put q ++ [d]).

(** the allocators of each process by collection id (dml/sequence.go:13); the process that waits for each open lease
    transaction; what the cancel functions registered by InsertOne (collection.go:83-85) will put back, and where *)
Definition memory := nat -> Z -> option alloc.
Record isys := ISys { i_g : gsys; i_mem : memory; i_req : nat -> option nat; i_fns : list (nat * Z * Z) }.
Definition mset (m : memory) (p : nat) (c : Z) (q : alloc) : memory := fun p' c' => if Nat.eqb p' p && (c' =? c) then Some q else m p' c'.
Definition run_cancel (fns : list (nat * Z * Z)) (m : memory) (f : nat) : memory :=
  match nth_error fns f with
  | Some (p, c, d) => match m p c with Some q => mset m p c (giveback d q) | None => m end
  | None => m
  end.
(** the ids of a database and one of its collections as an accepted request was given them: CreateSequence is called with
    such ids, by the worker (ddl/ddl_worker.go:331, from the job) and at the start of a process (ddl/ddl.go:70, from
    the stored schema, which holds nothing else: C89) *)
Definition issued (l : list Job) (a c : Z) : bool :=
  existsb (fun j => match j_arg j with ArgDB x => (di_id x =? a) && existsb (fun k => ci_id k =? c) (vals (di_colls x)) | _ => false end) l.

(** Events: an event of AllSerial.v other than an InsertOne or the start of a lease; process p starts the transaction
    with which its allocator for collection c leases s more ids, or with which it creates that allocator; InsertOne in
    transaction n, with data, where [mark] is as in DocSerial.v.
    A process may have several lease transactions for one collection under way; the mutex of the allocator
    (sequence.go:124) excludes that, so there are more histories here than there can be. *)
Inductive iev :=
| IDo (e : gev)
| ILease (n p : nat) (a c s : Z)
| IInsert (n : nat) (mark : bool) (dbn coll data : bytes).
(** the id InsertOne gets, and the allocator afterwards; [None]: it has to wait for a lease. In a collection that is not
    shown no id is taken (collection.go:57-61). *)
Definition draw (s : isys) (n : nat) (dbn coll : bytes) : option (Z * option (nat * Z * alloc)) :=
  match g_tx (i_g s) n with
  | Some (p, x, None) =>
      match resolve (dt_start x) dbn coll with
      | None => Some (0, None)
      | Some c => match i_mem s p c with
                  | Some q => match take q with Some (d, q') => Some (d, Some (p, c, q')) | None => None end
                  | None => None
                  end
      end
  | _ => None
  end.
Definition performs (s : isys) (e : iev) : option gev :=
  match e with
  | IDo e => Some e
  | ILease n p a c st => if issued (k_jobs (g_k (i_g s))) a c then Some (GDdl (KBegin n (KDid a c st))) else None
  | IInsert n mark dbn coll data =>
      match draw s n dbn coll with Some (d, _) => Some (GCall n (InsertOne mark dbn coll d data (length (i_fns s)))) | None => None end
  end.
(** the cancel functions Commit runs, txn.go:47-54 *)
Definition cancelled (g : gsys) (n : nat) (io : bool) : list nat :=
  match g_tx g n with
  | Some (_, x, Some h) => let '(_, _, _, _, ran) := dcommit h (g_db g) io x in ran
  | _ => []
  end.
(** what the event does to the allocators *)
Definition recall (s : isys) (e : iev) : memory * (nat -> option nat) * list (nat * Z * Z) :=
  let m := i_mem s in let r := i_req s in let fns := i_fns s in
  match e with
  | IDo (GDdl (KCrash p)) =>
      (fun q c => if Nat.eqb q p then None else m q c, fun n => match r n with Some q => if Nat.eqb q p then None else Some q | None => None end, fns)
  | IDo (GDdl (KEnd n io)) =>
      (match r n, granted (g_k (i_g s)) (KEnd n io) with
       | Some p, [l] => mset m p (l_coll l) (renew (m p (l_coll l)) l)
       | _, _ => m
       end, upd r n None, fns)
  | IDo (GDdl (KBegin n _)) | IDo (GDdl (KDrop n)) => (m, upd r n None, fns)
  | IDo (GCommit n io) => (fold_left (run_cancel fns) (cancelled (i_g s) n io) m, r, fns)
  | ILease n p _ _ _ => (m, upd r n (Some p), fns)
  | IInsert n _ dbn coll _ =>
      match draw s n dbn coll with
      | Some (d, Some (p, c, q)) => (mset m p c q, r, fns ++ [(p, c, d)])
      | _ => (m, r, fns)
      end
  | _ => (m, r, fns)
  end.
Definition istep (J : json) (s : isys) (e : iev) : isys :=
  match performs s e with
  | Some ge => let '(m, r, fns) := recall s e in ISys (fst (gstep J (i_g s) ge)) m r fns
  | None => s
  end.
Definition istart (d : db) : isys := ISys (gstart d) (fun _ _ => None) (fun _ => None) [].

(** * Specification *)
(** the users' notes, as in AllSerial.v; InsertOne's answer includes the id, which is noted in the call *)
Fixpoint iworked (J : json) (s : isys) (j : glog) (es : list iev) : isys * glog :=
  match es with
  | [] => (s, j)
  | e :: es' => iworked J (istep J s e) (match performs s e with Some ge => lstep (i_g s) j ge (snd (gstep J (i_g s) ge)) | None => j end) es'
  end.
(** the events of AllSerial.v a history amounts to *)
Fixpoint performed (J : json) (s : isys) (es : list iev) : list gev :=
  match es with
  | [] => []
  | e :: es' => match performs s e with Some ge => ge :: performed J (istep J s e) es' | None => performed J (istep J s e) es' end
  end.
(** the documents inserted under ids of the allocators, by the names of database and collection *)
Definition got (sees : bytes -> bytes -> bool) (p : call * result docval) : list (bytes * bytes * Z) :=
  match p with
  | (InsertOne _ dbn coll did _ _, Ok _) => if sees dbn coll then [(dbn, coll, did)] else []
  | _ => []
  end.
Definition inserted_by (e : entry) : list (bytes * bytes * Z) := flat_map (got (n_sees e)) (n_calls e).
Definition inserted (l : list entry) : list (bytes * bytes * Z) := flat_map inserted_by l.
(** a call that puts a document under an id of the caller's choice *)
Definition chooses (dbn coll : bytes) (did : Z) (c : call) : bool :=
  match c with
  | Op _ a b (OInsert k _) | Op _ a b (OUpsert k _) => bytes_eqb a dbn && bytes_eqb b coll && (k =? did)
  | _ => false
  end.

(** * What a history must satisfy: the events are as in AllSerial.v; allocators lease 1 to [B] ids at a time and return
    none; a read-only transaction is only read; and the leases do not use up the ids *)
Definition iev_ok (B : Z) (e : iev) : Prop :=
  match e with
  | IDo (GCall _ (InsertOne _ _ _ _ _ _)) => False
  | IDo (GDdl (KBegin _ (KDid _ _ _))) | IDo (GDdl (KBegin _ (KRelease _ _ _))) => False
  | IDo e => gev_ok e
  | ILease _ _ _ _ s => 0 < s <= B
  | IInsert _ _ _ _ _ => True
  end.
Definition only_reads (es : list iev) : Prop := forall n, In (IDo (GBegin n false)) es ->
  (forall c, In (IDo (GCall n c)) es -> call_writes c = false) /\ forall mark dbn coll data, ~ In (IInsert n mark dbn coll data) es.
Definition inserts_ok (J : json) (B : Z) (d : db) (es : list iev) : Prop :=
  0 < B < two63 /\ Forall (iev_ok B) es /\ only_reads es /\ B * gload J (gstart d) (performed J (istart d) es) < two63.
