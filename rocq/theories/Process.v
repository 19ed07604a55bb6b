(** Model of a process using the document store: the process-wide table of document-id allocators
    (document/dml/sequence.go, document/meta/sequence/did_sequence.go), Domain.Init and the worker's
    notifications (document/domain/domain.go:37-75, document/ddl/ddl.go:51-84, document/ddl/ddl_worker.go:62-143, 329-340).

    Simplifications. Goroutines: the steps below are atomic and may come in any order. Init is one step, except that
    the process may die between any two of the allocators it creates. The worker's loop is a step per iteration, per
    attempt at creating an allocator and per reload; its sleeps are left out. *)
From Verif Require Import Bytes SMap Provider Numeric Struct UtilTxn Sequence Model Meta Schema Ddl DdlSpec Domain.

(** * dml/sequence.go *)
Definition ErrSequenceAlreadyExists := ENamed (str "sequence already exists").   (* 18 *)
(** sequenceMap, 13-14: collection id to allocator, one for the whole process *)
Definition registry := Z -> option seq.
Definition reg_set (G : registry) (c : Z) (s : seq) : registry := fun c' => if c' =? c then Some s else G c'.
Definition no_sequences : registry := fun _ => None.
(** defaultDIDBandWidth, meta/did_sequence.go:8 *)
Definition defaultDIDBandWidth : Z := 1000.
(** where the last document id leased is stored *)
Definition did_loc (dbID cid : Z) : loc := AtHash (dbKeyByID dbID) (didSequenceKeyByID cid).
(** NewDocIDSequence, meta/did_sequence.go:11-20; [io]: the commit fails *)
Definition NewDocIDSequence (d : db) (dbID cid bw : Z) (io : bool) : db * option seq * result unit :=
  newSeq d d [] io (did_loc dbID cid) (if bw <=? 0 then defaultDIDBandWidth else bw).
(** CreateSequence, 31-49. It has one caller at a time, so LoadOrStore (43) stores *)
Definition CreateSequence (d : db) (G : registry) (dbID cid bw : Z) (io : bool) : db * registry * result unit :=
  match G cid with
  | Some _ => (d, G, Err ErrSequenceAlreadyExists)
  | None =>
      match NewDocIDSequence d dbID cid bw io with
      | (d', Some s, Ok _) => (d', reg_set G cid s, Ok tt)
      | (d', None, Ok _) => (d', G, Panic)       (* not reached: NewDocIDSequence returns an object *)
      | (d', _, Err e) => (d', G, Err e)
      | (d', _, Panic) => (d', G, Panic)
      end
  end.

Section WithJson.
Variable J : json.
(** * Init *)
(** how Init ends; IDied: the process dies during it; IWaits: it waits for readers of the schema *)
Inductive ires := IOk | IErr (e : err) | IPanic | IDied | IWaits.
(** the loops of ddl.go:67-74; [ios]: the outcomes of the commits, the process dies when they are used up *)
Fixpoint create_seqs (d : db) (G : registry) (l : list (Z * Z)) (ios : list bool) : db * registry * ires :=
  match l with
  | [] => (d, G, IOk)
  | (a, c) :: l' =>
      match ios with
      | [] => (d, G, IDied)
      | io :: ios' =>
          match CreateSequence d G a c 0 io with
          | (d', G', Ok _) => create_seqs d' G' l' ios'
          | (d', G', Err e) => (d', G', IErr e)
          | (d', G', Panic) => (d', G', IPanic)
          end
      end
  end.
(** the collections of the listed databases; [sh]: the order in which range visits the map of collections *)
Definition seqs_listed (sh : list CollectionInfo -> list CollectionInfo) (l : list DBInfo) : list (Z * Z) :=
  flat_map (fun x => map (fun c => (di_id x, ci_id c)) (sh (vals (di_colls x)))) l.
(** DDL.Init, ddl.go:59-84, up to the start of the worker. Its update transaction only reads, so committing it does
    nothing: it is modelled as a reading one *)
Definition ddl_Init (d : db) (G : registry) (sh : list CollectionInfo -> list CollectionInfo) (ios : list bool) : db * registry * ires :=
  match run_view d (ListDatabases J) with
  | Ok l => create_seqs d G (seqs_listed sh l) ios
  | Err e => (d, G, IErr e)
  | Panic => (d, G, IPanic)
  end.
(** Domain.Init, domain.go:37-54; [p]: the address of the new schema cache *)
Definition domain_Init (d : db) (h : handle) (p : nat) (G : registry) (sh : list CollectionInfo -> list CollectionInfo) (ios : list bool) : db * handle * registry * ires :=
  match reloadSchema J d h p with
  | (h', RDone) => let '(d', G', r) := ddl_Init d G sh ios in (d', h', G', r)
  | (h', RErr e) => (d, h', G, IErr e)
  | (h', RPanic) => (d, h', G, IPanic)
  | (h', RBlocked) => (d, h', G, IWaits)
  end.

(** * A process *)
Record proc := Proc {
  p_sys : sys;                 (* the store, the worker's variables and the answers to requests *)
  p_h : handle;                (* the schema cache *)
  p_next : nat;                (* addresses of caches *)
  p_reg : registry;
  p_todo : list (Z * Z);       (* allocators the worker still has to create: afterCommitFunc4Job, ddl_worker.go:329-340 *)
  p_note : bool;               (* the worker still has to call OnChanged(nil), 129-135 *)
  p_up : bool;                 (* Init has succeeded *)
  p_run : nat                  (* how often a process has been started *)
}.
Definition with_sys (p : proc) (y : sys) : proc := Proc y (p_h p) (p_next p) (p_reg p) (p_todo p) (p_note p) (p_up p) (p_run p).
Definition with_reg (p : proc) (G : registry) : proc := Proc (p_sys p) (p_h p) (p_next p) G (p_todo p) (p_note p) (p_up p) (p_run p).
Definition with_todo (p : proc) (l : list (Z * Z)) : proc := Proc (p_sys p) (p_h p) (p_next p) (p_reg p) l (p_note p) (p_up p) (p_run p).
Definition with_db (p : proc) (d : db) : proc := with_sys p (Sys d (y_vars (p_sys p)) (y_jobs (p_sys p))).
Definition with_handle (p : proc) (h : handle) : proc := Proc (p_sys p) h (S (p_next p)) (p_reg p) (p_todo p) (p_note p) (p_up p) (p_run p).
Definition with_note (p : proc) (b : bool) : proc := Proc (p_sys p) (p_h p) (p_next p) (p_reg p) (p_todo p) b (p_up p) (p_run p).
Definition with_up (p : proc) : proc := Proc (p_sys p) (p_h p) (p_next p) (p_reg p) (p_todo p) (p_note p) true (p_run p).
(** the process dies and a new one is started on the store *)
Definition restart (p : proc) : proc := Proc (dstep J (p_sys p) DCrash) NewHandle (p_next p) no_sequences [] false false (S (p_run p)).

Inductive pev :=
| PInit (sh : list CollectionInfo -> list CollectionInfo) (ios : list bool)   (* Domain.Init *)
| PCreate (i : CSI) (io : bool)                                  (* a CreateSchema call, up to its commit *)
| PAddIndex (i : AII) (io : bool)                                (* an AddIndex call, up to its commit *)
| PWork (o : orders) (sh : list (Z * Z) -> list (Z * Z)) (io : bool)   (* an iteration of the worker's loop, up to the commit *)
| PSeq (io : bool)                                               (* an attempt at the next allocator *)
| PNote                                                          (* OnChanged(nil): a reload, again and again until it succeeds *)
| PNext (cid : Z) (io : bool)                                    (* GetSequence(cid).Next() *)
| PPut (cid : Z) (vs : list Z)                                   (* GetSequence(cid).PutBack(vs) *)
| POther (t : txn) (io : bool)                                   (* another transaction commits *)
| PReaders (n : nat)                                             (* how many transactions hold the schema's read lock *)
| PCrash
| PTick                                                          (* reloadInLoop, domain.go:77-97: only if Lease is not 0 *)
| PElsewhere (o : orders) (io : bool).                           (* an iteration of the worker of another process on this store *)

Definition idle (p : proc) : bool := match p_todo p with [] => negb (p_note p) | _ => false end.
(** domain.go:56-75 *)
Definition note_step (p : proc) : proc :=
  match reloadSchema J (y_db (p_sys p)) (p_h p) (p_next p) with
  | (h, RDone) => with_note (with_handle p h) false
  | (_, RPanic) => restart p
  | (h, _) => with_handle p h
  end.
Definition pstep (p : proc) (e : pev) : proc :=
  match e with
  | PInit sh ios =>
      if p_up p then p     (* a second Init after a successful one: not part of these histories *)
      else
        let '(d, h, G, r) := domain_Init (y_db (p_sys p)) (p_h p) (p_next p) (p_reg p) sh ios in
        let q := with_reg (with_handle (with_db p d) h) G in
        match r with
        | IOk => with_up q
        | IErr _ | IWaits => q
        | IPanic | IDied => restart q
        end
  | PCreate i io => if p_up p then with_sys p (dstep J (p_sys p) (DCreate i io)) else p
  | PAddIndex i io => if p_up p then with_sys p (dstep J (p_sys p) (DIndex i io)) else p
  | PWork o sh io =>
      if p_up p && idle p then
        let e := iteration J o (y_vars (p_sys p)) (y_db (p_sys p)) io in
        let q := with_sys p (dstep J (p_sys p) (DWork o io)) in
        match e_res e with
        | Panic => restart q
        | _ => with_note (with_todo q (sh (e_after e))) (negb (e_return e) && negb (v_err (e_vars e)))
        end
      else p
  | PSeq io =>
      match p_todo p with
      | [] => p
      | (a, c) :: l =>
          match CreateSequence (y_db (p_sys p)) (p_reg p) a c 0 io with
          | (d, G, Ok _) => with_todo (with_reg (with_db p d) G) l
          | (d, G, Err _) => with_reg (with_db p d) G
          | (d, G, Panic) => restart (with_reg (with_db p d) G)
          end
      end
  | PNote => match p_todo p with [] => if p_note p then note_step p else p | _ => p end
  | PNext c io =>
      match p_reg p c with
      | None => p
      | Some s => let '(d, s', _) := q_exec (y_db (p_sys p)) (y_db (p_sys p)) [] io s QNext in with_reg (with_db p d) (reg_set (p_reg p) c s')
      end
  | PPut c vs => match p_reg p c with None => p | Some s => with_reg p (reg_set (p_reg p) c (q_PutBack s vs)) end
  | POther t io => with_sys p (dstep J (p_sys p) (DOther t io))
  | PReaders n => Proc (p_sys p) (Handle (h_val (p_h p)) n) (p_next p) (p_reg p) (p_todo p) (p_note p) (p_up p) (p_run p)
  | PCrash => restart p
  | PTick =>
      if p_up p then
        match reloadSchema J (y_db (p_sys p)) (p_h p) (p_next p) with
        | (_, RPanic) => restart p
        | (h, _) => with_handle p h
        end
      else p
  | PElsewhere o io => with_sys p (Sys (e_db (iteration J o vars0 (y_db (p_sys p)) io)) (y_vars (p_sys p)) (y_jobs (p_sys p)))
  end.
Definition prun (p : proc) (es : list pev) : proc := fold_left pstep es p.
Definition pstart (d : db) : proc := Proc (dstart d) NewHandle 0 no_sequences [] false false 0.
End WithJson.
