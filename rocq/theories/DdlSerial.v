(** Overlapping DDL transactions: any number of processes, each with a worker, and any number of requests,
    every transaction taking its snapshot at one time and committing at another (C89).
    In DdlSpec.v the same transactions are single steps. *)
From Verif Require Import Bytes SMap Provider World Struct UtilTxn Sequence Model Meta MetaSpec MetaRun Ddl DdlSpec.

(** * One iteration whose transaction began on [d0] and commits on [d1]: handleJobQueue,
    document/ddl/ddl_worker.go:75-143, with util/util.go:53-67 in line; [iteration] (Ddl.v) is the case [d0 = d1] *)
Definition iteration_at (J : json) (o : orders) (v : wvars) (d0 d1 : db) (io : bool) : iend :=
  match iter_body J o v (new_txn d0 true []) with
  | (t, Ok x) =>
      match i_res x with
      | Ok _ => match commit d1 t io with
                | (d', _, Ok _) => IEnd d' (i_vars x) (i_nojob x) (i_after x) (Ok tt)
                | (d', _, Err e) => IEnd d' (i_vars x) true [] (Err e)
                | (d', _, Panic) => IEnd d' (i_vars x) true [] Panic
                end
      | Err e => IEnd d1 (i_vars x) true [] (Err e)
      | Panic => IEnd d1 (i_vars x) true [] Panic
      end
  | (_, Err e) => IEnd d1 v true [] (Err e)
  | (_, Panic) => IEnd d1 v true [] Panic
  end.

(** * The transactions *)
Inductive kcall :=
| KCreate (i : CSI)              (* ddl_api.go:20-81 *)
| KIndex (i : AII)               (* ddl_api.go:97-129 *)
| KWork (p : nat) (o : orders)   (* the worker of process p, ddl_worker.go:75-143 *)
| KDid (db cid step : Z)         (* a document-id allocator leases, document/meta/sequence/hash.go *)
| KRelease (db cid v : Z).       (* one returns its lease *)
(** Events: call [n] starts its transaction; it ends it (the commit can also fail for an external reason);
    it never ends it (the process died, or the function gave up); process p is restarted; some other
    transaction commits. Two calls may be open at the same time, also two of the same process. *)
Inductive kev :=
| KBegin (n : nat) (c : kcall)
| KEnd (n : nat) (io : bool)
| KDrop (n : nat)
| KCrash (p : nat)
| KOther (t : txn) (io : bool).
(** the database, the loop variables of each process's worker, the open calls with their snapshots (and the
    loop variables they started with), the jobs the accepted requests were answered with *)
Record ksys := KSys { k_db : db; k_vars : nat -> wvars; k_open : nat -> option (kcall * db * wvars); k_jobs : list Job }.
Definition vars_of (y : ksys) (c : kcall) : wvars := match c with KWork p _ => k_vars y p | _ => vars0 end.
Definition set_open (y : ksys) n x : ksys := KSys (k_db y) (k_vars y) (fun m => if Nat.eqb m n then x else k_open y m) (k_jobs y).
Definition set_kvars (f : nat -> wvars) (p : nat) (v : wvars) : nat -> wvars := fun q => if Nat.eqb q p then v else f q.
(** what ending call [c], begun on [d0] with loop variables [v], does. The function given to the transaction
    touches nothing but the transaction, so it is run here, from the snapshot. *)
Definition kend (J : json) (y : ksys) (c : kcall) (d0 : db) (v : wvars) (io : bool) : ksys :=
  match c with
  | KCreate i =>
      let '(d, r) := match ValidateCreateSchema i with
                     | Some e => (k_db y, Err e)
                     | None => run_update d0 (k_db y) (CreateSchemaTx J i) [] io
                     end in
      KSys d (k_vars y) (k_open y) (accepted (k_jobs y) r)
  | KIndex i => let '(d, r) := run_update d0 (k_db y) (AddIndexTx J i) [] io in KSys d (k_vars y) (k_open y) (accepted (k_jobs y) r)
  | KWork p o => let e := iteration_at J o v d0 (k_db y) io in KSys (e_db e) (set_kvars (k_vars y) p (next_vars e)) (k_open y) (k_jobs y)
  | KDid a c s => KSys (fst (run_update d0 (k_db y) (loc_inc (AtHash (dbKeyByID a) (didSequenceKeyByID c)) s) [] io)) (k_vars y) (k_open y) (k_jobs y)
  | KRelease a c s => KSys (fst (run_update d0 (k_db y) (loc_set (AtHash (dbKeyByID a) (didSequenceKeyByID c)) s) [] io)) (k_vars y) (k_open y) (k_jobs y)
  end.
Definition kstep (J : json) (y : ksys) (e : kev) : ksys :=
  match e with
  | KBegin n c => set_open y n (Some (c, k_db y, vars_of y c))
  | KEnd n io => match k_open y n with Some (c, d0, v) => kend J (set_open y n None) c d0 v io | None => y end
  | KDrop n => set_open y n None
  | KCrash p => KSys (k_db y) (set_kvars (k_vars y) p vars0) (k_open y) (k_jobs y)
  | KOther t io => KSys (fst (fst (commit (k_db y) t io))) (k_vars y) (k_open y) (k_jobs y)
  end.
Definition krun (J : json) (y : ksys) (es : list kev) : ksys := fold_left (kstep J) es y.
Definition kstart (d : db) : ksys := KSys d (fun _ => vars0) (fun _ => None) [].

(** * What a history must satisfy: as for DdlSpec.v *)
Definition kcall_ok (c : kcall) : Prop :=
  match c with
  | KCreate i => utf8 (cs_db i) = true /\ utf8s (cs_colls i)
  | KIndex i => utf8 (ai_db i) = true /\ utf8 (ai_coll i) = true /\ utf8_dix (ai_index i)
  | KWork _ o => orders_are o
  | KDid a c s | KRelease a c s => is_i64 a /\ is_i64 c /\ is_i64 s
  end.
(** the other transactions write no metadata, and nothing that expires *)
Definition kev_ok (e : kev) : Prop :=
  match e with
  | KBegin _ c => kcall_ok c
  | KOther t _ => forall k o, get (t_pend t) k = Some o -> has_prefix k MetaPrefix = false /\ forall x, o = Some x -> e_exp x = 0
  | _ => True
  end.
Definition kcost (c : kcall) : Z :=
  match c with
  | KCreate i => dweight (DCreate i false)
  | KIndex i => dweight (DIndex i false)
  | KWork _ _ => 0
  | KDid _ _ _ | KRelease _ _ _ => 1
  end.
(** how much of the 2^63 ids (and structure sizes) the calls of a history can use *)
Definition kweight (y : ksys) (e : kev) : Z :=
  match e with KEnd n _ => match k_open y n with Some (c, _, _) => kcost c | None => 0 end | _ => 0 end.
Fixpoint kload (J : json) (y : ksys) (es : list kev) : Z :=
  match es with [] => 0 | e :: es' => kweight y e + kload J (kstep J y e) es' end.
