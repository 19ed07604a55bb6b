(** What a user expects of the DDL worker: the histories considered and the metadata they may leave. *)
From Verif Require Import Bytes SMap Provider Struct UtilTxn Sequence Model Meta MetaSpec MetaRun Ddl.
From Coq Require Import Permutation.

(** * Histories: requests, worker iterations (the commit may fail), crashes of the process, and what
    the rest of the process and other processes do to the store meanwhile: allocators of document ids
    leasing and returning ids, and any transaction that writes no metadata (documents) committing.
    A crash inside an iteration before its commit leaves nothing: it is [DCrash] alone; one after the
    commit is [DWork] then [DCrash]. *)
Inductive dev :=
| DCreate (i : CSI) (io : bool)
| DIndex (i : AII) (io : bool)
| DWork (o : orders) (io : bool)
| DCrash
| DDid (db cid step : Z) (io : bool)      (* a document-id allocator leases [step] ids *)
| DRelease (db cid v : Z) (io : bool)     (* one returns what is left of its lease *)
| DOther (t : txn) (io : bool).           (* another transaction commits *)
(** the database, the worker's loop variables, and the jobs the requests were answered with *)
Record sys := Sys { y_db : db; y_vars : wvars; y_jobs : list Job }.
Definition accepted (l : list Job) (r : result Job) : list Job := match r with Ok j => l ++ [j] | _ => l end.
Definition dstep (J : json) (y : sys) (e : dev) : sys :=
  match e with
  | DCreate i io => let '(d, r) := CreateSchema J (y_db y) i io in Sys d (y_vars y) (accepted (y_jobs y) r)
  | DIndex i io => let '(d, r) := AddIndex J (y_db y) i io in Sys d (y_vars y) (accepted (y_jobs y) r)
  | DWork o io => let e := iteration J o (y_vars y) (y_db y) io in Sys (e_db e) (next_vars e) (y_jobs y)
  | DCrash => Sys (y_db y) vars0 (y_jobs y)
  | DDid a c s io => Sys (fst (run_update (y_db y) (y_db y) (loc_inc (AtHash (dbKeyByID a) (didSequenceKeyByID c)) s) [] io)) (y_vars y) (y_jobs y)
  | DRelease a c v io => Sys (fst (run_update (y_db y) (y_db y) (loc_set (AtHash (dbKeyByID a) (didSequenceKeyByID c)) v) [] io)) (y_vars y) (y_jobs y)
  | DOther t io => Sys (fst (fst (commit (y_db y) t io))) (y_vars y) (y_jobs y)
  end.
Definition drun (J : json) (y : sys) (es : list dev) : sys := fold_left (dstep J) es y.
Definition dstart (d : db) : sys := Sys d vars0 [].
(** names are valid UTF-8; Go visits every element of a map *)
Definition orders_are (o : orders) : Prop := forall l, Permutation (o_create o l) l /\ Permutation (o_ids o l) l.
Definition utf8_dix (x : DIX) : Prop := utf8 (dx_name x) = true /\ utf8s (dx_cols x).
Definition dev_ok (e : dev) : Prop :=
  match e with
  | DCreate i _ => utf8 (cs_db i) = true /\ utf8s (cs_colls i)
  | DIndex i _ => utf8 (ai_db i) = true /\ utf8 (ai_coll i) = true /\ utf8_dix (ai_index i)
  | DWork o _ => orders_are o
  | DCrash => True
  | DDid a c s _ | DRelease a c s _ => is_i64 a /\ is_i64 c /\ is_i64 s
  | DOther t _ => forall k o, get (t_pend t) k = Some o -> has_prefix k MetaPrefix = false
  end.
(** how much of the 2^63 ids (and structure sizes) an event can use *)
Definition dweight (e : dev) : Z :=
  match e with
  | DCreate i _ => 3 + llen (cs_colls i) + match cs_indices i with Some m => llen (entries m) | None => 0 end
  | DIndex _ _ => 3
  | DDid _ _ _ _ | DRelease _ _ _ _ => 1
  | _ => 0
  end.
Definition dload (es : list dev) : Z := fold_right (fun e n => dweight e + n) 0 es.

(** * What the metadata must be *)
(** the databases described by a list of jobs *)
Definition dbs_of (l : list Job) : list DBInfo := flat_map (fun j => match j_arg j with ArgDB d => [d] | _ => [] end) l.
(** the id of a job and of everything it will create *)
Definition ids_of (j : Job) : list Z := j_id j :: match j_arg j with ArgDB d => di_id d :: map ci_id (vals (di_colls d)) | ArgIndex i => [ii_id i] | ArgNone => [] end.
(** how far the first unfinished job has come: not run, its effects committed, failed because the
    database exists, or an index job that panicked *)
Inductive hstat := HFresh | HApplied | HFailed | HStuck.
Definition head_as (st : hstat) (j : Job) : Job :=
  match st with
  | HFresh => j
  | HApplied => MkJob (j_id j) (j_type j) JDone false 0 (j_arg j) Public
  | HFailed => MkJob (j_id j) (j_type j) JRunning true 1 (j_arg j) (j_sstate j)
  | HStuck => MkJob (j_id j) (j_type j) JCancelling false 0 (j_arg j) (j_sstate j)
  end.
(** a finished job in the history *)
Definition synced (j : Job) : Job := MkJob (j_id j) (j_type j) JSynced false 0 (j_arg j) Public.
(** jobs whose effects are in the metadata: the finished ones [D], and the head of the rest [R] if applied *)
Definition applied (D R : list Job) (st : hstat) : list Job := match st, R with HApplied, j :: _ => D ++ [j] | _, _ => D end.
(** the effects of the jobs [l], each exactly once and in order, and nothing else *)
Record effects (l : list Job) (A : mst) : Prop := {
  ef_create : forall j, In j l -> j_type j = ActionCreateSchema /\ exists d, j_arg j = ArgDB d;
  ef_ver : somez (m_ver A) = Z.of_nat (length l);
  ef_db : forall id x, m_db A id = Some x <-> exists d, In d (dbs_of l) /\ id = di_id d /\ x = pub_di d;
  ef_coll : forall id c x, m_coll A id c = Some x <->
    exists d c0, In d (dbs_of l) /\ In c0 (vals (di_colls d)) /\ id = di_id d /\ c = ci_id c0 /\ x = pub_ci c0;
  ef_diff : forall v x, m_diff A v = Some x -> 1 <= v <= Z.of_nat (length l);
  ef_diff_at : forall n d, nth_error (dbs_of l) n = Some d -> exists cids,
    Permutation cids (map ci_id (vals (di_colls d))) /\ m_diff A (Z.of_nat n + 1) = Some (SD (Z.of_nat n + 1) ActionCreateSchema cids (ArgDB d))
}.
Record dstate (D R : list Job) (st : hstat) (A : mst) : Prop := {
  ds_effects : effects (applied D R st) A;
  ds_hist : forall id x, m_hist A id = Some x <-> exists j, In j D /\ id = j_id j /\ x = synced j;
  ds_queue : m_queue A DefaultJobList = match R with [] => [] | j :: r => head_as st j :: r end;
  ds_ids : NoDup (flat_map ids_of (D ++ R)) /\ Forall (fun x => 0 < x <= somez (m_gid A)) (flat_map ids_of (D ++ R));
  ds_names : NoDup (map di_name (dbs_of (applied D R st)));
  ds_stat : match st with
            | HFresh => True
            | HApplied => R <> []
            | HFailed => exists j r d, R = j :: r /\ j_arg j = ArgDB d /\ In (di_name d) (map di_name (dbs_of D))
            | HStuck => exists j r i, R = j :: r /\ j_arg j = ArgIndex i
            end
}.

(** * The stages of an index being added *)
Definition stage (k : nat) : sstate := match k with O => Absent | S O => DeleteOnly | S (S O) => WriteOnly | _ => WriteReorganization end.
(** the collection [c] with the requested index in its [k]-th stage *)
Definition staged (c : CollectionInfo) (i : IndexInfo) (k : nat) : CollectionInfo :=
  match k with
  | O => c
  | _ => CI (ci_id c) (ci_name c) (option_map (fun m => set m (ii_name i) (II (ii_id i) (ii_name i) None (ii_cols i) (ii_unique i) (stage k))) (ci_indices c)) (ci_order c ++ [ii_name i]) (ci_state c)
  end.
(** the database [x] with that collection *)
Definition staged_db (x : DBInfo) (c : CollectionInfo) (i : IndexInfo) (k : nat) : DBInfo :=
  match k with O => x | _ => set_colls x (option_map (fun m => set m (ci_name c) (staged c i k)) (di_colls x)) end.
(** a database [x] with a collection [c] whose index map is not nil and lacks the index of the request [i];
    the request is the first job of the queue and has not been tried *)
Record index_request (A : mst) (x : DBInfo) (c : CollectionInfo) (j : Job) (i : IndexInfo) (l : list Job) : Prop := {
  ir_one : m_db A (di_id x) = Some x /\ forall id y, m_db A id = Some y -> di_name y = di_name x -> id = di_id x;
  ir_in : mget (di_colls x) (ci_name c) = Some c /\ m_coll A (di_id x) (ci_id c) = Some c;
  ir_map : exists m, ci_indices c = Some m /\ get m (ii_name i) = None;
  ir_job : j = MkJob (j_id j) ActionAddIndex JNone false 0 (ArgIndex i) Absent;
  ir_of : exists cid, ii_red i = Some (IIR (ci_name c) (di_name x) cid);
  ir_queue : m_queue A DefaultJobList = j :: l
}.
(** the metadata [B] after [k] committed iterations on that job *)
Record at_stage (A : mst) (x : DBInfo) (c : CollectionInfo) (j : Job) (i : IndexInfo) (l : list Job) (k : nat) (B : mst) : Prop := {
  as_ver : somez (m_ver B) = somez (m_ver A) + Z.of_nat (Nat.min k 3);
  as_db : forall id, m_db B id = if id =? di_id x then Some (staged_db x c i k) else m_db A id;
  as_coll : forall id cid, m_coll B id cid = if (id =? di_id x) && (cid =? ci_id c) then Some (staged c i k) else m_coll A id cid;
  as_queue : exists h, m_queue B DefaultJobList = h :: l /\ j_id h = j_id j /\ j_type h = ActionAddIndex /\ j_err h = false /\ j_sstate h = stage k /\
    (k = O -> h = j) /\ (k <> O -> j_state h = JRunning /\ j_arg h = ArgIndex (II (ii_id i) (ii_name i) (Some (IIR (ci_name c) (di_name x) (ci_id c))) (ii_cols i) (ii_unique i) (ii_state i)));
  as_hist : forall id, m_hist B id = m_hist A id;
  as_gid : m_gid B = m_gid A;
  as_diff_old : forall v, ~ somez (m_ver A) < v <= somez (m_ver A) + Z.of_nat (Nat.min k 3) -> m_diff B v = m_diff A v;
  as_diff_new : forall v, somez (m_ver A) < v <= somez (m_ver A) + Z.of_nat (Nat.min k 3) -> exists a, m_diff B v = Some (SD v ActionAddIndex [ci_id c] a)
}.
