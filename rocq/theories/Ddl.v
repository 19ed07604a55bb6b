(** Model of /repo/document/ddl: input.go, util.go, ddl_api.go and ddl_worker.go.

    Simplifications. Goroutines: every transaction runs alone (ids of interleaved transactions are
    P_GlobalIds.v); the notification channel, tickers and sleeps are left out, so a worker iteration
    may happen at any moment. Go's map iteration order is a parameter ([orders]) of each iteration.
    Size limits of transactions do not strike inside these bodies. A job argument of the wrong kind
    counts as a decoding error. *)
From Verif Require Import Bytes SMap Provider Numeric KvUtil Struct Sequence Model Meta UtilTxn.

Notation "x <- m ;; k" := (bind m (fun x => k)) (at level 61, m at next level, right associativity).

(** * input.go *)
(** IndexInfo 146-150; CreateSchemaInput 10-14; AddIndexInput 100-104; DropSchemaInput 40-42; CreateCollectionInput 54-58;
    DropCollectionInput 81-84; DropIndexInput 121-125 *)
Record DIX := MkDIX { dx_name : bytes; dx_cols : list bytes; dx_unique : bool }.
Record CSI := MkCSI { cs_db : bytes; cs_colls : list bytes; cs_indices : option (smap (list DIX)) }.
Record AII := MkAII { ai_db : bytes; ai_coll : bytes; ai_index : DIX }.
Record CCI := MkCCI { cc_db : bytes; cc_coll : bytes; cc_indices : list DIX }.
Definition isnil (s : bytes) : bool := match s with [] => true | _ => false end.
Definition EDbEmpty := ENamed (str "db empty").
Definition ECollEmpty := ENamed (str "collection empty").
Definition EIndexEmpty := ENamed (str "index name empty").
Definition EColsEmpty := ENamed (str "index columns empty").
(** IndexInfo.Validate 153-163; None: no error *)
Definition ValidateIndex (i : DIX) : option err :=
  if isnil (dx_name i) then Some EIndexEmpty else match dx_cols i with [] => Some EColsEmpty | _ => None end.
(** for ... { if err != nil { return } } *)
Fixpoint first_err {A} (f : A -> option err) (l : list A) : option err :=
  match l with [] => None | a :: l' => match f a with Some e => Some e | None => first_err f l' end end.
(** CreateSchemaInput.Validate 17-37. The map of indices is visited in key order (Go: any order) *)
Definition ValidateCreateSchema (i : CSI) : option err :=
  if isnil (cs_db i) then Some EDbEmpty
  else match first_err (fun cn => if isnil cn then Some ECollEmpty else None) (cs_colls i) with
       | Some e => Some e
       | None => match cs_indices i with None => None | Some m => first_err (fun p => first_err ValidateIndex (snd p)) (entries m) end
       end.
(** DropSchemaInput.Validate 45-51 *)
Definition ValidateDropSchema (db : bytes) : option err := if isnil db then Some EDbEmpty else None.
(** CreateCollectionInput.Validate 61-78 *)
Definition ValidateCreateCollection (i : CCI) : option err :=
  if isnil (cc_db i) then Some EDbEmpty else if isnil (cc_coll i) then Some ECollEmpty else first_err ValidateIndex (cc_indices i).
(** DropCollectionInput.Validate 87-97 *)
Definition ValidateDropCollection (db coll : bytes) : option err :=
  if isnil db then Some EDbEmpty else if isnil coll then Some ECollEmpty else None.
(** AddIndexInput.Validate 107-118 *)
Definition ValidateAddIndex (i : AII) : option err :=
  if isnil (ai_db i) then Some EDbEmpty else if isnil (ai_coll i) then Some ECollEmpty else ValidateIndex (ai_index i).
(** DropIndexInput.Validate 128-142 *)
Definition ValidateDropIndex (db coll index : bytes) : option err :=
  if isnil db then Some EDbEmpty else if isnil coll then Some ECollEmpty else if isnil index then Some EIndexEmpty else None.
(** ToModel 166-179: the id is filled in by the caller *)
Definition ToModel (i : DIX) : IndexInfo := II 0 (dx_name i) None (dx_cols i) (dx_unique i) Absent.

(** * Errors, ddl.go:16-32 (labels: these are not package meta's variables of the same text) *)
Definition ErrJobsInQueueExceeded := ENamed (str "ddl jobs in queue exceeded").
Definition ErrDBAlreadyExists := ENamed (str "ddl db already exists").
Definition ErrCollectionNotExistsD := ENamed (str "ddl collection not exists").
Definition ErrDBNotExistsD := ENamed (str "ddl db not exists").
Definition ErrIndexAlreadyExists := ENamed (str "ddl index already exists").
Definition ErrInvalidDDLState := ENamed (str "ddl invalid ddl state").
Definition EInvalidJobType := ENamed (str "invalid ddl job type").
Definition maxJobsInQueue : Z := 100.

(** * model.go: the mutators, on values *)
(** m[k] = v *)
Definition map_assign {A} (o : option (smap A)) (k : bytes) (v : A) : result (option (smap A)) :=
  match o with None => Panic | Some m => Ok (Some (set m k v)) end.
Definition set_indices (c : CollectionInfo) o := CI (ci_id c) (ci_name c) o (ci_order c) (ci_state c).
(** CollectionInfo.UpdateIndexInfo 193-201; None: returns false *)
Definition UpdateIndexInfo (c : CollectionInfo) (i : IndexInfo) : option CollectionInfo :=
  match ci_indices c with
  | Some m => match get m (ii_name i) with Some _ => Some (set_indices c (Some (set m (ii_name i) (clone_ii i)))) | None => None end
  | None => None
  end.
(** CollectionInfo.AddIndexInfo 204-213 *)
Definition AddIndexInfo (c : CollectionInfo) (i : IndexInfo) : result (option CollectionInfo) :=
  match mget (ci_indices c) (ii_name i) with
  | Some _ => Ok None
  | None => match map_assign (ci_indices c) (ii_name i) (clone_ii i) with
            | Ok o => Ok (Some (CI (ci_id c) (ci_name c) o (ci_order c ++ [ii_name i]) (ci_state c)))
            | Err e => Err e | Panic => Panic
            end
  end.
Definition set_colls (d : DBInfo) o := DI (di_id d) (di_name d) o (di_order d) (di_state d).
(** DBInfo.UpdateCollectionInfo 145-152; None: returns false *)
Definition UpdateCollectionInfo (d : DBInfo) (c : CollectionInfo) : option DBInfo :=
  match di_colls d with
  | Some m => match get m (ci_name c) with Some _ => Some (set_colls d (Some (set m (ci_name c) c))) | None => None end
  | None => None
  end.
Definition set_state (j : Job) s := MkJob (j_id j) (j_type j) s (j_err j) (j_errcount j) (j_arg j) (j_sstate j).
Definition set_sstate (j : Job) s := MkJob (j_id j) (j_type j) (j_state j) (j_err j) (j_errcount j) (j_arg j) s.
Definition set_arg (j : Job) a := MkJob (j_id j) (j_type j) (j_state j) (j_err j) (j_errcount j) a (j_sstate j).
(** job.ErrorCount++; job.Error = runJobErr *)
Definition add_error (j : Job) := MkJob (j_id j) (j_type j) (j_state j) true (to_i64 (j_errcount j + 1)) (j_arg j) (j_sstate j).
(** states set to Public, ddl_worker.go:303-309 *)
Definition pub_ii (i : IndexInfo) : IndexInfo := II (ii_id i) (ii_name i) (ii_red i) (ii_cols i) (ii_unique i) Public.
Definition pub_ci (c : CollectionInfo) : CollectionInfo := CI (ci_id c) (ci_name c) (option_map (smap_map pub_ii) (ci_indices c)) (ci_order c) Public.
Definition pub_di (d : DBInfo) : DBInfo := DI (di_id d) (di_name d) (option_map (smap_map pub_ci) (di_colls d)) (di_order d) Public.
(** the values of a map *)
Definition vals {A} (o : option (smap A)) : list A := match o with Some m => map snd (entries m) | None => [] end.

Section WithJson.
Variable J : json.

(** * util.go *)
(** ddl/util.go: getDbInfo 21-34, checkDBNameNotExists 8-19, checkIndexNameNotExists 36-54 *)
Definition getDbInfo (name : bytes) : Tx (option DBInfo) :=
  l <- ListDatabases J ;; ret (find (fun d => bytes_eqb (di_name d) name) l).
Definition checkDBNameNotExists (name : bytes) : Tx bool :=
  o <- getDbInfo name ;; match o with Some _ => fail ErrDBAlreadyExists | None => ret false end.
Definition checkIndexNameNotExists (db coll index : bytes) : Tx bool :=
  o <- getDbInfo db ;;
  match o with
  | None => fail ErrDBNotExistsD
  | Some d => match mget (di_colls d) coll with
              | None => fail ErrCollectionNotExistsD
              | Some c => ret (match mget (ci_indices c) index with Some _ => true | None => false end)
              end
  end.

(** * ddl_api.go *)
Definition lift_r {A} (r : result A) : Tx A := match r with Ok a => ret a | Err e => fail e | Panic => gopanic end.
(** the loop over one collection's indices, 60-68 *)
Fixpoint add_indices (l : list DIX) (c : CollectionInfo) (next : Z) : result (CollectionInfo * Z) :=
  match l with
  | [] => Ok (c, next)
  | i :: l' => let m := ToModel i in
               let iif := II (to_i64 (next + 1)) (ii_name m) (ii_red m) (ii_cols m) (ii_unique m) (ii_state m) in
               match map_assign (ci_indices c) (dx_name i) iif with
               | Ok o => add_indices l' (CI (ci_id c) (ci_name c) o (ci_order c ++ [dx_name i]) (ci_state c)) (to_i64 (next + 1))
               | Err e => Err e
               | Panic => Panic
               end
  end.
(** the loop over the collections, 48-70 *)
Fixpoint add_colls (idx : option (smap (list DIX))) (l : list bytes) (m : smap CollectionInfo) (order : list bytes) (next : Z)
  : result (smap CollectionInfo * list bytes * Z) :=
  match l with
  | [] => Ok (m, order, next)
  | cn :: l' =>
      let '(c, next1) := match get m cn with Some c => (c, next) | None => (CI (to_i64 (next + 1)) cn None [] Absent, to_i64 (next + 1)) end in
      match add_indices (match mget idx cn with Some is => is | None => [] end) c next1 with
      | Ok (c1, next2) => add_colls idx l' (set m cn c1) (order ++ [cn]) next2
      | Err e => Err e
      | Panic => Panic
      end
  end.
Definition llen {A} (l : list A) : Z := Z.of_nat (length l).
(** CreateSchema's transaction, 20-81 *)
Definition CreateSchemaTx (i : CSI) : Tx Job :=
  q <- DDLJobQueueLen DefaultJobList ;;
  (if maxJobsInQueue <? q then fail ErrJobsInQueueExceeded else
   x <- checkDBNameNotExists (cs_db i) ;;
   if (x : bool) then fail ErrDBAlreadyExists else
   p <- GenGlobalIDs (2 + llen (cs_colls i) + match cs_indices i with Some m => llen (entries m) | None => 0 end) ;;
   let id := to_i64 (fst p + 1) in
   r <- lift_r (add_colls (cs_indices i) (cs_colls i) empty [] id) ;;
   let '(m, order, next) := r in
   let job := MkJob (to_i64 (next + 1)) ActionCreateSchema JNone false 0 (ArgDB (DI id (cs_db i) (Some m) order Absent)) Absent in
   EnQueueDDLJob J DefaultJobList job ;;;
   ret job).
(** CreateSchema, 13-93, up to the enqueueing commit; what follows is waiting ([poll] below) *)
Definition CreateSchema (d : db) (i : CSI) (io : bool) : db * result Job :=
  match ValidateCreateSchema i with
  | Some e => (d, Err e)
  | None => run_update d d (CreateSchemaTx i) [] io
  end.
(** AddIndex's transaction, 97-129, and AddIndex, 96-139 *)
Definition AddIndexTx (i : AII) : Tx Job :=
  x <- checkIndexNameNotExists (ai_db i) (ai_coll i) (dx_name (ai_index i)) ;;
  if (x : bool) then fail ErrIndexAlreadyExists else
  p <- GenGlobalIDs 2 ;;
  let m := ToModel (ai_index i) in
  let iif := II (to_i64 (fst p + 1)) (ii_name m) (Some (IIR (ai_coll i) (ai_db i) 0)) (ii_cols m) (ii_unique m) (ii_state m) in
  let job := MkJob (to_i64 (fst p + 2)) ActionAddIndex JNone false 0 (ArgIndex iif) Absent in
  EnQueueDDLJob J DefaultJobList job ;;;
  ret job.
Definition AddIndex (d : db) (i : AII) (io : bool) : db * result Job := run_update d d (AddIndexTx i) [] io.
(** GetHistoryJob, 147-156 *)
Definition GetHistoryJob (d : db) (id : Z) (io : bool) : db * result (option Job) := run_update d d (GetHistoryDDLJob J id) [] io.
(** one round of checkJob's loop, ddl_worker.go:398-417 *)
Inductive verdict := Waiting | Returned (e : option err) | Panicked.
Definition EJobError := ENamed (str "the job's error").
Definition poll (d : db) (id : Z) (io : bool) : verdict :=
  match snd (GetHistoryJob d id io) with
  | Err _ | Ok None => Waiting
  | Ok (Some j) => if IsSynced j then Returned None else if j_err j then Returned (Some EJobError) else Panicked
  | Panic => Panicked
  end.

(** * ddl_worker.go *)
(** the order in which range visits a map: for the loop creating collections and for job2CollectionIDs *)
Record orders := Orders { o_create : list CollectionInfo -> list CollectionInfo; o_ids : list CollectionInfo -> list CollectionInfo }.
(** what runJob leaves: the job as mutated, failNow, whether err is set, the sequences the
    after-commit function creates (database id, collection id). The schema version, used only for
    sleeping, is left out. *)
Record jout := JOut { jo_job : Job; jo_fail : bool; jo_err : bool; jo_after : list (Z * Z) }.
(** job2CollectionIDs 448-460 reads the decoded argument *)
(** updateSchemaVersion 364-380; the diff carries the raw (undecoded) argument *)
Definition updateSchemaVersion (j : Job) (cids : list Z) : Tx Z :=
  v <- GenSchemaVersion ;; SetSchemaDiff J (SD v (j_type j) cids (j_arg j)) ;;; ret v.
Fixpoint create_all (id : Z) (l : list CollectionInfo) : Tx unit :=
  match l with [] => ret tt | c :: l' => CreateCollection J id c ;;; create_all id l' end.
(** onCreateSchema 286-341 *)
Definition onCreateSchema (o : orders) (j : Job) : Tx jout :=
  match j_arg j with
  | ArgDB d =>
      x <- checkDBNameNotExists (di_name d) ;;
      if (x : bool) then ret (JOut j true true []) else
      let d' := pub_di d in
      CreateDatabase J d' ;;;
      create_all (di_id d') (o_create o (vals (di_colls d'))) ;;;
      updateSchemaVersion j (map ci_id (o_ids o (vals (di_colls d')))) ;;;
      ret (JOut (set_sstate (set_state j JDone) Public) false false (map (fun c => (di_id d', ci_id c)) (vals (di_colls d'))))
  | _ => ret (JOut (set_state j JCancelled) false true [])
  end.
(** updateSchemaVersionAndCollectionInfo 343-361. [key]: the name under which the collection [c]
    was found in [d]; the code mutated it in place there *)
Definition updateCollectionAndVersion (j : Job) (cid : Z) (d : DBInfo) (key : bytes) (c : CollectionInfo) : Tx Z :=
  UpdateCollection J (di_id d) c ;;;
  match UpdateCollectionInfo (set_colls d (option_map (fun m => set m key c) (di_colls d))) c with
  | None => gopanic
  | Some d' => UpdateDatabase J d' ;;; updateSchemaVersion j [cid]
  end.
Definition set_istate (i : IndexInfo) s := II (ii_id i) (ii_name i) (ii_red i) (ii_cols i) (ii_unique i) s.
(** onAddIndex 189-284 *)
Definition onAddIndex (j : Job) : Tx jout :=
  match j_arg j with
  | ArgIndex i =>
      match ii_red i with
      | None => gopanic
      | Some rd =>
          od <- getDbInfo (ir_db rd) ;;
          match od with
          | None => ret (JOut j true true [])
          | Some d =>
              match mget (di_colls d) (ir_collection rd) with
              | None => ret (JOut j true true [])
              | Some c =>
                  let iif := mget (ci_indices c) (ii_name i) in
                  (* the transitions delete only -> write only -> reorganization *)
                  let move s := match iif with
                                | None => gopanic
                                | Some x => match UpdateIndexInfo c (set_istate x s) with
                                            | None => gopanic
                                            | Some c' => updateCollectionAndVersion j (ir_cid rd) d (ir_collection rd) c' ;;;
                                                         ret (JOut (set_sstate j s) false false [])
                                            end
                                end in
                  match j_sstate j with
                  | Absent =>
                      match iif with
                      | Some _ => ret (JOut j true true [])
                      | None =>
                          let i' := II (ii_id i) (ii_name i) (Some (IIR (ir_collection rd) (ir_db rd) (ci_id c))) (ii_cols i) (ii_unique i) (ii_state i) in
                          r <- lift_r (AddIndexInfo c (II (ii_id i) (ii_name i) None (ii_cols i) (ii_unique i) DeleteOnly)) ;;
                          match r with
                          | None => gopanic
                          | Some c' =>
                              updateCollectionAndVersion j (ci_id c) d (ir_collection rd) c' ;;;
                              ret (JOut (set_sstate (set_arg j (ArgIndex i')) DeleteOnly) false false [])
                          end
                      end
                  | DeleteOnly => move WriteOnly
                  | WriteOnly => move WriteReorganization
                  | WriteReorganization => ret (JOut j false false [])
                  | _ => ret (JOut j true true [])
                  end
              end
          end
      end
  | _ => ret (JOut (set_state j JCancelled) false true [])
  end.
(** an error of a call inside: returned as runJob's err; the writes made so far stay in the transaction *)
Definition caught (j : Job) (m : Tx jout) : Tx jout :=
  try m (fun r => match r with Ok x => ret x | Err _ => ret (JOut j false true []) | Panic => gopanic end).
(** runJob 146-166 *)
Definition runJob (o : orders) (j : Job) : Tx jout :=
  if IsFinished j then ret (JOut j false false [])
  else
    let j1 := match j_state j with JRollingback | JCancelling => j | _ => set_state j JRunning end in
    if j_type j =? ActionCreateSchema then caught j1 (onCreateSchema o j1)
    else if j_type j =? ActionAddIndex then caught j1 (onAddIndex j1)
    else ret (JOut (set_state j1 JCancelled) false true []).
(** finishJob 173-182 *)
Definition finishJob (j : Job) : Tx unit := DeQueueDDLJob J DefaultJobList ;;; AddHistoryDDLJob J j.
(** the variables of handleJobQueue that outlive an iteration, 66-73 *)
Record wvars := WV { v_fail : bool; v_err : bool }.
Definition vars0 : wvars := WV false false.
(** what the transaction's function leaves: variables, nojob, after-commit work, its own err *)
Record iout := IOut { i_vars : wvars; i_nojob : bool; i_after : list (Z * Z); i_res : result unit }.
(** util2.RunWithRecovery: the outcome, a panic included, is given to [k] *)
Definition recovering {A B} (m : Tx A) (k : result A -> Tx B) : Tx B := fun t => let '(t', r) := m t in k r t'.
Definition ending (v : wvars) (after : list (Z * Z)) (m : Tx unit) : Tx iout :=
  try m (fun r => ret (IOut v false after r)).
(** the function given to RunInNewUpdateTxnWithCallback, 76-121 *)
Definition iter_body (o : orders) (v : wvars) : Tx iout :=
  try (GetDDLJobByIdx J DefaultJobList 0) (fun r =>
    match r with
    | Err e => ret (IOut v false [] (Err e))
    | Panic => gopanic
    | Ok None => ret (IOut v true [] (Ok tt))
    | Ok (Some j) =>
        if IsDone j || IsRollbackDone j then
          ending v [] (finishJob (if IsRollbackDone j then j else set_state j JSynced))
        else
          recovering (runJob o j) (fun r =>
            let '(j1, v1, after) := match r with
                                    | Ok x => (jo_job x, WV (jo_fail x) (jo_err x), jo_after x)
                                    | _ => (set_state j JCancelling, v, [])
                                    end in
            let j2 := if v_err v1 then add_error j1 else j1 in
            ending v1 after
              (if v_err v1 && (v_fail v1 || (3 <=? j_errcount j2)) then finishJob j2
               else if IsCancelled j2 then finishJob j2
               else UpdateDDLJob J DefaultJobList 0 j2))
    end).
(** one iteration of handleJobQueue, 75-143, with util/util.go:53-67 in line: the variables after it,
    whether the loop returns, and the sequences created after the commit *)
Record iend := IEnd { e_db : db; e_vars : wvars; e_return : bool; e_after : list (Z * Z); e_res : result unit }.
Definition iteration (o : orders) (v : wvars) (d : db) (io : bool) : iend :=
  match iter_body o v (new_txn d true []) with
  | (t, Ok x) =>
      match i_res x with
      | Ok _ => match commit d t io with
                | (d', _, Ok _) => IEnd d' (i_vars x) (i_nojob x) (i_after x) (Ok tt)
                | (d', _, Err e) => IEnd d' (i_vars x) true [] (Err e)
                | (d', _, Panic) => IEnd d' (i_vars x) true [] Panic
                end
      | Err e => IEnd d (i_vars x) true [] (Err e)
      | Panic => IEnd d (i_vars x) true [] Panic
      end
  | (_, Err e) => IEnd d v true [] (Err e)
  | (_, Panic) => IEnd d v true [] Panic
  end.
(** the next iteration's variables: a new call of handleJobQueue starts afresh *)
Definition next_vars (e : iend) : wvars := if e_return e then vars0 else e_vars e.
End WithJson.
