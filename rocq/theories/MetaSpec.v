(** What a user expects of the schema metadata (package meta): the specification, with no mention of
    keys, hashes, lists or JSON. *)
From Verif Require Import Bytes SMap Provider Model Meta.
From Coq Require Import Sorted.

(** the metadata as plain data *)
Record mst := MSt {
  m_gid : option Z;                                  (* last global id, if any was generated *)
  m_ver : option Z;                                  (* schema version *)
  m_boot : option Z;                                 (* bootstrap version *)
  m_diff : Z -> option SchemaDiff;                   (* by schema version *)
  m_db : Z -> option DBInfo;                         (* by database id *)
  m_coll : Z -> Z -> option CollectionInfo;          (* by database id and collection id *)
  m_did : Z -> Z -> option Z;                        (* document-id counters *)
  m_queue : jlist -> list Job;                       (* first job to process first *)
  m_hist : Z -> option Job;                          (* finished jobs by id *)
  m_start : Z -> option Z; m_end : Z -> option Z     (* reorganization handles by job id *)
}.
Definition m_empty : mst := MSt None None None (fun _ => None) (fun _ => None) (fun _ _ => None) (fun _ _ => None) (fun _ => []) (fun _ => None) (fun _ => None) (fun _ => None).
Definition zupd {A} (f : Z -> A) (i : Z) (a : A) : Z -> A := fun j => if j =? i then a else f j.
Definition qeqb (a b : jlist) : bool := match a, b with DefaultJobList, DefaultJobList | AddIndexJobList, AddIndexJobList => true | _, _ => false end.
Definition with_gid A v := MSt (Some v) (m_ver A) (m_boot A) (m_diff A) (m_db A) (m_coll A) (m_did A) (m_queue A) (m_hist A) (m_start A) (m_end A).
Definition with_ver A v := MSt (m_gid A) (Some v) (m_boot A) (m_diff A) (m_db A) (m_coll A) (m_did A) (m_queue A) (m_hist A) (m_start A) (m_end A).
Definition with_boot A v := MSt (m_gid A) (m_ver A) (Some v) (m_diff A) (m_db A) (m_coll A) (m_did A) (m_queue A) (m_hist A) (m_start A) (m_end A).
Definition with_diff A f := MSt (m_gid A) (m_ver A) (m_boot A) f (m_db A) (m_coll A) (m_did A) (m_queue A) (m_hist A) (m_start A) (m_end A).
Definition with_db A f := MSt (m_gid A) (m_ver A) (m_boot A) (m_diff A) f (m_coll A) (m_did A) (m_queue A) (m_hist A) (m_start A) (m_end A).
Definition with_coll A f := MSt (m_gid A) (m_ver A) (m_boot A) (m_diff A) (m_db A) f (m_did A) (m_queue A) (m_hist A) (m_start A) (m_end A).
Definition with_did A f := MSt (m_gid A) (m_ver A) (m_boot A) (m_diff A) (m_db A) (m_coll A) f (m_queue A) (m_hist A) (m_start A) (m_end A).
Definition with_queue A q l := MSt (m_gid A) (m_ver A) (m_boot A) (m_diff A) (m_db A) (m_coll A) (m_did A) (fun p => if qeqb p q then l else m_queue A p) (m_hist A) (m_start A) (m_end A).
Definition with_hist A f := MSt (m_gid A) (m_ver A) (m_boot A) (m_diff A) (m_db A) (m_coll A) (m_did A) (m_queue A) f (m_start A) (m_end A).
Definition with_start A f := MSt (m_gid A) (m_ver A) (m_boot A) (m_diff A) (m_db A) (m_coll A) (m_did A) (m_queue A) (m_hist A) f (m_end A).
Definition with_end A f := MSt (m_gid A) (m_ver A) (m_boot A) (m_diff A) (m_db A) (m_coll A) (m_did A) (m_queue A) (m_hist A) (m_start A) f.

(** the calls. MDidInc is the renewal of a document-id allocator (meta/did_sequence.go) *)
Inductive mop :=
| MGetGlobalID | MGenGlobalID | MGenGlobalIDs (n : Z) | MGetVersion | MGenVersion | MGetBoot | MFinishBoot (v : Z)
| MCreateDB (d : DBInfo) | MUpdateDB (d : DBInfo) | MDropDB (id : Z) | MGetDB (id : Z) | MListDBs
| MCreateColl (db : Z) (c : CollectionInfo) | MUpdateColl (db : Z) (c : CollectionInfo) | MDropColl (db cid : Z) (del : bool) | MGetColl (db cid : Z) | MListColls (db : Z)
| MGetDiff (v : Z) | MSetDiff (d : SchemaDiff)
| MEnqueue (q : jlist) (j : Job) | MDequeue (q : jlist) | MJobAt (q : jlist) (i : Z) | MUpdateJob (q : jlist) (i : Z) (j : Job) | MQueueLen (q : jlist) | MAllJobs (q : jlist)
| MAddHistory (j : Job) | MGetHistory (id : Z) | MAllHistory | MLastHistory (n : Z)
| MReorgStart (id s : Z) | MReorg (id s e : Z) | MReorgRemove (id : Z) | MReorgGet (id : Z)
| MDidInc (db cid step : Z).
Inductive mval := VUnit | VInt (n : Z) | VRange (s e : Z) | VDb (d : DBInfo) | VColl (c : CollectionInfo) | VDbs (l : list DBInfo) | VColls (l : list CollectionInfo)
| VDiff (o : option SchemaDiff) | VJob (o : option Job) | VJobs (l : list Job).

(** ** outcomes *)
Definition somez (o : option Z) : Z := match o with Some v => v | None => 0 end.
Definition inc64 (o : option Z) (step : Z) : Z := match o with Some v => to_i64 (v + step) | None => step end.
Definition exists_db A id : bool := match m_db A id with Some _ => true | None => false end.
Definition exists_coll A db c : bool := match m_coll A db c with Some _ => true | None => false end.
(** a stored job is readable unless it carries an error *)
Definition read_job (o : option Job) : result mval :=
  match o with None => Ok (VJob None) | Some j => if j_err j then Err EDecode else Ok (VJob (Some j)) end.
Definition read_jobs (l : list Job) : result mval := if existsb j_err l then Err EDecode else Ok (VJobs l).
(** position of index i, negative ones counting from the end *)
Definition position (len i : Z) : option nat :=
  let i := if 0 <=? i then i else i + len in if (0 <=? i) && (i <? len) then Some (Z.to_nat i) else None.
Fixpoint replace {A} (l : list A) (n : nat) (a : A) : list A :=
  match l, n with [], _ => [] | _ :: l', O => a :: l' | x :: l', S n' => x :: replace l' n' a end.
(** l lists the databases (collections of a database, finished jobs) each once *)
Definition lists_dbs A (l : list DBInfo) : Prop := NoDup (map di_id l) /\ forall d, In d l <-> m_db A (di_id d) = Some d.
Definition lists_colls A db (l : list CollectionInfo) : Prop := NoDup (map ci_id l) /\ forall c, In c l <-> m_coll A db (ci_id c) = Some c.
(** ids as they are ordered in the history: unsigned *)
Definition lists_hist A (l : list Job) : Prop :=
  StronglySorted (fun a b => to_u64 (j_id a) < to_u64 (j_id b)) l /\ forall j, In j l <-> m_hist A (j_id j) = Some j.

(** mref A o r A': in state A, call o may return r and leave A' *)
Definition same (A : mst) (r r' : result mval) (A' : mst) : Prop := r' = r /\ A' = A.
Definition mref (A : mst) (o : mop) (r : result mval) (A' : mst) : Prop :=
  match o with
  | MGetGlobalID => r = match m_gid A with Some v => Ok (VInt v) | None => Err ErrKeyNotFound end /\ A' = A
  | MGenGlobalID => r = Ok (VInt (inc64 (m_gid A) 1)) /\ A' = with_gid A (inc64 (m_gid A) 1)
  | MGenGlobalIDs n => r = Ok (VRange (to_i64 (inc64 (m_gid A) n - n)) (inc64 (m_gid A) n)) /\ A' = with_gid A (inc64 (m_gid A) n)
  | MGetVersion => r = Ok (VInt (somez (m_ver A))) /\ A' = A
  | MGenVersion => r = Ok (VInt (inc64 (m_ver A) 1)) /\ A' = with_ver A (inc64 (m_ver A) 1)
  | MGetBoot => r = Ok (VInt (somez (m_boot A))) /\ A' = A
  | MFinishBoot v => r = Ok VUnit /\ A' = with_boot A v
  | MCreateDB d => if exists_db A (di_id d) then r = Err ErrDBExists /\ A' = A
                   else r = Ok VUnit /\ A' = with_db A (zupd (m_db A) (di_id d) (Some d))
  | MUpdateDB d => if exists_db A (di_id d) then r = Ok VUnit /\ A' = with_db A (zupd (m_db A) (di_id d) (Some d))
                   else r = Err ErrDBNotExists /\ A' = A
  | MDropDB id => if exists_db A id
                  then r = Ok VUnit /\ A' = with_did (with_coll (with_db A (zupd (m_db A) id None)) (zupd (m_coll A) id (fun _ => None))) (zupd (m_did A) id (fun _ => None))
                  else r = Err ErrDBNotExists /\ A' = A
  | MGetDB id => r = match m_db A id with Some d => Ok (VDb d) | None => Err ErrDBNotExists end /\ A' = A
  | MListDBs => (exists l, r = Ok (VDbs l) /\ lists_dbs A l) /\ A' = A
  | MCreateColl db c => if negb (exists_db A db) then r = Err ErrDBNotExists /\ A' = A
                        else if exists_coll A db (ci_id c) then r = Err ErrCollectionExists /\ A' = A
                        else r = Ok VUnit /\ A' = with_coll A (zupd (m_coll A) db (zupd (m_coll A db) (ci_id c) (Some c)))
  | MUpdateColl db c => if negb (exists_db A db) then r = Err ErrDBNotExists /\ A' = A
                        else if negb (exists_coll A db (ci_id c)) then r = Err ErrCollectionNotExists /\ A' = A
                        else r = Ok VUnit /\ A' = with_coll A (zupd (m_coll A) db (zupd (m_coll A db) (ci_id c) (Some c)))
  | MDropColl db c del => if negb (exists_db A db) then r = Err ErrDBNotExists /\ A' = A
                          else if negb (exists_coll A db c) then r = Err ErrCollectionNotExists /\ A' = A
                          else r = Ok VUnit /\
                               let A1 := with_coll A (zupd (m_coll A) db (zupd (m_coll A db) c None)) in
                               A' = if del then with_did A1 (zupd (m_did A) db (zupd (m_did A db) c None)) else A1
  | MGetColl db c => r = (if exists_db A db then match m_coll A db c with Some ci => Ok (VColl ci) | None => Err ErrCollectionNotExists end else Err ErrDBNotExists) /\ A' = A
  | MListColls db => (if exists_db A db then exists l, r = Ok (VColls l) /\ lists_colls A db l else r = Err ErrDBNotExists) /\ A' = A
  | MGetDiff v => r = Ok (VDiff (m_diff A v)) /\ A' = A
  | MSetDiff d => r = Ok VUnit /\ A' = with_diff A (zupd (m_diff A) (sd_version d) (Some d))
  | MEnqueue q j => r = Ok VUnit /\ A' = with_queue A q (m_queue A q ++ [j])
  | MDequeue q => match m_queue A q with
                  | [] => r = Ok (VJob None) /\ A' = A
                  | j :: l => r = read_job (Some j) /\ A' = with_queue A q l
                  end
  | MJobAt q i => r = match m_queue A q with
                      | [] => Ok (VJob None)
                      | l => match position (Z.of_nat (length l)) i with Some n => read_job (nth_error l n) | None => Err EDecode end
                      end /\ A' = A
  | MUpdateJob q i j => match position (Z.of_nat (length (m_queue A q))) i with
                        | Some n => r = Ok VUnit /\ A' = with_queue A q (replace (m_queue A q) n j)
                        | None => r = Err ErrJobNotExists /\ A' = A
                        end
  | MQueueLen q => r = Ok (VInt (Z.of_nat (length (m_queue A q)))) /\ A' = A
  | MAllJobs q => r = read_jobs (rev (m_queue A q)) /\ A' = A
  | MAddHistory j => r = Ok VUnit /\ A' = with_hist A (zupd (m_hist A) (j_id j) (Some j))
  | MGetHistory id => r = read_job (m_hist A id) /\ A' = A
  | MAllHistory => (exists l, lists_hist A l /\ r = read_jobs l) /\ A' = A
  | MLastHistory n => (exists l, lists_hist A l /\ r = read_jobs (firstn (Z.to_nat n) (rev l))) /\ A' = A
  | MReorgStart id s => r = Ok VUnit /\ A' = with_start A (zupd (m_start A) id (Some s))
  | MReorg id s e => r = Ok VUnit /\ A' = with_end (with_start A (zupd (m_start A) id (Some s))) (zupd (m_end A) id (Some e))
  | MReorgRemove id => r = Ok VUnit /\ A' = with_end (with_start A (zupd (m_start A) id None)) (zupd (m_end A) id None)
  | MReorgGet id => r = match m_start A id, m_end A id with Some s, Some e => Ok (VRange s e) | _, _ => Err ErrKeyNotFound end /\ A' = A
  | MDidInc db c step => r = Ok (VInt (inc64 (m_did A db c) step)) /\ A' = with_did A (zupd (m_did A) db (zupd (m_did A db) c (Some (inc64 (m_did A db c) step))))
  end.

(** arguments: Go's integer types, and objects JSON can carry *)
Definition mok (o : mop) : Prop :=
  match o with
  | MGenGlobalIDs n => is_i64 n
  | MFinishBoot v => is_i64 v
  | MCreateDB d | MUpdateDB d => wf_di d
  | MDropDB id | MGetDB id | MListColls id | MGetHistory id | MReorgRemove id | MReorgGet id => is_i64 id
  | MCreateColl db c | MUpdateColl db c => is_i64 db /\ wf_ci c
  | MDropColl db c _ | MGetColl db c => is_i64 db /\ is_i64 c
  | MGetDiff v => is_i64 v
  | MSetDiff d => wf_sd d
  | MEnqueue _ j | MAddHistory j => wf_job j
  | MJobAt _ i => is_i64 i
  | MUpdateJob _ i j => is_i64 i /\ wf_job j
  | MReorgStart id s => is_i64 id /\ is_i64 s
  | MReorg id s e => is_i64 id /\ is_i64 s /\ is_i64 e
  | MDidInc db c step => is_i64 db /\ is_i64 c /\ is_i64 step
  | _ => True
  end.

(** ** sequences of calls, and histories of transactions *)
Inductive mref_run (A : mst) : list mop -> list (result mval) -> mst -> Prop :=
| mrun_nil : mref_run A [] [] A
| mrun_cons o r A1 l rs A2 : mref A o r A1 -> mref_run A1 l rs A2 -> mref_run A (o :: l) (r :: rs) A2.
(** an update transaction that commits, one rolled back after its calls, a read-only one *)
Inductive mbatch := MCommit (l : list mop) | MAbort (l : list mop) | MView (l : list mop).
Inductive mref_batch (A : mst) : mbatch -> list (result mval) -> mst -> Prop :=
| mref_commit l rs A' : mref_run A l rs A' -> mref_batch A (MCommit l) rs A'
| mref_abort l rs A' : mref_run A l rs A' -> mref_batch A (MAbort l) rs A
| mref_view l rs : mref_run A l rs A -> mref_batch A (MView l) rs A.
Inductive mref_hist (A : mst) : list mbatch -> list (list (result mval)) -> mst -> Prop :=
| mhist_nil : mref_hist A [] [] A
| mhist_cons b rs A1 h rss A2 : mref_batch A b rs A1 -> mref_hist A1 h rss A2 -> mref_hist A (b :: h) (rs :: rss) A2.
Definition mbatch_ops (b : mbatch) : list mop := match b with MCommit l | MAbort l | MView l => l end.
(** calls that only read *)
Definition mreads (o : mop) : bool :=
  match o with
  | MGetGlobalID | MGetVersion | MGetBoot | MGetDB _ | MListDBs | MGetColl _ _ | MListColls _ | MGetDiff _ | MJobAt _ _ | MQueueLen _ | MAllJobs _
  | MGetHistory _ | MAllHistory | MLastHistory _ | MReorgGet _ => true
  | _ => false
  end.
Definition mbatch_ok (b : mbatch) : Prop :=
  match b with MCommit l | MAbort l => Forall mok l | MView l => Forall (fun o => mreads o = true /\ mok o) l end.
(** how much a call can enlarge one of the stored structures *)
Definition mcost (o : mop) : Z :=
  match o with
  | MCreateDB _ | MUpdateDB _ | MCreateColl _ _ | MUpdateColl _ _ | MEnqueue _ _ | MAddHistory _ | MReorgStart _ _ | MDidInc _ _ _ => 1
  | MReorg _ _ _ => 2
  | _ => 0
  end.
Definition mcosts (l : list mop) : Z := fold_right (fun o n => mcost o + n) 0 l.
Definition mbcost (b : mbatch) : Z := mcosts (mbatch_ops b).
Definition mhcost (h : list mbatch) : Z := fold_right (fun b n => mbcost b + n) 0 h.
Lemma mcost_nonneg o : 0 <= mcost o.
Proof. destruct o; cbn [mcost]; lia. Qed.
Lemma mcosts_nonneg l : 0 <= mcosts l.
Proof. induction l as [|o l IH]; cbn [mcosts fold_right]; [lia|]. pose proof (mcost_nonneg o). unfold mcosts in IH. lia. Qed.
Lemma mhcost_nonneg h : 0 <= mhcost h.
Proof. induction h as [|b h IH]; cbn [mhcost fold_right]; [lia|]. pose proof (mcosts_nonneg (mbatch_ops b)). unfold mhcost, mbcost in *. lia. Qed.
