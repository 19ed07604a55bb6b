(** Model of /repo/document/meta/meta.go on top of the structures of Struct.v.
    encoding/json is a parameter: [json] gives, for each type the code stores, the encoder and the
    decoder; [json_ok] is the contract assumed of it (DESIGN.md, trusted base). MetaCodec.v builds
    one that meets it. *)
From Verif Require Import Bytes SMap Provider Numeric KvUtil Struct Sequence Model.

(** * encoding/json *)
Record jcodec (A : Type) := JC { jenc : A -> bytes; jdec : bytes -> option A }.
Arguments JC {A}. Arguments jenc {A}. Arguments jdec {A}.
Record json := JSON { jdb : jcodec DBInfo; jci : jcodec CollectionInfo; jjob : jcodec Job; jsd : jcodec SchemaDiff }.

(** ** values that survive a round trip: Go's integer ranges, and strings of valid UTF-8
    (json.Marshal replaces invalid bytes by U+FFFD) *)
(** utf8.ValidString of Go's unicode/utf8 *)
Definition cont (b : byte) : bool := (128 <=? b2z b) && (b2z b <=? 191).
Definition within (b : byte) (lo hi : Z) : bool := (lo <=? b2z b) && (b2z b <=? hi).
Fixpoint utf8 (s : bytes) : bool :=
  match s with
  | [] => true
  | a :: s1 =>
      if b2z a <? 128 then utf8 s1
      else match s1 with
           | [] => false
           | b :: s2 =>
               if within a 194 223 then cont b && utf8 s2
               else match s2 with
                    | [] => false
                    | c :: s3 =>
                        if within a 224 239 then
                          (if b2z a =? 224 then within b 160 191 else if b2z a =? 237 then within b 128 159 else cont b) && cont c && utf8 s3
                        else match s3 with
                             | [] => false
                             | d :: s4 =>
                                 within a 240 244 &&
                                 (if b2z a =? 240 then within b 144 191 else if b2z a =? 244 then within b 128 143 else cont b) && cont c && cont d && utf8 s4
                             end
                    end
           end
  end.
Definition utf8s (l : list bytes) : Prop := Forall (fun s => utf8 s = true) l.
Definition wf_red (r : IndexInfoRedundant) : Prop := utf8 (ir_collection r) = true /\ utf8 (ir_db r) = true /\ is_i64 (ir_cid r).
Definition wf_opt {A} (P : A -> Prop) (o : option A) : Prop := match o with Some a => P a | None => True end.
Definition wf_map {A} (P : A -> Prop) (o : option (smap A)) : Prop :=
  wf_opt (fun m => forall k a, get m k = Some a -> utf8 k = true /\ P a) o.
Definition wf_ii (i : IndexInfo) : Prop :=
  is_i64 (ii_id i) /\ utf8 (ii_name i) = true /\ wf_opt wf_red (ii_red i) /\ utf8s (ii_cols i).
Definition wf_ci (c : CollectionInfo) : Prop :=
  is_i64 (ci_id c) /\ utf8 (ci_name c) = true /\ wf_map wf_ii (ci_indices c) /\ utf8s (ci_order c).
Definition wf_di (d : DBInfo) : Prop :=
  is_i64 (di_id d) /\ utf8 (di_name d) = true /\ wf_map wf_ci (di_colls d) /\ utf8s (di_order d).
Definition wf_arg (a : jarg) : Prop := match a with ArgDB d => wf_di d | ArgIndex i => wf_ii i | ArgNone => True end.
Definition is_u8 (z : Z) : Prop := 0 <= z < 256.
Definition wf_job (j : Job) : Prop := is_i64 (j_id j) /\ is_u8 (j_type j) /\ is_i64 (j_errcount j) /\ wf_arg (j_arg j).
Definition wf_sd (d : SchemaDiff) : Prop := is_i64 (sd_version d) /\ is_u8 (sd_type d) /\ Forall is_i64 (sd_cids d) /\ wf_arg (sd_arg d).

(** the contract. A Job's Error field is an interface: errors.New values marshal to "{}", and
    json.Unmarshal cannot store an object into a non-nil interface type, so decoding such a job is an error *)
Record json_ok (J : json) : Prop := {
  ok_db : forall d, wf_di d -> jdec (jdb J) (jenc (jdb J) d) = Some d;
  ok_ci : forall c, wf_ci c -> jdec (jci J) (jenc (jci J) c) = Some c;
  ok_job : forall j, wf_job j -> jdec (jjob J) (jenc (jjob J) j) = if j_err j then None else Some j;
  ok_sd : forall d, wf_sd d -> jdec (jsd J) (jenc (jsd J) d) = Some d;
  ne_db : forall d, jenc (jdb J) d <> [];
  ne_ci : forall c, jenc (jci J) c <> [];
  ne_job : forall j, jenc (jjob J) j <> [];
  no_job : jdec (jjob J) [] = None              (* "unexpected end of JSON input" *)
}.

(** * Keys, 47-56, 84-94, 394-396, 429-434 *)
Definition schemaVersionKey := str "schemaVersion".
Definition bootstrapKey := str "bootstrap".
Definition globalIDKey := str "globalID".
Definition dbsKey := str "dbs".
Definition collectionInfoPrefix := str "collectionInfo".
(** fmt.Sprintf("%s:%d", prefix, id) *)
Definition pkey (prefix : bytes) (id : Z) : bytes := prefix ++ str ":" ++ Encode2Human id.
Definition dbKeyByID (id : Z) : bytes := pkey (str "db") id.
Definition collectionInfoKeyByID (id : Z) : bytes := pkey collectionInfoPrefix id.
Definition didSequenceKeyByID (id : Z) : bytes := pkey (str "didSequence") id.
Definition schemaDiffKey (v : Z) : bytes := pkey (str "schemaDiff") v.
(** JobListKeyType, 437-444: the two queues *)
Inductive jlist := DefaultJobList | AddIndexJobList.
Definition jkey (q : jlist) : bytes := match q with DefaultJobList => str "DDLJobList" | AddIndexJobList => str "DDLJobAddIdxList" end.
Definition ddlJobHistoryKey := str "DDLJobHistory".
Definition ddlJobReorgKey := str "DDLJobReorg".
Definition historyJobIDKey (id : Z) : bytes := Encode2Binary (to_u64 id) [].        (* 570-572 *)
Definition reorgJobStartHandle (id : Z) : bytes := Encode2Binary (to_u64 id) [].    (* 633-635 *)
Definition reorgJobEndHandle (id : Z) : bytes := Encode2Binary (to_u64 id) [] ++ str "_end".   (* 637-642 *)

(** * Errors, 58-69 *)
Definition ErrDBNotExists := ENamed (str "db not exists").
Definition ErrDBExists := ENamed (str "db exists").
Definition ErrCollectionExists := ENamed (str "collection exists").
Definition ErrCollectionNotExists := ENamed (str "collection not exists").
Definition ErrJobNotExists := ENamed (str "job not exists").

(** NewMeta, 72-82: every function below takes the structure prefix MetaPrefix; those that use
    m.jobListKey or an explicit list key take the queue [q] *)
Local Notation P := MetaPrefix.

(** checks, 96-130 *)
Definition must_exist (m : Tx bytes) (e : err) : Tx unit :=
  try m (fun r => match r with Err ErrKeyNotFound => fail e | Err e' => fail e' | Ok _ => ret tt | Panic => gopanic end).
Definition must_not_exist (m : Tx bytes) (e : err) : Tx unit :=
  try m (fun r => match r with Err ErrKeyNotFound => ret tt | Err e' => fail e' | Ok _ => fail e | Panic => gopanic end).
Definition checkDBExists (dbKey : bytes) : Tx unit := must_exist (HGet P dbsKey dbKey) ErrDBNotExists.
Definition checkDBNotExists (dbKey : bytes) : Tx unit := must_not_exist (HGet P dbsKey dbKey) ErrDBExists.
Definition checkCollectionExists (dbKey ck : bytes) : Tx unit := must_exist (HGet P dbKey ck) ErrCollectionNotExists.
Definition checkCollectionNotExists (dbKey ck : bytes) : Tx unit := must_not_exist (HGet P dbKey ck) ErrCollectionExists.

(** GetGlobalID 133-135, GenGlobalID 138-140, GenGlobalIDs 143-151 *)
Definition GetGlobalID : Tx Z := SGetInt64 P globalIDKey.
Definition GenGlobalID : Tx Z := SInc P globalIDKey 1.
Definition GenGlobalIDs (n : Z) : Tx (Z * Z) :=
  e <- SInc P globalIDKey n ;; ret (to_i64 (e - n), e).
(** GetInt64 with a missing key read as 0: GetSchemaVersion 154-160, GetBootstrapVersion 379-386 *)
Definition getOr0 (key : bytes) : Tx Z :=
  try (SGetInt64 P key) (fun r => match r with Err ErrKeyNotFound => ret 0 | Err e => fail e | Ok v => ret v | Panic => gopanic end).
Definition GetSchemaVersion : Tx Z := getOr0 schemaVersionKey.
Definition GenSchemaVersion : Tx Z := SInc P schemaVersionKey 1.        (* 163-165 *)
Definition GetBootstrapVersion : Tx Z := getOr0 bootstrapKey.
Definition FinishBootstrap (v : Z) : Tx unit := SSetInt64 P bootstrapKey v.  (* 389-392 *)

(** json.Unmarshal *)
Definition decode {A} (c : jcodec A) (b : bytes) : Tx A := match jdec c b with Some a => ret a | None => fail EDecode end.
Fixpoint decode_all {A} (c : jcodec A) (l : list bytes) : Tx (list A) :=
  match l with
  | [] => ret []
  | b :: l' => a <- decode c b ;; r <- decode_all c l' ;; ret (a :: r)
  end.

Section WithJson.
Variable J : json.

(** CreateDatabase 168-181, UpdateDatabase 184-197 *)
Definition CreateDatabase (d : DBInfo) : Tx unit :=
  checkDBNotExists (dbKeyByID (di_id d)) ;;; HSet P dbsKey (dbKeyByID (di_id d)) (jenc (jdb J) d).
Definition UpdateDatabase (d : DBInfo) : Tx unit :=
  checkDBExists (dbKeyByID (di_id d)) ;;; HSet P dbsKey (dbKeyByID (di_id d)) (jenc (jdb J) d).
(** CreateCollection 200-219 *)
Definition CreateCollection (dbID : Z) (c : CollectionInfo) : Tx unit :=
  checkDBExists (dbKeyByID dbID) ;;;
  checkCollectionNotExists (dbKeyByID dbID) (collectionInfoKeyByID (ci_id c)) ;;;
  HSet P (dbKeyByID dbID) (collectionInfoKeyByID (ci_id c)) (jenc (jci J) c).
(** DropDatabase 222-238 *)
Definition DropDatabase (dbID : Z) : Tx unit :=
  checkDBExists (dbKeyByID dbID) ;;; HClear P (dbKeyByID dbID) ;;; HDel P dbsKey [dbKeyByID dbID].
(** DropCollection 242-264 *)
Definition DropCollection (dbID cid : Z) (delAutoID : bool) : Tx unit :=
  checkDBExists (dbKeyByID dbID) ;;;
  checkCollectionExists (dbKeyByID dbID) (collectionInfoKeyByID cid) ;;;
  HDel P (dbKeyByID dbID) [collectionInfoKeyByID cid] ;;;
  (if delAutoID then HDel P (dbKeyByID dbID) [didSequenceKeyByID cid] else ret tt).
(** UpdateCollection 267-287 *)
Definition UpdateCollection (dbID : Z) (c : CollectionInfo) : Tx unit :=
  checkDBExists (dbKeyByID dbID) ;;;
  checkCollectionExists (dbKeyByID dbID) (collectionInfoKeyByID (ci_id c)) ;;;
  HSet P (dbKeyByID dbID) (collectionInfoKeyByID (ci_id c)) (jenc (jci J) c).
(** ListCollections 290-318 *)
Definition ListCollections (dbID : Z) : Tx (list CollectionInfo) :=
  checkDBExists (dbKeyByID dbID) ;;;
  res <- HGetAll P (dbKeyByID dbID) ;;
  decode_all (jci J) (map snd (filter (fun r => has_prefix (fst r) collectionInfoPrefix) res)).
(** ListDatabases 321-337 *)
Definition ListDatabases : Tx (list DBInfo) := res <- HGetAll P dbsKey ;; decode_all (jdb J) (map snd res).
(** GetDatabase 340-353, GetCollection 356-376 *)
Definition found {A} (m : Tx bytes) (e : err) (c : jcodec A) : Tx A :=
  try m (fun r => match r with Err ErrKeyNotFound => fail e | Err e' => fail e' | Ok b => decode c b | Panic => gopanic end).
Definition GetDatabase (dbID : Z) : Tx DBInfo := found (HGet P dbsKey (dbKeyByID dbID)) ErrDBNotExists (jdb J).
Definition GetCollection (dbID cid : Z) : Tx CollectionInfo :=
  checkDBExists (dbKeyByID dbID) ;;;
  found (HGet P (dbKeyByID dbID) (collectionInfoKeyByID cid)) ErrCollectionNotExists (jci J).
(** a missing key read as the nil pointer *)
Definition optional {A} (m : Tx bytes) (c : jcodec A) : Tx (option A) :=
  try m (fun r => match r with Err ErrKeyNotFound => ret None | Err e => fail e | Ok b => a <- decode c b ;; ret (Some a) | Panic => gopanic end).
(** GetSchemaDiff 399-411, SetSchemaDiff 414-422 *)
Definition GetSchemaDiff (v : Z) : Tx (option SchemaDiff) := optional (SGet P (schemaDiffKey v)) (jsd J).
Definition SetSchemaDiff (d : SchemaDiff) : Tx unit := SSet P (schemaDiffKey (sd_version d)) (jenc (jsd J) d).

(** EnQueueDDLJob 455-462, DeQueueDDLJob 480-482, GetDDLJobByIdx 500-509, UpdateDDLJob 526-534,
    DDLJobQueueLen 537-543, GetAllDDLJobsInQueue 546-568 *)
Definition EnQueueDDLJob (q : jlist) (j : Job) : Tx unit := RPush P (jkey q) [jenc (jjob J) j].
Definition DeQueueDDLJob (q : jlist) : Tx (option Job) := optional (LPop P (jkey q)) (jjob J).
Definition GetDDLJobByIdx (q : jlist) (i : Z) : Tx (option Job) := optional (LIndex P (jkey q) i) (jjob J).
Definition UpdateDDLJob (q : jlist) (i : Z) (j : Job) : Tx unit :=
  try (LSet P (jkey q) i (jenc (jjob J) j)) (fun r => match r with Err ErrKeyNotFound => fail ErrJobNotExists | Err e => fail e | Ok a => ret a | Panic => gopanic end).
Definition DDLJobQueueLen (q : jlist) : Tx Z := LLen P (jkey q).
Definition GetAllDDLJobsInQueue (q : jlist) : Tx (list Job) := vs <- LGetAll P (jkey q) ;; decode_all (jjob J) vs.

(** AddHistoryDDLJob 575-581, GetHistoryDDLJob 584-597, GetAllHistoryDDLJobs 613-621,
    GetLastNHistoryDDLJobs 624-631, decodeJobs 599-610 *)
Definition AddHistoryDDLJob (j : Job) : Tx unit := HSet P ddlJobHistoryKey (historyJobIDKey (j_id j)) (jenc (jjob J) j).
Definition GetHistoryDDLJob (id : Z) : Tx (option Job) := optional (HGet P ddlJobHistoryKey (historyJobIDKey id)) (jjob J).
Definition GetAllHistoryDDLJobs : Tx (list Job) := ps <- HGetAll P ddlJobHistoryKey ;; decode_all (jjob J) (map snd ps).
Definition GetLastNHistoryDDLJobs (n : Z) : Tx (list Job) := ps <- HGetNDesc P ddlJobHistoryKey n ;; decode_all (jjob J) (map snd ps).

(** reorganization handles: UpdateDDLReorgStartHandle 645-648, UpdateDDLReorgHandle 651-658,
    RemoveDDLReorgHandle 661-668, GetDDLReorgHandle 671-681 *)
Definition UpdateDDLReorgStartHandle (id start : Z) : Tx unit := HSet P ddlJobReorgKey (reorgJobStartHandle id) (Encode2Human start).
Definition UpdateDDLReorgHandle (id start stop : Z) : Tx unit :=
  HSet P ddlJobReorgKey (reorgJobStartHandle id) (Encode2Human start) ;;; HSet P ddlJobReorgKey (reorgJobEndHandle id) (Encode2Human stop).
Definition RemoveDDLReorgHandle (id : Z) : Tx unit :=
  HDel P ddlJobReorgKey [reorgJobStartHandle id] ;;; HDel P ddlJobReorgKey [reorgJobEndHandle id].
Definition GetDDLReorgHandle (id : Z) : Tx (Z * Z) :=
  a <- HGetInt64 P ddlJobReorgKey (reorgJobStartHandle id) ;; b <- HGetInt64 P ddlJobReorgKey (reorgJobEndHandle id) ;; ret (a, b).
End WithJson.
