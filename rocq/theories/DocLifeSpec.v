(** Specification for C84: documents of named collections as finite maps (Dml.v: [zmap], [doc_spec]), and the ids InsertOne
    has given. The schema only decides which names are shown. *)
From Verif Require Import Bytes SMap Provider UtilTxn Model Meta Schema Dml Ddl DdlSpec Domain Process DocLife.

Definition ndocs := bytes -> bytes -> zmap.          (* database name, collection name *)
Definition nupd (N : ndocs) (dbn coll : bytes) (m : zmap) : ndocs := fun a b => if bytes_eqb a dbn && bytes_eqb b coll then m else N a b.
(** documents, and the ids in use: (database, collection, id) *)
Definition nstate := (ndocs * list (bytes * bytes * Z))%type.
Definition nothing : nstate := (fun _ _ => [], []).
Definition nsame (s s' : nstate) : Prop := (forall dbn coll, fst s dbn coll = fst s' dbn coll) /\ snd s = snd s'.
Section Spec.
(** [shown]: which collections the process sees. [only]: whether InsertOne is to give an id under which there is no document *)
Variable shown : bytes -> bytes -> bool.
Variable only : bool.
Definition nop (N : ndocs) (dbn coll : bytes) (o : docop) : result docval * ndocs :=
  if shown dbn coll then let '(r, m) := doc_spec (N dbn coll) o in (r, nupd N dbn coll m) else (Err ErrCollectionNotExists, N).
Inductive nstmt : nstate -> stmt -> reply -> nstate -> Prop :=
| n_op N I dbn coll o : nstmt (N, I) (SOp dbn coll o) (ROp (fst (nop N dbn coll o))) (snd (nop N dbn coll o), I)
(** InsertOne stores the document under a positive id that is not in use *)
| n_ins N I dbn coll data sio did : shown dbn coll = true -> 0 < did -> ~ In (dbn, coll, did) I -> (only = true -> zget (N dbn coll) did = None) ->
    nstmt (N, I) (SInsert dbn coll data sio) (RInsert did (Ok tt)) (nupd N dbn coll (zset (N dbn coll) did data), I ++ [(dbn, coll, did)])
(** the lease of more ids failed *)
| n_noid N I dbn coll data e : shown dbn coll = true -> nstmt (N, I) (SInsert dbn coll data true) (RInsert 0 (Err e)) (N, I)
(** a missing collection is not reported (C50) *)
| n_miss N I dbn coll data sio : shown dbn coll = false -> nstmt (N, I) (SInsert dbn coll data sio) (RInsert 0 (Ok tt)) (N, I).
Inductive nstmts : nstate -> list stmt -> list reply -> nstate -> Prop :=
| ns_nil s : nstmts s [] [] s
| ns_cons s x r s1 xs rs s2 : nstmt s x r s1 -> nstmts s1 xs rs s2 -> nstmts s (x :: xs) (r :: rs) s2.
(** a call's answer and effect *)
Inductive ncall : nstate -> call -> ans -> nstate -> Prop :=
| nc_auto N I dbn coll o io : ncall (N, I) (CAuto dbn coll o io) (NAuto (fst (nop N dbn coll o))) (snd (nop N dbn coll o), I)
(** the commit failed: reported, no effect *)
| nc_auto_fail N I dbn coll o v e : fst (nop N dbn coll o) = Ok v -> op_writes o = true -> ncall (N, I) (CAuto dbn coll o true) (NAuto (Err e)) (N, I)
| nc_ins s dbn coll data sio io did r s1 : nstmt s (SInsert dbn coll data sio) (RInsert did r) s1 -> ncall s (CInsert dbn coll data sio io) (NInsert did r) s1
| nc_ins_fail s dbn coll data sio did s1 e : nstmt s (SInsert dbn coll data sio) (RInsert did (Ok tt)) s1 -> ncall s (CInsert dbn coll data sio true) (NInsert did (Err e)) s
(** a discarded transaction has no effect, but the ids it was given stay in use *)
| nc_drop s upd ss rs s1 : nstmts s ss rs s1 -> ncall s (CTxn upd ss None) (NTxn rs (Ok tt)) (fst s, snd s1)
| nc_commit s upd ss rs s1 io : nstmts s ss rs s1 -> ncall s (CTxn upd ss (Some io)) (NTxn rs (Ok tt)) s1
| nc_fail s upd ss rs s1 e : nstmts s ss rs s1 -> ncall s (CTxn upd ss (Some true)) (NTxn rs (Err e)) s.
End Spec.
(** the collections a process shows: Domain's schema cache *)
Definition sees (p : proc) (dbn coll : bytes) : bool :=
  match cacheCollectionInfo (option_map c_val (h_val (p_h p))) dbn coll with Some _ => true | None => false end.
(** the answers [l] to the steps [es] from [p] on are right for documents [s], which become [s'] *)
Section WithJson.
Variable J : json.
Variable only : bool.
Fixpoint told (p : proc) (s : nstate) (es : list lev) (l : list ans) (s' : nstate) : Prop :=
  match es, l with
  | [], [] => nsame s s'
  | e :: es', a :: l' =>
      exists s1 s2, nsame s s1 /\
        match e with
        | LProc _ => a = NNone /\ s2 = s1
        | LCall c => if p_up p then ncall (sees p) only s1 c a s2 else a = NNone /\ s2 = s1
        end /\ told (fst (lev_step J p e)) s2 es' l' s'
  | _, _ => False
  end.
End WithJson.
