(** Everything at once (C93): any number of processes over one store, with overlapping schema
    requests, workers, reloads of schema caches, leases of document ids, and document transactions
    that name databases and collections.
    DdlSerial.v has the schema transactions, DomSerial.v the caches, DocSerial.v the calls on
    documents; here they share the store and the processes. *)
From Verif Require Import Bytes SMap Provider World UtilTxn Model Meta Schema DocTxn DocKeys Dml Ddl DdlSpec Domain DdlSerial DomSerial DocSerial DocLifeSpec.

(** * Model *)
(** Events: one of the schema transactions (DdlSerial.v; a crash of process p ends its reload and its
    document transactions); start and end of a reload in process p (document/domain/domain.go:98-115
    and 117-152); process p creates document transaction n in two steps, handle.Get() (document/txn/txn.go:25) and
    later kvdb.NewTransaction (26-27; a number used again stands for a new transaction); a call in it
    (document/dml/collection.go); its Commit in two steps: the schema check (txn.go:41-64,
    schema/handle.go:32-68), and later the commit in the store (66); Discard (36-38). *)
Inductive gev :=
| GDdl (e : kev)
| GReload (p : nat)
| GReloaded (p : nat)
| GGet (n p : nat)
| GBegin (n : nat) (upd : bool)
| GCall (n : nat) (c : call)
| GCheck (n : nat)
| GCommit (n : nat) (io : bool)
| GDiscard (n : nat).
(** the store and the schema calls; each process's schema handle and reload (DomSerial.v); the open
    document transactions, with their process and, once in Commit, the handle the check met; those between the two
    steps of NewTxn, with their process and the handle as it was read *)
Record gsys := GSys {
  g_k : ksys; g_h : nat -> handle; g_rel : nat -> option db;
  g_tx : nat -> option (nat * dtxn * option handle); g_new : nat -> option (nat * handle); g_next : nat }.
Definition g_db (g : gsys) : db := k_db (g_k g).
Definition set_tx (g : gsys) (n : nat) (x : option (nat * dtxn * option handle)) : gsys :=
  GSys (g_k g) (g_h g) (g_rel g) (upd (g_tx g) n x) (g_new g) (g_next g).
Definition set_db (k : ksys) (d : db) : ksys := KSys d (k_vars k) (k_open k) (k_jobs k).
Definition survives (p : nat) (o : option (nat * dtxn * option handle)) : option (nat * dtxn * option handle) :=
  match o with Some (q, x, h) => if Nat.eqb q p then None else Some (q, x, h) | None => None end.
Definition stays (p : nat) (o : option (nat * handle)) : option (nat * handle) :=
  match o with Some (q, h) => if Nat.eqb q p then None else Some (q, h) | None => None end.
Definition gstep (J : json) (g : gsys) (e : gev) : gsys * answer :=
  match e with
  | GDdl e =>
      let k := kstep J (g_k g) e in
      (match e with
       | KCrash p => GSys k (upd (g_h g) p NewHandle) (upd (g_rel g) p None) (fun n => survives p (g_tx g n)) (fun n => stays p (g_new g n)) (g_next g)
       | _ => GSys k (g_h g) (g_rel g) (g_tx g) (g_new g) (g_next g)
       end, ANone)
  | GReload p =>
      (match g_rel g p with
       | None => GSys (g_k g) (g_h g) (upd (g_rel g) p (Some (g_db g))) (g_tx g) (g_new g) (g_next g)
       | Some _ => g                                        (* waits for reloadMu *)
       end, ANone)
  | GReloaded p =>
      (match g_rel g p with
       | Some d => let '(h, r) := reloadSchema J d (g_h g p) (g_next g) in
           GSys (g_k g) (upd (g_h g) p h) (upd (g_rel g) p (match r with RBlocked => Some d | _ => None end)) (g_tx g) (g_new g) (S (g_next g))
       | None => g
       end, ANone)
  | GGet n p => (GSys (g_k g) (g_h g) (g_rel g) (upd (g_tx g) n None) (upd (g_new g) n (Some (p, g_h g p))) (g_next g), ANone)
  | GBegin n u =>
      (match g_new g n with
       | Some (p, h) => GSys (g_k g) (g_h g) (g_rel g) (upd (g_tx g) n (Some (p, NewTxn h (g_db g) u [], None))) (upd (g_new g) n None) (g_next g)
       | None => g
       end, ANone)
  | GCall n c =>
      match g_tx g n with
      | Some (p, x, None) => let '(x', r) := call_exec x c in (set_tx g n (Some (p, x', None)), AVal r)
      | _ => (g, ANone)
      end
  | GCheck n =>
      match g_tx g n with
      | Some (p, x, None) =>
          if dt_upd x then
            let h := g_h g p in
            (GSys (g_k g) (upd (g_h g) p (fst (Check h false (dt_start x) (dt_refs x)))) (g_rel g) (upd (g_tx g) n (Some (p, x, Some h))) (g_new g) (g_next g), ANone)
          else (g, ANone)                                   (* Commit of a read-only transaction returns at once *)
      | _ => (g, ANone)
      end
  | GCommit n io =>
      match g_tx g n with
      | Some (p, x, Some h) =>
          let '(_, d, _, r, _) := dcommit h (g_db g) io x in
          (GSys (set_db (g_k g) d) (g_h g) (g_rel g) (upd (g_tx g) n None) (g_new g) (g_next g), ADone r)
      | Some (p, x, None) => if dt_upd x then (g, ANone) else (set_tx g n None, ADone (Ok tt))
      | None => (g, ANone)
      end
  | GDiscard n => (set_tx g n None, ANone)
  end.
Definition gstart (d : db) : gsys := GSys (kstart d) (fun _ => NewHandle) (fun _ => None) (fun _ => None) (fun _ => None) 0.

(** * Specification: what the users of all processes note down, by names *)
(** a document transaction: its process, the collections that process showed when it read the
    schema, the number of transactions that had committed changes when it took its snapshot, its calls and their answers *)
Record entry := Entry { n_proc : nat; n_sees : bytes -> bytes -> bool; n_upd : bool; n_seen : nat; n_calls : list (call * result docval) }.
Definition shown_by (h : handle) (dbn coll : bytes) : bool :=
  match cacheCollectionInfo (option_map c_val (h_val h)) dbn coll with Some _ => true | None => false end.
Definition e_calls (e : entry) : list call := map fst (n_calls e).
Definition e_answers (e : entry) : list (result docval) := map snd (n_calls e).
(** calls that report a change *)
Definition nwrote (sees : bytes -> bytes -> bool) (p : call * result docval) : bool :=
  match p with
  | (Op _ dbn coll o, Ok v) =>
      match o, v with
      | OUpdate _ _, VBool b => b
      | OUpsert _ _, _ | OInsert _ _, _ | ODelete _, _ => true
      | ODeleteAll, VNum n => negb (Nat.eqb n 0)
      | _, _ => false
      end
  | (InsertOne _ dbn coll _ _ _, Ok _) => sees dbn coll
  | _ => false
  end.
Definition nchanged (e : entry) : bool := existsb (nwrote (n_sees e)) (n_calls e).
(** the transactions under way (also those whose process died), those that committed changes in the
    order of their commits, and the others *)
Record glog := GLog { l_open : list (nat * entry); l_done : list entry; l_rest : list entry }.
Definition lfind (n : nat) (l : list (nat * entry)) : option entry := option_map snd (find (fun p => Nat.eqb n (fst p)) l).
Definition lforget (n : nat) (l : list (nat * entry)) : list (nat * entry) := filter (fun p => negb (Nat.eqb n (fst p))) l.
Definition lleft (n : nat) (l : list (nat * entry)) : list entry := match lfind n l with Some e => [e] | None => [] end.
Definition lstep (g : gsys) (j : glog) (e : gev) (a : answer) : glog :=
  match e, a with
  | GBegin n u, _ =>
      match g_new g n with
      | Some (p, h) => GLog ((n, Entry p (shown_by h) u (length (l_done j)) []) :: lforget n (l_open j)) (l_done j) (l_rest j ++ lleft n (l_open j))
      | None => j
      end
  | GCall n c, AVal r =>
      match lfind n (l_open j) with
      | Some x => GLog ((n, Entry (n_proc x) (n_sees x) (n_upd x) (n_seen x) (n_calls x ++ [(c, r)])) :: lforget n (l_open j)) (l_done j) (l_rest j)
      | None => j
      end
  | GCommit n _, ADone (Ok _) =>
      match lfind n (l_open j) with
      | Some x => if nchanged x then GLog (lforget n (l_open j)) (l_done j ++ [x]) (l_rest j)
                  else GLog (lforget n (l_open j)) (l_done j) (l_rest j ++ [x])
      | None => j
      end
  | GCommit n _, ADone _ | GDiscard n, _ | GGet n _, _ => GLog (lforget n (l_open j)) (l_done j) (l_rest j ++ lleft n (l_open j))
  | _, _ => j
  end.
Fixpoint worked (J : json) (g : gsys) (j : glog) (es : list gev) : gsys * glog :=
  match es with
  | [] => (g, j)
  | e :: es' => let '(g1, a) := gstep J g e in worked J g1 (lstep g j e a) es'
  end.
Definition log0 : glog := GLog [] [] [].

(** the documents by names (DocLifeSpec.v: [ndocs], [nop]); one call on them. InsertOne in a collection
    that is not shown reports no error and does nothing (dml/collection.go:59 loses the error). *)
Definition ncall_spec (sees : bytes -> bytes -> bool) (N : ndocs) (c : call) : result docval * ndocs :=
  match c with
  | Op _ dbn coll o => nop sees N dbn coll o
  | InsertOne _ dbn coll did data _ => (Ok VUnit, if sees dbn coll then nupd N dbn coll (zset (N dbn coll) did data) else N)
  end.
Fixpoint ncalls_spec (sees : bytes -> bytes -> bool) (N : ndocs) (l : list call) : list (result docval) * ndocs :=
  match l with
  | [] => ([], N)
  | c :: l' => let '(r, N1) := ncall_spec sees N c in let '(rs, N2) := ncalls_spec sees N1 l' in (r :: rs, N2)
  end.
Definition no_docs : ndocs := fun _ _ => [].
Definition ndocs_after (l : list entry) : ndocs := fold_left (fun N e => snd (ncalls_spec (n_sees e) N (e_calls e))) l no_docs.
Fixpoint nreplays (N : ndocs) (l : list entry) : Prop :=
  match l with
  | [] => True
  | e :: l' => e_answers e = fst (ncalls_spec (n_sees e) N (e_calls e)) /\ nreplays (snd (ncalls_spec (n_sees e) N (e_calls e))) l'
  end.

(** * What a history must satisfy *)
(** schema requests as in DdlSerial.v ([kev_ok]), but other transactions write neither metadata nor
    documents; document ids are int64 values; GetDidRange is left to C51 *)
Definition gev_ok (e : gev) : Prop :=
  match e with
  | GDdl (KOther t io) => kev_ok (KOther t io) /\ forall c k, is_i64 c -> has_prefix k (docPrefix c) = true -> get (t_pend t) k = None
  | GDdl e => kev_ok e
  | GCall _ c => Forall is_i64 (call_ids c) /\ forall m dbn coll, c <> Op m dbn coll ORange
  | _ => True
  end.
(** a read-only transaction is only read *)
Definition reads_only (es : list gev) : Prop := forall n c, In (GBegin n false) es -> In (GCall n c) es -> call_writes c = false.
Definition gweight (g : gsys) (e : gev) : Z := match e with GDdl e => kweight (g_k g) e | _ => 0 end.
Fixpoint gload (J : json) (g : gsys) (es : list gev) : Z :=
  match es with [] => 0 | e :: es' => gweight g e + gload J (fst (gstep J g e)) es' end.
Definition world_ok (J : json) (d : db) (es : list gev) : Prop :=
  Forall gev_ok es /\ reads_only es /\ gload J (gstart d) es < two63.
(** the committed transactions do not look for documents by a scan *)
Definition scan_free (l : list entry) : Prop := forall e, In e l -> forallb (fun c => negb (scans c)) (e_calls e) = true.
