(** Model of /repo/document/domain/domain.go: keeping the schema cache up to date with the store.
    Left out: the goroutine of reloadInLoop (a reload may happen at any moment) and the mutex reloadMu
    (one reload at a time). mustReload, 65-75, repeats a reload until it returns no error. *)
From Verif Require Import Bytes SMap Provider Numeric KvUtil Struct Sequence Model Meta Schema UtilTxn.

Notation "x <- m ;; k" := (bind m (fun x => k)) (at level 61, m at next level, right associativity).

Section WithJson.
Variable J : json.
Definition maxNumberOfDiffsToLoad : Z := 100.   (* 154-156 *)
(** the loop 165-175: [v] is the cache's version so far; None: a diff is missing *)
Fixpoint load_diffs (n : nat) (v : Z) : Tx (option (list SchemaDiff)) :=
  match n with
  | O => ret (Some [])
  | S n' =>
      o <- GetSchemaDiff J (v + 1) ;;
      match o with
      | None => ret None
      | Some x => r <- load_diffs n' (v + 1) ;; ret (option_map (cons x) r)
      end
  end.
(** tryLoadSchemaDiff 158-180. None: not ok. make with a negative capacity panics *)
Definition tryLoadSchemaDiff (cv v : Z) : Tx (option (list SchemaDiff)) :=
  if (cv =? 0) || (maxNumberOfDiffsToLoad <? v - cv) then ret None
  else if v - cv <? 0 then gopanic
  else load_diffs (Z.to_nat (v - cv)) cv.
(** the reads of reloadSchema 107-152: one read-only transaction *)
Inductive loaded := LCurrent | LDiffs (ds : list SchemaDiff) | LFull (v : Z) (infos : list DBInfo).
Definition reload_reads (cv : Z) : Tx loaded :=
  v <- GetSchemaVersion ;;
  if cv =? v then ret LCurrent else
  o <- tryLoadSchemaDiff cv v ;;
  match o with
  | Some ds => ret (LDiffs ds)
  | None => l <- ListDatabases J ;; ret (LFull v l)
  end.
Definition version_of (h : handle) : Z := match h_val h with Some c => mc_version (c_val c) | None => 0 end.
(** what a reload ends with; RBlocked: it waits for the handle's write lock *)
Inductive rres := RDone | RErr (e : err) | RPanic | RBlocked.
Definition publish_cache (h : handle) (c : cref) : handle * rres := match Update h c with Some h' => (h', RDone) | None => (h, RBlocked) end.
(** reloadSchema 107-152; [p]: the address of the new cache *)
Definition reloadSchema (d : db) (h : handle) (p : nat) : handle * rres :=
  match run_view d (reload_reads (version_of h)) with
  | Err e => (h, RErr e)
  | Panic => (h, RPanic)
  | Ok LCurrent => (h, RDone)
  | Ok (LDiffs ds) =>
      match ApplyDiffs (CloneCache (option_map c_val (h_val h))) ds with
      | (c, Ok _) => publish_cache h (CRef p c)
      | (_, Err e) => (h, RErr e)
      | (_, Panic) => (h, RPanic)
      end
  | Ok (LFull v l) => publish_cache h (CRef p (NewMetaCache v l))
  end.
End WithJson.
