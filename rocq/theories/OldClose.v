(** Model of the closing protocol of the old document database: document/db.go (DB, NewDB,
    Collection, checkState, Close) and the prologue of every operation of document/collection.go.
    Goroutines are interleaved step by step.

    Contract of closer.Strict (github.com/zhiqiangxu/util, not in /repo): Add fails once the closer
    was signalled and otherwise counts one more holder; Done counts one less; SignalAndWait signals
    and then blocks until no holder is left. sync.Once: the first Do runs the function, every other
    Do blocks until that run is over. sync.RWMutex: as usual.

    The bodies of the operations are arbitrary: any finite list of steps on the store (with its
    in-memory counters), of any type. *)
From Verif Require Import Bytes.

Section Close.
Context {St : Type}.
Definition eff := St -> St.

(** what a client calls: Collection(name) (with the store steps of newCollection, collection.go:30-58,
    and whether it succeeds), or any operation with a prologue (InsertOne ... DropIndex) *)
Inductive call := CColl (name : bytes) (make : list eff) (ok : bool) | COp (body : list eff).
(** the answers that matter here *)
Inductive answer := AName | AClosing | AClosed | ASignaled | AColl (name : bytes) | AFail | AOk.
Inductive ostate := Open | Closing | Closed.      (* db.go:103-107 *)
Inductive once := ONot | ORunning | ODone.
(** where a goroutine is *)
Inductive pc :=
| PIdle
| PCheck (c : call)                               (* before checkState *)
| PLook (name : bytes) (make : list eff) (ok : bool)      (* before db.mu.RLock, db.go:70-76 *)
| PAdd (c : call)                                 (* before closer.Add *)
| PLock (name : bytes) (make : list eff) (ok : bool)      (* before db.mu.Lock, db.go:84 *)
| PMake (name : bytes) (make : list eff) (ok : bool)      (* in newCollection, holding db.mu *)
| PBody (body : list eff)                         (* in the body of an operation *)
| PDone (a : answer)                              (* before the deferred closer.Done *)
| POnce                                           (* Close called: before once.Do *)
| PWaitOnce                                       (* another goroutine is inside once.Do *)
| PSignal                                         (* state is closing, before SignalAndWait *)
| PWait                                           (* signalled, waiting for the holders *)
| PRel (todo : list (option bytes))               (* releasing sequences: None = the two of the DB *)
| PEnd.                                           (* before state = closed *)

(** what is seen from outside, oldest first *)
Inductive obs :=
| TCall (g : nat) (c : call)
| TRet (g : nat) (a : answer)
| TEff (g : nat)                                  (* a step on the store by an operation *)
| TClose (g : nat)
| TRel (what : option bytes)                      (* ReleaseRemaining of a sequence *)
| TClosed (g : nat).                              (* Close returned *)

Record sys := Sys {
  s_store : St; s_state : ostate; s_sig : bool; s_cnt : nat; s_once : once;
  s_names : list bytes;                           (* keys of db.collections *)
  s_lock : option nat;                            (* writer of db.mu *)
  s_pc : nat -> pc; s_trace : list obs }.
Definition start (st : St) : sys := Sys st Open false 0 ONot [] None (fun _ => PIdle) [].

Definition upd (f : nat -> pc) (g : nat) (p : pc) : nat -> pc := fun h => if Nat.eqb h g then p else f h.
Definition go (s : sys) (g : nat) (p : pc) : sys :=
  Sys (s_store s) (s_state s) (s_sig s) (s_cnt s) (s_once s) (s_names s) (s_lock s) (upd (s_pc s) g p) (s_trace s).
Definition say (o : obs) (s : sys) : sys :=
  Sys (s_store s) (s_state s) (s_sig s) (s_cnt s) (s_once s) (s_names s) (s_lock s) (s_pc s) (s_trace s ++ [o]).
Definition work (f : eff) (s : sys) : sys :=
  Sys (f (s_store s)) (s_state s) (s_sig s) (s_cnt s) (s_once s) (s_names s) (s_lock s) (s_pc s) (s_trace s).
Definition count (n : nat) (s : sys) : sys :=
  Sys (s_store s) (s_state s) (s_sig s) n (s_once s) (s_names s) (s_lock s) (s_pc s) (s_trace s).
Definition lock (o : option nat) (s : sys) : sys :=
  Sys (s_store s) (s_state s) (s_sig s) (s_cnt s) (s_once s) (s_names s) o (s_pc s) (s_trace s).
Definition names (l : list bytes) (s : sys) : sys :=
  Sys (s_store s) (s_state s) (s_sig s) (s_cnt s) (s_once s) l (s_lock s) (s_pc s) (s_trace s).
Definition mark (st : ostate) (sig : bool) (o : once) (s : sys) : sys :=
  Sys (s_store s) st sig (s_cnt s) o (s_names s) (s_lock s) (s_pc s) (s_trace s).
Definition reply (s : sys) (g : nat) (a : answer) : sys := say (TRet g a) (go s g PIdle).

(** names refused before anything else, db.go:57-64; the reserved words are keys.go:31-32 *)
Definition bad_name (n : bytes) : bool :=
  match n with [] => true | _ => bytes_eqb n (str "collection") || bytes_eqb n (str "index") end.
Definition known (n : bytes) (l : list bytes) : bool := existsb (bytes_eqb n) l.

(** one step of goroutine g; None = it is blocked or has nothing to do.
    [rel] is the effect of ReleaseRemaining on the store and the counters. *)
Variable rel : option bytes -> eff.
Definition run1 (g : nat) (s : sys) : option sys :=
  match s_pc s g with
  | PIdle => None
  | PCheck c =>                                   (* checkState, db.go:116-128; after the name checks *)
      if match c with CColl n _ _ => bad_name n | COp _ => false end then Some (reply s g AName)
      else match s_state s with
           | Closing => Some (reply s g AClosing)
           | Closed => Some (reply s g AClosed)
           | Open => Some (go s g (match c with CColl n m ok => PLook n m ok | COp _ => PAdd c end))
           end
  | PLook n m ok =>                               (* db.go:70-76 *)
      match s_lock s with
      | Some _ => None
      | None => if known n (s_names s) then Some (reply s g (AColl n)) else Some (go s g (PAdd (CColl n m ok)))
      end
  | PAdd c =>                                     (* db.go:78-81; collection.go prologue *)
      if s_sig s then Some (reply s g ASignaled)
      else Some (go (count (S (s_cnt s)) s) g (match c with CColl n m ok => PLock n m ok | COp b => PBody b end))
  | PLock n m ok =>                               (* db.go:84-88 *)
      match s_lock s with
      | Some _ => None
      | None => if known n (s_names s) then Some (go s g (PDone (AColl n))) else Some (go (lock (Some g) s) g (PMake n m ok))
      end
  | PMake n (f :: m) ok => Some (say (TEff g) (go (work f s) g (PMake n m ok)))
  | PMake n [] ok =>                              (* db.go:89-95 *)
      Some (go (lock None (if ok then names (n :: s_names s) s else s)) g (PDone (if ok then AColl n else AFail)))
  | PBody (f :: b) => Some (say (TEff g) (go (work f s) g (PBody b)))
  | PBody [] => Some (go s g (PDone AOk))
  | PDone a => Some (reply (count (pred (s_cnt s)) s) g a)
  | POnce =>                                      (* db.go:132-133 *)
      match s_once s with
      | ONot => Some (go (mark Closing (s_sig s) ORunning s) g PSignal)
      | ORunning => Some (go s g PWaitOnce)
      | ODone => Some (say (TClosed g) (go s g PIdle))
      end
  | PWaitOnce => match s_once s with ODone => Some (say (TClosed g) (go s g PIdle)) | _ => None end
  | PSignal => Some (go (mark (s_state s) true (s_once s) s) g PWait)
  | PWait =>                                      (* db.go:135; the map is read after the wait, db.go:147 *)
      match s_cnt s with
      | O => Some (go s g (PRel (None :: None :: map Some (s_names s))))
      | _ => None
      end
  | PRel (x :: l) => Some (say (TRel x) (go (work (rel x) s) g (PRel l)))
  | PRel [] => Some (go s g PEnd)
  | PEnd => Some (say (TClosed g) (go (mark Closed (s_sig s) ODone s) g PIdle))   (* db.go:151 *)
  end.

(** a schedule: clients call, and goroutines run *)
Inductive act := Call (g : nat) (c : call) | CallClose (g : nat) | Run (g : nat).
Definition act1 (s : sys) (a : act) : sys :=
  match a with
  | Call g c => match s_pc s g with PIdle => say (TCall g c) (go s g (PCheck c)) | _ => s end
  | CallClose g => match s_pc s g with PIdle => say (TClose g) (go s g POnce) | _ => s end
  | Run g => match run1 g s with Some s' => s' | None => s end
  end.
Definition acts (s : sys) (l : list act) : sys := fold_left act1 l s.
End Close.
Arguments eff : clear implicits. Arguments call : clear implicits. Arguments pc : clear implicits.
Arguments obs : clear implicits. Arguments sys : clear implicits. Arguments act : clear implicits.
