(** Many clients of one server at the same time: interleaved remote transactions and single calls,
    with requests and replies that get lost. Model over Remote.v (client/client_txn.go,
    client/client.go, server/common.go), and the specification used by C92: what the clients can
    write down, compared with a serial history of local transactions (Serial.v). *)
From Verif Require Import Bytes SMap Provider Pb World Serial Remote RemoteTxn.

(** what happens to a request on the network: answered; carried out but the reply is lost with the
    connection; or never received by the server (the connection is gone) *)
Inductive fate := Answered | Unanswered | Unsent.
(** the server's store and the clients' transaction objects *)
Record net := Net { n_db : db; n_tx : nat -> option rtxn }.
Inductive nev :=
| NTxn (i : nat) (upd : bool)                                       (* a client makes transaction i *)
| NOp (i : nat) (o : top) (lim : list bool) (io : bool) (f : fate)  (* an operation of transaction i *)
| NCall (o : top) (lim : list bool) (io : bool) (f : fate)          (* an operation outside transactions *)
| NTick (n : nat).
Definition put {A} (m : nat -> option A) (i : nat) (x : A) : nat -> option A := fun j => if Nat.eqb j i then Some x else m j.
Definition drop {A} (m : nat -> option A) (i : nat) : nat -> option A := fun j => if Nat.eqb j i then None else m j.

(** does the operation send a request? Not a Scan without limit (client_txn.go:219-221), a write of
    a read-only transaction (29-31, 141-143), nor Commit/Discard before any request (73-77) *)
Definition sends (r : rtxn) (o : top) : bool :=
  match o with
  | TSet _ _ _ | TDel _ => r_upd r
  | TScan _ limit => negb (limit <=? 0)
  | TCommit | TDiscard => match r_st r with Some _ => true | None => false end
  | _ => true
  end.

Section Net.
Variable etext : err -> bytes.
Variable ptext : perr -> bytes.
(** an operation of a transaction, client_txn.go; a request that fails before the stream exists
    (StreamRequest, 88-91) leaves the object as it was; when the connection goes, the server's loop
    ends (common.go:36-42) *)
Definition net_op (d : db) (lim : list bool) (io : bool) (r : rtxn) (o : top) (f : fate) : db * rtxn * cres tval :=
  match sends r o, f with
  | true, Unanswered => let '(d', r', _) := rop etext ptext d lim io r o in (d', rdrop r', CErr CClosed)
  | true, Unsent => (d, rdrop r, CErr CClosed)
  | _, _ => rop etext ptext d lim io r o
  end.
(** an operation outside transactions, client.go:69-302 *)
Definition net_call (d : db) (o : top) (lim : list bool) (io : bool) (f : fate) : db * cres tval :=
  match is_noop o, f with
  | false, Unanswered => (fst (client_op etext ptext d o lim io), CErr CClosed)
  | false, Unsent => (d, CErr CClosed)
  | _, _ => client_op etext ptext d o lim io
  end.
Definition nstep (n : net) (e : nev) : net * option (cres tval) :=
  match e with
  | NTxn i u => (Net (n_db n) (put (n_tx n) i (newTxn u)), None)
  | NOp i o lim io f =>
      match n_tx n i with
      | Some r => let '(d', r', x) := net_op (n_db n) lim io r o f in (Net d' (put (n_tx n) i r'), Some x)
      | None => (n, None)
      end
  | NCall o lim io f => let '(d', x) := net_call (n_db n) o lim io f in (Net d' (n_tx n), Some x)
  | NTick k => (Net (tick (n_db n) k) (n_tx n), None)
  end.

(** ** Specification: the clients' log *)
(** a transaction: its requests and the answers *)
Record rlog := RLog { g_upd : bool; g_calls : list (top * cres tval) }.
(** a Set or Delete answered without error *)
Definition rwrote (g : rlog) : bool :=
  existsb (fun p => match p with (TSet _ _ _, COk _) | (TDel _, COk _) => true | _ => false end) (g_calls g).
(** [c_done]: transactions with writes that asked for Commit, and single writes: true when the
    answer was a success, false when there was no answer (so nobody knows) *)
Record clog := CLog { c_open : nat -> option rlog; c_done : list (bool * rlog) }.
Definition ended (j : clog) (i : nat) (b : bool) (g : rlog) : clog :=
  CLog (drop (c_open j) i) (c_done j ++ if rwrote g then [(b, g)] else []).
Definition clog_op (j : clog) (i : nat) (g : rlog) (o : top) (x : cres tval) : clog :=
  let fresh := match g_calls g with [] => true | _ => false end in
  match o, x with
  | TCommit, COk _ => if fresh then j else ended j i true g
  | TCommit, CErr CClosed => ended j i false g
  | TCommit, _ => CLog (drop (c_open j) i) (c_done j)
  | TDiscard, _ => if fresh then j else CLog (drop (c_open j) i) (c_done j)
  | _, CErr CReadOnly => j                                        (* not sent *)
  | _, CErr CClosed | _, CErr (CPB 1 _) =>                        (* the stream has ended *)
      if fresh then j else CLog (drop (c_open j) i) (c_done j)
  | _, _ => if is_noop o then j
            else CLog (put (c_open j) i (RLog (g_upd g) (g_calls g ++ [(o, x)]))) (c_done j)
  end.
Definition clog_call (o : top) (x : cres tval) : list (bool * rlog) :=
  match o, x with
  | TSet _ _ _, COk _ | TDel _, COk _ => [(true, RLog true [(o, COk VUnit)])]
  | TSet _ _ _, CErr CClosed | TDel _, CErr CClosed => [(false, RLog true [(o, COk VUnit)])]
  | _, _ => []
  end.
Definition clog_step (j : clog) (e : nev) (a : option (cres tval)) : clog :=
  match e, a with
  | NTxn i u, _ => CLog (put (c_open j) i (RLog u [])) (c_done j)
  | NOp i o _ _ _, Some x => match c_open j i with Some g => clog_op j i g o x | None => j end
  | NCall o _ _ _, Some x => CLog (c_open j) (c_done j ++ clog_call o x)
  | _, _ => j
  end.
(** a history, with the log *)
Fixpoint played (n : net) (j : clog) (es : list nev) : net * clog :=
  match es with
  | [] => (n, j)
  | e :: es' => let '(n1, a) := nstep n e in played n1 (clog_step j e a) es'
  end.
Definition net0 (now : Z) (clamp : bool) : net := Net (db_init now clamp) (fun _ => None).
Definition clog0 : clog := CLog (fun _ => None) [].

(** the local call that an operation stands for, and the answer as the client shows it *)
Definition cmd_of (o : top) : option cmd :=
  match o with
  | TSet k v m => Some (CSet k v m)
  | TGet k => Some (CGet k)
  | TExists k => Some (CExists k)
  | TDel k => Some (CDel k)
  | TScan so limit => Some (CScan so (Some (scan_n limit)))
  | TCommit | TDiscard => None
  end.
Definition val_of (r : out) : tval :=
  match r with OUnit => VUnit | OEnt e => VEnt e | OBool b => VBool b | OItems l => VItems l end.
Definition shown (o : top) (r : result out) : cres tval :=
  seen_txn etext o (match r with Ok v => Ok (val_of v) | Err e => Err e | Panic => Panic end).
Definition same_call (p : top * cres tval) (q : cmd * result out) : Prop :=
  cmd_of (fst p) = Some (fst q) /\ snd p = shown (fst p) (snd q).
Definition tells (g : rlog) (d : deed) : Prop := s_upd d = g_upd g /\ Forall2 same_call (g_calls g) (s_calls d).
(** the local transactions [l] are those of the log, in its order; those without an answer may or
    may not be among them *)
Inductive accounts : list (bool * rlog) -> list deed -> Prop :=
| acc_nil : accounts [] []
| acc_yes : forall b g d done l, tells g d -> accounts done l -> accounts ((b, g) :: done) (d :: l)
| acc_no : forall g done l, accounts done l -> accounts ((false, g) :: done) l.
End Net.

(** ** What the clients may do *)
(** as [allow] (RemoteTxn.v, C36 and C37 say why), but also: writes of read-only transactions, a
    Set that is not the first request (it ends the transaction, C36), anything after the end *)
Definition may (u : bool) (p : phase) (o : top) : option phase :=
  match p, o with
  | POver, _ => Some POver
  | PRunning _, TSet k _ _ => if u then match k with [] => None | _ => Some POver end else Some p
  | _, TSet _ _ _ | _, TDel _ => if u then allow u p o else Some p
  | _, _ => allow u p o
  end.
Definition sends_in (u : bool) (p : phase) (o : top) : bool :=
  match o with
  | TSet _ _ _ | TDel _ => u
  | TScan _ limit => negb (limit <=? 0)
  | TCommit | TDiscard => match p with PFresh => false | _ => true end
  | _ => true
  end.
Definition phase_after (u : bool) (p p' : phase) (o : top) (f : fate) : phase :=
  if sends_in u p o then
    match f with Answered => p' | Unanswered => POver | Unsent => match p with PFresh => PFresh | _ => POver end end
  else p'.
Definition phases := nat -> option (bool * phase).
Definition pstep (ph : phases) (e : nev) : option phases :=
  match e with
  | NTxn i u => Some (put ph i (u, PFresh))
  | NOp i o _ _ f =>
      match ph i with
      | Some (u, p) => match may u p o with Some p' => Some (put ph i (u, phase_after u p p' o f)) | None => None end
      | None => Some ph
      end
  | _ => Some ph
  end.
Fixpoint well (ph : phases) (es : list nev) : bool :=
  match es with
  | [] => true
  | e :: es' => match pstep ph e with Some ph' => well ph' es' | None => false end
  end.
(** sizes and lifetimes are transportable ([op_ok]) *)
Fixpoint sizes (now : Z) (es : list nev) : Prop :=
  match es with
  | [] => True
  | NOp _ o _ _ _ :: es' | NCall o _ _ _ :: es' => op_ok now o /\ sizes now es'
  | NTick k :: es' => sizes (now + Z.of_nat k) es'
  | _ :: es' => sizes now es'
  end.
Definition nop_of (e : nev) : option top := match e with NOp _ o _ _ _ | NCall o _ _ _ => Some o | _ => None end.
Definition no_lifetimes (es : list nev) : Prop := forall e k v m, In e es -> nop_of e = Some (TSet k v m) -> m = None.
Definition still (es : list nev) : Prop := forall k, ~ In (NTick k) es.
Definition no_scan (g : rlog) : bool := forallb (fun p => match fst p with TScan _ _ => false | _ => true end) (g_calls g).
