(** C88: any number of clients working on the strings, hashes and lists of structure/ at the same
    time. Model of histories of transactions of one Badger database (provider/badger_txn.go), each
    used through structure.New(txn, prefix) (structure/structure.go, string.go, hash.go, list.go; the
    operations are [sexec] of StructRef.v over Struct.v).
    A call works on the private state of its transaction only (the snapshot it took when it was
    created and its own writes), so calls of different transactions interleave as whole steps; the
    database is met when a transaction is created and when it commits.
    Not modelled here: size limits (see C30, C31), a transaction used after Commit or Discard. *)
From Coq Require Import Permutation.
From Verif Require Import Bytes SMap Provider World Struct StructProofs StructRef.

(** one database, any number of transactions named by numbers *)
Record sworld := SW { sw_db : db; sw_tx : nat -> option txn }.
Definition sw_upd (f : nat -> option txn) (i : nat) (o : option txn) : nat -> option txn :=
  fun j => if Nat.eqb j i then o else f j.
Inductive sev :=
| SBegin (i : nat) (upd : bool)        (* NewTransaction, provider/badger.go:38-41 *)
| SCall (i : nat) (o : sop)            (* an operation of the structure package *)
| SCommit (i : nat) (io : bool)        (* Commit, badger_txn.go:83-86; io: the disk fails *)
| SDiscard (i : nat)                   (* Discard, badger_txn.go:89-91 *)
| SOther (t : txn) (io : bool)         (* some transaction outside the prefix commits *)
| STick (n : nat).                     (* time passes *)
Inductive sans := AVal (r : result sval) | ADone (r : result unit) | ANone.
Definition sstep (P : bytes) (w : sworld) (e : sev) : sworld * sans :=
  match e with
  | SBegin i upd => (SW (sw_db w) (sw_upd (sw_tx w) i (Some (new_txn (sw_db w) upd []))), ANone)
  | SCall i o =>
      match sw_tx w i with
      | None => (w, ANone)
      | Some t => let '(t', r) := sexec P o t in (SW (sw_db w) (sw_upd (sw_tx w) i (Some t')), AVal r)
      end
  | SCommit i io =>
      match sw_tx w i with
      | None => (w, ANone)
      | Some t => let '(d, _, r) := commit (sw_db w) t io in (SW d (sw_upd (sw_tx w) i None), ADone r)
      end
  | SDiscard i => (SW (sw_db w) (sw_upd (sw_tx w) i None), ANone)
  | SOther t io => let '(d, _, _) := commit (sw_db w) t io in (SW d (sw_tx w), ANone)
  | STick n => (SW (Db (d_kv (sw_db w)) (d_ts (sw_db w)) (d_last (sw_db w)) (d_now (sw_db w) + Z.of_nat n) (d_clamp (sw_db w))) (sw_tx w), ANone)
  end.
Fixpoint shist (P : bytes) (w : sworld) (es : list sev) : sworld * list sans :=
  match es with
  | [] => (w, [])
  | e :: es' => let '(w1, a) := sstep P w e in let '(w2, l) := shist P w1 es' in (w2, a :: l)
  end.
Definition sfresh (now : Z) (clamp : bool) : sworld := SW (db_init now clamp) (fun _ => None).

(** * Specification *)
(** what an onlooker notes about a transaction: when it began and ended (numbers of events), its
    calls and their answers *)
Record deed := Deed { s_upd : bool; s_begin : nat; s_end : nat; s_calls : list (sop * result sval) }.
Definition calls (d : deed) : list sop := map fst (s_calls d).
Definition answers (d : deed) : list (result sval) := map snd (s_calls d).
(** the log: the number of events so far; transactions under way; those whose Commit returned nil;
    the others (Commit failed, discarded, begun again) *)
Record journal := Journal { j_now : nat; j_open : list (nat * deed); j_done : list deed; j_rest : list deed }.
Definition find_tx (i : nat) (l : list (nat * deed)) : option deed :=
  option_map snd (find (fun p => Nat.eqb i (fst p)) l).
Definition forget (i : nat) (l : list (nat * deed)) : list (nat * deed) :=
  filter (fun p => negb (Nat.eqb i (fst p))) l.
Definition ended (n : nat) (d : deed) : deed := Deed (s_upd d) (s_begin d) n (s_calls d).
Definition left_over (n i : nat) (l : list (nat * deed)) : list deed :=
  match find_tx i l with Some d => [ended n d] | None => [] end.
Definition jstep (j : journal) (ea : sev * sans) : journal :=
  let n := j_now j in
  match ea with
  | (SBegin i u, _) =>
      Journal (S n) ((i, Deed u n n []) :: forget i (j_open j)) (j_done j) (j_rest j ++ left_over n i (j_open j))
  | (SCall i o, AVal a) =>
      match find_tx i (j_open j) with
      | Some d => Journal (S n) ((i, Deed (s_upd d) (s_begin d) n (s_calls d ++ [(o, a)])) :: forget i (j_open j)) (j_done j) (j_rest j)
      | None => Journal (S n) (j_open j) (j_done j) (j_rest j)
      end
  | (SCommit i _, ADone (Ok _)) => Journal (S n) (forget i (j_open j)) (j_done j ++ left_over n i (j_open j)) (j_rest j)
  | (SCommit i _, _) | (SDiscard i, _) => Journal (S n) (forget i (j_open j)) (j_done j) (j_rest j ++ left_over n i (j_open j))
  | _ => Journal (S n) (j_open j) (j_done j) (j_rest j)
  end.
Definition journal_of (P : bytes) (w : sworld) (es : list sev) : journal :=
  fold_left jstep (combine es (snd (shist P w es))) (Journal 0 [] [] []).
Definition committed (P : bytes) (w : sworld) (es : list sev) : list deed := j_done (journal_of P w es).

(** one whole transaction after the other on plain strings, ordered maps and lists *)
Definition after (l : list deed) : sst := fold_left (fun X d => fst (sref_run X (calls d))) l s_empty.
Fixpoint replays (X : sst) (l : list deed) : Prop :=
  match l with
  | [] => True
  | d :: l' => answers d = snd (sref_run X (calls d)) /\ replays (fst (sref_run X (calls d))) l'
  end.
(** nothing later in the list had ended before something earlier began *)
Fixpoint real_time (l : list deed) : Prop :=
  match l with
  | [] => True
  | a :: l' => (forall b, In b l' -> (s_begin a <= s_end b)%nat) /\ real_time l'
  end.
(** the state a transaction [d] saw: after a first part of the list, which holds all that had ended when
    [d] began and, for the rest, only transactions that left everything as it was *)
Definition one_moment (l : list deed) (d : deed) : Prop :=
  exists l1 l2, l = l1 ++ l2 /\ answers d = snd (sref_run (after l1) (calls d)) /\
    (forall a, In a l2 -> (s_begin d <= s_end a)%nat) /\
    (forall u a v, l1 = u ++ a :: v -> (s_end a < s_begin d)%nat \/ sst_eq (after (u ++ [a])) (after u)).

(** operations that find fields by a scan without looking at the field count *)
Definition lists_fields (o : sop) : bool :=
  match o with OHKeys _ | OHGetN _ _ | OHGetAll _ | OHGetNDesc _ _ => true | _ => false end.
Definition ev_cost (e : sev) : Z := match e with SCall _ o => scost o | _ => 0 end.
Definition total_cost (es : list sev) : Z := fold_right (fun e n => ev_cost e + n) 0 es.
(** what histories are considered: arguments the Go types allow, a read-only transaction is only
    read, other transactions write nothing under the prefix and nothing with a lifetime, and less
    than 2^63 elements are ever added *)
Record history_ok (P : bytes) (es : list sev) : Prop := {
  ok_args : forall i o, In (SCall i o) es -> sok o;
  ok_ro : forall i o, In (SBegin i false) es -> In (SCall i o) es -> is_read o = true;
  ok_other : forall t io, In (SOther t io) es ->
    forall k, (has_prefix k P = true -> get (t_pend t) k = None) /\ (forall e, get (t_pend t) k = Some (Some e) -> e_exp e = 0);
  ok_cost : total_cost es < two63
}.
