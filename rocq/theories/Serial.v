(** Specification for C85: what a client can write down about a history of transactions (calls and
    answers only), and the serial history made from it. Model: World.v over Provider.v
    (provider/badger.go, provider/badger_txn.go). *)
From Verif Require Import Bytes SMap Provider World.

(** what one transaction did: the size-limit outcomes it met, its calls and their answers *)
Record deed := Deed { s_upd : bool; s_lim : list bool; s_calls : list (cmd * result out) }.
Definition calls (r : deed) : list cmd := map fst (s_calls r).

(** Set or Delete that returned no error *)
Definition wrote (p : cmd * result out) : bool :=
  match p with (CSet _ _ _, Ok _) | (CDel _, Ok _) => true | _ => false end.

(** the log of a client that sees every call and answer: the transactions now open, and those that
    committed at least one write, in the order of their commits *)
Record journal := Journal { j_open : list (nat * deed); j_done : list deed }.
Definition find_tx (i : nat) (l : list (nat * deed)) : option deed :=
  option_map snd (find (fun p => Nat.eqb i (fst p)) l).
Definition forget (i : nat) (l : list (nat * deed)) : list (nat * deed) :=
  filter (fun p => negb (Nat.eqb i (fst p))) l.
Definition jstep (j : journal) (er : ev * option (result out)) : journal :=
  match er with
  | (Begin i u lim, _) => Journal ((i, Deed u lim []) :: forget i (j_open j)) (j_done j)
  | (Do i c, Some a) =>
      match find_tx i (j_open j) with
      | Some r => Journal ((i, Deed (s_upd r) (s_lim r) (s_calls r ++ [(c, a)])) :: forget i (j_open j)) (j_done j)
      | None => j
      end
  | (Commit i _, Some (Ok _)) =>
      match find_tx i (j_open j) with
      | Some r => Journal (forget i (j_open j)) (j_done j ++ if existsb wrote (s_calls r) then [r] else [])
      | None => j
      end
  | (Commit i _, _) | (Discard i, _) => Journal (forget i (j_open j)) (j_done j)
  | _ => j
  end.
Definition journal_of (w : world) (es : list ev) : journal :=
  fold_left jstep (combine es (snd (run w es))) (Journal [] []).
Definition committed (w : world) (es : list ev) : list deed := j_done (journal_of w es).

(** the serial history: each transaction of the list alone, from Begin to Commit, one after the other *)
Definition alone (u : bool) (lim : list bool) (cs : list cmd) : list ev :=
  Begin 0 u lim :: map (Do 0) cs.
Definition one (r : deed) : list ev := alone (s_upd r) (s_lim r) (calls r) ++ [Commit 0 false].
Definition serial (l : list deed) : list ev := concat (map one l).

Definition scans (c : cmd) : bool := match c with CScan _ _ => true | _ => false end.
(** no call of the history writes an entry with a lifetime *)
Definition no_ttl (es : list ev) : Prop :=
  forall i k v m, In (Do i (CSet k v m)) es -> m = None.
(** the clock does not move *)
Definition no_tick (es : list ev) : Prop := forall n, ~ In (Tick n) es.
Definition fresh_db (now : Z) (clamp : bool) : world := World (db_init now clamp) (fun _ => None).
