(** Model of /repo/document/meta/sequence (hash.go, sequence.go, string.go): the id allocators,
    and of any number of them sharing one stored counter under any schedule. *)
From Verif Require Import Bytes SMap Provider World Numeric Struct UtilTxn.

(** keyspace.MetaPrefixBytes, document/keyspace/keyspace.go:3-17 *)
Definition MetaPrefix : bytes := str "_md_m".

(** where the counter is stored: NewString(keyword) or NewHash(key, field) *)
Inductive loc := AtString (keyword : bytes) | AtHash (key field : bytes).
Definition counter_key (l : loc) : bytes :=
  match l with
  | AtString k => encodeStringDataKey MetaPrefix k
  | AtHash k f => encodeHashDataKey MetaPrefix k f
  end.
(** the statements inside the transactions of renewLeaseFunc / updateLeasedFunc / clearFunc,
    string.go:27-85, hash.go:31-88 *)
Definition loc_inc (l : loc) (step : Z) : Tx Z :=
  match l with AtString k => SInc MetaPrefix k step | AtHash k f => HInc MetaPrefix k f step end.
Definition loc_set (l : loc) (v : Z) : Tx unit :=
  match l with AtString k => SSetInt64 MetaPrefix k v | AtHash k f => HSetInt64 MetaPrefix k f v end.
Definition loc_clear (l : loc) : Tx unit :=
  match l with AtString k => SClear MetaPrefix k | AtHash k _ => HClear MetaPrefix k end.

(** Sequence, sequence.go:22-32 *)
Record seq := Seq { q_loc : loc; q_bw : Z; q_closed : bool; q_next : Z; q_leased : Z; q_put : list Z }.
Definition set_lease (s : seq) (next leased : Z) : seq := Seq (q_loc s) (q_bw s) (q_closed s) next leased (q_put s).
Definition set_closed (s : seq) : seq := Seq (q_loc s) (q_bw s) true (q_next s) (q_leased s) (q_put s).
Definition set_put (s : seq) (l : list Z) : seq := Seq (q_loc s) (q_bw s) (q_closed s) (q_next s) (q_leased s) l.

Definition ErrEmptyKeywordForStringSequence := ENamed (str "keyword cannot be empty for string sequence").
Definition ErrEmptyKeyForHashSequence := ENamed (str "key cannot be empty for hash sequence").
Definition ErrEmptyFieldForHashSequence := ENamed (str "field cannot be empty for hash sequence").
Definition ErrZeroBandwidth := ENamed (str "bandwidth must be greater than zero").
Definition ErrSequenceClosed := ENamed (str "sequence closed").

(** one call: [d0] the database when the call creates its transaction, [d1] when it commits it,
    [lim]/[io] the storage engine's choices *)
Section call.
Context (d0 d1 : db) (lim : list bool) (io : bool).

(** renewLeaseFunc, string.go:27-46, hash.go:31-50 *)
Definition renewLease (s : seq) (step0 : Z) : db * seq * result unit :=
  let step := if step0 =? 0 then q_bw s else step0 in
  match run_update d0 d1 (loc_inc (q_loc s) step) lim io with
  | (d, Ok leased) => (d, set_lease s (to_i64 (leased - step)) leased, Ok tt)
  | (d, Err e) => (d, s, Err e)
  | (d, Panic) => (d, s, Panic)
  end.
(** clearFunc, string.go:48-65, hash.go:52-69 *)
Definition clearFunc (s : seq) : db * seq * result unit :=
  match run_update d0 d1 (loc_clear (q_loc s)) lim io with
  | (d, Ok _) => (d, set_lease s 0 0, Ok tt)
  | (d, Err e) => (d, s, Err e)
  | (d, Panic) => (d, s, Panic)
  end.
(** updateLeasedFunc, string.go:67-84, hash.go:71-88 *)
Definition updateLeased (s : seq) : db * seq * result unit :=
  match run_update d0 d1 (loc_set (q_loc s) (q_next s)) lim io with
  | (d, Ok _) => (d, set_lease s (q_next s) (q_next s), Ok tt)
  | (d, Err e) => (d, s, Err e)
  | (d, Panic) => (d, s, Panic)
  end.
(** releaseRemainingLocked, sequence.go:90-97 *)
Definition releaseRemaining (s : seq) : db * seq * result unit :=
  if q_leased s =? q_next s then (d1, s, Ok tt) else updateLeased s.

(** NewString string.go:15-89, NewHash hash.go:15-93. Simplification: when the first lease
    fails the Go code also returns the object; callers do not use it and it is dropped here. *)
Definition newSeq (l : loc) (bw : Z) : db * option seq * result unit :=
  match (match l with
         | AtString [] => Some ErrEmptyKeywordForStringSequence
         | AtHash [] _ => Some ErrEmptyKeyForHashSequence
         | AtHash _ [] => Some ErrEmptyFieldForHashSequence
         | _ => if bw =? 0 then Some ErrZeroBandwidth else None
         end) with
  | Some e => (d1, None, Err e)
  | None => match renewLease (Seq l bw false 0 0 []) 0 with
            | (d, s, Ok _) => (d, Some s, Ok tt)
            | (d, _, r) => (d, None, r)
            end
  end.

Inductive qop := QNext | QNextN (n : Z) | QReNew | QRelease | QClose (release : bool) | QClear.
Inductive qval := QUnit | QId (v : Z) | QRanges (l : list (Z * Z)).   (* a range is (start, end] *)
Definition done (x : db * seq * result unit) : db * seq * result qval :=
  let '(d, s, r) := x in (d, s, match r with Ok _ => Ok QUnit | Err e => Err e | Panic => Panic end).
(** Next, sequence.go:123-148: the last element of putbacks first *)
Definition q_Next (s : seq) : db * seq * result qval :=
  match rev (q_put s) with
  | v :: l => (d1, set_put s (rev l), Ok (QId v))
  | [] =>
      let '(d, s1, r) := if q_leased s <=? q_next s then renewLease s 0 else (d1, s, Ok tt) in
      match r with
      | Ok _ => let v := to_i64 (q_next s1 + 1) in (d, set_lease s1 v (q_leased s1), Ok (QId v))
      | Err e => (d, s1, Err e)
      | Panic => (d, s1, Panic)
      end
  end.
(** NextN, sequence.go:158-198 *)
Definition q_NextN (s : seq) (n : Z) : db * seq * result qval :=
  let fin := to_i64 (q_next s + n) in
  if fin <=? q_leased s then (d1, set_lease s fin (q_leased s), Ok (QRanges [(q_next s, fin)]))
  else
    let nextCopy := q_next s in
    let remain := to_i64 (q_leased s - nextCopy) in
    let step := to_i64 (n + q_bw s - remain) in
    match renewLease s step with
    | (d, s1, Ok _) =>
        (d, s1, Ok (QRanges ((if 0 <? remain then [(nextCopy, to_i64 (nextCopy + remain))] else []) ++
                             [(q_next s1, to_i64 (q_next s1 + n - remain))])))
    | (d, s1, Err e) => (d, s1, Err e)
    | (d, s1, Panic) => (d, s1, Panic)
    end.
(** the exported methods: checkStatus first (except NextN(0), sequence.go:159-161); ReNew 35-50,
    Close 60-74, ReleaseRemaining 78-88, Clear 100-111 *)
Definition q_exec (s : seq) (o : qop) : db * seq * result qval :=
  match o with
  | QNextN 0 => (d1, s, Ok (QRanges []))
  | _ =>
      if q_closed s then (d1, s, Err ErrSequenceClosed)
      else match o with
           | QNext => q_Next s
           | QNextN n => q_NextN s n
           | QReNew => done (renewLease s 0)
           | QRelease => done (releaseRemaining s)
           | QClose rel => let s1 := set_closed s in if rel then done (releaseRemaining s1) else (d1, s1, Ok QUnit)
           | QClear => done (clearFunc s)
           end
  end.
End call.
(** PutBack, sequence.go:114-119 (no status check) *)
Definition q_PutBack (s : seq) (vs : list Z) : seq := set_put s (q_put s ++ vs).

(** * Any number of allocators on one counter, any schedule *)
Inductive call := CNew (bw : Z) | COp (o : qop).
Record qworld := QW {
  qw_db : db;
  qw_seq : nat -> option seq;              (* live objects *)
  qw_call : nat -> option (db * call)      (* a call in progress, and the database when its transaction began *)
}.
Inductive qev :=
| QBegin (i : nat) (c : call)                      (* object i's mutex is taken and its transaction begins *)
| QEnd (i : nat) (lim : list bool) (io : bool)     (* the call runs its body, commits and returns *)
| QPut (i : nat) (vs : list Z)                     (* PutBack *)
| QCrash (who : nat -> bool)                       (* these objects disappear, with their calls in progress *)
| QForeign (t : txn) (io : bool)                   (* somebody else's transaction commits *)
| QTick (n : nat).
Definition fupd {A} (f : nat -> option A) (i : nat) (o : option A) : nat -> option A :=
  fun j => if Nat.eqb j i then o else f j.
Definition qstep (L : loc) (w : qworld) (e : qev) : qworld * option (result qval) :=
  match e with
  | QBegin i c =>
      match qw_call w i with
      | Some _ => (w, None)     (* the mutex is taken *)
      | None =>
          match c, qw_seq w i with
          | CNew _, Some _ | COp _, None => (w, None)   (* no such call *)
          | _, _ => (QW (qw_db w) (qw_seq w) (fupd (qw_call w) i (Some (qw_db w, c))), None)
          end
      end
  | QEnd i lim io =>
      match qw_call w i with
      | None => (w, None)
      | Some (d0, CNew bw) =>
          let '(d, s, r) := newSeq d0 (qw_db w) lim io L bw in
          (QW d (fupd (qw_seq w) i s) (fupd (qw_call w) i None), Some (match r with Ok _ => Ok QUnit | Err x => Err x | Panic => Panic end))
      | Some (d0, COp o) =>
          match qw_seq w i with
          | None => (w, None)
          | Some s => let '(d, s', r) := q_exec d0 (qw_db w) lim io s o in
                      (QW d (fupd (qw_seq w) i (Some s')) (fupd (qw_call w) i None), Some r)
          end
      end
  | QPut i vs =>
      match qw_call w i, qw_seq w i with
      | None, Some s => (QW (qw_db w) (fupd (qw_seq w) i (Some (q_PutBack s vs))) (qw_call w), Some (Ok QUnit))
      | _, _ => (w, None)
      end
  | QCrash who =>
      (QW (qw_db w) (fun j => if who j then None else qw_seq w j) (fun j => if who j then None else qw_call w j), None)
  | QForeign t io => let '(d, _, _) := commit (qw_db w) t io in (QW d (qw_seq w) (qw_call w), None)
  | QTick n => (QW (tick (qw_db w) n) (qw_seq w) (qw_call w), None)
  end.
Fixpoint qrun (L : loc) (w : qworld) (es : list qev) : qworld * list (option (result qval)) :=
  match es with
  | [] => (w, [])
  | e :: es' => let '(w1, r) := qstep L w e in let '(w2, rs) := qrun L w1 es' in (w2, r :: rs)
  end.

(** * Specification *)
(** the ids a call handed out *)
Definition range_ids (r : Z * Z) : list Z := map (fun k => fst r + 1 + Z.of_nat k) (List.seq 0 (Z.to_nat (snd r - fst r))).
Definition ids_of (r : option (result qval)) : list Z :=
  match r with
  | Some (Ok (QId v)) => [v]
  | Some (Ok (QRanges l)) => concat (map range_ids l)
  | _ => []
  end.
(** ids in use: handed out and not put back since *)
Definition used_after (used : list Z) (e : qev) (r : option (result qval)) : list Z :=
  match e, r with
  | QPut _ vs, Some _ => filter (fun v => negb (existsb (Z.eqb v) vs)) used
  | _, _ => ids_of r ++ used
  end.
(** the property: no call hands out an id that is in use, or one id twice *)
Fixpoint never_twice (used : list Z) (es : list qev) (rs : list (option (result qval))) : Prop :=
  match es, rs with
  | e :: es', r :: rs' =>
      (NoDup (ids_of r) /\ forall v, In v (ids_of r) -> ~ In v used) /\ never_twice (used_after used e r) es' rs'
  | _, _ => True
  end.
