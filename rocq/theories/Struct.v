(** Model of /repo/structure: strings, hashes and lists in a transaction. [P] is the prefix of
    the TxStructure (structure.go:19-27). *)
From Verif Require Import Bytes SMap Provider Memcmp Numeric KvUtil KeyModel.

(** type flags, keys.go:11-22 *)
Definition StringData : byte := z2b 115.  (* 's' *)
Definition HashMeta : byte := z2b 72.     (* 'H' *)
Definition HashData : byte := z2b 104.    (* 'h' *)
Definition ListMeta : byte := z2b 76.     (* 'L' *)
Definition ListData : byte := z2b 108.    (* 'l' *)

(** keys.go:24-51, 79-92 *)
Definition encodeStringDataKey (P key : bytes) : bytes := EncodeUint8 (EncodeBytes P key) StringData.
Definition encodeHashMetaKey (P key : bytes) : bytes := EncodeUint8 (EncodeBytes P key) HashMeta.
Definition hashDataKeyPrefix (P key : bytes) : bytes := EncodeUint8 (EncodeBytes P key) HashData.
Definition encodeHashDataKey (P key field : bytes) : bytes := EncodeBytes (EncodeUint8 (EncodeBytes P key) HashData) field.
Definition encodeListMetaKey (P key : bytes) : bytes := EncodeUint8 (EncodeBytes P key) ListMeta.
Definition encodeListDataKey (P key : bytes) (index : Z) : bytes :=
  EncodeInt64 (EncodeUint8 (EncodeBytes P key) ListData) index.

(** decodeHashDataKey, keys.go:53-77 (returns the field or an error; the word size flag of
    DecodeBytes does not matter for ascending order) *)
Definition decodeHashDataKey (P ek : bytes) : result (bytes * bytes) :=
  if negb (HasPrefix ek P) then Err (ENamed (str "key has no prefix"))
  else match DecodeBytes true (skipn (length P) ek) with
       | DErr _ => Err EDecode
       | DOk ek1 key =>
           match DecodeUint8 ek1 with
           | DErr _ => Err EDecode
           | DOk ek2 tp =>
               if negb (byte_eqb tp HashData) then Err (ENamed (str "invalid hash data key"))
               else match DecodeBytes true ek2 with
                    | DErr _ => Err EDecode
                    | DOk _ field => Ok (key, field)
                    end
           end
       end.

(** * Strings, string.go *)
Definition SSet (P key value : bytes) : Tx unit := tset (encodeStringDataKey P key) value.       (* 6-9 *)
Definition SGet (P key : bytes) : Tx bytes := tget (encodeStringDataKey P key).                   (* 12-16 *)
Definition SClear (P key : bytes) : Tx unit := tdel (encodeStringDataKey P key).                  (* 19-23 *)
Definition SGetInt64 (P key : bytes) : Tx Z := GetInt64 (encodeStringDataKey P key).              (* 26-31 *)
Definition SSetInt64 (P key : bytes) (v : Z) : Tx unit := SetInt64 (encodeStringDataKey P key) v. (* 34-39 *)
Definition SInc (P key : bytes) (step : Z) : Tx Z := IncInt64 (encodeStringDataKey P key) step.   (* 43-48 *)

(** * Hashes, hash.go *)
(** hashMeta.Value, 21-23 *)
Definition hmeta_val (count : Z) : bytes := Encode2Binary (to_u64 count) [].
(** loadHashMeta, 321-333 *)
Definition loadHashMeta (P key : bytes) : Tx Z :=
  v <- tget (encodeHashMetaKey P key) ;;
  match DecodeFromBinary v with None => fail EDecode | Some u => ret (to_i64 u) end.
(** bytes.Equal *)
Definition bequal (a b : bytes) : bool := bytes_eqb a b.

(** updateHash, 273-319. [fn] receives the old value (None = nil slice) and also returns the
    caller's result *)
Definition updateHash {A} (P key field : bytes) (fn : option bytes -> result (bytes * A)) : Tx A :=
  try (tget (encodeHashDataKey P key field)) (fun r =>
    let cont (isNew : bool) (oldValue : bytes) : Tx A :=
      match fn (nil_of oldValue) with
      | Err e => fail e
      | Panic => gopanic
      | Ok (newValue, a) =>
          if bequal oldValue newValue then ret a
          else
            tset (encodeHashDataKey P key field) newValue ;;;
            if negb isNew then ret a
            else
              n <- try (loadHashMeta P key) (fun r => match r with
                    | Ok n => ret n
                    | Err ErrKeyNotFound => ret 0
                    | Err e => fail e
                    | Panic => gopanic
                    end) ;;
              tset (encodeHashMetaKey P key) (hmeta_val (to_i64 (n + 1))) ;;;
              ret a
      end in
    match r with
    | Ok oldValue => cont false oldValue
    | Err ErrKeyNotFound => cont true []
    | Err e => fail e
    | Panic => gopanic
    end).
(** HSet, 30-34 *)
Definition HSet (P key field value : bytes) : Tx unit := updateHash P key field (fun _ => Ok (value, tt)).
(** HGet, 37-41 *)
Definition HGet (P key field : bytes) : Tx bytes := tget (encodeHashDataKey P key field).
(** HInc, 49-63 *)
Definition HInc (P key field : bytes) (step : Z) : Tx Z :=
  updateHash P key field (fun old =>
    match old with
    | None => Ok (Encode2Human (to_i64 (0 + step)), to_i64 (0 + step))
    | Some v => match DecodeFromHuman (Some v) with
                | NErr _ => Err EDecode
                | NOk n => Ok (Encode2Human (to_i64 (n + step)), to_i64 (n + step))
                end
    end).
(** HGetInt64 / HSetInt64, 66-74, 77-81 *)
Definition HGetInt64 (P key field : bytes) : Tx Z := v <- HGet P key field ;; parse_int v.
Definition HSetInt64 (P key field : bytes) (v : Z) : Tx unit := HSet P key field (Encode2Human v).
(** HLen, 84-96 *)
Definition HLen (P key : bytes) : Tx Z :=
  try (loadHashMeta P key) (fun r => match r with
    | Ok n => ret n
    | Err ErrKeyNotFound => ret 0
    | Err e => fail e
    | Panic => gopanic
    end).
(** the loop of HDel, 110-128 *)
Fixpoint hdel_loop (P key : bytes) (fields : list bytes) (count : Z) : Tx Z :=
  match fields with
  | [] => ret count
  | f :: fs =>
      try (tget (encodeHashDataKey P key f)) (fun r => match r with
        | Ok _ => tdel (encodeHashDataKey P key f) ;;; hdel_loop P key fs (to_i64 (count - 1))
        | Err ErrKeyNotFound => hdel_loop P key fs count
        | Err e => fail e
        | Panic => gopanic
        end)
  end.
(** HDel, 99-136 *)
Definition HDel (P key : bytes) (fields : list bytes) : Tx unit :=
  try (loadHashMeta P key) (fun r => match r with
    | Err ErrKeyNotFound => ret tt
    | Err e => fail e
    | Panic => gopanic
    | Ok n =>
        c <- hdel_loop P key fields n ;;
        if c <=? 0 then tdel (encodeHashMetaKey P key)
        else tset (encodeHashMetaKey P key) (hmeta_val c)
    end).
(** iterateHash / iterateReverseHash, 247-271, 221-245: the state returned carries the callback's state and
    the decoding error, if any *)
Definition iter_cb {S} (P dataPrefix : bytes) (fn : bytes -> bytes -> S -> Tx (S * bool))
    (k : bytes) (e : ent) (st : S * option err) : Tx ((S * option err) * bool) :=
  if negb (HasPrefix k dataPrefix) then ret (st, false)
  else match decodeHashDataKey P k with
       | Err er => ret ((fst st, Some er), false)
       | Panic => gopanic
       | Ok (_, field) => r <- fn field (e_val e) (fst st) ;; ret ((fst r, None), snd r)
       end.
Definition iterateHash {S} (P key : bytes) (fn : bytes -> bytes -> S -> Tx (S * bool)) (s : S) : Tx (S * option err) :=
  tscan (ScanOpt false (hashDataKeyPrefix P key) []) (iter_cb P (hashDataKeyPrefix P key) fn) (s, None).
Definition iterateReverseHash {S} (P key : bytes) (fn : bytes -> bytes -> S -> Tx (S * bool)) (s : S) : Tx (S * option err) :=
  tscan (ScanOpt true [] (PrefixNext (hashDataKeyPrefix P key))) (iter_cb P (hashDataKeyPrefix P key) fn) (s, None).
Definition finish {S} (r : S * option err) : Tx S := match snd r with Some e => fail e | None => ret (fst r) end.
(** callbacks collecting fields or pairs, with the optional stop after n *)
Definition cb_keys (f v : bytes) (acc : list bytes) : Tx (list bytes * bool) := ret (acc ++ [f], true).
Definition cb_pairs (n : option Z) (f v : bytes) (acc : list (bytes * bytes)) : Tx (list (bytes * bytes) * bool) :=
  let acc' := acc ++ [(f, v)] in
  ret (acc', match n with None => true | Some n' => Z.of_nat (length acc') <? n' end).
(** HKeys 139-145, HGetN 148-162, HGetAll 165-176, HGetNDesc 179-193 *)
Definition HKeys (P key : bytes) : Tx (list bytes) := r <- iterateHash P key cb_keys [] ;; finish r.
Definition HGetN (P key : bytes) (n : Z) : Tx (list (bytes * bytes)) :=
  if n <=? 0 then ret [] else r <- iterateHash P key (cb_pairs (Some n)) [] ;; finish r.
Definition HGetAll (P key : bytes) : Tx (list (bytes * bytes)) :=
  r <- iterateHash P key (cb_pairs None) [] ;; finish r.
Definition HGetNDesc (P key : bytes) (n : Z) : Tx (list (bytes * bytes)) :=
  if n <=? 0 then ret [] else r <- iterateReverseHash P key (cb_pairs (Some n)) [] ;; finish r.
(** HClear, 196-219. The Go variable err is threaded through the callback. *)
Definition HClear (P key : bytes) : Tx unit :=
  try (loadHashMeta P key) (fun r =>
    let body (err0 : option err) : Tx unit :=
      r <- iterateHash P key (fun f v (_ : option err) =>
              try (tdel (encodeHashDataKey P key f)) (fun d => match d with
                | Ok _ => ret (None, true)
                | Err e => ret (Some e, false)
                | Panic => gopanic
                end)) err0 ;;
      match fst r, snd r with
      | Some e, _ => fail e
      | None, Some itErr => fail itErr
      | None, None => tdel (encodeHashMetaKey P key)
      end in
    match r with
    | Err ErrKeyNotFound => ret tt
    | Err e => body (Some e)
    | Ok _ => body None
    | Panic => gopanic
    end).

(** * Lists, list.go *)
Record lmeta := LMeta { li : Z; ri : Z }.
(** listMeta.Value, 13-18 *)
Definition lmeta_val (m : lmeta) : bytes := Encode2Binary (to_u64 (ri m)) (Encode2Binary (to_u64 (li m)) []).
(** loadListMeta, 211-234 *)
Definition loadListMeta (P key : bytes) : Tx lmeta :=
  v <- tget (encodeListMetaKey P key) ;;
  if negb (Nat.eqb (length v) 16) then fail (ENamed (str "invalid list meta data"))
  else match DecodeFromBinary (firstn 8 v), DecodeFromBinary (skipn 8 v) with
       | Some a, Some b => ret (LMeta (to_i64 a) (to_i64 b))
       | _, _ => fail EDecode
       end.
Definition orEmpty (m : Tx lmeta) : Tx lmeta :=
  try m (fun r => match r with
    | Ok x => ret x
    | Err ErrKeyNotFound => ret (LMeta 0 0)
    | Err e => fail e
    | Panic => gopanic
    end).
(** the loop of listPush, 50-64 *)
Fixpoint push_loop (P key : bytes) (lft : bool) (values : list bytes) (m : lmeta) : Tx lmeta :=
  match values with
  | [] => ret m
  | v :: vs =>
      let '(index, m') :=
        if lft then (to_i64 (li m - 1), LMeta (to_i64 (li m - 1)) (ri m))
        else (ri m, LMeta (li m) (to_i64 (ri m + 1))) in
      tset (encodeListDataKey P key index) v ;;; push_loop P key lft vs m'
  end.
(** listPush, 36-68; LPush, RPush *)
Definition listPush (P key : bytes) (lft : bool) (values : list bytes) : Tx unit :=
  match values with
  | [] => ret tt
  | _ => m <- orEmpty (loadListMeta P key) ;;
         m' <- push_loop P key lft values m ;;
         tset (encodeListMetaKey P key) (lmeta_val m')
  end.
Definition LPush (P key : bytes) (values : list bytes) := listPush P key true values.
Definition RPush (P key : bytes) (values : list bytes) := listPush P key false values.
(** listPop, 80-114; LPop, RPop *)
Definition listPop (P key : bytes) (lft : bool) : Tx bytes :=
  m <- loadListMeta P key ;;
  let '(index, m') :=
    if lft then (li m, LMeta (to_i64 (li m + 1)) (ri m))
    else (to_i64 (ri m - 1), LMeta (li m) (to_i64 (ri m - 1))) in
  data <- tget (encodeListDataKey P key index) ;;
  tdel (encodeListDataKey P key index) ;;;
  (if negb (ri m' <=? li m') then tset (encodeListMetaKey P key) (lmeta_val m')
   else tdel (encodeListMetaKey P key)) ;;;
  ret data.
Definition LPop (P key : bytes) := listPop P key true.
Definition RPop (P key : bytes) := listPop P key false.
(** LLen, 117-126 *)
Definition LLen (P key : bytes) : Tx Z :=
  try (loadListMeta P key) (fun r => match r with
    | Ok m => ret (to_i64 (ri m - li m))
    | Err ErrKeyNotFound => ret 0
    | Err e => fail e
    | Panic => gopanic
    end).
(** LGetAll, 129-151: from RIndex-1 down to LIndex. Simplification: the loop is bounded by the
    length (for LIndex = -2^63 the Go loop would not end). A negative length makes make() panic. *)
Fixpoint getall_loop (P key : bytes) (n : nat) (index : Z) : Tx (list bytes) :=
  match n with
  | O => ret []
  | S n' => e <- tget (encodeListDataKey P key index) ;;
            es <- getall_loop P key n' (to_i64 (index - 1)) ;;
            ret (e :: es)
  end.
Definition LGetAll (P key : bytes) : Tx (list bytes) :=
  try (loadListMeta P key) (fun r => match r with
    | Ok m => let length := to_i64 (ri m - li m) in
              if length <? 0 then gopanic
              else getall_loop P key (Z.to_nat length) (to_i64 (ri m - 1))
    | Err ErrKeyNotFound => ret []
    | Err e => fail e
    | Panic => gopanic
    end).
(** adjustIndex, 236-242 *)
Definition adjustIndex (index mn mx : Z) : Z := if 0 <=? index then to_i64 (index + mn) else to_i64 (index + mx).
(** LIndex, 154-167: [] also stands for nil, returned out of range *)
Definition LIndex (P key : bytes) (index : Z) : Tx bytes :=
  m <- loadListMeta P key ;;
  let i := adjustIndex index (li m) (ri m) in
  if (li m <=? i) && (i <? ri m) then tget (encodeListDataKey P key i) else ret [].
(** LSet, 170-186 *)
Definition LSet (P key : bytes) (index : Z) (value : bytes) : Tx unit :=
  m <- loadListMeta P key ;;
  let i := adjustIndex index (li m) (ri m) in
  if (li m <=? i) && (i <? ri m) then tset (encodeListDataKey P key i) value else fail ErrKeyNotFound.
(** the loop of LClear, 200-205 *)
Fixpoint lclear_loop (P key : bytes) (n : nat) (index : Z) : Tx unit :=
  match n with
  | O => ret tt
  | S n' => tdel (encodeListDataKey P key index) ;;; lclear_loop P key n' (to_i64 (index + 1))
  end.
(** LClear, 189-209 *)
Definition LClear (P key : bytes) : Tx unit :=
  try (loadListMeta P key) (fun r => match r with
    | Ok m => lclear_loop P key (Z.to_nat (ri m - li m)) (li m) ;;; tdel (encodeListMetaKey P key)
    | Err ErrKeyNotFound => ret tt
    | Err e => fail e
    | Panic => gopanic
    end).
