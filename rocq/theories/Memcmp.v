(** Model of kv/memcomparable (byte strings and integers). *)
From Verif Require Import Bytes.

(** kv/memcomparable/bytes.go:11-15 *)
Definition encGroupSize : nat := 8.
Definition encMarker : Z := 255.
Definition encPad : byte := z2b 0.

(** Loop body and loop of EncodeBytes, kv/memcomparable/bytes.go:35-49.
    The Go loop is `for idx := 0; idx <= dLen; idx += 8`, i.e. exactly dLen/8+1
    iterations; [n] counts the iterations left and [data] is data[idx:].
    Simplification: bytes.Realloc (capacity management) is the identity. *)
Fixpoint enc_loop (n : nat) (data : bytes) : bytes :=
  match n with
  | O => []
  | S n' =>
      let remain := length data in
      if Nat.leb encGroupSize remain
      then firstn encGroupSize data ++ z2b (encMarker - 0) :: enc_loop n' (skipn encGroupSize data)
      else let padCount := (encGroupSize - remain)%nat in
           data ++ repeat encPad padCount ++ z2b (encMarker - Z.of_nat padCount)
             :: enc_loop n' (skipn encGroupSize data)
  end.

(** EncodeBytes, kv/memcomparable/bytes.go:31-51: appends to b *)
Definition EncodeBytes (b data : bytes) : bytes :=
  b ++ enc_loop (length data / encGroupSize + 1)%nat data.

(** EncodedBytesLength, kv/memcomparable/bytes.go:54-58 *)
Definition EncodedBytesLength (dataLen : Z) : Z :=
  let md := Z.rem dataLen 8 in
  let padCount := 8 - md in
  dataLen + padCount + 1 + Z.quot dataLen 8.

(** errors of the decoders, kv/memcomparable/bytes.go:65-104 and number.go:94-97 *)
Inductive dec_err :=
| EInsufficient            (* ErrInsufficientBytesToDecode *)
| EInvalidMarker           (* "invalid marker byte" *)
| EInvalidPadding          (* "invalid padding byte" *)
| EOutOfFuel.              (* not a Go outcome: proved unreachable *)

Inductive dec_res (A : Type) :=
| DOk (leftover : bytes) (v : A)
| DErr (e : dec_err).
Arguments DOk {A}. Arguments DErr {A}.

(** decodeBytes loop, kv/memcomparable/bytes.go:65-105; [buf] is what has been appended so far. *)
Fixpoint dec_loop (fuel : nat) (rev : bool) (b buf : bytes) : dec_res bytes :=
  match fuel with
  | O => DErr EOutOfFuel
  | S fuel' =>
      if Nat.ltb (length b) (encGroupSize + 1) then DErr EInsufficient
      else
        let groupBytes := firstn (encGroupSize + 1) b in
        let group := firstn encGroupSize groupBytes in
        let marker := b2z (nth encGroupSize groupBytes Byte.x00) in
        let padCount := if rev then marker else (encMarker - marker) mod 256 in
        if 8 <? padCount then DErr EInvalidMarker
        else
          let realGroupSize := Z.to_nat (8 - padCount) in
          let buf' := buf ++ firstn realGroupSize group in
          let b' := skipn (encGroupSize + 1) b in
          if negb (padCount =? 0) then
            let padByte := if rev then z2b encMarker else encPad in
            if forallb (fun v => byte_eqb v padByte) (skipn realGroupSize group)
            then DOk b' buf'
            else DErr EInvalidPadding
          else dec_loop fuel' rev b' buf'
  end.

(** reverseBytes, kv/memcomparable/bytes.go:135-167. The word-wise variant
    (fastReverseBytes) complements machine words of 8 bytes and then the tail bytewise. *)
Fixpoint reverse_words (w : nat) (b : bytes) : bytes :=
  match w with
  | O => []
  | S w' => be_bytes 8 (two64 - 1 - be_val (firstn 8 b)) ++ reverse_words w' (skipn 8 b)
  end.
Definition fastReverseBytes (b : bytes) : bytes :=
  let w := (length b / 8)%nat in
  reverse_words w b ++ map bcompl (skipn (w * 8) b).
Definition safeReverseBytes (b : bytes) : bytes := map bcompl b.
(** [amd64] stands for supportsUnaligned (386 or amd64), bytes.go:137 *)
Definition reverseBytes (amd64 : bool) (b : bytes) : bytes :=
  if amd64 then fastReverseBytes b else safeReverseBytes b.

(** decodeBytes, kv/memcomparable/bytes.go:60-113. The scratch argument buf is truncated
    to length 0 before use, so its contents do not matter (aliasing of buf and b is not
    modelled: no caller in /repo passes overlapping slices). *)
Definition decodeBytes (amd64 rev : bool) (b : bytes) : dec_res bytes :=
  match dec_loop (S (length b)) rev b [] with
  | DErr e => DErr e
  | DOk lft data => DOk lft (if rev then reverseBytes amd64 data else data)
  end.

(** DecodeBytes / EncodeBytesDesc / DecodeBytesDesc, kv/memcomparable/bytes.go:117-133 *)
Definition DecodeBytes (amd64 : bool) (b : bytes) : dec_res bytes := decodeBytes amd64 false b.
Definition EncodeBytesDesc (amd64 : bool) (b data : bytes) : bytes :=
  let n := length b in
  let b' := EncodeBytes b data in
  firstn n b' ++ reverseBytes amd64 (skipn n b').
Definition DecodeBytesDesc (amd64 : bool) (b : bytes) : dec_res bytes := decodeBytes amd64 true b.

(** * Integers, kv/memcomparable/number.go *)

(** signMask, number.go:8 *)
Definition signMask : Z := two63.
(** EncodeInt64ToUint64, number.go:11-13: uint64(v) ^ signMask *)
Definition EncodeInt64ToUint64 (v : Z) : Z := Z.lxor (to_u64 v) signMask.
(** DecodeUint64ToInt64, number.go:16-18: int64(u ^ signMask) *)
Definition DecodeUint64ToInt64 (u : Z) : Z := to_i64 (Z.lxor u signMask).
(** ^u on uint64 *)
Definition u64_not (u : Z) : Z := two64 - 1 - u.

(** EncodeUint64, number.go:52-56 *)
Definition EncodeUint64 (b : bytes) (v : Z) : bytes := b ++ be_bytes 8 v.
(** DecodeUint64, number.go:100-109 *)
Definition DecodeUint64 (b : bytes) : dec_res Z :=
  if Nat.ltb (length b) 8 then DErr EInsufficient
  else DOk (skipn 8 b) (be_val (firstn 8 b)).
(** EncodeUint64Desc, number.go:59-61 *)
Definition EncodeUint64Desc (b : bytes) (v : Z) : bytes := EncodeUint64 b (u64_not v).
(** DecodeUint64Desc, number.go:112-118 *)
Definition DecodeUint64Desc (b : bytes) : dec_res Z :=
  match DecodeUint64 b with DOk l v => DOk l (u64_not v) | DErr e => DErr e end.
(** EncodeInt64, number.go:21-24 *)
Definition EncodeInt64 (b : bytes) (v : Z) : bytes := EncodeUint64 b (EncodeInt64ToUint64 v).
(** DecodeInt64, number.go:27-34 *)
Definition DecodeInt64 (b : bytes) : dec_res Z :=
  match DecodeUint64 b with DOk l u => DOk l (DecodeUint64ToInt64 u) | DErr e => DErr e end.
(** EncodeInt64Desc, number.go:37-40 *)
Definition EncodeInt64Desc (b : bytes) (v : Z) : bytes :=
  EncodeUint64 b (u64_not (EncodeInt64ToUint64 v)).
(** DecodeInt64Desc, number.go:43-49 *)
Definition DecodeInt64Desc (b : bytes) : dec_res Z :=
  match DecodeUint64 b with
  | DOk l u => DOk l (DecodeUint64ToInt64 (u64_not u)) | DErr e => DErr e end.
(** EncodeUint8 / Desc, number.go:64-71 *)
Definition EncodeUint8 (b : bytes) (v : byte) : bytes := b ++ [v].
Definition EncodeUint8Desc (b : bytes) (v : byte) : bytes := EncodeUint8 b (bcompl v).
(** DecodeUint8 / Desc, number.go:74-92 *)
Definition DecodeUint8 (b : bytes) : dec_res byte :=
  match b with [] => DErr EInsufficient | x :: l => DOk l x end.
Definition DecodeUint8Desc (b : bytes) : dec_res byte :=
  match DecodeUint8 b with DOk l v => DOk l (bcompl v) | DErr e => DErr e end.
