(** Model of the generated protocol buffer code, pb/mondis.pb.go.

    The generated Marshal/Size/Unmarshal methods repeat the same few code patterns for every
    field; each pattern is modelled once (with the lines of one occurrence) and the message
    types list their fields with the lines of their own methods.

    Simplifications: a nil and an empty []byte are identified (Marshal writes neither);
    after an error the partially filled message is not modelled (every caller drops it or
    only marshals a response it overwrites); buffers are written as lists, with the bounds
    check of the destination buffer made once (see [marshal]). *)
From Verif Require Import Bytes Compact.

(** errors returned by Unmarshal; [PFuel] is not a Go error: it marks exhausted recursion fuel
    and is proved never to be returned *)
Inductive perr :=
| PIntOverflow      (* ErrIntOverflowMondis, mondis.pb.go:3480 *)
| PUnexpectedEOF    (* io.ErrUnexpectedEOF *)
| PInvalidLength    (* ErrInvalidLengthMondis, mondis.pb.go:3479 *)
| PEndGroup         (* "wiretype end group for non-group", e.g. :1740 *)
| PIllegalTag       (* "illegal tag", e.g. :1743 *)
| PWrongWireType    (* "wrong wireType", e.g. :1748 *)
| PIllegalWireType  (* "illegal wireType", :3477 *)
| PFuel.
Inductive pres (A : Type) := POk (a : A) | PErr (e : perr) | PPanic.
Arguments POk {A}. Arguments PErr {A}. Arguments PPanic {A}.
Definition pbind {A B} (m : pres A) (k : A -> pres B) : pres B :=
  match m with POk a => k a | PErr e => PErr e | PPanic => PPanic end.

Definition len (b : bytes) : Z := Z.of_nat (length b).
(** Go conversions int32(x), uint32(x) *)
Definition to_i32 (z : Z) : Z := (z + 2 ^ 31) mod 2 ^ 32 - 2 ^ 31.
Definition to_u32 (z : Z) : Z := z mod 2 ^ 32.
Definition is_i32 (z : Z) : Prop := - 2 ^ 31 <= z < 2 ^ 31.
Definition is_u32 (z : Z) : Prop := 0 <= z < 2 ^ 32.

(** * Varints *)

(** encodeVarintMondis, mondis.pb.go:1434-1442 (a uint64 needs at most 10 bytes) *)
Fixpoint encode_varint (fuel : nat) (v : Z) : bytes :=
  match fuel with
  | O => []
  | S f => if 128 <=? v
           then z2b (Z.lor (Z.land v 127) 128) :: encode_varint f (Z.shiftr v 7)
           else [z2b v]
  end.
Definition encodeVarint (v : Z) : bytes := encode_varint 10 v.

(** sovMondis, mondis.pb.go:1704-1713: number of 7-bit groups *)
Fixpoint sov_loop (fuel : nat) (x : Z) : Z :=
  match fuel with
  | O => 0
  | S f => let x' := Z.shiftr x 7 in if x' =? 0 then 1 else 1 + sov_loop f x'
  end.
Definition sov (x : Z) : Z := sov_loop 10 x.

(** the varint reading loop, e.g. mondis.pb.go:1723-1736. The value is a uint64; readers into
    other integer types truncate it ([to_i64] for int, [to_i32] for int32, [to_u32] for uint32:
    the generated loops or-in each 7-bit group in the target type, which gives the same low bits). *)
Fixpoint read_varint (b : bytes) (shift acc : Z) : pres (Z * bytes) :=
  if 64 <=? shift then PErr PIntOverflow
  else match b with
       | [] => PErr PUnexpectedEOF
       | c :: b' =>
           let acc' := Z.lor acc (to_u64 (Z.shiftl (Z.land (b2z c) 127) shift)) in
           if b2z c <? 128 then POk (acc', b') else read_varint b' (shift + 7) acc'
       end.
Definition readVarint (b : bytes) : pres (Z * bytes) := read_varint b 0 0.

(** the varint skipping loop, mondis.pb.go:3399-3411 *)
Fixpoint skip_varint (b : bytes) (shift : Z) : pres bytes :=
  if 64 <=? shift then PErr PIntOverflow
  else match b with
       | [] => PErr PUnexpectedEOF
       | c :: b' => if b2z c <? 128 then POk b' else skip_varint b' (shift + 7)
       end.

(** * skipMondis, mondis.pb.go:3378-3476 *)

(** returns the number of bytes to skip (a Go int: sums wrap). [skip_group] is the inner loop
    for groups, lines 3439-3467; [i] is iNdEx. *)
Fixpoint skip (fuel : nat) (d : bytes) : pres Z :=
  match fuel with
  | O => PErr PFuel
  | S f =>
      match d with
      | [] => PPanic                                      (* panic("unreachable") *)
      | _ =>
          pbind (readVarint d) (fun '(wire, r) =>
          let i := len d - len r in
          match wire mod 8 with
          | 0 => pbind (skip_varint r 0) (fun r' => POk (len d - len r'))
          | 1 => POk (i + 8)
          | 2 => pbind (readVarint r) (fun '(v, r') =>
                   let length := to_i64 v in
                   let i' := to_i64 (len d - len r' + length) in
                   if length <? 0 then PErr PInvalidLength else POk i')
          | 3 => skip_group f d i
          | 4 => POk i
          | 5 => POk (i + 4)
          | _ => PErr PIllegalWireType
          end)
      end
  end
with skip_group (fuel : nat) (d : bytes) (i : Z) : pres Z :=
  match fuel with
  | O => PErr PFuel
  | S f =>
      if len d <=? i then PErr PUnexpectedEOF
      else if i <? 0 then PPanic                          (* dAtA[iNdEx] out of range *)
      else
        let s := skipn (Z.to_nat i) d in
        pbind (readVarint s) (fun '(inner, r) =>
        if inner mod 8 =? 4 then POk (len d - len r)
        else pbind (skip f s) (fun next => skip_group f d (to_i64 (i + next))))
  end.
(** recursion depth is bounded by the input length; see [skip_no_fuel] *)
Definition skipMondis (d : bytes) : pres Z := skip (2 * length d + 2) d.

(** * The Unmarshal loop *)

(** one [case] of the field switch: field number, expected wire type, and the code reading the
    payload. Arguments of the latter: the message, len(dAtA), and the unread suffix. *)
Record field (M : Type) := Field {
  f_num : Z;
  f_wt : Z;
  f_dec : M -> Z -> bytes -> pres (M * bytes)
}.
Arguments Field {M}. Arguments f_num {M}. Arguments f_wt {M}. Arguments f_dec {M}.

(** dAtA[iNdEx:postIndex] with postIndex = iNdEx + n, e.g. mondis.pb.go:1765-1773:
    past the end is an error, a wrapped sum is a slice with negative bound and panics *)
Definition take_len (l : Z) (r : bytes) (n : Z) : pres (bytes * bytes) :=
  let i := l - len r in
  let post := to_i64 (i + n) in
  if l <? post then PErr PUnexpectedEOF
  else if post <? i then PPanic
  else POk (firstn (Z.to_nat n) r, skipn (Z.to_nat n) r).

(** length-delimited payload: bytes (mondis.pb.go:1750-1778), string (1913-1939, where the length is
    read as uint64 and converted to int), embedded message (1813-1843) *)
Definition read_lendelim (l : Z) (r : bytes) : pres (bytes * bytes) :=
  pbind (readVarint r) (fun '(v, r') =>
  let n := to_i64 v in
  if n <? 0 then PErr PInvalidLength else take_len l r' n).

Section Fields.
  Context {M : Type}.
  (** bytes and string fields: replaced *)
  Definition f_bytes (num : Z) (set : M -> bytes -> M) : field M :=
    Field num 2 (fun m l r => pbind (read_lendelim l r) (fun '(v, r') => POk (set m v, r'))).
  (** integer fields, e.g. mondis.pb.go:1893-1909: reset to 0, then filled *)
  Definition f_varint (num : Z) (conv : Z -> Z) (set : M -> Z -> M) : field M :=
    Field num 0 (fun m l r => pbind (readVarint r) (fun '(v, r') => POk (set m (conv v), r'))).
  (** bool fields, e.g. mondis.pb.go:2367-2384: var v int; m.F = bool(v != 0) *)
  Definition f_bool (num : Z) (set : M -> bool -> M) : field M :=
    Field num 0 (fun m l r => pbind (readVarint r) (fun '(v, r') => POk (set m (negb (to_i64 v =? 0)), r'))).
  (** embedded message, e.g. mondis.pb.go:1835-1842: allocated if nil, then MERGED into *)
  Definition f_msg {S} (num : Z) (get : M -> option S) (set : M -> S -> M) (empty : S)
    (unm : S -> bytes -> pres S) : field M :=
    Field num 2 (fun m l r => pbind (read_lendelim l r) (fun '(v, r') =>
      pbind (unm (match get m with Some s => s | None => empty end) v) (fun s => POk (set m s, r')))).
  (** repeated message, mondis.pb.go:3348-3352: a fresh element is appended *)
  Definition f_rep {S} (num : Z) (add : M -> S -> M) (empty : S) (unm : S -> bytes -> pres S) : field M :=
    Field num 2 (fun m l r => pbind (read_lendelim l r) (fun '(v, r') =>
      pbind (unm empty v) (fun s => POk (add m s, r')))).

  Variable tbl : list (field M).
  Variable add_unk : M -> bytes -> M.      (* m.XXX_unrecognized = append(...) *)

  (** one iteration of the outer loop, e.g. mondis.pb.go:1720-1855 *)
  Definition unmarshal_step (m : M) (l : Z) (d : bytes) : pres (M * bytes) :=
    pbind (readVarint d) (fun '(wire, r) =>
    let num := to_i32 (Z.shiftr wire 3) in
    let wt := wire mod 8 in
    if wt =? 4 then PErr PEndGroup
    else if num <=? 0 then PErr PIllegalTag
    else match find (fun f => f_num f =? num) tbl with
         | Some f => if negb (wt =? f_wt f) then PErr PWrongWireType else f_dec f m l r
         | None =>                                         (* default: lines 1844-1854 *)
             pbind (skipMondis d) (fun n =>
             if n <? 0 then PErr PInvalidLength
             else pbind (take_len l d n) (fun '(u, r') => POk (add_unk m u, r')))
         end).

  Fixpoint unmarshal_loop (fuel : nat) (m : M) (l : Z) (d : bytes) : pres M :=
    match d with
    | [] => POk m
    | _ => match fuel with
           | O => PErr PFuel
           | S f => pbind (unmarshal_step m l d) (fun '(m', d') => unmarshal_loop f m' l d')
           end
    end.
  Definition unmarshal (m : M) (d : bytes) : pres M := unmarshal_loop (length d) m (len d) d.
End Fields.

(** * Writing *)
(** e.g. mondis.pb.go:912-917: nothing for an empty field *)
Definition w_bytes (tag : Z) (v : bytes) : bytes :=
  match v with [] => [] | _ => z2b tag :: encodeVarint (len v) ++ v end.
(** e.g. mondis.pb.go:955-959; uint64(v) sign-extends *)
Definition w_varint (tag : Z) (v : Z) : bytes :=
  if v =? 0 then [] else z2b tag :: encodeVarint (to_u64 v).
(** e.g. mondis.pb.go:1101-1109 *)
Definition w_bool (tag : Z) (v : bool) : bytes := if v then [z2b tag; z2b 1] else [].
(** e.g. mondis.pb.go:924-933; the length prefix is Size() *)
Definition w_msg {S} (tag : Z) (size : S -> Z) (mt : S -> bytes) (o : option S) : bytes :=
  match o with None => [] | Some s => z2b tag :: encodeVarint (size s) ++ mt s end.
(** mondis.pb.go:1417-1428 *)
Definition w_rep {S} (tag : Z) (size : S -> Z) (mt : S -> bytes) (l : list S) : bytes :=
  flat_map (fun s => z2b tag :: encodeVarint (size s) ++ mt s) l.
(** Size() contributions, e.g. mondis.pb.go:1447-1450, 1468-1470, 1538-1540, 1455-1458, 1692-1697 *)
Definition z_bytes (v : bytes) : Z := if 0 <? len v then 1 + len v + sov (len v) else 0.
Definition z_varint (v : Z) : Z := if v =? 0 then 0 else 1 + sov (to_u64 v).
Definition z_bool (v : bool) : Z := if v then 2 else 0.
Definition z_msg {S} (size : S -> Z) (o : option S) : Z :=
  match o with None => 0 | Some s => 1 + size s + sov (size s) end.
Definition z_rep {S} (size : S -> Z) (l : list S) : Z :=
  fold_right (fun s n => 1 + size s + sov (size s) + n) 0 l.
(** Marshal, e.g. mondis.pb.go:897-905: a buffer of Size() bytes is filled by MarshalTo and cut;
    writing past it panics *)
Definition marshal {M} (size : M -> Z) (mt : M -> bytes) (m : M) : pres bytes :=
  if size m <? len (mt m) then PPanic else POk (mt m).

(** * The messages *)

(** VMetaReq, mondis.pb.go:471-477; MarshalTo 1185-1204, Size 1579-1592, Unmarshal 2589-2677 *)
Record VMetaReq := mkVMetaReq { VMetaReq_TTL : Z; VMetaReq_Tag : Z; VMetaReq_unk : bytes }.
Definition VMetaReq_empty := mkVMetaReq 0 0 [].
Definition VMetaReq_fields : list (field VMetaReq) :=
  [ f_varint 1 to_i64 (fun m v => mkVMetaReq v (VMetaReq_Tag m) (VMetaReq_unk m));
    f_varint 2 to_u32 (fun m v => mkVMetaReq (VMetaReq_TTL m) v (VMetaReq_unk m)) ].
Definition VMetaReq_add m u := mkVMetaReq (VMetaReq_TTL m) (VMetaReq_Tag m) (VMetaReq_unk m ++ u).
Definition VMetaReq_Unmarshal := unmarshal VMetaReq_fields VMetaReq_add.
Definition VMetaReq_MarshalTo m :=
  w_varint 8 (VMetaReq_TTL m) ++ w_varint 16 (VMetaReq_Tag m) ++ VMetaReq_unk m.
Definition VMetaReq_Size m := z_varint (VMetaReq_TTL m) + z_varint (VMetaReq_Tag m) + len (VMetaReq_unk m).
Definition VMetaReq_Marshal := marshal VMetaReq_Size VMetaReq_MarshalTo.

(** VMetaResp, mondis.pb.go:526-532; MarshalTo 1216-1235, Size 1594-1607, Unmarshal 2678-2766 *)
Record VMetaResp := mkVMetaResp { VMetaResp_ExpiresAt : Z; VMetaResp_Tag : Z; VMetaResp_unk : bytes }.
Definition VMetaResp_empty := mkVMetaResp 0 0 [].
Definition VMetaResp_fields : list (field VMetaResp) :=
  [ f_varint 1 to_u64 (fun m v => mkVMetaResp v (VMetaResp_Tag m) (VMetaResp_unk m));
    f_varint 2 to_u32 (fun m v => mkVMetaResp (VMetaResp_ExpiresAt m) v (VMetaResp_unk m)) ].
Definition VMetaResp_add m u := mkVMetaResp (VMetaResp_ExpiresAt m) (VMetaResp_Tag m) (VMetaResp_unk m ++ u).
Definition VMetaResp_Unmarshal := unmarshal VMetaResp_fields VMetaResp_add.
Definition VMetaResp_MarshalTo m :=
  w_varint 8 (VMetaResp_ExpiresAt m) ++ w_varint 16 (VMetaResp_Tag m) ++ VMetaResp_unk m.
Definition VMetaResp_Size m := z_varint (VMetaResp_ExpiresAt m) + z_varint (VMetaResp_Tag m) + len (VMetaResp_unk m).
Definition VMetaResp_Marshal := marshal VMetaResp_Size VMetaResp_MarshalTo.

(** SetRequest, mondis.pb.go:23-30; MarshalTo 907-938, Size 1444-1463, Unmarshal 1717-1862 *)
Record SetRequest := mkSetRequest {
  SetRequest_Key : bytes; SetRequest_Value : bytes; SetRequest_Meta : option VMetaReq; SetRequest_unk : bytes }.
Definition SetRequest_empty := mkSetRequest [] [] None [].
Definition SetRequest_fields : list (field SetRequest) :=
  [ f_bytes 1 (fun m v => mkSetRequest v (SetRequest_Value m) (SetRequest_Meta m) (SetRequest_unk m));
    f_bytes 2 (fun m v => mkSetRequest (SetRequest_Key m) v (SetRequest_Meta m) (SetRequest_unk m));
    f_msg 3 SetRequest_Meta
      (fun m v => mkSetRequest (SetRequest_Key m) (SetRequest_Value m) (Some v) (SetRequest_unk m))
      VMetaReq_empty VMetaReq_Unmarshal ].
Definition SetRequest_add m u :=
  mkSetRequest (SetRequest_Key m) (SetRequest_Value m) (SetRequest_Meta m) (SetRequest_unk m ++ u).
Definition SetRequest_Unmarshal := unmarshal SetRequest_fields SetRequest_add.
Definition SetRequest_MarshalTo m :=
  w_bytes 10 (SetRequest_Key m) ++ w_bytes 18 (SetRequest_Value m)
  ++ w_msg 26 VMetaReq_Size VMetaReq_MarshalTo (SetRequest_Meta m) ++ SetRequest_unk m.
Definition SetRequest_Size m :=
  z_bytes (SetRequest_Key m) + z_bytes (SetRequest_Value m) + z_msg VMetaReq_Size (SetRequest_Meta m)
  + len (SetRequest_unk m).
Definition SetRequest_Marshal := marshal SetRequest_Size SetRequest_MarshalTo.

(** GetRequest, ExistsRequest and DeleteRequest have identical generated code
    (types mondis.pb.go:141-146, 259-264, 369-374; MarshalTo 982-997, 1057-1072, 1126-1141;
    Size 1481-1492, 1518-1529, 1550-1561; Unmarshal 1962-2043, 2207-2288, 2408-2489) *)
Record KeyRequest := mkKeyRequest { KeyRequest_Key : bytes; KeyRequest_unk : bytes }.
Definition KeyRequest_empty := mkKeyRequest [] [].
Definition KeyRequest_fields : list (field KeyRequest) :=
  [ f_bytes 1 (fun m v => mkKeyRequest v (KeyRequest_unk m)) ].
Definition KeyRequest_add m u := mkKeyRequest (KeyRequest_Key m) (KeyRequest_unk m ++ u).
Definition KeyRequest_Unmarshal := unmarshal KeyRequest_fields KeyRequest_add.
Definition KeyRequest_MarshalTo m := w_bytes 10 (KeyRequest_Key m) ++ KeyRequest_unk m.
Definition KeyRequest_Size m := z_bytes (KeyRequest_Key m) + len (KeyRequest_unk m).
Definition KeyRequest_Marshal := marshal KeyRequest_Size KeyRequest_MarshalTo.

(** SetResponse, DeleteResponse and CommitResponse have identical generated code
    (types mondis.pb.go:86-92, 416-422, 581-587; MarshalTo 950-970, 1153-1173, 1247-1267;
    Size 1465-1479, 1563-1577, 1609-1623; Unmarshal 1863-1961, 2490-2588, 2767-2865) *)
Record StatusResponse := mkStatusResponse {
  StatusResponse_Code : Z; StatusResponse_Msg : bytes; StatusResponse_unk : bytes }.
Definition StatusResponse_empty := mkStatusResponse 0 [] [].
Definition StatusResponse_fields : list (field StatusResponse) :=
  [ f_varint 1 to_i32 (fun m v => mkStatusResponse v (StatusResponse_Msg m) (StatusResponse_unk m));
    f_bytes 2 (fun m v => mkStatusResponse (StatusResponse_Code m) v (StatusResponse_unk m)) ].
Definition StatusResponse_add m u :=
  mkStatusResponse (StatusResponse_Code m) (StatusResponse_Msg m) (StatusResponse_unk m ++ u).
Definition StatusResponse_Unmarshal := unmarshal StatusResponse_fields StatusResponse_add.
Definition StatusResponse_MarshalTo m :=
  w_varint 8 (StatusResponse_Code m) ++ w_bytes 18 (StatusResponse_Msg m) ++ StatusResponse_unk m.
Definition StatusResponse_Size m :=
  z_varint (StatusResponse_Code m) + z_bytes (StatusResponse_Msg m) + len (StatusResponse_unk m).
Definition StatusResponse_Marshal := marshal StatusResponse_Size StatusResponse_MarshalTo.

(** GetResponse, mondis.pb.go:188-196; MarshalTo 1009-1045, Size 1494-1516, Unmarshal 2044-2206 *)
Record GetResponse := mkGetResponse {
  GetResponse_Code : Z; GetResponse_Msg : bytes; GetResponse_Value : bytes;
  GetResponse_Meta : option VMetaResp; GetResponse_unk : bytes }.
Definition GetResponse_empty := mkGetResponse 0 [] [] None [].
Definition GetResponse_fields : list (field GetResponse) :=
  [ f_varint 1 to_i32 (fun m v => mkGetResponse v (GetResponse_Msg m) (GetResponse_Value m) (GetResponse_Meta m) (GetResponse_unk m));
    f_bytes 2 (fun m v => mkGetResponse (GetResponse_Code m) v (GetResponse_Value m) (GetResponse_Meta m) (GetResponse_unk m));
    f_bytes 3 (fun m v => mkGetResponse (GetResponse_Code m) (GetResponse_Msg m) v (GetResponse_Meta m) (GetResponse_unk m));
    f_msg 4 GetResponse_Meta
      (fun m v => mkGetResponse (GetResponse_Code m) (GetResponse_Msg m) (GetResponse_Value m) (Some v) (GetResponse_unk m))
      VMetaResp_empty VMetaResp_Unmarshal ].
Definition GetResponse_add m u :=
  mkGetResponse (GetResponse_Code m) (GetResponse_Msg m) (GetResponse_Value m) (GetResponse_Meta m) (GetResponse_unk m ++ u).
Definition GetResponse_Unmarshal := unmarshal GetResponse_fields GetResponse_add.
Definition GetResponse_MarshalTo m :=
  w_varint 8 (GetResponse_Code m) ++ w_bytes 18 (GetResponse_Msg m) ++ w_bytes 26 (GetResponse_Value m)
  ++ w_msg 34 VMetaResp_Size VMetaResp_MarshalTo (GetResponse_Meta m) ++ GetResponse_unk m.
Definition GetResponse_Size m :=
  z_varint (GetResponse_Code m) + z_bytes (GetResponse_Msg m) + z_bytes (GetResponse_Value m)
  + z_msg VMetaResp_Size (GetResponse_Meta m) + len (GetResponse_unk m).
Definition GetResponse_Marshal := marshal GetResponse_Size GetResponse_MarshalTo.

(** ExistsResponse, mondis.pb.go:306-313; MarshalTo 1084-1114, Size 1531-1548, Unmarshal 2289-2407 *)
Record ExistsResponse := mkExistsResponse {
  ExistsResponse_Code : Z; ExistsResponse_Msg : bytes; ExistsResponse_Exists : bool; ExistsResponse_unk : bytes }.
Definition ExistsResponse_empty := mkExistsResponse 0 [] false [].
Definition ExistsResponse_fields : list (field ExistsResponse) :=
  [ f_varint 1 to_i32 (fun m v => mkExistsResponse v (ExistsResponse_Msg m) (ExistsResponse_Exists m) (ExistsResponse_unk m));
    f_bytes 2 (fun m v => mkExistsResponse (ExistsResponse_Code m) v (ExistsResponse_Exists m) (ExistsResponse_unk m));
    f_bool 3 (fun m v => mkExistsResponse (ExistsResponse_Code m) (ExistsResponse_Msg m) v (ExistsResponse_unk m)) ].
Definition ExistsResponse_add m u :=
  mkExistsResponse (ExistsResponse_Code m) (ExistsResponse_Msg m) (ExistsResponse_Exists m) (ExistsResponse_unk m ++ u).
Definition ExistsResponse_Unmarshal := unmarshal ExistsResponse_fields ExistsResponse_add.
Definition ExistsResponse_MarshalTo m :=
  w_varint 8 (ExistsResponse_Code m) ++ w_bytes 18 (ExistsResponse_Msg m) ++ w_bool 24 (ExistsResponse_Exists m)
  ++ ExistsResponse_unk m.
Definition ExistsResponse_Size m :=
  z_varint (ExistsResponse_Code m) + z_bytes (ExistsResponse_Msg m) + z_bool (ExistsResponse_Exists m)
  + len (ExistsResponse_unk m).
Definition ExistsResponse_Marshal := marshal ExistsResponse_Size ExistsResponse_MarshalTo.

(** ProviderScanOption, mondis.pb.go:691-698; MarshalTo 1315-1346, Size 1641-1659, Unmarshal 2969-3101 *)
Record ScanOpt := mkScanOpt { ScanOpt_Reverse : bool; ScanOpt_Prefix : bytes; ScanOpt_Offset : bytes; ScanOpt_unk : bytes }.
Definition ScanOpt_empty := mkScanOpt false [] [] [].
Definition ScanOpt_fields : list (field ScanOpt) :=
  [ f_bool 1 (fun m v => mkScanOpt v (ScanOpt_Prefix m) (ScanOpt_Offset m) (ScanOpt_unk m));
    f_bytes 2 (fun m v => mkScanOpt (ScanOpt_Reverse m) v (ScanOpt_Offset m) (ScanOpt_unk m));
    f_bytes 3 (fun m v => mkScanOpt (ScanOpt_Reverse m) (ScanOpt_Prefix m) v (ScanOpt_unk m)) ].
Definition ScanOpt_add m u := mkScanOpt (ScanOpt_Reverse m) (ScanOpt_Prefix m) (ScanOpt_Offset m) (ScanOpt_unk m ++ u).
Definition ScanOpt_Unmarshal := unmarshal ScanOpt_fields ScanOpt_add.
Definition ScanOpt_MarshalTo m :=
  w_bool 8 (ScanOpt_Reverse m) ++ w_bytes 18 (ScanOpt_Prefix m) ++ w_bytes 26 (ScanOpt_Offset m) ++ ScanOpt_unk m.
Definition ScanOpt_Size m :=
  z_bool (ScanOpt_Reverse m) + z_bytes (ScanOpt_Prefix m) + z_bytes (ScanOpt_Offset m) + len (ScanOpt_unk m).
Definition ScanOpt_Marshal := marshal ScanOpt_Size ScanOpt_MarshalTo.

(** ScanRequest, mondis.pb.go:636-642; MarshalTo 1279-1303, Size 1625-1639, Unmarshal 2866-2968 *)
Record ScanRequest := mkScanRequest { ScanRequest_Option : option ScanOpt; ScanRequest_Limit : Z; ScanRequest_unk : bytes }.
Definition ScanRequest_empty := mkScanRequest None 0 [].
Definition ScanRequest_fields : list (field ScanRequest) :=
  [ f_msg 1 ScanRequest_Option (fun m v => mkScanRequest (Some v) (ScanRequest_Limit m) (ScanRequest_unk m))
      ScanOpt_empty ScanOpt_Unmarshal;
    f_varint 2 to_i32 (fun m v => mkScanRequest (ScanRequest_Option m) v (ScanRequest_unk m)) ].
Definition ScanRequest_add m u := mkScanRequest (ScanRequest_Option m) (ScanRequest_Limit m) (ScanRequest_unk m ++ u).
Definition ScanRequest_Unmarshal := unmarshal ScanRequest_fields ScanRequest_add.
Definition ScanRequest_MarshalTo m :=
  w_msg 10 ScanOpt_Size ScanOpt_MarshalTo (ScanRequest_Option m) ++ w_varint 16 (ScanRequest_Limit m) ++ ScanRequest_unk m.
Definition ScanRequest_Size m :=
  z_msg ScanOpt_Size (ScanRequest_Option m) + z_varint (ScanRequest_Limit m) + len (ScanRequest_unk m).
Definition ScanRequest_Marshal := marshal ScanRequest_Size ScanRequest_MarshalTo.

(** Entry, mondis.pb.go:754-761; MarshalTo 1358-1389, Size 1661-1680, Unmarshal 3102-3247 *)
Record Entry := mkEntry { Entry_Key : bytes; Entry_Value : bytes; Entry_Meta : option VMetaResp; Entry_unk : bytes }.
Definition Entry_empty := mkEntry [] [] None [].
Definition Entry_fields : list (field Entry) :=
  [ f_bytes 1 (fun m v => mkEntry v (Entry_Value m) (Entry_Meta m) (Entry_unk m));
    f_bytes 2 (fun m v => mkEntry (Entry_Key m) v (Entry_Meta m) (Entry_unk m));
    f_msg 3 Entry_Meta (fun m v => mkEntry (Entry_Key m) (Entry_Value m) (Some v) (Entry_unk m))
      VMetaResp_empty VMetaResp_Unmarshal ].
Definition Entry_add m u := mkEntry (Entry_Key m) (Entry_Value m) (Entry_Meta m) (Entry_unk m ++ u).
Definition Entry_Unmarshal := unmarshal Entry_fields Entry_add.
Definition Entry_MarshalTo m :=
  w_bytes 10 (Entry_Key m) ++ w_bytes 18 (Entry_Value m)
  ++ w_msg 26 VMetaResp_Size VMetaResp_MarshalTo (Entry_Meta m) ++ Entry_unk m.
Definition Entry_Size m :=
  z_bytes (Entry_Key m) + z_bytes (Entry_Value m) + z_msg VMetaResp_Size (Entry_Meta m) + len (Entry_unk m).
Definition Entry_Marshal := marshal Entry_Size Entry_MarshalTo.

(** ScanResponse, mondis.pb.go:817-824; MarshalTo 1401-1433, Size 1682-1703, Unmarshal 3248-3377 *)
Record ScanResponse := mkScanResponse {
  ScanResponse_Code : Z; ScanResponse_Msg : bytes; ScanResponse_Entries : list Entry; ScanResponse_unk : bytes }.
Definition ScanResponse_empty := mkScanResponse 0 [] [] [].
Definition ScanResponse_fields : list (field ScanResponse) :=
  [ f_varint 1 to_i32 (fun m v => mkScanResponse v (ScanResponse_Msg m) (ScanResponse_Entries m) (ScanResponse_unk m));
    f_bytes 2 (fun m v => mkScanResponse (ScanResponse_Code m) v (ScanResponse_Entries m) (ScanResponse_unk m));
    f_rep 3 (fun m e => mkScanResponse (ScanResponse_Code m) (ScanResponse_Msg m) (ScanResponse_Entries m ++ [e]) (ScanResponse_unk m))
      Entry_empty Entry_Unmarshal ].
Definition ScanResponse_add m u :=
  mkScanResponse (ScanResponse_Code m) (ScanResponse_Msg m) (ScanResponse_Entries m) (ScanResponse_unk m ++ u).
Definition ScanResponse_Unmarshal := unmarshal ScanResponse_fields ScanResponse_add.
Definition ScanResponse_MarshalTo m :=
  w_varint 8 (ScanResponse_Code m) ++ w_bytes 18 (ScanResponse_Msg m)
  ++ w_rep 26 Entry_Size Entry_MarshalTo (ScanResponse_Entries m) ++ ScanResponse_unk m.
Definition ScanResponse_Size m :=
  z_varint (ScanResponse_Code m) + z_bytes (ScanResponse_Msg m) + z_rep Entry_Size (ScanResponse_Entries m)
  + len (ScanResponse_unk m).
Definition ScanResponse_Marshal := marshal ScanResponse_Size ScanResponse_MarshalTo.
