(** Model of /repo/server and /repo/client, at the level of the bytes exchanged.
    The transport (qrpc) is assumed to deliver the frames of a stream in order and unchanged;
    a dropped connection shows up as the end of the stream or as a failing write. *)
From Verif Require Import Bytes SMap Provider Pb.

(** * Codes, server/code.go:3-14 *)
Definition CodeOK := 0.
Definition CodeInvalidRequest := 1.
Definition CodeInternalError := 2.
Definition CodeTxnTooBig := 3.
Definition CodeKeyNotFound := 4.
(** mondis.MaxEntry, mondis.go:40-41 *)
Definition MaxEntry := 1000.

Section Remote.
(** Error() texts; the theorems hold for every choice *)
Variable etext : err -> bytes.
Variable ptext : perr -> bytes.

(** * Server handlers, server/common.go *)
(** metaFromSetRequest, 333-339. The duration is transported as it is (m_ttl). *)
Definition metaFromSetRequest (req : SetRequest) : option vmeta :=
  match SetRequest_Meta req with
  | None => None
  | Some m => Some (VMeta (VMetaReq_TTL m) (z2b (VMetaReq_Tag m mod 256)))
  end.
Definition status (resp : StatusResponse) (code : Z) (msg : bytes) : StatusResponse :=
  mkStatusResponse code msg (StatusResponse_unk resp).
(** outcome of a call, stored in the response: handleTxnSet 180-198, handleTxnDelete 262-277 *)
Definition txn_status (r : result unit) (resp : StatusResponse) : option StatusResponse :=
  match r with
  | Ok _ => Some (status resp CodeOK [])
  | Err ErrTxnTooBig => Some (status resp CodeTxnTooBig (etext ErrTxnTooBig))
  | Err e => Some (status resp CodeInternalError (etext e))
  | Panic => None
  end.
(** handleSet 200-213, handleDelete 250-260, handleTxnCommit 321-331: every error is internal *)
Definition plain_status (r : result unit) (resp : StatusResponse) : option StatusResponse :=
  match r with
  | Ok _ => Some (status resp CodeOK [])
  | Err e => Some (status resp CodeInternalError (etext e))
  | Panic => None
  end.
(** handleExists 215-228: on error resp.Exists keeps its old value *)
Definition exists_status (r : result bool) (resp : ExistsResponse) : option ExistsResponse :=
  match r with
  | Ok b => Some (mkExistsResponse CodeOK [] b (ExistsResponse_unk resp))
  | Err e => Some (mkExistsResponse CodeInternalError (etext e) (ExistsResponse_Exists resp) (ExistsResponse_unk resp))
  | Panic => None
  end.
Definition metaResp (e : ent) : VMetaResp := mkVMetaResp (to_u64 (e_exp e)) (b2z (e_tag e)) [].
(** handleGet 230-248: on error Value and Meta keep their old values *)
Definition get_status (r : result ent) (resp : GetResponse) : option GetResponse :=
  match r with
  | Ok e => Some (mkGetResponse CodeOK [] (e_val e) (Some (metaResp e)) (GetResponse_unk resp))
  | Err ErrKeyNotFound => Some (mkGetResponse CodeKeyNotFound (etext ErrKeyNotFound) (GetResponse_Value resp) (GetResponse_Meta resp) (GetResponse_unk resp))
  | Err e => Some (mkGetResponse CodeInternalError (etext e) (GetResponse_Value resp) (GetResponse_Meta resp) (GetResponse_unk resp))
  | Panic => None
  end.
(** handleScan 285-319; the callback 297-307 *)
Definition scan_cb (limit : Z) (k : bytes) (e : ent) (acc : list Entry) : Tx (list Entry * bool) :=
  let acc' := acc ++ [mkEntry k (e_val e) (Some (metaResp e)) []] in
  ret (acc', negb (limit <=? Z.of_nat (length acc'))).
(** a failing Scan leaves resp.Entries as far as it got; the client ignores them (simplification: kept) *)
Definition handleScan (req : ScanRequest) (resp : ScanResponse) : Tx (option ScanResponse) :=
  match ScanRequest_Option req with
  | None => ret None                                             (* nil dereference, 287 *)
  | Some o =>
      let limit := ScanRequest_Limit req in
      if limit =? 0 then ret (Some (mkScanResponse CodeOK [] (ScanResponse_Entries resp) (ScanResponse_unk resp)))
      else
        let limit := if MaxEntry <? limit then MaxEntry else limit in
        try (tscan (Provider.ScanOpt (ScanOpt_Reverse o) (ScanOpt_Prefix o) (ScanOpt_Offset o)) (scan_cb limit) (ScanResponse_Entries resp)) (fun r =>
          ret (match r with
               | Ok es => Some (mkScanResponse CodeOK [] es (ScanResponse_unk resp))
               | Err e => Some (mkScanResponse CodeInternalError (etext e) (ScanResponse_Entries resp) (ScanResponse_unk resp))
               | Panic => None
               end))
  end.

Definition h_set (req : SetRequest) (resp : StatusResponse) : Tx (option StatusResponse) :=
  try (tsetm (SetRequest_Key req) (SetRequest_Value req) (metaFromSetRequest req)) (fun r => ret (txn_status r resp)).
Definition h_delete (req : KeyRequest) (resp : StatusResponse) : Tx (option StatusResponse) :=
  try (tdel (KeyRequest_Key req)) (fun r => ret (txn_status r resp)).
Definition h_exists (req : KeyRequest) (resp : ExistsResponse) : Tx (option ExistsResponse) :=
  try (texists (KeyRequest_Key req)) (fun r => ret (exists_status r resp)).
Definition h_get (req : KeyRequest) (resp : GetResponse) : Tx (option GetResponse) :=
  try (tgetm (KeyRequest_Key req)) (fun r => ret (get_status r resp)).

(** bytes, _ := resp.Marshal(); None = the handler panicked and nothing is sent *)
Definition reply {M} (mar : M -> pres bytes) (o : option M) : option bytes :=
  match o with Some m => match mar m with POk b => Some b | _ => None end | None => None end.
Definition invalid_status (m : StatusResponse) (e : perr) := status m CodeInvalidRequest (ptext e).
Definition invalid_exists (m : ExistsResponse) (e : perr) :=
  mkExistsResponse CodeInvalidRequest (ptext e) (ExistsResponse_Exists m) (ExistsResponse_unk m).
Definition invalid_get (m : GetResponse) (e : perr) :=
  mkGetResponse CodeInvalidRequest (ptext e) (GetResponse_Value m) (GetResponse_Meta m) (GetResponse_unk m).
Definition invalid_scan (m : ScanResponse) (e : perr) :=
  mkScanResponse CodeInvalidRequest (ptext e) (ScanResponse_Entries m) (ScanResponse_unk m).

(** * Requests outside transactions (frame.Flags.IsDone()) *)
(** CmdSet.ServeQRPC, server/cmd_set.go:16-44 *)
Definition srv_set (d : db) (p : bytes) (lim : list bool) (io : bool) : db * option bytes :=
  match SetRequest_Unmarshal SetRequest_empty p with
  | PPanic => (d, None)
  | PErr e => (d, reply StatusResponse_Marshal (Some (invalid_status StatusResponse_empty e)))
  | POk req =>
      let '(d', r) := bdb_set d (SetRequest_Key req) (SetRequest_Value req) (metaFromSetRequest req) lim io in
      (d', reply StatusResponse_Marshal (plain_status r StatusResponse_empty))
  end.
(** CmdDelete.ServeQRPC, server/cmd_delete.go *)
Definition srv_delete (d : db) (p : bytes) (lim : list bool) (io : bool) : db * option bytes :=
  match KeyRequest_Unmarshal KeyRequest_empty p with
  | PPanic => (d, None)
  | PErr e => (d, reply StatusResponse_Marshal (Some (invalid_status StatusResponse_empty e)))
  | POk req =>
      let '(d', r) := bdb_del d (KeyRequest_Key req) lim io in
      (d', reply StatusResponse_Marshal (plain_status r StatusResponse_empty))
  end.
(** CmdExists.ServeQRPC, server/cmd_exists.go *)
Definition srv_exists (d : db) (p : bytes) : option bytes :=
  match KeyRequest_Unmarshal KeyRequest_empty p with
  | PPanic => None
  | PErr e => reply ExistsResponse_Marshal (Some (invalid_exists ExistsResponse_empty e))
  | POk req => reply ExistsResponse_Marshal (exists_status (bdb_exists d (KeyRequest_Key req)) ExistsResponse_empty)
  end.
(** CmdGet.ServeQRPC, server/cmd_get.go:16-43 *)
Definition srv_get (d : db) (p : bytes) : option bytes :=
  match KeyRequest_Unmarshal KeyRequest_empty p with
  | PPanic => None
  | PErr e => reply GetResponse_Marshal (Some (invalid_get GetResponse_empty e))
  | POk req => reply GetResponse_Marshal (get_status (bdb_get d (KeyRequest_Key req)) GetResponse_empty)
  end.
(** CmdScan.ServeQRPC, server/cmd_scan.go:16-43; kvdb.Scan runs in its own read-only transaction *)
Definition srv_scan (d : db) (p : bytes) : option bytes :=
  match ScanRequest_Unmarshal ScanRequest_empty p with
  | PPanic => None
  | PErr e => reply ScanResponse_Marshal (Some (invalid_scan ScanResponse_empty e))
  | POk req =>
      match snd (handleScan req ScanResponse_empty (new_txn d false [])) with
      | Ok r => reply ScanResponse_Marshal r
      | _ => None
      end
  end.

(** * Client, outside transactions: client/client.go *)
Inductive cerr :=
| CE (e : err)                       (* kv.ErrTxnTooBig, kv.ErrKeyNotFound *)
| CPB (code : Z) (msg : bytes)       (* pbError, client/pberror.go *)
| CDecode (e : perr)                 (* response not decodable *)
| CReadOnly                          (* ErrMutateForROTxn, client_txn.go:137 *)
| CClosed.                           (* no response: stream or connection gone *)
Inductive cres (A : Type) := COk (a : A) | CErr (e : cerr) | CPanic.
Arguments COk {A}. Arguments CErr {A}. Arguments CPanic {A}.

Definition parse {M A} (unm : M -> bytes -> pres M) (empty : M) (k : M -> cres A) (r : option bytes) : cres A :=
  match r with
  | None => CErr CClosed
  | Some b => match unm empty b with POk m => k m | PErr e => CErr (CDecode e) | PPanic => CPanic end
  end.
(** parseSetRespFromFrame, client.go:47-66 *)
Definition parseSet : option bytes -> cres unit := parse StatusResponse_Unmarshal StatusResponse_empty (fun m =>
  let c := StatusResponse_Code m in
  if c =? 0 then COk tt
  else if c =? CodeTxnTooBig then CErr (CE ErrTxnTooBig) else CErr (CPB c (StatusResponse_Msg m))).
(** parseDeleteRespFromFrame, client.go:188-201; parseCommitResp, client_txn.go:164-178 *)
Definition parseStatus : option bytes -> cres unit := parse StatusResponse_Unmarshal StatusResponse_empty (fun m =>
  let c := StatusResponse_Code m in
  if c =? 0 then COk tt else CErr (CPB c (StatusResponse_Msg m))).
(** parseExistsRespFromFrame, client.go:94-111 *)
Definition parseExists : option bytes -> cres bool := parse ExistsResponse_Unmarshal ExistsResponse_empty (fun m =>
  let c := ExistsResponse_Code m in
  if c =? 0 then COk (ExistsResponse_Exists m) else CErr (CPB c (ExistsResponse_Msg m))).
(** an entry as the client sees it: value, ExpiresAt, Tag = byte(Tag) *)
Definition ent_of (v : bytes) (m : VMetaResp) : ent := Ent v (VMetaResp_ExpiresAt m) (z2b (VMetaResp_Tag m mod 256)).
(** parseGetRespFromFrame, client.go:138-161: getResp.Meta is dereferenced *)
Definition parseGet : option bytes -> cres ent := parse GetResponse_Unmarshal GetResponse_empty (fun m =>
  let c := GetResponse_Code m in
  if c =? 0 then
    match GetResponse_Meta m with Some v => COk (ent_of (GetResponse_Value m) v) | None => CPanic end
  else if c =? CodeKeyNotFound then CErr (CE ErrKeyNotFound) else CErr (CPB c (GetResponse_Msg m))).
(** parseScanRespFromFrame, client.go:242-263 *)
Fixpoint scan_entries (l : list Entry) : option (list (bytes * ent)) :=
  match l with
  | [] => Some []
  | e :: l' => match Entry_Meta e, scan_entries l' with
               | Some v, Some r => Some ((Entry_Key e, ent_of (Entry_Value e) v) :: r)
               | _, _ => None
               end
  end.
Definition parseScan : option bytes -> cres (list (bytes * ent)) := parse ScanResponse_Unmarshal ScanResponse_empty (fun m =>
  let c := ScanResponse_Code m in
  if c =? 0 then match scan_entries (ScanResponse_Entries m) with Some l => COk l | None => CPanic end
  else CErr (CPB c (ScanResponse_Msg m))).

(** setReq2PB, client.go:29-35 *)
Definition setReq2PB (k v : bytes) (meta : option vmeta) : SetRequest :=
  mkSetRequest k v (match meta with None => None | Some m => Some (mkVMetaReq (m_ttl m) (b2z (m_tag m)) []) end) [].
(** scanOption2Bytes, client.go:275-280; int32(option.Limit) *)
Definition scanReq (o : scan_opt) (limit : Z) : ScanRequest :=
  mkScanRequest (Some (mkScanOpt (so_rev o) (so_prefix o) (so_offset o) [])) (to_i32 limit) [].
(** Client.Scan clamps, client.go:288-290 *)
Definition clamp_limit (limit : Z) : Z := if MaxEntry <? limit then MaxEntry else limit.

(** Client.Set 69-82, Delete 204-216, Exists 114-126, Get 164-176, Scan 283-302 *)
Definition client_set (d : db) (k v : bytes) (meta : option vmeta) (lim : list bool) (io : bool) : db * cres unit :=
  match SetRequest_Marshal (setReq2PB k v meta) with
  | POk p => let '(d', r) := srv_set d p lim io in (d', parseSet r)
  | _ => (d, CPanic)
  end.
Definition client_delete (d : db) (k : bytes) (lim : list bool) (io : bool) : db * cres unit :=
  match KeyRequest_Marshal (mkKeyRequest k []) with
  | POk p => let '(d', r) := srv_delete d p lim io in (d', parseStatus r)
  | _ => (d, CPanic)
  end.
Definition client_exists (d : db) (k : bytes) : cres bool :=
  match KeyRequest_Marshal (mkKeyRequest k []) with POk p => parseExists (srv_exists d p) | _ => CPanic end.
Definition client_get (d : db) (k : bytes) : cres ent :=
  match KeyRequest_Marshal (mkKeyRequest k []) with POk p => parseGet (srv_get d p) | _ => CPanic end.
Definition client_scan (d : db) (o : scan_opt) (limit : Z) : cres (list (bytes * ent)) :=
  if limit <=? 0 then COk []
  else match ScanRequest_Marshal (scanReq o (clamp_limit limit)) with POk p => parseScan (srv_scan d p) | _ => CPanic end.

(** * Transactions on the server: handleTxnContinuedFrame, server/common.go:14-178 *)
(** the variables declared before the loop, 18-32 (setReq is never written) *)
Record cvars := CVars {
  v_getReq : KeyRequest; v_getResp : GetResponse; v_delReq : KeyRequest; v_delResp : StatusResponse;
  v_setReq : SetRequest; v_setResp : StatusResponse; v_exReq : KeyRequest; v_exResp : ExistsResponse;
  v_scanReq : ScanRequest; v_scanResp : ScanResponse; v_comResp : StatusResponse }.
Definition cvars0 : cvars :=
  CVars KeyRequest_empty GetResponse_empty KeyRequest_empty StatusResponse_empty SetRequest_empty StatusResponse_empty
        KeyRequest_empty ExistsResponse_empty ScanRequest_empty ScanResponse_empty StatusResponse_empty.
Definition with_get v a b := CVars a b (v_delReq v) (v_delResp v) (v_setReq v) (v_setResp v) (v_exReq v) (v_exResp v) (v_scanReq v) (v_scanResp v) (v_comResp v).
Definition with_del v a b := CVars (v_getReq v) (v_getResp v) a b (v_setReq v) (v_setResp v) (v_exReq v) (v_exResp v) (v_scanReq v) (v_scanResp v) (v_comResp v).
Definition with_set v a b := CVars (v_getReq v) (v_getResp v) (v_delReq v) (v_delResp v) a b (v_exReq v) (v_exResp v) (v_scanReq v) (v_scanResp v) (v_comResp v).
Definition with_ex v a b := CVars (v_getReq v) (v_getResp v) (v_delReq v) (v_delResp v) (v_setReq v) (v_setResp v) a b (v_scanReq v) (v_scanResp v) (v_comResp v).
Definition with_scan v a b := CVars (v_getReq v) (v_getResp v) (v_delReq v) (v_delResp v) (v_setReq v) (v_setResp v) (v_exReq v) (v_exResp v) a b (v_comResp v).

(** the handler goroutine: in its loop with the transaction and its variables, or returned
    (the deferred Discard has run) *)
Inductive srv := Serving (t : txn) (v : cvars) | Ended.
Inductive fcmd := FSet | FExists | FGet | FDelete | FScan | FCommit | FDiscard.

(** run a handler; a panic ends the goroutine *)
Definition run_h {M} (mar : M -> pres bytes) (h : Tx (option M)) (t : txn) (upd : M -> cvars) : srv * option bytes :=
  match h t with
  | (t', Ok (Some m)) => (Serving t' (upd m), reply mar (Some m))
  | _ => (Ended, None)
  end.
Definition here (d : db) (x : srv * option bytes) : db * srv * option bytes := (d, fst x, snd x).
(** one iteration of the loop on a received frame. After a decoding error the stream ends; fields
    decoded before the error are not modelled (only retained unknown bytes of the reply differ). *)
Definition srv_frame (d : db) (io : bool) (t : txn) (v : cvars) (c : fcmd) (p : bytes) : db * srv * option bytes :=
  match c with
  | FSet =>                          (* 43-67: the payload is decoded into setResp, not setReq *)
      match StatusResponse_Unmarshal (v_setResp v) p with
      | PPanic => (d, Ended, None)
      | PErr e => (d, Ended, reply StatusResponse_Marshal (Some (invalid_status (v_setResp v) e)))
      | POk resp => here d (run_h StatusResponse_Marshal (h_set (v_setReq v) resp) t (with_set v (v_setReq v)))
      end
  | FExists =>                       (* 68-90 *)
      match KeyRequest_Unmarshal (v_exReq v) p with
      | PPanic => (d, Ended, None)
      | PErr e => (d, Ended, reply ExistsResponse_Marshal (Some (invalid_exists (v_exResp v) e)))
      | POk req => here d (run_h ExistsResponse_Marshal (h_exists req (v_exResp v)) t (with_ex v req))
      end
  | FGet =>                          (* 91-113 *)
      match KeyRequest_Unmarshal (v_getReq v) p with
      | PPanic => (d, Ended, None)
      | PErr e => (d, Ended, reply GetResponse_Marshal (Some (invalid_get (v_getResp v) e)))
      | POk req => here d (run_h GetResponse_Marshal (h_get req (v_getResp v)) t (with_get v req))
      end
  | FDelete =>                       (* 114-136 *)
      match KeyRequest_Unmarshal (v_delReq v) p with
      | PPanic => (d, Ended, None)
      | PErr e => (d, Ended, reply StatusResponse_Marshal (Some (invalid_status (v_delResp v) e)))
      | POk req => here d (run_h StatusResponse_Marshal (h_delete req (v_delResp v)) t (with_del v req))
      end
  | FScan =>                         (* 137-159 *)
      match ScanRequest_Unmarshal (v_scanReq v) p with
      | PPanic => (d, Ended, None)
      | PErr e => (d, Ended, reply ScanResponse_Marshal (Some (invalid_scan (v_scanResp v) e)))
      | POk req => here d (run_h ScanResponse_Marshal (handleScan req (v_scanResp v)) t (with_scan v req))
      end
  | FCommit =>                       (* 160-169 *)
      let '(d', _, r) := commit d t io in
      (d', Ended, reply StatusResponse_Marshal (plain_status r (v_comResp v)))
  | FDiscard =>                      (* 170-176 *)
      (d, Ended, Some [])
  end.
(** the frame that opens a stream: server/cmd_set.go:45-64, cmd_delete.go, cmd_exists.go,
    cmd_get.go:44-62, cmd_scan.go:44-62; [opaque] is frame.Cmd.Opaque() == 1. The loop then starts
    with fresh variables. Commit and Discard never open a stream (no handler is registered). *)
Definition first_frame (d : db) (opaque : bool) (lim : list bool) (c : fcmd) (p : bytes) : srv * option bytes :=
  match c with
  | FSet =>
      match SetRequest_Unmarshal SetRequest_empty p with
      | PPanic => (Ended, None)
      | PErr e => (Ended, reply StatusResponse_Marshal (Some (invalid_status StatusResponse_empty e)))
      | POk req => run_h StatusResponse_Marshal (h_set req StatusResponse_empty) (new_txn d true lim) (fun _ => cvars0)
      end
  | FDelete =>
      match KeyRequest_Unmarshal KeyRequest_empty p with
      | PPanic => (Ended, None)
      | PErr e => (Ended, reply StatusResponse_Marshal (Some (invalid_status StatusResponse_empty e)))
      | POk req => run_h StatusResponse_Marshal (h_delete req StatusResponse_empty) (new_txn d true lim) (fun _ => cvars0)
      end
  | FExists =>
      match KeyRequest_Unmarshal KeyRequest_empty p with
      | PPanic => (Ended, None)
      | PErr e => (Ended, reply ExistsResponse_Marshal (Some (invalid_exists ExistsResponse_empty e)))
      | POk req => run_h ExistsResponse_Marshal (h_exists req ExistsResponse_empty) (new_txn d opaque lim) (fun _ => cvars0)
      end
  | FGet =>
      match KeyRequest_Unmarshal KeyRequest_empty p with
      | PPanic => (Ended, None)
      | PErr e => (Ended, reply GetResponse_Marshal (Some (invalid_get GetResponse_empty e)))
      | POk req => run_h GetResponse_Marshal (h_get req GetResponse_empty) (new_txn d opaque lim) (fun _ => cvars0)
      end
  | FScan =>
      match ScanRequest_Unmarshal ScanRequest_empty p with
      | PPanic => (Ended, None)
      | PErr e => (Ended, reply ScanResponse_Marshal (Some (invalid_scan ScanResponse_empty e)))
      | POk req => run_h ScanResponse_Marshal (handleScan req ScanResponse_empty) (new_txn d opaque lim) (fun _ => cvars0)
      end
  | FCommit | FDiscard => (Ended, None)
  end.
(** the connection goes away: the loop receives a nil frame (36-42), or a write fails and the
    handler returns; either way the transaction is discarded *)
Definition srv_drop (s : srv) : srv := Ended.

(** * Transactions on the client: client/client_txn.go *)
(** Txn.sw == nil, or the stream to the server *)
Record rtxn := RTxn { r_upd : bool; r_st : option srv; r_sent : list (fcmd * bytes) }.
(** newTxn, 23-25; [r_sent] records what was sent (history, for stating properties) *)
Definition newTxn (upd : bool) : rtxn := RTxn upd None [].

Inductive top :=
| TSet (k v : bytes) (m : option vmeta) | TGet (k : bytes) | TExists (k : bytes) | TDel (k : bytes)
| TScan (o : scan_opt) (limit : Z) | TCommit | TDiscard.
Inductive tval := VUnit | VEnt (e : ent) | VBool (b : bool) | VItems (l : list (bytes * ent)).

(** request, 65-95, followed by getRespFrame, 52-63. None = noop. After the stream has ended no
    response comes: the outcome (a write error, or a nil frame that is then dereferenced) depends
    on qrpc and is modelled as [CClosed]. *)
Definition request (d : db) (lim : list bool) (io : bool) (r : rtxn) (c : fcmd) (p : bytes) : db * rtxn * option (option bytes) :=
  match r_st r with
  | Some (Serving t v) =>
      let '(d', s, b) := srv_frame d io t v c p in (d', RTxn (r_upd r) (Some s) (r_sent r ++ [(c, p)]), Some b)
  | Some Ended => (d, RTxn (r_upd r) (Some Ended) (r_sent r ++ [(c, p)]), Some None)
  | None =>
      match c with
      | FCommit | FDiscard => (d, r, None)
      | _ => let '(s, b) := first_frame d (r_upd r) lim c p in (d, RTxn (r_upd r) (Some s) (r_sent r ++ [(c, p)]), Some b)
      end
  end.
Definition cmap {A B} (f : A -> B) (x : cres A) : cres B :=
  match x with COk a => COk (f a) | CErr e => CErr e | CPanic => CPanic end.
Definition roundtrip {A} (d : db) (lim : list bool) (io : bool) (r : rtxn) (c : fcmd) (p : pres bytes)
  (prs : option bytes -> cres A) (f : A -> tval) (noop : cres tval) : db * rtxn * cres tval :=
  match p with
  | POk b => let '(d', r', x) := request d lim io r c b in
             (d', r', match x with Some y => cmap f (prs y) | None => noop end)
  | _ => (d, r, CPanic)
  end.
(** Txn.Set 28-50, Exists 98-114, Get 117-134, Delete 140-162, Commit 181-199, Discard 202-215
    (its outcome is ignored), Scan 218-242 *)
Definition rop (d : db) (lim : list bool) (io : bool) (r : rtxn) (o : top) : db * rtxn * cres tval :=
  match o with
  | TSet k v m =>
      if negb (r_upd r) then (d, r, CErr CReadOnly)
      else roundtrip d lim io r FSet (SetRequest_Marshal (setReq2PB k v m)) parseSet (fun _ => VUnit) CPanic
  | TDel k =>
      if negb (r_upd r) then (d, r, CErr CReadOnly)
      else roundtrip d lim io r FDelete (KeyRequest_Marshal (mkKeyRequest k [])) parseStatus (fun _ => VUnit) CPanic
  | TExists k => roundtrip d lim io r FExists (KeyRequest_Marshal (mkKeyRequest k [])) parseExists VBool CPanic
  | TGet k => roundtrip d lim io r FGet (KeyRequest_Marshal (mkKeyRequest k [])) parseGet VEnt CPanic
  | TScan so limit =>
      if limit <=? 0 then (d, r, COk (VItems []))
      else roundtrip d lim io r FScan (ScanRequest_Marshal (scanReq so (clamp_limit limit))) parseScan VItems CPanic
  | TCommit => roundtrip d lim io r FCommit (POk []) parseStatus (fun _ => VUnit) (COk VUnit)
  | TDiscard => roundtrip d lim io r FDiscard (POk []) (fun _ => COk tt) (fun _ => VUnit) (COk VUnit)
  end.
(** the connection is dropped between two operations *)
Definition rdrop (r : rtxn) : rtxn := RTxn (r_upd r) (option_map srv_drop (r_st r)) (r_sent r).
(** Client.Update / View: a sequence of operations by the user function [client.go:219-240];
    the function is any program, here the list of its operations with the store state, size
    decisions and commit outcome met by each. *)
Fixpoint rrun (r : rtxn) (l : list (top * (db * list bool * bool))) : rtxn * list (db * cres tval) :=
  match l with
  | [] => (r, [])
  | (o, (d, lim, io)) :: l' =>
      let '(d', r', x) := rop d lim io r o in
      let '(r'', xs) := rrun r' l' in (r'', (d', x) :: xs)
  end.
End Remote.
Arguments COk {A}. Arguments CErr {A}. Arguments CPanic {A}.
