(** Client/server: single operations and transactions against the local store. *)
From Verif Require Import Bytes Compact SMap Provider ProviderProofs Pb PbProofs PbLoop PbMsgs Remote RemoteProofs.

(** * Local meaning of the operations (what a program running next to the store would do) *)
(** a Scan with limit [limit]: nothing when it is not positive, else the first min(limit,1000) items *)
Definition scan_n (limit : Z) : nat := Z.to_nat (Z.min limit 1000).
Definition is_noop (o : top) : bool := match o with TScan _ l => l <=? 0 | _ => false end.
(** the operation on a transaction of the store *)
Definition local_op (o : top) : Tx tval :=
  match o with
  | TSet k v m => tsetm k v m ;;; ret VUnit
  | TGet k => e <- tgetm k ;; ret (VEnt e)
  | TExists k => b <- texists k ;; ret (VBool b)
  | TDel k => tdel k ;;; ret VUnit
  | TScan so limit => if limit <=? 0 then ret (VItems []) else l <- tscan so (collect (Some (scan_n limit))) [] ;; ret (VItems l)
  | TCommit | TDiscard => ret VUnit
  end.
(** the operation directly on the store *)
Definition local_db (d : db) (o : top) (lim : list bool) (io : bool) : db * result tval :=
  let rm {A} (f : A -> tval) (r : result A) := match r with Ok a => Ok (f a) | Err e => Err e | Panic => Panic end in
  match o with
  | TSet k v m => let '(d', r) := bdb_set d k v m lim io in (d', rm (fun _ => VUnit) r)
  | TGet k => (d, rm VEnt (bdb_get d k))
  | TExists k => (d, rm VBool (bdb_exists d k))
  | TDel k => let '(d', r) := bdb_del d k lim io in (d', rm (fun _ => VUnit) r)
  | TScan so limit => (d, if limit <=? 0 then Ok (VItems []) else rm VItems (bdb_scan d so (Some (scan_n limit))))
  | TCommit | TDiscard => (d, Ok VUnit)
  end.
(** the client's single operations *)
Section Client.
Variable etext : err -> bytes.
Variable ptext : perr -> bytes.
Definition client_op (d : db) (o : top) (lim : list bool) (io : bool) : db * cres tval :=
  match o with
  | TSet k v m => let '(d', r) := client_set etext ptext d k v m lim io in (d', cmap (fun _ => VUnit) r)
  | TGet k => (d, cmap VEnt (client_get etext ptext d k))
  | TExists k => (d, cmap VBool (client_exists etext ptext d k))
  | TDel k => let '(d', r) := client_delete etext ptext d k lim io in (d', cmap (fun _ => VUnit) r)
  | TScan so limit => (d, cmap VItems (client_scan etext ptext d so limit))
  | TCommit | TDiscard => (d, COk VUnit)
  end.

(** keys and values that fit the messages (2^40 bytes), TTLs that are int64 and give representable
    expiry times *)
Definition op_ok (now : Z) (o : top) : Prop :=
  match o with
  | TSet k v m => small k /\ small v /\ meta_req_ok m /\ (forall x, m = Some x -> is_u64 (now + m_ttl x))
  | TGet k | TExists k | TDel k => small k
  | TScan so _ => small (so_prefix so) /\ small (so_offset so)
  | TCommit | TDiscard => True
  end.
Definition texts_ok : Prop := (forall e, small (etext e)) /\ (forall e, small (ptext e)).

Lemma small_nil : small []. Proof. unfold small, len. cbn. lia. Qed.
Lemma is_i32_small c : 0 <= c < 5 -> is_i32 c. Proof. unfold is_i32. lia. Qed.
Hypothesis HT : texts_ok.
Let HE := proj1 HT. Let HP := proj2 HT.

Ltac code := apply is_i32_small; unfold CodeOK, CodeInvalidRequest, CodeInternalError, CodeTxnTooBig, CodeKeyNotFound; lia.

(** parsing the replies *)
Lemma parseSet_plain r : parseSet (reply StatusResponse_Marshal (plain_status etext r StatusResponse_empty)) =
  match r with Ok _ => COk tt | Err e => CErr (CPB 2 (etext e)) | Panic => CErr CClosed end.
Proof.
  unfold parseSet. destruct r as [[]|e|]; [| |reflexivity]; unfold plain_status, status; cbn [StatusResponse_unk StatusResponse_empty];
    (rewrite parse_status; [reflexivity|code|first [apply small_nil|apply HE]]).
Qed.
Lemma parseStatus_plain r resp : StatusResponse_unk resp = [] -> parseStatus (reply StatusResponse_Marshal (plain_status etext r resp)) =
  match r with Ok _ => COk tt | Err e => CErr (CPB 2 (etext e)) | Panic => CErr CClosed end.
Proof.
  intros U. unfold parseStatus. destruct r as [[]|e|]; [| |reflexivity]; unfold plain_status, status; rewrite U;
    (rewrite parse_status; [reflexivity|code|first [apply small_nil|apply HE]]).
Qed.
Lemma parseSet_txn r resp : StatusResponse_unk resp = [] -> r <> Panic -> parseSet (reply StatusResponse_Marshal (txn_status etext r resp)) =
  match r with Ok _ => COk tt | Err ErrTxnTooBig => CErr (CE ErrTxnTooBig) | Err e => CErr (CPB 2 (etext e)) | Panic => CErr CClosed end.
Proof.
  intros U NP. unfold parseSet. destruct r as [[]|e|]; [| |contradiction]; unfold txn_status, status; rewrite U.
  - rewrite parse_status; [reflexivity|code|apply small_nil].
  - destruct e; rewrite parse_status; try reflexivity; try code; apply HE.
Qed.
Lemma parseStatus_txn r resp : StatusResponse_unk resp = [] -> r <> Panic -> parseStatus (reply StatusResponse_Marshal (txn_status etext r resp)) =
  match r with Ok _ => COk tt | Err ErrTxnTooBig => CErr (CPB 3 (etext ErrTxnTooBig)) | Err e => CErr (CPB 2 (etext e)) | Panic => CErr CClosed end.
Proof.
  intros U NP. unfold parseStatus. destruct r as [[]|e|]; [| |contradiction]; unfold txn_status, status; rewrite U.
  - rewrite parse_status; [reflexivity|code|apply small_nil].
  - destruct e; rewrite parse_status; try reflexivity; try code; apply HE.
Qed.
Lemma parseExists_status r resp : ExistsResponse_unk resp = [] -> parseExists (reply ExistsResponse_Marshal (exists_status etext r resp)) =
  match r with Ok b => COk b | Err e => CErr (CPB 2 (etext e)) | Panic => CErr CClosed end.
Proof.
  intros U. unfold parseExists. destruct r as [b|e|]; [| |reflexivity]; unfold exists_status; rewrite U; (rewrite parse_exists; [reflexivity|code|first [apply small_nil|apply HE]]).
Qed.
Definition getresp_ok (m : GetResponse) : Prop := GetResponse_unk m = [] /\ small (GetResponse_Value m) /\ meta_ok (GetResponse_Meta m).
Lemma parseGet_status r resp k : getresp_ok resp -> (forall e, r = Ok e -> wire_ent k e) -> parseGet (reply GetResponse_Marshal (get_status etext r resp)) =
  match r with Ok e => COk e | Err ErrKeyNotFound => CErr (CE ErrKeyNotFound) | Err e => CErr (CPB 2 (etext e)) | Panic => CErr CClosed end.
Proof.
  intros (U & V & M) W. unfold parseGet. destruct r as [e|e|]; [| |reflexivity]; unfold get_status; rewrite U.
  - specialize (W e eq_refl). rewrite parse_get; [|code|apply small_nil|apply W|apply metaResp_ok].
    cbn [GetResponse_Code GetResponse_Meta GetResponse_Value]. rewrite (ent_of_metaResp k e W). reflexivity.
  - destruct e; rewrite parse_get; try reflexivity; try code; try assumption; apply HE.
Qed.
Lemma get_status_ok r resp m k : getresp_ok resp -> (forall e, r = Ok e -> wire_ent k e) -> get_status etext r resp = Some m -> getresp_ok m.
Proof.
  intros (U & V & M) W. destruct r as [e|e|]; [| |discriminate].
  - intros E. injection E as <-. split; [exact U|]. split; [apply (W e eq_refl)|apply metaResp_ok].
  - assert (G : forall c t, getresp_ok (mkGetResponse c t (GetResponse_Value resp) (GetResponse_Meta resp) (GetResponse_unk resp)))
      by (intros; split; [exact U|split; assumption]).
    destruct e; intros E; injection E as <-; apply G.
Qed.

(** * Single operations *)
Definition seen (o : top) (r : result tval) : cres tval :=
  match r with
  | Ok v => COk v
  | Err e => match o, e with
             | TGet _, ErrKeyNotFound => CErr (CE ErrKeyNotFound)
             | _, _ => CErr (CPB 2 (etext e))
             end
  | Panic => CErr CClosed
  end.
Lemma wire_new d upd lim : wire_store (d_kv d) -> wire_txn (new_txn d upd lim).
Proof. intros H. split; [exact H|]. intros k e G. cbn [new_txn t_pend] in G. rewrite get_empty in G. discriminate. Qed.
Lemma tgetm_wire t k e : wire_txn t -> snd (tgetm k t) = Ok e -> wire_ent k e.
Proof.
  intros W. unfold tgetm, map_err, bget. destruct k; [discriminate|]. destruct (negb (t_open t)); [discriminate|].
  cbn [snd]. destruct (get (view t) _) as [x|] eqn:E; [|discriminate]. intros H. injection H as <-. exact (wire_view t W _ _ E).
Qed.
Lemma clamp_range limit : 0 < limit -> 0 < clamp_limit limit <= 1000 /\ clamp_limit limit = Z.min limit 1000.
Proof. intros H. unfold clamp_limit, MaxEntry. destruct (Z.ltb_spec 1000 limit); lia. Qed.
Lemma handleScan_run so limit t : t_open t = true -> 0 < limit -> wire_txn t -> exists t',
  let items := firstn (scan_n limit) (scan_items (t_clamp t) (view t) so) in
  local_op (TScan so limit) t = (t', Ok (VItems items)) /\
  handleScan etext (scanReq so (clamp_limit limit)) ScanResponse_empty t = (t', Ok (Some (mkScanResponse 0 [] (map to_entry items) []))) /\
  wire_items items /\ (length items <= 1000)%nat.
Proof.
  intros Ho Hl Hw. destruct (clamp_range limit Hl) as [C1 C2].
  destruct (tscan_both t so (clamp_limit limit) Ho C1 Hw) as (t' & A & B & C & D). cbv zeta in *.
  assert (N : Z.to_nat (clamp_limit limit) = scan_n limit) by (rewrite C2; reflexivity). rewrite N in *.
  exists t'. split; [|split; [|split; assumption]].
  - cbn [local_op]. destruct (Z.leb_spec limit 0); [lia|]. unfold bind. rewrite A. reflexivity.
  - unfold handleScan, scanReq. cbn [ScanRequest_Option ScanRequest_Limit].
    assert (I : is_i32 (clamp_limit limit)) by (unfold is_i32; lia). rewrite (to_i32_id _ I).
    destruct (Z.eqb_spec (clamp_limit limit) 0); [lia|]. unfold MaxEntry. destruct (Z.ltb_spec 1000 (clamp_limit limit)); [lia|].
    unfold try. cbn [ScanOpt_Reverse ScanOpt_Prefix ScanOpt_Offset ScanResponse_Entries ScanResponse_empty ScanResponse_unk].
    replace (Provider.ScanOpt (so_rev so) (so_prefix so) (so_offset so)) with so by (destruct so; reflexivity).
    rewrite B. reflexivity.
Qed.
Lemma parseScan_items items : wire_items items -> (length items <= 1000)%nat ->
  parseScan (reply ScanResponse_Marshal (Some (mkScanResponse 0 [] (map to_entry items) []))) = COk items.
Proof.
  intros W L. unfold parseScan. rewrite parse_scan; [|code|apply small_nil|assumption|assumption].
  cbn [ScanResponse_Code ScanResponse_Entries]. rewrite (scan_entries_map _ W). reflexivity.
Qed.

Theorem client_op_local d o lim io : wire_store (d_kv d) -> op_ok (d_now d) o ->
  client_op d o lim io = (fst (local_db d o lim io), seen o (snd (local_db d o lim io))).
Proof.
  intros W O. destruct o as [k v m|k|k|k|so limit| |]; cbn [client_op local_db op_ok] in *; [| | | | |reflexivity|reflexivity].
  - destruct O as (Hk & Hv & Hm & _). unfold client_set. destruct (set_req k v m Hk Hv Hm) as (p & E1 & E2). rewrite E1.
    unfold srv_set. rewrite E2, meta_req. cbn [SetRequest_Key SetRequest_Value setReq2PB].
    destruct (bdb_set d k v m lim io) as [d' r]. rewrite parseSet_plain. cbn [fst snd]. destruct r; reflexivity.
  - destruct (key_req k O) as [E1 E2]. unfold client_get. rewrite E1. unfold srv_get. rewrite E2. cbn [KeyRequest_Key].
    rewrite (parseGet_status _ _ k).
    + destruct (bdb_get d k) as [e|e|]; [reflexivity| |reflexivity]. destruct e; reflexivity.
    + split; [reflexivity|]. split; [apply small_nil|]. intros x E. discriminate.
    + intros e E. exact (tgetm_wire _ k e (wire_new d false [] W) E).
  - destruct (key_req k O) as [E1 E2]. unfold client_exists. rewrite E1. unfold srv_exists. rewrite E2. cbn [KeyRequest_Key].
    rewrite parseExists_status by reflexivity. destruct (bdb_exists d k); reflexivity.
  - destruct (key_req k O) as [E1 E2]. unfold client_delete. rewrite E1. unfold srv_delete. rewrite E2. cbn [KeyRequest_Key].
    destruct (bdb_del d k lim io) as [d' r]. rewrite parseStatus_plain by reflexivity. cbn [fst snd]. destruct r; reflexivity.
  - unfold client_scan. destruct (Z.leb_spec limit 0) as [L|L]; [reflexivity|].
    destruct O as [O1 O2]. destruct (clamp_range limit ltac:(lia)) as [C1 C2].
    destruct (scan_req so (clamp_limit limit) O1 O2 ltac:(unfold is_i32; lia)) as [E1 E2]. rewrite E1.
    unfold srv_scan. rewrite E2.
    destruct (handleScan_run so limit (new_txn d false []) eq_refl ltac:(lia) (wire_new d false [] W)) as (t' & A & B & C & D). cbv zeta in *.
    rewrite B. cbn [snd]. rewrite (parseScan_items _ C D). cbn [cmap fst snd].
    cbn [local_op] in A. destruct (Z.leb_spec limit 0); [lia|]. unfold bdb_scan. unfold bind in A.
    destruct (tscan so (collect (Some (scan_n limit))) [] (new_txn d false [])) as [t1 [x|e|]]; [|discriminate|discriminate].
    unfold ret in A. assert (x = firstn (scan_n limit) (scan_items (t_clamp (new_txn d false [])) (view (new_txn d false [])) so)) as -> by congruence. reflexivity.
Qed.

(** contents stay transportable *)
Lemma entry_of_wire now k v m : small k -> small v -> 0 <= now -> (forall x, m = Some x -> is_u64 (now + m_ttl x)) -> wire_ent k (entry_of now v m).
Proof.
  intros Hk Hv Hn Hm. split; [exact Hk|]. destruct m as [m|]; cbn [entry_of e_val e_exp mk].
  - split; [exact Hv|apply Hm; reflexivity].
  - split; [exact Hv|]. unfold is_u64. rewrite two64_val. lia.
Qed.
Lemma modify_same k o t t' r : modify k o t = (t', r) ->
  t_snap t' = t_snap t /\ t_now t' = t_now t /\ t_open t' = t_open t /\ t_upd t' = t_upd t /\ t_clamp t' = t_clamp t /\ r <> Panic /\
  (t_pend t' = t_pend t \/ t_pend t' = set (t_pend t) k o).
Proof.
  unfold modify. destruct (negb (t_upd t)); [|destruct (negb (t_open t)); [|destruct (key_err k); [|destruct (t_lim t) as [|[] l]]]];
    intros H; inversion H; subst; cbn; do 6 (split; [solve [reflexivity|discriminate]|]); auto.
Qed.
Lemma modify_wire k o t t' r : (forall e, o = Some e -> wire_ent k e) -> wire_txn t -> modify k o t = (t', r) -> wire_txn t'.
Proof.
  intros Ho [A B] H. destruct (modify_same k o t t' r H) as (H1 & _ & _ & _ & _ & _ & H2). split; [rewrite H1; exact A|].
  destruct H2 as [->| ->]; [exact B|]. intros j e. rewrite get_set. destruct (bytes_eqb j k) eqn:N; [|apply B]. apply bytes_eqb_eq in N. subst j.
  intros E. injection E as ->. apply Ho. reflexivity.
Qed.
Lemma wire_apply m p : wire_store m -> wire_pend p -> wire_store (apply_pend m p).
Proof.
  intros A B k e. rewrite get_apply_pend. destruct (get p k) as [[x|]|] eqn:E; intros H; [|discriminate|apply A, H].
  injection H as ->. apply B, E.
Qed.
Lemma bdb_write_wire d k o f lim io : wire_store (d_kv d) -> (forall e, o = Some e -> wire_ent k e) ->
  wire_store (d_kv (fst (bdb_write d (map_err f (modify k o)) lim io))).
Proof.
  intros W Ho. unfold bdb_write, map_err. destruct (modify k o (new_txn d true lim)) as [t' r] eqn:E.
  pose proof (modify_wire k o _ t' r Ho (wire_new d true lim W) E) as [W1 W2].
  destruct (modify_same _ _ _ _ _ E) as (S1 & _ & S2 & _). destruct r as [[]|e|]; [|exact W|exact W].
  unfold commit. rewrite S2. cbn [negb new_txn t_open]. destruct (entries (t_pend t')) as [|x l]; [exact W|].
  destruct (conflict d t'); [exact W|]. destruct io; [exact W|]. cbn [publish d_kv fst]. apply wire_apply; assumption.
Qed.
Lemma bdb_write_id d k o lim io : bdb_write d (modify k o) lim io = bdb_write d (map_err (fun e => e) (modify k o)) lim io.
Proof. unfold bdb_write, map_err. destruct (modify k o (new_txn d true lim)) as [t' [x|e|]]; reflexivity. Qed.
Lemma local_db_wire d o lim io : 0 <= d_now d -> wire_store (d_kv d) -> op_ok (d_now d) o -> wire_store (d_kv (fst (local_db d o lim io))).
Proof.
  intros Hn W O. destruct o as [k v m|k|k|k|so limit| |]; cbn [local_db]; try exact W.
  - destruct O as (Hk & Hv & _ & Hm). pose proof (bdb_write_wire d k (Some (entry_of (d_now d) v m)) too_big lim io W) as H.
    change (bdb_set d k v m lim io) with (bdb_write d (map_err too_big (modify k (Some (entry_of (d_now d) v m)))) lim io).
    destruct (bdb_write d _ lim io) as [d' r]. cbn [fst] in *. apply H. intros e E. injection E as <-. apply entry_of_wire; assumption.
  - pose proof (bdb_write_wire d k None (fun e => e) lim io W) as H. unfold bdb_del. rewrite bdb_write_id.
    destruct (bdb_write d _ lim io) as [d' r]. cbn [fst] in *. apply H. discriminate.
Qed.

(** * Transactions *)
(** outcome of an operation of a transaction as the client reports it *)
Definition seen_txn (o : top) (r : result tval) : cres tval :=
  match r with
  | Ok v => COk v
  | Err e => match o, e with
             | TGet _, ErrKeyNotFound => CErr (CE ErrKeyNotFound)
             | TSet _ _ _, ErrTxnTooBig => CErr (CE ErrTxnTooBig)
             | TDel _, ErrTxnTooBig => CErr (CPB 3 (etext ErrTxnTooBig))
             | _, _ => CErr (CPB 2 (etext e))
             end
  | Panic => CErr CClosed
  end.
(** the same program on a transaction of the store; it begins with the first request *)
Inductive lst := LNone | LOpen (t : txn) | LDone.
Definition lop (upd : bool) (d : db) (lim : list bool) (io : bool) (s : lst) (o : top) : db * lst * result tval :=
  if is_noop o then (d, s, Ok (VItems []))
  else match s with
  | LNone => match o with
             | TCommit | TDiscard => (d, LNone, Ok VUnit)
             | _ => let '(t, r) := local_op o (new_txn d upd lim) in (d, LOpen t, r)
             end
  | LOpen t => match o with
               | TCommit => let '(d', _, r) := commit d t io in
                            (d', LDone, match r with Ok _ => Ok VUnit | Err e => Err e | Panic => Panic end)
               | TDiscard => (d, LDone, Ok VUnit)
               | _ => let '(t', r) := local_op o t in (d, LOpen t', r)
               end
  | LDone => (d, LDone, Panic)
  end.
Fixpoint lrun (upd : bool) (s : lst) (l : list (top * (db * list bool * bool))) : lst * list (db * cres tval) :=
  match l with
  | [] => (s, [])
  | (o, (d, lim, io)) :: l' =>
      let '(d', s', r) := lop upd d lim io s o in
      let '(s'', rs) := lrun upd s' l' in (s'', (d', seen_txn o r) :: rs)
  end.
(** what the transaction may do for the code to be right: after the first request no Set, no empty
    keys, at most one Scan; nothing after Commit/Discard *)
Inductive phase := PFresh | PRunning (scanned : bool) | POver.
Definition allow (upd : bool) (p : phase) (o : top) : option phase :=
  if is_noop o then Some p
  else match p, o with
  | PFresh, (TCommit | TDiscard) => Some PFresh
  | PFresh, (TSet _ _ _ | TDel _) => if upd then Some (PRunning false) else None
  | PFresh, _ => Some (PRunning false)
  | PRunning sc, (TGet k | TExists k) => match k with [] => None | _ => Some p end
  | PRunning sc, TDel k => if upd then match k with [] => None | _ => Some p end else None
  | PRunning sc, TScan _ _ => if sc then None else Some (PRunning true)
  | PRunning sc, (TCommit | TDiscard) => Some POver
  | PRunning sc, TSet _ _ _ => None
  | POver, _ => None
  end.
Fixpoint allowed (upd : bool) (p : phase) (l : list top) : Prop :=
  match l with
  | [] => True
  | o :: l' => match allow upd p o with Some p' => allowed upd p' l' | None => False end
  end.

(** simulation relation *)
Definition vars_ok (v : cvars) (scanned : bool) : Prop :=
  getresp_ok (v_getResp v) /\ StatusResponse_unk (v_delResp v) = [] /\ ExistsResponse_unk (v_exResp v) = [] /\
  StatusResponse_unk (v_comResp v) = [] /\
  (scanned = false -> v_scanReq v = ScanRequest_empty /\ v_scanResp v = ScanResponse_empty).
Definition sim (upd : bool) (p : phase) (r : rtxn) (s : lst) : Prop :=
  r_upd r = upd /\
  match p, s with
  | PFresh, LNone => r_st r = None
  | PRunning sc, LOpen t => exists v, r_st r = Some (Serving t v) /\ vars_ok v sc /\ wire_txn t /\ t_open t = true /\ t_upd t = upd
  | POver, LDone => r_st r = Some Ended
  | _, _ => False
  end.

Lemma vars0_ok sc : vars_ok cvars0 sc.
Proof.
  unfold vars_ok, cvars0. cbn. split; [|repeat split; reflexivity].
  split; [reflexivity|]. split; [apply small_nil|]. intros m E. discriminate.
Qed.

(** reads leave the transaction as it was, up to the recorded keys *)
Lemma add_read_same k t : t_snap (add_read k t) = t_snap t /\ t_pend (add_read k t) = t_pend t /\ t_open (add_read k t) = t_open t /\ t_upd (add_read k t) = t_upd t.
Proof. unfold add_read. destruct (t_upd t) eqn:E; cbn; rewrite ?E; auto. Qed.
Lemma track_same k t : t_snap (track k t) = t_snap t /\ t_pend (track k t) = t_pend t /\ t_open (track k t) = t_open t /\ t_upd (track k t) = t_upd t.
Proof. unfold track. destruct (get (t_pend t) k); [auto|apply add_read_same]. Qed.
Definition same_core (t t' : txn) : Prop := t_snap t' = t_snap t /\ t_pend t' = t_pend t /\ t_open t' = t_open t /\ t_upd t' = t_upd t.
Lemma same_core_refl t : same_core t t. Proof. unfold same_core. auto. Qed.
Lemma same_core_trans a b c : same_core a b -> same_core b c -> same_core a c.
Proof. unfold same_core. intuition congruence. Qed.
Lemma bget_core k t t' r : bget k t = (t', r) -> same_core t t' /\ r <> Panic.
Proof.
  unfold bget. destruct k as [|c k]; [intros H; inversion H; subst; split; [apply same_core_refl|discriminate]|].
  destruct (negb (t_open t)); [intros H; inversion H; subst; split; [apply same_core_refl|discriminate]|].
  intros H. inversion H; subst. split; [apply track_same|]. destruct (get (view t) _); discriminate.
Qed.
Lemma scan_loop_core l n : forall acc t t' r, scan_loop l (collect n) acc t = (t', r) -> same_core t t'.
Proof.
  induction l as [|[k e] l IH]; intros acc t t' r; cbn [scan_loop]; [intros H; inversion H; subst; apply same_core_refl|].
  unfold bind, collect at 1, ret. cbn [fst snd]. destruct (match n with None => true | Some n' => _ end).
  - intros H. eapply same_core_trans; [apply add_read_same|eapply IH; exact H].
  - intros H. inversion H; subst. apply add_read_same.
Qed.
Lemma wire_core t t' : same_core t t' -> wire_txn t -> wire_txn t'.
Proof. intros (A & B & _) [C D]. unfold wire_txn. rewrite A, B. split; assumption. Qed.

Lemma wire_nil : wire_items []. Proof. constructor. Qed.
(** the handlers against the local operations *)
Ltac tx := cbn [local_op]; unfold h_set, h_delete, h_exists, h_get, try, bind, ret.
Lemma local_set_core now k v m t t' r : t_now t = now -> 0 <= now -> op_ok now (TSet k v m) -> wire_txn t -> tsetm k v m t = (t', r) ->
  wire_txn t' /\ t_open t' = t_open t /\ t_upd t' = t_upd t /\ r <> Panic.
Proof.
  intros N0 N (Hk & Hv & _ & Hm) W. unfold tsetm, map_err. destruct (modify k _ t) as [t1 r1] eqn:E.
  pose proof (modify_same _ _ _ _ _ E) as (S1 & S2 & S3 & S4 & S5 & S6 & _).
  assert (W1 : wire_txn t1).
  { eapply modify_wire; [|exact W|exact E]. intros e Ee. injection Ee as <-. rewrite N0. apply entry_of_wire; assumption. }
  intros H. destruct r1; inversion H; subst; (split; [exact W1|split; [exact S3|split; [exact S4|congruence]]]).
Qed.
Lemma local_del_core k t t' r : wire_txn t -> tdel k t = (t', r) ->
  wire_txn t' /\ t_open t' = t_open t /\ t_upd t' = t_upd t /\ r <> Panic.
Proof.
  intros W. unfold tdel, map_err. destruct (modify k _ t) as [t1 r1] eqn:E.
  pose proof (modify_same _ _ _ _ _ E) as (S1 & S2 & S3 & S4 & S5 & S6 & _).
  assert (W1 : wire_txn t1) by (eapply modify_wire; [|exact W|exact E]; discriminate).
  intros H. destruct r1; inversion H; subst; (split; [exact W1|split; [exact S3|split; [exact S4|congruence]]]).
Qed.
Lemma local_get_core k t t' r : tgetm k t = (t', r) -> same_core t t' /\ r <> Panic.
Proof.
  unfold tgetm, map_err. destruct (bget k t) as [t1 r1] eqn:E. destruct (bget_core _ _ _ _ E) as [C N].
  intros H. destruct r1; inversion H; subst; split; try exact C; congruence.
Qed.
Lemma local_exists_core k t t' r : texists k t = (t', r) -> same_core t t' /\ r <> Panic.
Proof.
  unfold texists, try. destruct (bget k t) as [t1 r1] eqn:E. destruct (bget_core _ _ _ _ E) as [C N].
  destruct r1 as [e|e|]; [| |congruence]; intros H.
  - inversion H; subst. split; [exact C|discriminate].
  - destruct e; inversion H; subst; (split; [exact C|discriminate]).
Qed.

(** one handler run against the local operation *)
Lemma run_get k q resp t : getresp_ok resp -> wire_txn t -> KeyRequest_Key q = k ->
  exists t' m r, h_get etext q resp t = (t', Ok (Some m)) /\ getresp_ok m /\ local_op (TGet k) t = (t', r) /\ same_core t t' /\
    cmap VEnt (parseGet (reply GetResponse_Marshal (Some m))) = seen_txn (TGet k) r.
Proof.
  intros G W K. tx. rewrite K. destruct (tgetm k t) as [t' r] eqn:E. destruct (local_get_core _ _ _ _ E) as [C N].
  assert (Hw : forall e, r = Ok e -> wire_ent k e) by (intros e ->; apply (tgetm_wire t k e W); rewrite E; reflexivity).
  pose proof (parseGet_status r resp k G Hw) as P.
  destruct (get_status etext r resp) as [m|] eqn:S; [|destruct r as [|[]|]; try discriminate; contradiction].
  pose proof (get_status_ok r resp m k G Hw S) as G'.
  exists t', m. destruct r as [e|e|]; [| |contradiction].
  - exists (Ok (VEnt e)). try rewrite S. do 4 (split; [solve [reflexivity|assumption]|]). rewrite P. reflexivity.
  - exists (Err e). try rewrite S. do 4 (split; [solve [reflexivity|assumption]|]). rewrite P. destruct e; reflexivity.
Qed.
Lemma run_exists k q resp t : ExistsResponse_unk resp = [] -> wire_txn t -> KeyRequest_Key q = k ->
  exists t' m r, h_exists etext q resp t = (t', Ok (Some m)) /\ ExistsResponse_unk m = [] /\ local_op (TExists k) t = (t', r) /\ same_core t t' /\
    cmap VBool (parseExists (reply ExistsResponse_Marshal (Some m))) = seen_txn (TExists k) r.
Proof.
  intros G W K. tx. rewrite K. destruct (texists k t) as [t' r] eqn:E. destruct (local_exists_core _ _ _ _ E) as [C N].
  pose proof (parseExists_status r resp G) as P.
  destruct r as [b|e|]; [| |contradiction].
  - exists t', (mkExistsResponse CodeOK [] b (ExistsResponse_unk resp)), (Ok (VBool b)). do 4 (split; [solve [reflexivity|assumption]|]).
    unfold exists_status in P. rewrite P. reflexivity.
  - exists t', (mkExistsResponse CodeInternalError (etext e) (ExistsResponse_Exists resp) (ExistsResponse_unk resp)), (Err e). do 4 (split; [solve [reflexivity|assumption]|]).
    unfold exists_status in P. rewrite P. destruct e; reflexivity.
Qed.
Lemma run_del k q resp t : StatusResponse_unk resp = [] -> wire_txn t -> KeyRequest_Key q = k ->
  exists t' m r, h_delete etext q resp t = (t', Ok (Some m)) /\ StatusResponse_unk m = [] /\ local_op (TDel k) t = (t', r) /\
    wire_txn t' /\ t_open t' = t_open t /\ t_upd t' = t_upd t /\
    cmap (fun _ => VUnit) (parseStatus (reply StatusResponse_Marshal (Some m))) = seen_txn (TDel k) r.
Proof.
  intros G W K. tx. rewrite K. destruct (tdel k t) as [t' r] eqn:E. destruct (local_del_core _ _ _ _ W E) as (W1 & W2 & W3 & N).
  pose proof (parseStatus_txn r resp G N) as P. exists t'.
  destruct (txn_status etext r resp) as [m|] eqn:S; [|destruct r as [|[]|]; try discriminate; contradiction].
  assert (U : StatusResponse_unk m = []) by (destruct r as [|[]|]; inversion S; exact G).
  exists m. destruct r as [[]|e|]; [| |contradiction].
  - exists (Ok VUnit). try rewrite S. do 6 (split; [solve [reflexivity|assumption]|]). rewrite P. reflexivity.
  - exists (Err e). try rewrite S. do 6 (split; [solve [reflexivity|assumption]|]). rewrite P. destruct e; reflexivity.
Qed.
Lemma run_set k v m t : 0 <= t_now t -> op_ok (t_now t) (TSet k v m) -> wire_txn t ->
  exists t' w r, h_set etext (setReq2PB k v m) StatusResponse_empty t = (t', Ok (Some w)) /\ local_op (TSet k v m) t = (t', r) /\
    wire_txn t' /\ t_open t' = t_open t /\ t_upd t' = t_upd t /\
    cmap (fun _ => VUnit) (parseSet (reply StatusResponse_Marshal (Some w))) = seen_txn (TSet k v m) r.
Proof.
  intros Hn O W. tx. rewrite meta_req. cbn [SetRequest_Key SetRequest_Value setReq2PB].
  destruct (tsetm k v m t) as [t' r] eqn:E. destruct (local_set_core (t_now t) k v m t t' r eq_refl Hn O W E) as (W1 & W2 & W3 & N).
  pose proof (parseSet_txn r StatusResponse_empty eq_refl N) as P. exists t'.
  destruct (txn_status etext r StatusResponse_empty) as [w|] eqn:S; [|destruct r as [|[]|]; try discriminate; contradiction].
  exists w. destruct r as [[]|e|]; [| |contradiction].
  - exists (Ok VUnit). try rewrite S. do 5 (split; [solve [reflexivity|assumption]|]). rewrite P. reflexivity.
  - exists (Err e). try rewrite S. do 5 (split; [solve [reflexivity|assumption]|]). rewrite P. destruct e; reflexivity.
Qed.
Lemma scan_core so limit t t' r : local_op (TScan so limit) t = (t', r) -> same_core t t'.
Proof.
  cbn [local_op]. destruct (limit <=? 0); [intros H; inversion H; subst; apply same_core_refl|]. unfold bind, tscan.
  destruct (negb (t_open t)); [intros H; inversion H; subst; apply same_core_refl|].
  destruct (scan_loop _ _ _ t) as [t1 [x|e|]] eqn:E; apply scan_loop_core in E; intros H; inversion H; subst; exact E.
Qed.
Lemma run_scan so limit t : t_open t = true -> 0 < limit -> wire_txn t ->
  exists t' m r, handleScan etext (scanReq so (clamp_limit limit)) ScanResponse_empty t = (t', Ok (Some m)) /\ local_op (TScan so limit) t = (t', r) /\
    same_core t t' /\ cmap VItems (parseScan (reply ScanResponse_Marshal (Some m))) = seen_txn (TScan so limit) r.
Proof.
  intros Ho Hl W. destruct (handleScan_run so limit t Ho Hl W) as (t' & A & B & C & D). cbv zeta in *.
  eexists t', _, _. split; [exact B|]. split; [exact A|]. split; [exact (scan_core _ _ _ _ _ A)|]. rewrite (parseScan_items _ C D). reflexivity.
Qed.

(** conclusion of a step *)
Definition step_ok (upd : bool) (d : db) (lim : list bool) (io : bool) (p' : phase) (r : rtxn) (s : lst) (o : top) : Prop :=
  exists d' r' s' y, rop etext ptext d lim io r o = (d', r', seen_txn o y) /\ lop upd d lim io s o = (d', s', y) /\ sim upd p' r' s'.

Lemma sim_step upd d lim io p r s o p' : sim upd p r s -> allow upd p o = Some p' -> op_ok (d_now d) o ->
  (p = PFresh -> wire_store (d_kv d) /\ 0 <= d_now d) -> step_ok upd d lim io p' r s o.
Proof.
  intros (HU & HS) HA HO HF. unfold step_ok.
  destruct (is_noop o) eqn:NO.
  { destruct o as [| | | |so limit| |]; try discriminate. cbn [is_noop] in NO. unfold allow in HA. cbn [is_noop] in HA. rewrite NO in HA.
    assert (p' = p) as -> by congruence. exists d, r, s, (Ok (VItems [])). unfold rop, lop. cbn [is_noop]. rewrite NO.
    split; [reflexivity|]. split; [reflexivity|]. split; assumption. }
  unfold allow in HA. rewrite NO in HA. unfold lop. rewrite NO.
  destruct p as [|sc|]; [| |destruct o; discriminate].
  - (* first request *)
    destruct s; try contradiction. destruct (HF eq_refl) as [HW HN]. destruct r as [u st sent]. cbn [r_upd r_st] in *. subst u st.
    destruct o as [k v m|k|k|k|so limit| |].
    + destruct upd; [|discriminate]. assert (p' = PRunning false) as -> by congruence.
      pose proof HO as (Hk & Hv & Hm & _). destruct (set_req k v m Hk Hv Hm) as (pl & E1 & E2).
      destruct (run_set k v m (new_txn d true lim) HN HO (wire_new d true lim HW)) as (t' & w & y & A1 & A2 & A3 & A4 & A5 & A6).
      unfold rop, roundtrip. cbn [negb r_upd]. rewrite E1. unfold request. cbn [r_st r_upd r_sent]. unfold first_frame. rewrite E2.
      unfold run_h. rewrite A1, A2. eexists _, _, _, y. split; [rewrite A6; reflexivity|]. split; [reflexivity|].
      split; [reflexivity|]. exists cvars0. split; [reflexivity|]. split; [apply vars0_ok|]. split; [exact A3|]. split; [exact A4|exact A5].
    + assert (p' = PRunning false) as -> by congruence. destruct (key_req k HO) as [E1 E2].
      assert (G0 : getresp_ok GetResponse_empty) by apply (vars0_ok false).
      destruct (run_get k (mkKeyRequest k []) GetResponse_empty (new_txn d upd lim) G0 (wire_new d upd lim HW) eq_refl) as (t' & w & y & A1 & A2 & A3 & A4 & A5).
      unfold rop, roundtrip. rewrite E1. unfold request. cbn [r_st r_upd r_sent]. unfold first_frame. rewrite E2.
      unfold run_h. rewrite A1, A3. eexists _, _, _, y. split; [rewrite A5; reflexivity|]. split; [reflexivity|].
      split; [reflexivity|]. exists cvars0. split; [reflexivity|]. split; [apply vars0_ok|]. split; [exact (wire_core _ _ A4 (wire_new d upd lim HW))|]. destruct A4 as (_ & _ & A6 & A7). split; [exact A6|exact A7].
    + assert (p' = PRunning false) as -> by congruence. destruct (key_req k HO) as [E1 E2].
      destruct (run_exists k (mkKeyRequest k []) ExistsResponse_empty (new_txn d upd lim) eq_refl (wire_new d upd lim HW) eq_refl) as (t' & w & y & A1 & A2 & A3 & A4 & A5).
      unfold rop, roundtrip. rewrite E1. unfold request. cbn [r_st r_upd r_sent]. unfold first_frame. rewrite E2.
      unfold run_h. rewrite A1, A3. eexists _, _, _, y. split; [rewrite A5; reflexivity|]. split; [reflexivity|].
      split; [reflexivity|]. exists cvars0. split; [reflexivity|]. split; [apply vars0_ok|]. split; [exact (wire_core _ _ A4 (wire_new d upd lim HW))|]. destruct A4 as (_ & _ & A6 & A7). split; [exact A6|exact A7].
    + destruct upd; [|discriminate]. assert (p' = PRunning false) as -> by congruence. destruct (key_req k HO) as [E1 E2].
      destruct (run_del k (mkKeyRequest k []) StatusResponse_empty (new_txn d true lim) eq_refl (wire_new d true lim HW) eq_refl) as (t' & w & y & A1 & A2 & A3 & A4 & A5 & A6 & A7).
      unfold rop, roundtrip. cbn [negb r_upd]. rewrite E1. unfold request. cbn [r_st r_upd r_sent]. unfold first_frame. rewrite E2.
      unfold run_h. rewrite A1, A3. eexists _, _, _, y. split; [rewrite A7; reflexivity|]. split; [reflexivity|].
      split; [reflexivity|]. exists cvars0. split; [reflexivity|]. split; [apply vars0_ok|]. split; [exact A4|]. split; [exact A5|exact A6].
    + assert (p' = PRunning false) as -> by congruence. cbn [is_noop] in NO. apply Z.leb_gt in NO. destruct HO as [O1 O2].
      destruct (clamp_range limit NO) as [C1 _]. destruct (scan_req so (clamp_limit limit) O1 O2 ltac:(unfold is_i32; lia)) as [E1 E2].
      destruct (run_scan so limit (new_txn d upd lim) eq_refl NO (wire_new d upd lim HW)) as (t' & w & y & A1 & A2 & A3 & A4).
      unfold rop, roundtrip. destruct (Z.leb_spec limit 0); [lia|]. rewrite E1. unfold request. cbn [r_st r_upd r_sent]. unfold first_frame. rewrite E2.
      unfold run_h. rewrite A1, A2. eexists _, _, _, y. split; [rewrite A4; reflexivity|]. split; [reflexivity|].
      split; [reflexivity|]. exists cvars0. split; [reflexivity|]. split; [apply vars0_ok|]. split; [exact (wire_core _ _ A3 (wire_new d upd lim HW))|]. destruct A3 as (_ & _ & A6 & A7). split; [exact A6|exact A7].
    + assert (p' = PFresh) as -> by congruence. eexists _, _, _, (Ok VUnit). split; [reflexivity|]. split; [reflexivity|]. split; reflexivity.
    + assert (p' = PFresh) as -> by congruence. eexists _, _, _, (Ok VUnit). split; [reflexivity|]. split; [reflexivity|]. split; reflexivity.
  - (* later requests *)
    destruct s as [|t|]; try contradiction. destruct HS as (v & HR & HV & HW & Hopen & Hupd).
    destruct r as [u st sent]. cbn [r_upd r_st] in *. subst u st. destruct HV as (V1 & V2 & V3 & V4 & V5).
    destruct o as [k x m|k|k|k|so limit| |]; [discriminate| | | | | |].
    + assert (Hk : k <> []) by (destruct k; discriminate). assert (p' = PRunning sc) as -> by (destruct k; congruence).
      destruct (key_req k HO) as [E1 _]. pose proof (key_req_stale (v_getReq v) k HO Hk) as E2.
      destruct (run_get k (mkKeyRequest k (KeyRequest_unk (v_getReq v))) (v_getResp v) t V1 HW eq_refl) as (t' & w & y & A1 & A2 & A3 & A4 & A5).
      unfold rop, roundtrip. rewrite E1. unfold request. cbn [r_st r_upd r_sent]. unfold srv_frame. rewrite E2.
      unfold here, run_h. rewrite A1, A3. cbn [fst snd]. eexists _, _, _, y. split; [rewrite A5; reflexivity|]. split; [reflexivity|].
      split; [reflexivity|]. eexists. split; [reflexivity|]. split; [unfold vars_ok; cbn; auto|]. split; [exact (wire_core _ _ A4 HW)|]. destruct A4 as (_ & _ & A6 & A7). split; congruence.
    + assert (Hk : k <> []) by (destruct k; discriminate). assert (p' = PRunning sc) as -> by (destruct k; congruence).
      destruct (key_req k HO) as [E1 _]. pose proof (key_req_stale (v_exReq v) k HO Hk) as E2.
      destruct (run_exists k (mkKeyRequest k (KeyRequest_unk (v_exReq v))) (v_exResp v) t V3 HW eq_refl) as (t' & w & y & A1 & A2 & A3 & A4 & A5).
      unfold rop, roundtrip. rewrite E1. unfold request. cbn [r_st r_upd r_sent]. unfold srv_frame. rewrite E2.
      unfold here, run_h. rewrite A1, A3. cbn [fst snd]. eexists _, _, _, y. split; [rewrite A5; reflexivity|]. split; [reflexivity|].
      split; [reflexivity|]. eexists. split; [reflexivity|]. split; [unfold vars_ok; cbn; auto|]. split; [exact (wire_core _ _ A4 HW)|]. destruct A4 as (_ & _ & A6 & A7). split; congruence.
    + destruct upd; [|discriminate]. assert (Hk : k <> []) by (destruct k; discriminate). assert (p' = PRunning sc) as -> by (destruct k; congruence).
      destruct (key_req k HO) as [E1 _]. pose proof (key_req_stale (v_delReq v) k HO Hk) as E2.
      destruct (run_del k (mkKeyRequest k (KeyRequest_unk (v_delReq v))) (v_delResp v) t V2 HW eq_refl) as (t' & w & y & A1 & A2 & A3 & A4 & A5 & A6 & A7).
      unfold rop, roundtrip. cbn [negb r_upd]. rewrite E1. unfold request. cbn [r_st r_upd r_sent]. unfold srv_frame. rewrite E2.
      unfold here, run_h. rewrite A1, A3. cbn [fst snd]. eexists _, _, _, y. split; [rewrite A7; reflexivity|]. split; [reflexivity|].
      split; [reflexivity|]. eexists. split; [reflexivity|]. split; [unfold vars_ok; cbn; auto|]. split; [exact A4|]. split; congruence.
    + destruct sc; [discriminate|]. assert (p' = PRunning true) as -> by congruence. destruct (V5 eq_refl) as [V6 V7].
      cbn [is_noop] in NO. apply Z.leb_gt in NO. destruct HO as [O1 O2].
      destruct (clamp_range limit NO) as [C1 _]. destruct (scan_req so (clamp_limit limit) O1 O2 ltac:(unfold is_i32; lia)) as [E1 E2].
      destruct (run_scan so limit t Hopen NO HW) as (t' & w & y & A1 & A2 & A3 & A4).
      unfold rop, roundtrip. destruct (Z.leb_spec limit 0); [lia|]. rewrite E1. unfold request. cbn [r_st r_upd r_sent]. unfold srv_frame. rewrite V6, E2, V7.
      unfold here, run_h. rewrite A1, A2. cbn [fst snd]. eexists _, _, _, y. split; [rewrite A4; reflexivity|]. split; [reflexivity|].
      split; [reflexivity|]. eexists. split; [reflexivity|]. split; [unfold vars_ok; cbn; split; [assumption|]; split; [assumption|]; split; [assumption|]; split; [assumption|discriminate]|].
      split; [exact (wire_core _ _ A3 HW)|]. destruct A3 as (_ & _ & A6 & A7). split; congruence.
    + assert (p' = POver) as -> by congruence.
      unfold rop, roundtrip, request. cbn [r_st r_upd r_sent]. unfold srv_frame.
      destruct (commit d t io) as [[d' t'] r] eqn:E. rewrite (parseStatus_plain r _ V4).
      exists d', (RTxn upd (Some Ended) (sent ++ [(FCommit, [])])), LDone, (match r with Ok _ => Ok VUnit | Err e => Err e | Panic => Panic end).
      split; [|split; [reflexivity|split; reflexivity]].
      destruct r as [[]|e|]; cbn [cmap seen_txn]; [reflexivity|destruct e; reflexivity|reflexivity].
    + assert (p' = POver) as -> by congruence. eexists _, _, _, (Ok VUnit). split; [reflexivity|]. split; [reflexivity|]. split; reflexivity.
Qed.

Theorem rrun_lrun upd l : forall p r s, sim upd p r s -> allowed upd p (map fst l) ->
  Forall (fun x => op_ok (d_now (fst (fst (snd x)))) (fst x) /\ wire_store (d_kv (fst (fst (snd x)))) /\ 0 <= d_now (fst (fst (snd x)))) l ->
  snd (rrun etext ptext r l) = snd (lrun upd s l) /\ exists p', sim upd p' (fst (rrun etext ptext r l)) (fst (lrun upd s l)).
Proof.
  induction l as [|[o [[d lim] io]] l IH]; intros p r s HS HA HF; [split; [reflexivity|exists p; exact HS]|].
  cbn [map allowed fst] in HA. destruct (allow upd p o) as [p'|] eqn:EA; [|contradiction].
  inversion HF as [|? ? [F1 [F2 F3]] F4]; subst. cbn [fst snd] in *.
  destruct (sim_step upd d lim io p r s o p' HS EA F1 (fun _ => conj F2 F3)) as (d' & r' & s' & y & A & B & C).
  cbn [rrun lrun]. rewrite A, B. destruct (IH p' r' s' C HA F4) as [I1 I2].
  destruct (rrun etext ptext r' l) as [r2 xs]. destruct (lrun upd s' l) as [s2 ys]. cbn [fst snd] in *. split; [congruence|exact I2].
Qed.
End Client.
