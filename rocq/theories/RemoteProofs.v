(** Lemmas about the client/server model. *)
From Verif Require Import Bytes Compact SMap Provider ProviderProofs Pb PbProofs PbLoop PbMsgs Remote.

Definition small (v : bytes) : Prop := len v < 2 ^ 40.
(** a stored entry that fits the messages *)
Definition wire_ent (k : bytes) (e : ent) : Prop := small k /\ small (e_val e) /\ is_u64 (e_exp e).
Definition wire_store (m : smap ent) : Prop := forall k e, get m k = Some e -> wire_ent k e.

Lemma sov_loop_le f x : sov_loop f x <= Z.of_nat f.
Proof. revert x. induction f as [|f IH]; intros x; cbn [sov_loop]; [lia|]. destruct (_ =? 0); [lia|]. specialize (IH (Z.shiftr x 7)). lia. Qed.
Lemma sov_le x : 0 <= sov x <= 10.
Proof. split; [apply sov_pos|]. exact (sov_loop_le 10 x). Qed.
Lemma z_bytes_le v : 0 <= z_bytes v <= len v + 11.
Proof. split; [apply z_bytes_pos|]. unfold z_bytes. pose proof (sov_le (len v)). pose proof (len_nonneg v). destruct (0 <? len v); lia. Qed.
Lemma z_varint_le v : 0 <= z_varint v <= 11.
Proof. unfold z_varint. pose proof (sov_le (to_u64 v)). destruct (v =? 0); lia. Qed.
Lemma pow40 : 2 ^ 40 = 1099511627776. Proof. reflexivity. Qed.

Lemma marshal_ok {M} (size : M -> Z) mt m : size m = len (mt m) -> marshal size mt m = POk (mt m).
Proof. intros H. unfold marshal. destruct (Z.ltb_spec (size m) (len (mt m))); [lia|reflexivity]. Qed.
Lemma parse_reply {M A} (wf : M -> Prop) size mt unm (empty : M) (k : M -> cres A) m :
  (forall m, wf m -> size m < two62 -> size m = len (mt m)) ->
  (forall m, wf m -> size m < two62 -> unm empty (mt m) = POk m) ->
  wf m -> size m < two62 -> parse unm empty k (reply (marshal size mt) (Some m)) = k m.
Proof.
  intros H1 H2 W L. unfold reply. rewrite (marshal_ok size mt m (H1 m W L)). unfold parse. rewrite (H2 m W L). reflexivity.
Qed.

(** * Well-formedness of the messages built by the two sides *)
Lemma status_wf code msg : is_i32 code -> StatusResponse_wf (mkStatusResponse code msg []).
Proof. intros H. split; [exact H|constructor]. Qed.
Lemma status_size code msg : small msg -> StatusResponse_Size (mkStatusResponse code msg []) < two62.
Proof.
  unfold small. rewrite pow40. intros H. unfold StatusResponse_Size. cbn [StatusResponse_Code StatusResponse_Msg StatusResponse_unk].
  pose proof (z_varint_le code). pose proof (z_bytes_le msg). rewrite two62_val. unfold len at 1; cbn [length]. lia.
Qed.
Lemma parse_status {A} (k : StatusResponse -> cres A) code msg : is_i32 code -> small msg ->
  parse StatusResponse_Unmarshal StatusResponse_empty k (reply StatusResponse_Marshal (Some (mkStatusResponse code msg []))) = k (mkStatusResponse code msg []).
Proof.
  intros H1 H2. exact (parse_reply StatusResponse_wf _ _ _ _ k _ StatusResponse_size StatusResponse_rt (status_wf code msg H1) (status_size code msg H2)).
Qed.
Lemma exists_wf code msg b : is_i32 code -> ExistsResponse_wf (mkExistsResponse code msg b []).
Proof. intros H. split; [exact H|constructor]. Qed.
Lemma exists_size code msg b : small msg -> ExistsResponse_Size (mkExistsResponse code msg b []) < two62.
Proof.
  unfold small. rewrite pow40. intros H. unfold ExistsResponse_Size. cbn [ExistsResponse_Code ExistsResponse_Msg ExistsResponse_Exists ExistsResponse_unk].
  pose proof (z_varint_le code). pose proof (z_bytes_le msg). rewrite two62_val. unfold len at 1; cbn [length]. destruct b; cbn [z_bool]; lia.
Qed.
Lemma parse_exists {A} (k : ExistsResponse -> cres A) code msg b : is_i32 code -> small msg ->
  parse ExistsResponse_Unmarshal ExistsResponse_empty k (reply ExistsResponse_Marshal (Some (mkExistsResponse code msg b []))) = k (mkExistsResponse code msg b []).
Proof.
  intros H1 H2. exact (parse_reply ExistsResponse_wf _ _ _ _ k _ ExistsResponse_size ExistsResponse_rt (exists_wf code msg b H1) (exists_size code msg b H2)).
Qed.
Definition meta_ok (o : option VMetaResp) : Prop := forall m, o = Some m -> is_u64 (VMetaResp_ExpiresAt m) /\ is_u32 (VMetaResp_Tag m) /\ VMetaResp_unk m = [].
Lemma meta_wf o : meta_ok o -> forall x, o = Some x -> VMetaResp_wf x.
Proof. intros H x E. destruct (H x E) as (A & B & C). split; [exact A|]. split; [exact B|]. rewrite C. constructor. Qed.
Lemma meta_size o : meta_ok o -> 0 <= z_msg VMetaResp_Size o <= 33.
Proof.
  intros H. destruct o as [m|]; cbn [z_msg]; [|lia]. destruct (H m eq_refl) as (_ & _ & C).
  unfold VMetaResp_Size. rewrite C. pose proof (z_varint_le (VMetaResp_ExpiresAt m)). pose proof (z_varint_le (VMetaResp_Tag m)).
  match goal with |- context [sov ?x] => pose proof (sov_le x) end. unfold len in *; cbn [length] in *. lia.
Qed.
Lemma metaResp_ok e : meta_ok (Some (metaResp e)).
Proof.
  intros m E. injection E as <-. unfold metaResp. cbn [VMetaResp_ExpiresAt VMetaResp_Tag VMetaResp_unk].
  split; [apply to_u64_range|]. split; [|reflexivity]. unfold is_u32. pose proof (b2z_range (e_tag e)). lia.
Qed.
Lemma ent_of_metaResp k e : wire_ent k e -> ent_of (e_val e) (metaResp e) = e.
Proof.
  intros (_ & _ & H). unfold ent_of, metaResp. cbn [VMetaResp_ExpiresAt VMetaResp_Tag]. rewrite to_u64_id by exact H.
  rewrite Z.mod_small by apply b2z_range. rewrite z2b_b2z. destruct e; reflexivity.
Qed.
Lemma get_wf code msg v m : is_i32 code -> meta_ok m -> GetResponse_wf (mkGetResponse code msg v m []).
Proof. intros H M. split; [exact H|]. split; [exact (meta_wf m M)|constructor]. Qed.
Lemma get_size code msg v m : small msg -> small v -> meta_ok m -> GetResponse_Size (mkGetResponse code msg v m []) < two62.
Proof.
  unfold small. rewrite pow40. intros H1 H2 H3. unfold GetResponse_Size. cbn [GetResponse_Code GetResponse_Msg GetResponse_Value GetResponse_Meta GetResponse_unk].
  pose proof (z_varint_le code). pose proof (z_bytes_le msg). pose proof (z_bytes_le v). pose proof (meta_size m H3). rewrite two62_val. unfold len at 1; cbn [length]. lia.
Qed.
Lemma parse_get {A} (k : GetResponse -> cres A) code msg v m : is_i32 code -> small msg -> small v -> meta_ok m ->
  parse GetResponse_Unmarshal GetResponse_empty k (reply GetResponse_Marshal (Some (mkGetResponse code msg v m []))) = k (mkGetResponse code msg v m []).
Proof.
  intros H1 H2 H3 H4. exact (parse_reply GetResponse_wf _ _ _ _ k _ GetResponse_size GetResponse_rt (get_wf code msg v m H1 H4) (get_size code msg v m H2 H3 H4)).
Qed.
(** entries of scan responses *)
Definition to_entry (p : bytes * ent) : Entry := mkEntry (fst p) (e_val (snd p)) (Some (metaResp (snd p))) [].
Definition wire_items (l : list (bytes * ent)) : Prop := Forall (fun p => wire_ent (fst p) (snd p)) l.
Lemma entry_wf p : Entry_wf (to_entry p).
Proof. split; [exact (meta_wf _ (metaResp_ok (snd p)))|constructor]. Qed.
Lemma entry_size p : wire_ent (fst p) (snd p) -> 0 <= Entry_Size (to_entry p) < 2 ^ 42.
Proof.
  intros (H1 & H2 & _). unfold small in *. rewrite pow40 in *. change (2^42) with 4398046511104. unfold Entry_Size, to_entry. cbn [Entry_Key Entry_Value Entry_Meta Entry_unk].
  pose proof (z_bytes_le (fst p)). pose proof (z_bytes_le (e_val (snd p))). pose proof (meta_size _ (metaResp_ok (snd p))). unfold len at 1 2; cbn [length]. lia.
Qed.
Lemma items_size l : wire_items l -> 0 <= z_rep Entry_Size (map to_entry l) <= 2 ^ 43 * Z.of_nat (length l).
Proof.
  induction 1 as [|p l Hp Hl IH]; [cbn; lia|]. cbn [map z_rep fold_right]. fold (z_rep Entry_Size (map to_entry l)).
  pose proof (entry_size p Hp). match goal with |- context [sov ?x] => pose proof (sov_le x) end.
  change (2^42) with 4398046511104 in *. change (2^43) with 8796093022208 in *. cbn [length]. lia.
Qed.
Lemma scan_wf code msg l : is_i32 code -> ScanResponse_wf (mkScanResponse code msg (map to_entry l) []).
Proof. intros H. split; [exact H|]. split; [|constructor]. cbn [ScanResponse_Entries]. apply Forall_map, Forall_forall. intros p _. apply entry_wf. Qed.
Lemma scan_size code msg l : small msg -> wire_items l -> (length l <= 1000)%nat -> ScanResponse_Size (mkScanResponse code msg (map to_entry l) []) < two62.
Proof.
  unfold small. rewrite pow40. intros H1 H2 H3. unfold ScanResponse_Size. cbn [ScanResponse_Code ScanResponse_Msg ScanResponse_Entries ScanResponse_unk].
  pose proof (z_varint_le code). pose proof (z_bytes_le msg). pose proof (items_size l H2). rewrite two62_val.
  change (2^43) with 8796093022208 in *. unfold len at 1; cbn [length]. lia.
Qed.
Lemma parse_scan {A} (k : ScanResponse -> cres A) code msg l : is_i32 code -> small msg -> wire_items l -> (length l <= 1000)%nat ->
  parse ScanResponse_Unmarshal ScanResponse_empty k (reply ScanResponse_Marshal (Some (mkScanResponse code msg (map to_entry l) []))) = k (mkScanResponse code msg (map to_entry l) []).
Proof.
  intros H1 H2 H3 H4. exact (parse_reply ScanResponse_wf _ _ _ _ k _ ScanResponse_size ScanResponse_rt (scan_wf code msg l H1) (scan_size code msg l H2 H3 H4)).
Qed.
Lemma scan_entries_map l : wire_items l -> scan_entries (map to_entry l) = Some l.
Proof.
  induction 1 as [|[k e] l Hp Hl IH]; [reflexivity|]. cbn [map scan_entries to_entry Entry_Meta Entry_Key Entry_Value fst snd]. rewrite IH.
  rewrite (ent_of_metaResp k e Hp). reflexivity.
Qed.

(** * Requests *)
Definition meta_req_ok (m : option vmeta) : Prop := forall x, m = Some x -> is_i64 (m_ttl x).
Lemma set_req k v m : small k -> small v -> meta_req_ok m ->
  exists p, SetRequest_Marshal (setReq2PB k v m) = POk p /\ SetRequest_Unmarshal SetRequest_empty p = POk (setReq2PB k v m).
Proof.
  intros Hk Hv Hm. unfold small in *. rewrite pow40 in *. set (q := setReq2PB k v m).
  assert (W : SetRequest_wf q).
  { split; [|constructor]. cbn [q setReq2PB SetRequest_Meta]. intros x E. destruct m as [m|]; [|discriminate].
    assert (x = mkVMetaReq (m_ttl m) (b2z (m_tag m)) []) as -> by congruence. specialize (Hm m eq_refl).
    split; [exact Hm|]. split; [|constructor]. unfold is_u32. cbn [VMetaReq_Tag]. pose proof (b2z_range (m_tag m)). lia. }
  assert (L : SetRequest_Size q < two62).
  { unfold SetRequest_Size, q, setReq2PB. cbn [SetRequest_Key SetRequest_Value SetRequest_Meta SetRequest_unk].
    pose proof (z_bytes_le k). pose proof (z_bytes_le v). rewrite two62_val. unfold len at 1; cbn [length].
    destruct m as [m|]; cbn [z_msg]; [|lia]. unfold VMetaReq_Size. cbn [VMetaReq_TTL VMetaReq_Tag VMetaReq_unk].
    pose proof (z_varint_le (m_ttl m)). pose proof (z_varint_le (b2z (m_tag m))).
    match goal with |- context [sov ?x] => pose proof (sov_le x) end. unfold len at 1; cbn [length]. lia. }
  exists (SetRequest_MarshalTo q). split; [apply marshal_ok, SetRequest_size; assumption|apply SetRequest_rt; assumption].
Qed.
Lemma meta_req k v m : metaFromSetRequest (setReq2PB k v m) = m.
Proof.
  unfold metaFromSetRequest, setReq2PB. cbn [SetRequest_Meta]. destruct m as [[t g]|]; [|reflexivity].
  cbn [VMetaReq_TTL VMetaReq_Tag m_ttl m_tag]. rewrite Z.mod_small by apply b2z_range. rewrite z2b_b2z. reflexivity.
Qed.
Lemma key_req_size k : small k -> KeyRequest_Size (mkKeyRequest k []) < two62.
Proof. unfold small. rewrite pow40. intros H. unfold KeyRequest_Size. cbn [KeyRequest_Key KeyRequest_unk]. pose proof (z_bytes_le k). rewrite two62_val. unfold len at 1; cbn [length]. lia. Qed.
Lemma key_req k : small k -> KeyRequest_Marshal (mkKeyRequest k []) = POk (KeyRequest_MarshalTo (mkKeyRequest k [])) /\
  KeyRequest_Unmarshal KeyRequest_empty (KeyRequest_MarshalTo (mkKeyRequest k [])) = POk (mkKeyRequest k []).
Proof.
  intros H. pose proof (key_req_size k H). assert (W : KeyRequest_wf (mkKeyRequest k [])) by constructor.
  split; [apply marshal_ok, KeyRequest_size; assumption|apply KeyRequest_rt; assumption].
Qed.
(** decoding into a reused request: a non-empty key replaces the old one *)
Lemma key_req_stale m k : small k -> k <> [] ->
  KeyRequest_Unmarshal m (KeyRequest_MarshalTo (mkKeyRequest k [])) = POk (mkKeyRequest k (KeyRequest_unk m)).
Proof.
  intros H Hk. pose proof (key_req_size k H) as L. assert (W : KeyRequest_wf (mkKeyRequest k [])) by constructor.
  rewrite (KeyRequest_size _ W L) in L. unfold KeyRequest_MarshalTo in *. cbn [KeyRequest_Key KeyRequest_unk] in *. rewrite app_nil_r in *.
  exact (unm_bytes KeyRequest_fields KeyRequest_add m 1 _ k ltac:(lia) eq_refl L (fun E => match Hk E with end)).
Qed.
(** ... while an empty key keeps it *)
Lemma key_req_empty m : KeyRequest_Unmarshal m (KeyRequest_MarshalTo (mkKeyRequest [] [])) = POk m.
Proof. reflexivity. Qed.
Lemma scan_req o limit : small (so_prefix o) -> small (so_offset o) -> is_i32 limit ->
  ScanRequest_Marshal (scanReq o limit) = POk (ScanRequest_MarshalTo (scanReq o limit)) /\
  ScanRequest_Unmarshal ScanRequest_empty (ScanRequest_MarshalTo (scanReq o limit)) = POk (scanReq o limit).
Proof.
  intros H1 H2 H3. unfold small in *. rewrite pow40 in *. set (q := scanReq o limit).
  assert (W : ScanRequest_wf q).
  { split; [|split; [|constructor]].
    - intros x E. assert (x = mkScanOpt (so_rev o) (so_prefix o) (so_offset o) []) as -> by (cbn [q scanReq ScanRequest_Option] in E; congruence). constructor.
    - cbn [q scanReq ScanRequest_Limit]. rewrite to_i32_id by exact H3. exact H3. }
  assert (L : ScanRequest_Size q < two62).
  { unfold ScanRequest_Size, q, scanReq. cbn [ScanRequest_Option ScanRequest_Limit ScanRequest_unk z_msg].
    pose proof (z_varint_le (to_i32 limit)). match goal with |- context [sov ?x] => pose proof (sov_le x) end.
    unfold ScanOpt_Size in *. cbn [ScanOpt_Reverse ScanOpt_Prefix ScanOpt_Offset ScanOpt_unk] in *.
    pose proof (z_bytes_le (so_prefix o)). pose proof (z_bytes_le (so_offset o)). rewrite two62_val. unfold len in *; cbn [length] in *.
    destruct (so_rev o); cbn [z_bool] in *; lia. }
  split; [apply marshal_ok, ScanRequest_size; assumption|apply ScanRequest_rt; assumption].
Qed.

(** * The scan callback against plain collection *)
Lemma scan_cb_collect limit l : 0 < limit -> forall acc t, Z.of_nat (length acc) < limit ->
  exists t' r, scan_loop l (collect (Some (Z.to_nat limit))) acc t = (t', Ok r) /\
    scan_loop l (scan_cb limit) (map to_entry acc) t = (t', Ok (map to_entry r)) /\
    r = acc ++ firstn (Z.to_nat limit - length acc) l.
Proof.
  intros Hl. induction l as [|[k e] l IH]; intros acc t Ha; cbn [scan_loop].
  - exists t, acc. split; [reflexivity|]. split; [reflexivity|]. rewrite firstn_nil, app_nil_r. reflexivity.
  - unfold bind, collect at 1, scan_cb at 1, ret. cbn [fst snd].
    rewrite app_length, map_length. cbn [length].
    change (mkEntry k (e_val e) (Some (metaResp e)) []) with (to_entry (k, e)).
    assert (E : map to_entry acc ++ [to_entry (k, e)] = map to_entry (acc ++ [(k, e)])) by (rewrite map_app; reflexivity).
    rewrite E.
    destruct (Nat.ltb_spec (length acc + 1) (Z.to_nat limit)) as [L|L]; destruct (Z.leb_spec limit (Z.of_nat (length acc + 1))) as [L'|L']; try lia; cbn [negb].
    + destruct (IH (acc ++ [(k, e)]) (add_read k t)) as (t' & r & A & B & C); [rewrite app_length; cbn [length]; lia|].
      exists t', r. split; [exact A|]. split; [exact B|]. rewrite C, <- app_assoc, app_length. cbn [length app].
      replace (Z.to_nat limit - length acc)%nat with (S (Z.to_nat limit - (length acc + 1))) by lia. reflexivity.
    + exists (add_read k t), (acc ++ [(k, e)]). split; [reflexivity|]. split; [reflexivity|].
      replace (Z.to_nat limit - length acc)%nat with 1%nat by lia. reflexivity.
Qed.

(** * Transactions and store contents *)
Definition wire_pend (m : smap (option ent)) : Prop := forall k e, get m k = Some (Some e) -> wire_ent k e.
Definition wire_txn (t : txn) : Prop := wire_store (t_snap t) /\ wire_pend (t_pend t).
Lemma wire_view t : wire_txn t -> wire_store (view t).
Proof.
  intros [A B] k e H. rewrite get_view in H. destruct (get (t_pend t) k) as [[x|]|] eqn:E; [| discriminate |].
  - destruct (live (t_now t) x); [|discriminate]. injection H as <-. exact (B k x E).
  - destruct (get (t_snap t) k) as [x|] eqn:E'; [|discriminate]. destruct (live (t_now t) x); [|discriminate]. injection H as <-. exact (A k x E').
Qed.
Lemma wire_entries m : wire_store m -> wire_items (entries m).
Proof. intros H. apply Forall_forall. intros [k e] I. apply H, get_in, I. Qed.
Lemma Forall_sub {A} (P : A -> Prop) l l' : (forall x, In x l' -> In x l) -> Forall P l -> Forall P l'.
Proof. rewrite !Forall_forall. auto. Qed.
Lemma in_takeWhile {A} (f : A -> bool) l x : In x (takeWhile f l) -> In x l.
Proof. induction l as [|a l IH]; [auto|]. cbn [takeWhile]. destruct (f a); [|intros []]. intros [->|H]; [left; reflexivity|right; auto]. Qed.
Lemma in_dropWhile {A} (f : A -> bool) l x : In x (dropWhile f l) -> In x l.
Proof. induction l as [|a l IH]; [auto|]. cbn [dropWhile]. destruct (f a); [right; auto|auto]. Qed.
Lemma scan_items_in c m o x : In x (scan_items c m o) -> In x (entries m).
Proof.
  unfold scan_items. intros H. apply in_takeWhile in H. destruct (so_rev o).
  - destruct (seek_key c o); [apply in_rev, H|]. apply in_dropWhile in H. apply in_rev, H.
  - apply in_dropWhile in H. exact H.
Qed.
Lemma in_firstn {A} n (l : list A) x : In x (firstn n l) -> In x l.
Proof. intros H. rewrite <- (firstn_skipn n l). apply in_or_app. left. exact H. Qed.

(** the scan of a transaction: transaction afterwards and items, both ways *)
Lemma tscan_both t o limit : t_open t = true -> 0 < limit <= 1000 -> wire_txn t ->
  exists t', let items := firstn (Z.to_nat limit) (scan_items (t_clamp t) (view t) o) in
    tscan o (collect (Some (Z.to_nat limit))) [] t = (t', Ok items) /\
    tscan o (scan_cb limit) [] t = (t', Ok (map to_entry items)) /\
    wire_items items /\ (length items <= 1000)%nat.
Proof.
  intros Ho Hl Hw. unfold tscan. rewrite Ho. cbn [negb].
  destruct (scan_cb_collect limit (scan_items (t_clamp t) (view t) o) ltac:(lia) [] t ltac:(cbn; lia)) as (t' & r & A & B & C).
  cbn [length app map] in *. rewrite Nat.sub_0_r in C. subst r. exists t'. cbv zeta.
  split; [exact A|]. split; [exact B|]. split.
  - eapply Forall_sub; [|exact (wire_entries _ (wire_view t Hw))]. intros x I. apply in_firstn in I. exact (scan_items_in _ _ _ _ I).
  - rewrite firstn_length. lia.
Qed.
