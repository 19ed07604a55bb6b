(** C32-C34: the wire messages. *)
From Verif Require Import Bytes Compact Pb PbProofs PbLoop PbMsgs.

(** * Specification vocabulary *)
(** Marshal succeeds, Size is the number of bytes written, and unmarshalling them into a fresh
    message gives the message back. [wf] bounds the integers by their Go types and requires the
    retained unrecognised bytes to be well-formed unknown fields. *)
Definition round_trips {M} (wf : M -> Prop) (size : M -> Z) (mar : M -> pres bytes)
  (unm : M -> bytes -> pres M) (empty : M) : Prop :=
  forall m, wf m -> size m < 2 ^ 62 -> exists d, mar m = POk d /\ size m = len d /\ unm empty d = POk m.
(** every payload is answered: a message or an error of the generated code (never exhausted fuel,
    i.e. the loops terminate) *)
Definition terminates {M} (unm : M -> bytes -> pres M) : Prop :=
  forall m d, len d < 2 ^ 62 -> unm m d <> PErr PFuel.
(** no panic on payloads satisfying P *)
Definition never_panics_on {M} (P : bytes -> Prop) (unm : M -> bytes -> pres M) : Prop :=
  forall m d, len d < 2 ^ 62 -> P d -> unm m d <> PPanic.
Definition panics_somewhere {M} (unm : M -> bytes -> pres M) (empty : M) : Prop :=
  exists d, unm empty d = PPanic.
(** inserting one well-formed field with an unknown number at a field boundary changes no known field
    ([known] forgets the retained bytes only) and keeps the bytes *)
Definition skips_unknown {M} (nums : list Z) (known : M -> M) (unk : M -> bytes) (unm : M -> bytes -> pres M) : Prop :=
  forall m a b m1 m2 num u, wire_field num u -> ~ In num nums -> len (a ++ u ++ b) < 2 ^ 62 ->
    unm m a = POk m1 -> unm m (a ++ b) = POk m2 ->
    (exists m2', unm m (a ++ u ++ b) = POk m2' /\ known m2' = known m2) /\
    (exists m1', unm m (a ++ u) = POk m1' /\ unk m1' = unk m1 ++ u /\ known m1' = known m1).

Lemma two62_eq : 2 ^ 62 = two62. Proof. rewrite two62_val. reflexivity. Qed.

Lemma rt_intro {M} (wf : M -> Prop) size mt unm empty :
  (forall m, wf m -> size m < two62 -> size m = len (mt m)) ->
  (forall m, wf m -> size m < two62 -> unm empty (mt m) = POk m) ->
  round_trips wf size (marshal size mt) unm empty.
Proof.
  intros H1 H2 m W L. rewrite two62_eq in L. exists (mt m). specialize (H1 m W L). specialize (H2 m W L).
  split; [|split; assumption]. unfold marshal. destruct (Z.ltb_spec (size m) (len (mt m))); [lia|reflexivity].
Qed.
Lemma skips_intro {M} (known : M -> M) unk tbl add :
  Forall (f_good known) tbl -> (forall m u, known (add m u) = known m) -> (forall m u, unk (add m u) = unk m ++ u) ->
  skips_unknown (map f_num tbl) known unk (unmarshal tbl add).
Proof.
  intros G K U m a b m1 m2 num u Hu Hn Hl Ha Hab. rewrite two62_eq in Hl.
  assert (Hn' : forall f, In f tbl -> f_num f <> num).
  { intros f Hf E. apply Hn. rewrite <- E. apply in_map, Hf. }
  split; [eapply unm_insert; eassumption|].
  exists (add m1 u). split; [|split; [apply U|apply K]].
  rewrite !len_app in Hl. pose proof (len_nonneg a). pose proof (len_nonneg b). pose proof (len_nonneg u).
  apply (unm_app known tbl add G m a m1); [rewrite len_app; lia|exact Ha|].
  apply (unm_unknown tbl add m1 num u Hu Hn'). lia.
Qed.

(** * C32 *)
Theorem C32_wire_round_trip :
  round_trips SetRequest_wf SetRequest_Size SetRequest_Marshal SetRequest_Unmarshal SetRequest_empty /\
  round_trips KeyRequest_wf KeyRequest_Size KeyRequest_Marshal KeyRequest_Unmarshal KeyRequest_empty /\
  round_trips StatusResponse_wf StatusResponse_Size StatusResponse_Marshal StatusResponse_Unmarshal StatusResponse_empty /\
  round_trips GetResponse_wf GetResponse_Size GetResponse_Marshal GetResponse_Unmarshal GetResponse_empty /\
  round_trips ExistsResponse_wf ExistsResponse_Size ExistsResponse_Marshal ExistsResponse_Unmarshal ExistsResponse_empty /\
  round_trips VMetaReq_wf VMetaReq_Size VMetaReq_Marshal VMetaReq_Unmarshal VMetaReq_empty /\
  round_trips VMetaResp_wf VMetaResp_Size VMetaResp_Marshal VMetaResp_Unmarshal VMetaResp_empty /\
  round_trips ScanOpt_wf ScanOpt_Size ScanOpt_Marshal ScanOpt_Unmarshal ScanOpt_empty /\
  round_trips ScanRequest_wf ScanRequest_Size ScanRequest_Marshal ScanRequest_Unmarshal ScanRequest_empty /\
  round_trips Entry_wf Entry_Size Entry_Marshal Entry_Unmarshal Entry_empty /\
  round_trips ScanResponse_wf ScanResponse_Size ScanResponse_Marshal ScanResponse_Unmarshal ScanResponse_empty.
Proof.
  split; [exact (rt_intro _ _ _ _ _ SetRequest_size SetRequest_rt)|].
  split; [exact (rt_intro _ _ _ _ _ KeyRequest_size KeyRequest_rt)|].
  split; [exact (rt_intro _ _ _ _ _ StatusResponse_size StatusResponse_rt)|].
  split; [exact (rt_intro _ _ _ _ _ GetResponse_size GetResponse_rt)|].
  split; [exact (rt_intro _ _ _ _ _ ExistsResponse_size ExistsResponse_rt)|].
  split; [exact (rt_intro _ _ _ _ _ VMetaReq_size VMetaReq_rt)|].
  split; [exact (rt_intro _ _ _ _ _ VMetaResp_size VMetaResp_rt)|].
  split; [exact (rt_intro _ _ _ _ _ ScanOpt_size ScanOpt_rt)|].
  split; [exact (rt_intro _ _ _ _ _ ScanRequest_size ScanRequest_rt)|].
  split; [exact (rt_intro _ _ _ _ _ Entry_size Entry_rt)|].
  exact (rt_intro _ _ _ _ _ ScanResponse_size ScanResponse_rt).
Qed.
(** a message using every kind of field, including a retained unknown field (number 9, "ab") *)
Example C32_nonvacuous :
  let e := mkEntry (str "k") (str "v") (Some (mkVMetaResp 7 255 [])) [] in
  let m := mkScanResponse (-1) (str "msg") [e; Entry_empty] (tag 9 2 ++ encodeVarint 2 ++ str "ab") in
  ScanResponse_wf m /\ ScanResponse_Size m < 2 ^ 62 /\ ScanResponse_Unmarshal ScanResponse_empty (ScanResponse_MarshalTo m) = POk m.
Proof.
  cbv zeta. split; [|split; [vm_compute; reflexivity|vm_compute; reflexivity]].
  unfold ScanResponse_wf. cbn [ScanResponse_Code ScanResponse_Entries ScanResponse_unk].
  split; [unfold is_i32; lia|]. split.
  - constructor; [|constructor; [|constructor]]; unfold Entry_wf; cbn [Entry_Meta Entry_unk Entry_empty].
    + split; [|constructor]. intros x E. injection E as <-.
      unfold VMetaResp_wf, is_u64, is_u32. rewrite two64_val. cbn [VMetaResp_ExpiresAt VMetaResp_Tag VMetaResp_unk].
      split; [lia|]. split; [lia|]. constructor.
    + split; [discriminate|constructor].
  - rewrite <- app_nil_r. apply (unk_cons _ 9).
    + apply (wf_bytes 9 (str "ab")); [unfold fieldnum; lia|rewrite two62_val; vm_compute; reflexivity].
    + cbn. lia.
    + constructor.
Qed.

(** * C33 *)
Theorem C33_decoders_terminate :
  terminates SetRequest_Unmarshal /\ terminates KeyRequest_Unmarshal /\ terminates StatusResponse_Unmarshal /\
  terminates GetResponse_Unmarshal /\ terminates ExistsResponse_Unmarshal /\ terminates VMetaReq_Unmarshal /\
  terminates VMetaResp_Unmarshal /\ terminates ScanOpt_Unmarshal /\ terminates ScanRequest_Unmarshal /\
  terminates Entry_Unmarshal /\ terminates ScanResponse_Unmarshal.
Proof.
  unfold terminates. rewrite two62_eq.
  exact (conj SetRequest_quiet (conj KeyRequest_quiet (conj StatusResponse_quiet (conj GetResponse_quiet (conj ExistsResponse_quiet
    (conj VMetaReq_quiet (conj VMetaResp_quiet (conj ScanOpt_quiet (conj ScanRequest_quiet (conj Entry_quiet ScanResponse_quiet)))))))))).
Qed.

(** no run of eight or more bytes >= 0x80 (so no varint of nine or more bytes) *)
Theorem C33_no_panic_partial :
  never_panics_on short_varints SetRequest_Unmarshal /\ never_panics_on short_varints KeyRequest_Unmarshal /\
  never_panics_on short_varints StatusResponse_Unmarshal /\ never_panics_on short_varints GetResponse_Unmarshal /\
  never_panics_on short_varints ExistsResponse_Unmarshal /\ never_panics_on short_varints VMetaReq_Unmarshal /\
  never_panics_on short_varints VMetaResp_Unmarshal /\ never_panics_on short_varints ScanOpt_Unmarshal /\
  never_panics_on short_varints ScanRequest_Unmarshal /\ never_panics_on short_varints Entry_Unmarshal /\
  never_panics_on short_varints ScanResponse_Unmarshal.
Proof.
  unfold never_panics_on. rewrite two62_eq.
  exact (conj SetRequest_safe (conj KeyRequest_safe (conj StatusResponse_safe (conj GetResponse_safe (conj ExistsResponse_safe
    (conj VMetaReq_safe (conj VMetaResp_safe (conj ScanOpt_safe (conj ScanRequest_safe (conj Entry_safe ScanResponse_safe)))))))))).
Qed.
Example C33_partial_nonvacuous : short_varints (str "hello") /\ short_varints (List.repeat (z2b 255) 7 ++ [z2b 1]).
Proof.
  split; [apply short_few; cbn; lia|].
  intros a p b E F. destruct (Nat.ltb_spec (length p) 8) as [|L]; [assumption|]. exfalso.
  assert (Lp : length p = 8%nat /\ a = [] /\ b = []).
  { apply (f_equal (@length _)) in E. rewrite !app_length in E. cbn [length List.repeat] in E.
    destruct a; cbn [length] in E; [|lia]. destruct b; cbn [length] in E; [|lia]. split; [lia|auto]. }
  destruct Lp as (_ & -> & ->). cbn [app] in E. rewrite app_nil_r in E. subst p.
  rewrite Forall_forall in F. specialize (F (z2b 1)). cbn [app List.repeat] in F.
  rewrite b2z_z2b in F. assert (128 <= 1 mod 256) by (apply F; cbn; tauto). cbn in H. lia.
Qed.

(** the ten bytes 0a ff^8 7f crash every request with a bytes field 1; the twelve bytes
    78 00 7a f5 ff^7 7f crash every decoder (a huge length in an unknown field) *)
Definition crash1 : bytes := z2b 10 :: List.repeat (z2b 255) 8 ++ [z2b 127].
Definition crash2 : bytes := [z2b 120; z2b 0; z2b 122; z2b 245] ++ List.repeat (z2b 255) 7 ++ [z2b 127].
Theorem C33_never_panics_refuted :
  SetRequest_Unmarshal SetRequest_empty crash1 = PPanic /\ KeyRequest_Unmarshal KeyRequest_empty crash1 = PPanic /\
  ScanRequest_Unmarshal ScanRequest_empty crash1 = PPanic /\
  panics_somewhere SetRequest_Unmarshal SetRequest_empty /\ panics_somewhere KeyRequest_Unmarshal KeyRequest_empty /\
  panics_somewhere StatusResponse_Unmarshal StatusResponse_empty /\ panics_somewhere GetResponse_Unmarshal GetResponse_empty /\
  panics_somewhere ExistsResponse_Unmarshal ExistsResponse_empty /\ panics_somewhere VMetaReq_Unmarshal VMetaReq_empty /\
  panics_somewhere VMetaResp_Unmarshal VMetaResp_empty /\ panics_somewhere ScanOpt_Unmarshal ScanOpt_empty /\
  panics_somewhere ScanRequest_Unmarshal ScanRequest_empty /\ panics_somewhere Entry_Unmarshal Entry_empty /\
  panics_somewhere ScanResponse_Unmarshal ScanResponse_empty.
Proof.
  do 3 (split; [vm_compute; reflexivity|]).
  do 10 (split; [exists crash2; vm_compute; reflexivity|]). exists crash2; vm_compute; reflexivity.
Qed.

(** * C34 *)
Theorem C34_unknown_fields_skipped :
  skips_unknown [1; 2; 3] SetRequest_known SetRequest_unk SetRequest_Unmarshal /\
  skips_unknown [1] KeyRequest_known KeyRequest_unk KeyRequest_Unmarshal /\
  skips_unknown [1; 2] StatusResponse_known StatusResponse_unk StatusResponse_Unmarshal /\
  skips_unknown [1; 2; 3; 4] GetResponse_known GetResponse_unk GetResponse_Unmarshal /\
  skips_unknown [1; 2; 3] ExistsResponse_known ExistsResponse_unk ExistsResponse_Unmarshal /\
  skips_unknown [1; 2] VMetaReq_known VMetaReq_unk VMetaReq_Unmarshal /\
  skips_unknown [1; 2] VMetaResp_known VMetaResp_unk VMetaResp_Unmarshal /\
  skips_unknown [1; 2; 3] ScanOpt_known ScanOpt_unk ScanOpt_Unmarshal /\
  skips_unknown [1; 2] ScanRequest_known ScanRequest_unk ScanRequest_Unmarshal /\
  skips_unknown [1; 2; 3] Entry_known Entry_unk Entry_Unmarshal /\
  skips_unknown [1; 2; 3] ScanResponse_known ScanResponse_unk ScanResponse_Unmarshal.
Proof.
  split; [exact (skips_intro _ SetRequest_unk _ _ SetRequest_good SetRequest_kadd (fun _ _ => eq_refl))|].
  split; [exact (skips_intro _ KeyRequest_unk _ _ KeyRequest_good KeyRequest_kadd (fun _ _ => eq_refl))|].
  split; [exact (skips_intro _ StatusResponse_unk _ _ StatusResponse_good StatusResponse_kadd (fun _ _ => eq_refl))|].
  split; [exact (skips_intro _ GetResponse_unk _ _ GetResponse_good GetResponse_kadd (fun _ _ => eq_refl))|].
  split; [exact (skips_intro _ ExistsResponse_unk _ _ ExistsResponse_good ExistsResponse_kadd (fun _ _ => eq_refl))|].
  split; [exact (skips_intro _ VMetaReq_unk _ _ VMetaReq_good VMetaReq_kadd (fun _ _ => eq_refl))|].
  split; [exact (skips_intro _ VMetaResp_unk _ _ VMetaResp_good VMetaResp_kadd (fun _ _ => eq_refl))|].
  split; [exact (skips_intro _ ScanOpt_unk _ _ ScanOpt_good ScanOpt_kadd (fun _ _ => eq_refl))|].
  split; [exact (skips_intro _ ScanRequest_unk _ _ ScanRequest_good ScanRequest_kadd (fun _ _ => eq_refl))|].
  split; [exact (skips_intro _ Entry_unk _ _ Entry_good Entry_kadd (fun _ _ => eq_refl))|].
  exact (skips_intro _ ScanResponse_unk _ _ ScanResponse_good ScanResponse_kadd (fun _ _ => eq_refl)).
Qed.
(** an unknown group (field 9, containing a varint field) between key and value *)
Example C34_nonvacuous :
  let u := tag 9 3 ++ (tag 4 0 ++ encodeVarint 300) ++ tag 9 4 in
  wire_field 9 u /\ ~ In 9 [1; 2; 3] /\
  SetRequest_Unmarshal SetRequest_empty (w_bytes 10 (str "k") ++ u ++ w_bytes 18 (str "v")) = POk (mkSetRequest (str "k") (str "v") None u).
Proof.
  cbv zeta. split; [|split; [cbn; lia|vm_compute; reflexivity]].
  apply (wf_group 9); [unfold fieldnum; lia|].
  rewrite <- (app_nil_r (tag 4 0 ++ encodeVarint 300)). apply (wfs_cons 4).
  - apply wf_varint; [unfold fieldnum; lia|unfold is_u64; rewrite two64_val; lia].
  - constructor.
Qed.

Print Assumptions C32_wire_round_trip.
Print Assumptions C33_decoders_terminate.
Print Assumptions C33_no_panic_partial.
Print Assumptions C33_never_panics_refuted.
Print Assumptions C34_unknown_fields_skipped.
