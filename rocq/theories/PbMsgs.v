(** Per-message instances: sizes, round trips, termination, safety. *)
From Verif Require Import Bytes Compact Pb PbProofs PbLoop.

(** a sequence of well-formed fields, none of whose numbers is in [nums] *)
Inductive unknown (nums : list Z) : bytes -> Prop :=
| unk_nil : unknown nums []
| unk_cons n x y : wire_field n x -> ~ In n nums -> unknown nums y -> unknown nums (x ++ y).

Lemma conv_i64 z : is_i64 z -> to_i64 (to_u64 z) = z. Proof. apply to_i64_i. Qed.
Lemma conv_u64 z : is_u64 z -> to_u64 (to_u64 z) = z. Proof. apply to_u64_u. Qed.
Lemma conv_i32 z : is_i32 z -> to_i32 (to_u64 z) = z. Proof. apply to_i32_u64. Qed.
Lemma conv_u32 z : is_u32 z -> to_u32 (to_u64 z) = z. Proof. apply to_u32_u64. Qed.

Lemma sov_loop_pos f x : 0 <= sov_loop f x.
Proof. revert x. induction f as [|f IH]; intros x; cbn [sov_loop]; [lia|]. destruct (_ =? 0); [lia|]. specialize (IH (Z.shiftr x 7)). lia. Qed.
Lemma sov_pos x : 0 <= sov x. Proof. apply sov_loop_pos. Qed.
Lemma z_bytes_pos v : 0 <= z_bytes v /\ len v <= z_bytes v.
Proof. unfold z_bytes. pose proof (sov_pos (len v)). pose proof (len_nonneg v). destruct (Z.ltb_spec 0 (len v)); lia. Qed.
Lemma z_varint_pos v : 0 <= z_varint v.
Proof. unfold z_varint. pose proof (sov_pos (to_u64 v)). destruct (_ =? _); lia. Qed.
Lemma z_bool_pos v : 0 <= z_bool v.
Proof. destruct v; cbn; lia. Qed.
Lemma z_msg_pos {S} (size : S -> Z) : (forall s, 0 <= size s) -> forall o, 0 <= z_msg size o /\ forall s, o = Some s -> size s <= z_msg size o.
Proof. intros H [s|]; cbn [z_msg]; [|split; [lia|discriminate]]. pose proof (sov_pos (size s)). specialize (H s). split; [lia|]. intros s' E. injection E as ->. lia. Qed.
Lemma z_rep_pos {S} (size : S -> Z) : (forall s, 0 <= size s) -> forall l, 0 <= z_rep size l /\ forall s, In s l -> size s <= z_rep size l.
Proof.
  intros H l. induction l as [|a l [IH1 IH2]]; cbn [z_rep fold_right]; [split; [lia|intros s []]|]. fold (z_rep size l).
  pose proof (sov_pos (size a)). pose proof (H a). split; [lia|]. intros s [->|Hs]; [lia|]. specialize (IH2 s Hs). lia.
Qed.

Lemma w_bytes_len t v : len v < two62 -> len (w_bytes t v) = z_bytes v.
Proof.
  intros H. unfold w_bytes, z_bytes. destruct v as [|c v]; [reflexivity|].
  destruct (Z.ltb_spec 0 (len (c :: v))); [|rewrite len_cons in *; pose proof (len_nonneg v); lia].
  rewrite len_cons, len_app, <- sov_enc by (apply is_u64_len; exact H). lia.
Qed.
Lemma w_varint_len t v : len (w_varint t v) = z_varint v.
Proof.
  unfold w_varint, z_varint. destruct (v =? 0); [reflexivity|]. rewrite len_cons, <- sov_enc by apply to_u64_range. reflexivity.
Qed.
Lemma w_bool_len t v : len (w_bool t v) = z_bool v.
Proof. destruct v; reflexivity. Qed.
Lemma u64_62 x : 0 <= x < two62 -> is_u64 x.
Proof. unfold is_u64. rewrite two62_val, two64_val. lia. Qed.
Lemma w_msg_len {S} t (size : S -> Z) mt (wf : S -> Prop) :
  (forall s, wf s -> size s < two62 -> size s = len (mt s)) -> (forall s, 0 <= size s) -> forall o,
  (forall x, o = Some x -> wf x) -> z_msg size o < two62 -> len (w_msg t size mt o) = z_msg size o.
Proof.
  intros H Hp [s|] W L; [|reflexivity]. cbn [w_msg z_msg] in *. pose proof (sov_pos (size s)). pose proof (Hp s).
  rewrite len_cons, len_app, <- sov_enc by (apply u64_62; lia). rewrite <- H by (auto || lia). lia.
Qed.
Lemma w_rep_len {S} t (size : S -> Z) mt (wf : S -> Prop) :
  (forall s, wf s -> size s < two62 -> size s = len (mt s)) -> (forall s, 0 <= size s) -> forall l,
  Forall wf l -> z_rep size l < two62 -> len (w_rep t size mt l) = z_rep size l.
Proof.
  intros H Hp l. induction 1 as [|s l Hs Hl IH]; intros L; [reflexivity|].
  cbn [w_rep flat_map z_rep fold_right] in *. fold (z_rep size l) in *. fold (w_rep t size mt l).
  pose proof (sov_pos (size s)). pose proof (Hp s). pose proof (proj1 (z_rep_pos size Hp l)).
  rewrite len_app, IH by lia. rewrite len_cons, len_app, <- sov_enc by (apply u64_62; lia). rewrite <- H by (auto || lia). lia.
Qed.

Section More.
  Context {M K : Type} (known : M -> K) (tbl : list (field M)) (add : M -> bytes -> M).
  Hypothesis Good : Forall (f_good known) tbl.
  Lemma unm_unknowns m m' u : (forall m a b, add (add m a) b = add m (a ++ b)) -> (forall m, add m [] = m) ->
    m' = add m u -> unknown (map f_num tbl) u -> len u < two62 -> unmarshal tbl add m u = POk m'.
  Proof.
    intros Hadd Hnil -> Hu. revert m. induction Hu as [|n x y Hx Hn Hy IH]; intros m Hl; [rewrite Hnil; reflexivity|].
    rewrite len_app in Hl. pose proof (len_nonneg x). pose proof (len_nonneg y).
    apply (unm_app known tbl add Good m x (add m x)); [rewrite len_app; lia| |].
    - apply (unm_unknown tbl add m n x Hx); [|lia]. intros f Hf E. apply Hn. rewrite <- E. apply in_map, Hf.
    - rewrite <- Hadd. apply IH. lia.
  Qed.
  Lemma unm_reps {S} num addr (empty : S) u size mt (wf : S -> Prop) :
    (forall s, wf s -> size s < two62 -> size s = len (mt s)) -> (forall s, 0 <= size s) ->
    (forall s, wf s -> size s < two62 -> u empty (mt s) = POk s) ->
    0 < num < 16 -> find (fun f => f_num f =? num) tbl = Some (f_rep num addr empty u) ->
    forall l m, Forall wf l -> z_rep size l < two62 ->
    unmarshal tbl add m (w_rep (num * 8 + 2) size mt l) = POk (fold_left addr l m).
  Proof.
    intros Hsz Hpos Hrt Hn F l. induction l as [|s l IH]; intros m W L; [reflexivity|].
    inversion W; subst.
    pose proof (w_rep_len (num*8+2) size mt wf Hsz Hpos (s :: l) W L) as LL.
    cbn [w_rep flat_map z_rep fold_right fold_left] in *. fold (z_rep size l) in *. fold (w_rep (num * 8 + 2) size mt l) in *.
    pose proof (sov_pos (size s)). pose proof (Hpos s). pose proof (proj1 (z_rep_pos size Hpos l)).
    assert (L0 : size s < two62) by lia.
    set (c := z2b (num * 8 + 2) :: encodeVarint (size s) ++ mt s) in *.
    apply (unm_app known tbl add Good m c (addr m s)); [unfold c in *; lia| |apply IH; [assumption|lia]].
    apply (unm_rep1 tbl add m num addr empty u size mt s s Hn F); [apply Hsz; assumption| |apply Hrt; assumption].
    fold c. rewrite len_app in LL. pose proof (len_nonneg (w_rep (num * 8 + 2) size mt l)). lia.
  Qed.
End More.

Ltac tbl_good :=
  repeat (apply Forall_cons || apply Forall_nil);
  first [apply f_bytes_good | apply f_varint_good | apply f_bool_good | apply f_msg_good | apply f_rep_good];
  lazymatch goal with |- u_quiet _ => idtac | |- u_safe _ => idtac | _ => intros [] []; lazy; intros; congruence end.
Ltac pose_len := repeat match goal with
  | _ : context [len ?x] |- _ => lazymatch goal with H : 0 <= len x |- _ => fail | _ => pose proof (len_nonneg x) end end.

(** ** VMetaReq *)
Definition VMetaReq_known (m : VMetaReq) : VMetaReq := mkVMetaReq (VMetaReq_TTL m) (VMetaReq_Tag m) [].
Definition VMetaReq_wf (m : VMetaReq) : Prop := is_i64 (VMetaReq_TTL m) /\ is_u32 (VMetaReq_Tag m) /\ unknown [1; 2] (VMetaReq_unk m).
Lemma VMetaReq_good : Forall (f_good VMetaReq_known) VMetaReq_fields.
Proof. tbl_good. Qed.
Lemma VMetaReq_kadd m u : VMetaReq_known (VMetaReq_add m u) = VMetaReq_known m.
Proof. reflexivity. Qed.
Lemma VMetaReq_quiet : u_quiet VMetaReq_Unmarshal.
Proof. exact (unm_quiet _ _ _ VMetaReq_good). Qed.
Lemma VMetaReq_safe : u_safe VMetaReq_Unmarshal.
Proof. exact (unm_safe _ _ _ VMetaReq_good). Qed.
Lemma VMetaReq_size_pos m : 0 <= VMetaReq_Size m.
Proof.
  unfold VMetaReq_Size.
  pose proof (z_varint_pos (VMetaReq_TTL m)).
  pose proof (z_varint_pos (VMetaReq_Tag m)).
  pose proof (len_nonneg (VMetaReq_unk m)). lia.
Qed.
Lemma VMetaReq_size m : VMetaReq_wf m -> VMetaReq_Size m < two62 -> VMetaReq_Size m = len (VMetaReq_MarshalTo m).
Proof.
  intros W L. unfold VMetaReq_wf in W. decompose [and] W. unfold VMetaReq_Size, VMetaReq_MarshalTo in *. rewrite !len_app.
  pose proof (z_varint_pos (VMetaReq_TTL m)).
  pose proof (z_varint_pos (VMetaReq_Tag m)).
  pose proof (len_nonneg (VMetaReq_unk m)).
  rewrite (w_varint_len 8 (VMetaReq_TTL m)).
  rewrite (w_varint_len 16 (VMetaReq_Tag m)).
  lia.
Qed.
Lemma VMetaReq_rt m : VMetaReq_wf m -> VMetaReq_Size m < two62 -> VMetaReq_Unmarshal VMetaReq_empty (VMetaReq_MarshalTo m) = POk m.
Proof.
  intros W LS. pose proof (VMetaReq_size m W LS) as SZ. pose proof LS as L. rewrite SZ in L. unfold VMetaReq_Size in LS. unfold VMetaReq_wf in W. decompose [and] W. clear SZ.
  pose proof (z_varint_pos (VMetaReq_TTL m)).
  pose proof (z_varint_pos (VMetaReq_Tag m)).
  pose proof (len_nonneg (VMetaReq_unk m)).
  unfold VMetaReq_MarshalTo, VMetaReq_Unmarshal in *. destruct m as [v0 v1 u].
  cbn [VMetaReq_TTL VMetaReq_Tag VMetaReq_unk] in *.
  refine (unm_app VMetaReq_known VMetaReq_fields VMetaReq_add VMetaReq_good _ _ (mkVMetaReq v0 0 []) _ _ L _ _); rewrite len_app in L; try clear L1;
    match type of L with len ?a + len ?b < _ => pose proof (len_nonneg a); pose proof (len_nonneg b); assert (L2 : len b < two62) by lia; assert (L1 : len a < two62) by lia end; clear L; rename L2 into L.
  { refine (unm_varint VMetaReq_fields VMetaReq_add _ 1 _ _ v0 _ eq_refl _ _); [lia|intros ->; reflexivity|apply conv_i64; assumption]. }
  refine (unm_app VMetaReq_known VMetaReq_fields VMetaReq_add VMetaReq_good _ _ (mkVMetaReq v0 v1 []) _ _ L _ _); rewrite len_app in L; try clear L1;
    match type of L with len ?a + len ?b < _ => pose proof (len_nonneg a); pose proof (len_nonneg b); assert (L2 : len b < two62) by lia; assert (L1 : len a < two62) by lia end; clear L; rename L2 into L.
  { refine (unm_varint VMetaReq_fields VMetaReq_add _ 2 _ _ v1 _ eq_refl _ _); [lia|intros ->; reflexivity|apply conv_u32; assumption]. }
  { apply (unm_unknowns VMetaReq_known VMetaReq_fields VMetaReq_add VMetaReq_good); [| |reflexivity|assumption|lia]; intros; unfold VMetaReq_add; cbn; rewrite ?app_nil_r, ?app_assoc; [reflexivity|]. destruct m; reflexivity. }
Qed.

(** ** VMetaResp *)
Definition VMetaResp_known (m : VMetaResp) : VMetaResp := mkVMetaResp (VMetaResp_ExpiresAt m) (VMetaResp_Tag m) [].
Definition VMetaResp_wf (m : VMetaResp) : Prop := is_u64 (VMetaResp_ExpiresAt m) /\ is_u32 (VMetaResp_Tag m) /\ unknown [1; 2] (VMetaResp_unk m).
Lemma VMetaResp_good : Forall (f_good VMetaResp_known) VMetaResp_fields.
Proof. tbl_good. Qed.
Lemma VMetaResp_kadd m u : VMetaResp_known (VMetaResp_add m u) = VMetaResp_known m.
Proof. reflexivity. Qed.
Lemma VMetaResp_quiet : u_quiet VMetaResp_Unmarshal.
Proof. exact (unm_quiet _ _ _ VMetaResp_good). Qed.
Lemma VMetaResp_safe : u_safe VMetaResp_Unmarshal.
Proof. exact (unm_safe _ _ _ VMetaResp_good). Qed.
Lemma VMetaResp_size_pos m : 0 <= VMetaResp_Size m.
Proof.
  unfold VMetaResp_Size.
  pose proof (z_varint_pos (VMetaResp_ExpiresAt m)).
  pose proof (z_varint_pos (VMetaResp_Tag m)).
  pose proof (len_nonneg (VMetaResp_unk m)). lia.
Qed.
Lemma VMetaResp_size m : VMetaResp_wf m -> VMetaResp_Size m < two62 -> VMetaResp_Size m = len (VMetaResp_MarshalTo m).
Proof.
  intros W L. unfold VMetaResp_wf in W. decompose [and] W. unfold VMetaResp_Size, VMetaResp_MarshalTo in *. rewrite !len_app.
  pose proof (z_varint_pos (VMetaResp_ExpiresAt m)).
  pose proof (z_varint_pos (VMetaResp_Tag m)).
  pose proof (len_nonneg (VMetaResp_unk m)).
  rewrite (w_varint_len 8 (VMetaResp_ExpiresAt m)).
  rewrite (w_varint_len 16 (VMetaResp_Tag m)).
  lia.
Qed.
Lemma VMetaResp_rt m : VMetaResp_wf m -> VMetaResp_Size m < two62 -> VMetaResp_Unmarshal VMetaResp_empty (VMetaResp_MarshalTo m) = POk m.
Proof.
  intros W LS. pose proof (VMetaResp_size m W LS) as SZ. pose proof LS as L. rewrite SZ in L. unfold VMetaResp_Size in LS. unfold VMetaResp_wf in W. decompose [and] W. clear SZ.
  pose proof (z_varint_pos (VMetaResp_ExpiresAt m)).
  pose proof (z_varint_pos (VMetaResp_Tag m)).
  pose proof (len_nonneg (VMetaResp_unk m)).
  unfold VMetaResp_MarshalTo, VMetaResp_Unmarshal in *. destruct m as [v0 v1 u].
  cbn [VMetaResp_ExpiresAt VMetaResp_Tag VMetaResp_unk] in *.
  refine (unm_app VMetaResp_known VMetaResp_fields VMetaResp_add VMetaResp_good _ _ (mkVMetaResp v0 0 []) _ _ L _ _); rewrite len_app in L; try clear L1;
    match type of L with len ?a + len ?b < _ => pose proof (len_nonneg a); pose proof (len_nonneg b); assert (L2 : len b < two62) by lia; assert (L1 : len a < two62) by lia end; clear L; rename L2 into L.
  { refine (unm_varint VMetaResp_fields VMetaResp_add _ 1 _ _ v0 _ eq_refl _ _); [lia|intros ->; reflexivity|apply conv_u64; assumption]. }
  refine (unm_app VMetaResp_known VMetaResp_fields VMetaResp_add VMetaResp_good _ _ (mkVMetaResp v0 v1 []) _ _ L _ _); rewrite len_app in L; try clear L1;
    match type of L with len ?a + len ?b < _ => pose proof (len_nonneg a); pose proof (len_nonneg b); assert (L2 : len b < two62) by lia; assert (L1 : len a < two62) by lia end; clear L; rename L2 into L.
  { refine (unm_varint VMetaResp_fields VMetaResp_add _ 2 _ _ v1 _ eq_refl _ _); [lia|intros ->; reflexivity|apply conv_u32; assumption]. }
  { apply (unm_unknowns VMetaResp_known VMetaResp_fields VMetaResp_add VMetaResp_good); [| |reflexivity|assumption|lia]; intros; unfold VMetaResp_add; cbn; rewrite ?app_nil_r, ?app_assoc; [reflexivity|]. destruct m; reflexivity. }
Qed.

(** ** SetRequest *)
Definition SetRequest_known (m : SetRequest) : SetRequest := mkSetRequest (SetRequest_Key m) (SetRequest_Value m) (SetRequest_Meta m) [].
Definition SetRequest_wf (m : SetRequest) : Prop := (forall x, SetRequest_Meta m = Some x -> VMetaReq_wf x) /\ unknown [1; 2; 3] (SetRequest_unk m).
Lemma SetRequest_good : Forall (f_good SetRequest_known) SetRequest_fields.
Proof. tbl_good; [apply VMetaReq_quiet|apply VMetaReq_safe]. Qed.
Lemma SetRequest_kadd m u : SetRequest_known (SetRequest_add m u) = SetRequest_known m.
Proof. reflexivity. Qed.
Lemma SetRequest_quiet : u_quiet SetRequest_Unmarshal.
Proof. exact (unm_quiet _ _ _ SetRequest_good). Qed.
Lemma SetRequest_safe : u_safe SetRequest_Unmarshal.
Proof. exact (unm_safe _ _ _ SetRequest_good). Qed.
Lemma SetRequest_size_pos m : 0 <= SetRequest_Size m.
Proof.
  unfold SetRequest_Size.
  pose proof (z_bytes_pos (SetRequest_Key m)).
  pose proof (z_bytes_pos (SetRequest_Value m)).
  pose proof (z_msg_pos VMetaReq_Size VMetaReq_size_pos (SetRequest_Meta m)).
  pose proof (len_nonneg (SetRequest_unk m)). lia.
Qed.
Lemma SetRequest_size m : SetRequest_wf m -> SetRequest_Size m < two62 -> SetRequest_Size m = len (SetRequest_MarshalTo m).
Proof.
  intros W L. unfold SetRequest_wf in W. decompose [and] W. unfold SetRequest_Size, SetRequest_MarshalTo in *. rewrite !len_app.
  pose proof (z_bytes_pos (SetRequest_Key m)).
  pose proof (z_bytes_pos (SetRequest_Value m)).
  pose proof (z_msg_pos VMetaReq_Size VMetaReq_size_pos (SetRequest_Meta m)).
  pose proof (len_nonneg (SetRequest_unk m)).
  rewrite (w_bytes_len 10 (SetRequest_Key m)) by lia.
  rewrite (w_bytes_len 18 (SetRequest_Value m)) by lia.
  rewrite (w_msg_len 26 VMetaReq_Size VMetaReq_MarshalTo VMetaReq_wf VMetaReq_size VMetaReq_size_pos (SetRequest_Meta m)) by (assumption || lia).
  lia.
Qed.
Lemma SetRequest_rt m : SetRequest_wf m -> SetRequest_Size m < two62 -> SetRequest_Unmarshal SetRequest_empty (SetRequest_MarshalTo m) = POk m.
Proof.
  intros W LS. pose proof (SetRequest_size m W LS) as SZ. pose proof LS as L. rewrite SZ in L. unfold SetRequest_Size in LS. unfold SetRequest_wf in W. decompose [and] W. clear SZ.
  pose proof (z_bytes_pos (SetRequest_Key m)).
  pose proof (z_bytes_pos (SetRequest_Value m)).
  pose proof (z_msg_pos VMetaReq_Size VMetaReq_size_pos (SetRequest_Meta m)).
  pose proof (len_nonneg (SetRequest_unk m)).
  unfold SetRequest_MarshalTo, SetRequest_Unmarshal in *. destruct m as [v0 v1 v2 u].
  cbn [SetRequest_Key SetRequest_Value SetRequest_Meta SetRequest_unk] in *.
  refine (unm_app SetRequest_known SetRequest_fields SetRequest_add SetRequest_good _ _ (mkSetRequest v0 [] None []) _ _ L _ _); rewrite len_app in L; try clear L1;
    match type of L with len ?a + len ?b < _ => pose proof (len_nonneg a); pose proof (len_nonneg b); assert (L2 : len b < two62) by lia; assert (L1 : len a < two62) by lia end; clear L; rename L2 into L.
  { refine (unm_bytes SetRequest_fields SetRequest_add _ 1 _ v0 _ eq_refl _ _); [lia|exact L1|intros ->; reflexivity]. }
  refine (unm_app SetRequest_known SetRequest_fields SetRequest_add SetRequest_good _ _ (mkSetRequest v0 v1 None []) _ _ L _ _); rewrite len_app in L; try clear L1;
    match type of L with len ?a + len ?b < _ => pose proof (len_nonneg a); pose proof (len_nonneg b); assert (L2 : len b < two62) by lia; assert (L1 : len a < two62) by lia end; clear L; rename L2 into L.
  { refine (unm_bytes SetRequest_fields SetRequest_add _ 2 _ v1 _ eq_refl _ _); [lia|exact L1|intros ->; reflexivity]. }
  refine (unm_app SetRequest_known SetRequest_fields SetRequest_add SetRequest_good _ _ (mkSetRequest v0 v1 v2 []) _ _ L _ _); rewrite len_app in L; try clear L1;
    match type of L with len ?a + len ?b < _ => pose proof (len_nonneg a); pose proof (len_nonneg b); assert (L2 : len b < two62) by lia; assert (L1 : len a < two62) by lia end; clear L; rename L2 into L.
  { destruct v2 as [s|]; [|reflexivity]. cbn [w_msg] in *.
    assert (Ws : VMetaReq_wf s) by auto. assert (Ls : VMetaReq_Size s < two62) by (match goal with Hq : 0 <= z_msg VMetaReq_Size _ /\ _ |- _ => destruct Hq as [_ Hq]; specialize (Hq s eq_refl); lia end).
    refine (unm_msg SetRequest_fields SetRequest_add _ 3 _ _ VMetaReq_empty VMetaReq_Unmarshal VMetaReq_Size VMetaReq_MarshalTo s s _ eq_refl _ L1 _); [lia|apply VMetaReq_size; assumption|apply VMetaReq_rt; assumption]. }
  { apply (unm_unknowns SetRequest_known SetRequest_fields SetRequest_add SetRequest_good); [| |reflexivity|assumption|lia]; intros; unfold SetRequest_add; cbn; rewrite ?app_nil_r, ?app_assoc; [reflexivity|]. destruct m; reflexivity. }
Qed.

(** ** KeyRequest *)
Definition KeyRequest_known (m : KeyRequest) : KeyRequest := mkKeyRequest (KeyRequest_Key m) [].
Definition KeyRequest_wf (m : KeyRequest) : Prop := unknown [1] (KeyRequest_unk m).
Lemma KeyRequest_good : Forall (f_good KeyRequest_known) KeyRequest_fields.
Proof. tbl_good. Qed.
Lemma KeyRequest_kadd m u : KeyRequest_known (KeyRequest_add m u) = KeyRequest_known m.
Proof. reflexivity. Qed.
Lemma KeyRequest_quiet : u_quiet KeyRequest_Unmarshal.
Proof. exact (unm_quiet _ _ _ KeyRequest_good). Qed.
Lemma KeyRequest_safe : u_safe KeyRequest_Unmarshal.
Proof. exact (unm_safe _ _ _ KeyRequest_good). Qed.
Lemma KeyRequest_size_pos m : 0 <= KeyRequest_Size m.
Proof.
  unfold KeyRequest_Size.
  pose proof (z_bytes_pos (KeyRequest_Key m)).
  pose proof (len_nonneg (KeyRequest_unk m)). lia.
Qed.
Lemma KeyRequest_size m : KeyRequest_wf m -> KeyRequest_Size m < two62 -> KeyRequest_Size m = len (KeyRequest_MarshalTo m).
Proof.
  intros W L. unfold KeyRequest_wf in W. decompose [and] W. unfold KeyRequest_Size, KeyRequest_MarshalTo in *. rewrite !len_app.
  pose proof (z_bytes_pos (KeyRequest_Key m)).
  pose proof (len_nonneg (KeyRequest_unk m)).
  rewrite (w_bytes_len 10 (KeyRequest_Key m)) by lia.
  lia.
Qed.
Lemma KeyRequest_rt m : KeyRequest_wf m -> KeyRequest_Size m < two62 -> KeyRequest_Unmarshal KeyRequest_empty (KeyRequest_MarshalTo m) = POk m.
Proof.
  intros W LS. pose proof (KeyRequest_size m W LS) as SZ. pose proof LS as L. rewrite SZ in L. unfold KeyRequest_Size in LS. unfold KeyRequest_wf in W. decompose [and] W. clear SZ.
  pose proof (z_bytes_pos (KeyRequest_Key m)).
  pose proof (len_nonneg (KeyRequest_unk m)).
  unfold KeyRequest_MarshalTo, KeyRequest_Unmarshal in *. destruct m as [v0 u].
  cbn [KeyRequest_Key KeyRequest_unk] in *.
  refine (unm_app KeyRequest_known KeyRequest_fields KeyRequest_add KeyRequest_good _ _ (mkKeyRequest v0 []) _ _ L _ _); rewrite len_app in L; try clear L1;
    match type of L with len ?a + len ?b < _ => pose proof (len_nonneg a); pose proof (len_nonneg b); assert (L2 : len b < two62) by lia; assert (L1 : len a < two62) by lia end; clear L; rename L2 into L.
  { refine (unm_bytes KeyRequest_fields KeyRequest_add _ 1 _ v0 _ eq_refl _ _); [lia|exact L1|intros ->; reflexivity]. }
  { apply (unm_unknowns KeyRequest_known KeyRequest_fields KeyRequest_add KeyRequest_good); [| |reflexivity|assumption|lia]; intros; unfold KeyRequest_add; cbn; rewrite ?app_nil_r, ?app_assoc; [reflexivity|]. destruct m; reflexivity. }
Qed.

(** ** StatusResponse *)
Definition StatusResponse_known (m : StatusResponse) : StatusResponse := mkStatusResponse (StatusResponse_Code m) (StatusResponse_Msg m) [].
Definition StatusResponse_wf (m : StatusResponse) : Prop := is_i32 (StatusResponse_Code m) /\ unknown [1; 2] (StatusResponse_unk m).
Lemma StatusResponse_good : Forall (f_good StatusResponse_known) StatusResponse_fields.
Proof. tbl_good. Qed.
Lemma StatusResponse_kadd m u : StatusResponse_known (StatusResponse_add m u) = StatusResponse_known m.
Proof. reflexivity. Qed.
Lemma StatusResponse_quiet : u_quiet StatusResponse_Unmarshal.
Proof. exact (unm_quiet _ _ _ StatusResponse_good). Qed.
Lemma StatusResponse_safe : u_safe StatusResponse_Unmarshal.
Proof. exact (unm_safe _ _ _ StatusResponse_good). Qed.
Lemma StatusResponse_size_pos m : 0 <= StatusResponse_Size m.
Proof.
  unfold StatusResponse_Size.
  pose proof (z_varint_pos (StatusResponse_Code m)).
  pose proof (z_bytes_pos (StatusResponse_Msg m)).
  pose proof (len_nonneg (StatusResponse_unk m)). lia.
Qed.
Lemma StatusResponse_size m : StatusResponse_wf m -> StatusResponse_Size m < two62 -> StatusResponse_Size m = len (StatusResponse_MarshalTo m).
Proof.
  intros W L. unfold StatusResponse_wf in W. decompose [and] W. unfold StatusResponse_Size, StatusResponse_MarshalTo in *. rewrite !len_app.
  pose proof (z_varint_pos (StatusResponse_Code m)).
  pose proof (z_bytes_pos (StatusResponse_Msg m)).
  pose proof (len_nonneg (StatusResponse_unk m)).
  rewrite (w_varint_len 8 (StatusResponse_Code m)).
  rewrite (w_bytes_len 18 (StatusResponse_Msg m)) by lia.
  lia.
Qed.
Lemma StatusResponse_rt m : StatusResponse_wf m -> StatusResponse_Size m < two62 -> StatusResponse_Unmarshal StatusResponse_empty (StatusResponse_MarshalTo m) = POk m.
Proof.
  intros W LS. pose proof (StatusResponse_size m W LS) as SZ. pose proof LS as L. rewrite SZ in L. unfold StatusResponse_Size in LS. unfold StatusResponse_wf in W. decompose [and] W. clear SZ.
  pose proof (z_varint_pos (StatusResponse_Code m)).
  pose proof (z_bytes_pos (StatusResponse_Msg m)).
  pose proof (len_nonneg (StatusResponse_unk m)).
  unfold StatusResponse_MarshalTo, StatusResponse_Unmarshal in *. destruct m as [v0 v1 u].
  cbn [StatusResponse_Code StatusResponse_Msg StatusResponse_unk] in *.
  refine (unm_app StatusResponse_known StatusResponse_fields StatusResponse_add StatusResponse_good _ _ (mkStatusResponse v0 [] []) _ _ L _ _); rewrite len_app in L; try clear L1;
    match type of L with len ?a + len ?b < _ => pose proof (len_nonneg a); pose proof (len_nonneg b); assert (L2 : len b < two62) by lia; assert (L1 : len a < two62) by lia end; clear L; rename L2 into L.
  { refine (unm_varint StatusResponse_fields StatusResponse_add _ 1 _ _ v0 _ eq_refl _ _); [lia|intros ->; reflexivity|apply conv_i32; assumption]. }
  refine (unm_app StatusResponse_known StatusResponse_fields StatusResponse_add StatusResponse_good _ _ (mkStatusResponse v0 v1 []) _ _ L _ _); rewrite len_app in L; try clear L1;
    match type of L with len ?a + len ?b < _ => pose proof (len_nonneg a); pose proof (len_nonneg b); assert (L2 : len b < two62) by lia; assert (L1 : len a < two62) by lia end; clear L; rename L2 into L.
  { refine (unm_bytes StatusResponse_fields StatusResponse_add _ 2 _ v1 _ eq_refl _ _); [lia|exact L1|intros ->; reflexivity]. }
  { apply (unm_unknowns StatusResponse_known StatusResponse_fields StatusResponse_add StatusResponse_good); [| |reflexivity|assumption|lia]; intros; unfold StatusResponse_add; cbn; rewrite ?app_nil_r, ?app_assoc; [reflexivity|]. destruct m; reflexivity. }
Qed.

(** ** GetResponse *)
Definition GetResponse_known (m : GetResponse) : GetResponse := mkGetResponse (GetResponse_Code m) (GetResponse_Msg m) (GetResponse_Value m) (GetResponse_Meta m) [].
Definition GetResponse_wf (m : GetResponse) : Prop := is_i32 (GetResponse_Code m) /\ (forall x, GetResponse_Meta m = Some x -> VMetaResp_wf x) /\ unknown [1; 2; 3; 4] (GetResponse_unk m).
Lemma GetResponse_good : Forall (f_good GetResponse_known) GetResponse_fields.
Proof. tbl_good; [apply VMetaResp_quiet|apply VMetaResp_safe]. Qed.
Lemma GetResponse_kadd m u : GetResponse_known (GetResponse_add m u) = GetResponse_known m.
Proof. reflexivity. Qed.
Lemma GetResponse_quiet : u_quiet GetResponse_Unmarshal.
Proof. exact (unm_quiet _ _ _ GetResponse_good). Qed.
Lemma GetResponse_safe : u_safe GetResponse_Unmarshal.
Proof. exact (unm_safe _ _ _ GetResponse_good). Qed.
Lemma GetResponse_size_pos m : 0 <= GetResponse_Size m.
Proof.
  unfold GetResponse_Size.
  pose proof (z_varint_pos (GetResponse_Code m)).
  pose proof (z_bytes_pos (GetResponse_Msg m)).
  pose proof (z_bytes_pos (GetResponse_Value m)).
  pose proof (z_msg_pos VMetaResp_Size VMetaResp_size_pos (GetResponse_Meta m)).
  pose proof (len_nonneg (GetResponse_unk m)). lia.
Qed.
Lemma GetResponse_size m : GetResponse_wf m -> GetResponse_Size m < two62 -> GetResponse_Size m = len (GetResponse_MarshalTo m).
Proof.
  intros W L. unfold GetResponse_wf in W. decompose [and] W. unfold GetResponse_Size, GetResponse_MarshalTo in *. rewrite !len_app.
  pose proof (z_varint_pos (GetResponse_Code m)).
  pose proof (z_bytes_pos (GetResponse_Msg m)).
  pose proof (z_bytes_pos (GetResponse_Value m)).
  pose proof (z_msg_pos VMetaResp_Size VMetaResp_size_pos (GetResponse_Meta m)).
  pose proof (len_nonneg (GetResponse_unk m)).
  rewrite (w_varint_len 8 (GetResponse_Code m)).
  rewrite (w_bytes_len 18 (GetResponse_Msg m)) by lia.
  rewrite (w_bytes_len 26 (GetResponse_Value m)) by lia.
  rewrite (w_msg_len 34 VMetaResp_Size VMetaResp_MarshalTo VMetaResp_wf VMetaResp_size VMetaResp_size_pos (GetResponse_Meta m)) by (assumption || lia).
  lia.
Qed.
Lemma GetResponse_rt m : GetResponse_wf m -> GetResponse_Size m < two62 -> GetResponse_Unmarshal GetResponse_empty (GetResponse_MarshalTo m) = POk m.
Proof.
  intros W LS. pose proof (GetResponse_size m W LS) as SZ. pose proof LS as L. rewrite SZ in L. unfold GetResponse_Size in LS. unfold GetResponse_wf in W. decompose [and] W. clear SZ.
  pose proof (z_varint_pos (GetResponse_Code m)).
  pose proof (z_bytes_pos (GetResponse_Msg m)).
  pose proof (z_bytes_pos (GetResponse_Value m)).
  pose proof (z_msg_pos VMetaResp_Size VMetaResp_size_pos (GetResponse_Meta m)).
  pose proof (len_nonneg (GetResponse_unk m)).
  unfold GetResponse_MarshalTo, GetResponse_Unmarshal in *. destruct m as [v0 v1 v2 v3 u].
  cbn [GetResponse_Code GetResponse_Msg GetResponse_Value GetResponse_Meta GetResponse_unk] in *.
  refine (unm_app GetResponse_known GetResponse_fields GetResponse_add GetResponse_good _ _ (mkGetResponse v0 [] [] None []) _ _ L _ _); rewrite len_app in L; try clear L1;
    match type of L with len ?a + len ?b < _ => pose proof (len_nonneg a); pose proof (len_nonneg b); assert (L2 : len b < two62) by lia; assert (L1 : len a < two62) by lia end; clear L; rename L2 into L.
  { refine (unm_varint GetResponse_fields GetResponse_add _ 1 _ _ v0 _ eq_refl _ _); [lia|intros ->; reflexivity|apply conv_i32; assumption]. }
  refine (unm_app GetResponse_known GetResponse_fields GetResponse_add GetResponse_good _ _ (mkGetResponse v0 v1 [] None []) _ _ L _ _); rewrite len_app in L; try clear L1;
    match type of L with len ?a + len ?b < _ => pose proof (len_nonneg a); pose proof (len_nonneg b); assert (L2 : len b < two62) by lia; assert (L1 : len a < two62) by lia end; clear L; rename L2 into L.
  { refine (unm_bytes GetResponse_fields GetResponse_add _ 2 _ v1 _ eq_refl _ _); [lia|exact L1|intros ->; reflexivity]. }
  refine (unm_app GetResponse_known GetResponse_fields GetResponse_add GetResponse_good _ _ (mkGetResponse v0 v1 v2 None []) _ _ L _ _); rewrite len_app in L; try clear L1;
    match type of L with len ?a + len ?b < _ => pose proof (len_nonneg a); pose proof (len_nonneg b); assert (L2 : len b < two62) by lia; assert (L1 : len a < two62) by lia end; clear L; rename L2 into L.
  { refine (unm_bytes GetResponse_fields GetResponse_add _ 3 _ v2 _ eq_refl _ _); [lia|exact L1|intros ->; reflexivity]. }
  refine (unm_app GetResponse_known GetResponse_fields GetResponse_add GetResponse_good _ _ (mkGetResponse v0 v1 v2 v3 []) _ _ L _ _); rewrite len_app in L; try clear L1;
    match type of L with len ?a + len ?b < _ => pose proof (len_nonneg a); pose proof (len_nonneg b); assert (L2 : len b < two62) by lia; assert (L1 : len a < two62) by lia end; clear L; rename L2 into L.
  { destruct v3 as [s|]; [|reflexivity]. cbn [w_msg] in *.
    assert (Ws : VMetaResp_wf s) by auto. assert (Ls : VMetaResp_Size s < two62) by (match goal with Hq : 0 <= z_msg VMetaResp_Size _ /\ _ |- _ => destruct Hq as [_ Hq]; specialize (Hq s eq_refl); lia end).
    refine (unm_msg GetResponse_fields GetResponse_add _ 4 _ _ VMetaResp_empty VMetaResp_Unmarshal VMetaResp_Size VMetaResp_MarshalTo s s _ eq_refl _ L1 _); [lia|apply VMetaResp_size; assumption|apply VMetaResp_rt; assumption]. }
  { apply (unm_unknowns GetResponse_known GetResponse_fields GetResponse_add GetResponse_good); [| |reflexivity|assumption|lia]; intros; unfold GetResponse_add; cbn; rewrite ?app_nil_r, ?app_assoc; [reflexivity|]. destruct m; reflexivity. }
Qed.

(** ** ExistsResponse *)
Definition ExistsResponse_known (m : ExistsResponse) : ExistsResponse := mkExistsResponse (ExistsResponse_Code m) (ExistsResponse_Msg m) (ExistsResponse_Exists m) [].
Definition ExistsResponse_wf (m : ExistsResponse) : Prop := is_i32 (ExistsResponse_Code m) /\ unknown [1; 2; 3] (ExistsResponse_unk m).
Lemma ExistsResponse_good : Forall (f_good ExistsResponse_known) ExistsResponse_fields.
Proof. tbl_good. Qed.
Lemma ExistsResponse_kadd m u : ExistsResponse_known (ExistsResponse_add m u) = ExistsResponse_known m.
Proof. reflexivity. Qed.
Lemma ExistsResponse_quiet : u_quiet ExistsResponse_Unmarshal.
Proof. exact (unm_quiet _ _ _ ExistsResponse_good). Qed.
Lemma ExistsResponse_safe : u_safe ExistsResponse_Unmarshal.
Proof. exact (unm_safe _ _ _ ExistsResponse_good). Qed.
Lemma ExistsResponse_size_pos m : 0 <= ExistsResponse_Size m.
Proof.
  unfold ExistsResponse_Size.
  pose proof (z_varint_pos (ExistsResponse_Code m)).
  pose proof (z_bytes_pos (ExistsResponse_Msg m)).
  pose proof (z_bool_pos (ExistsResponse_Exists m)).
  pose proof (len_nonneg (ExistsResponse_unk m)). lia.
Qed.
Lemma ExistsResponse_size m : ExistsResponse_wf m -> ExistsResponse_Size m < two62 -> ExistsResponse_Size m = len (ExistsResponse_MarshalTo m).
Proof.
  intros W L. unfold ExistsResponse_wf in W. decompose [and] W. unfold ExistsResponse_Size, ExistsResponse_MarshalTo in *. rewrite !len_app.
  pose proof (z_varint_pos (ExistsResponse_Code m)).
  pose proof (z_bytes_pos (ExistsResponse_Msg m)).
  pose proof (z_bool_pos (ExistsResponse_Exists m)).
  pose proof (len_nonneg (ExistsResponse_unk m)).
  rewrite (w_varint_len 8 (ExistsResponse_Code m)).
  rewrite (w_bytes_len 18 (ExistsResponse_Msg m)) by lia.
  rewrite (w_bool_len 24 (ExistsResponse_Exists m)).
  lia.
Qed.
Lemma ExistsResponse_rt m : ExistsResponse_wf m -> ExistsResponse_Size m < two62 -> ExistsResponse_Unmarshal ExistsResponse_empty (ExistsResponse_MarshalTo m) = POk m.
Proof.
  intros W LS. pose proof (ExistsResponse_size m W LS) as SZ. pose proof LS as L. rewrite SZ in L. unfold ExistsResponse_Size in LS. unfold ExistsResponse_wf in W. decompose [and] W. clear SZ.
  pose proof (z_varint_pos (ExistsResponse_Code m)).
  pose proof (z_bytes_pos (ExistsResponse_Msg m)).
  pose proof (z_bool_pos (ExistsResponse_Exists m)).
  pose proof (len_nonneg (ExistsResponse_unk m)).
  unfold ExistsResponse_MarshalTo, ExistsResponse_Unmarshal in *. destruct m as [v0 v1 v2 u].
  cbn [ExistsResponse_Code ExistsResponse_Msg ExistsResponse_Exists ExistsResponse_unk] in *.
  refine (unm_app ExistsResponse_known ExistsResponse_fields ExistsResponse_add ExistsResponse_good _ _ (mkExistsResponse v0 [] false []) _ _ L _ _); rewrite len_app in L; try clear L1;
    match type of L with len ?a + len ?b < _ => pose proof (len_nonneg a); pose proof (len_nonneg b); assert (L2 : len b < two62) by lia; assert (L1 : len a < two62) by lia end; clear L; rename L2 into L.
  { refine (unm_varint ExistsResponse_fields ExistsResponse_add _ 1 _ _ v0 _ eq_refl _ _); [lia|intros ->; reflexivity|apply conv_i32; assumption]. }
  refine (unm_app ExistsResponse_known ExistsResponse_fields ExistsResponse_add ExistsResponse_good _ _ (mkExistsResponse v0 v1 false []) _ _ L _ _); rewrite len_app in L; try clear L1;
    match type of L with len ?a + len ?b < _ => pose proof (len_nonneg a); pose proof (len_nonneg b); assert (L2 : len b < two62) by lia; assert (L1 : len a < two62) by lia end; clear L; rename L2 into L.
  { refine (unm_bytes ExistsResponse_fields ExistsResponse_add _ 2 _ v1 _ eq_refl _ _); [lia|exact L1|intros ->; reflexivity]. }
  refine (unm_app ExistsResponse_known ExistsResponse_fields ExistsResponse_add ExistsResponse_good _ _ (mkExistsResponse v0 v1 v2 []) _ _ L _ _); rewrite len_app in L; try clear L1;
    match type of L with len ?a + len ?b < _ => pose proof (len_nonneg a); pose proof (len_nonneg b); assert (L2 : len b < two62) by lia; assert (L1 : len a < two62) by lia end; clear L; rename L2 into L.
  { refine (unm_bool ExistsResponse_fields ExistsResponse_add _ 3 _ v2 _ eq_refl _); [lia|intros ->; reflexivity]. }
  { apply (unm_unknowns ExistsResponse_known ExistsResponse_fields ExistsResponse_add ExistsResponse_good); [| |reflexivity|assumption|lia]; intros; unfold ExistsResponse_add; cbn; rewrite ?app_nil_r, ?app_assoc; [reflexivity|]. destruct m; reflexivity. }
Qed.

(** ** ScanOpt *)
Definition ScanOpt_known (m : ScanOpt) : ScanOpt := mkScanOpt (ScanOpt_Reverse m) (ScanOpt_Prefix m) (ScanOpt_Offset m) [].
Definition ScanOpt_wf (m : ScanOpt) : Prop := unknown [1; 2; 3] (ScanOpt_unk m).
Lemma ScanOpt_good : Forall (f_good ScanOpt_known) ScanOpt_fields.
Proof. tbl_good. Qed.
Lemma ScanOpt_kadd m u : ScanOpt_known (ScanOpt_add m u) = ScanOpt_known m.
Proof. reflexivity. Qed.
Lemma ScanOpt_quiet : u_quiet ScanOpt_Unmarshal.
Proof. exact (unm_quiet _ _ _ ScanOpt_good). Qed.
Lemma ScanOpt_safe : u_safe ScanOpt_Unmarshal.
Proof. exact (unm_safe _ _ _ ScanOpt_good). Qed.
Lemma ScanOpt_size_pos m : 0 <= ScanOpt_Size m.
Proof.
  unfold ScanOpt_Size.
  pose proof (z_bool_pos (ScanOpt_Reverse m)).
  pose proof (z_bytes_pos (ScanOpt_Prefix m)).
  pose proof (z_bytes_pos (ScanOpt_Offset m)).
  pose proof (len_nonneg (ScanOpt_unk m)). lia.
Qed.
Lemma ScanOpt_size m : ScanOpt_wf m -> ScanOpt_Size m < two62 -> ScanOpt_Size m = len (ScanOpt_MarshalTo m).
Proof.
  intros W L. unfold ScanOpt_wf in W. decompose [and] W. unfold ScanOpt_Size, ScanOpt_MarshalTo in *. rewrite !len_app.
  pose proof (z_bool_pos (ScanOpt_Reverse m)).
  pose proof (z_bytes_pos (ScanOpt_Prefix m)).
  pose proof (z_bytes_pos (ScanOpt_Offset m)).
  pose proof (len_nonneg (ScanOpt_unk m)).
  rewrite (w_bool_len 8 (ScanOpt_Reverse m)).
  rewrite (w_bytes_len 18 (ScanOpt_Prefix m)) by lia.
  rewrite (w_bytes_len 26 (ScanOpt_Offset m)) by lia.
  lia.
Qed.
Lemma ScanOpt_rt m : ScanOpt_wf m -> ScanOpt_Size m < two62 -> ScanOpt_Unmarshal ScanOpt_empty (ScanOpt_MarshalTo m) = POk m.
Proof.
  intros W LS. pose proof (ScanOpt_size m W LS) as SZ. pose proof LS as L. rewrite SZ in L. unfold ScanOpt_Size in LS. unfold ScanOpt_wf in W. decompose [and] W. clear SZ.
  pose proof (z_bool_pos (ScanOpt_Reverse m)).
  pose proof (z_bytes_pos (ScanOpt_Prefix m)).
  pose proof (z_bytes_pos (ScanOpt_Offset m)).
  pose proof (len_nonneg (ScanOpt_unk m)).
  unfold ScanOpt_MarshalTo, ScanOpt_Unmarshal in *. destruct m as [v0 v1 v2 u].
  cbn [ScanOpt_Reverse ScanOpt_Prefix ScanOpt_Offset ScanOpt_unk] in *.
  refine (unm_app ScanOpt_known ScanOpt_fields ScanOpt_add ScanOpt_good _ _ (mkScanOpt v0 [] [] []) _ _ L _ _); rewrite len_app in L; try clear L1;
    match type of L with len ?a + len ?b < _ => pose proof (len_nonneg a); pose proof (len_nonneg b); assert (L2 : len b < two62) by lia; assert (L1 : len a < two62) by lia end; clear L; rename L2 into L.
  { refine (unm_bool ScanOpt_fields ScanOpt_add _ 1 _ v0 _ eq_refl _); [lia|intros ->; reflexivity]. }
  refine (unm_app ScanOpt_known ScanOpt_fields ScanOpt_add ScanOpt_good _ _ (mkScanOpt v0 v1 [] []) _ _ L _ _); rewrite len_app in L; try clear L1;
    match type of L with len ?a + len ?b < _ => pose proof (len_nonneg a); pose proof (len_nonneg b); assert (L2 : len b < two62) by lia; assert (L1 : len a < two62) by lia end; clear L; rename L2 into L.
  { refine (unm_bytes ScanOpt_fields ScanOpt_add _ 2 _ v1 _ eq_refl _ _); [lia|exact L1|intros ->; reflexivity]. }
  refine (unm_app ScanOpt_known ScanOpt_fields ScanOpt_add ScanOpt_good _ _ (mkScanOpt v0 v1 v2 []) _ _ L _ _); rewrite len_app in L; try clear L1;
    match type of L with len ?a + len ?b < _ => pose proof (len_nonneg a); pose proof (len_nonneg b); assert (L2 : len b < two62) by lia; assert (L1 : len a < two62) by lia end; clear L; rename L2 into L.
  { refine (unm_bytes ScanOpt_fields ScanOpt_add _ 3 _ v2 _ eq_refl _ _); [lia|exact L1|intros ->; reflexivity]. }
  { apply (unm_unknowns ScanOpt_known ScanOpt_fields ScanOpt_add ScanOpt_good); [| |reflexivity|assumption|lia]; intros; unfold ScanOpt_add; cbn; rewrite ?app_nil_r, ?app_assoc; [reflexivity|]. destruct m; reflexivity. }
Qed.

(** ** ScanRequest *)
Definition ScanRequest_known (m : ScanRequest) : ScanRequest := mkScanRequest (ScanRequest_Option m) (ScanRequest_Limit m) [].
Definition ScanRequest_wf (m : ScanRequest) : Prop := (forall x, ScanRequest_Option m = Some x -> ScanOpt_wf x) /\ is_i32 (ScanRequest_Limit m) /\ unknown [1; 2] (ScanRequest_unk m).
Lemma ScanRequest_good : Forall (f_good ScanRequest_known) ScanRequest_fields.
Proof. tbl_good; [apply ScanOpt_quiet|apply ScanOpt_safe]. Qed.
Lemma ScanRequest_kadd m u : ScanRequest_known (ScanRequest_add m u) = ScanRequest_known m.
Proof. reflexivity. Qed.
Lemma ScanRequest_quiet : u_quiet ScanRequest_Unmarshal.
Proof. exact (unm_quiet _ _ _ ScanRequest_good). Qed.
Lemma ScanRequest_safe : u_safe ScanRequest_Unmarshal.
Proof. exact (unm_safe _ _ _ ScanRequest_good). Qed.
Lemma ScanRequest_size_pos m : 0 <= ScanRequest_Size m.
Proof.
  unfold ScanRequest_Size.
  pose proof (z_msg_pos ScanOpt_Size ScanOpt_size_pos (ScanRequest_Option m)).
  pose proof (z_varint_pos (ScanRequest_Limit m)).
  pose proof (len_nonneg (ScanRequest_unk m)). lia.
Qed.
Lemma ScanRequest_size m : ScanRequest_wf m -> ScanRequest_Size m < two62 -> ScanRequest_Size m = len (ScanRequest_MarshalTo m).
Proof.
  intros W L. unfold ScanRequest_wf in W. decompose [and] W. unfold ScanRequest_Size, ScanRequest_MarshalTo in *. rewrite !len_app.
  pose proof (z_msg_pos ScanOpt_Size ScanOpt_size_pos (ScanRequest_Option m)).
  pose proof (z_varint_pos (ScanRequest_Limit m)).
  pose proof (len_nonneg (ScanRequest_unk m)).
  rewrite (w_msg_len 10 ScanOpt_Size ScanOpt_MarshalTo ScanOpt_wf ScanOpt_size ScanOpt_size_pos (ScanRequest_Option m)) by (assumption || lia).
  rewrite (w_varint_len 16 (ScanRequest_Limit m)).
  lia.
Qed.
Lemma ScanRequest_rt m : ScanRequest_wf m -> ScanRequest_Size m < two62 -> ScanRequest_Unmarshal ScanRequest_empty (ScanRequest_MarshalTo m) = POk m.
Proof.
  intros W LS. pose proof (ScanRequest_size m W LS) as SZ. pose proof LS as L. rewrite SZ in L. unfold ScanRequest_Size in LS. unfold ScanRequest_wf in W. decompose [and] W. clear SZ.
  pose proof (z_msg_pos ScanOpt_Size ScanOpt_size_pos (ScanRequest_Option m)).
  pose proof (z_varint_pos (ScanRequest_Limit m)).
  pose proof (len_nonneg (ScanRequest_unk m)).
  unfold ScanRequest_MarshalTo, ScanRequest_Unmarshal in *. destruct m as [v0 v1 u].
  cbn [ScanRequest_Option ScanRequest_Limit ScanRequest_unk] in *.
  refine (unm_app ScanRequest_known ScanRequest_fields ScanRequest_add ScanRequest_good _ _ (mkScanRequest v0 0 []) _ _ L _ _); rewrite len_app in L; try clear L1;
    match type of L with len ?a + len ?b < _ => pose proof (len_nonneg a); pose proof (len_nonneg b); assert (L2 : len b < two62) by lia; assert (L1 : len a < two62) by lia end; clear L; rename L2 into L.
  { destruct v0 as [s|]; [|reflexivity]. cbn [w_msg] in *.
    assert (Ws : ScanOpt_wf s) by auto. assert (Ls : ScanOpt_Size s < two62) by (match goal with Hq : 0 <= z_msg ScanOpt_Size _ /\ _ |- _ => destruct Hq as [_ Hq]; specialize (Hq s eq_refl); lia end).
    refine (unm_msg ScanRequest_fields ScanRequest_add _ 1 _ _ ScanOpt_empty ScanOpt_Unmarshal ScanOpt_Size ScanOpt_MarshalTo s s _ eq_refl _ L1 _); [lia|apply ScanOpt_size; assumption|apply ScanOpt_rt; assumption]. }
  refine (unm_app ScanRequest_known ScanRequest_fields ScanRequest_add ScanRequest_good _ _ (mkScanRequest v0 v1 []) _ _ L _ _); rewrite len_app in L; try clear L1;
    match type of L with len ?a + len ?b < _ => pose proof (len_nonneg a); pose proof (len_nonneg b); assert (L2 : len b < two62) by lia; assert (L1 : len a < two62) by lia end; clear L; rename L2 into L.
  { refine (unm_varint ScanRequest_fields ScanRequest_add _ 2 _ _ v1 _ eq_refl _ _); [lia|intros ->; reflexivity|apply conv_i32; assumption]. }
  { apply (unm_unknowns ScanRequest_known ScanRequest_fields ScanRequest_add ScanRequest_good); [| |reflexivity|assumption|lia]; intros; unfold ScanRequest_add; cbn; rewrite ?app_nil_r, ?app_assoc; [reflexivity|]. destruct m; reflexivity. }
Qed.

(** ** Entry *)
Definition Entry_known (m : Entry) : Entry := mkEntry (Entry_Key m) (Entry_Value m) (Entry_Meta m) [].
Definition Entry_wf (m : Entry) : Prop := (forall x, Entry_Meta m = Some x -> VMetaResp_wf x) /\ unknown [1; 2; 3] (Entry_unk m).
Lemma Entry_good : Forall (f_good Entry_known) Entry_fields.
Proof. tbl_good; [apply VMetaResp_quiet|apply VMetaResp_safe]. Qed.
Lemma Entry_kadd m u : Entry_known (Entry_add m u) = Entry_known m.
Proof. reflexivity. Qed.
Lemma Entry_quiet : u_quiet Entry_Unmarshal.
Proof. exact (unm_quiet _ _ _ Entry_good). Qed.
Lemma Entry_safe : u_safe Entry_Unmarshal.
Proof. exact (unm_safe _ _ _ Entry_good). Qed.
Lemma Entry_size_pos m : 0 <= Entry_Size m.
Proof.
  unfold Entry_Size.
  pose proof (z_bytes_pos (Entry_Key m)).
  pose proof (z_bytes_pos (Entry_Value m)).
  pose proof (z_msg_pos VMetaResp_Size VMetaResp_size_pos (Entry_Meta m)).
  pose proof (len_nonneg (Entry_unk m)). lia.
Qed.
Lemma Entry_size m : Entry_wf m -> Entry_Size m < two62 -> Entry_Size m = len (Entry_MarshalTo m).
Proof.
  intros W L. unfold Entry_wf in W. decompose [and] W. unfold Entry_Size, Entry_MarshalTo in *. rewrite !len_app.
  pose proof (z_bytes_pos (Entry_Key m)).
  pose proof (z_bytes_pos (Entry_Value m)).
  pose proof (z_msg_pos VMetaResp_Size VMetaResp_size_pos (Entry_Meta m)).
  pose proof (len_nonneg (Entry_unk m)).
  rewrite (w_bytes_len 10 (Entry_Key m)) by lia.
  rewrite (w_bytes_len 18 (Entry_Value m)) by lia.
  rewrite (w_msg_len 26 VMetaResp_Size VMetaResp_MarshalTo VMetaResp_wf VMetaResp_size VMetaResp_size_pos (Entry_Meta m)) by (assumption || lia).
  lia.
Qed.
Lemma Entry_rt m : Entry_wf m -> Entry_Size m < two62 -> Entry_Unmarshal Entry_empty (Entry_MarshalTo m) = POk m.
Proof.
  intros W LS. pose proof (Entry_size m W LS) as SZ. pose proof LS as L. rewrite SZ in L. unfold Entry_Size in LS. unfold Entry_wf in W. decompose [and] W. clear SZ.
  pose proof (z_bytes_pos (Entry_Key m)).
  pose proof (z_bytes_pos (Entry_Value m)).
  pose proof (z_msg_pos VMetaResp_Size VMetaResp_size_pos (Entry_Meta m)).
  pose proof (len_nonneg (Entry_unk m)).
  unfold Entry_MarshalTo, Entry_Unmarshal in *. destruct m as [v0 v1 v2 u].
  cbn [Entry_Key Entry_Value Entry_Meta Entry_unk] in *.
  refine (unm_app Entry_known Entry_fields Entry_add Entry_good _ _ (mkEntry v0 [] None []) _ _ L _ _); rewrite len_app in L; try clear L1;
    match type of L with len ?a + len ?b < _ => pose proof (len_nonneg a); pose proof (len_nonneg b); assert (L2 : len b < two62) by lia; assert (L1 : len a < two62) by lia end; clear L; rename L2 into L.
  { refine (unm_bytes Entry_fields Entry_add _ 1 _ v0 _ eq_refl _ _); [lia|exact L1|intros ->; reflexivity]. }
  refine (unm_app Entry_known Entry_fields Entry_add Entry_good _ _ (mkEntry v0 v1 None []) _ _ L _ _); rewrite len_app in L; try clear L1;
    match type of L with len ?a + len ?b < _ => pose proof (len_nonneg a); pose proof (len_nonneg b); assert (L2 : len b < two62) by lia; assert (L1 : len a < two62) by lia end; clear L; rename L2 into L.
  { refine (unm_bytes Entry_fields Entry_add _ 2 _ v1 _ eq_refl _ _); [lia|exact L1|intros ->; reflexivity]. }
  refine (unm_app Entry_known Entry_fields Entry_add Entry_good _ _ (mkEntry v0 v1 v2 []) _ _ L _ _); rewrite len_app in L; try clear L1;
    match type of L with len ?a + len ?b < _ => pose proof (len_nonneg a); pose proof (len_nonneg b); assert (L2 : len b < two62) by lia; assert (L1 : len a < two62) by lia end; clear L; rename L2 into L.
  { destruct v2 as [s|]; [|reflexivity]. cbn [w_msg] in *.
    assert (Ws : VMetaResp_wf s) by auto. assert (Ls : VMetaResp_Size s < two62) by (match goal with Hq : 0 <= z_msg VMetaResp_Size _ /\ _ |- _ => destruct Hq as [_ Hq]; specialize (Hq s eq_refl); lia end).
    refine (unm_msg Entry_fields Entry_add _ 3 _ _ VMetaResp_empty VMetaResp_Unmarshal VMetaResp_Size VMetaResp_MarshalTo s s _ eq_refl _ L1 _); [lia|apply VMetaResp_size; assumption|apply VMetaResp_rt; assumption]. }
  { apply (unm_unknowns Entry_known Entry_fields Entry_add Entry_good); [| |reflexivity|assumption|lia]; intros; unfold Entry_add; cbn; rewrite ?app_nil_r, ?app_assoc; [reflexivity|]. destruct m; reflexivity. }
Qed.

(** ** ScanResponse *)
Definition ScanResponse_known (m : ScanResponse) : ScanResponse := mkScanResponse (ScanResponse_Code m) (ScanResponse_Msg m) (ScanResponse_Entries m) [].
Definition ScanResponse_wf (m : ScanResponse) : Prop := is_i32 (ScanResponse_Code m) /\ Forall Entry_wf (ScanResponse_Entries m) /\ unknown [1; 2; 3] (ScanResponse_unk m).
Lemma ScanResponse_good : Forall (f_good ScanResponse_known) ScanResponse_fields.
Proof. tbl_good; [apply Entry_quiet|apply Entry_safe]. Qed.
Lemma ScanResponse_kadd m u : ScanResponse_known (ScanResponse_add m u) = ScanResponse_known m.
Proof. reflexivity. Qed.
Lemma ScanResponse_quiet : u_quiet ScanResponse_Unmarshal.
Proof. exact (unm_quiet _ _ _ ScanResponse_good). Qed.
Lemma ScanResponse_safe : u_safe ScanResponse_Unmarshal.
Proof. exact (unm_safe _ _ _ ScanResponse_good). Qed.
Lemma ScanResponse_size_pos m : 0 <= ScanResponse_Size m.
Proof.
  unfold ScanResponse_Size.
  pose proof (z_varint_pos (ScanResponse_Code m)).
  pose proof (z_bytes_pos (ScanResponse_Msg m)).
  pose proof (z_rep_pos Entry_Size Entry_size_pos (ScanResponse_Entries m)).
  pose proof (len_nonneg (ScanResponse_unk m)). lia.
Qed.
Lemma ScanResponse_size m : ScanResponse_wf m -> ScanResponse_Size m < two62 -> ScanResponse_Size m = len (ScanResponse_MarshalTo m).
Proof.
  intros W L. unfold ScanResponse_wf in W. decompose [and] W. unfold ScanResponse_Size, ScanResponse_MarshalTo in *. rewrite !len_app.
  pose proof (z_varint_pos (ScanResponse_Code m)).
  pose proof (z_bytes_pos (ScanResponse_Msg m)).
  pose proof (z_rep_pos Entry_Size Entry_size_pos (ScanResponse_Entries m)).
  pose proof (len_nonneg (ScanResponse_unk m)).
  rewrite (w_varint_len 8 (ScanResponse_Code m)).
  rewrite (w_bytes_len 18 (ScanResponse_Msg m)) by lia.
  rewrite (w_rep_len 26 Entry_Size Entry_MarshalTo Entry_wf Entry_size Entry_size_pos (ScanResponse_Entries m)) by (assumption || lia).
  lia.
Qed.
Lemma ScanResponse_fold c s l : forall e u, fold_left (fun m e => mkScanResponse (ScanResponse_Code m) (ScanResponse_Msg m) (ScanResponse_Entries m ++ [e]) (ScanResponse_unk m)) l (mkScanResponse c s e u) = mkScanResponse c s (e ++ l) u.
Proof. induction l as [|x l IH]; intros e u; cbn [fold_left]; [rewrite app_nil_r; reflexivity|]. cbn. rewrite IH, <- app_assoc. reflexivity. Qed.
Lemma ScanResponse_rt m : ScanResponse_wf m -> ScanResponse_Size m < two62 -> ScanResponse_Unmarshal ScanResponse_empty (ScanResponse_MarshalTo m) = POk m.
Proof.
  intros W LS. pose proof (ScanResponse_size m W LS) as SZ. pose proof LS as L. rewrite SZ in L. unfold ScanResponse_Size in LS. unfold ScanResponse_wf in W. decompose [and] W. clear SZ.
  pose proof (z_varint_pos (ScanResponse_Code m)).
  pose proof (z_bytes_pos (ScanResponse_Msg m)).
  pose proof (z_rep_pos Entry_Size Entry_size_pos (ScanResponse_Entries m)).
  pose proof (len_nonneg (ScanResponse_unk m)).
  unfold ScanResponse_MarshalTo, ScanResponse_Unmarshal in *. destruct m as [v0 v1 v2 u].
  cbn [ScanResponse_Code ScanResponse_Msg ScanResponse_Entries ScanResponse_unk] in *.
  refine (unm_app ScanResponse_known ScanResponse_fields ScanResponse_add ScanResponse_good _ _ (mkScanResponse v0 [] [] []) _ _ L _ _); rewrite len_app in L; try clear L1;
    match type of L with len ?a + len ?b < _ => pose proof (len_nonneg a); pose proof (len_nonneg b); assert (L2 : len b < two62) by lia; assert (L1 : len a < two62) by lia end; clear L; rename L2 into L.
  { refine (unm_varint ScanResponse_fields ScanResponse_add _ 1 _ _ v0 _ eq_refl _ _); [lia|intros ->; reflexivity|apply conv_i32; assumption]. }
  refine (unm_app ScanResponse_known ScanResponse_fields ScanResponse_add ScanResponse_good _ _ (mkScanResponse v0 v1 [] []) _ _ L _ _); rewrite len_app in L; try clear L1;
    match type of L with len ?a + len ?b < _ => pose proof (len_nonneg a); pose proof (len_nonneg b); assert (L2 : len b < two62) by lia; assert (L1 : len a < two62) by lia end; clear L; rename L2 into L.
  { refine (unm_bytes ScanResponse_fields ScanResponse_add _ 2 _ v1 _ eq_refl _ _); [lia|exact L1|intros ->; reflexivity]. }
  refine (unm_app ScanResponse_known ScanResponse_fields ScanResponse_add ScanResponse_good _ _ (mkScanResponse v0 v1 v2 []) _ _ L _ _); rewrite len_app in L; try clear L1;
    match type of L with len ?a + len ?b < _ => pose proof (len_nonneg a); pose proof (len_nonneg b); assert (L2 : len b < two62) by lia; assert (L1 : len a < two62) by lia end; clear L; rename L2 into L.
  { rewrite (unm_reps ScanResponse_known ScanResponse_fields ScanResponse_add ScanResponse_good 3 _ Entry_empty Entry_Unmarshal Entry_Size Entry_MarshalTo Entry_wf Entry_size Entry_size_pos Entry_rt ltac:(lia) eq_refl v2) by (assumption || lia).
    f_equal. apply ScanResponse_fold. }
  { apply (unm_unknowns ScanResponse_known ScanResponse_fields ScanResponse_add ScanResponse_good); [| |reflexivity|assumption|lia]; intros; unfold ScanResponse_add; cbn; rewrite ?app_nil_r, ?app_assoc; [reflexivity|]. destruct m; reflexivity. }
Qed.
