(** Proofs for C88. *)
From Coq Require Import Permutation.
From Verif Require Import Bytes SMap Provider ProviderProofs World UtilTxn Memcmp Numeric KvUtil KeyModel Struct StructProofs StructHash StructList StructRef.
From Verif Require SerialProofs DocSerialProofs.
From Verif Require Import StructSerial.

Notation alike := SerialProofs.alike.
Notation eternal := SerialProofs.eternal.
Notation steady := DocSerialProofs.steady.
Notation quiet := DocSerialProofs.quiet.
Notation mono := DocSerialProofs.mono.
Notation tl := DocSerialProofs.tl.

(** ** operations that find everything by key *)
Ltac stdy := repeat first
  [ apply DocSerialProofs.steady_const | apply DocSerialProofs.steady_set | apply DocSerialProofs.steady_del
  | apply DocSerialProofs.steady_get | apply DocSerialProofs.steady_bind | apply DocSerialProofs.steady_try
  | progress intros ].
Lemma steady_parse v : steady (parse_int v).
Proof. unfold parse_int. destruct (DecodeFromHuman (nil_of v)); apply DocSerialProofs.steady_const. Qed.
Lemma steady_loadHash P k : steady (loadHashMeta P k).
Proof. unfold loadHashMeta. apply DocSerialProofs.steady_bind; [apply DocSerialProofs.steady_get|]. intros v. destruct (DecodeFromBinary v); apply DocSerialProofs.steady_const. Qed.
Lemma steady_loadList P k : steady (loadListMeta P k).
Proof.
  unfold loadListMeta. apply DocSerialProofs.steady_bind; [apply DocSerialProofs.steady_get|]. intros v. destruct (negb _); [apply DocSerialProofs.steady_const|].
  destruct (DecodeFromBinary (firstn 8 v)), (DecodeFromBinary (skipn 8 v)); apply DocSerialProofs.steady_const.
Qed.
Ltac dres r := destruct r as [?|[]|].
Lemma steady_updateHash {A} P k f (fn : option bytes -> result (bytes * A)) : steady (updateHash P k f fn).
Proof.
  unfold updateHash. apply DocSerialProofs.steady_try; [apply DocSerialProofs.steady_get|]. intros r.
  assert (C : forall isNew old, steady (match fn (nil_of old) with
      | Err e => fail e
      | Panic => gopanic
      | Ok (newValue, a) =>
          if bequal old newValue then ret a
          else tset (encodeHashDataKey P k f) newValue ;;;
            if negb isNew then ret a
            else n <- try (loadHashMeta P k) (fun r => match r with Ok n => ret n | Err ErrKeyNotFound => ret 0 | Err e => fail e | Panic => gopanic end) ;;
              tset (encodeHashMetaKey P k) (hmeta_val (to_i64 (n + 1))) ;;; ret a
      end)).
  { intros isNew old. destruct (fn (nil_of old)) as [[nv a]|e|]; try apply DocSerialProofs.steady_const.
    destruct (bequal old nv); [apply DocSerialProofs.steady_const|]. apply DocSerialProofs.steady_bind; [apply DocSerialProofs.steady_set|]. intros _.
    destruct (negb isNew); [apply DocSerialProofs.steady_const|]. apply DocSerialProofs.steady_bind.
    - apply DocSerialProofs.steady_try; [apply steady_loadHash|]. intros x. dres x; apply DocSerialProofs.steady_const.
    - intros n. stdy. }
  dres r; try apply DocSerialProofs.steady_const; apply C.
Qed.
Lemma steady_hdel P k fs : forall c, steady (hdel_loop P k fs c).
Proof.
  induction fs as [|f fs IH]; intros c; cbn [hdel_loop]; [apply DocSerialProofs.steady_const|].
  apply DocSerialProofs.steady_try; [apply DocSerialProofs.steady_get|]. intros r. dres r; try apply DocSerialProofs.steady_const; [|apply IH].
  apply DocSerialProofs.steady_bind; [apply DocSerialProofs.steady_del | intros; apply IH].
Qed.
Lemma steady_orEmpty P k : steady (orEmpty (loadListMeta P k)).
Proof. apply DocSerialProofs.steady_try; [apply steady_loadList|]. intros r. dres r; apply DocSerialProofs.steady_const. Qed.
Lemma steady_push P k b vs : forall m, steady (push_loop P k b vs m).
Proof.
  induction vs as [|v vs IH]; intros m; cbn [push_loop]; [apply DocSerialProofs.steady_const|].
  destruct b; (apply DocSerialProofs.steady_bind; [apply DocSerialProofs.steady_set | intros; apply IH]).
Qed.
Lemma steady_getall P k n : forall i, steady (getall_loop P k n i).
Proof.
  induction n as [|n IH]; intros i; cbn [getall_loop]; [apply DocSerialProofs.steady_const|].
  apply DocSerialProofs.steady_bind; [apply DocSerialProofs.steady_get|]. intros e. apply DocSerialProofs.steady_bind; [apply IH | intros; apply DocSerialProofs.steady_const].
Qed.
Lemma steady_lclear P k n : forall i, steady (lclear_loop P k n i).
Proof.
  induction n as [|n IH]; intros i; cbn [lclear_loop]; [apply DocSerialProofs.steady_const|].
  apply DocSerialProofs.steady_bind; [apply DocSerialProofs.steady_del | intros; apply IH].
Qed.
Lemma steady_listpush P k b vs : steady (listPush P k b vs).
Proof.
  unfold listPush. destruct vs as [|v vs]; [apply DocSerialProofs.steady_const|]. apply DocSerialProofs.steady_bind; [apply steady_orEmpty|]. intros m.
  apply DocSerialProofs.steady_bind; [apply steady_push | intros; apply DocSerialProofs.steady_set].
Qed.
Lemma steady_pop P k b : steady (listPop P k b).
Proof.
  unfold listPop. apply DocSerialProofs.steady_bind; [apply steady_loadList|]. intros m.
  destruct b; (apply DocSerialProofs.steady_bind; [apply DocSerialProofs.steady_get|]; intros data; apply DocSerialProofs.steady_bind; [apply DocSerialProofs.steady_del|]; intros _;
    apply DocSerialProofs.steady_bind; [destruct (negb _); [apply DocSerialProofs.steady_set | apply DocSerialProofs.steady_del] | intros; apply DocSerialProofs.steady_const]).
Qed.
Lemma steady_op P o : lists_fields o = false -> (forall k, o <> OHClear k) -> steady (sexec P o).
Proof.
  intros N C. destruct o; try discriminate N; try (exfalso; eapply C; reflexivity); cbn [sexec]; unfold lift;
    (apply DocSerialProofs.steady_bind; [|intros; apply DocSerialProofs.steady_const]).
  - apply DocSerialProofs.steady_get.
  - apply DocSerialProofs.steady_set.
  - apply DocSerialProofs.steady_del.
  - apply DocSerialProofs.steady_bind; [apply DocSerialProofs.steady_get | apply steady_parse].
  - apply DocSerialProofs.steady_set.
  - unfold SInc, IncInt64. apply DocSerialProofs.steady_try; [apply DocSerialProofs.steady_get|]. intros r. dres r; try apply DocSerialProofs.steady_const.
    + apply DocSerialProofs.steady_bind; [apply steady_parse|]. stdy.
    + stdy.
  - apply steady_updateHash.
  - apply DocSerialProofs.steady_get.
  - apply steady_updateHash.
  - apply DocSerialProofs.steady_bind; [apply DocSerialProofs.steady_get | apply steady_parse].
  - apply steady_updateHash.
  - apply DocSerialProofs.steady_try; [apply steady_loadHash|]. intros r. dres r; apply DocSerialProofs.steady_const.
  - unfold HDel. apply DocSerialProofs.steady_try; [apply steady_loadHash|]. intros r. dres r; try apply DocSerialProofs.steady_const.
    apply DocSerialProofs.steady_bind; [apply steady_hdel|]. intros c. destruct (c <=? 0); [apply DocSerialProofs.steady_del | apply DocSerialProofs.steady_set].
  - apply steady_listpush.
  - apply steady_listpush.
  - apply steady_pop.
  - apply steady_pop.
  - apply DocSerialProofs.steady_try; [apply steady_loadList|]. intros r. dres r; apply DocSerialProofs.steady_const.
  - apply DocSerialProofs.steady_try; [apply steady_loadList|]. intros r. dres r; try apply DocSerialProofs.steady_const.
    cbn zeta. destruct (_ <? 0); [apply DocSerialProofs.steady_const | apply steady_getall].
  - apply DocSerialProofs.steady_bind; [apply steady_loadList|]. intros m. cbn zeta. destruct (_ && _); [apply DocSerialProofs.steady_get | apply DocSerialProofs.steady_const].
  - apply DocSerialProofs.steady_bind; [apply steady_loadList|]. intros m. cbn zeta. destruct (_ && _); [apply DocSerialProofs.steady_set | apply DocSerialProofs.steady_const].
  - unfold LClear. apply DocSerialProofs.steady_try; [apply steady_loadList|]. intros r. dres r; try apply DocSerialProofs.steady_const.
    apply DocSerialProofs.steady_bind; [apply steady_lclear | intros; apply DocSerialProofs.steady_del].
Qed.

(** ** reads write nothing *)
Lemma quiet_parse v : quiet (parse_int v).
Proof. unfold parse_int. destruct (DecodeFromHuman (nil_of v)); apply DocSerialProofs.quiet_const. Qed.
Lemma quiet_loadHash P k : quiet (loadHashMeta P k).
Proof. unfold loadHashMeta. apply DocSerialProofs.quiet_bind; [apply DocSerialProofs.quiet_get|]. intros v. destruct (DecodeFromBinary v); apply DocSerialProofs.quiet_const. Qed.
Lemma quiet_loadList P k : quiet (loadListMeta P k).
Proof.
  unfold loadListMeta. apply DocSerialProofs.quiet_bind; [apply DocSerialProofs.quiet_get|]. intros v. destruct (negb _); [apply DocSerialProofs.quiet_const|].
  destruct (DecodeFromBinary (firstn 8 v)), (DecodeFromBinary (skipn 8 v)); apply DocSerialProofs.quiet_const.
Qed.
Lemma quiet_getall P k n : forall i, quiet (getall_loop P k n i).
Proof.
  induction n as [|n IH]; intros i; cbn [getall_loop]; [apply DocSerialProofs.quiet_const|].
  apply DocSerialProofs.quiet_bind; [apply DocSerialProofs.quiet_get|]. intros e. apply DocSerialProofs.quiet_bind; [apply IH | intros; apply DocSerialProofs.quiet_const].
Qed.
Lemma quiet_iter_cb {S} P dp (fn : bytes -> bytes -> S -> Tx (S * bool)) k e s : (forall f v s, quiet (fn f v s)) -> quiet (iter_cb P dp fn k e s).
Proof.
  intros Q. unfold iter_cb. destruct (negb _); [apply DocSerialProofs.quiet_const|]. destruct (decodeHashDataKey P k) as [[a f]|x|]; try apply DocSerialProofs.quiet_const.
  apply DocSerialProofs.quiet_bind; [apply Q | intros; apply DocSerialProofs.quiet_const].
Qed.
Lemma quiet_finish {S} (r : S * option err) : quiet (finish r).
Proof. unfold finish. destruct (snd r); apply DocSerialProofs.quiet_const. Qed.
Lemma quiet_op P o : is_read o = true -> quiet (sexec P o).
Proof.
  intros N. destruct o; try discriminate N; cbn [sexec]; unfold lift;
    (apply DocSerialProofs.quiet_bind; [|intros; apply DocSerialProofs.quiet_const]).
  - apply DocSerialProofs.quiet_get.
  - apply DocSerialProofs.quiet_bind; [apply DocSerialProofs.quiet_get | apply quiet_parse].
  - apply DocSerialProofs.quiet_get.
  - apply DocSerialProofs.quiet_bind; [apply DocSerialProofs.quiet_get | apply quiet_parse].
  - apply DocSerialProofs.quiet_try; [apply quiet_loadHash|]. intros r. dres r; apply DocSerialProofs.quiet_const.
  - apply DocSerialProofs.quiet_bind; [|intros; apply quiet_finish]. apply DocSerialProofs.quiet_scan. intros. apply quiet_iter_cb. intros. apply DocSerialProofs.quiet_const.
  - unfold HGetN. destruct (_ <=? _); [apply DocSerialProofs.quiet_const|].
    apply DocSerialProofs.quiet_bind; [|intros; apply quiet_finish]. apply DocSerialProofs.quiet_scan. intros. apply quiet_iter_cb. intros. apply DocSerialProofs.quiet_const.
  - apply DocSerialProofs.quiet_bind; [|intros; apply quiet_finish]. apply DocSerialProofs.quiet_scan. intros. apply quiet_iter_cb. intros. apply DocSerialProofs.quiet_const.
  - unfold HGetNDesc. destruct (_ <=? _); [apply DocSerialProofs.quiet_const|].
    apply DocSerialProofs.quiet_bind; [|intros; apply quiet_finish]. apply DocSerialProofs.quiet_scan. intros. apply quiet_iter_cb. intros. apply DocSerialProofs.quiet_const.
  - apply DocSerialProofs.quiet_try; [apply quiet_loadList|]. intros r. dres r; apply DocSerialProofs.quiet_const.
  - apply DocSerialProofs.quiet_try; [apply quiet_loadList|]. intros r. dres r; try apply DocSerialProofs.quiet_const.
    cbn zeta. destruct (_ <? 0); [apply DocSerialProofs.quiet_const | apply quiet_getall].
  - apply DocSerialProofs.quiet_bind; [apply quiet_loadList|]. intros m. cbn zeta. destruct (_ && _); [apply DocSerialProofs.quiet_get | apply DocSerialProofs.quiet_const].
Qed.

(** ** HClear: it scans, but after looking at the field count *)
Definition hclear_rest (P k : bytes) (l : list (bytes * ent)) : Tx unit :=
  r <- scan_loop l (iter_cb P (hashDataKeyPrefix P k) (clear_cb P k)) (None, None) ;;
  match fst r, snd r with
  | Some e, _ => fail e
  | None, Some itErr => fail itErr
  | None, None => tdel (encodeHashMetaKey P k)
  end.
Lemma add_read_alike k t1 t2 : alike t1 t2 -> alike (add_read k t1) (add_read k t2).
Proof. intros (U & O & L & Q). unfold add_read. rewrite <- U. destruct (t_upd t1) eqn:E; repeat split; cbn; congruence. Qed.
Lemma add_read_mono k t : mono t (add_read k t).
Proof.
  unfold add_read. destruct (t_upd t) eqn:E; [|apply DocSerialProofs.mono_refl]. split; [repeat split; cbn; congruence|]. split; [reflexivity|].
  intros j Hj. cbn. right. exact Hj.
Qed.
Lemma steady_loop {T} (fn : bytes -> ent -> T -> Tx (T * bool)) : (forall k e s, steady (fn k e s)) -> forall l s, steady (scan_loop l fn s).
Proof.
  intros F. induction l as [|[k e] l IH]; intros s; cbn [scan_loop]; [apply DocSerialProofs.steady_const|].
  assert (B : steady (r <- fn k e s ;; if snd r then scan_loop l fn (fst r) else ret (fst r))).
  { apply DocSerialProofs.steady_bind; [apply F|]. intros r. destruct (snd r); [apply IH | apply DocSerialProofs.steady_const]. }
  intros t1 t1' r E U. destruct (add_read_mono k t1) as (K & O & R).
  destruct (B _ _ _ E) as [M G]; [destruct K as (_ & _ & _ & X & _); congruence|].
  split; [eapply DocSerialProofs.mono_trans; [apply add_read_mono | exact M]|].
  intros t2 A T0 Q. destruct (add_read_mono k t2) as (K2 & _ & _).
  destruct (G (add_read k t2)) as (t2' & E2 & A2 & T2 & K3).
  - apply add_read_alike, A.
  - destruct T0 as (X1 & X2 & X3). destruct K as (Y1 & _). destruct K2 as (Y2 & _). unfold tl. rewrite Y1, Y2. split; [exact X1|]. split; [exact X2|].
    intros j x. rewrite DocSerialProofs.pend_add_read. apply X3.
  - intros j Hj. destruct K as (Y1 & _). destruct K2 as (Y2 & _). rewrite Y1, Y2. apply Q, Hj.
  - exists t2'. split; [exact E2|]. split; [exact A2|]. split; [exact T2|]. eapply keeps_trans; [exact K2 | exact K3].
Qed.
Lemma steady_clear_cb P dp k kk e s : steady (iter_cb P dp (clear_cb P k) kk e s).
Proof.
  unfold iter_cb. destruct (negb _); [apply DocSerialProofs.steady_const|]. destruct (decodeHashDataKey P kk) as [[a f]|x|]; try apply DocSerialProofs.steady_const.
  apply DocSerialProofs.steady_bind; [|intros; apply DocSerialProofs.steady_const]. unfold clear_cb. apply DocSerialProofs.steady_try; [apply DocSerialProofs.steady_del|].
  intros r. destruct r; apply DocSerialProofs.steady_const.
Qed.
Lemma steady_hclear_rest P k l : steady (hclear_rest P k l).
Proof.
  apply DocSerialProofs.steady_bind; [apply steady_loop; intros; apply steady_clear_cb|]. intros [[e|] [e'|]]; cbn [fst snd];
    first [apply DocSerialProofs.steady_const | apply DocSerialProofs.steady_del].
Qed.
(** the keys visited are all read *)
Lemma clear_loop_reads P k l : forall st t t', scan_loop (map (kvof P k) l) (iter_cb P (hashDataKeyPrefix P k) (clear_cb P k)) st t = (t', Ok (None, None)) ->
  t_upd t = true -> forall f v, In (f, v) l -> In (ek P (KHD k f)) (t_reads t').
Proof.
  induction l as [|[f0 v0] l IH]; intros st t t' E U f v Hf; [destruct Hf|]. cbn [map scan_loop kvof fst snd] in E.
  pose proof (steady_clear_cb P (hashDataKeyPrefix P k) k (ek P (KHD k f0)) (mk v0) st) as SC. unfold bind at 1 in E.
  change (kvof P k (f0, v0)) with (ek P (KHD k f0), mk v0) in E. cbv beta iota in E.
  destruct (iter_cb P (hashDataKeyPrefix P k) (clear_cb P k) (ek P (KHD k f0)) (mk v0) st (add_read (ek P (KHD k f0)) t)) as [t1 r1] eqn:E1.
  assert (U0 : t_upd (add_read (ek P (KHD k f0)) t) = true) by (destruct (add_read_mono (ek P (KHD k f0)) t) as [(_ & _ & _ & X & _) _]; congruence).
  destruct (SC _ _ _ E1 U0) as [(K1 & _ & R1) _].
  assert (U1 : t_upd t1 = true) by (destruct K1 as (_ & _ & _ & X & _); congruence).
  destruct r1 as [[s1 b]|e|]; try discriminate E. cbn [fst snd] in E.
  destruct b.
  - destruct Hf as [Hf|Hf]; [|eapply IH; eassumption]. inversion Hf. subst f0 v0.
    destruct (steady_loop (iter_cb P (hashDataKeyPrefix P k) (clear_cb P k)) ltac:(intros; apply steady_clear_cb) (map (kvof P k) l) s1 _ _ _ E U1) as [(_ & _ & R2) _].
    apply R2, R1. unfold add_read. rewrite U. left. reflexivity.
  - exfalso. rewrite iter_cb_hit in E1. unfold clear_cb, bind, try, ret in E1. inversion E. subst s1 t1.
    destruct (tdel (encodeHashDataKey P k f0) (add_read (ek P (KHD k f0)) t)) as [t2 r2]. destruct r2; inversion E1.
Qed.
Lemma hclear_shape P k t S n ta ra : good_prefix P -> okt true t -> rep P n (view t) S -> n < two63 -> loadHashMeta P k t = (ta, ra) ->
  view ta = view t /\ okt true ta /\ keeps t ta /\ ra = (if hsize (s_hash S k) =? 0 then Err ErrKeyNotFound else Ok (hsize (s_hash S k))) /\
  HClear P k t = (if hsize (s_hash S k) =? 0 then (ta, Ok tt) else hclear_rest P k (map (kvof P k) (entries (s_hash S k))) ta).
Proof.
  intros G O [(Ls & W & B) H On] L E. set (z := hsize (s_hash S k)).
  assert (St : stores P (view t) (want S Ls)) by (split; [exact W | exact On]).
  assert (R : 0 <= z < two63) by (unfold z, hsize; specialize (H k); unfold hsize in H; lia).
  destruct (loadHashMeta_w true P (want S Ls) k z eq_refl R (view t) St) as (M' & Sp & St' & _).
  destruct (Sp t O eq_refl) as (t' & E' & O' & V' & K'). rewrite E in E'. inversion E'. subst t' ra. clear E'.
  assert (V : view ta = view t).
  { apply quiet_loadHash in E as Q. destruct K' as (K1 & K2 & K3 & _). unfold view. rewrite Q, K1, K3. reflexivity. }
  split; [exact V|]. split; [exact O'|]. split; [exact K'|]. split; [reflexivity|].
  unfold HClear. unfold try at 1. rewrite E. fold z. destruct (z =? 0) eqn:Ez; [reflexivity|]. cbv beta iota zeta.
  match goal with |- (_ <- iterateHash P k ?f None ;; _) ta = _ => change f with (clear_cb P k) end.
  assert (X : tscan (ScanOpt false (hashDataKeyPrefix P k) []) (iter_cb P (hashDataKeyPrefix P k) (clear_cb P k)) (None, None) ta =
    scan_loop (map (kvof P k) (entries (s_hash S k))) (iter_cb P (hashDataKeyPrefix P k) (clear_cb P k)) (None, None) ta).
  { unfold tscan. rewrite (proj1 O'). cbn [negb]. rewrite V, (scan_prefix (view t) (hashDataKeyPrefix P k) (t_clamp ta)), (hash_entries P (view t) S Ls k St). reflexivity. }
  unfold hclear_rest, iterateHash, bind. rewrite X. reflexivity.
Qed.
(** a map included in another of the same size *)
Lemma incl_entries_eq {V} (m m' : smap V) : length (entries m) = length (entries m') -> (forall k v, get m k = Some v -> get m' k = Some v) -> m = m'.
Proof.
  intros L H. apply smap_eq.
  assert (N : NoDup (entries m)).
  { apply (NoDup_map_inv fst), keys_nodup. }
  assert (I : incl (entries m) (entries m')) by (intros [k v] Hk; apply get_in, H, get_in, Hk).
  assert (I2 : incl (entries m') (entries m)) by (apply NoDup_length_incl; [exact N | lia | exact I]).
  apply sorted_ext; [apply sm_ok | apply sm_ok|]. intros k v. split; auto.
Qed.
Lemma hclear_twin P k t1 t1' r S1 n1 : good_prefix P -> HClear P k t1 = (t1', r) -> t_upd t1 = true -> okt true t1 -> rep P n1 (view t1) S1 -> n1 < two63 ->
  mono t1 t1' /\
  forall t2 S2 n2, alike t1 t2 -> tl t1 t2 -> okt true t2 -> rep P n2 (view t2) S2 -> n2 < two63 ->
  (forall j, In j (t_reads t1') -> get (t_snap t1) j = get (t_snap t2) j) ->
  exists t2', HClear P k t2 = (t2', r) /\ alike t1' t2' /\ tl t1' t2' /\ keeps t2 t2'.
Proof.
  intros G E U O1 R1 L1. destruct (loadHashMeta P k t1) as [ta ra] eqn:Ea.
  destruct (hclear_shape P k t1 S1 n1 ta ra G O1 R1 L1 Ea) as (Va & Oa & Ka & Era & Eh). rewrite Eh in E.
  destruct (steady_loadHash P k t1 ta ra Ea U) as [Ma Ga].
  assert (Ua : t_upd ta = true) by (destruct Ka as (_ & _ & _ & X & _); congruence).
  set (h1 := s_hash S1 k) in *.
  destruct (hsize h1 =? 0) eqn:Ez.
  - inversion E. subst t1' r. split; [exact Ma|]. intros t2 S2 n2 A T O2 R2 L2 Q.
    destruct (Ga t2 A T Q) as (t2a & E2 & A2 & T2 & K2).
    destruct (hclear_shape P k t2 S2 n2 t2a ra G O2 R2 L2 E2) as (_ & _ & _ & Er2 & Eh2). rewrite Era in Er2.
    exists t2a. rewrite Eh2. destruct (hsize (s_hash S2 k) =? 0); [auto | discriminate Er2].
  - destruct (steady_hclear_rest P k (map (kvof P k) (entries h1)) ta t1' r E Ua) as [Mb Gb].
    split; [eapply DocSerialProofs.mono_trans; eassumption|]. intros t2 S2 n2 A T O2 R2 L2 Q.
    destruct (Ga t2 A T) as (t2a & E2 & A2 & T2 & K2); [intros j Hj; apply Q; destruct Mb as (_ & _ & X); auto|].
    destruct (hclear_shape P k t2 S2 n2 t2a ra G O2 R2 L2 E2) as (V2 & Oa2 & _ & Er2 & Eh2). rewrite Era in Er2.
    set (h2 := s_hash S2 k) in *. destruct (hsize h2 =? 0) eqn:Ez2; [discriminate Er2|].
    assert (Sz : hsize h1 = hsize h2) by congruence.
    assert (Eq : h1 = h2).
    { apply incl_entries_eq; [unfold hsize in Sz; lia|]. intros f v Gf.
      assert (Rd : In (ek P (KHD k f)) (t_reads t1')).
      { unfold hclear_rest, bind in E.
        destruct (scan_loop (map (kvof P k) (entries h1)) (iter_cb P (hashDataKeyPrefix P k) (clear_cb P k)) (None, None) ta) as [tb rb] eqn:El.
        destruct R1 as [(Ls & W & B) Hh On].
        destruct (spec_clear_loop P k G (entries h1) (want S1 Ls) (view t1) (conj W On)) as (M' & Sp & _ & _).
        destruct (Sp ta Oa Va) as (tb' & El' & Ob & _ & Kb). rewrite El in El'. inversion El'. subst tb' rb. cbn [fst snd] in E.
        assert (Ub : t_upd tb = true) by (destruct Kb as (_ & _ & _ & X & _); congruence).
        destruct (DocSerialProofs.steady_del (encodeHashMetaKey P k) tb t1' r E Ub) as [(_ & _ & X) _]. apply X.
        eapply clear_loop_reads; [exact El | exact Ua | apply get_in; exact Gf]. }
      assert (Vw : get (view t1) (ek P (KHD k f)) = get (view t2) (ek P (KHD k f))).
      { destruct T as (X1 & X2 & X3). apply (SerialProofs.view_alike _ _ _ (CDel []) []); [exact A | | intros _; apply Q, Rd].
        right. split; [repeat constructor|]. auto. }
      destruct R1 as [(Ls & W & B) Hh On]. destruct R2 as [(Ls2 & W2 & B2) Hh2 On2].
      rewrite (W (KHD k f) Logic.I), (W2 (KHD k f) Logic.I) in Vw. cbn [want] in Vw. fold h1 in Vw. fold h2 in Vw. rewrite Gf in Vw. cbn [option_map] in Vw.
      destruct (get h2 f) as [v2|]; [|discriminate Vw]. cbn [option_map] in Vw. inversion Vw. reflexivity. }
    rewrite Eh2, <- Eq.
    destruct (Gb t2a A2 T2) as (t2' & E3 & A3 & T3 & K3); [intros j Hj; destruct Ka as (-> & _); destruct K2 as (-> & _); apply Q, Hj|].
    exists t2'. split; [exact E3|]. split; [exact A3|]. split; [exact T3|]. eapply keeps_trans; eassumption.
Qed.
(** ** one operation on two transactions *)
Lemma op_twin P o t1 t1' r S1 n1 : good_prefix P -> lists_fields o = false -> sexec P o t1 = (t1', r) -> t_upd t1 = true -> okt true t1 -> rep P n1 (view t1) S1 -> n1 < two63 ->
  mono t1 t1' /\
  forall t2 S2 n2, alike t1 t2 -> tl t1 t2 -> okt true t2 -> rep P n2 (view t2) S2 -> n2 < two63 ->
  (forall j, In j (t_reads t1') -> get (t_snap t1) j = get (t_snap t2) j) ->
  exists t2', sexec P o t2 = (t2', r) /\ alike t1' t2' /\ tl t1' t2' /\ keeps t2 t2'.
Proof.
  intros G NL E U O1 R1 L1.
  assert (D : (exists k, o = OHClear k) \/ (forall k, o <> OHClear k)) by (destruct o; try (right; intros; discriminate); left; eauto).
  destruct D as [(k & ->)|D].
  - cbn [sexec] in *. unfold lift, bind in *. destruct (HClear P k t1) as [ta ra] eqn:Ea.
    destruct (hclear_twin P k t1 ta ra S1 n1 G Ea U O1 R1 L1) as [M X].
    assert (Et : t1' = ta) by (destruct ra; inversion E; reflexivity). subst t1'.
    split; [exact M|]. intros t2 S2 n2 A T O2 R2 L2 Q. destruct (X t2 S2 n2 A T O2 R2 L2 Q) as (t2' & -> & A2 & T2 & K2).
    exists t2'. split; [destruct ra; inversion E; reflexivity | auto].
  - destruct (steady_op P o NL D t1 t1' r E U) as [M X]. split; [exact M|]. intros. apply X; assumption.
Qed.
Lemma op_refines P upd o t X n : good_prefix P -> sok o -> (upd = false -> is_read o = true) -> okt upd t -> rep P n (view t) X -> n + scost o < two63 ->
  exists t', sexec P o t = (t', fst (sref X o)) /\ okt upd t' /\ rep P (n + scost o) (view t') (snd (sref X o)) /\ keeps t t'.
Proof.
  intros G K RO O R L. pose proof (scost_nonneg o) as C. destruct upd.
  - destruct (sim P X o G K n (view t) R L) as (M' & Sp & R' & _). destruct (Sp t O eq_refl) as (t' & E & O' & V' & K').
    exists t'. split; [exact E|]. split; [exact O'|]. split; [rewrite V'; exact R' | exact K'].
  - destruct (sread_sim P X o (RO eq_refl) K) as [Sp Ex]. destruct (Sp false n (view t) R ltac:(lia) t O eq_refl) as (t' & E & O' & V' & K').
    exists t'. split; [exact E|]. split; [exact O'|]. split; [rewrite V', Ex; eapply rep_le; [exact R | lia] | exact K'].
Qed.
Fixpoint ops_exec (P : bytes) (t : txn) (l : list sop) : txn * list (result sval) :=
  match l with
  | [] => (t, [])
  | o :: l' => let '(t1, r) := sexec P o t in let '(t2, rs) := ops_exec P t1 l' in (t2, r :: rs)
  end.
Lemma ops_exec_app P a : forall b t, ops_exec P t (a ++ b) =
  let '(t1, r1) := ops_exec P t a in let '(t2, r2) := ops_exec P t1 b in (t2, r1 ++ r2).
Proof.
  induction a as [|c a IH]; intros b t; cbn [app ops_exec].
  - destruct (ops_exec P t b). reflexivity.
  - destruct (sexec P c t) as [t1 r]. rewrite IH. destruct (ops_exec P t1 a) as [t2 rs]. destruct (ops_exec P t2 b). reflexivity.
Qed.
Lemma ops_refine P upd l : good_prefix P -> Forall sok l -> (upd = false -> Forall (fun o => is_read o = true) l) ->
  forall t X n, okt upd t -> rep P n (view t) X -> n + cost l < two63 ->
  exists t', ops_exec P t l = (t', snd (sref_run X l)) /\ okt upd t' /\ rep P (n + cost l) (view t') (fst (sref_run X l)) /\ keeps t t'.
Proof.
  intros G. induction l as [|o l IH]; intros F RO t X n O R L; cbn [ops_exec sref_run cost fold_right] in *.
  - exists t. rewrite Z.add_0_r. auto using keeps_refl.
  - inversion F as [|? ? F1 F2]. subst. fold (cost l) in *. pose proof (cost_nonneg l) as C.
    destruct (op_refines P upd o t X n G F1) as (t1 & E1 & O1 & R1 & K1); try assumption; [intros Y; specialize (RO Y); inversion RO; assumption | lia|].
    rewrite E1. destruct (sref X o) as [r X1]. cbn [fst snd] in *.
    destruct (IH F2) with (t := t1) (X := X1) (n := n + scost o) as (t2 & E2 & O2 & R2 & K2); try assumption; [intros Y; specialize (RO Y); inversion RO; assumption | lia|].
    rewrite E2. destruct (sref_run X1 l) as [X2 rs]. cbn [fst snd] in *. exists t2. split; [reflexivity|]. split; [exact O2|].
    split; [replace (n + (scost o + cost l)) with (n + scost o + cost l) by lia; exact R2 | eapply keeps_trans; eassumption].
Qed.
Lemma ops_twin P l : good_prefix P -> Forall sok l -> forallb (fun o => negb (lists_fields o)) l = true ->
  forall t1 t1' rs S1 n1, ops_exec P t1 l = (t1', rs) -> okt true t1 -> t_upd t1 = true -> rep P n1 (view t1) S1 -> n1 + cost l < two63 ->
  mono t1 t1' /\
  forall t2 S2 n2, alike t1 t2 -> tl t1 t2 -> okt true t2 -> rep P n2 (view t2) S2 -> n2 + cost l < two63 ->
  (forall j, In j (t_reads t1') -> get (t_snap t1) j = get (t_snap t2) j) ->
  exists t2', ops_exec P t2 l = (t2', rs) /\ alike t1' t2' /\ tl t1' t2' /\ keeps t2 t2'.
Proof.
  intros G. induction l as [|o l IH]; intros F NL t1 t1' rs S1 n1 E O1 U R1 L1; cbn [ops_exec forallb cost fold_right] in *.
  - inversion E. subst. split; [apply DocSerialProofs.mono_refl|]. intros t2 S2 n2 A T _ _ _ _. exists t2. auto using keeps_refl.
  - fold (cost l) in *. pose proof (cost_nonneg l) as C. pose proof (scost_nonneg o) as C0. inversion F as [|? ? F1 F2]. subst.
    apply andb_prop in NL. destruct NL as [N1 N2]. apply negb_true_iff in N1.
    destruct (op_refines P true o t1 S1 n1 G F1) as (ta & Ea & Oa & Ra & Ka); try assumption; [discriminate | lia|].
    rewrite Ea in E. destruct (ops_exec P ta l) as [tb rs'] eqn:Eb. inversion E. subst. clear E.
    destruct (op_twin P o t1 ta _ S1 n1 G N1 Ea U O1 R1 ltac:(lia)) as [M1 G1].
    assert (Ua : t_upd ta = true) by (destruct Ka as (_ & _ & _ & X & _); congruence).
    destruct (IH F2 N2 _ _ _ _ _ Eb Oa Ua Ra ltac:(lia)) as [M2 G2].
    split; [eapply DocSerialProofs.mono_trans; eassumption|]. intros t2 S2 n2 A T O2 R2 L2 Q.
    destruct (G1 t2 S2 n2 A T O2 R2 ltac:(lia)) as (t2a & E2 & A2 & T2 & K2); [intros j Hj; apply Q; destruct M2 as (_ & _ & X); auto|].
    destruct (op_refines P true o t2 S2 n2 G F1) as (t2a' & E2' & O2' & R2' & _); try assumption; [discriminate | lia|].
    assert (t2a' = t2a) by congruence. subst t2a'.
    destruct (G2 t2a _ _ A2 T2 O2' R2' ltac:(lia)) as (t2' & E3 & A3 & T3 & K3); [intros j Hj; destruct Ka as (-> & _); destruct K2 as (-> & _); apply Q, Hj|].
    rewrite E2, E3. exists t2'. split; [reflexivity|]. split; [exact A3|]. split; [exact T3|]. eapply keeps_trans; eassumption.
Qed.
Lemma ops_quiet P l : Forall (fun o => is_read o = true) l -> forall t t' rs, ops_exec P t l = (t', rs) -> t_pend t' = t_pend t.
Proof.
  induction l as [|o l IH]; intros F t t' rs E; cbn [ops_exec] in E; [inversion E; reflexivity|]. inversion F as [|? ? F1 F2]. subst.
  destruct (sexec P o t) as [t1 r] eqn:E1. destruct (ops_exec P t1 l) as [t2 rs'] eqn:E2. inversion E. subst.
  rewrite (IH F2 _ _ _ E2). apply (quiet_op P o F1 _ _ _ E1).
Qed.

(** ** the stored keys determine the data *)
Lemma rep_inj P w t n n' X Y : okt w t -> rep P n (view t) X -> rep P n' (view t) Y -> n < two63 -> n' < two63 -> sst_eq X Y.
Proof.
  intros O RX RY LX LY. split; [|split].
  - apply smap_ext. intros k. destruct RX as [(Ls & W & _) _ _]. destruct RY as [(Ls' & W' & _) _ _].
    pose proof (W (KS k) Logic.I) as E. rewrite (W' (KS k) Logic.I) in E. cbn [want] in E.
    destruct (get (s_str X) k), (get (s_str Y) k); cbn [option_map] in E; inversion E; reflexivity.
  - intros k. apply smap_ext. intros f. destruct RX as [(Ls & W & _) _ _]. destruct RY as [(Ls' & W' & _) _ _].
    pose proof (W (KHD k f) Logic.I) as E. rewrite (W' (KHD k f) Logic.I) in E. cbn [want] in E.
    destruct (get (s_hash X k) f), (get (s_hash Y k) f); cbn [option_map] in E; inversion E; reflexivity.
  - intros k. destruct (LGetAll_read P k X w n (view t) RX LX t O eq_refl) as (t1 & E1 & _). destruct (LGetAll_read P k Y w n' (view t) RY LY t O eq_refl) as (t2 & E2 & _).
    rewrite E1 in E2. assert (E : rev (s_list X k) = rev (s_list Y k)) by congruence. apply (f_equal (@rev bytes)) in E. rewrite !rev_involutive in E. exact E.
Qed.
(** ** the reference does not depend on how a state is written down *)
Lemma sst_sym X Y : sst_eq X Y -> sst_eq Y X.
Proof. intros (A & B & C). repeat split; auto. Qed.
Lemma sst_trans X Y Z : sst_eq X Y -> sst_eq Y Z -> sst_eq X Z.
Proof. intros (A & B & C) (A' & B' & C'). split; [congruence|]. split; intros k; [rewrite B; apply B' | rewrite C; apply C']. Qed.
Lemma sref_eq X Y o : sst_eq X Y -> fst (sref X o) = fst (sref Y o) /\ sst_eq (snd (sref X o)) (snd (sref Y o)).
Proof.
  intros (A & B & C).
  assert (PS : forall m, sst_eq (put_str X m) (put_str Y m)) by (intros; repeat split; cbn; auto).
  assert (PH : forall k m, sst_eq (put_hash X k m) (put_hash Y k m)) by (intros k m; split; [exact A|]; split; [intros j; cbn; destruct (bytes_eqb j k); auto | exact C]).
  assert (PL : forall k m, sst_eq (put_list X k m) (put_list Y k m)) by (intros k m; split; [exact A|]; split; [exact B | intros j; cbn; destruct (bytes_eqb j k); auto]).
  assert (XY : sst_eq X Y) by (repeat split; auto).
  destruct o; cbn [sref]; rewrite <- ?A, <- ?B, <- ?C; cbn [fst snd]; auto.
  - destruct (inc_res (get (s_str X) k) step); cbn [fst snd]; auto.
  - destruct (hinc_res (get (s_hash X k) f) step); cbn [fst snd]; auto.
  - destruct (s_list X k); cbn [fst snd]; auto.
  - destruct (rev (s_list X k)); cbn [fst snd]; auto.
Qed.
Lemma sref_run_eq l : forall X Y, sst_eq X Y -> snd (sref_run X l) = snd (sref_run Y l) /\ sst_eq (fst (sref_run X l)) (fst (sref_run Y l)).
Proof.
  induction l as [|o l IH]; intros X Y E; cbn [sref_run]; [auto|]. destruct (sref_eq X Y o E) as [A B].
  destruct (sref X o) as [r X1]. destruct (sref Y o) as [r' Y1]. cbn [fst snd] in *. subst r'. destruct (IH _ _ B) as [A' B'].
  destruct (sref_run X1 l), (sref_run Y1 l). cbn [fst snd] in *. split; [congruence | exact B'].
Qed.

(** ** lists of transactions *)
Definition run_all (X : sst) (l : list deed) : sst := fold_left (fun X d => fst (sref_run X (calls d))) l X.
Lemma after_app a b : after (a ++ b) = run_all (after a) b.
Proof. unfold after, run_all. apply fold_left_app. Qed.
Lemma run_all_app X a b : run_all X (a ++ b) = run_all (run_all X a) b.
Proof. apply fold_left_app. Qed.
Lemma run_all_eq l : forall X Y, sst_eq X Y -> sst_eq (run_all X l) (run_all Y l).
Proof. induction l as [|d l IH]; intros X Y E; cbn [run_all fold_left]; [exact E|]. apply IH. apply sref_run_eq. exact E. Qed.
Lemma replays_eq l : forall X Y, sst_eq X Y -> replays X l -> replays Y l.
Proof.
  induction l as [|d l IH]; intros X Y E; cbn [replays]; [auto|]. destruct (sref_run_eq (calls d) X Y E) as [A B]. intros [H1 H2].
  split; [congruence | eapply IH; eassumption].
Qed.
Lemma replays_app a b : forall X, replays X (a ++ b) <-> replays X a /\ replays (run_all X a) b.
Proof. induction a as [|d a IH]; intros X; cbn [app replays run_all fold_left]; [tauto|]. rewrite IH. unfold run_all. tauto. Qed.
Lemma real_time_app a b : real_time (a ++ b) <-> real_time a /\ real_time b /\ forall x y, In x a -> In y b -> (s_begin x <= s_end y)%nat.
Proof.
  induction a as [|d a IH]; cbn [app real_time]; [split; [intros H; split; [exact Logic.I|]; split; [exact H | intros x y []] | tauto]|].
  rewrite IH. split.
  - intros [H1 (H2 & H3 & H4)]. split; [split; [intros y Hy; apply H1, in_or_app; auto | exact H2]|]. split; [exact H3|].
    intros x y [<-|Hx] Hy; [apply H1, in_or_app; auto | auto].
  - intros [[H1 H2] (H3 & H4)]. split; [intros y Hy; apply in_app_or in Hy; destruct Hy; [auto | apply H4; [left; reflexivity | assumption]]|].
    split; [exact H2|]. split; [exact H3|]. intros x y Hx. apply H4. right. exact Hx.
Qed.
Lemma replays_insert a d b : replays s_empty (a ++ b) -> answers d = snd (sref_run (after a) (calls d)) -> sst_eq (after (a ++ [d])) (after a) ->
  replays s_empty (a ++ d :: b).
Proof.
  intros H A E. apply replays_app in H. destruct H as [H1 H2]. apply replays_app. split; [exact H1|]. cbn [replays].
  change (run_all s_empty a) with (after a) in *. split; [exact A|]. eapply replays_eq; [|exact H2]. apply sst_sym. rewrite after_app in E. exact E.
Qed.
Lemma app_cut {A} (a b c d : list A) : a ++ b = c ++ d -> (exists x, a = c ++ x /\ d = x ++ b) \/ (exists x, c = a ++ x /\ x <> [] /\ b = x ++ d).
Proof.
  revert c. induction a as [|h a IH]; intros c E; cbn [app] in E.
  - destruct c as [|h c]; [left; exists []; split; [reflexivity | symmetry; exact E]|]. right. exists (h :: c). split; [reflexivity|]. split; [discriminate | exact E].
  - destruct c as [|h' c]; [left; exists (h :: a); split; [reflexivity | symmetry; exact E]|]. cbn [app] in E. inversion E as [[E1 E2]]. subst h'.
    destruct (IH c E2) as [(x & -> & ->)|(x & -> & N & ->)]; [left; exists x | right; exists x]; auto.
Qed.

(** what a transaction begun at event [b] saw *)
Definition sees (l : list deed) (b : nat) (l1 l2 : list deed) : Prop :=
  l = l1 ++ l2 /\ (forall a, In a l2 -> (b <= s_end a)%nat) /\
  (forall u a v, l1 = u ++ a :: v -> (s_end a < b)%nat \/ sst_eq (after (u ++ [a])) (after u)).
Lemma sees_snoc l b l1 l2 d : sees l b l1 l2 -> (b <= s_end d)%nat -> sees (l ++ [d]) b l1 (l2 ++ [d]).
Proof.
  intros (E & F & Q) B. split; [rewrite E, app_assoc; reflexivity|]. split; [|exact Q]. intros a Ha. apply in_app_or in Ha. destruct Ha as [Ha|[<-|[]]]; auto.
Qed.
Lemma sees_insert b l1 l2 m1 m2 d : sees (m1 ++ m2) b l1 l2 -> (b <= s_end d)%nat -> sst_eq (after (m1 ++ [d])) (after m1) ->
  exists l1' l2', sees (m1 ++ d :: m2) b l1' l2' /\ sst_eq (after l1) (after l1').
Proof.
  intros (E & F & Q) B N. symmetry in E.
  assert (SH : forall x, sst_eq (after (m1 ++ x)) (after (m1 ++ d :: x))).
  { intros x. rewrite after_app. change (d :: x) with ([d] ++ x). rewrite app_assoc, after_app. apply run_all_eq, sst_sym, N. }
  destruct (app_cut _ _ _ _ E) as [(x & -> & ->)|(x & -> & Nx & ->)].
  - exists (m1 ++ d :: x), l2. split; [|apply SH]. split; [rewrite <- app_assoc; reflexivity|]. split; [exact F|]. intros u a v Eu.
    destruct (app_cut _ _ _ _ Eu) as [(y & Ey & Ev)|(y & -> & Ny & Ev)].
    + (* a comes from m1 *) destruct y as [|h y].
      * cbn [app] in Ev. rewrite app_nil_r in Ey. subst u. inversion Ev. subst. right. exact N.
      * cbn [app] in Ev. inversion Ev. subst h v. apply (Q u a (y ++ x)). rewrite Ey, <- app_assoc. reflexivity.
    + destruct y as [|h y]; [congruence|]. cbn [app] in Ev. inversion Ev. subst h x.
      destruct (Q (m1 ++ y) a v) as [Lt|Eq]; [rewrite <- app_assoc; reflexivity | left; exact Lt|]. right.
      rewrite <- app_assoc in Eq |- *. cbn [app].
      eapply sst_trans; [apply sst_sym, SH|]. eapply sst_trans; [exact Eq | apply SH].
  - exists l1, (x ++ d :: m2). split; [|apply sst_eq_refl]. split; [rewrite <- app_assoc; reflexivity|]. split; [|exact Q].
    intros a Ha. apply in_app_or in Ha. destruct Ha as [Ha|[<-|Ha]]; [apply F, in_or_app; auto | exact B | apply F, in_or_app; auto].
Qed.
Lemma one_moment_sees l d : one_moment l d <-> exists l1 l2, sees l (s_begin d) l1 l2 /\ answers d = snd (sref_run (after l1) (calls d)).
Proof. split; [intros (l1 & l2 & E & A & F & Q) | intros (l1 & l2 & (E & F & Q) & A)]; exists l1, l2; unfold sees; auto. Qed.

(** ** histories *)
Lemma shist_app P a : forall b w, shist P w (a ++ b) =
  let '(w1, r1) := shist P w a in let '(w2, r2) := shist P w1 b in (w2, r1 ++ r2).
Proof.
  induction a as [|e a IH]; intros b w; cbn [app shist].
  - destruct (shist P w b). reflexivity.
  - destruct (sstep P w e) as [w1 r]. rewrite IH. destruct (shist P w1 a) as [w2 rs]. destruct (shist P w2 b). reflexivity.
Qed.
Lemma shist_length P es : forall w, length (snd (shist P w es)) = length es.
Proof. induction es as [|e es IH]; intros w; cbn [shist]; [reflexivity|]. destruct (sstep P w e) as [w1 r]. specialize (IH w1). destruct (shist P w1 es). cbn in *. lia. Qed.
Lemma journal_snoc P w a e : journal_of P w (a ++ [e]) = jstep (journal_of P w a) (e, snd (sstep P (fst (shist P w a)) e)).
Proof.
  unfold journal_of. rewrite shist_app. pose proof (shist_length P a w) as L. destruct (shist P w a) as [w1 r1]. cbn [fst snd shist] in *.
  destruct (sstep P w1 e) as [w2 r2]. cbn [snd]. rewrite SerialProofs.combine_app by (symmetry; exact L). apply fold_left_app.
Qed.
Lemma shist_snoc P w a e : fst (shist P w (a ++ [e])) = fst (sstep P (fst (shist P w a)) e).
Proof. rewrite shist_app. destruct (shist P w a) as [w1 r1]. cbn [fst shist]. destruct (sstep P w1 e). reflexivity. Qed.
Lemma find_forget i j l : find_tx i (forget j l) = if Nat.eqb i j then None else find_tx i l.
Proof.
  unfold find_tx, forget. induction l as [|[k d] l IH]; cbn [filter find fst]; [destruct (Nat.eqb i j); reflexivity|].
  destruct (Nat.eqb j k) eqn:E; cbn [negb].
  - apply Nat.eqb_eq in E. subst k. rewrite IH. destruct (Nat.eqb i j); reflexivity.
  - cbn [find fst]. destruct (Nat.eqb i k) eqn:Ek; [|exact IH]. apply Nat.eqb_eq in Ek. subst k. rewrite Nat.eqb_sym, E. reflexivity.
Qed.
Lemma find_cons i j d l : find_tx i ((j, d) :: l) = if Nat.eqb i j then Some d else find_tx i l.
Proof. unfold find_tx. cbn [find fst]. destruct (Nat.eqb i j); reflexivity. Qed.
Definition dcost (d : deed) : Z := cost (calls d).
Definition lcost (l : list deed) : Z := fold_right (fun d n => dcost d + n) 0 l.
Definition ocost (l : list (nat * deed)) : Z := lcost (map snd l).
Lemma lcost_app a b : lcost (a ++ b) = lcost a + lcost b.
Proof. unfold lcost. induction a as [|d a IH]; cbn [app fold_right]; [lia|]. rewrite IH. lia. Qed.
Lemma lcost_nonneg l : 0 <= lcost l.
Proof. unfold lcost. induction l as [|d l IH]; cbn [fold_right]; [lia|]. pose proof (cost_nonneg (calls d)) as C. fold (dcost d) in C. lia. Qed.
Lemma ocost_forget i l : ocost (forget i l) + match find_tx i l with Some d => dcost d | None => 0 end <= ocost l.
Proof.
  induction l as [|[k d] l IH]; [unfold ocost, lcost; cbn; lia|]. rewrite find_cons. pose proof (cost_nonneg (calls d)) as C. fold (dcost d) in C.
  change (ocost ((k, d) :: l)) with (dcost d + ocost l). unfold forget in *. cbn [filter fst].
  assert (N : 0 <= match find_tx i l with Some d => dcost d | None => 0 end) by (destruct (find_tx i l) as [d'|]; [apply cost_nonneg | lia]).
  destruct (Nat.eqb i k); cbn [negb]; [lia|].
  change (ocost ((k, d) :: filter (fun p : nat * deed => negb (Nat.eqb i (fst p))) l)) with (dcost d + ocost (filter (fun p : nat * deed => negb (Nat.eqb i (fst p))) l)). lia.
Qed.
Lemma total_snoc es e : total_cost (es ++ [e]) = total_cost es + ev_cost e.
Proof. unfold total_cost. induction es as [|x es IH]; cbn [app fold_right]; [lia|]. rewrite IH. lia. Qed.

Definition origin (P : bytes) (es : list sev) (l : list deed) (i : nat) (d : deed) (t : txn) : Prop :=
  exists d0 l1 l2 n, sees l (s_begin d) l1 l2 /\ eternal (d_kv d0) /\ rep P n (d_kv d0) (after l1) /\ n <= lcost l /\
    ops_exec P (new_txn d0 (s_upd d) []) (calls d) = (t, answers d) /\
    Forall sok (calls d) /\ (s_upd d = false -> Forall (fun o => is_read o = true) (calls d)) /\ In (SBegin i (s_upd d)) es.
Record winv (P : bytes) (es : list sev) (w : sworld) (J : journal) (l : list deed) : Prop := {
  v_ok : db_ok (sw_db w);
  v_et : eternal (d_kv (sw_db w));
  v_rep : rep P (lcost l) (d_kv (sw_db w)) (after l);
  v_perm : Permutation l (j_done J);
  v_replays : replays s_empty l;
  v_rt : real_time l;
  v_tx : forall i t, sw_tx w i = Some t -> tx_ok (sw_db w) t;
  v_open : forall i, match find_tx i (j_open J), sw_tx w i with
                     | Some d, Some t => origin P es l i d t
                     | None, None => True
                     | _, _ => False
                     end;
  v_told : forall d, In d (j_rest J ++ j_done J) -> one_moment l d /\ (s_begin d < j_now J)%nat;
  v_cost : lcost l + ocost (j_open J) <= total_cost es;
  v_end : forall d, In d l -> (s_begin d < j_now J)%nat /\ (s_end d < j_now J)%nat;
  v_begun : forall i d, find_tx i (j_open J) = Some d -> (s_begin d < j_now J)%nat
}.
Lemma new_view_eternal d u : eternal (d_kv d) -> view (new_txn d u []) = d_kv d.
Proof. intros E. rewrite view_new_dview. apply DocSerialProofs.dview_eternal. exact E. Qed.
(** an open transaction *)
Lemma origin_state P es l i d t : good_prefix P -> origin P es l i d t -> lcost l + dcost d < two63 ->
  one_moment l d /\ exists d0 l1 l2 n, sees l (s_begin d) l1 l2 /\ eternal (d_kv d0) /\ rep P n (d_kv d0) (after l1) /\ n <= lcost l /\
    ops_exec P (new_txn d0 (s_upd d) []) (calls d) = (t, answers d) /\ answers d = snd (sref_run (after l1) (calls d)) /\
    okt (s_upd d) t /\ rep P (n + dcost d) (view t) (fst (sref_run (after l1) (calls d))) /\ keeps (new_txn d0 (s_upd d) []) t.
Proof.
  intros G (d0 & l1 & l2 & n & Se & Et & R & Ln & C & F & RO & _) L.
  destruct (ops_refine P (s_upd d) (calls d) G F RO (new_txn d0 (s_upd d) []) (after l1) n) as (t' & E & O' & R' & K').
  - apply okt_new. reflexivity.
  - rewrite new_view_eternal by exact Et. exact R.
  - unfold dcost in L. lia.
  - rewrite C in E. assert (t' = t) by congruence. subst t'. assert (A : answers d = snd (sref_run (after l1) (calls d))) by congruence. split.
    + apply one_moment_sees. exists l1, l2. auto.
    + exists d0, l1, l2, n. auto 12.
Qed.
Lemma origin_es P es e l i d t : origin P es l i d t -> origin P (es ++ [e]) l i d t.
Proof. intros (d0 & l1 & l2 & n & H1 & H2 & H3 & H4 & H5 & H6 & H7 & H8). exists d0, l1, l2, n. repeat (split; [assumption|]). apply in_or_app. left. exact H8. Qed.
Lemma origin_snoc P es l i d t x : origin P es l i d t -> (s_begin d <= s_end x)%nat -> origin P es (l ++ [x]) i d t.
Proof.
  intros (d0 & l1 & l2 & n & H1 & H2 & H3 & H4 & H5 & H6 & H7 & H8) B. exists d0, l1, (l2 ++ [x]), n. split; [apply sees_snoc; assumption|].
  split; [exact H2|]. split; [exact H3|]. split; [|auto]. rewrite lcost_app. pose proof (lcost_nonneg [x]). lia.
Qed.
Lemma origin_insert P es m1 m2 i d t x : origin P es (m1 ++ m2) i d t -> (s_begin d <= s_end x)%nat -> sst_eq (after (m1 ++ [x])) (after m1) ->
  origin P es (m1 ++ x :: m2) i d t.
Proof.
  intros (d0 & l1 & l2 & n & H1 & H2 & H3 & H4 & H5 & H6 & H7 & H8) B N. destruct (sees_insert _ _ _ _ _ _ H1 B N) as (l1' & l2' & H1' & Eq).
  exists d0, l1', l2', n. split; [exact H1'|]. split; [exact H2|]. split; [eapply rep_ext; eassumption|]. split; [|auto].
  rewrite lcost_app in *. change (x :: m2) with ([x] ++ m2). rewrite lcost_app. pose proof (lcost_nonneg [x]). lia.
Qed.
Lemma told_snoc l d x : one_moment l d -> (s_begin d <= s_end x)%nat -> one_moment (l ++ [x]) d.
Proof. rewrite !one_moment_sees. intros (l1 & l2 & H1 & H2) B. exists l1, (l2 ++ [x]). split; [apply sees_snoc; assumption | exact H2]. Qed.
Lemma told_insert m1 m2 d x : one_moment (m1 ++ m2) d -> (s_begin d <= s_end x)%nat -> sst_eq (after (m1 ++ [x])) (after m1) -> one_moment (m1 ++ x :: m2) d.
Proof.
  rewrite !one_moment_sees. intros (l1 & l2 & H1 & H2) B N. destruct (sees_insert _ _ _ _ _ _ H1 B N) as (l1' & l2' & H1' & Eq).
  exists l1', l2'. split; [exact H1'|]. rewrite H2. apply sref_run_eq. exact Eq.
Qed.
Lemma told_ended l d n : one_moment l d -> one_moment l (ended n d).
Proof. intros H. exact H. Qed.
Section Steps.
Variable P : bytes.
Hypothesis G : good_prefix P.
Lemma open_cost es w J l i d : winv P es w J l -> total_cost es < two63 -> find_tx i (j_open J) = Some d -> lcost l + dcost d < two63.
Proof.
  intros V T F. pose proof (v_cost _ _ _ _ _ V) as C. pose proof (ocost_forget i (j_open J)) as O. rewrite F in O.
  pose proof (lcost_nonneg (map snd (forget i (j_open J)))). unfold ocost in *. lia.
Qed.
Lemma winv_quiet es w J l e w' open rest : winv P es w J l ->
  db_ok (sw_db w') -> eternal (d_kv (sw_db w')) -> rep P (lcost l) (d_kv (sw_db w')) (after l) ->
  (forall i t, sw_tx w' i = Some t -> tx_ok (sw_db w') t) ->
  (forall i, match find_tx i open, sw_tx w' i with
             | Some d, Some t => origin P (es ++ [e]) l i d t
             | None, None => True
             | _, _ => False
             end) ->
  (forall d, In d rest -> one_moment l d /\ (s_begin d <= j_now J)%nat) ->
  lcost l + ocost open <= total_cost (es ++ [e]) ->
  (forall i d, find_tx i open = Some d -> (s_begin d <= j_now J)%nat) ->
  winv P (es ++ [e]) w' (Journal (S (j_now J)) open (j_done J) rest) l.
Proof.
  intros V K E R T O Q C B. split; cbn [j_open j_done j_rest j_now]; try assumption; try apply V.
  - intros d Hd. apply in_app_or in Hd. destruct Hd as [Hd|Hd].
    + destruct (Q d Hd) as [Q1 Q2]. split; [exact Q1 | lia].
    + destruct (v_told _ _ _ _ _ V d) as [Q1 Q2]; [apply in_or_app; right; exact Hd|]. split; [exact Q1 | lia].
  - intros d Hd. pose proof (v_end _ _ _ _ _ V d Hd). lia.
  - intros i d Hd. specialize (B i d Hd). lia.
Qed.
Lemma rest_told es w J l : winv P es w J l -> forall d, In d (j_rest J) -> one_moment l d /\ (s_begin d <= j_now J)%nat.
Proof. intros V d Hd. destruct (v_told _ _ _ _ _ V d) as [Q1 Q2]; [apply in_or_app; left; exact Hd|]. split; [exact Q1 | lia]. Qed.
Lemma left_told es w J l n i : winv P es w J l -> total_cost es < two63 -> forall d, In d (left_over n i (j_open J)) -> one_moment l d /\ (s_begin d <= j_now J)%nat.
Proof.
  intros V T d Hd. unfold left_over in Hd. pose proof (v_open _ _ _ _ _ V i) as O. destruct (find_tx i (j_open J)) as [d'|] eqn:F; [|destruct Hd].
  destruct Hd as [<-|[]]. destruct (sw_tx w i) as [t|]; [|destruct O]. split; [|cbn; exact (Nat.lt_le_incl _ _ (v_begun _ _ _ _ _ V i d' F))]. apply told_ended. eapply origin_state; [exact G | exact O | eapply open_cost; eassumption].
Qed.
Lemma ev_cost_nonneg e : 0 <= ev_cost e.
Proof. destruct e; cbn [ev_cost]; try lia. apply scost_nonneg. Qed.
Lemma open_keep es w J l e : winv P es w J l -> forall j, match find_tx j (j_open J), sw_tx w j with
  | Some d, Some t => origin P (es ++ [e]) l j d t | None, None => True | _, _ => False end.
Proof. intros V j. pose proof (v_open _ _ _ _ _ V j) as O. destruct (find_tx j (j_open J)), (sw_tx w j); try exact O. apply origin_es. exact O. Qed.
Lemma cost_keep es w J l e : winv P es w J l -> lcost l + ocost (j_open J) <= total_cost (es ++ [e]).
Proof. intros V. rewrite total_snoc. pose proof (v_cost _ _ _ _ _ V). pose proof (ev_cost_nonneg e). lia. Qed.
Lemma begun_keep es w J l : winv P es w J l -> forall i d, find_tx i (j_open J) = Some d -> (s_begin d <= j_now J)%nat.
Proof. intros V i d F. pose proof (v_begun _ _ _ _ _ V i d F). lia. Qed.
Lemma winv_drop es w J l e i : winv P es w J l -> total_cost es < two63 ->
  winv P (es ++ [e]) (SW (sw_db w) (sw_upd (sw_tx w) i None)) (Journal (S (j_now J)) (forget i (j_open J)) (j_done J) (j_rest J ++ left_over (j_now J) i (j_open J))) l.
Proof.
  intros V T. apply (winv_quiet es w); try apply V; try exact V; cbn [sw_db sw_tx].
  - intros j t. unfold sw_upd. destruct (Nat.eqb j i); [discriminate | apply (v_tx _ _ _ _ _ V)].
  - intros j. rewrite find_forget. unfold sw_upd. destruct (Nat.eqb j i); [exact Logic.I|]. apply (open_keep _ _ _ _ _ V).
  - intros d Hd. apply in_app_or in Hd. destruct Hd as [Hd|Hd]; [eapply rest_told; eassumption | eapply left_told; eassumption].
  - pose proof (cost_keep _ _ _ _ e V). pose proof (ocost_forget i (j_open J)) as O.
    assert (N : 0 <= match find_tx i (j_open J) with Some d => dcost d | None => 0 end) by (destruct (find_tx i (j_open J)); [apply cost_nonneg | lia]). lia.
  - intros j d. rewrite find_forget. destruct (Nat.eqb j i); [discriminate|]. apply (begun_keep _ _ _ _ V).
Qed.
Lemma step_begin es w J l i u : winv P es w J l -> total_cost es < two63 ->
  winv P (es ++ [SBegin i u]) (fst (sstep P w (SBegin i u))) (jstep J (SBegin i u, snd (sstep P w (SBegin i u)))) l.
Proof.
  intros V T. cbn [sstep fst snd jstep]. apply (winv_quiet es w); try apply V; try exact V; cbn [sw_db sw_tx].
  - intros j t. unfold sw_upd. destruct (Nat.eqb j i); [|apply (v_tx _ _ _ _ _ V)]. intros Y. inversion Y. subst t. split; [cbn; lia|]. reflexivity.
  - intros j. rewrite find_cons, find_forget. unfold sw_upd. destruct (Nat.eqb j i) eqn:Ej; [|apply (open_keep _ _ _ _ _ V)].
    apply Nat.eqb_eq in Ej. subst j. exists (sw_db w), l, [], (lcost l). cbn [s_begin s_upd s_calls calls answers map ops_exec].
    split; [split; [rewrite app_nil_r; reflexivity|]; split; [intros a []|]|].
    { intros u0 a v E. left. apply (v_end _ _ _ _ _ V). rewrite E. apply in_or_app. right. left. reflexivity. }
    split; [apply V|]. split; [apply V|]. split; [lia|]. split; [reflexivity|]. split; [constructor|]. split; [constructor|].
    apply in_or_app. right. left. reflexivity.
  - intros d Hd. apply in_app_or in Hd. destruct Hd as [Hd|Hd]; [eapply rest_told; eassumption | eapply left_told; eassumption].
  - pose proof (cost_keep _ _ _ _ (SBegin i u) V). pose proof (ocost_forget i (j_open J)) as O.
    assert (N : 0 <= match find_tx i (j_open J) with Some d => dcost d | None => 0 end) by (destruct (find_tx i (j_open J)); [apply cost_nonneg | lia]).
    change (ocost ((i, Deed u (j_now J) (j_now J) []) :: forget i (j_open J))) with (0 + ocost (forget i (j_open J))). lia.
  - intros j d. rewrite find_cons, find_forget. destruct (Nat.eqb j i); [intros E; inversion E; cbn; lia|]. apply (begun_keep _ _ _ _ V).
Qed.
Lemma cost_app a b : cost (a ++ b) = cost a + cost b.
Proof. unfold cost. induction a as [|x a IH]; cbn [app fold_right]; [lia|]. rewrite IH. lia. Qed.
Lemma step_call es w J l i o : winv P es w J l -> history_ok P (es ++ [SCall i o]) ->
  winv P (es ++ [SCall i o]) (fst (sstep P w (SCall i o))) (jstep J (SCall i o, snd (sstep P w (SCall i o)))) l.
Proof.
  intros V HO. cbn [sstep]. pose proof (v_open _ _ _ _ _ V i) as O. destruct (sw_tx w i) as [t|] eqn:Ex.
  - destruct (find_tx i (j_open J)) as [d|] eqn:Ef; [|destruct O]. destruct (sexec P o t) as [t' r] eqn:Ec. cbn [fst snd jstep]. rewrite Ef.
    assert (IN : In (SCall i o) (es ++ [SCall i o])) by (apply in_or_app; right; left; reflexivity).
    set (d1 := Deed (s_upd d) (s_begin d) (j_now J) (s_calls d ++ [(o, r)])).
    assert (Cd : dcost d1 = dcost d + scost o) by (unfold dcost, calls, d1; cbn [s_calls]; rewrite map_app, cost_app; cbn; lia).
    assert (CC : lcost l + ocost ((i, d1) :: forget i (j_open J)) <= total_cost (es ++ [SCall i o])).
    { change (ocost ((i, d1) :: forget i (j_open J))) with (dcost d1 + ocost (forget i (j_open J))). rewrite total_snoc. cbn [ev_cost].
      pose proof (v_cost _ _ _ _ _ V). pose proof (ocost_forget i (j_open J)) as Of. rewrite Ef in Of. lia. }
    pose proof (ok_cost _ _ HO) as TC.
    assert (O1 : origin P (es ++ [SCall i o]) l i d1 t').
    { destruct O as (d0 & l1 & l2 & n & H1 & H2 & H3 & H4 & H5 & H6 & H7 & H8). exists d0, l1, l2, n. unfold calls, answers, d1. cbn [s_begin s_upd s_calls].
      rewrite !map_app. cbn [map fst snd]. repeat (split; [assumption|]).
      split; [rewrite ops_exec_app; unfold calls in H5; rewrite H5; cbn [ops_exec]; rewrite Ec; reflexivity|].
      split; [apply Forall_app; split; [exact H6|]; constructor; [eapply (ok_args _ _ HO); exact IN | constructor]|].
      split; [|apply in_or_app; left; exact H8]. intros U. apply Forall_app. split; [exact (H7 U)|]. constructor; [|constructor]. rewrite U in H8.
      apply (ok_ro _ _ HO i o); [apply in_or_app; left; exact H8 | exact IN]. }
    assert (K : keeps t t').
    { pose proof O as (d0 & l1 & l2 & n & H1 & H2 & H3 & H4 & H5 & H6 & H7 & H8).
      assert (L1 : lcost l + dcost d < two63) by (rewrite total_snoc in TC; pose proof (ev_cost_nonneg (SCall i o)); eapply open_cost; [exact V | lia | exact Ef]).
      pose proof (lcost_nonneg (map snd (forget i (j_open J)))) as N1. fold (ocost (forget i (j_open J))) in N1.
      change (ocost ((i, d1) :: forget i (j_open J))) with (dcost d1 + ocost (forget i (j_open J))) in CC.
      destruct (ops_refine P (s_upd d) (calls d) G H6 H7 (new_txn d0 (s_upd d) []) (after l1) n) as (ta & E & O' & R' & K');
        [apply okt_new; reflexivity | rewrite new_view_eternal by exact H2; exact H3 | unfold dcost in *; lia|].
      rewrite H5 in E. assert (ta = t) by congruence. subst ta.
      destruct (op_refines P (s_upd d) o t (fst (sref_run (after l1) (calls d))) (n + cost (calls d)) G) as (tb & Eb & _ & _ & Kb); try assumption.
      - eapply (ok_args _ _ HO); exact IN.
      - intros U. rewrite U in H8. apply (ok_ro _ _ HO i o); [apply in_or_app; left; exact H8 | exact IN].
      - unfold dcost in *. lia.
      - rewrite Ec in Eb. assert (tb = t') by congruence. subst tb. exact Kb. }
    apply (winv_quiet es w); try apply V; try exact V; cbn [sw_db sw_tx].
    + intros j y. unfold sw_upd. destruct (Nat.eqb j i) eqn:Ej; [|apply (v_tx _ _ _ _ _ V)]. intros Y. inversion Y. subst y.
      destruct K as (K1 & K2 & _). apply (DocSerialProofs.keeps_tx_ok _ t); [congruence | congruence | apply (v_tx _ _ _ _ _ V i); exact Ex].
    + intros j. rewrite find_cons, find_forget. unfold sw_upd. destruct (Nat.eqb j i) eqn:Ej; [apply Nat.eqb_eq in Ej; subst j; exact O1|].
      apply (open_keep _ _ _ _ _ V).
    + eapply rest_told; exact V.
    + exact CC.
    + intros j y. rewrite find_cons, find_forget. destruct (Nat.eqb j i); [intros E; inversion E; subst y; cbn; exact (begun_keep _ _ _ _ V i d Ef)|]. apply (begun_keep _ _ _ _ V).
  - cbn [fst snd jstep]. apply (winv_quiet es w); try apply V; try exact V.
    + apply (open_keep _ _ _ _ _ V).
    + eapply rest_told; exact V.
    + apply (cost_keep _ _ _ _ _ V).
    + apply (begun_keep _ _ _ _ V).
Qed.
Definition cautious (l : list deed) : Prop :=
  forall d, In d l -> existsb lists_fields (calls d) = true -> forallb is_read (calls d) = true.
Lemma perm_insert {A} (m1 m2 l : list A) x : Permutation (m1 ++ m2) l -> Permutation (m1 ++ x :: m2) (l ++ [x]).
Proof. intros H. rewrite <- Permutation_middle, <- Permutation_cons_append. constructor. exact H. Qed.
Lemma step_commit es w J l i io : winv P es w J l -> total_cost es < two63 ->
  cautious (j_done (jstep J (SCommit i io, snd (sstep P w (SCommit i io))))) ->
  exists l', winv P (es ++ [SCommit i io]) (fst (sstep P w (SCommit i io))) (jstep J (SCommit i io, snd (sstep P w (SCommit i io)))) l'.
Proof.
  intros V T NS. cbn [sstep] in *. pose proof (v_open _ _ _ _ _ V i) as O. destruct (sw_tx w i) as [t|] eqn:Ex.
  2:{ exists l. cbn [fst snd jstep]. destruct (find_tx i (j_open J)) as [d|] eqn:Ef; [destruct O|]. pose proof (winv_drop _ _ _ _ (SCommit i io) i V T) as W.
      destruct W as [W1 W2 W3 W4 W5 W6 W7 W8 W9 W10 W11 W12]. split; cbn [sw_db sw_tx j_open j_done j_rest j_now] in *; try assumption; [apply V|].
      intros j. specialize (W8 j). unfold sw_upd in W8. destruct (Nat.eqb j i) eqn:Ej; [|exact W8]. apply Nat.eqb_eq in Ej. subst j.
      rewrite find_forget, Nat.eqb_refl, Ex. exact Logic.I. }
  destruct (find_tx i (j_open J)) as [d|] eqn:Ef; [|destruct O].
  pose proof (winv_drop _ _ _ _ (SCommit i io) i V T) as DROP.
  pose proof (open_cost _ _ _ _ _ _ V T Ef) as LC.
  destruct (origin_state P es l i d t G O LC) as (Told & d0 & l1 & l2 & n & Se & Et & R & Ln & C & A & Ot & Rt & K).
  pose proof O as (_ & _ & _ & _ & _ & _ & _ & _ & _ & Fo & RO & _).
  pose proof (v_begun _ _ _ _ _ V i d Ef) as Bd. set (x := ended (j_now J) d) in *.
  destruct (commit (sw_db w) t io) as [[d1 t1] r] eqn:Ecm. unfold commit in Ecm. rewrite (proj1 Ot) in Ecm. cbn [negb] in Ecm.
  assert (OC : lcost l + dcost d + ocost (forget i (j_open J)) <= total_cost (es ++ [SCommit i io])).
  { pose proof (cost_keep _ _ _ _ (SCommit i io) V). pose proof (ocost_forget i (j_open J)) as Of. rewrite Ef in Of. lia. }
  assert (BE : forall y, (s_begin y < (j_now J))%nat -> (s_begin y <= s_end x)%nat) by (intros y Hy; unfold x; cbn [ended s_end]; lia).
  destruct (entries (t_pend t)) as [|p0 lp] eqn:Ep.
  - (* nothing to write *)
    inversion Ecm. subst d1 t1 r. clear Ecm. cbn [fst snd jstep] in *.  unfold left_over in *. rewrite Ef in *. fold x in NS, DROP |- *.
    destruct Se as (El & Fl & Ql).
    assert (NW : sst_eq (after (l1 ++ [x])) (after l1)).
    { rewrite after_app. cbn [run_all fold_left]. change (calls x) with (calls d).
      assert (Vt : view t = d_kv d0).
      { rewrite <- (new_view_eternal d0 (s_upd d) Et). destruct K as (K1 & K2 & K3 & _). unfold view. apply entries_nil_iff in Ep. rewrite Ep, K1, K3. reflexivity. }
      apply (rep_inj P (s_upd d) t (n + dcost d) n); [exact Ot | exact Rt | rewrite Vt; exact R | lia|].
      pose proof (cost_nonneg (calls d)) as C0. fold (dcost d) in C0. lia. }
    exists (l1 ++ x :: l2). rewrite El in *.
    assert (LX : lcost (l1 ++ x :: l2) = lcost (l1 ++ l2) + dcost d) by (change (x :: l2) with ([x] ++ l2); rewrite !lcost_app; change (lcost [x]) with (dcost d + 0); lia).
    assert (AX : sst_eq (after (l1 ++ l2)) (after (l1 ++ x :: l2))).
    { rewrite (after_app l1 l2). change (x :: l2) with ([x] ++ l2). rewrite app_assoc, (after_app (l1 ++ [x]) l2). apply run_all_eq, sst_sym, NW. }
    split; cbn [sw_db sw_tx j_open j_done j_rest j_now].
    + apply V.
    + apply V.
    + rewrite LX. pose proof (cost_nonneg (calls d)) as C0. fold (dcost d) in C0. eapply rep_ext; [exact AX|]. eapply rep_le; [apply (v_rep _ _ _ _ _ V) | lia].
    + apply perm_insert, V.
    + apply replays_insert; [apply V | exact A | exact NW].
    + pose proof (v_rt _ _ _ _ _ V) as RT. apply real_time_app in RT. destruct RT as (RT1 & RT2 & RT3). apply real_time_app. split; [exact RT1|]. split.
      * cbn [real_time]. split; [exact Fl | exact RT2].
      * intros a b Ha [<-|Hb]; [|apply RT3; assumption]. apply BE. apply (v_end _ _ _ _ _ V). apply in_or_app. left. exact Ha.
    + intros j y. unfold sw_upd. destruct (Nat.eqb j i); [discriminate | apply (v_tx _ _ _ _ _ V)].
    + intros j. rewrite find_forget. unfold sw_upd. destruct (Nat.eqb j i); [exact Logic.I|]. pose proof (v_open _ _ _ _ _ V j) as Oj.
      destruct (find_tx j (j_open J)) as [y|] eqn:Fj, (sw_tx w j); try exact Oj. apply origin_es. apply origin_insert; [exact Oj | apply BE, (v_begun _ _ _ _ _ V j y Fj) | exact NW].
    + intros q Hq. rewrite app_assoc in Hq. apply in_app_or in Hq. destruct Hq as [Hq|[<-|[]]].
      * destruct (v_told _ _ _ _ _ V q Hq) as [Tq Bq]. split; [|lia].
        apply told_insert; [exact Tq | apply BE, Bq | exact NW].
      * split; [|unfold x; cbn; lia]. apply told_insert; [exact Told | apply BE, Bd | exact NW].
    + rewrite LX. lia.
    + intros y Hy. apply in_app_or in Hy. destruct Hy as [Hy|[<-|Hy]].
      * assert (Q := v_end _ _ _ _ _ V y ltac:(apply in_or_app; left; exact Hy)).  lia.
      * unfold x. cbn. lia.
      * assert (Q := v_end _ _ _ _ _ V y ltac:(apply in_or_app; right; exact Hy)).  lia.
    + intros j y. rewrite find_forget. destruct (Nat.eqb j i); [discriminate|]. intros Fj. pose proof (v_begun _ _ _ _ _ V j y Fj) as Q.  lia.
  - destruct (conflict (sw_db w) t) eqn:Cf; [inversion Ecm; subst; exists l; exact DROP|].
    destruct io; [inversion Ecm; subst; exists l; exact DROP|].
    inversion Ecm. subst d1 t1 r. clear Ecm. cbn [fst snd jstep] in *.  unfold left_over in *. rewrite Ef in *. fold x in NS, DROP |- *.
    assert (PE : t_pend t <> empty) by (intros Y; rewrite Y in Ep; discriminate Ep).
    assert (NR : forallb is_read (calls d) = false).
    { destruct (forallb is_read (calls d)) eqn:Fr; [|reflexivity]. exfalso. apply PE. rewrite forallb_forall in Fr.
      rewrite (ops_quiet P (calls d) ltac:(apply Forall_forall; exact Fr) _ _ _ C). reflexivity. }
    assert (U : s_upd d = true).
    { destruct (s_upd d); [reflexivity|]. specialize (RO eq_refl). rewrite Forall_forall in RO. apply forallb_forall in RO. congruence. }
    assert (NL : forallb (fun o => negb (lists_fields o)) (calls d) = true).
    { assert (NE : existsb lists_fields (calls d) = false).
      { destruct (existsb lists_fields (calls d)) eqn:El; [|reflexivity]. assert (Q := NS x ltac:(cbn [j_done]; apply in_or_app; right; left; reflexivity) El). change (calls x) with (calls d) in Q. congruence. }
      apply forallb_forall. intros o Ho. apply negb_true_iff. destruct (lists_fields o) eqn:Lo; [|reflexivity].
      assert (Y : existsb lists_fields (calls d) = true) by (apply existsb_exists; exists o; auto). congruence. }
    rewrite U in *.
    (* the same calls on a transaction created now *)
    assert (CN : 0 <= dcost d) by apply cost_nonneg.
    destruct (ops_twin P (calls d) G Fo NL (new_txn d0 true []) t (answers d) (after l1) n C) as [M TW]; [apply okt_new; reflexivity | reflexivity | rewrite new_view_eternal by exact Et; exact R | fold (dcost d); lia|].
    destruct K as (K1 & K2 & K3 & K4 & K5). cbn [new_txn t_snap t_rts t_now t_upd] in K1, K2, K3, K4.
    pose proof (v_tx _ _ _ _ _ V i t Ex) as TX.
    assert (RV : rep P (lcost l) (view (new_txn (sw_db w) true [])) (after l)) by (rewrite new_view_eternal by apply (v_et _ _ _ _ _ V); apply V).
    destruct (TW (new_txn (sw_db w) true []) (after l) (lcost l)) as (t2 & C2 & A2 & T2 & K6).
    { repeat split. }
    { split; [exact Et|]. split; [apply (v_et _ _ _ _ _ V)|]. intros k e X. discriminate X. }
    { apply okt_new. reflexivity. }
    { exact RV. }
    { fold (dcost d). lia. }
    { intros k Hk. cbn [new_txn t_snap]. rewrite <- K1. symmetry. eapply conflict_free; [exact TX | exact Cf | exact Hk]. }
    destruct (ops_refine P true (calls d) G Fo ltac:(discriminate) (new_txn (sw_db w) true []) (after l) (lcost l)) as (t3 & C3 & _ & R3 & _);
      [apply okt_new; reflexivity | exact RV | fold (dcost d); lia|].
    rewrite C2 in C3. assert (t3 = t2) by congruence. subst t3.
    assert (AN : answers x = snd (sref_run (after l) (calls d))) by (change (answers x) with (answers d); congruence).
    destruct A2 as (_ & _ & _ & P3). destruct T2 as (_ & _ & PEt).
    assert (EP : eternal (apply_pend (d_kv (sw_db w)) (t_pend t))) by (apply DocSerialProofs.eternal_apply; [apply (v_et _ _ _ _ _ V) | exact PEt]).
    assert (VW : view t2 = apply_pend (d_kv (sw_db w)) (t_pend t)).
    { apply smap_ext. intros k. rewrite get_view, <- P3. destruct K6 as (Q1 & _). rewrite Q1. cbn [new_txn t_snap].
      rewrite <- get_apply_pend. destruct (get (apply_pend (d_kv (sw_db w)) (t_pend t)) k) as [e|] eqn:Ge; [|reflexivity].
      rewrite SerialProofs.live_eternal by (eapply EP; exact Ge). reflexivity. }
    exists (l ++ [x]).
    assert (LX : lcost (l ++ [x]) = lcost l + dcost d) by (rewrite lcost_app; change (lcost [x]) with (dcost d + 0); lia).
    split; cbn [sw_db sw_tx j_open j_done j_rest j_now].
    + apply db_ok_publish, V.
    + exact EP.
    + cbn [publish d_kv]. rewrite <- VW, LX, after_app. cbn [run_all fold_left]. exact R3.
    + apply Permutation_app; [apply V | reflexivity].
    + apply replays_app. split; [apply V|]. cbn [replays]. split; [exact AN | exact Logic.I].
    + apply real_time_app. split; [apply V|]. split; [cbn; split; [intros b [] | exact Logic.I]|].
      intros a b Ha [<-|[]]. apply BE. apply (v_end _ _ _ _ _ V a Ha).
    + intros j y. unfold sw_upd. destruct (Nat.eqb j i); [discriminate|]. intros Y. apply publish_ok; [apply V | apply (v_tx _ _ _ _ _ V j), Y].
    + intros j. rewrite find_forget. unfold sw_upd. destruct (Nat.eqb j i); [exact Logic.I|]. pose proof (v_open _ _ _ _ _ V j) as Oj.
      destruct (find_tx j (j_open J)) as [y|] eqn:Fj, (sw_tx w j); try exact Oj. apply origin_es, origin_snoc; [exact Oj | apply BE, (v_begun _ _ _ _ _ V j y Fj)].
    + intros q Hq. rewrite app_assoc in Hq. apply in_app_or in Hq. destruct Hq as [Hq|[<-|[]]].
      * destruct (v_told _ _ _ _ _ V q Hq) as [Tq Bq]. split; [|lia].
        apply told_snoc; [exact Tq | apply BE, Bq].
      * split; [|unfold x; cbn; lia]. apply told_snoc; [exact Told | apply BE, Bd].
    + rewrite LX. lia.
    + intros y Hy. apply in_app_or in Hy. destruct Hy as [Hy|[<-|[]]].
      * pose proof (v_end _ _ _ _ _ V y Hy) as Q.  lia.
      * unfold x. cbn. lia.
    + intros j y. rewrite find_forget. destruct (Nat.eqb j i); [discriminate|]. intros Fj. pose proof (v_begun _ _ _ _ _ V j y Fj) as Q.  lia.
Qed.
Lemma step_winv es w J l e : winv P es w J l -> history_ok P (es ++ [e]) -> cautious (j_done (jstep J (e, snd (sstep P w e)))) ->
  exists l', winv P (es ++ [e]) (fst (sstep P w e)) (jstep J (e, snd (sstep P w e))) l'.
Proof.
  intros V HO NS.
  assert (T : total_cost es < two63) by (pose proof (ok_cost _ _ HO) as TC; rewrite total_snoc in TC; pose proof (ev_cost_nonneg e); lia).
  destruct e as [i u|i o|i io|i|t io|n].
  - exists l. apply step_begin; assumption.
  - exists l. apply step_call; assumption.
  - apply (step_commit es w J l); assumption.
  - exists l. cbn [sstep fst snd jstep]. apply winv_drop; assumption.
  - exists l. cbn [sstep]. pose proof (ok_other _ _ HO t io ltac:(apply in_or_app; right; left; reflexivity)) as H.
    assert (CM : exists t' r, commit (sw_db w) t io = (sw_db w, t', r) \/ commit (sw_db w) t io = (publish (sw_db w) t, t', r)).
    { unfold commit. destruct (negb (t_open t)); [eauto|]. destruct (entries (t_pend t)); [eauto|]. destruct (conflict (sw_db w) t); [eauto|]. destruct io; eauto. }
    destruct CM as (t' & r & [-> | ->]); cbn [fst snd jstep].
    + apply (winv_quiet es w J l); try apply V; try exact V; [apply (open_keep _ _ _ _ _ V) | eapply rest_told; exact V | apply (cost_keep _ _ _ _ _ V) | apply (begun_keep _ _ _ _ V)].
    + apply (winv_quiet es w J l); try exact V; cbn [sw_db sw_tx].
      * apply db_ok_publish, (v_ok _ _ _ _ _ V).
      * cbn [publish d_kv]. apply DocSerialProofs.eternal_apply; [apply (v_et _ _ _ _ _ V)|]. intros k. apply H.
      * cbn [publish d_kv]. destruct (v_rep _ _ _ _ _ V) as [(Ls & W & B) Hh On].
        assert (GE : forall k, has_prefix k P = true -> get (apply_pend (d_kv (sw_db w)) (t_pend t)) k = get (d_kv (sw_db w)) k).
        { intros k Hk. rewrite get_apply_pend, (proj1 (H k) Hk). reflexivity. }
        split; [exists Ls; split; [|exact B] | exact Hh |].
        -- intros d Vd. rewrite GE by apply ek_prefix. apply W, Vd.
        -- intros key e Gk Hk. rewrite GE in Gk by exact Hk. eapply On; eassumption.
      * intros j x Y. apply publish_ok; [apply (v_ok _ _ _ _ _ V) | apply (v_tx _ _ _ _ _ V j x Y)].
      * apply (open_keep _ _ _ _ _ V).
      * eapply rest_told; exact V.
      * apply (cost_keep _ _ _ _ _ V).
      * apply (begun_keep _ _ _ _ V).
  - exists l. cbn [sstep fst snd jstep]. apply (winv_quiet es w J l); try apply V; try exact V; cbn [sw_db sw_tx].
    + apply (open_keep _ _ _ _ _ V).
    + eapply rest_told; exact V.
    + apply (cost_keep _ _ _ _ _ V).
    + apply (begun_keep _ _ _ _ V).
Qed.
Lemma done_snoc w es e : exists l, committed P w (es ++ [e]) = committed P w es ++ l.
Proof.
  unfold committed. rewrite journal_snoc. destruct e as [i u|i o|i io|i|t io|n]; cbn [jstep];
    try (exists []; rewrite app_nil_r; reflexivity).
  - destruct (snd (sstep _ _ _)); try (exists []; rewrite app_nil_r; reflexivity).
    destruct (find_tx _ _); exists []; rewrite app_nil_r; reflexivity.
  - destruct (snd (sstep _ _ _)) as [r|[r|r|]|]; try (exists []; rewrite app_nil_r; reflexivity). eexists. reflexivity.
Qed.
Lemma history_ok_snoc es e : history_ok P (es ++ [e]) -> history_ok P es.
Proof.
  intros H. assert (I : forall x, In x es -> In x (es ++ [e])) by (intros x Hx; apply in_or_app; left; exact Hx). split.
  - intros i o Hx. apply (ok_args _ _ H i), I, Hx.
  - intros i o Hx Hy. apply (ok_ro _ _ H i); apply I; assumption.
  - intros t io Hx. apply (ok_other _ _ H t io), I, Hx.
  - pose proof (ok_cost _ _ H) as TC. rewrite total_snoc in TC. pose proof (ev_cost_nonneg e). lia.
Qed.
Lemma rep_nothing n : 0 <= n -> rep P n empty s_empty.
Proof.
  intros N. split.
  - exists (fun _ => 0). split; [|intros k; cbn; lia]. intros d V. destruct d; cbn; try reflexivity. destruct (0 <=? i); [destruct (Z.to_nat (i - 0))|]; reflexivity.
  - intros k. cbn. lia.
  - intros key e Hk. discriminate Hk.
Qed.
Lemma winv_run now clamp es : history_ok P es -> cautious (committed P (sfresh now clamp) es) ->
  exists l, winv P es (fst (shist P (sfresh now clamp) es)) (journal_of P (sfresh now clamp) es) l.
Proof.
  induction es as [|e es IH] using rev_ind; intros H NS.
  - exists []. split; cbn; auto.
    + apply db_ok_init.
    + discriminate.
    + apply rep_nothing. lia.
    + discriminate.
    + intros d [].
    + lia.
    + intros d [].
    + discriminate.
  - rewrite shist_snoc, journal_snoc. destruct IH as (l & V).
    + eapply history_ok_snoc; exact H.
    + intros d Hd. apply NS. destruct (done_snoc (sfresh now clamp) es e) as (l & ->). apply in_or_app. left. exact Hd.
    + apply (step_winv es _ _ l); [exact V | exact H|]. intros d Hd. apply NS. unfold committed. rewrite journal_snoc. exact Hd.
Qed.
End Steps.
