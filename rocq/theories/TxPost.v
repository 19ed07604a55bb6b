(** What any (possibly size-limited, possibly failing) transaction body has done when it succeeds:
    partial-correctness lemmas used where [spec] (no limits, no interference) is too strong. *)
From Verif Require Import Bytes SMap Provider ProviderProofs World Memcmp MemcmpProofs Numeric KvUtil Struct StructProofs StructHash UtilTxn.

(** [t'] extends [t]: same snapshot, no read forgotten *)
Definition ext (t t' : txn) : Prop :=
  t_snap t' = t_snap t /\ t_rts t' = t_rts t /\ t_now t' = t_now t /\ t_upd t' = t_upd t /\ t_open t' = t_open t /\
  incl (t_reads t) (t_reads t').
Lemma ext_refl t : ext t t.
Proof. unfold ext. intuition (try apply incl_refl). Qed.
Lemma ext_trans a b c : ext a b -> ext b c -> ext a c.
Proof. unfold ext. intuition (try congruence). eapply incl_tran; eassumption. Qed.
Lemma ext_add_read k t : ext t (add_read k t).
Proof. unfold add_read, ext. destruct (t_upd t) eqn:E; cbn; intuition (try apply incl_tl, incl_refl; try apply incl_refl). Qed.
Lemma ext_track k t : ext t (track k t).
Proof. unfold track. destruct (get (t_pend t) k); [apply ext_refl | apply ext_add_read]. Qed.
Lemma ext_put k o l t : ext t (put k o l t).
Proof. unfold ext, put. cbn. intuition (try apply incl_refl). Qed.
Lemma ext_set_lim l t : ext t (set_lim l t).
Proof. unfold ext, set_lim. cbn. intuition (try apply incl_refl). Qed.
Lemma pend_track k t : t_pend (track k t) = t_pend t.
Proof. unfold track, add_read. destruct (get (t_pend t) k); [|destruct (t_upd t)]; reflexivity. Qed.
Lemma reads_track k t : t_upd t = true -> get (t_pend t) k = None -> In k (t_reads (track k t)).
Proof. intros U G. unfold track, add_read. rewrite G, U. cbn. auto. Qed.

Lemma tget_post k t t' r : t_open t = true -> k <> [] -> tget k t = (t', r) ->
  t' = track k t /\ r = match get (view t) k with Some e => Ok (e_val e) | None => Err ErrKeyNotFound end.
Proof.
  intros O N. unfold tget, tgetm, map_err, bget, bind. destruct k as [|c k]; [congruence|]. rewrite O. cbn [negb].
  destruct (get (view t) (c :: k)); intros H; inversion H; auto.
Qed.
Lemma modify_post k o t t' r : map_err too_big (modify k o) t = (t', r) ->
  (r = Ok tt /\ exists l, t' = put k o l t) \/ (exists e, r = Err e /\ (t' = t \/ exists l, t' = set_lim l t)).
Proof.
  unfold map_err, modify. destruct (negb (t_upd t)); [intros H; inversion H; right; eauto|].
  destruct (negb (t_open t)); [intros H; inversion H; right; eauto|].
  destruct (key_err k); [intros H; inversion H; right; eauto|].
  destruct (t_lim t) as [|[|] l]; intros H; inversion H; [left; eauto | right; eauto | left; eauto].
Qed.
Lemma tset_post k v t t' r : tset k v t = (t', r) ->
  (r = Ok tt /\ exists l, t' = put k (Some (mk v)) l t) \/ (exists e, r = Err e /\ (t' = t \/ exists l, t' = set_lim l t)).
Proof. unfold tset, tsetm. cbn [entry_of]. apply modify_post. Qed.
Lemma tset_ok k v t t' a : tset k v t = (t', Ok a) -> exists l, t' = put k (Some (mk v)) l t.
Proof. intros H. destruct (tset_post _ _ _ _ _ H) as [[_ X]|(e & X & _)]; [exact X | discriminate]. Qed.
Lemma get_put k o l t k' : get (t_pend (put k o l t)) k' = if bytes_eqb k' k then Some o else get (t_pend t) k'.
Proof. cbn [put t_pend]. apply get_set. Qed.

Lemma bind_ok {A B} (m : Tx A) (k : A -> Tx B) t t' b : bind m k t = (t', Ok b) ->
  exists t1 a, m t = (t1, Ok a) /\ k a t1 = (t', Ok b).
Proof. unfold bind. destruct (m t) as [t1 [a|e|]]; intros H; try discriminate. eauto. Qed.
Lemma try_ok {A B} (m : Tx A) (k : result A -> Tx B) t t' b : try m k t = (t', Ok b) ->
  exists t1 r, m t = (t1, r) /\ r <> Panic /\ k r t1 = (t', Ok b).
Proof. unfold try. destruct (m t) as [t1 [a|e|]]; intros H; try discriminate; eexists _, _; (split; [reflexivity|]); (split; [discriminate | exact H]). Qed.

(** the value of a key in a fresh transaction, when the stored entry has no expiry *)
Lemma get_view_fresh d u lim k o : get (d_kv d) k = option_map mk o -> get (view (new_txn d u lim)) k = option_map mk o.
Proof.
  intros H. rewrite get_view. cbn [new_txn t_pend t_snap t_now]. rewrite get_empty, H. destruct o as [v|]; cbn; [|reflexivity].
  reflexivity.
Qed.

Lemma IncInt64_post k step t t' v : t_open t = true -> t_upd t = true -> t_pend t = empty -> k <> [] ->
  IncInt64 k step t = (t', Ok v) ->
  ext t t' /\ In k (t_reads t') /\ inc_res (option_map e_val (get (view t) k)) step = Ok v /\
  t_pend t' = set empty k (Some (mk (Encode2Human v))).
Proof.
  intros O U P N H. unfold IncInt64 in H. apply try_ok in H. destruct H as (t1 & r & H1 & _ & H2).
  apply tget_post in H1; try assumption. destruct H1 as [-> ->].
  assert (R : In k (t_reads (track k t))) by (apply reads_track; [exact U | rewrite P; apply get_empty]).
  assert (EX : forall l o, ext t (put k o l (track k t))) by (intros; eapply ext_trans; [apply ext_track | apply ext_put]).
  destruct (get (view t) k) as [e|]; cbn [option_map inc_res].
  - apply bind_ok in H2. destruct H2 as (t2 & n & H3 & H4). apply bind_ok in H4. destruct H4 as (t3 & [] & H5 & H6).
    unfold parse_int in H3. destruct (DecodeFromHuman (nil_of (e_val e))) as [n'|er] eqn:D; [|discriminate].
    inversion H3. subst n' t2. apply tset_ok in H5. destruct H5 as [l ->]. inversion H6. subst t' v.
    split; [apply EX|]. split; [exact R|]. split; [|cbn [put t_pend]; rewrite pend_track, P; reflexivity].
    unfold nil_of in D. destruct (e_val e) as [|c x] eqn:Ev; [discriminate D|].
    pose proof (DecodeFromHuman_range _ _ D) as Rg. apply DecodeFromHuman_spec in D. destruct D as [D _]. unfold as_int.
    rewrite D. unfold is_i64 in Rg. replace ((- two63 <=? n) && (n <? two63)) with true by lia. reflexivity.
  - apply bind_ok in H2. destruct H2 as (t3 & [] & H5 & H6). apply tset_ok in H5. destruct H5 as [l ->]. inversion H6. subst t' v.
    split; [apply EX|]. split; [exact R|]. split; [reflexivity | cbn [put t_pend]; rewrite pend_track, P; reflexivity].
Qed.

(** updateHash: the data key ends with the new value, or nothing was written because it is unchanged *)
Lemma updateHash_post {A} P key field (fn : option bytes -> result (bytes * A)) t t' a :
  t_open t = true -> t_upd t = true -> t_pend t = empty ->
  updateHash P key field fn t = (t', Ok a) ->
  let k := encodeHashDataKey P key field in
  let old := match get (view t) k with Some e => e_val e | None => [] end in
  ext t t' /\ In k (t_reads t') /\
  exists nv, fn (nil_of old) = Ok (nv, a) /\
    ((nv = old /\ t_pend t' = empty) \/ (nv <> old /\ get (t_pend t') k = Some (Some (mk nv)))).
Proof.
  intros O U Pe H k old. unfold updateHash in H. apply try_ok in H. destruct H as (t1 & r & H1 & _ & H2). fold k in H1, H2.
  assert (N : k <> []) by (apply (ek_nonempty P (KHD key field))).
  apply tget_post in H1; try assumption. destruct H1 as [-> ->].
  assert (R : In k (t_reads (track k t))) by (apply reads_track; [exact U | rewrite Pe; apply get_empty]).
  set (cont := fun (isNew : bool) (oldValue : bytes) => match fn (nil_of oldValue) with
      | Err e => fail e | Panic => gopanic
      | Ok (newValue, a) => if bequal oldValue newValue then ret a else
            tset k newValue ;;;
            if negb isNew then ret a
            else n <- try (loadHashMeta P key) (fun r => match r with
                    | Ok n => ret n | Err ErrKeyNotFound => ret 0 | Err e => fail e | Panic => gopanic end) ;;
              tset (encodeHashMetaKey P key) (hmeta_val (to_i64 (n + 1))) ;;; ret a end) in *.
  assert (C : forall isNew, cont isNew old (track k t) = (t', Ok a) -> ext t t' /\ In k (t_reads t') /\
     exists nv, fn (nil_of old) = Ok (nv, a) /\ ((nv = old /\ t_pend t' = empty) \/ (nv <> old /\ get (t_pend t') k = Some (Some (mk nv))))).
  { intros isNew Hc. unfold cont in Hc. destruct (fn (nil_of old)) as [[nv a']|e|]; try discriminate.
    unfold bequal in Hc. destruct (bytes_eqb old nv) eqn:Eq.
    - inversion Hc. subst. split; [apply ext_track|]. split; [exact R|]. exists nv. split; [reflexivity|]. left.
      apply bytes_eqb_eq in Eq. split; [congruence | rewrite pend_track; exact Pe].
    - apply bytes_eqb_neq in Eq. apply bind_ok in Hc. destruct Hc as (t2 & [] & Hs & Hc). apply tset_ok in Hs. destruct Hs as [l ->].
      assert (E2 : ext t (put k (Some (mk nv)) l (track k t))) by (eapply ext_trans; [apply ext_track | apply ext_put]).
      assert (G2 : get (t_pend (put k (Some (mk nv)) l (track k t))) k = Some (Some (mk nv))) by (rewrite get_put, bytes_eqb_refl; reflexivity).
      destruct isNew; cbn [negb] in Hc.
      + apply bind_ok in Hc. destruct Hc as (t3 & n & Hl & Hc). apply bind_ok in Hc. destruct Hc as (t4 & [] & Hs & Hc).
        apply tset_ok in Hs. destruct Hs as [l2 ->]. inversion Hc. subst a' t'.
        set (km := encodeHashMetaKey P key) in *.
        assert (E3 : t3 = track km (put k (Some (mk nv)) l (track k t))).
        { apply try_ok in Hl. destruct Hl as (t5 & r5 & Hl & _ & Hl2).
          assert (t3 = t5) by (destruct r5 as [z|e|]; [|destruct e|]; cbn in Hl2; try discriminate; inversion Hl2; reflexivity). subst t5.
          unfold loadHashMeta, bind in Hl. destruct (tget (encodeHashMetaKey P key) (put k (Some (mk nv)) l (track k t))) as [t6 r6] eqn:Hg.
          apply tget_post in Hg.
          - destruct Hg as [-> _]. destruct r6 as [v6|e6|]; [destruct (DecodeFromBinary v6)| |]; inversion Hl; reflexivity.
          - destruct E2 as (_ & _ & _ & _ & Eo & _). rewrite Eo. exact O.
          - apply (ek_nonempty P (KHM key)). }
        subst t3. split; [eapply ext_trans; [exact E2|]; eapply ext_trans; [apply ext_track | apply ext_put]|].
        split. { apply (ext_put km _ l2). apply (ext_track km). apply (ext_put k _ l). exact R. }
        exists nv. split; [reflexivity|]. right. split; [congruence|]. rewrite get_put, pend_track.
        replace (bytes_eqb k km) with false; [exact G2|]. symmetry. apply bytes_eqb_neq. intros Ek.
        pose proof (ek_inj P (KHD key field) (KHM key) I I Ek). discriminate.
      + inversion Hc. subst. split; [exact E2|]. split; [exact R|]. exists nv. split; [reflexivity|]. right. split; [congruence | exact G2]. }
  unfold old in *. destruct (get (view t) k) as [e|]; [exact (C false H2) | exact (C true H2)].
Qed.
