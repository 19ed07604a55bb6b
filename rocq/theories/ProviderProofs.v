(** Lemmas about the provider model, and the [spec] triples used by the upper layers. *)
From Verif Require Import Bytes SMap Provider.

(** ** write sets *)
Lemma get_fold_apply l m k : sortedb l = true ->
  get (fold_left apply1 l m) k = match l_get l k with Some o => o | None => get m k end.
Proof.
  revert m. induction l as [|[k0 o] l IH]; intros m S; cbn [fold_left l_get]; [reflexivity|].
  apply sortedb_cons in S. destruct S as [S1 S2]. rewrite IH by exact S2.
  unfold apply1. cbn [fst snd]. destruct (bytes_eqb k k0) eqn:E.
  - apply bytes_eqb_eq in E. subst k0.
    assert (N : l_get l k = None).
    { apply l_get_none. intros v H. exact (bytes_lt_irrefl _ (S1 _ _ H)). }
    rewrite N. destruct o; [apply get_set_eq | apply get_del_eq].
  - destruct (l_get l k); [reflexivity|]. apply bytes_eqb_neq in E.
    destruct o; [apply get_set_ne | apply get_del_ne]; exact E.
Qed.
Lemma get_apply_pend m p k :
  get (apply_pend m p) k = match get p k with Some o => o | None => get m k end.
Proof. apply get_fold_apply, sm_ok. Qed.

Lemma get_view t k : get (view t) k =
  match (match get (t_pend t) k with Some o => o | None => get (t_snap t) k end) with
  | Some e => if live (t_now t) e then Some e else None
  | None => None
  end.
Proof. unfold view. rewrite get_sfilter, get_apply_pend. reflexivity. Qed.

Lemma view_add_read k t : view (add_read k t) = view t.
Proof. unfold add_read. destruct (t_upd t); reflexivity. Qed.
Lemma view_track k t : view (track k t) = view t.
Proof. unfold track. destruct (get (t_pend t) k); [reflexivity | apply view_add_read]. Qed.
Lemma view_set_lim l t : view (set_lim l t) = view t.
Proof. reflexivity. Qed.
Lemma live_mk now v : live now (mk v) = true.
Proof. reflexivity. Qed.
Lemma view_put k o l t : view (put k o l t) =
  match o with
  | Some e => if live (t_now t) e then set (view t) k e else del (view t) k
  | None => del (view t) k
  end.
Proof.
  apply smap_ext. intros j. rewrite get_view. cbn [put t_pend t_snap t_now]. rewrite get_set.
  destruct (bytes_eqb j k) eqn:E.
  - destruct o as [e|]; [destruct (live (t_now t) e) eqn:L|]; rewrite ?get_set, ?get_del, E; reflexivity.
  - destruct o as [e|]; [destruct (live (t_now t) e) eqn:L|]; rewrite ?get_set, ?get_del, E, get_view; reflexivity.
Qed.

(** ** Triples: [w] = the transaction is an open update transaction without size limit;
    otherwise it is merely open. [spec w m M r M']: started where the transaction sees the map M,
    m returns r and leaves a transaction (of the same kind) seeing M'. *)
Definition okt (w : bool) (t : txn) : Prop :=
  t_open t = true /\ (w = true -> t_upd t = true /\ t_lim t = []).
Definition keeps (t t' : txn) : Prop :=
  t_snap t' = t_snap t /\ t_rts t' = t_rts t /\ t_now t' = t_now t /\ t_upd t' = t_upd t /\ t_clamp t' = t_clamp t.
Definition spec {A} (w : bool) (m : Tx A) (M : smap ent) (r : result A) (M' : smap ent) : Prop :=
  forall t, okt w t -> view t = M ->
    exists t', m t = (t', r) /\ okt w t' /\ view t' = M' /\ keeps t t'.

Lemma keeps_refl t : keeps t t.
Proof. repeat split. Qed.
Lemma keeps_trans a b c : keeps a b -> keeps b c -> keeps a c.
Proof. unfold keeps. intuition congruence. Qed.
Lemma okt_add_read w k t : okt w t -> okt w (add_read k t).
Proof. unfold okt, add_read. destruct (t_upd t) eqn:E; cbn; [|rewrite E]; auto. Qed.
Lemma keeps_add_read k t : keeps t (add_read k t).
Proof. unfold keeps, add_read. destruct (t_upd t) eqn:E; cbn; auto. Qed.
Lemma okt_track w k t : okt w t -> okt w (track k t).
Proof. unfold track. destruct (get (t_pend t) k); [auto | apply okt_add_read]. Qed.
Lemma keeps_track k t : keeps t (track k t).
Proof. unfold track. destruct (get (t_pend t) k); [apply keeps_refl | apply keeps_add_read]. Qed.

Lemma spec_ret {A} w (a : A) M : spec w (ret a) M (Ok a) M.
Proof. intros t O V. exists t. auto using keeps_refl. Qed.
Lemma spec_fail {A} w e M : spec w (@fail A e) M (Err e) M.
Proof. intros t O V. exists t. auto using keeps_refl. Qed.
Lemma spec_panic {A} w M : spec w (@gopanic A) M Panic M.
Proof. intros t O V. exists t. auto using keeps_refl. Qed.
Lemma spec_bind {A B} w (m : Tx A) (k : A -> Tx B) M a M1 r M2 :
  spec w m M (Ok a) M1 -> spec w (k a) M1 r M2 -> spec w (bind m k) M r M2.
Proof.
  intros H1 H2 t O V. destruct (H1 t O V) as (t1 & E1 & O1 & V1 & K1).
  destruct (H2 t1 O1 V1) as (t2 & E2 & O2 & V2 & K2). exists t2. unfold bind. rewrite E1.
  split; [exact E2|]. split; [exact O2|]. split; [exact V2|]. eapply keeps_trans; eassumption.
Qed.
Lemma spec_bind_err {A B} w (m : Tx A) (k : A -> Tx B) M e M1 :
  spec w m M (Err e) M1 -> spec w (bind m k) M (Err e) M1.
Proof.
  intros H1 t O V. destruct (H1 t O V) as (t1 & E1 & O1 & V1 & K1). exists t1. unfold bind. rewrite E1. auto.
Qed.
Lemma spec_bind_panic {A B} w (m : Tx A) (k : A -> Tx B) M M1 :
  spec w m M Panic M1 -> spec w (bind m k) M Panic M1.
Proof.
  intros H1 t O V. destruct (H1 t O V) as (t1 & E1 & O1 & V1 & K1). exists t1. unfold bind. rewrite E1. auto.
Qed.
Lemma spec_try {A B} w (m : Tx A) (k : result A -> Tx B) M ra M1 r M2 :
  spec w m M ra M1 -> ra <> Panic -> spec w (k ra) M1 r M2 -> spec w (try m k) M r M2.
Proof.
  intros H1 N H2 t O V. destruct (H1 t O V) as (t1 & E1 & O1 & V1 & K1).
  destruct (H2 t1 O1 V1) as (t2 & E2 & O2 & V2 & K2). exists t2. unfold try. rewrite E1.
  split; [destruct ra; [exact E2 | exact E2 | congruence]|]. split; [exact O2|]. split; [exact V2|]. eapply keeps_trans; eassumption.
Qed.
Lemma spec_eq {A} w (m : Tx A) M r M' r2 M2 : spec w m M r M' -> r = r2 -> M' = M2 -> spec w m M r2 M2.
Proof. intros H <- <-. exact H. Qed.
Lemma spec_det {A} (m : Tx A) M r M' r2 M2 t w :
  okt w t -> view t = M -> spec w m M r M' -> spec w m M r2 M2 -> r = r2 /\ M' = M2.
Proof.
  intros O V H1 H2. destruct (H1 t O V) as (t1 & E1 & _ & V1 & _). destruct (H2 t O V) as (t2 & E2 & _ & V2 & _).
  rewrite E1 in E2. inversion E2. subst. auto.
Qed.
Lemma spec_weaken {A} (m : Tx A) M r : spec false m M r M -> 
  (forall t t' x, m t = (t', x) -> t_lim t' = t_lim t) -> spec true m M r M.
Proof.
  intros H L t [O1 O2] V. destruct (H t) as (t' & E & (O1' & _) & V' & K); [split; [exact O1 | discriminate] | exact V |].
  exists t'. split; [exact E|]. split; [|auto]. split; [exact O1'|]. intros W. destruct (O2 W) as [U Lm].
  split; [rewrite (proj1 (proj2 (proj2 (proj2 K)))); exact U | rewrite (L _ _ _ E); exact Lm].
Qed.

Definition good_key (k : bytes) : Prop := key_err k = None.
Lemma good_key_nonempty k : good_key k -> k <> [].
Proof. intros H ->. discriminate H. Qed.

Lemma spec_tset k v M : good_key k -> spec true (tset k v) M (Ok tt) (set M k (mk v)).
Proof.
  intros G t [O1 O2] V. destruct (O2 eq_refl) as [U L]. unfold tset, tsetm, map_err, modify.
  rewrite U, O1, G, L. cbn [negb]. eexists. split; [reflexivity|]. split; [|split].
  - split; [exact O1|]. intros _. split; [exact U | reflexivity].
  - rewrite view_put. cbn [entry_of]. rewrite live_mk, V. reflexivity.
  - repeat split.
Qed.
Lemma spec_tdel k M : good_key k -> spec true (tdel k) M (Ok tt) (del M k).
Proof.
  intros G t [O1 O2] V. destruct (O2 eq_refl) as [U L]. unfold tdel, map_err, modify.
  rewrite U, O1, G, L. cbn [negb]. eexists. split; [reflexivity|]. split; [|split].
  - split; [exact O1|]. intros _. split; [exact U | reflexivity].
  - rewrite view_put, V. reflexivity.
  - repeat split.
Qed.
Lemma bget_run w k M t : k <> [] -> okt w t -> view t = M ->
  bget k t = (track k t, match get M k with Some e => Ok e | None => Err EBNotFound end).
Proof.
  intros N [O1 O2] V. unfold bget. destruct k as [|c k]; [congruence|]. rewrite O1, V. reflexivity.
Qed.
Lemma spec_tgetm w k M : k <> [] ->
  spec w (tgetm k) M (match get M k with Some e => Ok e | None => Err ErrKeyNotFound end) M.
Proof.
  intros N t O V. exists (track k t). unfold tgetm, map_err. rewrite (bget_run w k M t N O V).
  split; [destruct (get M k); reflexivity|]. split; [apply okt_track; exact O|]. split; [rewrite view_track; exact V | apply keeps_track].
Qed.
Lemma spec_tget w k M : k <> [] ->
  spec w (tget k) M (match get M k with Some e => Ok (e_val e) | None => Err ErrKeyNotFound end) M.
Proof.
  intros N. unfold tget. pose proof (spec_tgetm w k M N) as H. destruct (get M k) as [e|].
  - eapply spec_bind; [exact H | apply spec_ret].
  - eapply spec_bind_err. exact H.
Qed.
Lemma spec_texists w k M : k <> [] ->
  spec w (texists k) M (Ok (match get M k with Some _ => true | None => false end)) M.
Proof.
  intros N t O V. exists (track k t). unfold texists, try. rewrite (bget_run w k M t N O V).
  split; [destruct (get M k); reflexivity|]. split; [apply okt_track; exact O|]. split; [rewrite view_track; exact V | apply keeps_track].
Qed.

(** ** Scans *)

Lemma scan_loop_pure {S} w l (f : bytes -> ent -> S -> S * bool) : forall s M,
  spec w (scan_loop l (fun k e s => ret (f k e s)) s) M
    (Ok ((fix go l s := match l with [] => s | (k, e) :: l' => let r := f k e s in if snd r then go l' (fst r) else fst r end) l s)) M.
Proof.
  induction l as [|[k e] l IH]; intros s M; [apply spec_ret|].
  intros t O V. cbn [scan_loop].
  assert (G : spec w (r <- ret (f k e s) ;; if snd r then scan_loop l (fun k e s => ret (f k e s)) (fst r) else ret (fst r)) M
     (Ok (let r := f k e s in if snd r then (fix go l s := match l with [] => s | (k, e) :: l' => let r := f k e s in if snd r then go l' (fst r) else fst r end) l (fst r) else fst r)) M).
  { eapply spec_bind; [apply spec_ret|]. cbv zeta. destruct (snd (f k e s)); [apply IH | apply spec_ret]. }
  destruct (G (add_read k t) (okt_add_read w k t O)) as (t' & E & O' & V' & K').
  { rewrite view_add_read. exact V. }
  exists t'. split; [exact E|]. split; [exact O'|]. split; [exact V'|]. eapply keeps_trans; [apply keeps_add_read | exact K'].
Qed.

Definition take_opt {A} (n : option nat) (l : list A) : list A :=
  match n with None => l | Some n' => firstn (max 1 n') l end.

Lemma scan_loop_collect w n l : forall acc M, (match n with None => True | Some n' => (length acc < max 1 n')%nat end) ->
  spec w (scan_loop l (collect n) acc) M
    (Ok (acc ++ match n with None => l | Some n' => firstn (max 1 n' - length acc) l end)) M.
Proof.
  induction l as [|[k e] l IH]; intros acc M H.
  - replace (match n with None => [] | Some n' => firstn (max 1 n' - length acc) [] end) with (@nil (bytes * ent))
      by (destruct n; [rewrite firstn_nil|]; reflexivity).
    rewrite app_nil_r. apply spec_ret.
  - intros t O V. cbn [scan_loop]. unfold collect at 1.
    assert (G : spec w (r <- ret (acc ++ [(k, e)], match n with None => true | Some n' => Nat.ltb (length acc + 1) n' end) ;;
                 if snd r then scan_loop l (collect n) (fst r) else ret (fst r)) M
              (Ok (acc ++ match n with None => (k, e) :: l | Some n' => firstn (max 1 n' - length acc) ((k, e) :: l) end)) M).
    { eapply spec_bind; [apply spec_ret|]. cbn [fst snd]. destruct n as [n'|].
      - destruct (Nat.ltb_spec (length acc + 1) n') as [L|L].
        + eapply spec_eq; [apply IH; rewrite app_length; cbn [length]; lia | | reflexivity].
          rewrite <- app_assoc, app_length. cbn [length].
          replace (max 1 n' - length acc)%nat with (S (max 1 n' - (length acc + 1))) by lia. reflexivity.
        + replace (max 1 n' - length acc)%nat with 1%nat by lia. cbn [firstn]. apply spec_ret.
      - eapply spec_eq; [apply IH; exact I | | reflexivity]. rewrite <- app_assoc. reflexivity. }
    destruct (G (add_read k t) (okt_add_read w k t O)) as (t' & E & O' & V' & K').
    { rewrite view_add_read. exact V. }
    exists t'. split; [exact E|]. split; [exact O'|]. split; [exact V'|]. eapply keeps_trans; [apply keeps_add_read | exact K'].
Qed.

(** a scan's visited items, independent of the Seek variant; used when both agree *)
Definition scan_ok (o : scan_opt) (M : smap ent) (l : list (bytes * ent)) : Prop :=
  forall clamp, scan_items clamp M o = l.

Lemma spec_tscan {S} w o (fn : bytes -> ent -> S -> Tx (S * bool)) s M l r M' :
  scan_ok o M l -> spec w (scan_loop l fn s) M r M' -> spec w (tscan o fn s) M r M'.
Proof.
  intros Hs H t O V. unfold tscan. rewrite (proj1 O). cbn [negb]. rewrite V, Hs. apply H; assumption.
Qed.
Lemma spec_tscan_collect w o n M l : scan_ok o M l ->
  spec w (tscan o (collect n) []) M (Ok (take_opt n l)) M.
Proof.
  intros H. eapply spec_tscan; [exact H|]. eapply spec_eq; [apply scan_loop_collect | | reflexivity].
  - destruct n; [cbn [length]; lia | exact I].
  - destruct n as [n'|]; cbn [app length]; [rewrite Nat.sub_0_r|]; reflexivity.
Qed.

Lemma nth_filter_order {V} (f : bytes * V -> bool) (l : list (bytes * V)) : sortedb l = true ->
  forall i j x y, (i < j)%nat -> nth_error (filter f l) i = Some x -> nth_error (filter f l) j = Some y -> bytes_lt (fst x) (fst y).
Proof. intros S i j x y. apply sorted_nth. apply sorted_filter. exact S. Qed.

Lemma leb_negb_ltb a b : negb (bytes_ltb b a) = bytes_leb a b.
Proof.
  destruct (bytes_ltb b a) eqn:E; cbn.
  - apply bytes_ltb_lt in E. symmetry. apply bytes_leb_nle. exact E.
  - apply bytes_ltb_nlt in E. symmetry. apply bytes_leb_le. exact E.
Qed.

(** forward scans: items are a filter of the (sorted) content as long as the seek key is at or
    above the prefix *)
Lemma scan_forward_gen clamp M o sk : so_rev o = false -> seek_key clamp o = sk -> bytes_le (so_prefix o) sk ->
  scan_items clamp M o =
    filter (fun p => has_prefix (fst p) (so_prefix o) && bytes_leb sk (fst p)) (entries M).
Proof.
  intros Hr Hs Hle. unfold scan_items. rewrite Hr, Hs.
  rewrite (dropWhile_filter _ (fun x y => bytes_lt (fst x) (fst y))).
  2:{ intros x y H H'. apply bytes_ltb_lt in H'. apply bytes_ltb_lt. eapply bytes_lt_trans; eassumption. }
  2:{ intros i j x y. apply sorted_nth. apply sm_ok. }
  (* after dropping, everything is >= sk >= prefix, so the prefixed keys come first *)
  assert (G : forall l : list (bytes * ent), sortedb l = true -> (forall x, In x l -> bytes_le sk (fst x)) ->
     takeWhile (fun p => has_prefix (fst p) (so_prefix o)) l = filter (fun p => has_prefix (fst p) (so_prefix o)) l).
  { intros l S A. apply (takeWhile_filter _ (fun x y => bytes_le sk (fst x) /\ bytes_lt (fst x) (fst y))).
    - intros x y [H1 H2] H3. destruct (has_prefix (fst x) (so_prefix o)) eqn:E; [reflexivity|].
      exfalso. apply (bytes_lt_asym (fst x) (fst y) H2).
      apply (no_prefix_above (so_prefix o)); [|exact E | exact H3].
      eapply bytes_le_trans; eassumption.
    - intros i j x y L Hi Hj. split; [apply A; eapply nth_error_In; eassumption|].
      eapply sorted_nth; eassumption. }
  rewrite G.
  - rewrite filter_filter. apply filter_ext_in. intros x _. rewrite leb_negb_ltb. apply andb_comm.
  - apply sorted_filter, sm_ok.
  - intros x H. apply filter_In in H. destruct H as [_ H]. rewrite leb_negb_ltb in H. apply bytes_leb_le. exact H.
Qed.

Lemma scan_forward M p off : bytes_le p off \/ off = [] ->
  scan_ok (ScanOpt false p off) M
    (filter (fun x => has_prefix (fst x) p && bytes_leb off (fst x)) (entries M)).
Proof.
  intros H clamp. assert (E : exists sk, seek_key clamp (ScanOpt false p off) = sk /\ bytes_le p sk /\
     (forall k, has_prefix k p = true -> bytes_leb sk k = bytes_leb off k)).
  { unfold seek_key. cbn [so_offset so_prefix]. destruct off as [|c off].
    - exists p. split; [reflexivity|]. split; [apply bytes_le_refl|]. intros k Hk.
      rewrite (proj2 (bytes_leb_le p k)) by (apply prefix_ge; exact Hk).
      symmetry. apply bytes_leb_le, bytes_le_nil.
    - destruct H as [H|H]; [|discriminate]. exists (c :: off). split; [|split; [exact H | reflexivity]].
      destruct clamp; [|reflexivity]. cbn [andb].
      rewrite (proj2 (bytes_ltb_nlt (c :: off) p) H). reflexivity. }
  destruct E as (sk & Esk & Hle & Hk). rewrite (scan_forward_gen clamp M (ScanOpt false p off) sk eq_refl Esk Hle).
  apply filter_ext_in. intros x _. cbn [so_prefix]. destruct (has_prefix (fst x) p) eqn:E; [|reflexivity].
  cbn [andb]. apply Hk. exact E.
Qed.
(** forward scan of a prefix without offset *)
Lemma scan_prefix M p : scan_ok (ScanOpt false p []) M (filter (fun x => has_prefix (fst x) p) (entries M)).
Proof.
  intros clamp. rewrite (scan_forward M p [] (or_intror eq_refl) clamp). apply filter_ext_in. intros x _.
  assert (H : bytes_leb [] (fst x) = true) by (apply bytes_leb_le, bytes_le_nil). rewrite H. apply andb_true_r.
Qed.

(** reverse scan from an offset at or above the prefix: all keys <= offset, descending, until the
    first without the prefix *)
Lemma scan_reverse_gen clamp M p off : off <> [] -> bytes_le p off ->
  (* nothing in between: every key of the store at or below the offset and above all keys with the
     prefix would end the scan at once *)
  (forall k e, In (k, e) (entries M) -> bytes_le k off -> bytes_lt p k -> has_prefix k p = true) ->
  scan_items clamp M (ScanOpt true p off) =
    rev (filter (fun x => has_prefix (fst x) p && bytes_leb (fst x) off) (entries M)).
Proof.
  intros N Hle Hbetween. unfold scan_items, seek_key. cbn [so_rev so_offset so_prefix].
  destruct off as [|c off]; [congruence|].
  assert (C : (if clamp && bytes_ltb (c :: off) p then p else c :: off) = c :: off).
  { rewrite (proj2 (bytes_ltb_nlt (c :: off) p) Hle). destruct clamp; reflexivity. }
  rewrite C. set (sk := c :: off) in *.
  rewrite (dropWhile_filter _ (fun x y => bytes_lt (fst y) (fst x))).
  2:{ intros x y H H'. apply bytes_ltb_lt in H'. apply bytes_ltb_lt. eapply bytes_lt_trans; eassumption. }
  2:{ intros i j x y. apply sorted_nth_rev. apply sm_ok. }
  rewrite <- rev_filter.
  rewrite (takeWhile_filter _ (fun x y => bytes_lt (fst y) (fst x) /\ (bytes_lt p (fst x) -> has_prefix (fst x) p = true))).
  - rewrite <- rev_filter, filter_filter. f_equal. apply filter_ext_in. intros x _.
    rewrite leb_negb_ltb. apply andb_comm.
  - intros x y [H1 H2] H3. apply H2. eapply bytes_le_lt_trans; [apply prefix_ge; exact H3 | exact H1].
  - intros i j x y L Hi Hj. split.
    + eapply sorted_nth_rev; [apply sorted_filter, (sm_ok M) | exact L | exact Hi | exact Hj].
    + apply nth_error_In in Hi. apply in_rev in Hi. apply filter_In in Hi. destruct Hi as [Hi Hf].
      rewrite leb_negb_ltb in Hf. apply bytes_leb_le in Hf. destruct x as [k e]. exact (Hbetween k e Hi Hf).
Qed.

(** ** LevelDB ranges are exactly the keys with the prefix *)
From Verif Require Import KeyModel.
Lemma lim_loop_ff n r : lim_loop (repeat (z2b 255) n ++ r) = lim_loop r.
Proof. induction n as [|n IH]; [reflexivity|]. cbn [repeat app lim_loop]. exact IH. Qed.
Lemma in_range_spec p k : in_range p k = has_prefix k p.
Proof.
  unfold in_range. destruct (key_decomp p) as [F|(q & x & n & -> & Hx)].
  - assert (L : prefix_limit p = None).
    { unfold prefix_limit. rewrite (all_ff_repeat p F), rev_repeat.
      rewrite <- (app_nil_r (repeat _ _)), lim_loop_ff. reflexivity. }
    rewrite L, andb_true_r. destruct (has_prefix k p) eqn:E.
    + apply bytes_leb_le, prefix_ge. exact E.
    + apply bytes_leb_nle. destruct (bytes_ltb k p) eqn:G; [apply bytes_ltb_lt; exact G|]. exfalso.
      apply bytes_ltb_nlt in G. clear L.
      revert k G E. induction F as [|y p Hy HF IH]; intros k G E; [destruct k; discriminate E|].
      destruct k as [|z k]; [exact (G eq_refl)|]. unfold bytes_le in G. cbn [bytes_cmp] in G. cbn [has_prefix] in E.
      pose proof (b2z_range z). destruct (Z.compare_spec (b2z y) (b2z z)) as [A|A|A]; [|lia | congruence].
      apply b2z_inj in A. subst z. rewrite byte_eqb_refl in E. exact (IH k G E).
  - assert (L : prefix_limit (q ++ x :: repeat (z2b 255) n) = Some (q ++ [z2b (b2z x + 1)])).
    { unfold prefix_limit. rewrite rev_app_distr. cbn [rev]. rewrite rev_repeat, <- app_assoc. cbn [app].
      rewrite lim_loop_ff. cbn [lim_loop]. destruct (Z.ltb_spec (b2z x) 255); [|lia].
      cbn [option_map rev]. rewrite rev_involutive. reflexivity. }
    rewrite L. pose proof (PrefixNext_range q x n k Hx) as R. cbn zeta in R. pose proof (b2z_range x) as BX.
    assert (LT : forall m, bytes_le (q ++ [z2b (b2z x + 1)]) (q ++ z2b (b2z x + 1) :: repeat (z2b 0) m)).
    { intros m. replace (q ++ z2b (b2z x + 1) :: repeat (z2b 0) m) with ((q ++ [z2b (b2z x + 1)]) ++ repeat (z2b 0) m)
        by (rewrite <- app_assoc; reflexivity). apply bytes_le_app_r. }
    destruct (has_prefix k (q ++ x :: repeat (z2b 255) n)) eqn:E.
    + apply andb_true_iff. split; [apply bytes_leb_le, prefix_ge; exact E|]. apply bytes_ltb_lt.
      apply has_prefix_spec in E. destruct E as [s ->]. unfold bytes_lt. rewrite <- app_assoc, bytes_cmp_app_l.
      cbn [app bytes_cmp]. rewrite b2z_z2b, Z.mod_small by lia.
      destruct (Z.compare_spec (b2z x) (b2z x + 1)); try lia. reflexivity.
    + apply andb_false_iff. destruct (bytes_leb (q ++ x :: repeat (z2b 255) n) k) eqn:G; [|left; reflexivity]. right.
      apply bytes_leb_le in G. apply bytes_ltb_nlt. destruct (bytes_ltb k (PrefixNext (q ++ x :: repeat (z2b 255) n))) eqn:K.
      * apply bytes_ltb_lt in K. destruct (proj1 R (conj G K)) as [H|(m & _ & ->)]; [congruence | apply LT].
      * apply bytes_ltb_nlt in K. rewrite PrefixNext_form in K by exact Hx.
        eapply bytes_le_trans; [apply (LT n) | exact K].
Qed.
