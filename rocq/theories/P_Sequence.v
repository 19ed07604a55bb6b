(** C42-C47: id allocators. The hypotheses [callers_ok], [frugal] (SequenceProofs.v) and [o_allowed]
    (OldSequence.v) say what callers respect; [never_twice], [ids_of], [range_ids] (Sequence.v) are
    the specification. *)
From Verif Require Import Bytes SMap Provider ProviderProofs World Numeric KvUtil Struct StructProofs StructHash UtilTxn TxPost Sequence SequenceProofs OldSequence.

(** nobody holds an allocator yet *)
Definition fresh_world (d : db) : qworld := QW d (fun _ => None) (fun _ => None).
Lemma fresh_inv pol B L d c0 rem : 0 <= c0 -> cell L d c0 -> db_ok d -> c0 + B * rem < two63 ->
  qinv pol B L c0 rem (fresh_world d) [] c0.
Proof.
  intros P C K U. split; cbn [fresh_world qw_db qw_seq qw_call]; try discriminate; try assumption.
  - split; [lia | exact U].
  - intros v [].
  - intros _. split; [intros i j []; reflexivity|]. split; discriminate.
Qed.

(** * C42 *)
(** One live allocator at a time (new ones after a crash or a close), bandwidths in 1..B, the counter
    not near 2^63: no id is handed out while in use, and all ids are above the stored counter. *)
Theorem C42_ids_never_handed_out_twice : forall L B c0 d es,
  0 < B -> 0 <= c0 -> cell L d c0 -> db_ok d -> c0 + B * Z.of_nat (length es) < two63 ->
  callers_ok One B L (fresh_world d) [] es ->
  let rs := snd (qrun L (fresh_world d) es) in
  never_twice [] es rs /\ forall r v, In r rs -> In v (ids_of r) -> c0 < v.
Proof.
  intros L B c0 d es HB P C K U A rs. pose proof (fresh_inv One B L d c0 (Z.of_nat (length es)) P C K U) as I. split.
  - apply (run_inv One B L c0 HB es 0 (fresh_world d) [] c0 ltac:(lia) I A).
  - pose proof (run_above One B L c0 HB es 0 (fresh_world d) [] c0 ltac:(lia) I A) as F. rewrite Forall_forall in F.
    intros r v Hr Hv. exact (F r Hr v Hv).
Qed.
(** what [never_twice] says when nothing is put back: all ids of the run are distinct *)
Theorem C42_no_put_back_all_distinct : forall es rs used, length rs = length es ->
  (forall i vs, ~ In (QPut i vs) es) -> never_twice used es rs ->
  NoDup (concat (map ids_of rs)) /\ forall v, In v (concat (map ids_of rs)) -> ~ In v used.
Proof.
  induction es as [|e es IH]; intros [|r rs] used Ln NP N; try discriminate.
  - split; [constructor | intros v []].
  - cbn [never_twice] in N. destruct N as ((N1 & N2) & N3).
    assert (U : used_after used e r = ids_of r ++ used).
    { destruct e; try reflexivity. exfalso. exact (NP _ _ (or_introl eq_refl)). }
    rewrite U in N3. destruct (IH rs _ ltac:(cbn in Ln; lia) (fun i vs H => NP i vs (or_intror H)) N3) as [D1 D2]. cbn [map concat]. split.
    + assert (Dj : forall v, In v (ids_of r) -> ~ In v (concat (map ids_of rs))) by (intros v Hv H; apply (D2 v H); apply in_or_app; auto).
      clear -N1 D1 Dj. induction (ids_of r) as [|x l IHl]; [exact D1|]. inversion N1. subst. cbn [app]. constructor.
      * intros H. apply in_app_or in H. destruct H as [H|H]; [contradiction | exact (Dj x (or_introl eq_refl) H)].
      * apply IHl; [assumption|]. intros v Hv. apply Dj. right. exact Hv.
    + intros v Hv. apply in_app_or in Hv. destruct Hv as [Hv|Hv]; [exact (N2 v Hv)|]. intros Hu. apply (D2 v Hv). apply in_or_app. auto.
Qed.
Definition ok1 (i : nat) (c : call) : list qev := [QBegin i c; QEnd i [] false].
Definition LS := AtString (str "seq").
Definition LH := AtHash (str "db:1") (str "didSequence:2").
Definition outcomes (L : loc) (es : list qev) : list (result qval) :=
  concat (map (fun r => match r with Some x => [x] | None => [] end) (snd (qrun L (fresh_world (db_init 0 false)) es))).
Ltac allowed1 :=
  match goal with
  | |- allowed _ _ _ _ _ (QBegin _ (CNew _)) => split; [lia | intros _ j H; first [vm_compute in H; congruence | destruct j as [|[|[|j]]]; vm_compute in H; congruence]]
  | |- allowed _ _ _ _ _ (QEnd _ _ _) =>
      intros d0 n s H; vm_compute in H; inversion H; subst; intros G; vm_compute in G; inversion G; subst; intros _; vm_compute; discriminate
  | |- allowed _ _ _ _ _ (QPut _ _) => split; [repeat constructor; cbn; intuition discriminate | intros v H; vm_compute in H |- *; intuition auto]
  | |- _ => first [exact I | reflexivity | vm_compute; reflexivity]
  end.
Ltac allowed_run := repeat (split; [allowed1|]); try exact I.
(** a run with a crash, a put-back and a failed commit meets the hypotheses *)
Definition run42 : list qev :=
  ok1 0 (CNew 2) ++ ok1 0 (COp QNext) ++ ok1 0 (COp QNext) ++ [QPut 0 [1]] ++ ok1 0 (COp QNext) ++
  [QBegin 0 (COp QNext); QEnd 0 [] true; QCrash (fun _ => true)] ++ ok1 1 (CNew 2) ++ ok1 1 (COp (QNextN 2)) ++ ok1 1 (COp (QClose true)).
Example C42_nonvacuous : callers_ok One 2 LS (fresh_world (db_init 0 false)) [] run42 /\
  outcomes LS run42 = [Ok QUnit; Ok (QId 1); Ok (QId 2); Ok QUnit; Ok (QId 1); Err EIO; Ok QUnit; Ok (QRanges [(2, 4)]); Ok QUnit] /\
  0 <= 0 /\ cell LS (db_init 0 false) 0 /\ db_ok (db_init 0 false).
Proof.
  split.
  - unfold run42, ok1. cbn [app]. allowed_run.
  - split; [vm_compute; reflexivity|]. split; [lia|]. split; [left; split; vm_compute; reflexivity | apply db_ok_init].
Qed.
(** The claim "for all bandwidths" fails: NewString/NewHash reject bandwidth 0 only. With bandwidth -1
    one allocator hands out 0 twice. *)
Theorem C42_negative_bandwidth_repeats_ids_refuted :
  outcomes LS (ok1 0 (CNew (-1)) ++ ok1 0 (COp QNext) ++ ok1 0 (COp QNext) ++ ok1 0 (COp QRelease) ++ ok1 0 (COp QNext)) =
  [Ok QUnit; Ok (QId 0); Ok (QId (-1)); Ok QUnit; Ok (QId 0)].
Proof. vm_compute. reflexivity. Qed.

(** * C43 *)
(** ids in use after a run *)
Fixpoint in_use (used : list Z) (es : list qev) (rs : list (option (result qval))) : list Z :=
  match es, rs with
  | e :: es', r :: rs' => in_use (used_after used e r) es' rs'
  | _, _ => used
  end.
Lemma run_in_use pol B L c00 (HB : 0 < B) es : forall rem w used c, 0 <= rem -> qinv pol B L c00 (rem + Z.of_nat (length es)) w used c ->
  callers_ok pol B L w used es -> exists c', qinv pol B L c00 rem (fst (qrun L w es)) (in_use used es (snd (qrun L w es))) c'.
Proof.
  induction es as [|e es IH]; intros rem w used c R I A.
  - cbn [length] in I. replace (rem + Z.of_nat 0) with rem in I by lia. exists c. exact I.
  - cbn [length] in I. replace (rem + Z.of_nat (S (length es))) with (rem + Z.of_nat (length es) + 1) in I by lia. destruct A as [A1 A2].
    destruct (step_inv pol B L c00 HB (rem + Z.of_nat (length es)) w used c e ltac:(lia) I A1) as (F & c' & I1).
    cbn [qrun]. destruct (qstep L w e) as [w1 r]. cbn [fst snd] in *. destruct (IH rem w1 _ c' R I1 A2) as (c2 & I2).
    destruct (qrun L w1 es) as [w2 rs]. exists c2. exact I2.
Qed.
(** A NextN served from the current lease is covered by C42 (callers_ok admits it anywhere in a run).
    A NextN that renews the lease (here: the last call of any run) also returns n distinct ids, none
    of them in use. Missing: disjointness from LATER ids, which is false (see below). *)
Theorem C43_renewing_NextN_returns_fresh_ids_partial : forall L B c0 d es i d0 n s lim io w2 ranges,
  0 < B -> 0 < n -> 0 <= c0 -> cell L d c0 -> db_ok d -> c0 + B * (Z.of_nat (length es) + 2) + n < two63 ->
  callers_ok One B L (fresh_world d) [] es ->
  let w := fst (qrun L (fresh_world d) es) in
  qw_call w i = Some (d0, COp (QNextN n)) -> qw_seq w i = Some s -> q_closed s = false -> q_leased s < q_next s + n ->
  qstep L w (QEnd i lim io) = (w2, Some (Ok (QRanges ranges))) ->
  let ids := concat (map range_ids ranges) in
  Z.of_nat (length ids) = n /\ NoDup ids /\
  forall v, In v ids -> ~ In v (in_use [] es (snd (qrun L (fresh_world d) es))).
Proof.
  intros L B c0 d es i d0 n s lim io w2 ranges HB Hn P C K U A w Hk Hs Hc Hlt E ids.
  set (R := (n + B - 1) / B).
  assert (HR : n <= B * R < n + B). { unfold R. pose proof (Z.mod_pos_bound (n + B - 1) B HB). pose proof (Z.div_mod (n + B - 1) B ltac:(lia)). lia. }
  assert (R0 : 0 <= R) by nia.
  destruct (run_in_use One B L c0 HB es (R + 1) (fresh_world d) [] c0 ltac:(lia)) as (c' & I); [|exact A|].
  { apply fresh_inv; try assumption. nia. }
  fold w in I. cbn [qstep] in E. rewrite Hk, Hs in E. destruct (q_exec d0 (qw_db w) lim io s (QNextN n)) as [[d2 s2] r2] eqn:Ex.
  assert (r2 = Ok (QRanges ranges)) by congruence. subst r2.
  destruct (nextn_slow One B L c0 HB R w _ c' i d0 n lim io s d2 s2 ranges I R0 ltac:(lia) Hk Hs Hc Hlt Ex) as [[F1 F2] F3].
  split; [exact F3|]. split; [exact F1 | exact F2].
Qed.
Example C43_nonvacuous :
  let es := ok1 0 (CNew 2) ++ ok1 0 (COp QNext) ++ [QBegin 0 (COp (QNextN 4))] in
  let w := fst (qrun LS (fresh_world (db_init 0 false)) es) in
  callers_ok One 2 LS (fresh_world (db_init 0 false)) [] es /\
  (exists s, qw_seq w 0 = Some s /\ q_closed s = false /\ q_leased s < q_next s + 4) /\
  snd (qstep LS w (QEnd 0 [] false)) = Some (Ok (QRanges [(1, 2); (2, 5)])).
Proof.
  split; [unfold ok1; cbn [app]; allowed_run|]. split; [|vm_compute; reflexivity].
  eexists. split; [vm_compute; reflexivity|]. split; vm_compute; reflexivity.
Qed.
(** The full claim fails: when NextN renews the lease it does not move past the ids it returned, so the
    next call returns one of them again. *)
Theorem C43_NextN_ids_are_returned_again_refuted :
  outcomes LS (ok1 0 (CNew 2) ++ ok1 0 (COp QNext) ++ ok1 0 (COp (QNextN 4)) ++ ok1 0 (COp QNext)) =
  [Ok QUnit; Ok (QId 1); Ok (QRanges [(1, 2); (2, 5)]); Ok (QId 3)].
Proof. vm_compute. reflexivity. Qed.
(** NextN with a negative count moves the allocator back over ids in use *)
Theorem C43_negative_count_repeats_ids_refuted :
  outcomes LS (ok1 0 (CNew 5) ++ ok1 0 (COp QNext) ++ ok1 0 (COp (QNextN (-1))) ++ ok1 0 (COp QNext)) =
  [Ok QUnit; Ok (QId 1); Ok (QRanges [(1, 0)]); Ok (QId 1)].
Proof. vm_compute. reflexivity. Qed.

(** * C44 *)
(** Any number of live allocators, any schedule of their transactions: no id twice, as long as nobody
    releases a lease (ReleaseRemaining, Close(true)). Missing: release, which breaks it (below). *)
Theorem C44_many_allocators_without_release_partial : forall L B c0 d es,
  0 < B -> 0 <= c0 -> cell L d c0 -> db_ok d -> c0 + B * Z.of_nat (length es) < two63 ->
  callers_ok Many B L (fresh_world d) [] es ->
  let rs := snd (qrun L (fresh_world d) es) in
  never_twice [] es rs /\ forall r v, In r rs -> In v (ids_of r) -> c0 < v.
Proof.
  intros L B c0 d es HB P C K U A rs. pose proof (fresh_inv Many B L d c0 (Z.of_nat (length es)) P C K U) as I. split.
  - apply (run_inv Many B L c0 HB es 0 (fresh_world d) [] c0 ltac:(lia) I A).
  - pose proof (run_above Many B L c0 HB es 0 (fresh_world d) [] c0 ltac:(lia) I A) as F. rewrite Forall_forall in F.
    intros r v Hr Hv. exact (F r Hr v Hv).
Qed.
Ltac allowed1m :=
  match goal with
  | |- allowed _ _ _ _ _ (QBegin _ (CNew _)) => split; [lia | discriminate]
  | |- _ => allowed1
  end.
(** two allocators whose transactions overlap: the second commit conflicts, the call fails, and is retried *)
Definition run44 : list qev :=
  [QBegin 0 (CNew 2); QBegin 1 (CNew 2); QEnd 0 [] false; QEnd 1 [] false] ++ ok1 1 (CNew 2) ++ ok1 0 (COp QNext) ++ ok1 1 (COp QNext) ++
  ok1 1 (COp (QClose false)) ++ ok1 0 (COp QNext) ++ ok1 0 (COp QNext).
Example C44_nonvacuous : callers_ok Many 2 LH (fresh_world (db_init 0 false)) [] run44 /\
  outcomes LH run44 = [Ok QUnit; Err EConflict; Ok QUnit; Ok (QId 1); Ok (QId 3); Ok QUnit; Ok (QId 2); Ok (QId 5)].
Proof. split; [unfold run44, ok1; cbn [app]; repeat (split; [allowed1m|]); exact I | vm_compute; reflexivity]. Qed.
(** The full claim fails: closing (with release) the allocator whose lease is not the last one moves the
    counter back below the other's lease. *)
Theorem C44_close_with_release_makes_duplicates_refuted :
  outcomes LS (ok1 0 (CNew 2) ++ ok1 1 (CNew 2) ++ ok1 1 (COp QNext) ++ ok1 0 (COp (QClose true)) ++ ok1 2 (CNew 5) ++ ok1 2 (COp (QNextN 3))) =
  [Ok QUnit; Ok QUnit; Ok (QId 3); Ok QUnit; Ok QUnit; Ok (QRanges [(0, 3)])].
Proof. vm_compute. reflexivity. Qed.

(** * C45 *)
(** One allocator at a time, each closed with release before the next (failed calls, failed renewals and
    interleaved foreign transactions allowed; no crash, no ReNew, no put-back): the ids handed out over
    the whole history are exactly c0+1, c0+2, ... without gap. *)
Theorem C45_release_leaves_no_gap : forall L B c0 d es,
  0 < B -> 0 <= c0 -> cell L d c0 -> db_ok d -> c0 + B * Z.of_nat (length es) < two63 ->
  callers_ok One B L (fresh_world d) [] es -> frugal L (fresh_world d) es ->
  let ids := concat (map ids_of (snd (qrun L (fresh_world d) es))) in
  ids = map (fun k => c0 + 1 + Z.of_nat k) (List.seq 0 (length ids)).
Proof.
  intros L B c0 d es HB P C K U A Fr ids.
  assert (G : forall es rem w used c h, 0 <= rem -> qinv One B L c0 (rem + Z.of_nat (length es)) w used c -> gapless w h c ->
     callers_ok One B L w used es -> frugal L w es ->
     let ids := concat (map ids_of (snd (qrun L w es))) in ids = range_ids (h, h + Z.of_nat (length ids))).
  { clear -HB. induction es as [|e es IH]; intros rem w used c h R I Gp A Fr ids.
    - cbn in ids. unfold ids. cbn [length]. replace (h + Z.of_nat 0) with h by lia. rewrite range_ids_nil. reflexivity.
    - cbn [length] in I. replace (rem + Z.of_nat (S (length es))) with (rem + Z.of_nat (length es) + 1) in I by lia. destruct A as [A1 A2]. destruct Fr as [F1 F2].
      destruct (gap_step B L c0 HB (rem + Z.of_nat (length es)) w used c h e ltac:(lia) I Gp A1 F1) as (c' & I' & G' & E).
      unfold ids. cbn [qrun]. destruct (qstep L w e) as [w1 r]. cbn [fst snd] in *.
      specialize (IH rem w1 _ c' _ R I' G' A2 F2). destruct (qrun L w1 es) as [w2 rs]. cbn [snd map concat] in *.
      rewrite IH at 1. rewrite E at 1. rewrite range_ids_app by lia. f_equal. f_equal. rewrite app_length. lia. }
  specialize (G es 0 (fresh_world d) [] c0 c0 ltac:(lia)). cbv zeta in G. fold ids in G. rewrite G at 1; try assumption.
  - unfold range_ids. cbn [fst snd]. replace (Z.to_nat (c0 + Z.of_nat (length ids) - c0)) with (length ids) by lia. reflexivity.
  - apply fresh_inv; assumption.
  - split; cbn [fresh_world qw_seq qw_call]; try discriminate. reflexivity.
Qed.
Definition run45 : list qev :=
  ok1 0 (CNew 5) ++ ok1 0 (COp QNext) ++ ok1 0 (COp QNext) ++ ok1 0 (COp (QClose true)) ++ ok1 1 (CNew 5) ++ ok1 1 (COp QNext) ++ ok1 1 (COp (QNextN 2)).
Example C45_nonvacuous : callers_ok One 5 LH (fresh_world (db_init 0 false)) [] run45 /\ frugal LH (fresh_world (db_init 0 false)) run45 /\
  outcomes LH run45 = [Ok QUnit; Ok (QId 1); Ok (QId 2); Ok QUnit; Ok QUnit; Ok (QId 3); Ok (QRanges [(3, 5)])].
Proof.
  split; [unfold run45, ok1; cbn [app]; allowed_run|]. split; [|vm_compute; reflexivity].
  unfold run45, ok1. cbn [app]. repeat (split; [first [exact I | intros d0 s H _ _; vm_compute in H; first [discriminate H | vm_compute; reflexivity]]|]). exact I.
Qed.
(** closing twice does not release twice: the second Close fails and changes nothing *)
Theorem C45_closed_allocator_does_nothing : forall d0 d1 lim io s o, q_closed s = true -> o <> QNextN 0 ->
  q_exec d0 d1 lim io s o = (d1, s, Err ErrSequenceClosed).
Proof. intros d0 d1 lim io s o C N. destruct o as [|[]| | | |]; cbn [q_exec]; rewrite ?C; congruence. Qed.

(** * C46 *)
(** a string-backed sequence: a successful Clear removes the counter's key and no other *)
Theorem C46_string_Clear_removes_only_its_counter : forall d0 d1 lim io s k d' s',
  q_loc s = AtString k -> clearFunc d0 d1 lim io s = (d', s', Ok tt) ->
  get (d_kv d') (counter_key (AtString k)) = None /\
  forall key, key <> counter_key (AtString k) -> get (d_kv d') key = get (d_kv d1) key.
Proof.
  intros d0 d1 lim io s k d' s' Hl E. unfold clearFunc in E. rewrite Hl in E. cbn [loc_clear counter_key] in *.
  destruct (run_update d0 d1 (SClear MetaPrefix k) lim io) as [d2 [u|e|]] eqn:R; try discriminate. 
  assert (d2 = d') by congruence. subst d2. destruct (run_update_cases _ _ _ _ _ _ _ R) as [(t & t' & a & _ & F & Cm)|[X _]]; [|exfalso; exact (X u eq_refl)].
  unfold SClear, tdel in F. apply modify_post in F. destruct F as [[_ (l & ->)]|(e & X & _)]; [|discriminate].
  destruct (commit_cases _ _ _ _ _ _ Cm) as [(_ & Kv & _)|[X _]]; [|congruence].
  split; [|intros key N]; rewrite Kv, get_put.
  - rewrite bytes_eqb_refl. reflexivity.
  - apply bytes_eqb_neq in N. rewrite N. reflexivity.
Qed.
(** a hash-backed sequence: Clear removes the whole hash the counter lives in (every field), and nothing
    else. Full claim: only the counter. *)
Theorem C46_hash_Clear_removes_the_whole_hash_partial : forall d k f s d' s' r n S,
  db_ok d -> rep MetaPrefix n (dview d) S -> n < two63 -> q_loc s = AtHash k f ->
  clearFunc d d [] false s = (d', s', r) ->
  r = Ok tt /\ q_next s' = 0 /\ q_leased s' = 0 /\ rep MetaPrefix n (dview d') (put_hash S k empty) /\
  forall key, has_prefix key MetaPrefix = false -> get (dview d') key = get (dview d) key.
Proof.
  intros d k f s d' s' r n S K R L Hl E. unfold clearFunc in E. rewrite Hl in E. cbn [loc_clear] in E.
  destruct (HClear_spec MetaPrefix k S meta_prefix_good n (dview d) R ltac:(lia)) as (M' & Sp & R' & O).
  destruct (run_update_ok d (HClear MetaPrefix k) tt M' K Sp) as (d2 & E2 & V & _). rewrite E2 in E.
  apply pair3_inj in E. destruct E as (<- & <- & <-). split; [reflexivity|]. split; [reflexivity|]. split; [reflexivity|].
  rewrite V. replace (n + 0) with n in R' by lia. split; [exact R' | exact O].
Qed.
(** The full claim fails: clearing collection 2's id sequence deletes the metadata of the database's
    collections, which are stored in the same hash. *)
Theorem C46_hash_Clear_destroys_other_fields_refuted :
  let setup := (HSet MetaPrefix (str "db:1") (str "collectionInfo:7") (str "{}") ;;; HSetInt64 MetaPrefix (str "db:1") (str "didSequence:2") 10) in
  let '(d, r) := run_update (db_init 0 false) (db_init 0 false) setup [] false in
  r = Ok tt /\
  run_view d (HGet MetaPrefix (str "db:1") (str "collectionInfo:7")) = Ok (str "{}") /\
  let '(d', s', r') := clearFunc d d [] false (Seq LH 5 false 10 15 []) in
  r' = Ok tt /\ run_view d' (HGet MetaPrefix (str "db:1") (str "collectionInfo:7")) = Err ErrKeyNotFound.
Proof. vm_compute. auto. Qed.

(** * C47 *)
(** any number of old allocators on one keyword, any schedule, crashes, failed renewals, releases *)
Theorem C47_old_allocator_never_repeats_an_id : forall K B c0 d es,
  0 < B -> 0 <= c0 -> ocell K d c0 -> db_ok d -> c0 + B * Z.of_nat (length es) < two64 ->
  Forall (o_allowed B K) es ->
  NoDup (oids (snd (orun K (OW d (fun _ => None) (fun _ => None)) es))).
Proof.
  intros K B c0 d es HB P C D U A.
  refine (proj1 (orun_inv B K HB es 0 (OW d (fun _ => None) (fun _ => None)) [] c0 ltac:(lia) _ A)).
  split; cbn [ow_db ow_seq ow_call]; try discriminate; try assumption; [split; [lia | exact U] | intros v []].
Qed.
Definition orun47 : list oev :=
  [OBegin 0 (OcNew 2); OEnd 0 [] false; OBegin 1 (OcNew 3); OEnd 1 [] false; OBegin 0 OcNext; OEnd 0 [] false; OBegin 1 OcNext; OEnd 1 [] false;
   OBegin 0 OcNext; OEnd 0 [] false; OBegin 0 OcNext; OEnd 0 [] true; OBegin 1 OcNext; OBegin 0 OcNext; OEnd 1 [] false; OEnd 0 [] false;
   OCrash (fun _ => true); OBegin 2 (OcNew 2); OEnd 2 [] false; OBegin 2 OcRelease; OEnd 2 [] false; OBegin 2 OcNext; OEnd 2 [] false].
Example C47_nonvacuous : Forall (o_allowed 3 (str "collection")) orun47 /\ ocell (str "collection") (db_init 0 false) 0 /\
  oids (snd (orun (str "collection") (OW (db_init 0 false) (fun _ => None) (fun _ => None)) orun47)) = [1; 3; 2; 4; 6; 10].
Proof.
  split; [unfold orun47; repeat (constructor; [first [exact I | cbn; lia]|]); constructor|]. split; [left; split; reflexivity | vm_compute; reflexivity].
Qed.
(** The release claim fails: ReleaseRemaining never changes the database (its transaction is discarded,
    not committed), so the unused part of the lease is lost. *)
Theorem C47_ReleaseRemaining_returns_nothing_refuted : forall d0 d1 lim s, fst (fst (o_Release d0 d1 lim s)) = d1.
Proof. intros d0 d1 lim s. unfold o_Release. destruct (o_leased s =? o_next s); [reflexivity|]. destruct (tset _ _ _) as [t [u|e|]]; reflexivity. Qed.

Print Assumptions C42_ids_never_handed_out_twice.
Print Assumptions C42_no_put_back_all_distinct.
Print Assumptions C42_negative_bandwidth_repeats_ids_refuted.
Print Assumptions C43_renewing_NextN_returns_fresh_ids_partial.
Print Assumptions C43_NextN_ids_are_returned_again_refuted.
Print Assumptions C43_negative_count_repeats_ids_refuted.
Print Assumptions C44_many_allocators_without_release_partial.
Print Assumptions C44_close_with_release_makes_duplicates_refuted.
Print Assumptions C45_release_leaves_no_gap.
Print Assumptions C45_closed_allocator_does_nothing.
Print Assumptions C46_string_Clear_removes_only_its_counter.
Print Assumptions C46_hash_Clear_removes_the_whole_hash_partial.
Print Assumptions C46_hash_Clear_destroys_other_fields_refuted.
Print Assumptions C47_old_allocator_never_repeats_an_id.
Print Assumptions C47_ReleaseRemaining_returns_nothing_refuted.
Example C46_nonvacuous : let LX := AtString (str "global") in
  let '(d1, o, r1) := newSeq (db_init 0 false) (db_init 0 false) [] false LX 5 in
  match o with
  | Some s => q_loc s = LX /\ get (d_kv d1) (counter_key LX) <> None /\ let '(d2, s2, r2) := clearFunc d1 d1 [] false s in r2 = Ok tt /\ get (d_kv d2) (counter_key LX) = None
  | None => False
  end.
Proof. vm_compute. repeat split; discriminate. Qed.
