(** C67: collection ids of the older document package. *)
From Verif Require Import Bytes SMap Provider ProviderProofs World Numeric UtilTxn Sequence SequenceProofs OldSequence DocKeys OldDoc.

(** * Specification *)
(** what the store remembers: an id for some of the names (8 bytes, big endian), under the key of the name *)
Definition catalogue (d : db) (N : bytes -> option Z) : Prop :=
  forall n, get (d_kv d) (cnameKey n) = option_map (fun u => mk (be_bytes 8 u)) (N n).
Definition one_to_one (N : bytes -> option Z) : Prop := forall n n' u, N n = Some u -> N n' = Some u -> n = n'.

(** * C67 *)
(** Any number of DB objects (in any processes) on one store, opening any collections in any interleaving of their
    transactions, with crashes, failed commits, conflicts, transactions of others, Close and reopening: every successful
    call of Collection gives a name the one id it ever has, the ids stored before included, and no two names share an id;
    at the end the store maps every opened name to its id, still one to one. *)
Theorem C67_collection_ids_stable : forall d N c0 es,
  db_ok d -> catalogue d N -> one_to_one N -> (forall n u, N n = Some u -> 0 <= u <= c0) ->
  0 <= c0 -> ocell reservedKeywordCollection d c0 -> c0 + collectionIDBandWidth * Z.of_nat (length es) < two63 ->
  Forall g_allowed es ->
  let w' := fst (grun (gstart d) es) in let rs := snd (grun (gstart d) es) in
  (forall n id n' id', In (n, id) (opened rs) -> In (n', id') (opened rs) -> (n = n' <-> id = id')) /\
  (forall n id u, In (n, id) (opened rs) -> N n = Some u -> id = u) /\
  (forall n id n', In (n, id) (opened rs) -> N n' = Some id -> n' = n) /\
  exists N', catalogue (gw_db w') N' /\ one_to_one N' /\ (forall n u, N n = Some u -> N' n = Some u) /\
    forall n id, In (n, id) (opened rs) -> N' n = Some id.
Proof.
  intros d N c0 es Dk Ca Oo Rg P0 Ce Lim A w' rs.
  set (used := flat_map (fun p => match DecodeFromBinary (e_val (snd p)) with Some u => if (0 <=? u) && (u <=? c0) then [u] else [] | None => [] end) (entries (d_kv d))).
  assert (Us : forall u, In u used -> 0 <= u <= c0).
  { intros u H. apply in_flat_map in H. destruct H as (p & _ & H). destruct (DecodeFromBinary (e_val (snd p))) as [u'|]; [|destruct H].
    destruct ((0 <=? u') && (u' <=? c0)) eqn:E; [|destruct H]. destruct H as [<-|[]]. lia. }
  assert (Dec : forall u, 0 <= u <= c0 -> DecodeFromBinary (be_bytes 8 u) = Some u).
  { intros u Hu. apply DecodeFromBinary_enc. unfold is_u64. rewrite two63_val in Lim. rewrite two64_val. unfold collectionIDBandWidth in Lim. lia. }
  assert (SN : forall n u, 0 <= u <= c0 -> stored (d_kv d) n u -> N n = Some u).
  { intros n u Hu S. unfold stored in S. rewrite Ca in S. destruct (N n) as [x|] eqn:E; [|discriminate]. f_equal.
    assert (X := f_equal (fun o => match o with Some e => DecodeFromBinary (e_val e) | None => None end) S). cbn [option_map mk e_val] in X.
    rewrite (Dec x (Rg n x E)) in X. change (Encode2Binary u []) with (be_bytes 8 u) in X. rewrite (Dec u Hu) in X. congruence. }
  assert (I : ginv (0 + Z.of_nat (length es)) (gstart d) used c0).
  { split; unfold gw_db, gstart; cbn [gw_o gw_call gw_cache ow_db].
    - split; cbn [ow_db ow_seq ow_call]; try discriminate; try assumption.
      + split; [exact P0|]. rewrite two63_val in Lim. rewrite two64_val. lia.
      + intros v Hv. split; [apply Us; exact Hv | discriminate].
    - lia.
    - intros v Hv. apply Us. exact Hv.
    - intros n e G. rewrite Ca in G. destruct (N n) as [u|] eqn:E; [|discriminate]. exists u. split; [unfold stored; rewrite Ca, E; reflexivity|].
      apply in_flat_map. exists (cnameKey n, mk (be_bytes 8 u)). split; [apply get_in; rewrite Ca, E; reflexivity|]. cbn [snd mk e_val]. rewrite (Dec u (Rg n u E)).
      specialize (Rg n u E). replace ((0 <=? u) && (u <=? c0)) with true by lia. left. reflexivity.
    - intros n n' u Hu S1 S2. apply (Oo n n' u); apply SN; auto.
    - intros i n t [X|(v & X)]; discriminate.
    - discriminate.
    - discriminate. }
  destruct (grun_inv es 0 (gstart d) used c0 ltac:(lia) I A) as (used' & c' & I' & L & S & O). fold w' rs in I', S, O.
  assert (U' : forall u, In u used' -> is_u64 u).
  { intros u Hu. pose proof (gi_pos _ _ _ _ I' u Hu). destruct (oi_used _ _ _ _ _ _ (gi_o _ _ _ _ I') u Hu) as [Lu _]. pose proof (gi_c _ _ _ _ I') as Cu.
    unfold is_u64. rewrite two63_val in Cu. rewrite two64_val. lia. }
  assert (Q1 : forall n id u, In (n, id) (opened rs) -> N n = Some u -> id = u).
  { intros n id u H E. destruct (O n id H) as [S1 S2]. apply (stored_fun (d_kv (gw_db w')) n); [apply U'; exact S2 | | exact S1|].
    - specialize (Rg n u E). unfold is_u64. rewrite two63_val in Lim. rewrite two64_val. unfold collectionIDBandWidth in Lim. lia.
    - apply S. unfold stored, gstart, gw_db. cbn [gw_o ow_db]. rewrite Ca, E. reflexivity. }
  assert (SO : forall n u, N n = Some u -> stored (d_kv (gw_db w')) n u).
  { intros n u E. apply S. unfold stored, gstart, gw_db. cbn [gw_o ow_db]. rewrite Ca, E. reflexivity. }
  split; [|split; [exact Q1|split]].
  - intros n id n' id' H1 H2. destruct (O n id H1) as [S1 V1], (O n' id' H2) as [S2 V2]. split.
    + intros <-. apply (stored_fun (d_kv (gw_db w')) n); auto.
    + intros <-. apply (gi_inj _ _ _ _ I' n n' id V1 S1 S2).
  - intros n id n' H E. destruct (O n id H) as [S1 V1]. apply (gi_inj _ _ _ _ I' n' n id V1 (SO n' id E) S1).
  - exists (fun n => match get (d_kv (gw_db w')) (cnameKey n) with Some e => DecodeFromBinary (e_val e) | None => None end).
    assert (G : forall n u, is_u64 u -> stored (d_kv (gw_db w')) n u -> match get (d_kv (gw_db w')) (cnameKey n) with Some e => DecodeFromBinary (e_val e) | None => None end = Some u).
    { intros n u Hu S1. unfold stored in S1. rewrite S1. cbn [mk e_val]. apply DecodeFromBinary_enc. exact Hu. }
    split; [|split; [|split]].
    + intros n. destruct (get (d_kv (gw_db w')) (cnameKey n)) as [e|] eqn:E; [|reflexivity]. destruct (gi_st _ _ _ _ I' n e E) as (u & S1 & S2).
      pose proof (G n u (U' u S2) S1) as X. rewrite E in X. rewrite X. cbn [option_map]. unfold stored in S1. rewrite E in S1. exact S1.
    + intros n n' u H1 H2. destruct (get (d_kv (gw_db w')) (cnameKey n)) as [e|] eqn:E1; [|discriminate]. destruct (get (d_kv (gw_db w')) (cnameKey n')) as [e'|] eqn:E2; [|discriminate].
      destruct (gi_st _ _ _ _ I' n e E1) as (u1 & S1 & V1), (gi_st _ _ _ _ I' n' e' E2) as (u2 & S2 & V2).
      pose proof (G n u1 (U' u1 V1) S1) as X1. rewrite E1 in X1. pose proof (G n' u2 (U' u2 V2) S2) as X2. rewrite E2 in X2.
      assert (u1 = u) by congruence. assert (u2 = u) by congruence. subst u1 u2. apply (gi_inj _ _ _ _ I' n n' u V1 S1 S2).
    + intros n u E. apply G; [|apply SO; exact E]. specialize (Rg n u E). unfold is_u64. rewrite two63_val in Lim. rewrite two64_val. unfold collectionIDBandWidth in Lim. lia.
    + intros n id H. destruct (O n id H) as [S1 V1]. apply G; auto.
Qed.

(** Two processes open "users" at once: the loser's commit conflicts; trying again it gets the winner's id. Another name
    gets another id, and after a crash and restart both names still have theirs. *)
Definition run67 : list gev :=
  [GNewDB 0; GSeq 0 [] false; GNewDB 1; GSeq 1 [] false;
   GOpen 0 (str "users") [] None; GOpen 1 (str "users") [] None; GNext 0; GNext 1; GSeq 1 [] false; GSeq 0 [] false; GPut 1 false None; GPut 0 false None;
   GOpen 0 (str "users") [] None; GOpen 0 (str "index") [] None; GOpen 0 (str "orders") [] None; GNext 0; GSeq 0 [] false; GPut 0 false None;
   GCrash (fun _ => true); GNewDB 0; GSeq 0 [] false; GOpen 0 (str "orders") [] None; GOpen 0 (str "users") [] None; GClose 0; GSeq 0 [] false; GOpen 0 (str "users") [] None].
Example C67_nonvacuous : Forall g_allowed run67 /\ catalogue (db_init 0 false) (fun _ => None) /\ ocell reservedKeywordCollection (db_init 0 false) 0 /\
  opened (snd (grun (gstart (db_init 0 false)) run67)) = [(str "users", 51); (str "users", 51); (str "orders", 2); (str "orders", 2); (str "users", 51)] /\
  filter (fun r => match r with None => false | Some (_, Ok _) => false | _ => true end) (snd (grun (gstart (db_init 0 false)) run67)) =
    [Some (str "users", Err EConflict); Some (str "index", Err ErrCollectionNameForbiden); Some (str "users", Err ErrAlreadyClosed)].
Proof. split; [repeat constructor|]. split; [intros n; reflexivity|]. split; [left; split; reflexivity|]. split; vm_compute; reflexivity. Qed.
(** The empty name and the two names that would share the counters' keys are never opened. *)
Definition may_open (n : bytes) : Prop := n <> [] /\ n <> str "collection" /\ n <> str "index".
Definition calls_ok (w : gworld) : Prop := forall i n t, waiting w i n t -> may_open n.
Lemma calls_ok_sub w w' : (forall j, gw_call w' j = None \/ gw_call w' j = gw_call w j) -> calls_ok w -> calls_ok w'.
Proof. intros H C i n t. unfold waiting. destruct (H i) as [-> | ->]; [intros [X|(v & X)]; discriminate | apply (C i n t)]. Qed.
Lemma gstep_names w e : calls_ok w -> calls_ok (fst (gstep w e)) /\ forall n id, snd (gstep w e) = Some (n, Ok id) -> may_open n.
Proof.
  intros C.
  assert (SAME : forall w' (o : gobs), (forall j, gw_call w' j = None \/ gw_call w' j = gw_call w j) -> (forall n id, o = Some (n, Ok id) -> may_open n) ->
     calls_ok (fst (w', o)) /\ forall n id, snd (w', o) = Some (n, Ok id) -> may_open n).
  { intros w' o H1 H2. split; [apply (calls_ok_sub w); assumption | exact H2]. }
  assert (DROP : forall w0 i j, gw_call w0 = gw_call w -> gw_call (gset_call w0 i None) j = None \/ gw_call (gset_call w0 i None) j = gw_call w j).
  { intros w0 i j <-. unfold gset_call. cbn [gw_call]. unfold fupd. destruct (Nat.eqb j i); auto. }
  assert (SET : forall w0 i c, gw_call w0 = gw_call w -> (forall n t, c = GWait n t \/ (exists v, c = GHas n t v) -> may_open n) -> calls_ok (gset_call w0 i (Some c))).
  { intros w0 i c E H j n t. unfold waiting, gset_call. cbn [gw_call]. rewrite E. unfold fupd. destruct (Nat.eqb j i); [|apply (C j n t)].
    intros [X|(v & X)]; inversion X; subst; apply (H n t); eauto. }
  destruct e as [i|i lim io|i name lim after|i|i io after|i|who|t io|m]; cbn [gstep]; try (solve [apply SAME; [auto | discriminate]]).
  - destruct (ow_seq (gw_o w) i); (apply SAME; [auto | discriminate]).
  - destruct (ostep reservedKeywordCollection (gw_o w) (OEnd i lim io)) as [o r]. destruct (gw_call w i) as [[name t|name t v]|] eqn:Hc; [|apply SAME; [auto | discriminate]..].
    destruct r as [[v|er|]|]; [|apply SAME; [intros j; apply DROP; reflexivity | discriminate].. | apply SAME; [auto | discriminate]].
    split; [|discriminate]. apply SET; [reflexivity|]. intros n t0 [X|(v0 & X)]; [discriminate|]. inversion X. subst. apply (C i n t0). left. exact Hc.
  - destruct (gw_call w i); [apply SAME; [auto | discriminate]|]. destruct (ow_seq (gw_o w) i); [|apply SAME; [auto | discriminate]]. destruct name as [|b0 name]; [apply SAME; [auto | discriminate]|].
    destruct (bytes_eqb (b0 :: name) reservedKeywordCollection) eqn:E1; [apply SAME; [auto | discriminate]|]. destruct (bytes_eqb (b0 :: name) reservedKeywordIndex) eqn:E2; [apply SAME; [auto | discriminate]|].
    apply bytes_eqb_neq in E1, E2. cbn [orb]. assert (M : may_open (b0 :: name)) by (split; [discriminate | split; assumption]).
    destruct (gw_closed w i); [apply SAME; [auto | discriminate]|]. destruct (ow_call (gw_o w) i); [apply SAME; [auto | discriminate]|].
    destruct (gw_cache w i (b0 :: name)); [apply SAME; [auto | intros n id X; inversion X; subst; exact M]|].
    destruct (tget (cnameKey (b0 :: name)) (new_txn (gw_db w) true lim)) as [t [v|er|]].
    + destruct (DecodeFromBinary v); [|apply SAME; [auto | discriminate]]. destruct after; (apply SAME; [auto | intros n id X; inversion X; subst; exact M]).
    + destruct er; try (solve [apply SAME; [auto | discriminate]]). split; [|discriminate]. apply SET; [reflexivity|]. intros n t0 [X|(v0 & X)]; inversion X; subst; exact M.
    + apply SAME; [auto | discriminate].
  - destruct (gw_call w i) as [[? ?|? ? ?]|]; (apply SAME; [auto | discriminate]).
  - destruct (gw_call w i) as [[name t|name t v]|] eqn:Hc; [apply SAME; [auto | discriminate]| |apply SAME; [auto | discriminate]].
    assert (M : may_open name) by (apply (C i name t); right; eauto).
    destruct (tset (cnameKey name) (Encode2Binary v []) t) as [t2 [uu|er|]]; [|apply SAME; [intros j; apply DROP; reflexivity | discriminate]..].
    destruct (commit (gw_db w) t2 io) as [[d2 t4] [[]|er|]]; [|apply SAME; [intros j; apply DROP; reflexivity | discriminate]..].
    destruct after; (apply SAME; [intros j; apply (DROP (gset_o w (fst (ostep reservedKeywordCollection (gw_o w) (OForeign t2 io))))); reflexivity | intros n id X; inversion X; subst; exact M]).
  - destruct (gw_call w i); [apply SAME; [auto | discriminate]|]. destruct (gw_closed w i); (apply SAME; [auto | discriminate]).
  - apply SAME; [|discriminate]. intros j. cbn [gw_call]. destruct (who j); auto.
Qed.
Theorem C67_reserved_names : forall d es n id, In (n, id) (opened (snd (grun (gstart d) es))) -> may_open n.
Proof.
  intros d es. assert (C : calls_ok (gstart d)) by (intros i n t [X|(v & X)]; discriminate). revert C. generalize (gstart d).
  induction es as [|e es IH]; intros w C n id; [intros []|]. cbn [grun]. destruct (gstep_names w e C) as [C1 O1]. destruct (gstep w e) as [w1 r]. cbn [fst snd] in *.
  specialize (IH w1 C1 n id). destruct (grun w1 es) as [w2 rs]. cbn [snd] in *. unfold opened in *. cbn [map concat]. intros H. apply in_app_or in H. destruct H as [H|H]; [|apply IH; exact H].
  destruct r as [[n' [id'|er|]]|]; cbn in H; try contradiction. destruct H as [H|[]]. inversion H. subst. apply (O1 n id eq_refl).
Qed.
Print Assumptions C67_collection_ids_stable.
Print Assumptions C67_reserved_names.

(** Once Close has begun on a DB object, it opens nothing any more: a call of Collection fails and changes nothing, with
    the error for "closing" while the release of the sequence is running and the one for "closed" afterwards. Only a
    new process (crash and NewDB) opens collections again. *)
Theorem C67_closed_opens_nothing : forall es w i name lim after,
  gw_closed w i = true -> (forall who, In (GCrash who) es -> who i = false) -> may_open name ->
  let w' := fst (grun w es) in
  gw_call w' i = None -> ow_seq (gw_o w') i <> None ->
  gstep w' (GOpen i name lim after) = (w', Some (name, Err (match ow_call (gw_o w') i with Some _ => ErrAlreadyClosing | None => ErrAlreadyClosed end))).
Proof.
  intros es w i name lim after C N (M1 & M2 & M3). cbv zeta. assert (C' : gw_closed (fst (grun w es)) i = true).
  { revert w C N. induction es as [|e es IH]; intros w C N; [exact C|]. cbn [grun]. destruct (gstep w e) as [w1 r] eqn:E.
    assert (C1 : gw_closed w1 i = true).
    { clear IH. assert (G : forall w0 j n id a w2 r2, gfinish w0 j n id a = (w2, r2) -> gw_closed w2 = gw_closed w0) by (intros w0 j n id [] w2 r2 X; cbn [gfinish] in X; inversion X; reflexivity).
      assert (X : gw_closed w1 i = gw_closed w i \/ exists who, e = GCrash who \/ e = GClose i); [|destruct X as [X|(who & [-> | ->])]; [congruence| |]].
      - destruct e; cbn [gstep] in E; try (right; eexists; left; reflexivity);
          repeat match type of E with
                 | (let '(_, _) := ?x in _) = _ => destruct x eqn:?
                 | match ?x with _ => _ end = _ => destruct x eqn:?
                 end; try (left; inversion E; subst; reflexivity); try (left; rewrite (G _ _ _ _ _ _ _ E); reflexivity).
        destruct (Nat.eq_dec i0 i) as [->|Ne]; [right; exists (fun _ => false); right; reflexivity|]. left. inversion E. cbn [gw_closed]. destruct (Nat.eqb_spec i i0); [congruence | reflexivity].
      - cbn [gstep] in E. inversion E. cbn [gw_closed]. rewrite (N who (or_introl eq_refl)). exact C.
      - cbn [gstep] in E. destruct (gw_call w i); [inversion E; subst; exact C|]. rewrite C in E. inversion E; subst; exact C. }
    specialize (IH w1 C1 (fun who X => N who (or_intror X))). destruct (grun w1 es). exact IH. }
  intros Ca Sq. cbn [gstep]. rewrite Ca. destruct (ow_seq (gw_o (fst (grun w es))) i); [|congruence]. destruct name as [|b l]; [congruence|].
  apply bytes_eqb_neq in M2. apply bytes_eqb_neq in M3. change (str "collection") with reservedKeywordCollection in M2. change (str "index") with reservedKeywordIndex in M3. rewrite M2, M3, C'. reflexivity.
Qed.
Example C67_closed_nonvacuous : let w := fst (grun (gstart (db_init 0 false)) [GNewDB 0; GSeq 0 [] false; GClose 0]) in
  gw_closed w 0 = true /\ gw_call w 0 = None /\ ow_seq (gw_o w) 0 <> None /\
  snd (gstep w (GOpen 0 (str "users") [] None)) = Some (str "users", Err ErrAlreadyClosing) /\
  snd (gstep (fst (grun w [GSeq 0 [] false])) (GOpen 0 (str "users") [] None)) = Some (str "users", Err ErrAlreadyClosed).
Proof. vm_compute. repeat split. discriminate. Qed.
