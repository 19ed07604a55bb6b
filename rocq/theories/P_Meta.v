(** Schema metadata: C53 (sequential part; P_GlobalIds.v has the concurrent one), C54, C55, C56.
    encoding/json is a parameter J meeting the contract [json_ok] (MetaCodec.v has an instance). *)
From Verif Require Import Bytes SMap Provider ProviderProofs World Memcmp MemcmpProofs Numeric KvUtil KeyModel Struct
  StructProofs StructHash StructList UtilTxn Sequence SequenceProofs Model Meta MetaCodec MetaSpec MetaProofs MetaOps MetaRun.
From Coq Require Import Sorted.
Local Notation P := MetaPrefix.

(** * What [utf8] accepts: exactly the concatenations of encodings of Unicode scalar values (RFC 3629) *)
Definition scalar (c : Z) : Prop := 0 <= c < 55296 \/ 57344 <= c < 1114112.
Definition utf8_of (c : Z) : bytes :=
  if c <? 128 then [z2b c]
  else if c <? 2048 then [z2b (192 + c / 64); z2b (128 + c mod 64)]
  else if c <? 65536 then [z2b (224 + c / 4096); z2b (128 + (c / 64) mod 64); z2b (128 + c mod 64)]
  else [z2b (240 + c / 262144); z2b (128 + (c / 4096) mod 64); z2b (128 + (c / 64) mod 64); z2b (128 + c mod 64)].
Lemma b2z_small z : 0 <= z < 256 -> b2z (z2b z) = z.
Proof. intros R. rewrite b2z_z2b. apply Z.mod_small. exact R. Qed.
Ltac zify_div := Z.div_mod_to_equations; lia.
Ltac bool_go := repeat (cbn [andb]; match goal with
  | |- context [?x <? ?y] => first [replace (x <? y) with true by (symmetry; apply Z.ltb_lt; lia) | replace (x <? y) with false by (symmetry; apply Z.ltb_ge; lia)]
  | |- context [?x <=? ?y] => first [replace (x <=? y) with true by (symmetry; apply Z.leb_le; lia) | replace (x <=? y) with false by (symmetry; apply Z.leb_gt; lia)]
  | |- context [?x =? ?y] => destruct (Z.eqb_spec x y); [subst x|]
  end).
Lemma utf8_step c s : scalar c -> utf8 (utf8_of c ++ s) = utf8 s.
Proof.
  intros Sc. unfold utf8_of. destruct (Z.ltb_spec c 128) as [L1|L1]; [|destruct (Z.ltb_spec c 2048) as [L2|L2]; [|destruct (Z.ltb_spec c 65536) as [L3|L3]]]; cbn [app utf8].
  - rewrite b2z_small by (destruct Sc; lia). destruct (Z.ltb_spec c 128); [reflexivity | lia].
  - unfold within, cont. rewrite !b2z_small by zify_div.
    assert (194 <= 192 + c / 64 <= 223) as A by zify_div. assert (128 <= 128 + c mod 64 <= 191) as B by zify_div. revert A B. generalize (192 + c / 64) (128 + c mod 64). intros x y A B.
    bool_go; reflexivity.
  - unfold within, cont. rewrite !b2z_small by zify_div.
    assert (224 <= 224 + c / 4096 <= 239) as A by zify_div. assert (128 <= 128 + (c / 64) mod 64 <= 191) as B by zify_div. assert (128 <= 128 + c mod 64 <= 191) as C by zify_div.
    assert (224 + c / 4096 = 224 -> 160 <= 128 + (c / 64) mod 64) as D by zify_div. assert (224 + c / 4096 = 237 -> 128 + (c / 64) mod 64 <= 159) as E by (destruct Sc; zify_div).
    revert A B C D E. generalize (224 + c / 4096) (128 + (c / 64) mod 64) (128 + c mod 64). intros x y z A B C D E.
    bool_go; reflexivity.
  - unfold within, cont. rewrite !b2z_small by (destruct Sc; zify_div).
    assert (240 <= 240 + c / 262144 <= 244) as A by (destruct Sc; zify_div). assert (128 <= 128 + (c / 4096) mod 64 <= 191) as B by zify_div. assert (128 <= 128 + (c / 64) mod 64 <= 191) as B' by zify_div. assert (128 <= 128 + c mod 64 <= 191) as C by zify_div.
    assert (240 + c / 262144 = 240 -> 144 <= 128 + (c / 4096) mod 64) as D by zify_div. assert (240 + c / 262144 = 244 -> 128 + (c / 4096) mod 64 <= 143) as E by (destruct Sc; zify_div).
    revert A B B' C D E. generalize (240 + c / 262144) (128 + (c / 4096) mod 64) (128 + (c / 64) mod 64) (128 + c mod 64). intros x y z w A B B' C D E.
    bool_go; reflexivity.
Qed.
Lemma within_iff b lo hi : within b lo hi = true <-> lo <= b2z b <= hi.
Proof. unfold within. rewrite andb_true_iff, !Z.leb_le. reflexivity. Qed.
Lemma cont_iff b : cont b = true <-> 128 <= b2z b <= 191.
Proof. unfold cont. rewrite andb_true_iff, !Z.leb_le. reflexivity. Qed.
Lemma z2b_is b z : z = b2z b -> z2b z = b.
Proof. intros ->. apply z2b_b2z. Qed.
Theorem C54_utf8_is_unicode : forall s, utf8 s = true <-> exists cs, Forall scalar cs /\ s = flat_map utf8_of cs.
Proof.
  intros s. split.
  - remember (length s) as n eqn:En. assert (L : (length s <= n)%nat) by lia. clear En. revert s L. induction n as [|n IH]; intros s L U.
    { destruct s; [|cbn in L; lia]. exists []. split; [constructor | reflexivity]. }
    destruct s as [|a s1]; [exists []; split; [constructor | reflexivity]|]. cbn [utf8] in U. cbn [length] in L.
    assert (Go : forall s' c, (length s' <= n)%nat -> utf8 s' = true -> scalar c -> utf8_of c ++ s' = a :: s1 -> exists cs, Forall scalar cs /\ a :: s1 = flat_map utf8_of cs).
    { intros s' c L' U' Sc E. destruct (IH s' L' U') as (cs & F & ->). exists (c :: cs). split; [constructor; assumption | symmetry; exact E]. }
    pose proof (b2z_range a) as Ra. destruct (Z.ltb_spec (b2z a) 128) as [A|A].
    { apply (Go s1 (b2z a)); [lia | exact U | left; lia |]. unfold utf8_of. destruct (Z.ltb_spec (b2z a) 128); [|lia]. rewrite z2b_b2z. reflexivity. }
    destruct s1 as [|b s2]; [discriminate|]. cbn [length] in L. destruct (within a 194 223) eqn:Wa.
    { apply within_iff in Wa. apply andb_true_iff in U. destruct U as [Cb U]. apply cont_iff in Cb.
      apply (Go s2 ((b2z a - 192) * 64 + (b2z b - 128))); [lia | exact U | left; lia |]. unfold utf8_of.
      set (c := (b2z a - 192) * 64 + (b2z b - 128)). destruct (Z.ltb_spec c 128); [lia|]. destruct (Z.ltb_spec c 2048); [|lia].
      cbn [app]. rewrite (z2b_is a), (z2b_is b); [reflexivity | unfold c; zify_div | unfold c; zify_div]. }
    destruct s2 as [|c0 s3]; [discriminate|]. cbn [length] in L. destruct (within a 224 239) eqn:Wb.
    { apply within_iff in Wb. apply andb_true_iff in U. destruct U as [U1 U]. apply andb_true_iff in U1. destruct U1 as [Cb Cc]. apply cont_iff in Cc.
      assert (B : 128 <= b2z b <= 191 /\ (b2z a = 224 -> 160 <= b2z b) /\ (b2z a = 237 -> b2z b <= 159)).
      { destruct (Z.eqb_spec (b2z a) 224); [apply within_iff in Cb; lia|]. destruct (Z.eqb_spec (b2z a) 237); [apply within_iff in Cb; lia | apply cont_iff in Cb; lia]. }
      set (c := (b2z a - 224) * 4096 + (b2z b - 128) * 64 + (b2z c0 - 128)). assert (scalar c) as Sc by (unfold scalar, c; destruct (Z.le_gt_cases (b2z a) 237); [destruct (Z.eqb_spec (b2z a) 237); [left|left] | right]; lia).
      apply (Go s3 c); [lia | exact U | exact Sc |]. unfold utf8_of.
      destruct (Z.ltb_spec c 128); [lia|]. destruct (Z.ltb_spec c 2048); [lia|]. destruct (Z.ltb_spec c 65536); [|lia].
      cbn [app]. rewrite (z2b_is a), (z2b_is b), (z2b_is c0); [reflexivity | unfold c; zify_div ..]. }
    destruct s3 as [|d s4]; [discriminate|]. cbn [length] in L.
    apply andb_true_iff in U. destruct U as [U1 U]. apply andb_true_iff in U1. destruct U1 as [U1 Cd]. apply andb_true_iff in U1. destruct U1 as [U1 Cc]. apply andb_true_iff in U1. destruct U1 as [Wc Cb].
    apply within_iff in Wc. apply cont_iff in Cc. apply cont_iff in Cd.
    assert (B : 128 <= b2z b <= 191 /\ (b2z a = 240 -> 144 <= b2z b) /\ (b2z a = 244 -> b2z b <= 143)).
    { destruct (Z.eqb_spec (b2z a) 240); [apply within_iff in Cb; lia|]. destruct (Z.eqb_spec (b2z a) 244); [apply within_iff in Cb; lia | apply cont_iff in Cb; lia]. }
    set (c := (b2z a - 240) * 262144 + (b2z b - 128) * 4096 + (b2z c0 - 128) * 64 + (b2z d - 128)). assert (scalar c) as Sc by (unfold scalar, c; right; lia).
    apply (Go s4 c); [lia | exact U | exact Sc |]. unfold utf8_of.
    destruct (Z.ltb_spec c 128); [lia|]. destruct (Z.ltb_spec c 2048); [lia|]. destruct (Z.ltb_spec c 65536); [lia|].
    cbn [app]. rewrite (z2b_is a), (z2b_is b), (z2b_is c0), (z2b_is d); [reflexivity | unfold c; zify_div ..].
  - intros (cs & F & ->). induction F as [|c cs Sc F IH]; [reflexivity|]. cbn [flat_map]. rewrite utf8_step by exact Sc. exact IH.
Qed.

Lemma i64_0 : is_i64 0.
Proof. unfold is_i64. rewrite two63_val. lia. Qed.
(** a database with no schema metadata *)
Definition no_meta (d : db) : Prop := forall key, has_prefix key P = true -> get (dview d) key = None.
(** what a read-only transaction sees after a history *)
Definition after (J : json) (d : db) (h : list mbatch) (ops : list mop) : result (list (result mval)) :=
  run_view (fst (mhexec J d h)) (collect_run (map (mexec J) ops)).
(** the committed calls of a history with their results *)
Fixpoint committed (h : list mbatch) (rss : list (list (result mval))) : list (mop * result mval) :=
  match h, rss with
  | MCommit l :: h', rs :: rss' => combine l rs ++ committed h' rss'
  | _ :: h', _ :: rss' => committed h' rss'
  | _, _ => []
  end.
Inductive tr (A : mst) : list (mop * result mval) -> mst -> Prop :=
| tr_nil : tr A [] A
| tr_cons o r A1 l A2 : mref A o r A1 -> tr A1 l A2 -> tr A ((o, r) :: l) A2.
Lemma tr_run A l rs A' : mref_run A l rs A' -> tr A (combine l rs) A'.
Proof. induction 1; cbn; econstructor; eassumption. Qed.
Lemma tr_app A l A1 l' A2 : tr A l A1 -> tr A1 l' A2 -> tr A (l ++ l') A2.
Proof. induction 1; cbn; [auto|]. intros H'. econstructor; eauto. Qed.
Lemma tr_hist A h rss A' : mref_hist A h rss A' -> tr A (committed h rss) A'.
Proof.
  induction 1 as [A|A b rs A1 h rss A2 B H IH]; [constructor|]. inversion B; subst; cbn [committed].
  - eapply tr_app; [apply tr_run; eassumption | exact IH].
  - exact IH.
  - exact IH.
Qed.

(** * The data a user expects after a history, call by call *)
(** database [id] and its collection [cid] *)
Definition nested_step (id cid : Z) (s : option DBInfo * option CollectionInfo) (o : mop) : option DBInfo * option CollectionInfo :=
  let '(d, c) := s in
  match o with
  | MCreateDB x => if di_id x =? id then match d with None => (Some x, c) | Some _ => s end else s
  | MUpdateDB x => if di_id x =? id then match d with None => s | Some _ => (Some x, c) end else s
  | MDropDB i => if i =? id then match d with None => s | Some _ => (None, None) end else s
  | MCreateColl i x => if (i =? id) && (ci_id x =? cid) then match d, c with Some _, None => (d, Some x) | _, _ => s end else s
  | MUpdateColl i x => if (i =? id) && (ci_id x =? cid) then match d, c with Some _, Some _ => (d, Some x) | _, _ => s end else s
  | MDropColl i x _ => if (i =? id) && (x =? cid) then match d with Some _ => (d, None) | None => s end else s
  | _ => s
  end.
Definition nested (id cid : Z) (l : list (mop * result mval)) : option DBInfo * option CollectionInfo :=
  fold_left (nested_step id cid) (map fst l) (None, None).
Lemma nested_ok A l A' : tr A l A' -> forall id cid, fold_left (nested_step id cid) (map fst l) (m_db A id, m_coll A id cid) = (m_db A' id, m_coll A' id cid).
Proof.
  induction 1 as [|A o r A1 l A2 M H IH]; intros id cid; [reflexivity|]. cbn [map fst fold_left]. rewrite <- IH. f_equal. clear IH H l A2.
  destruct o; cbn [mref nested_step] in *; try (destruct M as [_ ->]; reflexivity); unfold exists_db, exists_coll in *.
  - destruct (Z.eqb_spec (di_id d) id) as [<-|N].
    + destruct (m_db A (di_id d)) eqn:E; destruct M as [_ ->]; [rewrite E; reflexivity|]. cbn. unfold zupd. rewrite Z.eqb_refl. reflexivity.
    + destruct (m_db A (di_id d)) eqn:E; destruct M as [_ ->]; [reflexivity|]. cbn. unfold zupd. rewrite (Z.eqb_sym id). destruct (Z.eqb_spec (di_id d) id); [contradiction | reflexivity].
  - destruct (Z.eqb_spec (di_id d) id) as [<-|N].
    + destruct (m_db A (di_id d)) eqn:E; destruct M as [_ ->]; [|rewrite E; reflexivity]. cbn. unfold zupd. rewrite Z.eqb_refl. reflexivity.
    + destruct (m_db A (di_id d)) eqn:E; destruct M as [_ ->]; [|reflexivity]. cbn. unfold zupd. rewrite (Z.eqb_sym id). destruct (Z.eqb_spec (di_id d) id); [contradiction | reflexivity].
  - destruct (Z.eqb_spec id0 id) as [<-|N].
    + destruct (m_db A id0) eqn:E; destruct M as [_ ->]; [|rewrite E; reflexivity]. cbn. unfold zupd. rewrite !Z.eqb_refl. reflexivity.
    + destruct (m_db A id0) eqn:E; destruct M as [_ ->]; [|reflexivity]. cbn. unfold zupd. rewrite (Z.eqb_sym id). destruct (Z.eqb_spec id0 id); [contradiction | reflexivity].
  - destruct (m_db A db) eqn:E; cbn [negb] in M; [destruct (m_coll A db (ci_id c)) eqn:E2|]; destruct M as [_ ->].
    + destruct (Z.eqb_spec db id) as [<-|N]; cbn [andb]; [|reflexivity]. destruct (Z.eqb_spec (ci_id c) cid) as [<-|N2]; [|reflexivity]. rewrite E, E2. reflexivity.
    + cbn. unfold zupd. rewrite (Z.eqb_sym id). destruct (Z.eqb_spec db id) as [<-|N]; cbn [andb]; [|reflexivity]. rewrite (Z.eqb_sym cid). destruct (Z.eqb_spec (ci_id c) cid) as [<-|N2]; [|reflexivity]. rewrite E, E2. reflexivity.
    + destruct (Z.eqb_spec db id) as [<-|N]; cbn [andb]; [|reflexivity]. rewrite E. destruct (ci_id c =? cid); reflexivity.
  - destruct (m_db A db) eqn:E; cbn [negb] in M; [destruct (m_coll A db (ci_id c)) eqn:E2|]; cbn [negb] in M; destruct M as [_ ->].
    + cbn. unfold zupd. rewrite (Z.eqb_sym id). destruct (Z.eqb_spec db id) as [<-|N]; cbn [andb]; [|reflexivity]. rewrite (Z.eqb_sym cid). destruct (Z.eqb_spec (ci_id c) cid) as [<-|N2]; [|reflexivity]. rewrite E, E2. reflexivity.
    + destruct (Z.eqb_spec db id) as [<-|N]; cbn [andb]; [|reflexivity]. destruct (Z.eqb_spec (ci_id c) cid) as [<-|N2]; [|reflexivity]. rewrite E, E2. reflexivity.
    + destruct (Z.eqb_spec db id) as [<-|N]; cbn [andb]; [|reflexivity]. rewrite E. destruct (ci_id c =? cid); reflexivity.
  - destruct (m_db A db) eqn:E; cbn [negb] in M; [destruct (m_coll A db cid0) eqn:E2|]; cbn [negb] in M; destruct M as [_ M]; subst A1.
    + destruct del; cbn; unfold zupd; rewrite (Z.eqb_sym id); (destruct (Z.eqb_spec db id) as [<-|N]; cbn [andb]; [|reflexivity]); rewrite (Z.eqb_sym cid); (destruct (Z.eqb_spec cid0 cid) as [<-|N2]; [|reflexivity]); rewrite E; reflexivity.
    + destruct (Z.eqb_spec db id) as [<-|N]; cbn [andb]; [|reflexivity]. destruct (Z.eqb_spec cid0 cid) as [<-|N2]; [|reflexivity]. rewrite E, E2. reflexivity.
    + destruct (Z.eqb_spec db id) as [<-|N]; cbn [andb]; [|reflexivity]. rewrite E. destruct (cid0 =? cid); reflexivity.
  - destruct (m_queue A q); destruct M as [_ ->]; reflexivity.
  - destruct (position _ _); destruct M as [_ ->]; reflexivity.
Qed.
(** the result a create, update, drop or get of a database or a collection must have *)
Definition verdict (l : list (mop * result mval)) (o : mop) : option (result mval) :=
  let has i := match fst (nested i 0 l) with Some _ => true | None => false end in
  let coll i c := snd (nested i c l) in
  match o with
  | MCreateDB x => Some (if has (di_id x) then Err ErrDBExists else Ok VUnit)
  | MUpdateDB x => Some (if has (di_id x) then Ok VUnit else Err ErrDBNotExists)
  | MDropDB i => Some (if has i then Ok VUnit else Err ErrDBNotExists)
  | MGetDB i => Some (match fst (nested i 0 l) with Some x => Ok (VDb x) | None => Err ErrDBNotExists end)
  | MCreateColl i x => Some (if has i then match coll i (ci_id x) with None => Ok VUnit | Some _ => Err ErrCollectionExists end else Err ErrDBNotExists)
  | MUpdateColl i x => Some (if has i then match coll i (ci_id x) with Some _ => Ok VUnit | None => Err ErrCollectionNotExists end else Err ErrDBNotExists)
  | MDropColl i c _ => Some (if has i then match coll i c with Some _ => Ok VUnit | None => Err ErrCollectionNotExists end else Err ErrDBNotExists)
  | MGetColl i c => Some (if has i then match coll i c with Some x => Ok (VColl x) | None => Err ErrCollectionNotExists end else Err ErrDBNotExists)
  | _ => None
  end.
Lemma tr_split A l1 l2 A' : tr A (l1 ++ l2) A' -> exists A1, tr A l1 A1 /\ tr A1 l2 A'.
Proof.
  revert A. induction l1 as [|[o r] l1 IH]; intros A H; cbn in *; [exists A; split; [constructor | exact H]|].
  inversion H; subst. destruct (IH _ H5) as (B & H1 & H2). exists B. split; [econstructor; eassumption | exact H2].
Qed.
Lemma nested_empty l A' id cid : tr m_empty l A' -> nested id cid l = (m_db A' id, m_coll A' id cid).
Proof. intros H. apply (nested_ok _ _ _ H id cid). Qed.
Lemma verdict_ok l A o r A' : tr m_empty l A -> mref A o r A' -> forall v, verdict l o = Some v -> r = v.
Proof.
  intros H M v V. unfold verdict in V. destruct o; try discriminate; cbn [mref] in M; unfold exists_db, exists_coll in M; injection V as <-;
    rewrite ?(nested_empty l A _ _ H); cbn [fst snd].
  - destruct (m_db A (di_id d)); apply M.
  - destruct (m_db A (di_id d)); apply M.
  - destruct (m_db A id); apply M.
  - destruct (m_db A id); apply M.
  - destruct (m_db A db); cbn [negb] in M; [|apply M]. rewrite ?(nested_empty l A _ _ H). cbn [snd]. destruct (m_coll A db (ci_id c)); apply M.
  - destruct (m_db A db); cbn [negb] in M; [|apply M]. rewrite ?(nested_empty l A _ _ H). cbn [snd]. destruct (m_coll A db (ci_id c)); apply M.
  - destruct (m_db A db); cbn [negb] in M; [|apply M]. rewrite ?(nested_empty l A _ _ H). cbn [snd]. destruct (m_coll A db cid); apply M.
  - destruct (m_db A db); cbn [negb] in M; [|apply M]. rewrite ?(nested_empty l A _ _ H). cbn [snd]. destruct (m_coll A db cid); apply M.
Qed.

(** the jobs enqueued on a queue, the jobs taken from it *)
Definition enqueued (q : jlist) (l : list (mop * result mval)) : list Job :=
  flat_map (fun p => match fst p with MEnqueue p' j => if qeqb p' q then [j] else [] | _ => [] end) l.
Definition dequeued (q : jlist) (l : list (mop * result mval)) : list Job :=
  flat_map (fun p => match p with (MDequeue p', Ok (VJob (Some j))) => if qeqb p' q then [j] else [] | _ => [] end) l.
(** no job of the queue is replaced, and none carries an error *)
Definition plain (q : jlist) (o : mop) : Prop :=
  match o with MUpdateJob p _ _ => qeqb p q = false | MEnqueue p j => qeqb p q = true -> j_err j = false | _ => True end.
Lemma fifo A l A' q : tr A l A' -> Forall (fun j => j_err j = false) (m_queue A q) -> Forall (fun p => plain q (fst p)) l ->
  m_queue A q ++ enqueued q l = dequeued q l ++ m_queue A' q /\ Forall (fun j => j_err j = false) (m_queue A' q).
Proof.
  induction 1 as [|A o r A1 l A2 M H IH]; intros E F; [cbn; rewrite app_nil_r; auto|].
  inversion F as [|? ? Po F']. subst. cbn [fst] in Po. cbn [enqueued dequeued flat_map fst]. fold (enqueued q l). fold (dequeued q l).
  assert (X : Forall (fun j => j_err j = false) (m_queue A1 q) /\
    m_queue A q ++ (match o with MEnqueue p' j => if qeqb p' q then [j] else [] | _ => [] end) =
    (match (o, r) with (MDequeue p', Ok (VJob (Some j))) => if qeqb p' q then [j] else [] | _ => [] end) ++ m_queue A1 q).
  { clear IH H F F' l A2. destruct o; cbn [mref plain] in *; try (destruct M as [_ ->]; rewrite app_nil_r; split; [exact E | reflexivity]).
    - destruct (exists_db _ _); destruct M as [_ ->]; rewrite app_nil_r; split; [exact E | reflexivity | exact E | reflexivity].
    - destruct (exists_db _ _); destruct M as [_ ->]; rewrite app_nil_r; split; [exact E | reflexivity | exact E | reflexivity].
    - destruct (exists_db _ _); destruct M as [_ ->]; rewrite app_nil_r; split; [exact E | reflexivity | exact E | reflexivity].
    - destruct (exists_db _ _); cbn [negb] in M; [destruct (exists_coll _ _ _)|]; destruct M as [_ ->]; rewrite app_nil_r; split; (exact E || reflexivity).
    - destruct (exists_db _ _); cbn [negb] in M; [destruct (exists_coll _ _ _)|]; cbn [negb] in M; destruct M as [_ ->]; rewrite app_nil_r; split; (exact E || reflexivity).
    - destruct (exists_db _ _); cbn [negb] in M; [destruct (exists_coll _ _ _)|]; cbn [negb] in M; destruct M as [_ M]; subst A1; [destruct del|..]; rewrite app_nil_r; split; (exact E || reflexivity).
    - destruct M as [_ ->]. cbn [with_queue m_queue]. replace (qeqb q q0) with (qeqb q0 q) by (destruct q, q0; reflexivity). destruct (qeqb q0 q) eqn:Q.
      + replace q with q0 in * by (destruct q, q0; try discriminate; reflexivity). split; [|reflexivity]. apply Forall_app. split; [exact E | repeat constructor; auto].
      + rewrite app_nil_r. split; [exact E | reflexivity].
    - destruct (m_queue A q0) as [|j0 l0] eqn:Q.
      + destruct M as [-> ->]. rewrite app_nil_r. split; [exact E | reflexivity].
      + destruct M as [-> ->]. cbn [with_queue m_queue]. replace (qeqb q q0) with (qeqb q0 q) by (destruct q, q0; reflexivity). rewrite app_nil_r. destruct (qeqb q0 q) eqn:Qe.
        * replace q with q0 in * by (destruct q, q0; try discriminate; reflexivity). rewrite Q in *. inversion E as [|? ? E1 E2]. subst. cbn [read_job]. rewrite E1. split; [exact E2 | reflexivity].
        * cbn [read_job]. destruct (j_err j0); split; (exact E || reflexivity).
    - destruct (position _ _); destruct M as [_ ->]; rewrite app_nil_r; [|split; [exact E | reflexivity]]. cbn [with_queue m_queue]. replace (qeqb q q0) with false by (destruct q, q0; try reflexivity; discriminate). split; [exact E | reflexivity]. }
  destruct X as [E1 X]. destruct (IH E1 F') as [Y Z0]. split; [|exact Z0].
  rewrite app_assoc, X, <- app_assoc, Y, app_assoc. reflexivity.
Qed.

(** schema version and global id: how much they have been advanced *)
Definition versions (l : list (mop * result mval)) : Z := Z.of_nat (length (filter (fun p => match fst p with MGenVersion => true | _ => false end) l)).
Definition asked (o : mop) : Z := match o with MGenGlobalID => 1 | MGenGlobalIDs n => n | _ => 0 end.
Definition generated (l : list (mop * result mval)) : Z := fold_right (fun p n => asked (fst p) + n) 0 l.
(** only these calls change them *)
Lemma gid_step A o r A' : mref A o r A' -> (forall n, o <> MGenGlobalIDs n) -> o <> MGenGlobalID -> m_gid A' = m_gid A.
Proof.
  intros M N1 N2. destruct o; cbn [mref] in M; try (destruct M as [_ ->]; reflexivity); try congruence.
  - destruct (exists_db _ _); destruct M as [_ ->]; reflexivity.
  - destruct (exists_db _ _); destruct M as [_ ->]; reflexivity.
  - destruct (exists_db _ _); destruct M as [_ ->]; reflexivity.
  - destruct (exists_db _ _); cbn [negb] in M; [destruct (exists_coll _ _ _)|]; destruct M as [_ ->]; reflexivity.
  - destruct (exists_db _ _); cbn [negb] in M; [destruct (exists_coll _ _ _)|]; cbn [negb] in M; destruct M as [_ ->]; reflexivity.
  - destruct (exists_db _ _); cbn [negb] in M; [destruct (exists_coll _ _ _)|]; cbn [negb] in M; destruct M as [_ M]; subst A'; [destruct del|..]; reflexivity.
  - destruct (m_queue A q); destruct M as [_ ->]; reflexivity.
  - destruct (position _ _); destruct M as [_ ->]; reflexivity.
Qed.
Lemma ver_step A o r A' : mref A o r A' -> o <> MGenVersion -> m_ver A' = m_ver A.
Proof.
  intros M N2. destruct o; cbn [mref] in M; try (destruct M as [_ ->]; reflexivity); try congruence.
  - destruct (exists_db _ _); destruct M as [_ ->]; reflexivity.
  - destruct (exists_db _ _); destruct M as [_ ->]; reflexivity.
  - destruct (exists_db _ _); destruct M as [_ ->]; reflexivity.
  - destruct (exists_db _ _); cbn [negb] in M; [destruct (exists_coll _ _ _)|]; destruct M as [_ ->]; reflexivity.
  - destruct (exists_db _ _); cbn [negb] in M; [destruct (exists_coll _ _ _)|]; cbn [negb] in M; destruct M as [_ ->]; reflexivity.
  - destruct (exists_db _ _); cbn [negb] in M; [destruct (exists_coll _ _ _)|]; cbn [negb] in M; destruct M as [_ M]; subst A'; [destruct del|..]; reflexivity.
  - destruct (m_queue A q); destruct M as [_ ->]; reflexivity.
  - destruct (position _ _); destruct M as [_ ->]; reflexivity.
Qed.
Lemma inc64_somez o n : is_i64 (somez o + n) -> inc64 o n = somez o + n.
Proof. intros H. destruct o as [v|]; cbn [inc64 somez] in *; [apply to_i64_id; exact H | lia]. Qed.
Lemma is_gen o : {n | o = MGenGlobalIDs n} + {o = MGenGlobalID} + {(forall n, o <> MGenGlobalIDs n) /\ o <> MGenGlobalID}.
Proof. destruct o; try (right; split; [intros ?|]; discriminate); [left; right; reflexivity | left; left; eauto]. Qed.
Lemma gids A l A' : tr A l A' -> Forall (fun p => 0 <= asked (fst p)) l -> 0 <= somez (m_gid A) -> somez (m_gid A) + generated l < two63 ->
  somez (m_gid A') = somez (m_gid A) + generated l /\
  forall l1 o r l2, l = l1 ++ (o, r) :: l2 -> let start := somez (m_gid A) + generated l1 in
    (o = MGenGlobalID -> r = Ok (VInt (start + 1))) /\ (forall n, o = MGenGlobalIDs n -> r = Ok (VRange start (start + n))).
Proof.
  induction 1 as [|A o r A1 l A2 M H IH]; intros F Z0 L; cbn [generated fold_right fst] in *.
  - split; [lia|]. intros [|? ?] ? ? ? E; discriminate.
  - inversion F as [|? ? Fo F']. subst. cbn [fst] in Fo. fold (generated l) in *.
    assert (G0 : 0 <= generated l) by (clear -F'; induction F'; cbn [generated fold_right]; [lia|]; unfold generated in *; lia).
    assert (S1 : somez (m_gid A1) = somez (m_gid A) + asked o /\ (o = MGenGlobalID -> r = Ok (VInt (somez (m_gid A) + 1))) /\ (forall n, o = MGenGlobalIDs n -> r = Ok (VRange (somez (m_gid A)) (somez (m_gid A) + n)))).
    { destruct (is_gen o) as [[[n ->]| ->]|[N1 N2]].
      - cbn [mref asked] in *. destruct M as [-> ->]. rewrite inc64_somez by (unfold is_i64; rewrite two63_val in *; lia). split; [reflexivity|]. split; [discriminate|]. intros m E. injection E as <-.
        replace (somez (m_gid A) + n - n) with (somez (m_gid A)) by lia. rewrite to_i64_id by (unfold is_i64; rewrite two63_val in *; lia). reflexivity.
      - cbn [mref asked] in *. destruct M as [-> ->]. rewrite inc64_somez by (unfold is_i64; rewrite two63_val in *; lia). split; [reflexivity|]. split; [reflexivity|]. discriminate.
      - rewrite (gid_step _ _ _ _ M N1 N2). replace (asked o) with 0 by (destruct o; try reflexivity; [congruence | exfalso; exact (N1 _ eq_refl)]). split; [lia|]. split; [congruence|]. intros n E. exfalso. exact (N1 n E). }
    destruct S1 as (S1 & R1 & R2). destruct (IH F' ltac:(lia) ltac:(lia)) as [E1 E2]. split; [rewrite E1; lia|].
    intros [|p l1] o' r' l2 E; cbn [app] in E.
    + injection E as <- <- <-. cbn [generated fold_right]. rewrite Z.add_0_r. auto.
    + injection E as <- ->. cbn [generated fold_right fst]. fold (generated l1). specialize (E2 l1 o' r' l2 eq_refl). cbn zeta in *. rewrite S1 in E2.
      replace (somez (m_gid A) + (asked o + generated l1)) with (somez (m_gid A) + asked o + generated l1) by lia. exact E2.
Qed.
Lemma vers A l A' : tr A l A' -> 0 <= somez (m_ver A) -> somez (m_ver A) + versions l < two63 ->
  somez (m_ver A') = somez (m_ver A) + versions l /\
  forall l1 r l2, l = l1 ++ (MGenVersion, r) :: l2 -> r = Ok (VInt (somez (m_ver A) + versions l1 + 1)).
Proof.
  assert (VC : forall o r l, versions ((o, r) :: l) = (match o with MGenVersion => 1 | _ => 0 end) + versions l) by (intros o0 r0 l0; unfold versions; destruct o0; cbn [filter fst length]; lia).
  assert (VN : forall l, 0 <= versions l) by (intros l0; unfold versions; lia).
  induction 1 as [|A o r A1 l A2 M H IH]; intros Z0 L.
  - change (versions []) with 0. split; [lia|]. intros [|? ?] ? ? E; discriminate.
  - rewrite VC in *. pose proof (VN l).
    assert (S1 : somez (m_ver A1) = somez (m_ver A) + (match o with MGenVersion => 1 | _ => 0 end) /\ (o = MGenVersion -> r = Ok (VInt (somez (m_ver A) + 1)))).
    { assert (D : o = MGenVersion \/ o <> MGenVersion) by (destruct o; ((left; reflexivity) || (right; discriminate))). destruct D as [-> |N].
      - cbn [mref] in *. destruct M as [-> ->]. rewrite inc64_somez by (unfold is_i64; rewrite two63_val in *; lia). auto.
      - rewrite (ver_step _ _ _ _ M N). split; [destruct o; try lia; congruence | congruence]. }
    destruct S1 as (S1 & R1). destruct (IH ltac:(destruct o; lia) ltac:(destruct o; lia)) as [E1 E2]. split; [rewrite E1; lia|].
    intros [|p l1] r' l2 E; cbn [app] in E.
    + injection E as -> -> _. change (versions []) with 0. rewrite Z.add_0_r. auto.
    + injection E as <- ->. rewrite VC. rewrite (E2 l1 r' l2 eq_refl), S1. do 2 f_equal. lia.
Qed.

(** the last job recorded with an id *)
Definition recorded (id : Z) (l : list (mop * result mval)) : option Job :=
  fold_left (fun s p => match fst p with MAddHistory j => if j_id j =? id then Some j else s | _ => s end) l None.
Lemma recorded_ok A l A' : tr A l A' -> forall id, fold_left (fun s p => match fst p with MAddHistory j => if j_id j =? id then Some j else s | _ => s end) l (m_hist A id) = m_hist A' id.
Proof.
  induction 1 as [|A o r A1 l A2 M H IH]; intros id; [reflexivity|]. cbn [fold_left fst]. rewrite <- IH. f_equal. clear IH H l A2.
  destruct o; cbn [mref] in M; try (destruct M as [_ ->]; reflexivity).
  - destruct (exists_db _ _); destruct M as [_ ->]; reflexivity.
  - destruct (exists_db _ _); destruct M as [_ ->]; reflexivity.
  - destruct (exists_db _ _); destruct M as [_ ->]; reflexivity.
  - destruct (exists_db _ _); cbn [negb] in M; [destruct (exists_coll _ _ _)|]; destruct M as [_ ->]; reflexivity.
  - destruct (exists_db _ _); cbn [negb] in M; [destruct (exists_coll _ _ _)|]; cbn [negb] in M; destruct M as [_ ->]; reflexivity.
  - destruct (exists_db _ _); cbn [negb] in M; [destruct (exists_coll _ _ _)|]; cbn [negb] in M; destruct M as [_ M]; subst A1; [destruct del|..]; reflexivity.
  - destruct (m_queue A q); destruct M as [_ ->]; reflexivity.
  - destruct (position _ _); destruct M as [_ ->]; reflexivity.
  - destruct M as [_ ->]. cbn. unfold zupd. rewrite (Z.eqb_sym id). destruct (j_id j =? id); reflexivity.
Qed.

Section Histories.
Context (J : json) (JO : json_ok J) (d : db) (h : list mbatch).
Context (HD : db_ok d) (HN : no_meta d) (HF : Forall mbatch_ok h) (HC : mhcost h < two63).
(** the results of the history, and its committed calls *)
Local Notation results := (snd (mhexec J d h)).
Local Notation calls := (committed h (snd (mhexec J d h))).
Lemma final : exists A, mref_hist m_empty h results A /\ tr m_empty calls A /\ holds J (mhcost h) (fst (mhexec J d h)) A.
Proof.
  destruct (mhist_sim J JO h 0 d m_empty) as (A & M & H & _); [split; [exact HD|]; exists s_empty; split; [apply rep_empty; exact HN | apply mrep_empty] | exact HF | lia|].
  exists A. split; [exact M|]. split; [apply tr_hist; exact M | exact H].
Qed.
Lemma seen A ops : holds J (mhcost h) (fst (mhexec J d h)) A -> Forall (fun o => mreads o = true /\ mok o) ops ->
  exists rs, after J d h ops = Ok rs /\ mref_run A ops rs A.
Proof.
  intros (K & S & R & M) F. destruct (mread_run_sim J JO ops F A S M) as (rs & X & Sp). exists rs. split; [|exact X].
  unfold after. exact (run_view_spec _ _ _ _ (Sp false _ _ R HC)).
Qed.
Ltac rd := repeat (apply Forall_cons; [split; [reflexivity | cbn [mok]; auto using i64_0]|]); apply Forall_nil.
Ltac run1 H := inversion H as [|? ? ? ? ? ? ?M ?R]; subst; clear H.

(** * C54 *)
(** every result of every call, in every history of committed, aborted and read-only transactions,
    is one the plain nested maps allow *)
Theorem C54_every_result_is_the_references : exists A, mref_hist m_empty h results A.
Proof. destruct final as (A & M & _). eauto. Qed.
(** creates, updates, drops and gets answer as nested maps do: duplicates and missing parents are rejected *)
Theorem C54_verdicts : forall l1 o r l2 v, calls = l1 ++ (o, r) :: l2 -> verdict l1 o = Some v -> r = v.
Proof.
  intros l1 o r l2 v E V. destruct final as (A & _ & T & _). rewrite E in T. destruct (tr_split _ _ _ _ T) as (A1 & T1 & T2).
  inversion T2; subst. eapply verdict_ok; eassumption.
Qed.
(** rejected calls leave the maps as they were (nested_step), and a later transaction reads the maps *)
Theorem C54_databases_and_collections_read_back : forall id cid, is_i64 id -> is_i64 cid ->
  after J d h [MGetDB id; MGetColl id cid] =
  Ok [ match fst (nested id cid calls) with Some x => Ok (VDb x) | None => Err ErrDBNotExists end;
       match fst (nested id cid calls) with
       | None => Err ErrDBNotExists
       | Some _ => match snd (nested id cid calls) with Some x => Ok (VColl x) | None => Err ErrCollectionNotExists end
       end ].
Proof.
  intros id cid Hi Hc. destruct final as (A & _ & T & H). rewrite (nested_empty _ _ id cid T). cbn [fst snd].
  destruct (seen A [MGetDB id; MGetColl id cid] H) as (rs & -> & X); [rd|].
  run1 X. destruct M as [-> ->]. run1 R. destruct M as [-> _]. inversion R0; subst. unfold exists_db. destruct (m_db A id); reflexivity.
Qed.
Theorem C54_listings_are_complete : forall id, is_i64 id -> exists dbs, 
  after J d h [MListDBs] = Ok [Ok (VDbs dbs)] /\ NoDup (map di_id dbs) /\ (forall x, In x dbs <-> fst (nested (di_id x) 0 calls) = Some x) /\
  match fst (nested id 0 calls) with
  | None => after J d h [MListColls id] = Ok [Err ErrDBNotExists]
  | Some _ => exists cs, after J d h [MListColls id] = Ok [Ok (VColls cs)] /\ NoDup (map ci_id cs) /\ forall c, In c cs <-> snd (nested id (ci_id c) calls) = Some c
  end.
Proof.
  intros id Hi. destruct final as (A & _ & T & H).
  destruct (seen A [MListDBs] H) as (rs & -> & X); [rd|]. run1 X. destruct M as [(l & -> & N & L) _]. inversion R; subst.
  exists l. split; [reflexivity|]. split; [exact N|]. split; [intros x; rewrite (nested_empty _ _ _ 0 T); apply L|].
  rewrite (nested_empty _ _ id 0 T). cbn [fst]. destruct (seen A [MListColls id] H) as (rs' & E' & X'); [rd|]. rewrite E'.
  run1 X'. inversion R0; subst. destruct M as [M _]. unfold exists_db in M. destruct (m_db A id) eqn:E.
  - destruct M as (cs & -> & N2 & L2). exists cs. split; [reflexivity|]. split; [exact N2|]. intros c. rewrite (nested_empty _ _ _ _ T). apply L2.
  - subst r. reflexivity.
Qed.

(** * C55 *)
(** the jobs taken from a queue, then those still in it, are the jobs enqueued, in their order *)
Theorem C55_queue_is_fifo : forall q, Forall (fun p => plain q (fst p)) calls ->
  exists rest, enqueued q calls = dequeued q calls ++ rest /\
    after J d h [MAllJobs q; MQueueLen q; MJobAt q 0] = Ok [Ok (VJobs (rev rest)); Ok (VInt (Z.of_nat (length rest))); Ok (VJob (hd_error rest))].
Proof.
  intros q F. destruct final as (A & _ & T & H). destruct (fifo _ _ _ q T) as [E NE]; [constructor | exact F|]. cbn [m_empty m_queue app] in E.
  exists (m_queue A q). split; [exact E|]. destruct (seen A [MAllJobs q; MQueueLen q; MJobAt q 0] H) as (rs & -> & X); [rd|].
  run1 X. destruct M as [-> ->]. run1 R. destruct M as [-> ->]. run1 R0. destruct M as [-> _]. inversion R; subst.
  assert (RJ : forall l, Forall (fun j => j_err j = false) l -> read_jobs l = Ok (VJobs l)).
  { intros l Fl. unfold read_jobs. replace (existsb j_err l) with false; [reflexivity|]. symmetry. apply not_true_iff_false. intros X. apply existsb_exists in X. destruct X as (j & I1 & I2).
    rewrite Forall_forall in Fl. rewrite (Fl _ I1) in I2. discriminate. }
  rewrite RJ by (apply Forall_rev; exact NE). do 4 f_equal. destruct (m_queue A q) as [|j l] eqn:Q; [reflexivity|].
  unfold position. cbn [length]. change (0 <=? 0) with true. cbn iota. replace (0 <? Z.of_nat (S (length l))) with true by (symmetry; apply Z.ltb_lt; lia). cbn. inversion NE; subst. rewrite H2. reflexivity.
Qed.
(** the schema version is the number of committed GenSchemaVersion calls, and each returned the next value *)
Theorem C55_schema_version_only_grows : versions calls < two63 ->
  after J d h [MGetVersion] = Ok [Ok (VInt (versions calls))] /\
  forall l1 r l2, calls = l1 ++ (MGenVersion, r) :: l2 -> r = Ok (VInt (versions l1 + 1)).
Proof.
  intros L. destruct final as (A & _ & T & H). destruct (vers _ _ _ T) as [E1 E2]; [cbn; lia | cbn; lia|]. cbn [m_empty m_ver somez] in *. split.
  - destruct (seen A [MGetVersion] H) as (rs & -> & X); [rd|]. run1 X. destruct M as [-> _]. inversion R; subst. rewrite E1. reflexivity.
  - intros l1 r l2 E. rewrite (E2 _ _ _ E). reflexivity.
Qed.

(** * C53, transactions one after the other: committed calls get consecutive ranges *)
Theorem C53_committed_ranges_are_consecutive : Forall (fun p => 0 <= asked (fst p)) calls -> generated calls < two63 ->
  forall l1 o r l2, calls = l1 ++ (o, r) :: l2 ->
    (o = MGenGlobalID -> r = Ok (VInt (generated l1 + 1))) /\ (forall n, o = MGenGlobalIDs n -> r = Ok (VRange (generated l1) (generated l1 + n))).
Proof.
  intros F L l1 o r l2 E. destruct final as (A & _ & T & _). destruct (gids _ _ _ T F) as [_ X]; [cbn; lia | cbn; lia|]. exact (X l1 o r l2 E).
Qed.

(** * C56 *)
Theorem C56_finished_job_found_by_id : forall id, is_i64 id ->
  after J d h [MGetHistory id] =
  Ok [ match recorded id calls with None => Ok (VJob None) | Some j => if j_err j then Err EDecode else Ok (VJob (Some j)) end ].
Proof.
  intros id Hi. destruct final as (A & _ & T & H). destruct (seen A [MGetHistory id] H) as (rs & -> & X); [rd|].
  run1 X. destruct M as [-> _]. inversion R; subst. pose proof (recorded_ok _ _ _ T id) as E. cbn [m_empty m_hist] in E. unfold recorded. rewrite E. reflexivity.
Qed.
(** the n finished jobs of greatest ids, in descending order *)
Definition newest (n : Z) (l : list (mop * result mval)) (js : list Job) : Prop :=
  exists rest, StronglySorted (fun a b => j_id b < j_id a) (js ++ rest) /\
    (forall j, In j (js ++ rest) <-> recorded (j_id j) l = Some j) /\ length js = Nat.min (Z.to_nat n) (length (js ++ rest)).
Theorem C56_last_n_are_the_newest : forall n, (forall id j, recorded id calls = Some j -> j_err j = false /\ 0 <= j_id j) ->
  exists js, after J d h [MLastHistory n] = Ok [Ok (VJobs js)] /\ newest n calls js.
Proof.
  intros n Hj. destruct final as (A & _ & T & H). destruct (seen A [MLastHistory n] H) as (rs & -> & X); [rd|].
  run1 X. destruct M as [(l & [SS L] & ->) _]. inversion R; subst.
  assert (RE : forall id, recorded id calls = m_hist A id) by (intros id; exact (recorded_ok _ _ _ T id)).
  assert (G : forall j, In j l -> j_err j = false /\ is_i64 (j_id j) /\ 0 <= j_id j).
  { intros j I. apply L in I. destruct (Hj (j_id j) j) as [E1 E2]; [rewrite RE; exact I|]. split; [exact E1|]. split; [|exact E2].
    destruct H as (_ & S & _ & M). destruct (mr_hist J _ _ M) as [Tb _]. apply (tab_wf Tb _ _ I). }
  exists (firstn (Z.to_nat n) (rev l)). split.
  - do 3 f_equal. unfold read_jobs. replace (existsb j_err _) with false; [reflexivity|]. symmetry. apply not_true_iff_false. intros X. apply existsb_exists in X. destruct X as (j & I1 & I2).
    assert (I3 : In j l) by (apply in_rev; rewrite <- (firstn_skipn (Z.to_nat n) (rev l)); apply in_or_app; left; exact I1). destruct (G _ I3) as [E _]. congruence.
  - exists (skipn (Z.to_nat n) (rev l)). rewrite firstn_skipn. split; [|split; [|rewrite firstn_length; reflexivity]].
    + assert (SR : StronglySorted (fun a b => j_id a < j_id b) l).
      { clear -SS G. induction SS as [|x l SS IH F]; constructor; [apply IH; intros j I; apply G; right; exact I|]. rewrite Forall_forall in *. intros y I. specialize (F y I).
        destruct (G x (or_introl eq_refl)) as (_ & A1 & A2). destruct (G y (or_intror I)) as (_ & A3 & A4). rewrite !to_u64_id in F by (unfold is_i64, is_u64 in *; rewrite two63_val, two64_val in *; lia). exact F. }
      clear -SR. induction SR as [|x l S IH F]; cbn [rev]; [constructor|].
      assert (AP : forall l', StronglySorted (fun a b => j_id b < j_id a) l' -> Forall (fun y => j_id x < j_id y) l' -> StronglySorted (fun a b => j_id b < j_id a) (l' ++ [x])).
      { induction 1 as [|y l' S' IH' F']; intros Fx; cbn [app]; [repeat constructor|]. inversion Fx; subst. constructor; [apply IH'; assumption|]. apply Forall_app. split; [exact F' | repeat constructor; assumption]. }
      apply AP; [exact IH | apply Forall_rev; exact F].
    + intros j. rewrite <- in_rev, RE. apply L.
Qed.
End Histories.

(** * Concrete histories meeting the hypotheses *)
Definition dx : DBInfo := DI 1 (str "shop") None [] Public.
Definition dx2 : DBInfo := DI 1 (str "shop") (Some empty) [str "c"] Public.
Definition cx : CollectionInfo := CI 2 (str "orders") None [] Public.
Definition jx (id : Z) : Job := MkJob id ActionCreateSchema JNone false 0 (ArgDB dx) Absent.
Definition jbad (id : Z) : Job := MkJob id ActionCreateSchema JCancelled true 1 (ArgDB dx) Absent.
Definition hx : list mbatch :=
  [ MCommit [MGenGlobalIDs 3; MCreateDB dx; MCreateDB dx; MCreateColl 1 cx; MCreateColl 9 cx; MGenVersion; MEnqueue DefaultJobList (jx 3)];
    MAbort [MDropDB 1; MGenGlobalID; MGetDB 1];
    MCommit [MGenGlobalID; MUpdateDB dx2; MEnqueue DefaultJobList (jx 4); MDequeue DefaultJobList; MAddHistory (jx 3); MGenVersion];
    MView [MListDBs; MListColls 1; MGetGlobalID];
    MCommit [MDequeue DefaultJobList; MAddHistory (jx 4); MDequeue DefaultJobList] ].
Ltac i64 := unfold is_i64, is_u8; rewrite ?two63_val; unfold dx, dx2, cx, jx, jbad, ActionCreateSchema; cbn [dx dx2 cx jx jbad ActionCreateSchema di_id ci_id j_id j_errcount j_type]; lia.
Lemma wf_dx : wf_di dx.
Proof. split; [i64|]. split; [reflexivity|]. split; [exact I|constructor]. Qed.
Lemma wf_dx2 : wf_di dx2.
Proof. split; [i64|]. split; [reflexivity|]. split; [intros k a; discriminate|constructor; [reflexivity | constructor]]. Qed.
Lemma wf_cx : wf_ci cx.
Proof. split; [i64|]. split; [reflexivity|]. split; [exact I|constructor]. Qed.
Lemma wf_jx i : is_i64 i -> wf_job (jx i).
Proof. intros H. split; [exact H|]. split; [i64|]. split; [i64 | exact wf_dx]. Qed.
Lemma wf_jbad i : is_i64 i -> wf_job (jbad i).
Proof. intros H. split; [exact H|]. split; [i64|]. split; [i64 | exact wf_dx]. Qed.
Lemma no_meta_init : no_meta (db_init 0 false).
Proof. intros k _. reflexivity. Qed.
Lemma hx_ok : Forall mbatch_ok hx.
Proof.
  unfold hx. repeat (apply Forall_cons || apply Forall_nil); cbn [mbatch_ok]; repeat (apply Forall_cons || apply Forall_nil); cbn [mok mreads];
    try exact I; try (split; [reflexivity|]); try exact I; try apply wf_dx; try apply wf_dx2; try (split; [|apply wf_cx]); try apply wf_jx; try i64.
Qed.
Example C54_nonvacuous : json_ok demo_json /\ db_ok (db_init 0 false) /\ no_meta (db_init 0 false) /\ Forall mbatch_ok hx /\ mhcost hx < two63 /\
  snd (mhexec demo_json (db_init 0 false) hx) =
  [ [Ok (VRange 0 3); Ok VUnit; Err ErrDBExists; Ok VUnit; Err ErrDBNotExists; Ok (VInt 1); Ok VUnit];
    [Ok VUnit; Ok (VInt 4); Err ErrDBNotExists];
    [Ok (VInt 4); Ok VUnit; Ok VUnit; Ok (VJob (Some (jx 3))); Ok VUnit; Ok (VInt 2)];
    [Ok (VDbs [dx2]); Ok (VColls [cx]); Ok (VInt 4)];
    [Ok (VJob (Some (jx 4))); Ok VUnit; Ok (VJob None)] ].
Proof.
  split; [apply demo_json_ok|]. split; [apply db_ok_init|]. split; [apply no_meta_init|]. split; [apply hx_ok|]. split; [reflexivity|]. vm_compute. repeat f_equal; apply smap_eq; reflexivity.
Qed.
(** for the hypotheses of C53, C55 and C56 on the same history *)
Example C55_C56_nonvacuous : let calls := committed hx (snd (mhexec demo_json (db_init 0 false) hx)) in
  Forall (fun p => plain DefaultJobList (fst p)) calls /\ versions calls = 2 /\ generated calls = 4 /\ Forall (fun p => 0 <= asked (fst p)) calls /\
  enqueued DefaultJobList calls = [jx 3; jx 4] /\ after demo_json (db_init 0 false) hx [MLastHistory 2] = Ok [Ok (VJobs [jx 4; jx 3])] /\
  (forall id j, recorded id calls = Some j -> j_err j = false /\ 0 <= j_id j).
Proof.
  cbv zeta. destruct C54_nonvacuous as (_ & _ & _ & _ & _ & ->). cbn [hx committed combine app].
  split; [repeat constructor|]. split; [reflexivity|]. split; [reflexivity|]. split; [repeat constructor; cbn; lia|]. split; [reflexivity|]. split; [vm_compute; reflexivity|].
  intros id j. unfold recorded. cbn [fold_left fst]. change (j_id (jx 3)) with 3. change (j_id (jx 4)) with 4. destruct (4 =? id); [intros E; injection E as <-; cbn; split; [reflexivity | lia]|].
  destruct (3 =? id); [intros E; injection E as <-; cbn; split; [reflexivity | lia] | discriminate].
Qed.

(** * C56, the part that fails: a job finished with an error is never found, and hides the others *)
Theorem C56_failed_job_unreadable_refuted : forall J, json_ok J -> exists h, Forall mbatch_ok h /\ mhcost h < two63 /\
  h = [MCommit [MAddHistory (jx 1); MAddHistory (jbad 2)]] /\
  after J (db_init 0 false) h [MGetHistory 1; MGetHistory 2] = Ok [Ok (VJob (Some (jx 1))); Err EDecode] /\
  after J (db_init 0 false) h [MLastHistory 2] = Ok [Err EDecode].
Proof.
  intros J JO. set (h := [MCommit [MAddHistory (jx 1); MAddHistory (jbad 2)]]).
  assert (F : Forall mbatch_ok h) by (repeat (apply Forall_cons || apply Forall_nil); [apply wf_jx; i64 | apply wf_jbad; i64]).
  assert (C : mhcost h < two63) by reflexivity. exists h. split; [exact F|]. split; [exact C|]. split; [reflexivity|].
  destruct (final J JO (db_init 0 false) h (db_ok_init 0 false) no_meta_init F C) as (A & M & _ & H).
  assert (E : A = with_hist (with_hist m_empty (zupd (fun _ => None) 1 (Some (jx 1)))) (zupd (zupd (fun _ => None) 1 (Some (jx 1))) 2 (Some (jbad 2)))).
  { inversion M as [|? rs ? ? ? ? B R]; subst. inversion R; subst. inversion B as [? ? ? X| |]; subst. inversion X as [|? ? ? ? ? ? X1 X2]; subst. destruct X1 as [_ ->].
    inversion X2 as [|? ? ? ? ? ? X3 X4]; subst. destruct X3 as [_ ->]. inversion X4; subst. reflexivity. }
  split.
  - destruct (seen J JO (db_init 0 false) h C A [MGetHistory 1; MGetHistory 2] H) as (rs & -> & X).
    { repeat (apply Forall_cons || apply Forall_nil); (split; [reflexivity | cbn [mok]; i64]). }
    inversion X as [|? ? ? ? ? ? X1 X2]; subst. destruct X1 as [-> ->]. inversion X2 as [|? ? ? ? ? ? X3 X4]; subst. destruct X3 as [-> _]. inversion X4; subst. reflexivity.
  - destruct (seen J JO (db_init 0 false) h C A [MLastHistory 2] H) as (rs & -> & X).
    { repeat (apply Forall_cons || apply Forall_nil); (split; [reflexivity | exact I]). }
    inversion X as [|? ? ? ? ? ? X1 X2]; subst. inversion X2; subst. destruct X1 as [(l & [SS L] & ->) _].
    do 2 f_equal. unfold read_jobs. replace (existsb j_err (firstn (Z.to_nat 2) (rev l))) with true; [reflexivity|]. symmetry. apply existsb_exists. exists (jbad 2). split; [|reflexivity].
    assert (I2 : In (jbad 2) l) by (apply L; reflexivity). rewrite firstn_all2; [apply -> in_rev; exact I2|].
    assert (N : NoDup l) by (clear -SS; induction SS as [|x l S IH F]; constructor; [intros I; rewrite Forall_forall in F; specialize (F x I); lia | exact IH]).
    assert (INC : incl l [jx 1; jbad 2]).
    { intros j I. apply L in I. cbn in I. unfold zupd in I. destruct (Z.eqb_spec (j_id j) 2) as [E|]; [injection I as <-; right; left; reflexivity|]. destruct (Z.eqb_spec (j_id j) 1) as [E|]; [injection I as <-; left; reflexivity | discriminate]. }
    rewrite rev_length. change (Z.to_nat 2) with (length [jx 1; jbad 2]). apply NoDup_incl_length; assumption.
Qed.
Print Assumptions C54_utf8_is_unicode.
