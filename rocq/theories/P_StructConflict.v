(** Transactions on strings, hashes and lists are refused only for structures they share: C98. Histories are those of
    StructSerial.v. *)
From Verif Require Import Bytes SMap KeyModel Provider ProviderProofs World UtilTxn Memcmp MemcmpProofs KvUtil Struct StructProofs StructRef StructSerial.
From Verif Require StructSerialProofs DocLifeProofs Wrote P_DocConflict P_StructSerial.
From Verif Require Import P_Struct.
Import DocLifeProofs Wrote P_DocConflict.
Import StructSerial StructRef.

(** * Specification *)
(** operations that look at something: all but Set, Clear and SetInt64 of strings *)
Definition looks (o : sop) : bool := match o with OSet _ _ | OClear _ | OSetInt _ _ => false | _ => true end.
(** [o] looks at a string, hash or list that [o'] may change *)
Definition shares (o o' : sop) : Prop := looks o = true /\ is_read o' = false /\ subject o = subject o'.

(** * The keys of a structure *)
Definition tagged (s : skindt) (b : byte) : Prop :=
  match s with TString => b = StringData | THash => b = HashMeta \/ b = HashData | TList => b = ListMeta \/ b = ListData end.
Definition region (P : bytes) (s : skindt * bytes) (k : bytes) : Prop := exists tag rest, k = P ++ enc (snd s) ++ tag :: rest /\ tagged (fst s) tag.
Lemma region_one P s s' k : region P s k -> region P s' k -> s = s'.
Proof.
  intros (b & r & E & T) (b' & r' & E' & T'). rewrite E in E'. apply app_inv_head in E'. apply enc_inj_app in E'. destruct E' as [Hk H]. assert (b = b') by congruence. subst b'.
  destruct s as [s x], s' as [s' x']. cbn [fst snd] in *. subst x'. f_equal.
  destruct s, s'; cbn [tagged] in *; try reflexivity; exfalso; repeat match goal with H : _ \/ _ |- _ => destruct H end; subst; discriminate.
Qed.
Lemma region_prefix P s k : region P s k -> has_prefix k P = true.
Proof. intros (b & r & -> & _). apply has_prefix_app. Qed.
Definition owner (d : skind) : skindt * bytes :=
  match d with KS k => (TString, k) | KHM k | KHD k _ => (THash, k) | KLM k | KLD k _ => (TList, k) end.
Lemma region_ek P d : region P (owner d) (ek P d).
Proof. exists (ktag d), (krest d). split; [rewrite ek_form; destruct d; reflexivity | destruct d; cbn [owner fst tagged ktag]; auto]. Qed.
Lemma region_s P k : region P (TString, k) (encodeStringDataKey P k). Proof. exact (region_ek P (KS k)). Qed.
Lemma region_hm P k : region P (THash, k) (encodeHashMetaKey P k). Proof. exact (region_ek P (KHM k)). Qed.
Lemma region_hd P k f : region P (THash, k) (encodeHashDataKey P k f). Proof. exact (region_ek P (KHD k f)). Qed.
Lemma region_lm P k : region P (TList, k) (encodeListMetaKey P k). Proof. exact (region_ek P (KLM k)). Qed.
Lemma region_ld P k i : region P (TList, k) (encodeListDataKey P k i). Proof. exact (region_ek P (KLD k i)). Qed.
Lemma region_hdp P k x : has_prefix x (hashDataKeyPrefix P k) = true -> region P (THash, k) x.
Proof. intros H. apply has_prefix_spec in H. destruct H as [s ->]. rewrite hdp_form, <- !app_assoc. exists HashData, s. split; [reflexivity | cbn [fst tagged]; auto]. Qed.

(** * What operations read and write *)
Definition foot {A} (R W : bytes -> Prop) (m : Tx A) : Prop := rd R m /\ wr (fun k _ => W k) m /\ firm m.
Section Foot.
Variables R W : bytes -> Prop.
Lemma foot_ret {A} (a : A) : foot R W (ret a). Proof. split; [apply rd_ret | split; [apply wr_ret | apply firm_const]]. Qed.
Lemma foot_fail {A} e : foot R W (@fail A e). Proof. split; [apply rd_fail | split; [apply wr_fail | apply firm_const]]. Qed.
Lemma foot_panic {A} : foot R W (@gopanic A). Proof. split; [apply rd_panic | split; [apply wr_panic | apply firm_const]]. Qed.
Lemma foot_bind {A B} (m : Tx A) (k : A -> Tx B) : foot R W m -> (forall a, foot R W (k a)) -> foot R W (bind m k).
Proof. intros (A1 & A2 & A3) H. split; [apply rd_bind; [exact A1 | intros; apply H] | split; [apply wr_bind; [exact A2 | intros; apply H] | apply firm_bind; [exact A3 | intros; apply H]]]. Qed.
Lemma foot_try {A B} (m : Tx A) (k : result A -> Tx B) : foot R W m -> (forall a, foot R W (k a)) -> foot R W (try m k).
Proof. intros (A1 & A2 & A3) H. split; [apply rd_try; [exact A1 | intros; apply H] | split; [apply wr_try; [exact A2 | intros; apply H] | apply firm_try; [exact A3 | intros; apply H]]]. Qed.
Lemma foot_tset k v : W k -> foot R W (tset k v). Proof. intros H. split; [apply rd_tset | split; [apply wr_tset; exact H | apply firm_tset]]. Qed.
Lemma foot_tdel k : W k -> foot R W (tdel k). Proof. intros H. split; [apply rd_tdel | split; [apply wr_tdel; exact H | apply firm_tdel]]. Qed.
Lemma foot_tget k : R k -> foot R W (tget k). Proof. intros H. split; [apply rd_tget; exact H | split; [apply wr_tget | apply firm_tget]]. Qed.
Lemma foot_tscan {S} o (fn : bytes -> ent -> S -> Tx (S * bool)) s : (forall k, has_prefix k (so_prefix o) = true -> R k) -> (forall k e s, foot R W (fn k e s)) -> foot R W (tscan o fn s).
Proof. intros HR H. split; [apply rd_tscan; intros k e s0 Hk; split; [apply HR; exact Hk | apply H] | split; [apply wr_tscan; intros k e _ s0; apply H | apply firm_tscan; intros; apply H]]. Qed.
End Foot.
Ltac foots := repeat first
  [ apply foot_tset | apply foot_tdel | apply foot_tget
  | apply foot_ret | apply foot_fail | apply foot_panic
  | match goal with |- foot _ _ (bind _ _) => apply foot_bind; [|intros] | |- foot _ _ (try _ _) => apply foot_try; [|intros] end
  | match goal with |- foot _ _ (match ?x with _ => _ end) => destruct x end
  | match goal with |- foot _ _ (if ?x then _ else _) => destruct x end
  | match goal with |- foot _ _ (let '(_, _) := ?x in _) => destruct x end ].
Ltac here := first [apply region_s | apply region_hm | apply region_hd | apply region_lm | apply region_ld].
Section Ops.
Variables (P k : bytes).
Notation RS := (region P (TString, k)). Notation RH := (region P (THash, k)). Notation RL := (region P (TList, k)).
Lemma foot_parse R W v : foot R W (parse_int v). Proof. unfold parse_int. foots. Qed.
Lemma foot_hmeta : foot RH RH (loadHashMeta P k). Proof. unfold loadHashMeta. foots; here. Qed.
Lemma foot_lmeta : foot RL RL (loadListMeta P k). Proof. unfold loadListMeta. foots; here. Qed.
Lemma foot_updateHash {A} f (fn : option bytes -> result (bytes * A)) : foot RH RH (updateHash P k f fn).
Proof. unfold updateHash. pose proof foot_hmeta. foots; first [here | assumption]. Qed.
Lemma foot_hdel fs : forall c, foot RH RH (hdel_loop P k fs c).
Proof. induction fs as [|f fs IH]; intros c; cbn [hdel_loop]; foots; first [here | apply IH]. Qed.
Lemma foot_iter {S} (fn : bytes -> bytes -> S -> Tx (S * bool)) s : (forall f v s, foot RH RH (fn f v s)) -> foot RH RH (iterateHash P k fn s).
Proof. intros H. unfold iterateHash. apply foot_tscan; [intros x Hx; apply region_hdp; exact Hx|]. intros x e s0. unfold iter_cb. foots; apply H. Qed.
Lemma foot_iter_desc {S} (fn : bytes -> bytes -> S -> Tx (S * bool)) s : (forall f v s, foot (fun _ => True) RH (fn f v s)) -> foot (fun _ => True) RH (iterateReverseHash P k fn s).
Proof. intros H. unfold iterateReverseHash. apply foot_tscan; [auto|]. intros x e s0. unfold iter_cb. foots; apply H. Qed.
Lemma foot_push lft vs : forall m, foot RL RL (push_loop P k lft vs m).
Proof. induction vs as [|v vs IH]; intros m; cbn [push_loop]; foots; first [here | apply IH]. Qed.
Lemma foot_getall n : forall i, foot RL RL (getall_loop P k n i).
Proof. induction n as [|n IH]; intros i; cbn [getall_loop]; foots; first [here | apply IH]. Qed.
Lemma foot_lclear n : forall i, foot RL RL (lclear_loop P k n i).
Proof. induction n as [|n IH]; intros i; cbn [lclear_loop]; foots; first [here | apply IH]. Qed.
End Ops.
Lemma foot_op P o : (forall k n, o <> OHGetNDesc k n) -> looks o = true -> foot (region P (subject o)) (region P (subject o)) (sexec P o).
Proof.
  intros ND L. destruct o; try discriminate L; cbn [sexec subject]; unfold lift; (apply foot_bind; [|intros; apply foot_ret]);
    unfold SGet, SGetInt64, SInc, GetInt64, IncInt64, HSet, HGet, HInc, HGetInt64, HSetInt64, HSet, HGet, HLen, HDel, HKeys, HGetN, HGetAll, HClear, LPush, RPush, LPop, RPop, listPush, listPop, LLen, LGetAll, LIndex, LSet, LClear, finish, orEmpty; cbv zeta;
    try (exfalso; exact (ND _ _ eq_refl)).
  all: foots; try first [here | apply foot_parse | apply foot_hmeta | apply foot_lmeta | apply foot_updateHash | apply foot_hdel | apply foot_push | apply foot_getall | apply foot_lclear].
  all: try (apply foot_iter; intros; unfold cb_keys, cb_pairs; foots; here).
Qed.
Lemma foot_blind P o : looks o = false -> foot (fun _ => False) (region P (subject o)) (sexec P o).
Proof. intros L. destruct o; try discriminate L; cbn [sexec subject]; unfold lift, SSet, SClear, SSetInt64, SetInt64; foots; here. Qed.
Lemma foot_desc P k n : foot (fun _ => True) (region P (THash, k)) (sexec P (OHGetNDesc k n)).
Proof. cbn [sexec]. unfold lift, HGetNDesc, finish. foots. apply foot_iter_desc. intros. unfold cb_pairs. foots. Qed.
(** HGetNDesc that came to the end of the hash: it did not answer as many fields as it was asked for *)
Definition short (p : sop * result sval) : Prop :=
  match p with (OHGetNDesc _ n, r) => ~ exists l, r = Ok (VPairs l) /\ n <= Z.of_nat (length l) | _ => False end.
Lemma desc_loop P k n l : forall acc e0 t t' acc' e', scan_loop l (iter_cb P (hashDataKeyPrefix P k) (cb_pairs (Some n))) (acc, e0) t = (t', Ok (acc', e')) ->
  Z.of_nat (length acc) < n -> Z.of_nat (length acc') < n \/ forall x, In x (t_reads t') -> In x (t_reads t) \/ region P (THash, k) x.
Proof.
  induction l as [|[x e] l IH]; intros acc e0 t t' acc' e' E L; cbn [scan_loop] in E; [left; unfold ret in E; replace acc' with acc by congruence; exact L|].
  unfold bind, iter_cb at 1 in E. destruct (HasPrefix x (hashDataKeyPrefix P k)) eqn:Px; cbn [negb] in E; [|left; unfold ret in E; cbn [fst snd] in E; replace acc' with acc by congruence; exact L].
  destruct (decodeHashDataKey P x) as [[a f]|er|]; [|left; unfold ret in E; cbn [fst snd] in E; replace acc' with acc by congruence; exact L | discriminate E].
  unfold bind, cb_pairs at 1, ret in E. cbn [fst snd] in E.
  assert (R : forall y, In y (t_reads (add_read x t)) -> In y (t_reads t) \/ region P (THash, k) y).
  { unfold add_read. destruct (t_upd t); [|auto]. cbn [t_reads]. intros y [<-|Y]; [right; apply region_hdp; exact Px | auto]. }
  destruct (Z.of_nat (length (acc ++ [(f, e_val e)])) <? n) eqn:C.
  - destruct (IH _ _ _ _ _ _ E ltac:(lia)) as [Z|Z]; [auto|]. right. intros y Y. destruct (Z y Y) as [Y1|Y1]; [exact (R y Y1) | auto].
  - right. replace t' with (add_read x t) by congruence. exact R.
Qed.
Lemma rd_desc P k n t t' l : sexec P (OHGetNDesc k n) t = (t', Ok (VPairs l)) -> n <= Z.of_nat (length l) -> forall x, In x (t_reads t') -> In x (t_reads t) \/ region P (THash, k) x.
Proof.
  cbn [sexec]. unfold lift, HGetNDesc. destruct (n <=? 0) eqn:N.
  - intros E _ x X. unfold bind, ret in E. replace t' with t in X by congruence. auto.
  - unfold bind, iterateReverseHash, tscan. destruct (negb (t_open t)); [discriminate|]. match goal with |- context [scan_loop ?l ?f ?s t] => destruct (scan_loop l f s t) as [t1 r1] eqn:E1 end.
    destruct r1 as [[acc e]|er|]; [|discriminate | discriminate]. unfold finish. cbn [fst snd]. destruct e as [er|]; unfold fail, ret; [discriminate|]. intros E Hn.
    assert (H1 : t1 = t') by congruence. assert (H2 : acc = l) by congruence. subst t1 acc. destruct (desc_loop _ _ _ _ _ _ _ _ _ _ E1 ltac:(cbn [length]; lia)) as [Z|Z]; [lia | exact Z].
Qed.
Definition lkey (P : bytes) (p : sop * result sval) (k : bytes) : Prop := looks (fst p) = true /\ region P (subject (fst p)) k \/ short p.
Definition ckey (P : bytes) (o : sop) (k : bytes) : Prop := is_read o = false /\ region P (subject o) k.
Lemma op_touches P o t t' r : sexec P o t = (t', r) -> t_rts t' = t_rts t /\
  (forall k, In k (t_reads t') -> In k (t_reads t) \/ lkey P (o, r) k) /\
  (forall k, get (t_pend t') k <> None -> get (t_pend t) k <> None \/ ckey P o k).
Proof.
  intros E. assert (W : wr (fun k _ => region P (subject o) k) (sexec P o) /\ firm (sexec P o) /\ forall k, In k (t_reads t') -> In k (t_reads t) \/ lkey P (o, r) k).
  { destruct (looks o) eqn:L.
    - assert (D : (exists k n, o = OHGetNDesc k n) \/ forall k n, o <> OHGetNDesc k n) by (destruct o; try (right; intros; discriminate); left; eexists _, _; reflexivity). destruct D as [(k & n & ->)|D].
      + destruct (foot_desc P k n) as (_ & A & B). split; [exact A|]. split; [exact B|]. intros x X.
        assert (Q : (exists l, r = Ok (VPairs l) /\ n <= Z.of_nat (length l)) \/ ~ exists l, r = Ok (VPairs l) /\ n <= Z.of_nat (length l)).
        { destruct r as [[|v|m|l|l]|er|]; try (right; intros (l' & Q & _); discriminate Q). destruct (Z_le_dec n (Z.of_nat (length l))) as [Y|Y]; [left; exists l; auto | right; intros (l' & Q1 & Q2); assert (l' = l) by congruence; subst; contradiction]. }
        destruct Q as [(l & -> & Q)|Q]; [|right; right; exact Q]. destruct (rd_desc P k n t t' l E Q x X) as [Y|Y]; [auto | right; left; split; [exact L | exact Y]].
      + destruct (foot_op P o D L) as (A & B & C). split; [exact B|]. split; [exact C|]. intros x X. destruct (A _ _ _ E x X) as [Y|Y]; [auto | right; left; split; [exact L | exact Y]].
    - destruct (foot_blind P o L) as (A & B & C). split; [exact B|]. split; [exact C|]. intros x X. destruct (A _ _ _ E x X) as [Y|[]]. auto. }
  destruct W as (F2 & F3 & F1). split; [apply (F3 _ _ _ E)|]. split; [exact F1|]. intros k Hk.
  destruct (is_read o) eqn:Rd; [left; rewrite (StructSerialProofs.quiet_op P o Rd _ _ _ E) in Hk; exact Hk|].
  destruct (F2 _ _ _ E) as [_ Y]. destruct (Y k) as [Z|(v & _ & Z)]; [left; congruence | right; split; [exact Rd | exact Z]].
Qed.

(** * Histories *)
Record follows (P : bytes) (w : sworld) (J : journal) (d : deed) (t : txn) : Prop := {
  fo_begin : (s_begin d <= j_now J)%nat;
  fo_reads : forall k, In k (t_reads t) -> exists p, In p (s_calls d) /\ lkey P p k;
  fo_pend : forall k, get (t_pend t) k <> None -> exists o, In o (calls d) /\ ckey P o k;
  fo_rts : (t_rts t <= d_ts (sw_db w))%nat;
  fo_last : forall k ts, has_prefix k P = true -> get (d_last (sw_db w)) k = Some ts -> (t_rts t < ts)%nat ->
    exists d', In d' (j_done J) /\ (s_begin d <= s_end d')%nat /\ exists o, In o (calls d') /\ ckey P o k
}.
Record cinv (P : bytes) (w : sworld) (J : journal) : Prop := {
  ci_last : db_ok (sw_db w);
  ci_tx : forall i t, sw_tx w i = Some t -> exists d, find_tx i (j_open J) = Some d /\ follows P w J d t
}.
Lemma follows_more P w J d t w' J' l : follows P w J d t -> j_done J' = j_done J ++ l -> (j_now J <= j_now J')%nat -> (d_ts (sw_db w) <= d_ts (sw_db w'))%nat ->
  (forall k ts, has_prefix k P = true -> get (d_last (sw_db w')) k = Some ts -> get (d_last (sw_db w)) k = Some ts \/
     exists d', In d' l /\ s_end d' = j_now J /\ exists o, In o (calls d') /\ ckey P o k) -> follows P w' J' d t.
Proof.
  intros [A B C D F] E N T L. split; [lia | exact B | exact C | lia|]. intros k ts Pk G Lt. rewrite E. destruct (L k ts Pk G) as [G'|(d' & X1 & X2 & X3)].
  - destruct (F k ts Pk G' Lt) as (d' & X1 & X2). exists d'. split; [apply in_or_app; left; exact X1 | exact X2].
  - exists d'. split; [apply in_or_app; right; exact X1|]. split; [lia | exact X3].
Qed.
Lemma publish_last d t k ts : get (d_last (publish d t)) k = Some ts -> get (d_last d) k = Some ts \/ get (t_pend t) k <> None.
Proof.
  cbn [publish d_last]. rewrite get_last_fold. destruct (existsb _ _) eqn:X; [|auto]. intros _. right. apply existsb_exists in X. destruct X as ([j o] & X1 & X2). cbn [fst] in X2. apply bytes_eqb_eq in X2. subst j. apply get_in in X1. congruence.
Qed.
Lemma step_cinv P es w J e : cinv P w J -> history_ok P (es ++ [e]) -> cinv P (fst (sstep P w e)) (jstep J (e, snd (sstep P w e))).
Proof.
  intros [K T] OK. assert (IN : In e (es ++ [e])) by (apply in_or_app; right; left; reflexivity).
  assert (DROP : forall i rest l, cinv P (SW (sw_db w) (sw_upd (sw_tx w) i None)) (Journal (S (j_now J)) (forget i (j_open J)) (j_done J ++ l) rest)).
  { intros i rest l. split; [exact K|]. intros j x X. cbn [sw_tx j_open] in *. unfold sw_upd in X. destruct (Nat.eqb j i) eqn:Ej; [discriminate X|]. destruct (T j x X) as (d & F1 & F2). exists d. split; [rewrite StructSerialProofs.find_forget, Ej; exact F1|].
    apply (follows_more P w J d x _ _ l F2); [reflexivity | cbn [j_now]; lia | cbn [sw_db]; lia | auto]. }
  assert (DROP0 : forall i rest, cinv P (SW (sw_db w) (sw_upd (sw_tx w) i None)) (Journal (S (j_now J)) (forget i (j_open J)) (j_done J) rest)) by (intros i rest; rewrite <- (app_nil_r (j_done J)); apply DROP).
  assert (SAME : forall w' J' l, (forall j, sw_tx w' j = sw_tx w j) -> sw_db w' = sw_db w -> j_open J' = j_open J -> j_done J' = j_done J ++ l -> (j_now J <= j_now J')%nat -> cinv P w' J').
  { intros w' J' l E1 E2 E3 E4 E5. split; [rewrite E2; exact K|]. intros j x X. rewrite E1 in X. destruct (T j x X) as (d & F1 & F2). exists d. rewrite E3. split; [exact F1|]. apply (follows_more P w J d x _ _ l F2); [exact E4 | exact E5 | rewrite E2; lia | rewrite E2; auto]. }
  destruct e as [i u|i o|i io|i|t io|n]; cbn [sstep].
  - cbn [fst snd jstep]. split; [exact K|]. intros j x X. cbn [sw_tx j_open] in *. unfold sw_upd in X. rewrite StructSerialProofs.find_cons. destruct (Nat.eqb j i) eqn:Ej.
    + assert (x = new_txn (sw_db w) u []) by congruence. subst x. eexists. split; [reflexivity|]. split; cbn [s_begin s_calls j_now j_done new_txn t_reads t_pend t_rts sw_db].
      * lia.
      * intros k [].
      * intros k G. exfalso. apply G. reflexivity.
      * lia.
      * intros k ts _ G Lt. apply K in G. lia.
    + destruct (T j x X) as (d & F1 & F2). exists d. split; [rewrite StructSerialProofs.find_forget, Ej; exact F1|]. apply (follows_more P w J d x _ _ [] F2); [cbn [j_done]; rewrite app_nil_r; reflexivity | cbn [j_now]; lia | cbn [sw_db]; lia | auto].
  - destruct (sw_tx w i) as [x|] eqn:Ex; [|cbn [fst snd jstep]; apply (SAME _ _ []); try reflexivity; [cbn [j_done]; rewrite app_nil_r; reflexivity | cbn [j_now]; lia]].
    destruct (sexec P o x) as [x' r] eqn:Ec. cbn [fst snd jstep]. destruct (T i x Ex) as (d & F1 & F2). rewrite F1. split; [exact K|]. intros j y Y. cbn [sw_tx j_open] in *. unfold sw_upd in Y. rewrite StructSerialProofs.find_cons. destruct (Nat.eqb j i) eqn:Ej.
    + assert (y = x') by congruence. subst y. eexists. split; [reflexivity|]. destruct F2 as [A B C D F]. destruct (op_touches P o x x' r Ec) as (Q1 & Q2 & Q3). split; cbn [s_begin j_now j_done sw_db]; rewrite ?Q1; unfold calls; cbn [s_calls]; rewrite ?map_app.
      * lia.
      * intros k Hk. destruct (Q2 k Hk) as [Z|Z]; [|exists (o, r); split; [apply in_or_app; right; left; reflexivity | exact Z]]. destruct (B k Z) as (c0 & Z1 & Z2). exists c0. split; [apply in_or_app; left; exact Z1 | exact Z2].
      * intros k Hk. destruct (Q3 k Hk) as [Z|Z]; [|exists o; split; [apply in_or_app; right; left; reflexivity | exact Z]]. destruct (C k Z) as (c0 & Z1 & Z2). exists c0. split; [apply in_or_app; left; exact Z1 | exact Z2].
      * exact D.
      * exact F.
    + destruct (T j y Y) as (d1 & G1 & G2). exists d1. split; [rewrite StructSerialProofs.find_forget, Ej; exact G1|]. apply (follows_more P w J d1 y _ _ [] G2); [cbn [j_done]; rewrite app_nil_r; reflexivity | cbn [j_now]; lia | cbn [sw_db]; lia | auto].
  - destruct (sw_tx w i) as [x|] eqn:Ex.
    2:{ cbn [fst snd jstep]. destruct (DROP0 i (j_rest J ++ left_over (j_now J) i (j_open J))) as [D1 D2]. split; [exact K|]. intros j x X. assert (Y : sw_upd (sw_tx w) i None j = Some x) by (unfold sw_upd; destruct (Nat.eqb_spec j i) as [->|]; [congruence | exact X]). destruct (D2 j x Y) as (d & F1 & [A B C D F]). exists d. split; [exact F1|]. split; [exact A | exact B | exact C | exact D | exact F]. }
    destruct (T i x Ex) as (d & F1 & [A B C D F]). destruct (commit (sw_db w) x io) as [[d1 t1] r] eqn:Ecm. unfold commit in Ecm.
    assert (KEEP : d1 = sw_db w -> cinv P (SW d1 (sw_upd (sw_tx w) i None)) (jstep J (SCommit i io, ADone r))) by (intros ->; cbn [jstep]; destruct r; first [apply DROP | apply DROP0]).
    cbn [fst snd]. destruct (negb (t_open x)); [apply KEEP; congruence|]. destruct (entries (t_pend x)) as [|p0 l0]; [apply KEEP; congruence|]. destruct (conflict (sw_db w) x); [apply KEEP; congruence|]. destruct io; [apply KEEP; congruence|].
    assert (d1 = publish (sw_db w) x /\ r = Ok tt) as [-> ->] by (split; congruence). clear KEEP. cbn [jstep]. split; [apply db_ok_publish; exact K|]. intros j y Y. cbn [sw_tx j_open] in *. unfold sw_upd in Y. destruct (Nat.eqb j i) eqn:Ej; [discriminate Y|]. destruct (T j y Y) as (d2 & G1 & G2). exists d2. split; [rewrite StructSerialProofs.find_forget, Ej; exact G1|].
    apply (follows_more P w J d2 y _ _ (left_over (j_now J) i (j_open J)) G2); [reflexivity | cbn [j_now]; lia | cbn [sw_db publish d_ts]; lia|]. intros k ts Pk G. cbn [sw_db] in G. destruct (publish_last _ _ _ _ G) as [Z|Z]; [auto|]. right. unfold left_over. rewrite F1. exists (ended (j_now J) d). split; [left; reflexivity|]. split; [reflexivity | exact (C k Z)].
  - cbn [fst snd jstep]. apply DROP0.
  - destruct (commit (sw_db w) t io) as [[d1 t1] r] eqn:Ecm. cbn [fst snd jstep]. pose proof (ok_other _ _ OK t io IN) as O1.
    assert (X : d1 = sw_db w \/ d1 = publish (sw_db w) t).
    { unfold commit in Ecm. destruct (negb (t_open t)); [left; congruence|]. destruct (entries (t_pend t)); [left; congruence|]. destruct (conflict (sw_db w) t); [left; congruence|]. destruct io; [left; congruence | right; congruence]. }
    destruct X as [->| ->]; [apply (SAME _ _ []); try reflexivity; [cbn [j_done]; rewrite app_nil_r; reflexivity | cbn [j_now]; lia]|].
    split; [apply db_ok_publish; exact K|]. intros j y Y. cbn [sw_tx] in Y. destruct (T j y Y) as (d2 & G1 & G2). exists d2. split; [exact G1|]. apply (follows_more P w J d2 y _ _ [] G2); [cbn [j_done]; rewrite app_nil_r; reflexivity | cbn [j_now]; lia | cbn [sw_db publish d_ts]; lia|].
    intros k ts Pk G. cbn [sw_db] in G. destruct (publish_last _ _ _ _ G) as [Z|Z]; [auto|]. exfalso. apply Z. exact (proj1 (O1 k) Pk).
  - cbn [fst snd jstep]. split; [exact K|]. intros j y Y. cbn [sw_tx] in Y. destruct (T j y Y) as (d2 & G1 & G2). exists d2. split; [exact G1|]. apply (follows_more P w J d2 y _ _ [] G2); [cbn [j_done]; rewrite app_nil_r; reflexivity | cbn [j_now]; lia | cbn [sw_db d_ts]; lia | auto].
Qed.
Lemma run_cinv P now clamp es : history_ok P es -> cinv P (fst (shist P (sfresh now clamp) es)) (journal_of P (sfresh now clamp) es).
Proof.
  induction es as [|e es IH] using rev_ind; intros H.
  - split; [apply db_ok_init | intros i x X; discriminate X].
  - rewrite StructSerialProofs.shist_snoc, StructSerialProofs.journal_snoc. apply step_cinv with (es := es); [apply IH; exact (StructSerialProofs.history_ok_snoc _ _ _ H) | exact H].
Qed.

(** * C98. Commit reports a conflict only if a transaction that committed since this one began had an operation that may
    change a string, hash or list this one looked at; unless this one used HGetNDesc and met the end of the hash *)
Theorem C98_conflicts_share_a_structure_partial : forall P now clamp es i io, history_ok P es ->
  let J := journal_of P (sfresh now clamp) es in
  snd (sstep P (fst (shist P (sfresh now clamp) es)) (SCommit i io)) = ADone (Err EConflict) ->
  exists d, find_tx i (j_open J) = Some d /\
  ((forall p, In p (s_calls d) -> ~ short p) ->
   exists d', In d' (j_done J) /\ (s_begin d <= s_end d')%nat /\ exists o o', In o (calls d) /\ In o' (calls d') /\ shares o o').
Proof.
  intros P now clamp es i io H J E. destruct (run_cinv P now clamp es H) as [K T]. fold J in T. set (w := fst (shist P (sfresh now clamp) es)) in *. cbn [sstep] in E. destruct (sw_tx w i) as [x|] eqn:Ex; [|discriminate E]. destruct (T i x Ex) as (d & F1 & [A B C D F]). exists d. split; [exact F1|]. intros ND.
  unfold commit in E. destruct (negb (t_open x)); [discriminate E|]. destruct (entries (t_pend x)) as [|p0 l0]; [discriminate E|]. destruct (conflict (sw_db w) x) eqn:CF; [|destruct io; discriminate E]. clear E.
  unfold conflict in CF. apply existsb_exists in CF. destruct CF as (k & R & L). destruct (get (d_last (sw_db w)) k) as [ts|] eqn:G; [|discriminate L]. apply Nat.ltb_lt in L.
  destruct (B k R) as (p & C1 & [[C2 C3]|C2]); [|exfalso; exact (ND _ C1 C2)].
  destruct (F k ts (region_prefix _ _ _ C3) G L) as (d' & P1 & P2 & o' & P3 & P4 & P5). exists d'. split; [exact P1|]. split; [exact P2|]. exists (fst p), o'. split; [apply in_map; exact C1|]. split; [exact P3|]. split; [exact C2|]. split; [exact P4|]. exact (region_one P _ _ k C3 P5).
Qed.
Print Assumptions C98_conflicts_share_a_structure_partial.
(** transactions that only set and clear strings are never refused for a conflict ... *)
Theorem C98_blind_writes_never_conflict : forall P now clamp es i io, history_ok P es ->
  forall d, find_tx i (j_open (journal_of P (sfresh now clamp) es)) = Some d -> (forall o, In o (calls d) -> looks o = false) ->
  snd (sstep P (fst (shist P (sfresh now clamp) es)) (SCommit i io)) <> ADone (Err EConflict).
Proof.
  intros P now clamp es i io H d F N E. destruct (C98_conflicts_share_a_structure_partial P now clamp es i io H E) as (d0 & F0 & X). assert (d0 = d) by congruence. subst d0.
  assert (ND : forall p, In p (s_calls d) -> ~ short p) by (intros [o r] Ip S; specialize (N o (in_map fst _ _ Ip)); destruct o; try discriminate N; exact S).
  destruct (X ND) as (d' & _ & _ & o & o' & I1 & _ & (L & _)). rewrite (N o I1) in L. discriminate L.
Qed.
Print Assumptions C98_blind_writes_never_conflict.
(** ... nor, whatever it does, a transaction since whose beginning none has committed that had an operation that may change something *)
Theorem C98_undisturbed_never_conflict_partial : forall P now clamp es i io, history_ok P es ->
  let J := journal_of P (sfresh now clamp) es in
  forall d, find_tx i (j_open J) = Some d -> (forall p, In p (s_calls d) -> ~ short p) ->
  (forall d' o, In d' (j_done J) -> (s_begin d <= s_end d')%nat -> In o (calls d') -> is_read o = true) ->
  snd (sstep P (fst (shist P (sfresh now clamp) es)) (SCommit i io)) <> ADone (Err EConflict).
Proof.
  intros P now clamp es i io H J d F ND N E. destruct (C98_conflicts_share_a_structure_partial P now clamp es i io H E) as (d0 & F0 & X). fold J in F0, X. assert (d0 = d) by congruence. subst d0.
  destruct (X ND) as (d' & I & B & o & o' & _ & I1 & (_ & R & _)). rewrite (N d' o' I B I1) in R. discriminate R.
Qed.
Print Assumptions C98_undisturbed_never_conflict_partial.
(** * The full claim fails: a transaction that lists the last two fields of hash "k", which has one, is refused because of a
    change of list "k" *)
Definition false_share : list sev :=
  [SBegin 0 true; SCall 0 (OHSet (str "k") (str "a") (str "1")); SCall 0 (ORPush (str "k") [str "x"]); SCommit 0 false;
   SBegin 1 true; SBegin 2 true; SCall 1 (OHGetNDesc (str "k") 2); SCall 1 (OSet (str "s") (str "v")); SCall 2 (ORPush (str "k") [str "y"]); SCommit 2 false].
Lemma false_share_ok : history_ok (str "p") false_share.
Proof.
  split.
  - intros i o H. cbn in H. repeat (destruct H as [H|H]; [inversion H; subst; cbn; exact Logic.I|]). destruct H.
  - intros i o H1 H2. cbn in H1. repeat (destruct H1 as [H1|H1]; [discriminate H1|]). destruct H1.
  - intros t io H. cbn in H. repeat (destruct H as [H|H]; [discriminate H|]). destruct H.
  - reflexivity.
Qed.
Theorem C98_descending_listing_conflicts_with_others_refuted : exists es d, history_ok (str "p") es /\
  let J := journal_of (str "p") (sfresh 100 false) es in
  snd (sstep (str "p") (fst (shist (str "p") (sfresh 100 false) es)) (SCommit 1 false)) = ADone (Err EConflict) /\
  find_tx 1 (j_open J) = Some d /\
  forall d', In d' (j_done J) -> (s_begin d <= s_end d')%nat -> forall o o', In o (calls d) -> In o' (calls d') -> ~ shares o o'.
Proof.
  exists false_share, (Deed true 4 7 [(OHGetNDesc (str "k") 2, Ok (VPairs [(str "a", str "1")])); (OSet (str "s") (str "v"), Ok VUnit)]). split; [exact false_share_ok|]. cbv zeta.
  split; [vm_compute; reflexivity|]. split; [vm_compute; reflexivity|]. intros d' I B o o' I1 I2 (_ & _ & S).
  assert (X : map (fun d => (s_begin d, s_end d, calls d)) (j_done (journal_of (str "p") (sfresh 100 false) false_share)) = [(0, 3, [OHSet (str "k") (str "a") (str "1"); ORPush (str "k") [str "x"]]); (5, 9, [ORPush (str "k") [str "y"]])]%nat) by (vm_compute; reflexivity).
  apply (in_map (fun d => (s_begin d, s_end d, calls d))) in I. rewrite X in I. cbn [s_begin] in B. destruct I as [I|[I|[]]].
  - assert (s_end d' = 3%nat) by congruence. lia.
  - assert (Y : calls d' = [ORPush (str "k") [str "y"]]) by congruence. rewrite Y in I2. destruct I2 as [<-|[]]. destruct I1 as [<-|[<-|[]]]; discriminate S.
Qed.
Print Assumptions C98_descending_listing_conflicts_with_others_refuted.
(** * Examples: in [work] of P_StructSerial.v transaction 2 pushes to the list 1 popped from and is refused; of two transactions
    about the hash and the list of one name both commit *)
Lemma history_ok_part P es es' : incl es es' -> total_cost es < two63 -> history_ok P es' -> history_ok P es.
Proof. intros I T [A B C D]. split; [intros i o H; apply (A i o), I, H | intros i o H1 H2; apply (B i o); apply I; assumption | intros t io H; apply (C t io), I, H | exact T]. Qed.
Example C98_example_refused : let es := firstn 10 P_StructSerial.work in history_ok P_StructSerial.q88 es /\
  let J := journal_of P_StructSerial.q88 (sfresh 100 false) es in
  snd (sstep P_StructSerial.q88 (fst (shist P_StructSerial.q88 (sfresh 100 false) es)) (SCommit 2 false)) = ADone (Err EConflict) /\
  option_map (fun d => (s_begin d, calls d)) (find_tx 2 (j_open J)) = Some (6%nat, [ORPush (str "l") [str "z"]]) /\
  map (fun d => (s_end d, calls d)) (skipn 1 (j_done J)) = [(9%nat, [OLPop (str "l")])] /\ shares (ORPush (str "l") [str "z"]) (OLPop (str "l")).
Proof.
  cbv zeta. split; [|repeat split; vm_compute; reflexivity]. apply (history_ok_part _ _ P_StructSerial.work); [intros e H; rewrite <- (firstn_skipn 10 P_StructSerial.work); apply in_or_app; left; exact H | vm_compute; reflexivity | exact P_StructSerial.work_ok].
Qed.
Example C98_example_accepted :
  skipn 4 (snd (shist (str "p") (sfresh 100 false) [SBegin 0 true; SBegin 1 true; SCall 0 (OHSet (str "k") (str "a") (str "1")); SCall 1 (ORPush (str "k") [str "x"]); SCommit 0 false; SCommit 1 false])) = [ADone (Ok tt); ADone (Ok tt)].
Proof. vm_compute. reflexivity. Qed.
