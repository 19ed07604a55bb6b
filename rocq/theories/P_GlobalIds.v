(** C53 with concurrent transactions: whatever the schedule, the global ids that committed
    transactions generated are pairwise different. *)
From Verif Require Import Bytes SMap Provider ProviderProofs World Memcmp MemcmpProofs Numeric KvUtil KeyModel Struct
  StructProofs StructHash UtilTxn TxPost Sequence SequenceProofs Model Meta.

(** where the counter is stored *)
Definition GK : bytes := encodeStringDataKey MetaPrefix globalIDKey.

(** * Schedules: any interleaving of transactions, each making any calls *)
Inductive gev :=
| GBegin (i : nat) (upd : bool) (lim : list bool)      (* lim: which writes find the transaction too big *)
| GOther (i : nat) (c : cmd)                           (* any other call of the transaction *)
| GGen (i : nat)                                       (* GenGlobalID *)
| GGens (i : nat) (n : Z)                              (* GenGlobalIDs n *)
| GCommit (i : nat) (io : bool)
| GDiscard (i : nat)
| GTick (n : nat).
(** the ids (a range start+1..end) each open transaction has been given, and those of committed ones *)
Record gworld := GW { g_w : world; g_open : nat -> list (Z * Z); g_done : list (Z * Z) }.
Definition upd_l (f : nat -> list (Z * Z)) (i : nat) (l : list (Z * Z)) : nat -> list (Z * Z) := fun j => if Nat.eqb j i then l else f j.
Definition gstep (w : gworld) (e : gev) : gworld :=
  match e with
  | GBegin i u lim => GW (fst (step (g_w w) (Begin i u lim))) (upd_l (g_open w) i []) (g_done w)
  | GOther i c => GW (fst (step (g_w w) (Do i c))) (g_open w) (g_done w)
  | GGen i => match w_tx (g_w w) i with
              | None => w
              | Some t => let '(t', r) := GenGlobalID t in
                          GW (World (w_db (g_w w)) (upd_tx (w_tx (g_w w)) i t'))
                             (match r with Ok v => upd_l (g_open w) i ((v - 1, v) :: g_open w i) | _ => g_open w end) (g_done w)
              end
  | GGens i n => match w_tx (g_w w) i with
                 | None => w
                 | Some t => let '(t', r) := GenGlobalIDs n t in
                             GW (World (w_db (g_w w)) (upd_tx (w_tx (g_w w)) i t'))
                                (match r with Ok p => upd_l (g_open w) i (p :: g_open w i) | _ => g_open w end) (g_done w)
                 end
  | GCommit i io => let '(w', r) := step (g_w w) (Commit i io) in
                    GW w' (upd_l (g_open w) i []) (match r with Some (Ok _) => g_open w i ++ g_done w | _ => g_done w end)
  | GDiscard i => GW (fst (step (g_w w) (Discard i))) (upd_l (g_open w) i []) (g_done w)
  | GTick n => GW (fst (step (g_w w) (Tick n))) (g_open w) (g_done w)
  end.
Definition grun (w : gworld) (es : list gev) : gworld := fold_left gstep es w.
Definition g_init (d : db) : gworld := GW (World d (fun _ => None)) (fun _ => []) [].
(** other calls write other keys; counts are not negative *)
Definition g_allowed (e : gev) : Prop :=
  match e with
  | GOther _ (CSet k _ _) | GOther _ (CDel k) => k <> GK
  | GGens _ n => 0 <= n
  | _ => True
  end.
Definition g_asked (e : gev) : Z := match e with GGen _ => 1 | GGens _ n => n | _ => 0 end.
Definition g_total (es : list gev) : Z := fold_right (fun e n => g_asked e + n) 0 es.
(** the range holds id *)
Definition holds_id (p : Z * Z) (id : Z) : Prop := fst p < id <= snd p.
Definition disjoint (l : list (Z * Z)) : Prop := ForallOrdPairs (fun p q => forall id, ~ (holds_id p id /\ holds_id q id)) l.

(** * Proof *)
Lemma GK_nonempty : GK <> [].
Proof. apply (ek_nonempty MetaPrefix (KS globalIDKey)). Qed.
Definition stored (m : smap ent) (c : Z) : Prop := (get m GK = None /\ c = 0) \/ get m GK = Some (mk (Encode2Human c)).
Lemma Inc_any k step t t' r : k <> [] -> IncInt64 k step t = (t', r) -> ext t t' /\
  ((exists v, r = Ok v /\ t_upd t = true /\ t_open t = true /\ inc_res (option_map e_val (get (view t) k)) step = Ok v /\ (forall j, get (t_pend t') j = if bytes_eqb j k then Some (Some (mk (Encode2Human v))) else get (t_pend t) j) /\
     (get (t_pend t) k = None -> In k (t_reads t')))
   \/ ((forall v, r <> Ok v) /\ t_pend t' = t_pend t)).
Proof.
  intros N H. unfold IncInt64, try in H. destruct (tget k t) as [t1 r1] eqn:G. destruct (t_open t) eqn:O.
  - apply tget_post in G; try assumption. destruct G as [-> ->].
    assert (EX : forall l o, ext t (put k o l (track k t))) by (intros; eapply ext_trans; [apply ext_track | apply ext_put]).
    assert (ST : forall v (H : (tset k (Encode2Human v) ;;; ret v) (track k t) = (t', r)), ext t t' /\
      ((r = Ok v /\ t_upd t = true /\ (forall j, get (t_pend t') j = if bytes_eqb j k then Some (Some (mk (Encode2Human v))) else get (t_pend t) j) /\ (get (t_pend t) k = None -> In k (t_reads t'))) \/ ((forall v, r <> Ok v) /\ t_pend t' = t_pend t))).
    { intros v H1. unfold bind in H1. destruct (tset k (Encode2Human v) (track k t)) as [t2 r2] eqn:T. 
      assert (U : forall a, r2 = Ok a -> t_upd t = true).
      { intros a ->. unfold tset, tsetm, map_err, modify in T. replace (t_upd (track k t)) with (t_upd t) in T by (destruct (ext_track k t) as (_ & _ & _ & -> & _); reflexivity). destruct (t_upd t); [reflexivity | discriminate]. }
      destruct (tset_post _ _ _ _ _ T) as [[-> (l & ->)]|(e & -> & X)].
      - inversion H1; subst. split; [apply EX|]. left. split; [reflexivity|]. pose proof (U tt eq_refl) as Ut. split; [exact Ut|]. split.
        + intros j. rewrite get_put, pend_track. reflexivity.
        + intros Pn. cbn [put t_reads]. apply reads_track; assumption.
      - inversion H1; subst. split; [|right; split; [discriminate|]].
        + destruct X as [->|(l & ->)]; [apply ext_track | eapply ext_trans; [apply ext_track | apply ext_set_lim]].
        + destruct X as [->|(l & ->)]; cbn [set_lim t_pend]; apply pend_track. }
    destruct (get (view t) k) as [e|] eqn:V.
    + unfold bind at 1 in H. unfold parse_int in H. destruct (DecodeFromHuman (nil_of (e_val e))) as [n|er] eqn:D.
      * destruct (ST (to_i64 (n + step)) H) as [E1 [(R1 & R2 & R3 & R4)|X]]; (split; [exact E1|]); [left | right; exact X]. eexists. split; [exact R1|]. split; [exact R2|]. split; [reflexivity|]. split; [|auto].
        unfold nil_of in D. destruct (e_val e) as [|c x] eqn:Ev; [discriminate D|]. cbn [option_map]. rewrite Ev.
        pose proof (DecodeFromHuman_range _ _ D) as Rg. apply DecodeFromHuman_spec in D. destruct D as [D _]. unfold inc_res, as_int. rewrite D. unfold is_i64 in Rg. replace ((- two63 <=? n) && (n <? two63)) with true by lia. reflexivity.
      * inversion H; subst. split; [apply ext_track|]. right. split; [discriminate | apply pend_track].
    + destruct (ST step H) as [E1 [(R1 & R2 & R3 & R4)|X]]; (split; [exact E1|]); [left | right; exact X]. eexists. split; [exact R1|]. split; [exact R2|]. split; [reflexivity|]. split; [reflexivity | auto].
  - assert (X : t1 = t /\ r1 = Err EDiscardedTxn) by (unfold tget, tgetm, map_err, bget, bind in G; destruct k; [congruence|]; rewrite O in G; inversion G; auto).
    destruct X as [-> ->]. inversion H; subst. split; [apply ext_refl|]. right. split; [discriminate | reflexivity].
Qed.
Lemma stored_fun m c c' : is_i64 c -> is_i64 c' -> stored m c -> stored m c' -> c = c'.
Proof.
  intros I I' [[H ->]|H] [[H' ->]|H']; try congruence. rewrite H in H'. injection H' as E. apply SequenceProofs.human_inj; assumption.
Qed.
Definition given (b top : Z) (l : list (Z * Z)) : Prop := disjoint l /\ Forall (fun p => b <= fst p <= snd p /\ snd p <= top) l.
Definition tinv (T c0 : Z) (t : txn) (l : list (Z * Z)) : Prop := exists b, c0 <= b <= T /\ stored (t_snap t) b /\
  ((l = [] /\ get (t_pend t) GK = None) \/
   (exists top, b <= top <= T /\ get (t_pend t) GK = Some (Some (mk (Encode2Human top))) /\ In GK (t_reads t) /\ given b top l)).
Record ginv (T c0 : Z) (w : gworld) : Prop := {
  gi_ok : wok (g_w w);
  gi_done : exists c, c0 <= c <= T /\ stored (d_kv (w_db (g_w w))) c /\ given c0 c (g_done w);
  gi_tx : forall i t, w_tx (g_w w) i = Some t -> t_open t = true -> tinv T c0 t (g_open w i)
}.
Lemma given_cons b top l n : 0 <= n -> b <= top -> given b top l -> given b (top + n) ((top, top + n) :: l).
Proof.
  intros N B [D F]. split.
  - constructor; [|exact D]. rewrite Forall_forall in *. intros q I id [H1 H2]. specialize (F q I). unfold holds_id in *. cbn [fst snd] in *. lia.
  - constructor; [cbn [fst snd]; lia|]. eapply Forall_impl; [|exact F]. cbn beta. intros q H. lia.
Qed.
Lemma given_app b c top l l' : given c top l -> given b c l' -> b <= c -> c <= top -> given b top (l ++ l').
Proof.
  intros [D F] [D' F'] B C. split.
  - unfold disjoint in *. induction D as [|p l D1 D2 IH]; cbn [app]; [exact D'|]. inversion F; subst. constructor; [|apply IH; assumption].
    apply Forall_app. split; [exact D1|]. rewrite Forall_forall in *. intros q I id [H3 H4]. specialize (F' q I). unfold holds_id in *. lia.
  - apply Forall_app. split; (eapply Forall_impl; [|eassumption]); cbn beta; intros q H; lia.
Qed.
Lemma tinv_mono T T' c0 t l : T <= T' -> tinv T c0 t l -> tinv T' c0 t l.
Proof. intros L (b & B & S & H). exists b. split; [lia|]. split; [exact S|]. destruct H as [H|(top & H1 & H2)]; [left; exact H | right; exists top; split; [lia | exact H2]]. Qed.
Lemma tinv_same T c0 t t' l : t_snap t' = t_snap t -> get (t_pend t') GK = get (t_pend t) GK -> (In GK (t_reads t) -> In GK (t_reads t')) -> tinv T c0 t l -> tinv T c0 t' l.
Proof.
  intros E1 E2 E3 (b & B & S & H). exists b. rewrite E1, E2. split; [exact B|]. split; [exact S|]. destruct H as [H|(top & H1 & H2 & H3 & H4)]; [left; exact H | right; exists top; auto].
Qed.
Lemma view_GK t c : t_now t = t_now t -> get (t_pend t) GK = None -> stored (t_snap t) c -> (get (view t) GK = None /\ c = 0) \/ get (view t) GK = Some (mk (Encode2Human c)).
Proof.
  intros _ N [[H ->]|H]; rewrite get_view, N, H; cbn; auto.
Qed.
Lemma wok_set w i t t' : wok w -> w_tx w i = Some t -> ext t t' -> wok (World (w_db w) (upd_tx (w_tx w) i t')).
Proof.
  intros [HL HT] E (X1 & X2 & _ & _ & X5 & _). split; [exact HL|]. cbn [w_tx w_db]. unfold upd_tx. intros j tj. destruct (Nat.eqb j i); [|apply HT].
  intros Ej O. injection Ej as <-. destruct (HT i t E) as [A B]; [congruence|]. split; [rewrite X2; exact A|]. rewrite X1, X2. exact B.
Qed.
(** one call generating n ids *)
Lemma gen_tinv T c0 t t' l n r : 0 <= c0 -> 0 <= n -> T + n < two63 -> tinv T c0 t l -> IncInt64 GK n t = (t', r) ->
  tinv (T + n) c0 t' (match r with Ok v => (v - n, v) :: l | _ => l end) /\ (forall v, r = Ok v -> is_i64 v /\ is_i64 (v - n)).
Proof.
  intros C0 N L H E. destruct (Inc_any _ _ _ _ _ GK_nonempty E) as [X [(v & -> & U & O & I & Pd & Rd)|[Nv Pd]]].
  - destruct H as (b & B & St & H). destruct X as (X1 & _ & _ & _ & _ & X6).
    assert (TOP : exists top, b <= top <= T /\ v = top + n /\ given b top l /\ In GK (t_reads t')).
    { destruct H as [[-> Pn]|(top & B2 & Pt & Rt & G)].
      - exists b. split; [lia|]. split; [|split; [split; constructor | apply Rd; exact Pn]].
        destruct (view_GK t b eq_refl Pn St) as [[V ->]|V]; rewrite V in I; cbn [option_map inc_res mk e_val] in I; [injection I as <-; lia|].
        rewrite as_int_enc in I by (unfold is_i64; rewrite two63_val in *; lia). injection I as <-. apply to_i64_id. unfold is_i64. rewrite two63_val in *. lia.
      - exists top. split; [exact B2|]. split; [|split; [exact G | apply X6; exact Rt]].
        assert (V : get (view t) GK = Some (mk (Encode2Human top))) by (rewrite get_view, Pt; reflexivity). rewrite V in I. cbn [option_map inc_res mk e_val] in I.
        rewrite as_int_enc in I by (unfold is_i64; rewrite two63_val in *; lia). injection I as <-. apply to_i64_id. unfold is_i64. rewrite two63_val in *. lia. }
    destruct TOP as (top & B2 & -> & G & Rt). split.
    + exists b. split; [lia|]. split; [rewrite X1; exact St|]. right. exists (top + n). split; [lia|]. split; [rewrite Pd, bytes_eqb_refl; reflexivity|]. split; [exact Rt|].
      replace (top + n - n) with top by lia. apply given_cons; [exact N | lia | exact G].
    + intros v E'. injection E' as <-. unfold is_i64. rewrite two63_val in *. lia.
  - split; [|intros v ->; exfalso; exact (Nv v eq_refl)]. assert (Y : tinv (T + n) c0 t' l).
    { apply (tinv_mono T); [lia|]. apply (tinv_same T c0 t); [apply X | rewrite Pd; reflexivity | apply X | exact H]. }
    destruct r as [v| |]; [exfalso; exact (Nv v eq_refl) | exact Y | exact Y].
Qed.
Lemma gstep_inv T c0 w e : 0 <= c0 -> ginv T c0 w -> g_allowed e -> T + g_asked e < two63 -> ginv (T + g_asked e) c0 (gstep w e).
Proof.
  intros C0 [OK (c & C & St & Gd) TX] AL L.
  assert (MONO : forall n, 0 <= n -> (exists c, c0 <= c <= T + n /\ stored (d_kv (w_db (g_w w))) c /\ given c0 c (g_done w)) /\
     forall i t, w_tx (g_w w) i = Some t -> t_open t = true -> tinv (T + n) c0 t (g_open w i)).
  { intros n N. split; [exists c; split; [lia | auto]|]. intros i t E O. apply (tinv_mono T); [lia | apply TX; assumption]. }
  destruct e as [i u lim|i cm|i|i n|i io|i|n]; cbn [gstep g_allowed g_asked] in *; rewrite ?Z.add_0_r in *.
  - split; [apply step_wok; exact OK | exists c; auto|]. cbn [step fst g_w g_open w_tx w_db]. intros j t. unfold upd_tx, upd_l. destruct (Nat.eqb j i); [|apply TX].
    intros E _. injection E as <-. exists c. split; [exact C|]. split; [exact St|]. left. split; [reflexivity | apply get_empty].
  - split; [apply step_wok; exact OK | |].
    + exists c. cbn [step g_w]. destruct (w_tx (g_w w) i) as [t|]; [destruct (exec cm t)|]; auto.
    + cbn [step g_w g_open]. destruct (w_tx (g_w w) i) as [t|] eqn:E; [|exact TX]. destruct (exec cm t) as [t1 r1] eqn:Ex. cbn [fst w_tx]. unfold upd_tx.
      intros j tj. destruct (Nat.eqb j i) eqn:Eq; [|apply TX]. apply Nat.eqb_eq in Eq. subst j. intros Ej O. injection Ej as <-.
      destruct (exec_keeps _ _ _ _ Ex) as [(K1 & _) K3]. destruct (exec_trace _ _ _ _ Ex) as (Pd & Rd & _). apply (tinv_same T c0 t); [exact K1 | | apply Rd | apply TX; [exact E | congruence]].
      rewrite Pd. replace (write_of (t_now t) cm r1 GK) with (@None (option ent)); [reflexivity|]. destruct cm; try reflexivity; cbn [write_of]; destruct r1; try reflexivity; destruct (bytes_eqb GK k) eqn:X; try reflexivity; apply bytes_eqb_eq in X; congruence.
  - destruct (w_tx (g_w w) i) as [t|] eqn:E; [|split; [exact OK | apply MONO; lia | apply MONO; lia]].
    unfold GenGlobalID, SInc. fold GK. destruct (IncInt64 GK 1 t) as [t1 r1] eqn:I. destruct (Inc_any _ _ _ _ _ GK_nonempty I) as [X _].
    split; [eapply wok_set; eassumption | apply MONO; lia|]. cbn [g_w g_open w_tx]. unfold upd_tx. intros j tj. destruct (Nat.eqb j i) eqn:Eq.
    + apply Nat.eqb_eq in Eq. subst j. intros Ej O. injection Ej as <-. destruct X as (_ & _ & _ & _ & X5 & _).
      destruct (gen_tinv T c0 t t1 (g_open w i) 1 r1 C0 ltac:(lia) L (TX i t E ltac:(congruence)) I) as [Y _]. destruct r1; [unfold upd_l; rewrite Nat.eqb_refl|..]; exact Y.
    + intros Ej O. destruct (MONO 1 ltac:(lia)) as [_ M2]. replace (match r1 with Ok v => upd_l (g_open w) i ((v - 1, v) :: g_open w i) | _ => g_open w end j) with (g_open w j) by (destruct r1; [unfold upd_l; rewrite Eq|..]; reflexivity). apply M2; assumption.
  - destruct (w_tx (g_w w) i) as [t|] eqn:E; [|split; [exact OK | apply MONO; lia | apply MONO; lia]].
    unfold GenGlobalIDs, SInc. fold GK. unfold bind. destruct (IncInt64 GK n t) as [t1 r1] eqn:I. destruct (Inc_any _ _ _ _ _ GK_nonempty I) as [X _].
    assert (Q : exists r2, (match r1 with Ok a => ret (to_i64 (a - n), a) t1 | Err e => (t1, Err e) | Panic => (t1, Panic) end) = (t1, r2) /\ r2 = match r1 with Ok a => Ok (to_i64 (a - n), a) | Err e => Err e | Panic => Panic end) by (destruct r1; eexists; split; reflexivity).
    destruct Q as (r2 & -> & ->).
    split; [eapply wok_set; eassumption | apply MONO; lia|]. cbn [g_w g_open w_tx]. unfold upd_tx. intros j tj. destruct (Nat.eqb j i) eqn:Eq.
    + apply Nat.eqb_eq in Eq. subst j. intros Ej O. injection Ej as <-. destruct X as (_ & _ & _ & _ & X5 & _).
      destruct (gen_tinv T c0 t t1 (g_open w i) n r1 C0 ltac:(lia) L (TX i t E ltac:(congruence)) I) as [Y Z0]. destruct r1 as [v| |]; [unfold upd_l; rewrite Nat.eqb_refl|..]; [|exact Y|exact Y]. rewrite to_i64_id; [exact Y | apply (Z0 v eq_refl)].
    + intros Ej O. destruct (MONO n ltac:(lia)) as [_ M2]. specialize (M2 j tj Ej O). destruct r1; [unfold upd_l; rewrite Eq|..]; exact M2.
  - pose proof (step_wok (g_w w) (Commit i io) OK) as OK'. cbn [step] in *. destruct (w_tx (g_w w) i) as [t|] eqn:E.
    + destruct (commit (w_db (g_w w)) t io) as [[d t1] r1] eqn:Ec. cbn [fst] in OK'.
      assert (TX' : forall j tj, w_tx (World d (upd_tx (w_tx (g_w w)) i t1)) j = Some tj -> t_open tj = true -> tinv T c0 tj (upd_l (g_open w) i [] j)).
      { cbn [w_tx]. unfold upd_tx, upd_l. intros j tj. destruct (Nat.eqb j i); [|apply TX]. intros Ej O. injection Ej as <-. exfalso. unfold commit in Ec. destruct (t_open t) eqn:Ot; cbn [negb] in Ec; [|inversion Ec; subst; congruence].
        destruct (entries (t_pend t)); [inversion Ec; subst; discriminate|]. destruct (conflict _ _); [inversion Ec; subst; discriminate|]. destruct io; inversion Ec; subst; discriminate. }
      split; [exact OK' | | exact TX'].
      destruct (commit_cases _ _ _ _ _ _ Ec) as [(-> & Kv & Nc)|[Nr ->]].
      * assert (Ot : t_open t = true) by (unfold commit in Ec; destruct (t_open t); [reflexivity | inversion Ec]).
        cbn [g_w g_done w_db]. destruct (TX i t E Ot) as (b & B & Sb & [[El Pn]|(top & B2 & Pt & Rt & G)]).
        -- exists c. split; [exact C|]. rewrite El. cbn [app]. split; [|exact Gd]. unfold stored in *. rewrite Kv, Pn. exact St.
        -- exists top. assert (Ne : entries (t_pend t) <> []). { intros X. apply entries_nil_iff in X. rewrite X, get_empty in Pt. discriminate. }
           destruct OK as [_ HT]. pose proof (conflict_free _ _ GK (HT i t E Ot) (Nc Ne) Rt) as Q.
           assert (c = b). { apply (stored_fun (t_snap t)); [unfold is_i64; rewrite two63_val in *; lia | unfold is_i64; rewrite two63_val in *; lia | | exact Sb]. unfold stored in *. rewrite <- Q. exact St. }
           subst b. split; [lia|]. split; [right; rewrite Kv, Pt; reflexivity|]. apply (given_app c0 c); [exact G | exact Gd | lia | lia].
      * exists c. cbn [g_w g_done w_db]. split; [exact C|]. split; [exact St|]. destruct r1 as [[]| |]; [congruence | exact Gd | exact Gd].
    + split; [exact OK | exists c; auto|]. cbn [g_w g_open]. intros j tj Ej O. unfold upd_l. destruct (Nat.eqb j i) eqn:Eq; [apply Nat.eqb_eq in Eq; subst j; congruence | apply TX; assumption].
  - pose proof (step_wok (g_w w) (Discard i) OK) as OK'. cbn [step] in *. destruct (w_tx (g_w w) i) as [t|] eqn:E.
    + split; [exact OK' | exists c; auto|]. cbn [fst g_w g_open w_tx]. unfold upd_tx, upd_l. intros j tj. destruct (Nat.eqb j i); [|apply TX]. intros Ej O. injection Ej as <-. discriminate.
    + split; [exact OK | exists c; auto|]. cbn [fst g_w g_open]. intros j tj Ej O. unfold upd_l. destruct (Nat.eqb j i) eqn:Eq; [apply Nat.eqb_eq in Eq; subst j; congruence | apply TX; assumption].
  - split; [apply (step_wok (g_w w) (Tick n)); exact OK | exists c; auto | exact TX].
Qed.
Lemma g_total_nonneg es : Forall g_allowed es -> 0 <= g_total es.
Proof. induction 1 as [|e es A F IH]; cbn [g_total fold_right]; [lia|]. fold (g_total es). destruct e; cbn [g_asked g_allowed] in *; lia. Qed.
Lemma grun_inv c0 es : 0 <= c0 -> Forall g_allowed es -> forall T w, ginv T c0 w -> T + g_total es < two63 -> ginv (T + g_total es) c0 (grun w es).
Proof.
  intros C0. induction 1 as [|e es A F IH]; intros T w I L; cbn [grun fold_left g_total fold_right] in *; [rewrite Z.add_0_r; exact I|].
  fold (g_total es) in *. fold (grun (gstep w e) es). rewrite Z.add_assoc in *. apply IH; [|exact L]. apply gstep_inv; [exact C0 | exact I | exact A|]. pose proof (g_total_nonneg es F). lia.
Qed.

(** * C53 *)
(** Whatever the schedule, conflicts, too-big and I/O failures, the ids given to transactions that
    committed are pairwise different, and different from those given before (1..c0). *)
Theorem C53_ids_of_committed_transactions_differ : forall d c0 es, db_ok d -> 0 <= c0 -> stored (d_kv d) c0 -> Forall g_allowed es -> c0 + g_total es < two63 ->
  disjoint (g_done (grun (g_init d) es)) /\ Forall (fun p => c0 <= fst p <= snd p) (g_done (grun (g_init d) es)).
Proof.
  intros d c0 es K C0 St F L. assert (I : ginv c0 c0 (g_init d)).
  { split; [split; [exact K | discriminate] | exists c0; split; [lia|]; split; [exact St | split; constructor] | discriminate]. }
  destruct (grun_inv c0 es C0 F c0 (g_init d) I L) as [_ (c & _ & _ & [D G]) _]. split; [exact D|]. eapply Forall_impl; [|exact G]. cbn beta. intros p H. lia.
Qed.
(** two transactions racing for ids: one of them is refused, the retry gets the next ids *)
Definition gx : list gev :=
  [GBegin 1 true []; GBegin 2 true []; GGens 1 3; GOther 1 (CSet (str "x") (str "y") None); GGen 2; GGen 1; GCommit 1 false; GCommit 2 false; GBegin 2 true []; GGen 2; GGens 2 2; GCommit 2 false].
Example C53_nonvacuous : stored (d_kv (db_init 0 false)) 0 /\ Forall g_allowed gx /\ g_total gx < two63 /\
  g_done (grun (g_init (db_init 0 false)) gx) = [(5, 7); (4, 5); (3, 4); (0, 3)].
Proof.
  split; [left; split; reflexivity|]. split; [repeat constructor; cbn [g_allowed]; try lia; discriminate|]. split; [reflexivity|]. vm_compute. reflexivity.
Qed.
