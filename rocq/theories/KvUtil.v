(** Model of kv/util.go (integer counters stored as decimal text) and lemmas. *)
From Verif Require Import Bytes SMap Provider ProviderProofs Numeric.

(** a value read back: an empty stored value comes back as a nil slice *)
Definition nil_of (v : bytes) : option bytes := match v with [] => None | _ => Some v end.
Definition parse_int (v : bytes) : Tx Z :=
  match DecodeFromHuman (nil_of v) with NOk n => ret n | NErr _ => fail EDecode end.

(** IncInt64, kv/util.go:9-33 *)
Definition IncInt64 (k : bytes) (step : Z) : Tx Z :=
  try (tget k) (fun r =>
    match r with
    | Err ErrKeyNotFound => tset k (Encode2Human step) ;;; ret step
    | Err e => fail e
    | Panic => gopanic
    | Ok v => n0 <- parse_int v ;;
              let n := to_i64 (n0 + step) in
              tset k (Encode2Human n) ;;; ret n
    end).
(** GetInt64, kv/util.go:36-44 *)
Definition GetInt64 (k : bytes) : Tx Z := v <- tget k ;; parse_int v.
(** SetInt64, kv/util.go:47-50 *)
Definition SetInt64 (k : bytes) (v : Z) : Tx unit := tset k (Encode2Human v).

(** what a stored value means as a counter: Some n, or not a number *)
Definition as_int (v : bytes) : option Z :=
  match v with
  | [] => None
  | _ => match decimal v with
         | Some n => if (- two63 <=? n) && (n <? two63) then Some n else None
         | None => None
         end
  end.

Lemma parse_int_spec w v M :
  spec w (parse_int v) M (match as_int v with Some n => Ok n | None => Err EDecode end) M.
Proof.
  unfold parse_int, as_int, nil_of. destruct v as [|c v]; [apply spec_fail|].
  destruct (DecodeFromHuman (Some (c :: v))) as [n|e] eqn:E.
  - pose proof (DecodeFromHuman_range _ _ E) as R. apply DecodeFromHuman_spec in E. destruct E as [E _]. rewrite E.
    unfold is_i64 in R. replace ((- two63 <=? n) && (n <? two63)) with true by lia. apply spec_ret.
  - destruct (decimal (c :: v)) as [n|] eqn:D; [|apply spec_fail].
    destruct ((- two63 <=? n) && (n <? two63)) eqn:R; [|apply spec_fail].
    assert (X : DecodeFromHuman (Some (c :: v)) = NOk n).
    { apply DecodeFromHuman_spec. split; [exact D|]. unfold is_i64. lia. }
    congruence.
Qed.
Lemma as_int_enc n : is_i64 n -> as_int (Encode2Human n) = Some n.
Proof.
  intros H. unfold as_int. pose proof (human_nonempty n). destruct (Encode2Human n) as [|c v] eqn:E; [congruence|].
  rewrite <- E. unfold Encode2Human. rewrite decimal_FormatInt by exact H. unfold is_i64 in H.
  replace ((- two63 <=? n) && (n <? two63)) with true by lia. reflexivity.
Qed.

(** result of an increment on an optional old value *)
Definition inc_res (old : option bytes) (step : Z) : result Z :=
  match old with
  | None => Ok step
  | Some v => match as_int v with Some n => Ok (to_i64 (n + step)) | None => Err EDecode end
  end.
Lemma IncInt64_spec k step M : good_key k ->
  spec true (IncInt64 k step) M (inc_res (option_map e_val (get M k)) step)
    (match inc_res (option_map e_val (get M k)) step with Ok n => set M k (mk (Encode2Human n)) | _ => M end).
Proof.
  intros G. unfold IncInt64. pose proof (spec_tget true k M (good_key_nonempty k G)) as H.
  eapply spec_try; [exact H | destruct (get M k); discriminate |].
  destruct (get M k) as [e|]; cbn [option_map inc_res].
  - pose proof (parse_int_spec true (e_val e) M) as P. destruct (as_int (e_val e)) as [n|].
    + eapply spec_bind; [exact P|]. eapply spec_bind; [apply spec_tset; exact G | apply spec_ret].
    + apply spec_bind_err. exact P.
  - eapply spec_bind; [apply spec_tset; exact G | apply spec_ret].
Qed.
Lemma GetInt64_spec w k M : k <> [] ->
  spec w (GetInt64 k) M (match get M k with
                         | None => Err ErrKeyNotFound
                         | Some e => match as_int (e_val e) with Some n => Ok n | None => Err EDecode end end) M.
Proof.
  intros N. unfold GetInt64. pose proof (spec_tget w k M N) as H. destruct (get M k) as [e|].
  - eapply spec_bind; [exact H|]. apply parse_int_spec.
  - apply spec_bind_err. exact H.
Qed.
Lemma SetInt64_spec k v M : good_key k -> spec true (SetInt64 k v) M (Ok tt) (set M k (mk (Encode2Human v))).
Proof. apply spec_tset. Qed.

(** ** sequences of counter operations against a plain table of integers *)
Inductive cop := CInc (k : bytes) (step : Z) | CSetI (k : bytes) (v : Z) | CGetI (k : bytes).
Definition cop_key (o : cop) : bytes := match o with CInc k _ | CSetI k _ | CGetI k => k end.
Definition cop_arg (o : cop) : Z := match o with CInc _ s => s | CSetI _ v => v | CGetI _ => 0 end.
Definition cop_exec (o : cop) : Tx Z :=
  match o with CInc k s => IncInt64 k s | CSetI k v => SetInt64 k v ;;; ret v | CGetI k => GetInt64 k end.
(** run a list of operations, collecting results (errors do not stop the sequence) *)
Fixpoint collect_run {A} (l : list (Tx A)) : Tx (list (result A)) :=
  match l with
  | [] => ret []
  | m :: l' => try m (fun r => rs <- collect_run l' ;; ret (r :: rs))
  end.
(** reference: a table of integers, increments wrapping as 64-bit signed numbers *)
Definition table := bytes -> option Z.
Definition tput (f : table) (k : bytes) (v : Z) : table := fun j => if bytes_eqb j k then Some v else f j.
Definition cop_ref (f : table) (o : cop) : table * result Z :=
  match o with
  | CInc k s => let n := match f k with Some m => to_i64 (m + s) | None => s end in (tput f k n, Ok n)
  | CSetI k v => (tput f k v, Ok v)
  | CGetI k => (f, match f k with Some n => Ok n | None => Err ErrKeyNotFound end)
  end.
Fixpoint cop_run (f : table) (l : list cop) : table * list (result Z) :=
  match l with
  | [] => (f, [])
  | o :: l' => let '(f1, r) := cop_ref f o in let '(f2, rs) := cop_run f1 l' in (f2, r :: rs)
  end.
(** the store holds the table for the keys in D: every counter is stored as its decimal text *)
Definition holds (D : bytes -> Prop) (M : smap ent) (f : table) : Prop := forall k, D k ->
  match f k with Some n => get M k = Some (mk (Encode2Human n)) /\ is_i64 n | None => get M k = None end.

Lemma to_i64_is_i64 n : is_i64 (to_i64 n).
Proof. unfold is_i64, to_i64. rewrite two63_val, two64_val. lia. Qed.

Lemma holds_tput D M f k n : holds D M f -> is_i64 n -> holds D (set M k (mk (Encode2Human n))) (tput f k n).
Proof.
  intros H R j. unfold tput. rewrite get_set. destruct (bytes_eqb j k); [auto|]. exact (H j).
Qed.
Definition frame (D : bytes -> Prop) (M M' : smap ent) : Prop := forall k, ~ D k -> get M' k = get M k.
Lemma frame_set (D : bytes -> Prop) M k e : D k -> frame D M (set M k e).
Proof. intros H j Hj. apply get_set_ne. intros ->. exact (Hj H). Qed.
Lemma frame_trans D M M1 M2 : frame D M M1 -> frame D M1 M2 -> frame D M M2.
Proof. intros H1 H2 k Hk. rewrite (H2 k Hk). exact (H1 k Hk). Qed.
Lemma cop_sim (D : bytes -> Prop) M f o : D (cop_key o) -> good_key (cop_key o) -> is_i64 (cop_arg o) -> holds D M f ->
  exists M', spec true (cop_exec o) M (snd (cop_ref f o)) M' /\ holds D M' (fst (cop_ref f o)) /\ frame D M M'.
Proof.
  intros Dk G R H. destruct o as [k s|k v|k]; cbn [cop_key cop_arg cop_exec cop_ref fst snd] in *.
  - pose proof (IncInt64_spec k s M G) as S. pose proof (H k Dk) as Hk. destruct (f k) as [m|] eqn:E.
    + destruct Hk as [Hk Rm]. rewrite Hk in S. cbn [option_map e_val mk inc_res] in S. rewrite as_int_enc in S by exact Rm.
      eexists. split; [exact S|]. split; [apply holds_tput; [exact H | apply to_i64_is_i64] | apply frame_set; exact Dk].
    + rewrite Hk in S. cbn [option_map inc_res] in S. eexists. split; [exact S|].
      split; [apply holds_tput; assumption | apply frame_set; exact Dk].
  - eexists. split; [eapply spec_bind; [apply SetInt64_spec; exact G | apply spec_ret]|].
    split; [apply holds_tput; assumption | apply frame_set; exact Dk].
  - pose proof (GetInt64_spec true k M (good_key_nonempty k G)) as S. pose proof (H k Dk) as Hk. exists M. destruct (f k) as [m|].
    + destruct Hk as [Hk Rm]. rewrite Hk in S. cbn [e_val mk] in S. rewrite as_int_enc in S by exact Rm. split; [exact S|]. split; [exact H|]. intros ? ?; reflexivity.
    + rewrite Hk in S. split; [exact S|]. split; [exact H|]. intros ? ?; reflexivity.
Qed.
Lemma cop_ref_nopanic f o : snd (cop_ref f o) <> Panic.
Proof. destruct o; cbn; try discriminate. destruct (f k); discriminate. Qed.
Lemma cop_run_sim (D : bytes -> Prop) l : forall M f, Forall (fun o => D (cop_key o) /\ good_key (cop_key o) /\ is_i64 (cop_arg o)) l -> holds D M f ->
  exists M', spec true (collect_run (map cop_exec l)) M (Ok (snd (cop_run f l))) M' /\ holds D M' (fst (cop_run f l)) /\ frame D M M'.
Proof.
  induction l as [|o l IH]; intros M f F H.
  - exists M. split; [apply spec_ret|]. split; [exact H|]. intros ? ?; reflexivity.
  - inversion F as [|? ? [Dk [G R]] F']. subst. destruct (cop_sim D M f o Dk G R H) as (M1 & S1 & H1 & F1).
    cbn [map collect_run cop_run]. destruct (cop_ref f o) as [f1 r1] eqn:E. cbn [fst snd] in *.
    destruct (IH M1 f1 F' H1) as (M2 & S2 & H2 & F2). destruct (cop_run f1 l) as [f2 rs]. cbn [fst snd] in *.
    exists M2. split; [|split; [exact H2 | eapply frame_trans; eassumption]]. eapply spec_try; [exact S1 | |].
    + intros ->. apply (cop_ref_nopanic f o). rewrite E. reflexivity.
    + eapply spec_bind; [exact S2 | apply spec_ret].
Qed.
