(** A codec that meets the contract [json_ok] of Meta.v, so that the theorems assuming it are not
    vacuous. Not a model of anything in /repo (encoding/json has another format). *)
From Verif Require Import Bytes SMap Memcmp MemcmpProofs Provider Numeric Model Meta.

Record codec (A : Type) := Codec { ce : A -> bytes; cd : bytes -> option (A * bytes) }.
Arguments Codec {A}. Arguments ce {A}. Arguments cd {A}.
Definition good {A} (W : A -> Prop) (c : codec A) : Prop := forall a r, W a -> cd c (ce c a ++ r) = Some (a, r).

Definition c_bytes : codec bytes := Codec enc (fun b => match DecodeBytes true b with DOk r v => Some (v, r) | DErr _ => None end).
Lemma g_bytes : good (fun _ => True) c_bytes.
Proof. intros a r _. cbn [c_bytes cd ce]. unfold DecodeBytes. change (enc a) with (encd false a). rewrite decodeBytes_enc. reflexivity. Qed.
Definition c_int : codec Z := Codec (EncodeInt64 []) (fun b => match DecodeInt64 b with DOk r v => Some (v, r) | DErr _ => None end).
Lemma g_int : good is_i64 c_int.
Proof. intros a r H. cbn [c_int cd ce]. rewrite DecodeInt64_enc by exact H. reflexivity. Qed.
(** a type with a numbering *)
Definition c_via {A B} (f : A -> B) (g : B -> option A) (c : codec B) : codec A :=
  Codec (fun a => ce c (f a)) (fun b => match cd c b with Some (x, r) => match g x with Some a => Some (a, r) | None => None end | None => None end).
Lemma g_via {A B} (f : A -> B) g c (V : B -> Prop) (W : A -> Prop) : good V c -> (forall a, W a -> V (f a) /\ g (f a) = Some a) -> good W (c_via f g c).
Proof. intros H E a r Wa. destruct (E a Wa) as [E1 E2]. cbn [c_via cd ce]. rewrite H by exact E1. rewrite E2. reflexivity. Qed.
Definition c_pair {A B} (a : codec A) (b : codec B) : codec (A * B) :=
  Codec (fun p => ce a (fst p) ++ ce b (snd p))
        (fun x => match cd a x with Some (u, r) => match cd b r with Some (v, r') => Some ((u, v), r') | None => None end | None => None end).
Lemma g_pair {A B} (a : codec A) (b : codec B) V W : good V a -> good W b -> good (fun p => V (fst p) /\ W (snd p)) (c_pair a b).
Proof. intros Ha Hb [u v] r [Hu Hv]. cbn [c_pair cd ce fst snd]. rewrite <- app_assoc, Ha by exact Hu. rewrite Hb by exact Hv. reflexivity. Qed.
Definition c_opt {A} (c : codec A) : codec (option A) :=
  Codec (fun o => match o with Some a => z2b 1 :: ce c a | None => [z2b 0] end)
        (fun b => match b with [] => None | x :: b' => if b2z x =? 0 then Some (None, b') else match cd c b' with Some (a, r) => Some (Some a, r) | None => None end end).
Lemma g_opt {A} (c : codec A) W : good W c -> good (wf_opt W) (c_opt c).
Proof. intros H [a|] r Wa; cbn [c_opt cd ce app]; [|reflexivity]. change (b2z (z2b 1) =? 0) with false. cbv iota. rewrite H by exact Wa. reflexivity. Qed.
Fixpoint l_dec {A} (c : codec A) (n : nat) (b : bytes) : option (list A * bytes) :=
  match n, b with
  | S n', x :: b' => if b2z x =? 0 then Some ([], b')
                     else match cd c b' with Some (a, r) => match l_dec c n' r with Some (l, r') => Some (a :: l, r') | None => None end | None => None end
  | _, _ => None
  end.
Fixpoint l_enc {A} (c : codec A) (l : list A) : bytes := match l with [] => [z2b 0] | a :: l' => z2b 1 :: ce c a ++ l_enc c l' end.
Definition c_list {A} (c : codec A) : codec (list A) := Codec (l_enc c) (fun b => l_dec c (S (length b)) b).
Lemma g_list {A} (c : codec A) W : good W c -> good (Forall W) (c_list c).
Proof.
  intros H l r F. cbn [c_list cd ce].
  assert (G : forall n, (length (l_enc c l ++ r) < n)%nat -> l_dec c n (l_enc c l ++ r) = Some (l, r)).
  { revert F. induction l as [|a l IH]; intros F n L; destruct n as [|n]; try lia; cbn [l_enc app l_dec] in *.
    - reflexivity.
    - inversion F; subst. change (b2z (z2b 1) =? 0) with false. cbv iota. rewrite <- app_assoc in L |- *. rewrite H by assumption. rewrite IH; [reflexivity | assumption |].
      cbn [length] in L. rewrite app_length in L. lia. }
  apply G. lia.
Qed.
Definition c_map {A} (c : codec A) : codec (smap A) :=
  c_via entries (fun l => Some (fold_left (fun m p => set m (fst p) (snd p)) l empty)) (c_list (c_pair c_bytes c)).
Lemma g_map {A} (c : codec A) W : good W c -> good (fun m => forall k a, get m k = Some a -> W a) (c_map c).
Proof.
  intros H. eapply g_via; [apply g_list, g_pair; [apply g_bytes | exact H]|]. intros m F. split.
  - apply Forall_forall. intros [k a] I. cbn [fst snd]. split; [exact Logic.I|]. apply get_in in I. exact (F _ _ I).
  - f_equal. apply smap_ext. intros k. pose proof (get_fold_set (fun a : A => a) k (entries m) empty (keys_nodup m)) as X. cbv beta in X.
    rewrite X, <- (find_entries m k), get_empty. destruct (find _ (entries m)); reflexivity.
Qed.
Definition c_bool : codec bool := Codec (fun b : bool => [z2b (if b then 1 else 0)]) (fun x => match x with [] => None | y :: r => Some (negb (b2z y =? 0), r) end).
Lemma g_bool : good (fun _ => True) c_bool.
Proof. intros [|] r _; reflexivity. Qed.
Definition ss_num (s : sstate) : Z := match s with Absent => 0 | DeleteOnly => 1 | WriteOnly => 2 | WriteReorganization => 3 | DeleteReorganization => 4 | Public => 5 end.
Definition num_ss (z : Z) : option sstate :=
  if z =? 0 then Some Absent else if z =? 1 then Some DeleteOnly else if z =? 2 then Some WriteOnly else if z =? 3 then Some WriteReorganization
  else if z =? 4 then Some DeleteReorganization else Some Public.
Definition c_ss : codec sstate := c_via ss_num num_ss c_int.
Lemma g_ss : good (fun _ => True) c_ss.
Proof. eapply g_via; [apply g_int|]. intros a _. split; [unfold is_i64; rewrite two63_val; destruct a; cbn; lia | destruct a; reflexivity]. Qed.
Definition js_num (s : jstate) : Z := match s with JNone => 0 | JRunning => 1 | JRollingback => 2 | JRollbackDone => 3 | JDone => 4 | JCancelled => 5 | JSynced => 6 | JCancelling => 7 end.
Definition num_js (z : Z) : option jstate :=
  if z =? 0 then Some JNone else if z =? 1 then Some JRunning else if z =? 2 then Some JRollingback else if z =? 3 then Some JRollbackDone
  else if z =? 4 then Some JDone else if z =? 5 then Some JCancelled else if z =? 6 then Some JSynced else Some JCancelling.
Definition c_js : codec jstate := c_via js_num num_js c_int.
Lemma g_js : good (fun _ => True) c_js.
Proof. eapply g_via; [apply g_int|]. intros a _. split; [unfold is_i64; rewrite two63_val; destruct a; cbn; lia | destruct a; reflexivity]. Qed.

Definition c_red : codec IndexInfoRedundant :=
  c_via (fun r => (ir_collection r, (ir_db r, ir_cid r))) (fun p => Some (IIR (fst p) (fst (snd p)) (snd (snd p)))) (c_pair c_bytes (c_pair c_bytes c_int)).
Lemma g_red : good wf_red c_red.
Proof. eapply g_via; [apply g_pair; [apply g_bytes | apply g_pair; [apply g_bytes | apply g_int]]|]. intros [a b c] (_ & _ & H). cbn [fst snd ir_collection ir_db ir_cid] in *. split; [|reflexivity]. split; [exact Logic.I|]. split; [exact Logic.I | exact H]. Qed.
Definition c_ii : codec IndexInfo :=
  c_via (fun i => (ii_id i, (ii_name i, (ii_red i, (ii_cols i, (ii_unique i, ii_state i))))))
        (fun p => let '(a, (b, (c, (d, (e, f))))) := p in Some (II a b c d e f))
        (c_pair c_int (c_pair c_bytes (c_pair (c_opt c_red) (c_pair (c_list c_bytes) (c_pair c_bool c_ss))))).
Lemma all_true {A} (l : list A) : Forall (fun _ => True) l.
Proof. induction l; constructor; auto. Qed.
Lemma g_ii : good wf_ii c_ii.
Proof.
  eapply g_via; [apply g_pair; [apply g_int | apply g_pair; [apply g_bytes | apply g_pair; [apply g_opt, g_red | apply g_pair; [apply g_list, g_bytes | apply g_pair; [apply g_bool | apply g_ss]]]]]|].
  intros [a b c d e f] (H1 & _ & H2 & _). cbn [fst snd ii_id ii_name ii_red ii_cols ii_unique ii_state] in *. split; [|reflexivity].
  split; [exact H1|]. split; [exact Logic.I|]. split; [exact H2|]. split; [apply all_true|]. split; exact Logic.I.
Qed.
Lemma wf_map_v {A} (W : A -> Prop) o : wf_map W o -> wf_opt (fun m => forall k a, get m k = Some a -> W a) o.
Proof. destruct o as [m|]; cbn; [|auto]. intros H k a G. exact (proj2 (H k a G)). Qed.
Definition c_ci : codec CollectionInfo :=
  c_via (fun i => (ci_id i, (ci_name i, (ci_indices i, (ci_order i, ci_state i)))))
        (fun p => let '(a, (b, (c, (d, e)))) := p in Some (CI a b c d e))
        (c_pair c_int (c_pair c_bytes (c_pair (c_opt (c_map c_ii)) (c_pair (c_list c_bytes) c_ss)))).
Lemma g_ci : good wf_ci c_ci.
Proof.
  eapply g_via; [apply g_pair; [apply g_int | apply g_pair; [apply g_bytes | apply g_pair; [apply g_opt, g_map, g_ii | apply g_pair; [apply g_list, g_bytes | apply g_ss]]]]|].
  intros [a b c d e] (H1 & _ & H2 & _). cbn [fst snd ci_id ci_name ci_indices ci_order ci_state] in *.
  split; [|reflexivity]. split; [exact H1|]. split; [exact Logic.I|]. split; [apply wf_map_v; exact H2|]. split; [apply all_true | exact Logic.I].
Qed.
Definition c_di : codec DBInfo :=
  c_via (fun i => (di_id i, (di_name i, (di_colls i, (di_order i, di_state i)))))
        (fun p => let '(a, (b, (c, (d, e)))) := p in Some (DI a b c d e))
        (c_pair c_int (c_pair c_bytes (c_pair (c_opt (c_map c_ci)) (c_pair (c_list c_bytes) c_ss)))).
Lemma g_di : good wf_di c_di.
Proof.
  eapply g_via; [apply g_pair; [apply g_int | apply g_pair; [apply g_bytes | apply g_pair; [apply g_opt, g_map, g_ci | apply g_pair; [apply g_list, g_bytes | apply g_ss]]]]|].
  intros [a b c d e] (H1 & _ & H2 & _). cbn [fst snd di_id di_name di_colls di_order di_state] in *.
  split; [|reflexivity]. split; [exact H1|]. split; [exact Logic.I|]. split; [apply wf_map_v; exact H2|]. split; [apply all_true | exact Logic.I].
Qed.
Definition c_arg : codec jarg :=
  c_via (fun a => (match a with ArgDB d => Some d | _ => None end, match a with ArgIndex i => Some i | _ => None end))
        (fun p => Some (match p with (Some d, _) => ArgDB d | (None, Some i) => ArgIndex i | (None, None) => ArgNone end))
        (c_pair (c_opt c_di) (c_opt c_ii)).
Lemma g_arg : good wf_arg c_arg.
Proof.
  eapply g_via; [apply g_pair; [apply g_opt, g_di | apply g_opt, g_ii]|].
  intros [d|i|] H; cbn in *; split; auto.
Qed.
Lemma u8_i64 z : is_u8 z -> is_i64 z.
Proof. unfold is_u8, is_i64. rewrite two63_val. lia. Qed.
Definition c_job : codec Job :=
  c_via (fun j => (j_id j, (j_type j, (j_state j, (j_err j, (j_errcount j, (j_arg j, j_sstate j)))))))
        (fun p => let '(a, (b, (c, (d, (e, (f, g)))))) := p in if d : bool then None else Some (MkJob a b c d e f g))
        (c_pair c_int (c_pair c_int (c_pair c_js (c_pair c_bool (c_pair c_int (c_pair c_arg c_ss)))))).
Lemma dec_job j r : wf_job j -> cd c_job (ce c_job j ++ r) = if j_err j then None else Some (j, r).
Proof.
  intros (H1 & H2 & H3 & H4). unfold c_job, c_via. cbn [cd ce].
  set (c := c_pair c_int _). assert (G : good _ c) by (subst c; apply g_pair; [apply g_int | apply g_pair; [apply g_int | apply g_pair; [apply g_js | apply g_pair; [apply g_bool | apply g_pair; [apply g_int | apply g_pair; [apply g_arg | apply g_ss]]]]]]).
  rewrite G.
  - destruct j as [a b c1 d e f g]. cbn [j_id j_type j_state j_err j_errcount j_arg j_sstate]. destruct d; reflexivity.
  - cbn [fst snd]. split; [exact H1|]. split; [apply u8_i64; exact H2|]. split; [exact Logic.I|]. split; [exact Logic.I|]. split; [exact H3|]. split; [exact H4 | exact Logic.I].
Qed.
Definition c_sd : codec SchemaDiff :=
  c_via (fun d => (sd_version d, (sd_type d, (sd_cids d, sd_arg d)))) (fun p => let '(a, (b, (c, d))) := p in Some (SD a b c d))
        (c_pair c_int (c_pair c_int (c_pair (c_list c_int) c_arg))).
Lemma g_sd : good wf_sd c_sd.
Proof.
  eapply g_via; [apply g_pair; [apply g_int | apply g_pair; [apply g_int | apply g_pair; [apply g_list, g_int | apply g_arg]]]|].
  intros [a b c d] (H1 & H2 & H3 & H4). cbn [fst snd sd_version sd_type sd_cids sd_arg] in *. split; [|reflexivity]. split; [exact H1|]. split; [apply u8_i64; exact H2|]. split; assumption.
Qed.
Definition top {A} (c : codec A) : jcodec A := JC (fun a => z2b 123 :: ce c a) (fun b => match b with [] => None | _ :: b' => match cd c b' with Some (a, _) => Some a | None => None end end).
Lemma top_ok {A} (c : codec A) W : good W c -> forall a, W a -> jdec (top c) (jenc (top c) a) = Some a.
Proof. intros G a Wa. cbn [top jdec jenc]. rewrite <- (app_nil_r (ce c a)), G by exact Wa. reflexivity. Qed.
Definition demo_json : json := JSON (top c_di) (top c_ci) (top c_job) (top c_sd).
Theorem demo_json_ok : json_ok demo_json.
Proof.
  split; try discriminate; try reflexivity.
  - apply (top_ok c_di), g_di.
  - apply (top_ok c_ci), g_ci.
  - intros j W. cbn [demo_json jjob top jdec jenc]. rewrite <- (app_nil_r (ce c_job j)), dec_job by exact W. destruct (j_err j); reflexivity.
  - apply (top_ok c_sd), g_sd.
Qed.
