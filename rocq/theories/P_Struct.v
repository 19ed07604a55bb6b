(** Properties C13-C23: counters and the string / hash / list structures. *)
From Verif Require Import Bytes SMap Provider ProviderProofs World Memcmp MemcmpProofs Numeric KvUtil KeyModel Struct
  StructProofs StructHash StructList UtilTxn StructRef.

(** an update transaction without size limits: open, writable *)
Definition fresh_update (t : txn) : Prop := t_open t = true /\ t_upd t = true /\ t_lim t = [].
Lemma fresh_okt t : fresh_update t -> okt true t.
Proof. intros (H1 & H2 & H3). split; [exact H1|]. intros _. auto. Qed.

(** * C13: counters *)
(** [cop_run] (KvUtil.v) is the reference: a table of integers, set and wrapping addition. Started
    on counters holding table [f], any sequence of increments, sets and reads returns what the table
    says, leaves exactly the decimal texts of the final table, and changes no other key. *)
Theorem C13_counters : forall (D : bytes -> Prop) (f : table) (l : list cop) (t : txn),
  fresh_update t -> holds D (view t) f ->
  Forall (fun o => D (cop_key o) /\ good_key (cop_key o) /\ is_i64 (cop_arg o)) l ->
  let r := collect_run (map cop_exec l) t in
  snd r = Ok (snd (cop_run f l)) /\
  holds D (view (fst r)) (fst (cop_run f l)) /\
  (forall k, ~ D k -> get (view (fst r)) k = get (view t) k).
Proof.
  intros D f l t O H F. destruct (cop_run_sim D l (view t) f F H) as (M' & S & H' & Fr).
  destruct (S t (fresh_okt t O) eq_refl) as (t' & E & _ & V & _). cbv zeta. rewrite E. cbn [fst snd]. rewrite V. auto.
Qed.
(** the value of a counter after a sequence: last set value plus the later increments, mod 2^64 *)
Fixpoint counter_value (k : bytes) (acc : option Z) (l : list cop) : option Z :=
  match l with
  | [] => acc
  | CSetI k' v :: l' => counter_value k (if bytes_eqb k k' then Some v else acc) l'
  | CInc k' s :: l' => counter_value k (if bytes_eqb k k' then Some (match acc with Some n => to_i64 (n + s) | None => s end) else acc) l'
  | CGetI _ :: l' => counter_value k acc l'
  end.
Theorem C13_last_set_plus_increments : forall f l k, fst (cop_run f l) k = counter_value k (f k) l.
Proof.
  intros f l k. revert f. induction l as [|o l IH]; intros f; [reflexivity|]. cbn [cop_run counter_value].
  destruct o as [k' s|k' v|k']; cbn [cop_ref].
  - specialize (IH (tput f k' (match f k' with Some m => to_i64 (m + s) | None => s end))).
    destruct (cop_run _ l) as [f2 rs]. cbn [fst] in *. rewrite IH. unfold tput. destruct (bytes_eqb k k') eqn:E; [|reflexivity].
    apply bytes_eqb_eq in E. subst. reflexivity.
  - specialize (IH (tput f k' v)). destruct (cop_run _ l) as [f2 rs]. cbn [fst] in *. rewrite IH. reflexivity.
  - specialize (IH f). destruct (cop_run _ l) as [f2 rs]. cbn [fst] in *. rewrite IH. destruct (f k'); reflexivity.
Qed.
(** a value that is not a 64-bit decimal number: reading and incrementing fail and change nothing *)
Theorem C13_failing_calls_change_nothing : forall (t : txn) k v step e, fresh_update t -> good_key k ->
  get (view t) k = Some e -> e_val e = v -> as_int v = None ->
  snd (IncInt64 k step t) = Err EDecode /\ view (fst (IncInt64 k step t)) = view t /\
  snd (GetInt64 k t) = Err EDecode /\ view (fst (GetInt64 k t)) = view t.
Proof.
  intros t k v step e O G E1 E2 A. apply fresh_okt in O.
  destruct (IncInt64_spec k step (view t) G t O eq_refl) as (t1 & X1 & _ & V1 & _).
  destruct (GetInt64_spec true k (view t) (good_key_nonempty k G) t O eq_refl) as (t2 & X2 & _ & V2 & _).
  rewrite E1 in *. cbn [option_map inc_res] in *. rewrite E2, A in *. rewrite X1, X2. cbn [fst snd]. auto.
Qed.
Example C13_example :
  let t := new_txn (db_init 0 false) true [] in
  snd (collect_run (map cop_exec [CInc (str "a") 5; CInc (str "a") (-7); CSetI (str "b") (two63 - 1); CInc (str "b") 1; CGetI (str "a"); CGetI (str "c")]) t)
  = Ok [Ok 5; Ok (-2); Ok (two63 - 1); Ok (- two63); Ok (-2); Err ErrKeyNotFound].
Proof. vm_compute. reflexivity. Qed.
Example C13_hypotheses :
  let D := fun k => k = str "a" in
  let t := new_txn (db_init 0 false) true [] in
  fresh_update t /\ holds D (view t) (fun _ => None) /\
  Forall (fun o => D (cop_key o) /\ good_key (cop_key o) /\ is_i64 (cop_arg o)) [CInc (str "a") 5; CGetI (str "a")].
Proof.
  split; [repeat split|]. split; [intros k _; reflexivity|].
  repeat constructor; try reflexivity; unfold is_i64; rewrite two63_val; cbn; lia.
Qed.

(** * C14: key spaces *)
Theorem C14_keys_disjoint : forall P a b, valid a -> valid b -> ek P a = ek P b -> a = b.
Proof. exact ek_inj. Qed.
Theorem C14_hash_prefix_covers_exactly_its_fields : forall P k d,
  has_prefix (ek P d) (hashDataKeyPrefix P k) = true <-> exists f, d = KHD k f.
Proof. exact hdp_prefix. Qed.
(** all element keys of list k, and only those, start with prefix ++ k ++ 'l' *)
Theorem C14_list_prefix_covers_exactly_its_elements : forall P k d,
  has_prefix (ek P d) (EncodeUint8 (EncodeBytes P k) ListData) = true <-> exists i, d = KLD k i.
Proof.
  intros P k d. assert (F : EncodeUint8 (EncodeBytes P k) ListData = P ++ enc k ++ [ListData]) by (unfold EncodeUint8; rewrite EncodeBytes_app, <- app_assoc; reflexivity).
  rewrite F, ek_form, has_prefix_app_iff. split.
  - rewrite has_prefix_spec. intros [s H]. rewrite <- app_assoc in H. apply enc_inj_app in H. destruct H as [Hk H].
    pose proof (f_equal (fun l => match l with x :: _ => b2z x | [] => 0 end) H) as Ht; cbv beta iota in Ht.
    destruct d; cbn [kkey ktag] in *; try (vm_compute in Ht; discriminate Ht). subst. eauto.
  - intros [i ->]. cbn [kkey ktag krest].
    replace (enc k ++ ListData :: EncodeInt64 [] i) with ((enc k ++ [ListData]) ++ EncodeInt64 [] i) by (rewrite <- app_assoc; reflexivity).
    apply has_prefix_app.
Qed.
(** fields are stored in field order *)
Theorem C14_fields_in_order : forall P k f f', bytes_cmp (ek P (KHD k f)) (ek P (KHD k f')) = bytes_cmp f f'.
Proof. exact hd_cmp. Qed.
Example C14_example : ek (str "p") (KHD (str "k") []) <> ek (str "p") (KHD (str "k") (str "x")) /\ valid (KLD (str "k") (-1)).
Proof. split; [discriminate | unfold valid, is_i64; rewrite two63_val; lia]. Qed.

(** * Histories *)
(** initially nothing is stored under the structure prefix *)
Definition no_structures (P : bytes) (d : db) : Prop := forall key, has_prefix key P = true -> get (dview d) key = None.
(** the operations of all committed transactions, in order *)
Fixpoint committed (h : list batch) : list sop :=
  match h with [] => [] | BCommit l :: h' => l ++ committed h' | _ :: h' => committed h' end.
(** what each operation does to one string, one hash, one list *)
Definition str_upd (k : bytes) (v : option bytes) (o : sop) : option bytes :=
  match o with
  | OSet k' x => if bytes_eqb k k' then Some x else v
  | OClear k' => if bytes_eqb k k' then None else v
  | OSetInt k' n => if bytes_eqb k k' then Some (Encode2Human n) else v
  | OInc k' s => if bytes_eqb k k' then match v with
                   | None => Some (Encode2Human s)
                   | Some x => match as_int x with Some n => Some (Encode2Human (to_i64 (n + s))) | None => v end
                   end else v
  | _ => v
  end.
Definition hash_upd (k : bytes) (h : smap bytes) (o : sop) : smap bytes :=
  match o with
  | OHSet k' f v => if bytes_eqb k k' then (match get h f, v with None, [] => h | _, _ => set h f v end) else h
  | OHSetInt k' f n => if bytes_eqb k k' then set h f (Encode2Human n) else h
  | OHInc k' f s => if bytes_eqb k k' then match get h f with
                      | None | Some [] => set h f (Encode2Human s)
                      | Some x => match as_int x with Some n => set h f (Encode2Human (to_i64 (n + s))) | None => h end
                      end else h
  | OHDel k' fs => if bytes_eqb k k' then fold_left del fs h else h
  | OHClear k' => if bytes_eqb k k' then empty else h
  | _ => h
  end.
Definition list_upd (k : bytes) (l : list bytes) (o : sop) : list bytes :=
  match o with
  | OLPush k' vs => if bytes_eqb k k' then fold_left (fun l v => v :: l) vs l else l
  | ORPush k' vs => if bytes_eqb k k' then l ++ vs else l
  | OLPop k' => if bytes_eqb k k' then tl l else l
  | ORPop k' => if bytes_eqb k k' then removelast l else l
  | OLSet k' i v => if bytes_eqb k k' then lset_list l i v else l
  | OLClear k' => if bytes_eqb k k' then [] else l
  | _ => l
  end.
Definition str_after (k : bytes) (h : list batch) : option bytes := fold_left (str_upd k) (committed h) None.
Definition hash_after (k : bytes) (h : list batch) : smap bytes := fold_left (hash_upd k) (committed h) empty.
Definition list_after (k : bytes) (h : list batch) : list bytes := fold_left (list_upd k) (committed h) [].

Lemma str_upd_ok S o k : get (s_str (snd (sref S o))) k = str_upd k (get (s_str S) k) o.
Proof.
  destruct o; cbn [sref snd str_upd s_str put_str put_hash put_list]; try reflexivity.
  - rewrite get_set. reflexivity.
  - rewrite get_del. reflexivity.
  - rewrite get_set. reflexivity.
  - destruct (bytes_eqb k k0) eqn:E.
    + apply bytes_eqb_eq in E. subst k0. unfold inc_res. destruct (get (s_str S) k) as [x|] eqn:G; [destruct (as_int x)|];
        cbn [snd put_str s_str]; rewrite ?get_set_eq; congruence.
    + destruct (inc_res (get (s_str S) k0) step); cbn [snd put_str s_str]; rewrite ?get_set, ?E; reflexivity.
  - destruct (hinc_res _ _); reflexivity.
  - destruct (s_list S k0); reflexivity.
  - destruct (rev (s_list S k0)); reflexivity.
Qed.
Lemma hash_upd_ok S o k : s_hash (snd (sref S o)) k = hash_upd k (s_hash S k) o.
Proof.
  destruct o; cbn [sref snd hash_upd s_hash put_str put_hash put_list]; try reflexivity.
  - destruct (inc_res _ _); reflexivity.
  - destruct (bytes_eqb k k0) eqn:E; [|reflexivity]. apply bytes_eqb_eq in E. subst k0. unfold hput. reflexivity.
  - destruct (bytes_eqb k k0) eqn:E.
    + apply bytes_eqb_eq in E. subst k0. unfold hinc_res. destruct (get (s_hash S k) f) as [[|c x]|] eqn:G; [| destruct (as_int (c :: x)) |];
        cbn [snd put_hash s_hash]; rewrite ?bytes_eqb_refl; reflexivity.
    + destruct (hinc_res _ _); cbn [snd put_hash s_hash]; rewrite ?E; reflexivity.
  - destruct (bytes_eqb k k0) eqn:E; [|reflexivity]. apply bytes_eqb_eq in E. subst k0. reflexivity.
  - destruct (bytes_eqb k k0) eqn:E; [|reflexivity]. apply bytes_eqb_eq in E. subst k0. reflexivity.
  - destruct (s_list S k0); reflexivity.
  - destruct (rev (s_list S k0)); reflexivity.
Qed.
Lemma push_left_fold (vs : list bytes) : forall l, fold_left (fun l v => v :: l) vs l = rev vs ++ l.
Proof. induction vs as [|v vs IH]; intros l; [reflexivity|]. cbn [fold_left rev]. rewrite IH, <- app_assoc. reflexivity. Qed.
Lemma removelast_rev (l : list bytes) : removelast l = match rev l with [] => [] | _ :: r => rev r end.
Proof.
  destruct (rev l) as [|x r] eqn:E; apply (f_equal (@rev bytes)) in E; rewrite rev_involutive in E; subst l; [reflexivity|].
  cbn [rev]. apply removelast_last.
Qed.
Lemma list_upd_ok S o k : s_list (snd (sref S o)) k = list_upd k (s_list S k) o.
Proof.
  destruct o; cbn [sref snd list_upd s_list put_str put_hash put_list]; try reflexivity.
  - destruct (inc_res _ _); reflexivity.
  - destruct (hinc_res _ _); reflexivity.
  - destruct (bytes_eqb k k0) eqn:E; [|reflexivity]. apply bytes_eqb_eq in E. subst k0. rewrite push_left_fold. reflexivity.
  - destruct (bytes_eqb k k0) eqn:E; [|reflexivity]. apply bytes_eqb_eq in E. subst k0. reflexivity.
  - destruct (bytes_eqb k k0) eqn:E.
    + apply bytes_eqb_eq in E. subst k0. destruct (s_list S k) eqn:G; cbn [snd put_list s_list]; rewrite ?bytes_eqb_refl; [exact G | reflexivity].
    + destruct (s_list S k0); cbn [snd put_list s_list]; rewrite ?E; reflexivity.
  - destruct (bytes_eqb k k0) eqn:E.
    + apply bytes_eqb_eq in E. subst k0. rewrite removelast_rev. destruct (rev (s_list S k)) as [|x r] eqn:G; cbn [snd put_list s_list].
      * apply (f_equal (@rev bytes)) in G. rewrite rev_involutive in G. exact G.
      * rewrite bytes_eqb_refl. reflexivity.
    + destruct (rev (s_list S k0)); cbn [snd put_list s_list]; rewrite ?E; reflexivity.
  - destruct (bytes_eqb k k0) eqn:E; [|reflexivity]. apply bytes_eqb_eq in E. subst k0. reflexivity.
Qed.
Lemma run_after l : forall S k,
  get (s_str (fst (sref_run S l))) k = fold_left (str_upd k) l (get (s_str S) k) /\
  s_hash (fst (sref_run S l)) k = fold_left (hash_upd k) l (s_hash S k) /\
  s_list (fst (sref_run S l)) k = fold_left (list_upd k) l (s_list S k).
Proof.
  induction l as [|o l IH]; intros S k; [auto|]. cbn [sref_run fold_left].
  rewrite <- str_upd_ok, <- hash_upd_ok, <- list_upd_ok. destruct (sref S o) as [r S1]. cbn [snd]. specialize (IH S1 k).
  destruct (sref_run S1 l) as [S2 rs]. exact IH.
Qed.
Lemma hist_after h : forall S k,
  get (s_str (fst (href S h))) k = fold_left (str_upd k) (committed h) (get (s_str S) k) /\
  s_hash (fst (href S h)) k = fold_left (hash_upd k) (committed h) (s_hash S k) /\
  s_list (fst (href S h)) k = fold_left (list_upd k) (committed h) (s_list S k).
Proof.
  induction h as [|b h IH]; intros S k; [cbn; auto|]. cbn [href committed]. destruct b as [l|l|l]; cbn [bref].
  - pose proof (run_after l S k) as (A1 & A2 & A3). rewrite !fold_left_app. destruct (sref_run S l) as [S1 r]. cbn [fst] in *.
    rewrite <- A1, <- A2, <- A3. specialize (IH S1 k). destruct (href S1 h). exact IH.
  - specialize (IH S k). destruct (href S h). exact IH.
  - specialize (IH S k). destruct (href S h). exact IH.
Qed.
(** what a read-only transaction sees after a history *)
Definition observe (P : bytes) (d : db) (h : list batch) (ops : list sop) : result (list (result sval)) :=
  run_view (fst (hexec P d h)) (collect_run (map (sexec P) ops)).
Lemma observe_ref P d h ops : good_prefix P -> db_ok d -> no_structures P d -> Forall batch_ok h -> hcost h < two63 ->
  Forall (fun o => is_read o = true /\ sok o) ops ->
  observe P d h ops = Ok (snd (sref_run (fst (href s_empty h)) ops)).
Proof.
  intros G K N F L B. destruct (hist_sim P G h 0 d s_empty K (rep_empty P _ N) F ltac:(lia)) as (_ & R & _ & _).
  destruct (read_run_sim P ops (fst (href s_empty h)) B) as [Sp _].
  unfold observe. eapply run_view_spec. apply (Sp false (0 + hcost h)); [exact R | lia].
Qed.
Section Histories.
Context (P : bytes) (d : db) (h : list batch).
Context (HP : good_prefix P) (HD : db_ok d) (HN : no_structures P d) (HF : Forall batch_ok h) (HC : hcost h < two63).

(** * C15: in any history of transactions every result of every operation is that of the plain data
    (maps of strings and hashes, lists); in particular strings are a map *)
Theorem C15_every_result_is_the_references : snd (hexec P d h) = snd (href s_empty h).
Proof. destruct (hist_sim P HP h 0 d s_empty HD (rep_empty P _ HN) HF ltac:(lia)) as (E & _). exact E. Qed.
Theorem C15_strings_are_a_map : forall k,
  observe P d h [OGet k; OGetInt k] =
  Ok [ match str_after k h with Some v => Ok (VBytes v) | None => Err ErrKeyNotFound end;
       match str_after k h with
       | None => Err ErrKeyNotFound
       | Some v => match as_int v with Some n => Ok (VInt n) | None => Err EDecode end
       end ].
Proof.
  intros k. rewrite observe_ref; try assumption; [|repeat constructor]. destruct (hist_after h s_empty k) as (A & _ & _).
  set (S := fst (href s_empty h)) in *. cbn [sref_run sref snd]. rewrite A. fold (str_after k h).
  change (fold_left (str_upd k) (committed h) (get (s_str s_empty) k)) with (str_after k h).
  destruct (str_after k h) as [v|]; cbn; [destruct (as_int v)|]; reflexivity.
Qed.

(** * C16: hashes are a map of maps, ordered by field *)
Theorem C16_hashes_are_maps : forall k f n,
  observe P d h [OHGet k f; OHGetAll k; OHKeys k; OHGetN k n] =
  Ok [ match get (hash_after k h) f with Some v => Ok (VBytes v) | None => Err ErrKeyNotFound end;
       Ok (VPairs (entries (hash_after k h)));
       Ok (VList (map fst (entries (hash_after k h))));
       Ok (VPairs (firstn (Z.to_nat n) (entries (hash_after k h)))) ].
Proof.
  intros k f n. rewrite observe_ref; try assumption; [|repeat constructor]. destruct (hist_after h s_empty k) as (_ & A & _).
  set (S := fst (href s_empty h)) in *. cbn [sref_run sref snd]. rewrite A.
  change (fold_left (hash_upd k) (committed h) (s_hash s_empty k)) with (hash_after k h).
  destruct (get (hash_after k h) f); reflexivity.
Qed.

(** * C17: a stored field can be read back - for a non-empty value, or a field that exists *)
Theorem C17_HSet_then_HGet_partial : forall k f v,
  v <> [] \/ get (hash_after k h) f <> None ->
  hcost h + 1 < two63 ->
  observe P d (h ++ [BCommit [OHSet k f v]]) [OHGet k f] = Ok [Ok (VBytes v)].
Proof.
  intros k f v Hv HC'.
  assert (HF' : Forall batch_ok (h ++ [BCommit [OHSet k f v]])) by (apply Forall_app; split; [exact HF | repeat constructor]).
  assert (HC2 : hcost (h ++ [BCommit [OHSet k f v]]) < two63).
  { assert (X : forall a b, hcost (a ++ b) = hcost a + hcost b) by (intros a b; induction a as [|x a IH]; [reflexivity | unfold hcost in *; cbn [app fold_right]; lia]).
    rewrite X. unfold hcost at 2. cbn. lia. }
  rewrite observe_ref; try assumption; [|repeat constructor].
  destruct (hist_after (h ++ [BCommit [OHSet k f v]]) s_empty k) as (_ & A & _).
  set (S := fst (href s_empty (h ++ [BCommit [OHSet k f v]]))) in *. cbn [sref_run sref snd]. rewrite A.
  assert (Cm : committed (h ++ [BCommit [OHSet k f v]]) = committed h ++ [OHSet k f v]).
  { clear. induction h as [|b h' IH]; [reflexivity|]. cbn [app committed]. destruct b; rewrite IH; [rewrite app_assoc|..]; reflexivity. }
  rewrite Cm, fold_left_app. cbn [fold_left]. unfold hash_upd at 1. rewrite bytes_eqb_refl.
  change (fold_left (hash_upd k) (committed h) (s_hash s_empty k)) with (hash_after k h).
  assert (E : (match get (hash_after k h) f, v with None, [] => hash_after k h | _, _ => set (hash_after k h) f v end) = set (hash_after k h) f v).
  { destruct (get (hash_after k h) f) eqn:G; [reflexivity|]. destruct v; [destruct Hv; congruence | reflexivity]. }
  rewrite E, get_set_eq. reflexivity.
Qed.

(** * C18: HLen and the bookkeeping key *)
Theorem C18_HLen_counts_fields : forall k,
  observe P d h [OHLen k] = Ok [Ok (VInt (Z.of_nat (length (entries (hash_after k h)))))].
Proof.
  intros k. rewrite observe_ref; try assumption; [|repeat constructor]. destruct (hist_after h s_empty k) as (_ & A & _).
  set (S := fst (href s_empty h)) in *. cbn [sref_run sref snd]. rewrite A. reflexivity.
Qed.
Theorem C18_bookkeeping_key_iff_nonempty : forall k,
  get (dview (fst (hexec P d h))) (encodeHashMetaKey P k) <> None <-> hash_after k h <> empty.
Proof.
  intros k. destruct (hist_sim P HP h 0 d s_empty HD (rep_empty P _ HN) HF ltac:(lia)) as (_ & [(Ls & W & _) _ _] & _ & _).
  change (encodeHashMetaKey P k) with (ek P (KHM k)). rewrite (W (KHM k) I). cbn [want]. destruct (hist_after h s_empty k) as (_ & A & _). rewrite A.
  change (fold_left (hash_upd k) (committed h) (s_hash s_empty k)) with (hash_after k h).
  destruct (Z.eqb_spec (hsize (hash_after k h)) 0) as [E|E]; rewrite hsize_zero in E; split; congruence.
Qed.

(** * C19: descending reads *)
Theorem C19_descending_and_ascending : forall k n,
  observe P d h [OHGetNDesc k n; OHGetN k n; OHKeys k] =
  Ok [ Ok (VPairs (firstn (Z.to_nat n) (rev (entries (hash_after k h)))));
       Ok (VPairs (firstn (Z.to_nat n) (entries (hash_after k h))));
       Ok (VList (map fst (entries (hash_after k h)))) ].
Proof.
  intros k n. rewrite observe_ref; try assumption; [|repeat constructor]. destruct (hist_after h s_empty k) as (_ & A & _).
  set (S := fst (href s_empty h)) in *. cbn [sref_run sref snd]. rewrite A. reflexivity.
Qed.

(** * C20: hash counters, as observed inside one transaction and afterwards *)
Theorem C20_hash_counters : forall k f step, is_i64 step -> hcost h + 1 < two63 ->
  let old := match get (hash_after k h) f with None | Some [] => Some 0 | Some v => as_int v end in
  snd (bexec P (fst (hexec P d h)) (BCommit [OHInc k f step; OHGetInt k f])) =
  match old with
  | Some n => [Ok (VInt (to_i64 (n + step))); Ok (VInt (to_i64 (n + step)))]
  | None => [Err EDecode; Err EDecode]
  end.
Proof.
  intros k f step Hs HC' old.
  destruct (hist_sim P HP h 0 d s_empty HD (rep_empty P _ HN) HF ltac:(lia)) as (_ & R & _ & K).
  assert (B : Forall batch_ok [BCommit [OHInc k f step; OHGetInt k f]]) by (constructor; [|constructor]; constructor; [exact Hs | repeat constructor]).
  destruct (hist_sim P HP [BCommit [OHInc k f step; OHGetInt k f]] _ _ _ K R B) as (E & _); [cbn; lia|].
  cbn [hexec href] in E. destruct (bexec P (fst (hexec P d h)) (BCommit [OHInc k f step; OHGetInt k f])) as [d1 r1].
  destruct (bref (fst (href s_empty h)) (BCommit [OHInc k f step; OHGetInt k f])) as [S1 r2] eqn:Eb. cbn [snd] in E. inversion E. subst r1. cbn [snd].
  clear E. cbn [bref sref_run] in Eb. destruct (hist_after h s_empty k) as (_ & A & _).
  change (fold_left (hash_upd k) (committed h) (s_hash s_empty k)) with (hash_after k h) in A.
  set (S := fst (href s_empty h)) in *. cbn [sref] in Eb. rewrite A in Eb. unfold old.
  destruct (get (hash_after k h) f) as [[|c x]|] eqn:G; cbn [hinc_res] in Eb.
  - cbn [put_hash s_hash] in Eb. rewrite bytes_eqb_refl, get_set_eq in Eb. cbn [int_res rmap] in Eb.
    rewrite as_int_enc in Eb by exact Hs. inversion Eb. rewrite Z.add_0_l, to_i64_id by exact Hs. reflexivity.
  - destruct (as_int (c :: x)) as [n|] eqn:Ai.
    + cbn [put_hash s_hash] in Eb. rewrite bytes_eqb_refl, get_set_eq in Eb. cbn [int_res rmap] in Eb.
      rewrite as_int_enc in Eb by apply to_i64_range. inversion Eb. reflexivity.
    + rewrite A, G in Eb. unfold int_res in Eb. rewrite Ai in Eb. inversion Eb. reflexivity.
  - cbn [put_hash s_hash] in Eb. rewrite bytes_eqb_refl, get_set_eq in Eb. cbn [int_res rmap] in Eb.
    rewrite as_int_enc in Eb by exact Hs. inversion Eb. rewrite Z.add_0_l, to_i64_id by exact Hs. reflexivity.
Qed.

(** * C21: lists are double-ended queues *)
Theorem C21_lists_are_deques : forall k,
  observe P d h [OLLen k; OLGetAll k] =
  Ok [Ok (VInt (Z.of_nat (length (list_after k h)))); Ok (VList (rev (list_after k h)))].
Proof.
  intros k. rewrite observe_ref; try assumption; [|repeat constructor]. destruct (hist_after h s_empty k) as (_ & _ & A).
  set (S := fst (href s_empty h)) in *. cbn [sref_run sref snd]. rewrite A. reflexivity.
Qed.
(** pops return the ends, ErrKeyNotFound on an empty list *)
Theorem C21_pops_return_the_ends : forall k,
  snd (bexec P (fst (hexec P d h)) (BCommit [OLPop k])) =
    [match list_after k h with [] => Err ErrKeyNotFound | x :: _ => Ok (VBytes x) end] /\
  snd (bexec P (fst (hexec P d h)) (BCommit [ORPop k])) =
    [match rev (list_after k h) with [] => Err ErrKeyNotFound | x :: _ => Ok (VBytes x) end].
Proof.
  intros k. destruct (hist_sim P HP h 0 d s_empty HD (rep_empty P _ HN) HF ltac:(lia)) as (_ & R & _ & K).
  destruct (hist_after h s_empty k) as (_ & _ & A).
  change (fold_left (list_upd k) (committed h) (s_list s_empty k)) with (list_after k h) in A.
  split.
  - destruct (hist_sim P HP [BCommit [OLPop k]] _ _ _ K R ltac:(repeat constructor)) as (E & _); [cbn; lia|].
    cbn [hexec href bref sref_run sref] in E. rewrite A in E. destruct (bexec P (fst (hexec P d h)) (BCommit [OLPop k])) as [d1 r1].
    destruct (list_after k h); cbn [snd] in *; inversion E; reflexivity.
  - destruct (hist_sim P HP [BCommit [ORPop k]] _ _ _ K R ltac:(repeat constructor)) as (E & _); [cbn; lia|].
    cbn [hexec href bref sref_run sref] in E. rewrite A in E. destruct (bexec P (fst (hexec P d h)) (BCommit [ORPop k])) as [d1 r1].
    destruct (rev (list_after k h)); cbn [snd] in *; inversion E; reflexivity.
Qed.

(** * C22: indexing: position i from the left, or from the right when negative *)
Definition position (len i : Z) : option nat :=
  if (0 <=? i) && (i <? len) then Some (Z.to_nat i)
  else if (i <? 0) && (- len <=? i) then Some (Z.to_nat (len + i)) else None.
Lemma position_lpos len i : position len i = lpos len i.
Proof.
  unfold position, lpos. destruct (0 <=? i) eqn:E; cbn [andb].
  - rewrite E. replace (i <? 0) with false by lia. reflexivity.
  - replace (i <? 0) with true by lia. cbn [andb]. destruct (- len <=? i) eqn:E2.
    + replace ((0 <=? i + len) && (i + len <? len)) with true by lia. f_equal. f_equal. lia.
    + replace ((0 <=? i + len) && (i + len <? len)) with false by lia. reflexivity.
Qed.
Lemma lupdate_split (l : list bytes) : forall p v, (p < length l)%nat -> lupdate l p v = firstn p l ++ v :: skipn (S p) l.
Proof.
  induction l as [|x l IH]; intros [|p] v Hl; cbn [length] in Hl; try lia; [reflexivity|].
  cbn [lupdate firstn app]. rewrite IH by lia. reflexivity.
Qed.
Theorem C22_LIndex : forall k i, is_i64 i -> list_after k h <> [] ->
  observe P d h [OLIndex k i] =
  Ok [Ok (VBytes (match position (Z.of_nat (length (list_after k h))) i with
                  | Some p => nth p (list_after k h) []
                  | None => [] (* nil *) end))].
Proof.
  intros k i Hi HL. rewrite observe_ref; try assumption; [|constructor; [split; [reflexivity | exact Hi] | constructor]]. destruct (hist_after h s_empty k) as (_ & _ & A).
  change (fold_left (list_upd k) (committed h) (s_list s_empty k)) with (list_after k h) in A.
  set (S := fst (href s_empty h)) in *. cbn [sref_run sref snd]. rewrite A, position_lpos. unfold lindex_res, llen.
  destruct (list_after k h) as [|x l]; [congruence|]. destruct (lpos _ i); reflexivity.
Qed.
Theorem C22_LSet : forall k i v, is_i64 i ->
  snd (bexec P (fst (hexec P d h)) (BCommit [OLSet k i v; OLGetAll k])) =
  match position (Z.of_nat (length (list_after k h))) i with
  | Some p => [Ok VUnit; Ok (VList (rev (firstn p (list_after k h) ++ v :: skipn (S p) (list_after k h))))]
  | None => [Err ErrKeyNotFound; Ok (VList (rev (list_after k h)))]
  end.
Proof.
  intros k i v Hi. destruct (hist_sim P HP h 0 d s_empty HD (rep_empty P _ HN) HF ltac:(lia)) as (_ & R & _ & K).
  destruct (hist_after h s_empty k) as (_ & _ & A).
  change (fold_left (list_upd k) (committed h) (s_list s_empty k)) with (list_after k h) in A.
  destruct (hist_sim P HP [BCommit [OLSet k i v; OLGetAll k]] _ _ _ K R ltac:(constructor; [|constructor]; constructor; [exact Hi | repeat constructor])) as (E & _); [cbn; lia|].
  cbn [hexec href bref sref_run sref put_list s_list] in E. rewrite bytes_eqb_refl, A in E.
  destruct (bexec P (fst (hexec P d h)) _) as [d1 r1]. cbn [snd] in *. inversion E. clear E. rewrite position_lpos.
  unfold lset_res, lset_list, llen. pose proof (position_lpos (Z.of_nat (length (list_after k h))) i) as Hp.
  destruct (lpos (Z.of_nat (length (list_after k h))) i) as [p|]; [|reflexivity]. cbn [rmap vunit].
  assert (Hlt : (p < length (list_after k h))%nat).
  { unfold position in Hp. destruct ((0 <=? i) && _) eqn:E1; [inversion Hp; lia|]. destruct ((i <? 0) && _) eqn:E2; [inversion Hp; lia | discriminate]. }
  rewrite (lupdate_split _ _ v Hlt). reflexivity.
Qed.

(** * C23: non-interference *)
Inductive skindt := TString | THash | TList.
Definition subject (o : sop) : skindt * bytes :=
  match o with
  | OGet k | OSet k _ | OClear k | OGetInt k | OSetInt k _ | OInc k _ => (TString, k)
  | OHSet k _ _ | OHGet k _ | OHInc k _ _ | OHGetInt k _ | OHSetInt k _ _ | OHLen k | OHDel k _ | OHKeys k | OHGetN k _ | OHGetAll k
  | OHGetNDesc k _ | OHClear k => (THash, k)
  | OLPush k _ | ORPush k _ | OLPop k | ORPop k | OLLen k | OLGetAll k | OLIndex k _ | OLSet k _ _ | OLClear k => (TList, k)
  end.
Theorem C23_other_structures_untouched : forall o r, sok o -> is_read r = true -> sok r -> subject r <> subject o ->
  hcost h + scost o < two63 ->
  observe P d (h ++ [BCommit [o]]) [r] = observe P d h [r].
Proof.
  intros o r Ko Rr Kr NS HC'.
  assert (HF' : Forall batch_ok (h ++ [BCommit [o]])) by (apply Forall_app; split; [exact HF | repeat constructor; exact Ko]).
  assert (HC2 : hcost (h ++ [BCommit [o]]) < two63).
  { assert (X : forall a b, hcost (a ++ b) = hcost a + hcost b) by (intros a b; induction a as [|x a IH]; [reflexivity | unfold hcost in *; cbn [app fold_right]; lia]).
    rewrite X. unfold hcost at 2, bcost. cbn [fold_right batch_ops]. unfold cost. cbn [fold_right]. lia. }
  rewrite !observe_ref; try assumption; try (repeat constructor; assumption).
  assert (Cm : committed (h ++ [BCommit [o]]) = committed h ++ [o]).
  { clear. induction h as [|b h' IH]; [reflexivity|]. cbn [app committed]. destruct b; rewrite IH; [rewrite app_assoc|..]; reflexivity. }
  assert (A1 : forall k, fst (subject o) <> TString \/ snd (subject o) <> k -> get (s_str (fst (href s_empty (h ++ [BCommit [o]])))) k = get (s_str (fst (href s_empty h))) k).
  { intros k Hk. rewrite (proj1 (hist_after _ _ k)), (proj1 (hist_after h _ k)), Cm, fold_left_app. cbn [fold_left]. 
    destruct o; cbn [str_upd subject fst snd] in *; try reflexivity; (destruct (bytes_eqb k k0) eqn:E; [|reflexivity]); apply bytes_eqb_eq in E; destruct Hk; congruence. }
  assert (A2 : forall k, fst (subject o) <> THash \/ snd (subject o) <> k -> s_hash (fst (href s_empty (h ++ [BCommit [o]]))) k = s_hash (fst (href s_empty h)) k).
  { intros k Hk. rewrite (proj1 (proj2 (hist_after _ _ k))), (proj1 (proj2 (hist_after h _ k))), Cm, fold_left_app. cbn [fold_left]. 
    destruct o; cbn [hash_upd subject fst snd] in *; try reflexivity; (destruct (bytes_eqb k k0) eqn:E; [|reflexivity]); apply bytes_eqb_eq in E; destruct Hk; congruence. }
  assert (A3 : forall k, fst (subject o) <> TList \/ snd (subject o) <> k -> s_list (fst (href s_empty (h ++ [BCommit [o]]))) k = s_list (fst (href s_empty h)) k).
  { intros k Hk. rewrite (proj2 (proj2 (hist_after _ _ k))), (proj2 (proj2 (hist_after h _ k))), Cm, fold_left_app. cbn [fold_left]. 
    destruct o; cbn [list_upd subject fst snd] in *; try reflexivity; (destruct (bytes_eqb k k0) eqn:E; [|reflexivity]); apply bytes_eqb_eq in E; destruct Hk; congruence. }
  set (S1 := fst (href s_empty (h ++ [BCommit [o]]))) in *. set (S2 := fst (href s_empty h)) in *.
  assert (D : forall T k, subject r = (T, k) -> fst (subject o) <> T \/ snd (subject o) <> k).
  { intros T k E. rewrite E in NS. destruct (subject o) as [T' k']. cbn [fst snd]. destruct T, T'; try (left; discriminate); right; congruence. }
  destruct r; try discriminate; cbn [subject] in D; specialize (D _ _ eq_refl); cbn [sref_run sref snd];
    first [rewrite (A1 _ D) | rewrite (A2 _ D) | rewrite (A3 _ D)]; reflexivity.
Qed.
Theorem C23_keys_outside_the_prefix_untouched : forall key, has_prefix key P = false ->
  get (dview (fst (hexec P d h))) key = get (dview d) key.
Proof. destruct (hist_sim P HP h 0 d s_empty HD (rep_empty P _ HN) HF ltac:(lia)) as (_ & _ & O & _). exact O. Qed.
End Histories.

(** * C17: the full claim fails: HSet with an empty value reports success and stores nothing *)
Theorem C17_HSet_empty_value_refuted :
  let P := str "m" in let d := db_init 0 false in
  good_prefix P /\ db_ok d /\ no_structures P d /\
  snd (hexec P d [BCommit [OHSet (str "k") (str "f") []; OHGet (str "k") (str "f")]]) = [[Ok VUnit; Err ErrKeyNotFound]].
Proof.
  split; [discriminate|]. split; [apply db_ok_init|]. split; [intros k _; reflexivity|]. vm_compute. reflexivity.
Qed.

(** the hypotheses are met by a non-trivial history *)
Definition sample : list batch :=
  [BCommit [OSet (str "a") (str "1"); OInc (str "a") 4; OHSet (str "a") (str "f") (str "x"); OHSet (str "a") (str "g") (str "y"); OHSet (str "a") (str "f") (str "z"); OHDel (str "a") [str "q"; str "g"; str "g"]];
   BAbort [OHClear (str "a"); OClear (str "a")];
   BCommit [OHInc (str "a") (str "c") (-3); ORPush (str "a") [str "u"; str "v"]; OLPush (str "a") [str "w"; str "x"]; ORPop (str "a"); OLSet (str "a") (-1) (str "!")];
   BView [OGet (str "a"); OHGetAll (str "a"); OHGetNDesc (str "a") 1; OLGetAll (str "a"); OLIndex (str "a") 0; OHLen (str "a"); OLIndex (str "a") 7]].
Example struct_hypotheses :
  let P := str "m" in let d := db_init 0 false in
  good_prefix P /\ db_ok d /\ no_structures P d /\ Forall batch_ok sample /\ hcost sample < two63.
Proof.
  split; [discriminate|]. split; [apply db_ok_init|]. split; [intros k _; reflexivity|]. split; [|vm_compute; reflexivity].
  repeat constructor; cbn; unfold is_i64; rewrite two63_val; lia.
Qed.
Example struct_example :
  let P := str "m" in let d := db_init 0 false in
  last (snd (hexec P d sample)) [] =
  [Ok (VBytes (str "5")); Ok (VPairs [(str "c", str "-3"); (str "f", str "z")]); Ok (VPairs [(str "f", str "z")]);
   Ok (VList [str "!"; str "w"; str "x"]); Ok (VBytes (str "x")); Ok (VInt 2); Ok (VBytes [])].
Proof. vm_compute. reflexivity. Qed.

Print Assumptions C13_counters.
Print Assumptions C13_last_set_plus_increments.
Print Assumptions C13_failing_calls_change_nothing.
Print Assumptions C14_keys_disjoint.
Print Assumptions C14_list_prefix_covers_exactly_its_elements.
Print Assumptions C15_every_result_is_the_references.
Print Assumptions C16_hashes_are_maps.
Print Assumptions C17_HSet_then_HGet_partial.
Print Assumptions C17_HSet_empty_value_refuted.
Print Assumptions C18_bookkeeping_key_iff_nonempty.
Print Assumptions C19_descending_and_ascending.
Print Assumptions C20_hash_counters.
Print Assumptions C21_lists_are_deques.
Print Assumptions C21_pops_return_the_ends.
Print Assumptions C22_LIndex.
Print Assumptions C22_LSet.
Print Assumptions C23_other_structures_untouched.
Print Assumptions C23_keys_outside_the_prefix_untouched.
