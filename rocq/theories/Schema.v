(** Model of /repo/document/schema: the schema cache and the handle that publishes it.
    Simplification: schema versions are unbounded integers (int64 in Go; a version is a count of
    schema changes). *)
From Verif Require Import Bytes SMap Provider Model.

(** * metacache.go *)
(** MetaCache, 14-19 *)
Record MetaCache := MC { mc_version : Z; mc_dbs : option (smap DBInfo); mc_diffs : list (list Z); mc_start : Z }.
Definition maxDiffs : nat := 100.   (* 9-11 *)
(** NewMetaCache, 22-29 *)
Definition NewMetaCache (version : Z) (dbInfos : list DBInfo) : MetaCache :=
  MC version (Some (fold_left (fun m i => set m (di_name i) (clone_di i)) dbInfos empty)) [] (version + 1).
(** CheckDBExists 37-39, CollectionInfo 42-54, CheckCollectionExists 57-63, CheckIndexExists 66-82;
    the cache may be nil *)
Definition cache_dbs (c : option MetaCache) : option (smap DBInfo) := match c with Some c => mc_dbs c | None => None end.
Definition CheckDBExists (c : option MetaCache) (db : bytes) : bool := match mget (cache_dbs c) db with Some _ => true | None => false end.
Definition cacheCollectionInfo (c : option MetaCache) (db coll : bytes) : option CollectionInfo :=
  match mget (cache_dbs c) db with Some d => mget (di_colls d) coll | None => None end.
Definition CheckCollectionExists (c : option MetaCache) (db coll : bytes) : bool :=
  match cacheCollectionInfo c db coll with Some _ => true | None => false end.
Definition CheckIndexExists (c : option MetaCache) (db coll idx : bytes) : bool :=
  match cacheCollectionInfo c db coll with
  | Some ci => match mget (ci_indices ci) idx with Some _ => true | None => false end
  | None => false
  end.
(** Clone, 85-100 *)
Definition CloneCache (c : option MetaCache) : MetaCache :=
  match c with
  | None => MC 0 None [] 1
  | Some c => MC (mc_version c) (clone_map clone_di (mc_dbs c)) (mc_diffs c) (mc_start c)
  end.
Definition ErrDiff := ENamed (str "diff not consecutive").
Definition ErrDiff0 := ENamed (str "diff0 not consecutive").
Definition ErrDiffType := ENamed (str "can not apply diff type").
Definition ErrDBInCache := ENamed (str "db exists in meta cache").
(** validateDiffs, 136-151; None = the index diffs[0] panics *)
Fixpoint consecutive (ds : list SchemaDiff) : bool :=
  match ds with
  | d1 :: (d2 :: _) as r => (sd_version d1 + 1 =? sd_version d2) && consecutive r
  | _ => true
  end.
Definition validateDiffs (c : MetaCache) (ds : list SchemaDiff) : result unit :=
  if negb (consecutive ds) then Err ErrDiff
  else match ds with
       | [] => Panic
       | d :: _ => if negb (sd_version d =? mc_start c + Z.of_nat (length (mc_diffs c))) then Err ErrDiff0 else Ok tt
       end.
(** onCreateSchema, 153-169; assigning into the nil map panics. (A RawArg that does not hold a
    DBInfo is an error here; such a diff is never written.) *)
Definition onCreateSchemaDiff (c : MetaCache) (d : SchemaDiff) : MetaCache * result unit :=
  match sd_arg d with
  | ArgDB info =>
      match mget (mc_dbs c) (di_name info) with
      | Some _ => (c, Err ErrDBInCache)
      | None =>
          let c1 := MC (sd_version d) (mc_dbs c) (mc_diffs c) (mc_start c) in
          match mc_dbs c with
          | None => (c1, Panic)
          | Some m => (MC (sd_version d) (Some (set m (di_name info) info)) (mc_diffs c) (mc_start c), Ok tt)
          end
      end
  | _ => (c, Err EDecode)
  end.
(** the loop of ApplyDiffs, 110-125 *)
Fixpoint apply_loop (c : MetaCache) (ds : list SchemaDiff) : MetaCache * result unit :=
  match ds with
  | [] => (c, Ok tt)
  | d :: ds' =>
      let c1 := MC (mc_version c) (mc_dbs c) (mc_diffs c ++ [sd_cids d]) (mc_start c) in
      if sd_type d =? ActionCreateSchema then
        match onCreateSchemaDiff c1 d with
        | (c2, Ok _) => apply_loop c2 ds'
        | (c2, r) => (c2, r)
        end
      else (c1, Err ErrDiffType)
  end.
(** trimming, 127-131 *)
Definition trim (c : MetaCache) : MetaCache :=
  let rm := (length (mc_diffs c) - maxDiffs)%nat in
  if (maxDiffs <? length (mc_diffs c))%nat then MC (mc_version c) (mc_dbs c) (skipn rm (mc_diffs c)) (mc_start c + Z.of_nat rm) else c.
(** ApplyDiffs, 103-134 *)
Definition ApplyDiffs (c : MetaCache) (ds : list SchemaDiff) : MetaCache * result unit :=
  match validateDiffs c ds with
  | Ok _ => match apply_loop c ds with (c', Ok _) => (trim c', Ok tt) | x => x end
  | Err e => (c, Err e)
  | Panic => (c, Panic)
  end.

(** * handle.go *)
(** a *MetaCache: its address and the object, which is not modified after being published *)
Record cref := CRef { c_ptr : nat; c_val : MetaCache }.
(** Handle, 11-14: [h_readers] counts the read locks held. Within Update and Check nothing else
    can happen to the value: Update holds the write lock, Check a read lock. *)
Record handle := Handle { h_val : option cref; h_readers : nat }.
Definition NewHandle : handle := Handle None 0.
Definition ptr_eqb (a b : option cref) : bool :=
  match a, b with Some x, Some y => Nat.eqb (c_ptr x) (c_ptr y) | None, None => true | _, _ => false end.
Definition in_refs (refs : list Z) (v : Z) : bool := existsb (Z.eqb v) refs.
Inductive lres := LDone | LUnknown | LPanic | LTouched.
(** the loop 44-60 *)
Fixpoint check_loop (c : MetaCache) (refs : list Z) (i : Z) (n : nat) : lres :=
  match n with
  | O => LDone
  | S n' =>
      if i - mc_start c <? 0 then LUnknown
      else match nth_error (mc_diffs c) (Z.to_nat (i - mc_start c)) with
           | None => LPanic
           | Some ids => if existsb (in_refs refs) ids then LTouched else check_loop c refs (i + 1) n'
           end
  end.
(** Check, 32-68. [cancelled]: the context ends before the lock is obtained. *)
Inductive ckres := CkRes (ok : bool) | CkErr | CkPanic.
Definition leak (h : handle) : handle := Handle (h_val h) (S (h_readers h)).
Definition Check (h : handle) (cancelled : bool) (start : option cref) (refs : list Z) : handle * ckres :=
  if cancelled then (h, CkErr)
  else if ptr_eqb (h_val h) start then (h, CkRes true)
  else match start with
       | None => (h, CkRes false)
       | Some s =>
           match h_val h with
           | None => (leak h, CkPanic)               (* cache.version: nil dereference under the lock *)
           | Some c =>
               match check_loop (c_val c) refs (mc_version (c_val s) + 1) (Z.to_nat (mc_version (c_val c) - mc_version (c_val s))) with
               | LDone => (h, CkRes true)
               | LUnknown => (h, CkRes false)
               | LPanic => (h, CkPanic)
               | LTouched => (leak h, CkRes false)   (* 57-58: returns without RUnlock *)
               end
           end
       end.
(** Update, 71-81: None = blocked, waiting for the readers *)
Definition Update (h : handle) (c : cref) : option handle :=
  if (h_readers h =? 0)%nat then Some (Handle (Some c) 0) else None.

(** * Specification *)
(** [H v]: the collections touched by the schema change that produced version [v] *)
Definition records (H : Z -> list Z) (c : MetaCache) : Prop :=
  mc_version c = mc_start c + Z.of_nat (length (mc_diffs c)) - 1 /\
  forall k ids, nth_error (mc_diffs c) k = Some ids -> ids = H (mc_start c + Z.of_nat k).
(** what the check is to decide *)
Definition unaffected (H : Z -> list Z) (c s : MetaCache) (refs : list Z) : Prop :=
  forall v, mc_version s < v <= mc_version c -> mc_start c <= v /\ forall id, In id (H v) -> ~ In id refs.

(** * Lemmas *)
Lemma in_refs_spec refs v : in_refs refs v = true <-> In v refs.
Proof.
  unfold in_refs. rewrite existsb_exists. split.
  - intros (x & I & E). apply Z.eqb_eq in E. subst. exact I.
  - intros I. exists v. split; [exact I | apply Z.eqb_refl].
Qed.
Lemma check_loop_spec H c refs : records H c -> forall n i, i + Z.of_nat n = mc_version c + 1 ->
  check_loop c refs i n = LDone /\ (forall v, i <= v <= mc_version c -> mc_start c <= v /\ forall id, In id (H v) -> ~ In id refs)
  \/ check_loop c refs i n = LUnknown /\ (exists v, i <= v <= mc_version c /\ v < mc_start c)
  \/ check_loop c refs i n = LTouched /\ (exists v id, i <= v <= mc_version c /\ In id (H v) /\ In id refs).
Proof.
  intros [R1 R2]. induction n as [|n IH]; intros i E.
  - left. split; [reflexivity|]. intros v Hv. lia.
  - cbn [check_loop]. destruct (i - mc_start c <? 0) eqn:U.
    + apply Z.ltb_lt in U. right; left. split; [reflexivity|]. exists i. lia.
    + apply Z.ltb_ge in U. destruct (nth_error (mc_diffs c) (Z.to_nat (i - mc_start c))) as [ids|] eqn:N.
      * pose proof (R2 _ _ N) as Ei. replace (mc_start c + Z.of_nat (Z.to_nat (i - mc_start c))) with i in Ei by lia. subst ids.
        destruct (existsb (in_refs refs) (H i)) eqn:X.
        -- right; right. split; [reflexivity|]. apply existsb_exists in X. destruct X as (id & I & J). apply in_refs_spec in J. exists i, id. split; [lia|]. auto.
        -- destruct (IH (i + 1) ltac:(lia)) as [[A B]|[[A B]|[A B]]].
           ++ left. split; [exact A|]. intros v Hv. destruct (Z.eq_dec v i) as [->|Nv]; [|apply B; lia]. split; [lia|].
              intros id I J. assert (existsb (in_refs refs) (H i) = true); [|congruence]. apply existsb_exists. exists id. split; [exact I|]. apply in_refs_spec. exact J.
           ++ right; left. split; [exact A|]. destruct B as (v & B1 & B2). exists v. lia.
           ++ right; right. split; [exact A|]. destruct B as (v & id & B1 & B2). exists v, id. split; [lia|]. exact B2.
      * exfalso. apply nth_error_None in N. lia.
Qed.

(** ** applying diffs *)
Definition mc_ok (c : MetaCache) : Prop := mc_version c = mc_start c + Z.of_nat (length (mc_diffs c)) - 1 /\ (length (mc_diffs c) <= maxDiffs)%nat.
Definition args_of (ds : list SchemaDiff) : list DBInfo := flat_map (fun d => match sd_arg d with ArgDB i => [i] | _ => [] end) ds.
Lemma apply_loop_ok ds : forall c c', apply_loop c ds = (c', Ok tt) ->
  mc_start c' = mc_start c /\ mc_diffs c' = mc_diffs c ++ map sd_cids ds /\
  mc_version c' = (match ds with [] => mc_version c | _ => sd_version (last ds (SD 0 0 [] ArgNone)) end) /\
  (forall n, mget (mc_dbs c') n = match find (fun i => bytes_eqb (di_name i) n) (args_of ds) with Some i => Some i | None => mget (mc_dbs c) n end) /\
  Forall (fun d => sd_type d = ActionCreateSchema /\ exists i, sd_arg d = ArgDB i) ds /\ NoDup (map di_name (args_of ds)) /\
  (forall i, In i (args_of ds) -> mget (mc_dbs c) (di_name i) = None) /\ (ds <> [] -> mc_dbs c <> None).
Proof.
  induction ds as [|d ds IH]; intros c c' E; cbn [apply_loop] in E.
  - inversion E. subst. rewrite app_nil_r. cbn. split; [reflexivity|]. split; [reflexivity|]. split; [reflexivity|]. split; [reflexivity|]. split; [apply Forall_nil|]. split; [apply NoDup_nil|]. split; [intros i I; destruct I | congruence].
  - destruct (sd_type d =? ActionCreateSchema) eqn:T; [|discriminate]. apply Z.eqb_eq in T. unfold onCreateSchemaDiff in E. cbn [mc_dbs mc_diffs mc_start mc_version] in E.
    destruct (sd_arg d) as [info| |] eqn:A; try discriminate. destruct (mget (mc_dbs c) (di_name info)) as [|] eqn:G; [discriminate|].
    destruct (mc_dbs c) as [m|] eqn:D; [|discriminate]. apply IH in E. cbn [mc_dbs mc_diffs mc_start mc_version] in E.
    destruct E as (E1 & E2 & E3 & E4 & E5 & E6 & E7 & E8). split; [exact E1|]. split; [rewrite E2, <- app_assoc; reflexivity|].
    split; [rewrite E3; destruct ds; reflexivity|].
    cbn [args_of flat_map]. rewrite A. fold (args_of ds). cbn [app find map].
    assert (F : forall i, In i (args_of ds) -> di_name i <> di_name info).
    { intros i I X. specialize (E7 _ I). cbn [mget] in E7. rewrite X, get_set_eq in E7. discriminate. }
    split.
    { intros n. rewrite E4. destruct (bytes_eqb (di_name info) n) eqn:X.
      - apply bytes_eqb_eq in X. subst n. destruct (find _ (args_of ds)) as [i|] eqn:Y.
        + apply find_some in Y. destruct Y as [Y1 Y2]. apply bytes_eqb_eq in Y2. destruct (F _ Y1 Y2).
        + cbn [mget]. apply get_set_eq.
      - destruct (find _ (args_of ds)); [reflexivity|]. cbn [mget]. apply get_set_ne. apply bytes_eqb_neq in X. congruence. }
    split; [constructor; [split; [exact T|eauto] | exact E5]|].
    split; [constructor; [|exact E6]; intros X; apply in_map_iff in X; destruct X as (i & X & I); exact (F _ I X)|].
    split; [|discriminate]. intros i [<-|I]; [exact G|]. specialize (E7 _ I). cbn [mget] in *. rewrite get_set_ne in E7; [exact E7 | apply F; exact I].
Qed.
(** conversely *)
Lemma apply_loop_complete ds : forall c, mc_dbs c <> None ->
  Forall (fun d => sd_type d = ActionCreateSchema /\ exists i, sd_arg d = ArgDB i) ds -> NoDup (map di_name (args_of ds)) ->
  (forall i, In i (args_of ds) -> mget (mc_dbs c) (di_name i) = None) -> exists c', apply_loop c ds = (c', Ok tt).
Proof.
  induction ds as [|d ds IH]; intros c D F N G; cbn [apply_loop]; [eauto|].
  inversion F as [|? ? [T [i A]] F']; subst. rewrite T, Z.eqb_refl. unfold onCreateSchemaDiff. rewrite A. cbn [mc_dbs mc_diffs mc_start].
  cbn [args_of flat_map] in N, G. rewrite A in N, G. fold (args_of ds) in N, G. cbn [app map] in N, G. inversion N as [|? ? Nx Nd]; subst.
  rewrite (G i (or_introl eq_refl)). destruct (mc_dbs c) as [m|] eqn:E; [|congruence]. apply IH; try assumption; cbn [mc_dbs]; [discriminate|].
  intros j J. cbn [mget]. rewrite get_set_ne; [apply (G j); right; exact J|]. intros X. apply Nx. rewrite <- X. apply in_map. exact J.
Qed.
Lemma nth_skipn {A} n : forall (l : list A) k, nth_error (skipn n l) k = nth_error l (n + k).
Proof. induction n as [|n IH]; intros [|x l] k; cbn; auto. destruct k; reflexivity. Qed.
Lemma trim_records H c : records H c -> records H (trim c).
Proof.
  intros [R1 R2]. unfold trim. destruct (maxDiffs <? length (mc_diffs c))%nat eqn:L; [|split; assumption].
  apply Nat.ltb_lt in L. split; cbn [mc_version mc_start mc_diffs].
  - rewrite skipn_length. lia.
  - intros k ids N. rewrite nth_skipn in N. rewrite (R2 _ _ N). f_equal. lia.
Qed.
Lemma trim_len c : (length (mc_diffs (trim c)) <= maxDiffs)%nat.
Proof.
  unfold trim. destruct (maxDiffs <? length (mc_diffs c))%nat eqn:L.
  - cbn [mc_diffs]. rewrite skipn_length. apply Nat.ltb_lt in L. lia.
  - apply Nat.ltb_ge in L. exact L.
Qed.
Lemma consecutive_nth ds d0 : consecutive (d0 :: ds) = true -> forall k d, nth_error (d0 :: ds) k = Some d -> sd_version d = sd_version d0 + Z.of_nat k.
Proof.
  revert d0. induction ds as [|d1 ds IH]; intros d0 C k d N.
  - destruct k as [|[|k]]; cbn in N; try discriminate. inversion N. lia.
  - change (consecutive (d0 :: d1 :: ds)) with ((sd_version d0 + 1 =? sd_version d1) && consecutive (d1 :: ds)) in C.
    apply andb_true_iff in C. destruct C as [C1 C2]. apply Z.eqb_eq in C1. destruct k as [|k]; cbn [nth_error] in N; [inversion N; lia|].
    rewrite (IH d1 C2 k d N). lia.
Qed.
Lemma last_nth (ds : list SchemaDiff) d0 x : nth_error (d0 :: ds) (length ds) = Some (last (d0 :: ds) x).
Proof. revert d0. induction ds as [|d1 ds IH]; intros d0; [reflexivity|]. cbn [length nth_error]. rewrite IH. reflexivity. Qed.
Lemma trim_fields c : mc_version (trim c) = mc_version c /\ mc_dbs (trim c) = mc_dbs c.
Proof. unfold trim. destruct (_ <? _)%nat; auto. Qed.
