(** Model of /repo/document/model/model.go: the schema objects, as values.

    Go maps: [None] is the nil map; a map never holds a nil pointer here (JSON null elements are
    not modelled; nothing writes them). A nil and an empty slice are identified. Aliasing between
    objects is the subject of ModelHeap.v; here objects are values. *)
From Verif Require Import Bytes SMap.

(** osc.SchemaState of github.com/zhiqiangxu/util (not in /repo; the zero value is StateAbsent) *)
Inductive sstate := Absent | DeleteOnly | WriteOnly | WriteReorganization | DeleteReorganization | Public.

(** IndexInfoRedundant, model.go:37-41; IndexInfo, 27-35; CollectionInfo, 19-25; DBInfo, 11-17 *)
Record IndexInfoRedundant := IIR { ir_collection : bytes; ir_db : bytes; ir_cid : Z }.
Record IndexInfo := II { ii_id : Z; ii_name : bytes; ii_red : option IndexInfoRedundant; ii_cols : list bytes; ii_unique : bool; ii_state : sstate }.
Record CollectionInfo := CI { ci_id : Z; ci_name : bytes; ci_indices : option (smap IndexInfo); ci_order : list bytes; ci_state : sstate }.
Record DBInfo := DI { di_id : Z; di_name : bytes; di_colls : option (smap CollectionInfo); di_order : list bytes; di_state : sstate }.
(** the argument of a job or diff: RawArg, 49-50, 61-62, identified with what it encodes *)
Inductive jarg := ArgDB (d : DBInfo) | ArgIndex (i : IndexInfo) | ArgNone.
(** ActionType, 70-80 *)
Definition ActionCreateSchema : Z := 1.
Definition ActionAddIndex : Z := 5.
(** JobState, 101-120 *)
Inductive jstate := JNone | JRunning | JRollingback | JRollbackDone | JDone | JCancelled | JSynced | JCancelling.
Definition jstate_eqb (a b : jstate) : bool :=
  match a, b with
  | JNone, JNone | JRunning, JRunning | JRollingback, JRollingback | JRollbackDone, JRollbackDone | JDone, JDone
  | JCancelled, JCancelled | JSynced, JSynced | JCancelling, JCancelling => true
  | _, _ => false
  end.
(** Job, 43-55. [j_err]: Error is not nil (its text plays no role). StartTS and DependencyID are
    never assigned by the code and are left out. *)
Record Job := MkJob { j_id : Z; j_type : Z; j_state : jstate; j_err : bool; j_errcount : Z; j_arg : jarg; j_sstate : sstate }.
(** SchemaDiff, 57-63 *)
Record SchemaDiff := SD { sd_version : Z; sd_type : Z; sd_cids : list Z; sd_arg : jarg }.
(** predicates, 268-301 *)
Definition IsSynced j := jstate_eqb (j_state j) JSynced.
Definition IsDone j := jstate_eqb (j_state j) JDone.
Definition IsCancelled j := jstate_eqb (j_state j) JCancelled.
Definition IsRollbackDone j := jstate_eqb (j_state j) JRollbackDone.
Definition IsFinished j := IsDone j || IsRollbackDone j || IsCancelled j.

(** lookups in possibly nil maps *)
Definition mget {A} (o : option (smap A)) (k : bytes) : option A := match o with Some m => get m k | None => None end.
(** the copying loops of the Clone methods *)
Definition smap_map {A B} (f : A -> B) (m : smap A) : smap B :=
  fold_left (fun a p => set a (fst p) (f (snd p))) (entries m) empty.
Definition clone_map {A} (f : A -> A) (o : option (smap A)) : option (smap A) :=
  Some (match o with Some m => smap_map f m | None => empty end).
(** IndexInfo.Clone 226-237, CollectionInfo.Clone 179-190, DBInfo.Clone 165-176 *)
Definition clone_ii (i : IndexInfo) : IndexInfo := II (ii_id i) (ii_name i) (ii_red i) (ii_cols i) (ii_unique i) (ii_state i).
Definition clone_ci (c : CollectionInfo) : CollectionInfo := CI (ci_id c) (ci_name c) (clone_map clone_ii (ci_indices c)) (ci_order c) (ci_state c).
Definition clone_di (d : DBInfo) : DBInfo := DI (di_id d) (di_name d) (clone_map clone_ci (di_colls d)) (di_order d) (di_state d).

(** * Lemmas *)
Lemma get_fold_set {A B} (f : A -> B) k : forall (l : list (bytes * A)) (acc : smap B), NoDup (map fst l) ->
  get (fold_left (fun a p => set a (fst p) (f (snd p))) l acc) k =
  match find (fun p => bytes_eqb (fst p) k) l with Some p => Some (f (snd p)) | None => get acc k end.
Proof.
  induction l as [|[k0 v0] l IH]; intros acc N; cbn [fold_left find fst snd]; [reflexivity|].
  cbn [map fst] in N. inversion N as [|? ? Nk Nl]; subst. rewrite IH by exact Nl. destruct (bytes_eqb k0 k) eqn:E.
  - apply bytes_eqb_eq in E. subst k0. rewrite get_set_eq. destruct (find _ l) as [[k1 v1]|] eqn:F; [|reflexivity].
    apply find_some in F. destruct F as [F1 F2]. cbn [fst] in F2. apply bytes_eqb_eq in F2. subst k1. exfalso. apply Nk. apply (in_map fst) in F1. exact F1.
  - destruct (find _ l) as [p|]; [reflexivity|]. apply bytes_eqb_neq in E. apply get_set_ne. congruence.
Qed.
Lemma find_entries {A} (m : smap A) k : match find (fun p => bytes_eqb (fst p) k) (entries m) with Some p => Some (snd p) | None => None end = get m k.
Proof.
  destruct (find _ (entries m)) as [[k1 v1]|] eqn:F.
  - apply find_some in F. destruct F as [F1 F2]. cbn [fst] in F2. apply bytes_eqb_eq in F2. subst k1. symmetry. apply get_in. exact F1.
  - symmetry. apply get_none. intros v I. pose proof (find_none _ _ F _ I) as X. cbn [fst] in X. rewrite bytes_eqb_refl in X. discriminate.
Qed.
Lemma get_smap_map {A B} (f : A -> B) (m : smap A) k : get (smap_map f m) k = option_map f (get m k).
Proof.
  unfold smap_map. rewrite get_fold_set by apply keys_nodup. rewrite get_empty. rewrite <- find_entries. destruct (find _ (entries m)); reflexivity.
Qed.
Lemma mget_clone {A} (f : A -> A) o k : mget (clone_map f o) k = option_map f (mget o k).
Proof. destruct o as [m|]; cbn; [apply get_smap_map | reflexivity]. Qed.
Lemma smap_map_ext {A B} (f g : A -> B) (m : smap A) : (forall k v, get m k = Some v -> f v = g v) -> smap_map f m = smap_map g m.
Proof.
  intros H. apply smap_ext. intros k. rewrite !get_smap_map. destruct (get m k) eqn:E; [cbn; f_equal; eapply H; eassumption | reflexivity].
Qed.
Lemma smap_map_id {A} (f : A -> A) (m : smap A) : (forall k v, get m k = Some v -> f v = v) -> smap_map f m = m.
Proof.
  intros H. apply smap_ext. intros k. rewrite get_smap_map. destruct (get m k) eqn:E; [cbn; f_equal; eapply H; eassumption | reflexivity].
Qed.
Lemma smap_map_map {A B C} (f : A -> B) (g : B -> C) (m : smap A) : smap_map g (smap_map f m) = smap_map (fun x => g (f x)) m.
Proof. apply smap_ext. intros k. rewrite !get_smap_map. destruct (get m k); reflexivity. Qed.
Lemma clone_ii_eq i : clone_ii i = i.
Proof. destruct i. reflexivity. Qed.
