(** InsertOne's ids while everything overlaps: C96. encoding/json is a parameter J meeting the contract [json_ok]
    (MetaCodec.v has an instance). The model, the notes users take and [inserted] are in InsertSerial.v and AllSerial.v. *)
From Verif Require Import Bytes SMap Provider ProviderProofs World UtilTxn Model Meta MetaCodec MetaSpec MetaProofs Schema DocTxn DocKeys Dml DmlProofs Ddl DdlSpec DdlSys Domain.
From Verif Require Import DdlSerial DomSerial DomSerialProofs DocSerial DocLifeSpec AllSerial AllSerialProofs P_Leases InsertSerial InsertSerialProofs.
From Verif Require P_Ddl P_DocSerial P_AllSerial P_DdlSerial P_Domain.

(** * Specification *)
(** what the users have noted after a history on a new database, and the system then *)
Definition notes (J : json) (now : Z) (clamp : bool) (es : list iev) : glog := snd (iworked J (istart (db_init now clamp)) log0 es).
Definition then_is (J : json) (now : Z) (clamp : bool) (es : list iev) : isys := fst (iworked J (istart (db_init now clamp)) log0 es).

(** * The notes are those of a history of C93, so everything said there holds; in particular the committed transactions
    are serial *)
Theorem C96_all_of_C93_holds : forall J now clamp es, notes J now clamp es = P_AllSerial.log_of J now clamp (performed J (istart (db_init now clamp)) es).
Proof. intros J now clamp es. unfold notes, P_AllSerial.log_of. exact (proj2 (iworked_worked J es (istart (db_init now clamp)) log0)). Qed.
Theorem C96_inserts_are_serial : forall J, json_ok J -> forall B now clamp es, inserts_ok J B (db_init now clamp) es ->
  let l := l_done (notes J now clamp es) in scan_free l -> nreplays no_docs l.
Proof. intros J JO B now clamp es H l SF. destruct (inserts_performed J JO now clamp B es H) as (_ & _ & W & _). unfold l in *. rewrite C96_all_of_C93_holds in *. exact (P_AllSerial.C93_named_documents_are_serial J JO now clamp _ W SF). Qed.
Print Assumptions C96_inserts_are_serial.

(** * Ids never meet *)
Lemma two_ids L fns gone m ls e e' f f' t : pinv m fns gone ls -> noted L fns e -> noted L fns e' -> In (f, t) (pairs e) -> In (f', t) (pairs e') -> ~ In f gone -> ~ In f' gone -> f = f'.
Proof.
  intros P N N' I I' G G'. destruct t as [[a b] d]. destruct (N _ _ _ _ I) as (p & k & F1 & L1). destruct (N' _ _ _ _ I') as (p' & k' & F2 & L2). assert (k' = k) by congruence. subst k'.
  apply (pi_held _ _ _ _ P f f' (ci_id k) d); (split; [assumption | eexists; eassumption]).
Qed.
Lemma nodup_snd {X Y} (l : list (X * Y)) : NoDup (map fst l) -> (forall f f' t, In (f, t) l -> In (f', t) l -> f = f') -> NoDup (map snd l).
Proof.
  induction l as [|[f t] l IH]; intros N H; cbn [map fst snd] in *; [constructor|]. inversion N as [|? ? N1 N2]; subst. constructor; [|apply IH; [exact N2 | intros g g' u A B; apply (H g g' u); right; assumption]].
  intros I. apply in_map_iff in I. destruct I as ([f' t'] & E & I). cbn [snd] in E. subst t'. apply N1. rewrite (H f f' t (or_introl eq_refl) (or_intror I)). apply in_map_iff. exists (f', t). auto.
Qed.
Lemma inserted_pairs l : inserted l = map snd (flat_map pairs l).
Proof. unfold inserted. induction l as [|e l IH]; [reflexivity|]. cbn [flat_map]. rewrite map_app, IH, pairs_inserted. reflexivity. Qed.
Lemma keys_pairs l : flat_map (fun e => map fst (pairs e)) l = map fst (flat_map pairs l).
Proof. induction l as [|e l IH]; [reflexivity|]. cbn [flat_map]. rewrite map_app, IH. reflexivity. Qed.
Theorem C96_no_id_is_used_twice : forall J, json_ok J -> forall B now clamp es, inserts_ok J B (db_init now clamp) es -> NoDup (inserted (l_done (notes J now clamp es))).
Proof.
  intros J JO B now clamp es H. destruct (history_inv J JO now clamp B es (inserts_performed J JO now clamp B es H)) as (L & gone & ls & _ & X). unfold notes. destruct (iworked J (istart (db_init now clamp)) log0 es) as [s j]. destruct X as (P & T & _). cbn [snd].
  rewrite inserted_pairs. apply nodup_snd; [rewrite <- keys_pairs; exact (ti_done _ _ _ _ _ _ T)|]. intros f f' t I I'.
  assert (G : forall g u, In (g, u) (flat_map pairs (l_done j)) -> ~ In g gone).
  { intros g u Q. assert (R : In g (flat_map (fun e => map fst (pairs e)) (l_done j))) by (rewrite keys_pairs; apply in_map_iff; exists (g, u); auto). exact (proj1 (proj2 (ti_kept _ _ _ _ _ _ T g R))). }
  pose proof (G _ _ I) as G1. pose proof (G _ _ I') as G2. apply in_flat_map in I. apply in_flat_map in I'. destruct I as (e & E1 & E2), I' as (e' & E1' & E2').
  exact (two_ids L _ _ _ _ e e' f f' t P (ti_noted _ _ _ _ _ _ T e E1) (ti_noted _ _ _ _ _ _ T e' E1') E2 E2' G1 G2).
Qed.
Print Assumptions C96_no_id_is_used_twice.
Theorem C96_ids_are_positive : forall J, json_ok J -> forall B now clamp es, inserts_ok J B (db_init now clamp) es ->
  forall dbn coll id, In (dbn, coll, id) (inserted (l_done (notes J now clamp es))) -> 0 < id < two63.
Proof.
  intros J JO B now clamp es H dbn coll id. destruct (history_inv J JO now clamp B es (inserts_performed J JO now clamp B es H)) as (L & gone & ls & _ & X). unfold notes. destruct (iworked J (istart (db_init now clamp)) log0 es) as [s j]. destruct X as (P & T & LS). cbn [snd].
  rewrite inserted_pairs. intros I. apply in_map_iff in I. destruct I as ([f t] & E & I). cbn [snd] in E. subst t. apply in_flat_map in I. destruct I as (e & I1 & I2).
  destruct (ti_noted _ _ _ _ _ _ T e I1 _ _ _ _ I2) as (p & k & F1 & _). destruct (pi_from _ _ _ _ P f p (ci_id k) id (or_introl F1)) as (l & L1 & _ & L2). destruct (LS l L1) as [L3 L4]. unfold is_i64 in L4. lia.
Qed.
Print Assumptions C96_ids_are_positive.
(** the same for transactions under way: those of living processes *)
Theorem C96_open_transactions_too : forall J, json_ok J -> forall B now clamp es, inserts_ok J B (db_init now clamp) es ->
  let j := notes J now clamp es in let g := i_g (then_is J now clamp es) in
  forall n e, g_tx g n <> None -> lfind n (l_open j) = Some e ->
  NoDup (inserted_by e) /\
  forall t, In t (inserted_by e) -> ~ In t (inserted (l_done j)) /\ forall m e', m <> n -> g_tx g m <> None -> lfind m (l_open j) = Some e' -> ~ In t (inserted_by e').
Proof.
  intros J JO B now clamp es H. destruct (history_inv J JO now clamp B es (inserts_performed J JO now clamp B es H)) as (L & gone & ls & _ & X). unfold notes, then_is. destruct (iworked J (istart (db_init now clamp)) log0 es) as [s j]. destruct X as (P & T & _). cbn [snd fst]. cbv zeta.
  assert (O : forall n e, g_tx (i_g s) n <> None -> lfind n (l_open j) = Some e -> exists p x o, g_tx (i_g s) n = Some (p, x, o) /\ NoDup (map fst (pairs e)) /\ noted L (i_fns s) e /\ forall f u, In (f, u) (pairs e) -> In f (dt_cancels x) /\ ~ In f gone).
  { intros n e N F. destruct (g_tx (i_g s) n) as [[[p x] o]|] eqn:E; [|congruence]. destruct (ti_open _ _ _ _ _ _ T n p x o E) as (e0 & h & Y1 & Y2 & Y3 & _ & _ & _ & Y7). assert (e0 = e) by congruence. subst e0. exists p, x, o. split; [reflexivity|]. split; [exact Y2|]. split; [exact Y7|].
    intros f u I. assert (IC : In f (dt_cancels x)) by (apply Y3; apply in_map_iff; exists (f, u); auto). split; [exact IC|]. exact (proj2 (proj2 (ti_own _ _ _ _ _ _ T n p x o E) f IC)). }
  intros n e N F. destruct (O n e N F) as (p & x & o & E & ND & NT & OW). rewrite pairs_inserted. split.
  - apply nodup_snd; [exact ND|]. intros f f' t I I'. exact (two_ids L _ _ _ _ e e f f' t P NT NT I I' (proj2 (OW _ _ I)) (proj2 (OW _ _ I'))).
  - intros t It. apply in_map_iff in It. destruct It as ([f t'] & Et & It). cbn [snd] in Et. subst t'. destruct (OW f t It) as [C1 C2]. split.
    + rewrite inserted_pairs. intros Q. apply in_map_iff in Q. destruct Q as ([f' t'] & Et & Q). cbn [snd] in Et. subst t'.
      assert (R : In f' (flat_map (fun e => map fst (pairs e)) (l_done j))) by (rewrite keys_pairs; apply in_map_iff; exists (f', t); auto). destruct (ti_kept _ _ _ _ _ _ T f' R) as (_ & K2 & K3).
      apply in_flat_map in Q. destruct Q as (e' & Q1 & Q2). pose proof (two_ids L _ _ _ _ e e' f f' t P NT (ti_noted _ _ _ _ _ _ T e' Q1) It Q2 C2 K2) as ->. exact (K3 n p x o E C1).
    + intros m e' D N' F'. rewrite pairs_inserted. intros Q. apply in_map_iff in Q. destruct Q as ([f' t'] & Et & Q). cbn [snd] in Et. subst t'. destruct (O m e' N' F') as (p' & x' & o' & E' & _ & NT' & OW'). destruct (OW' f' t Q) as [C1' C2'].
      pose proof (two_ids L _ _ _ _ e e' f f' t P NT NT' It Q C2 C2') as ->. apply D. exact (ti_apart _ _ _ _ _ _ T _ _ _ _ _ _ _ _ _ E' E C1' C1).
Qed.
Print Assumptions C96_open_transactions_too.

(** * InsertOne finds no document under its id, unless somebody chose that id *)
Lemma zdel_old m k j : zget (zdel m k) j <> None -> zget m j <> None.
Proof. induction m as [|[i v] m IH]; [auto|]. cbn [zdel zget]. destruct (Z.eqb_spec k i) as [->|N]; [destruct (j =? i); [congruence | auto]|]. cbn [zget]. destruct (j =? i); auto. Qed.
Lemma call_domain sees N c a b k : zget (snd (ncall_spec sees N c) a b) k <> None -> zget (N a b) k <> None \/ chooses a b k c = true \/ In (a, b, k) (got sees (c, fst (ncall_spec sees N c))).
Proof.
  destruct c as [m x y o|m x y did v f]; cbn [ncall_spec chooses got].
  - unfold nop. destruct (sees x y); [|auto]. destruct (doc_spec (N x y) o) as [r z] eqn:E. cbn [fst snd]. unfold nupd. destruct (bytes_eqb a x && bytes_eqb b y) eqn:S; [|auto].
    apply andb_prop in S. destruct S as [S1 S2]. apply bytes_eqb_eq in S1. apply bytes_eqb_eq in S2. subst x y. intros H. rewrite !(proj2 (bytes_eqb_eq _ _) eq_refl). cbn [andb]. replace z with (snd (doc_spec (N a b) o)) in H by (rewrite E; reflexivity). clear E r z.
    destruct o; cbn [doc_spec snd] in H; auto.
    + unfold has in H. destruct (zget (N a b) did) eqn:Z; [|auto]. rewrite zget_zset in H. destruct (Z.eqb_spec k did) as [->|]; [left; congruence | auto].
    + rewrite zget_zset in H. rewrite (Z.eqb_sym did k). destruct (k =? did); auto.
    + destruct (has (N a b) did); cbn [snd] in H; [auto|]. rewrite zget_zset in H. rewrite (Z.eqb_sym did k). destruct (k =? did); auto.
    + left. exact (zdel_old _ _ _ H).
  - cbn [fst snd]. destruct (sees x y) eqn:SE; [|auto]. unfold nupd. destruct (bytes_eqb a x && bytes_eqb b y) eqn:S; [|auto]. apply andb_prop in S. destruct S as [S1 S2]. apply bytes_eqb_eq in S1. apply bytes_eqb_eq in S2. subst x y.
    rewrite zget_zset. destruct (Z.eqb_spec k did) as [->|]; [|auto]. intros _. right. right. left. reflexivity.
Qed.
Lemma calls_domain sees l a b k : forall N, map snd l = fst (ncalls_spec sees N (map fst l)) -> zget (snd (ncalls_spec sees N (map fst l)) a b) k <> None ->
  zget (N a b) k <> None \/ existsb (chooses a b k) (map fst l) = true \/ In (a, b, k) (flat_map (got sees) l).
Proof.
  induction l as [|[c r] l IH]; intros N E H; cbn [map fst snd ncalls_spec] in *; [auto|]. pose proof (call_domain sees N c a b k) as D. destruct (ncall_spec sees N c) as [r1 N1]. specialize (IH N1). destruct (ncalls_spec sees N1 (map fst l)) as [rs N2]. cbn [fst snd] in *.
  assert (E' : r = r1 /\ map snd l = rs) by (split; congruence). destruct E' as [-> E']. cbn [existsb flat_map]. destruct (IH E' H) as [X|[X|X]].
  - destruct (D X) as [Y|[Y|Y]]; [auto | rewrite Y; auto | right; right; apply in_or_app; auto].
  - right. left. rewrite X. apply orb_true_r.
  - right. right. apply in_or_app. auto.
Qed.
Lemma ncalls_app sees l l' N : ncalls_spec sees N (l ++ l') = (fst (ncalls_spec sees N l) ++ fst (ncalls_spec sees (snd (ncalls_spec sees N l)) l'), snd (ncalls_spec sees (snd (ncalls_spec sees N l)) l')).
Proof.
  revert N. induction l as [|c l IH]; intros N; cbn [app ncalls_spec fst snd]; [destruct (ncalls_spec sees N l'); reflexivity|]. destruct (ncall_spec sees N c) as [r N1]. rewrite IH. destruct (ncalls_spec sees N1 l) as [rs N2]. reflexivity.
Qed.
Lemma after_domain a b k l : forall N, nreplays N l -> zget (fold_left (fun N e => snd (ncalls_spec (n_sees e) N (e_calls e))) l N a b) k <> None ->
  zget (N a b) k <> None \/ existsb (fun e => existsb (chooses a b k) (e_calls e)) l = true \/ In (a, b, k) (inserted l).
Proof.
  induction l as [|e l IH]; intros N R H; cbn [fold_left] in H; [auto|]. destruct R as [R1 R2]. unfold inserted. cbn [existsb flat_map]. fold (inserted l). destruct (IH _ R2 H) as [X|[X|X]].
  - destruct (calls_domain (n_sees e) (n_calls e) a b k N R1 X) as [Y|[Y|Y]]; [auto | right; left; fold (e_calls e) in Y; rewrite Y; reflexivity | right; right; apply in_or_app; left; exact Y].
  - right. left. rewrite X. apply orb_true_r.
  - right. right. apply in_or_app. auto.
Qed.
(** [l1]: the transactions committed before; [k1]: the calls before, in the same transaction *)
Theorem C96_insert_finds_nothing : forall J, json_ok J -> forall B now clamp es, inserts_ok J B (db_init now clamp) es ->
  let l := l_done (notes J now clamp es) in scan_free l ->
  forall l1 e l2 k1 mark dbn coll did data f v k2, l = l1 ++ e :: l2 -> n_calls e = k1 ++ (InsertOne mark dbn coll did data f, Ok v) :: k2 -> n_sees e dbn coll = true ->
  (forall e0 c, In e0 l1 -> In c (e_calls e0) -> chooses dbn coll did c = false) -> (forall p, In p k1 -> chooses dbn coll did (fst p) = false) ->
  zget (snd (ncalls_spec (n_sees e) (ndocs_after l1) (map fst k1)) dbn coll) did = None.
Proof.
  intros J JO B now clamp es H l SF l1 e l2 k1 mark dbn coll did data f v k2 El Ek Se N1 N2. pose proof (C96_no_id_is_used_twice J JO B now clamp es H) as ND. pose proof (C96_inserts_are_serial J JO B now clamp es H SF) as R. fold l in ND, R.
  destruct (zget (snd (ncalls_spec (n_sees e) (ndocs_after l1) (map fst k1)) dbn coll) did) as [w|] eqn:Z; [|reflexivity]. exfalso. assert (Z' : zget (snd (ncalls_spec (n_sees e) (ndocs_after l1) (map fst k1)) dbn coll) did <> None) by congruence. clear Z.
  assert (R' : forall N la lb, nreplays N (la ++ lb) -> nreplays N la /\ nreplays (fold_left (fun N e => snd (ncalls_spec (n_sees e) N (e_calls e))) la N) lb).
  { intros N la. revert N. induction la as [|x la IH]; intros N lb Q; cbn [app nreplays fold_left] in *; [auto|]. destruct Q as [Q1 Q2]. destruct (IH _ _ Q2). auto. }
  rewrite El in R, ND. apply R' in R. destruct R as [R1 [R2 _]]. fold (ndocs_after l1) in R2.
  unfold inserted in ND. rewrite flat_map_app in ND. cbn [flat_map] in ND. fold (inserted l1) in ND. unfold inserted_by at 1 in ND. rewrite Ek in ND. rewrite flat_map_app in ND. cbn [flat_map got] in ND. rewrite Se in ND.
  unfold e_answers, e_calls in R2. rewrite Ek, !map_app, ncalls_app in R2. cbn [fst map] in R2.
  assert (LEN : forall N l0, length (fst (ncalls_spec (n_sees e) N l0)) = length l0).
  { intros N l0. revert N. induction l0 as [|c l0 IH]; intros N; cbn [ncalls_spec]; [reflexivity|]. destruct (ncall_spec (n_sees e) N c) as [r N3]. specialize (IH N3). destruct (ncalls_spec (n_sees e) N3 l0). cbn [fst length] in *. congruence. }
  assert (R3 : map snd k1 = fst (ncalls_spec (n_sees e) (ndocs_after l1) (map fst k1))).
  { apply (f_equal (firstn (length k1))) in R2. rewrite !firstn_app in R2. rewrite !map_length, LEN, map_length, Nat.sub_diag in R2. cbn [firstn] in R2. rewrite !app_nil_r in R2. rewrite firstn_all2 in R2 by (rewrite map_length; lia). rewrite firstn_all2 in R2 by (rewrite LEN, map_length; lia). exact R2. }
  assert (IN : In (dbn, coll, did) (inserted l1) \/ In (dbn, coll, did) (flat_map (got (n_sees e)) k1)).
  { destruct (calls_domain (n_sees e) k1 dbn coll did (ndocs_after l1) R3 Z') as [Y|[Y|Y]]; [ | | right; exact Y].
    - destruct (after_domain dbn coll did l1 no_docs R1 Y) as [W|[W|W]]; [cbn in W; congruence | | left; exact W]. exfalso. apply existsb_exists in W. destruct W as (e0 & W1 & W2). apply existsb_exists in W2. destruct W2 as (c & W2 & W3). rewrite (N1 e0 c W1 W2) in W3. discriminate W3.
    - exfalso. apply existsb_exists in Y. destruct Y as (c & Y1 & Y2). apply in_map_iff in Y1. destruct Y1 as (p & <- & Y1). rewrite (N2 p Y1) in Y2. discriminate Y2. }
  apply nodup_app in ND. destruct ND as (_ & ND & D1). destruct IN as [IN|IN].
  - apply (D1 _ IN). apply in_or_app. left. apply in_or_app. right. left. reflexivity.
  - apply nodup_app in ND. destruct ND as (ND & _ & _). apply nodup_app in ND. destruct ND as (_ & _ & D2). apply (D2 _ IN). left. reflexivity.
Qed.
Print Assumptions C96_insert_finds_nothing.

(** * A concrete history *)
Definition ins (n : nat) (v : bytes) : iev := IInsert n true (str "shop") (str "orders") v.
(** Processes 0 and 1 lease at the same time: one is refused and tries again. Transactions 1 and 2 insert; the commit of
    2 fails and its id goes back. Transaction 3 (process 1) gets that id again, and another; process 0 dies with transaction 4
    open, leases again and inserts in transaction 5. Nobody has leased ids for "users". *)
Definition rush : list iev :=
  map IDo (P_AllSerial.made 0 (P_Ddl.bare (str "shop") [str "orders"; str "users"])) ++
  [ILease 20 0 1 2 3; ILease 21 1 1 2 3; IDo (GDdl (KEnd 20 false)); IDo (GDdl (KEnd 21 false)); ILease 21 1 1 2 3; IDo (GDdl (KEnd 21 false)); ILease 22 1 7 2 3;
   IDo (GReload 0); IDo (GReloaded 0); IDo (GReload 1); IDo (GReloaded 1);
   IDo (GGet 1 0); IDo (GBegin 1 true); IDo (GGet 2 1); IDo (GBegin 2 true); ins 1 (str "ink"); ins 2 (str "pen"); IInsert 1 true (str "shop") (str "users") (str "ann"); IInsert 1 true (str "blog") (str "posts") (str "hi"); ins 1 (str "cap");
   IDo (GCheck 1); IDo (GCheck 2); IDo (GCommit 2 true); IDo (GCommit 1 false);
   IDo (GGet 3 1); IDo (GBegin 3 true); ins 3 (str "nib"); ins 3 (str "pad"); IDo (GGet 4 0); IDo (GBegin 4 true); ins 4 (str "box"); IDo (GDdl (KCrash 0));
   ILease 22 0 1 2 2; IDo (GDdl (KEnd 22 false)); IDo (GReload 0); IDo (GReloaded 0); IDo (GGet 5 0); IDo (GBegin 5 true); ins 5 (str "rod"); IDo (GCheck 5); IDo (GCommit 5 false); IDo (GCheck 3); IDo (GCommit 3 false);
   IDo (GGet 6 1); IDo (GBegin 6 true); ins 6 (str "tin")].
Definition rush_gevs : list gev := Eval vm_compute in performed demo_json (istart (db_init 100 false)) rush.
Lemma rush_performed : performed demo_json (istart (db_init 100 false)) rush = rush_gevs.
Proof. vm_compute. reflexivity. Qed.
Lemma rush_ok : inserts_ok demo_json 1000 (db_init 100 false) rush.
Proof.
  assert (I : forall z, 0 <= z < 100 -> is_i64 z) by (intros z Hz; apply P_DocSerial.i64_small; lia).
  split; [split; vm_compute; reflexivity|]. split; [|split].
  - unfold rush, P_AllSerial.made. cbn [map app]. repeat (apply Forall_cons || apply Forall_nil); cbn [iev_ok ins];
    (exact Logic.I || lia || (cbn [gev_ok]; apply P_DdlSerial.kbare_ok; reflexivity) || exact P_Ddl.ident_ok || idtac).
  - intros n H. exfalso. unfold rush, P_AllSerial.made in H. cbn [map app In ins] in H. repeat (destruct H as [H|H]; [discriminate H|]). exact H.
  - rewrite rush_performed. vm_compute. reflexivity.
Qed.
Example C96_example : let j := notes demo_json 100 false rush in let o := (str "shop", str "orders") in
  inserts_ok demo_json 1000 (db_init 100 false) rush /\ scan_free (l_done j) /\
  inserted (l_done j) = [(o, 1); (o, 2); (o, 7); (o, 4); (o, 5)] /\
  inserted (map snd (l_open j)) = [(o, 6); (o, 3)] /\
  ndocs_after (l_done j) (str "shop") (str "orders") = [(1, str "ink"); (2, str "cap"); (4, str "nib"); (5, str "pad"); (7, str "rod")].
Proof.
  intros j o. split; [exact rush_ok|]. split.
  - assert (X : forallb (fun e => forallb (fun c => negb (scans c)) (e_calls e)) (l_done j) = true) by (vm_compute; reflexivity). rewrite forallb_forall in X. exact X.
  - repeat split; vm_compute; reflexivity.
Qed.
