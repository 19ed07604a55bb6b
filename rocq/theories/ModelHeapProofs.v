(** Proofs about ModelHeap.v: clones are equal and share nothing; nothing that follows makes them share. *)
From Verif Require Import Bytes SMap Model ModelHeap.

(** * Heap code works in a region *)
Section region.
Context (P : addr -> Prop).
Record inv (h : heap) : Prop := {
  iv_ok : heap_ok h;
  iv_cl : forall a c p, P a -> h_cell h a = Some c -> In p (ptrs c) -> P p;
  iv_fr : forall a, (h_next h <= a)%nat -> P a }.
(** from an invariant heap at least as big as n, m keeps the invariant and writes only cells in P *)
Definition tri {A} (n : addr) (m : H A) (Q : addr -> A -> Prop) : Prop :=
  forall h h' a, inv h -> (n <= h_next h)%nat -> m h = Some (h', a) ->
    inv h' /\ (h_next h <= h_next h')%nat /\ (forall x, ~ P x -> h_cell h' x = h_cell h x) /\ Q (h_next h') a.
Lemma tri_ret {A} n (a : A) (Q : addr -> A -> Prop) : (forall n', (n <= n')%nat -> Q n' a) -> tri n (hret a) Q.
Proof. intros HQ h h' x I L E. unfold hret in E. inversion E. subst. split; [exact I|]. split; [lia|]. split; [reflexivity | apply HQ; exact L]. Qed.
Lemma tri_panic {A} n (Q : addr -> A -> Prop) : tri n hpanic Q.
Proof. intros h h' x I L E. discriminate E. Qed.
Lemma tri_bind {A B} n (m : H A) (k : A -> H B) (Q : addr -> A -> Prop) (R : addr -> B -> Prop) :
  tri n m Q -> (forall a n', (n <= n')%nat -> Q n' a -> tri n' (k a) R) -> tri n (hbind m k) R.
Proof.
  intros Hm Hk h h' b I L E. unfold hbind in E. destruct (m h) as [[h1 a]|] eqn:E1; [|discriminate].
  destruct (Hm h h1 a I L E1) as (I1 & L1 & F1 & Qa). destruct (Hk a (h_next h1) ltac:(lia) Qa h1 h' b I1 ltac:(lia) E) as (I2 & L2 & F2 & Rb).
  split; [exact I2|]. split; [lia|]. split; [|exact Rb]. intros x Nx. rewrite (F2 x Nx). apply F1. exact Nx.
Qed.
Definition below (n : addr) (l : list addr) : Prop := forall p, In p l -> (p < n)%nat.
Definition inP (l : list addr) : Prop := forall p, In p l -> P p.
Lemma tri_read_any n a : tri n (hread a) (fun n' c => below n' (ptrs c) /\ (a < n')%nat).
Proof.
  intros h h' c I L E. unfold hread in E. destruct (h_cell h a) as [c0|] eqn:Ec; inversion E. subst h' c0. split; [exact I|]. split; [lia|]. split; [reflexivity|].
  destruct (iv_ok _ I) as [O1 O2]. split; [intros p Hp; exact (O2 a c p Ec Hp)|]. destruct (Nat.lt_ge_cases a (h_next h)) as [X|X]; [exact X|]. rewrite (O1 a X) in Ec. discriminate.
Qed.
Lemma tri_read n a : P a -> tri n (hread a) (fun n' c => below n' (ptrs c) /\ inP (ptrs c) /\ (a < n')%nat).
Proof.
  intros Pa h h' c I L E. destruct (tri_read_any n a h h' c I L E) as (I' & L' & F & B & La). split; [exact I'|]. split; [exact L'|]. split; [exact F|]. split; [exact B|]. split; [|exact La].
  unfold hread in E. destruct (h_cell h a) as [c0|] eqn:Ec; inversion E. subst h' c0. intros p Hp. exact (iv_cl _ I a c p Pa Ec Hp).
Qed.
Lemma tri_alloc n c : below n (ptrs c) -> inP (ptrs c) -> tri n (halloc c) (fun n' a => P a /\ (a < n')%nat).
Proof.
  intros B Ip h h' a I L E. unfold halloc in E. inversion E. subst h' a. clear E. destruct I as [[O1 O2] Cl Fr]. cbn [h_next h_cell].
  split; [split; [split|..]|split; [lia|split; [|split; [apply Fr; lia | lia]]]]; cbn [h_next h_cell].
  - intros a La. destruct (Nat.eqb_spec a (h_next h)); [lia | apply O1; lia].
  - intros a c0 p. destruct (Nat.eqb_spec a (h_next h)) as [->|Na]; [intros E Hp; inversion E; subst; specialize (B p Hp); lia|]. intros Ec Hp. specialize (O2 a c0 p Ec Hp). lia.
  - intros a c0 p Pa. destruct (Nat.eqb_spec a (h_next h)) as [->|Na]; [intros E Hp; inversion E; subst; exact (Ip p Hp) | apply Cl; exact Pa].
  - intros a La. apply Fr. lia.
  - intros x Nx. destruct (Nat.eqb_spec x (h_next h)) as [->|Na]; [destruct (Nx (Fr _ (Nat.le_refl _))) | reflexivity].
Qed.
Lemma tri_write n a c : P a -> (a < n)%nat -> below n (ptrs c) -> inP (ptrs c) -> tri n (hwrite a c) (fun _ _ => True).
Proof.
  intros Pa La B Ip h h' u I L E. unfold hwrite in E. inversion E. subst h' u. clear E. destruct I as [[O1 O2] Cl Fr].
  split; [split; [split|..]|split; [cbn; lia|split; [|exact I]]]; cbn [h_next h_cell].
  - intros x Lx. destruct (Nat.eqb_spec x a) as [->|Na]; [lia | apply O1; exact Lx].
  - intros x c0 p. destruct (Nat.eqb_spec x a) as [->|Na]; [intros E Hp; inversion E; subst; specialize (B p Hp); lia | apply O2].
  - intros x c0 p Px. destruct (Nat.eqb_spec x a) as [->|Na]; [intros E Hp; inversion E; subst; exact (Ip p Hp) | apply Cl; exact Px].
  - exact Fr.
  - intros x Nx. destruct (Nat.eqb_spec x a) as [->|Na]; [contradiction | reflexivity].
Qed.
Lemma below_mono n n' l : below n l -> (n <= n')%nat -> below n' l.
Proof. intros B L p Hp. specialize (B p Hp). lia. Qed.
Definition own (n : addr) (l : list addr) : Prop := below n l /\ inP l.
Lemma own_mono n n' l : own n l -> (n <= n')%nat -> own n' l.
Proof. intros [B Ip] L. split; [eapply below_mono; eassumption | exact Ip]. Qed.
Ltac om := cbv beta in *; match goal with X : own ?n ?l |- own ?n2 ?l2 => exact (own_mono n n2 l X ltac:(lia)) end.
Lemma own_app n a b : own n a -> own n b -> own n (a ++ b).
Proof. intros [A1 A2] [B1 B2]. split; intros p Hp; apply in_app_or in Hp; destruct Hp; auto. Qed.
Lemma own_split n a b : own n (a ++ b) -> own n a /\ own n b.
Proof. intros [A1 A2]. split; split; intros p Hp; first [apply A1 | apply A2]; apply in_or_app; auto. Qed.
Lemma own_nil n : own n [].
Proof. split; intros p []. Qed.
Lemma own_one n a : P a -> (a < n)%nat -> own n [a].
Proof. intros Pa L. split; intros p [<-|[]]; assumption. Qed.
Lemma below_split n a b : below n (a ++ b) -> below n a /\ below n b.
Proof. intros A1. split; intros p Hp; apply A1; apply in_or_app; auto. Qed.
(** allocation, writing and reading, with ownership *)
Lemma tri_alloc' n c : own n (ptrs c) -> tri n (halloc c) (fun n' a => own n' [a]).
Proof. intros [B Ip] h h' a I L E. destruct (tri_alloc n c B Ip h h' a I L E) as (X1 & X2 & X3 & X4 & X5). split; [exact X1|]. split; [exact X2|]. split; [exact X3 | apply own_one; assumption]. Qed.
Lemma tri_write' n a c : own n [a] -> own n (ptrs c) -> tri n (hwrite a c) (fun _ _ => True).
Proof. intros [B Ip] [B2 Ip2]. apply tri_write; auto; [apply Ip | apply B]; left; reflexivity. Qed.
Lemma tri_read' n a : own n [a] -> tri n (hread a) (fun n' c => own n' (ptrs c)).
Proof.
  intros [B Ip] h h' c I L E. destruct (tri_read n a (Ip a (or_introl eq_refl)) h h' c I L E) as (X1 & X2 & X3 & X4 & X5 & X6). split; [exact X1|]. split; [exact X2|]. split; [exact X3 | split; assumption].
Qed.
Lemma tri_weaken {A} n n' (m : H A) (Q R : addr -> A -> Prop) : tri n m Q -> (n <= n')%nat -> (forall k a, Q k a -> R k a) -> tri n' m R.
Proof. intros T L W h h' a I Ln E. destruct (T h h' a I ltac:(lia) E) as (X1 & X2 & X3 & X4). auto. Qed.

Lemma tri_copy n s : tri n (copy_slice s) (fun n' s' => own n' (slice_ptrs s')).
Proof.
  destruct s as [[x k]|]; cbn [copy_slice].
  - eapply tri_bind; [apply tri_read_any|]. intros c n1 L1 _. destruct c; try apply tri_panic. eapply tri_bind; [apply tri_alloc', own_nil|]. intros a n2 L2 Oa. apply tri_ret. intros n3 L3. om.
  - eapply tri_bind; [apply tri_alloc', own_nil|]. intros a n2 L2 Oa. apply tri_ret. intros n3 L3. om.
Qed.
Lemma tri_append n s v sp : own n (slice_ptrs s) -> tri n (append_slice s v sp) (fun n' s' => own n' (slice_ptrs s')).
Proof.
  intros Os. destruct s as [[x k]|]; cbn [append_slice].
  - eapply tri_bind; [apply tri_read'; exact Os|]. intros c n1 L1 _. destruct c; try apply tri_panic. destruct (Nat.ltb k (length l)).
    + eapply tri_bind; [apply tri_write'; [om | apply own_nil]|]. intros u n2 L2 _. apply tri_ret. intros n3 L3. eapply own_mono; [exact Os | lia].
    + eapply tri_bind; [apply tri_alloc', own_nil|]. intros a n2 L2 Oa. apply tri_ret. intros n3 L3. om.
  - eapply tri_bind; [apply tri_alloc', own_nil|]. intros a n2 L2 Oa. apply tri_ret. intros n3 L3. om.
Qed.
Lemma tri_clone_ii n a : tri n (IndexInfo_Clone a) (fun n' x => own n' [x]).
Proof.
  unfold IndexInfo_Clone. eapply tri_bind; [apply tri_read_any|]. intros c n1 L1 _. destruct c; try apply tri_panic.
  eapply tri_bind with (Q := fun n' o => own n' (opt_ptrs o)).
  - destruct red as [r|]; [|apply tri_ret; intros; apply own_nil]. eapply tri_bind; [apply tri_read_any|]. intros c n2 L2 _. destruct c; try apply tri_panic.
    eapply tri_bind; [apply tri_alloc', own_nil|]. intros x n3 L3 Ox. apply tri_ret. intros n4 L4. om.
  - intros red' n2 L2 Or. eapply tri_bind; [apply tri_copy|]. intros cols' n3 L3 Oc. apply tri_alloc'. cbn [ptrs]. apply own_app; [om | exact Oc].
Qed.
(** maps of owned pointers *)
Definition own_map (n : addr) (m : smap addr) : Prop := own n (map snd (entries m)).
Ltac om ::= cbv beta in *; unfold own_map in *; match goal with X : own ?n ?l |- own ?n2 ?l2 => exact (own_mono n n2 l X ltac:(lia)) end.
Lemma own_map_get n m k p : own_map n m -> get m k = Some p -> own n [p].
Proof. intros [B Ip] G. apply get_in in G. apply (in_map snd) in G. apply own_one; [apply Ip; exact G | apply B; exact G]. Qed.
Lemma own_map_intro n m : (forall k p, get m k = Some p -> own n [p]) -> own_map n m.
Proof. intros F. split; intros p Hp; apply in_map_iff in Hp; destruct Hp as ([k q] & <- & Hp); apply get_in in Hp; destruct (F k q Hp) as [B Ip]; cbn [snd]; [apply B | apply Ip]; left; reflexivity. Qed.
Lemma own_map_set n m k p : own_map n m -> own n [p] -> own_map n (set m k p).
Proof. intros Om Op. apply own_map_intro. intros k' p'. rewrite get_set. destruct (bytes_eqb k' k); [intros E; inversion E; subst; exact Op | apply own_map_get; exact Om]. Qed.
Lemma own_map_del n m k : own_map n m -> own_map n (del m k).
Proof. intros Om. apply own_map_intro. intros k' p'. rewrite get_del. destruct (bytes_eqb k' k); [discriminate | apply own_map_get; exact Om]. Qed.
Lemma own_map_empty n : own_map n empty.
Proof. apply own_map_intro. intros k p. rewrite get_empty. discriminate. Qed.
Lemma tri_ptr_map_any n o : tri n (ptr_map o) (fun _ _ => True).
Proof. destruct o as [x|]; cbn [ptr_map]; [|apply tri_ret; trivial]. eapply tri_bind; [apply tri_read_any|]. intros c n1 L1 _. destruct c; try apply tri_panic; apply tri_ret; trivial. Qed.
Lemma tri_ptr_map n o : own n (opt_ptrs o) -> tri n (ptr_map o) (fun n' m => own_map n' m).
Proof.
  intros Oo. destruct o as [x|]; cbn [ptr_map]; [|apply tri_ret; intros; apply own_map_empty]. eapply tri_bind; [apply tri_read'; exact Oo|]. intros c n1 L1 Oc.
  destruct c; try apply tri_panic; apply tri_ret; intros n2 L2; om.
Qed.
Lemma tri_lookup n o k : own n (opt_ptrs o) -> tri n (lookup o k) (fun n' r => own n' (opt_ptrs r)).
Proof.
  intros Oo. unfold lookup. eapply tri_bind; [apply tri_ptr_map; exact Oo|]. intros m n1 L1 Om. apply tri_ret. intros n2 L2. destruct (get m k) as [p|] eqn:G; [|apply own_nil].
  eapply own_mono; [eapply own_map_get; eassumption | exact L2].
Qed.
Lemma tri_entries (f : addr -> H addr) : (forall n p, tri n (f p) (fun n' x => own n' [x])) -> forall l n acc, own_map n acc -> tri n (clone_entries f l acc) (fun n' m => own_map n' m).
Proof.
  intros Hf. induction l as [|[k p] l IH]; intros n acc Oa; cbn [clone_entries].
  - apply tri_ret. intros n' L. om.
  - eapply tri_bind; [apply Hf|]. intros p' n1 L1 Op. apply IH. apply own_map_set; [om | exact Op].
Qed.
Lemma tri_clone_ci n a : tri n (CollectionInfo_Clone a) (fun n' x => own n' [x]).
Proof.
  unfold CollectionInfo_Clone. eapply tri_bind; [apply tri_read_any|]. intros c n1 L1 _. destruct c; try apply tri_panic.
  eapply tri_bind; [apply tri_ptr_map_any|]. intros m n2 L2 _. eapply tri_bind; [apply (tri_entries _ tri_clone_ii), own_map_empty|]. intros m' n3 L3 Om.
  eapply tri_bind; [apply tri_alloc'; exact Om|]. intros x n4 L4 Ox. eapply tri_bind; [apply tri_copy|]. intros s n5 L5 Os. apply tri_alloc'. cbn [ptrs]. apply own_app; [om | exact Os].
Qed.
Lemma tri_clone_di n a : tri n (DBInfo_Clone a) (fun n' x => own n' [x]).
Proof.
  unfold DBInfo_Clone. eapply tri_bind; [apply tri_read_any|]. intros c n1 L1 _. destruct c; try apply tri_panic.
  eapply tri_bind; [apply tri_ptr_map_any|]. intros m n2 L2 _. eapply tri_bind; [apply (tri_entries _ tri_clone_ci), own_map_empty|]. intros m' n3 L3 Om.
  eapply tri_bind; [apply tri_alloc'; exact Om|]. intros x n4 L4 Ox. eapply tri_bind; [apply tri_copy|]. intros s n5 L5 Os. apply tri_alloc'. cbn [ptrs]. apply own_app; [om | exact Os].
Qed.
Lemma tri_update_index n c arg : own n [c] -> tri n (UpdateIndexInfo_h c arg) (fun _ _ => True).
Proof.
  intros Oc. unfold UpdateIndexInfo_h. eapply tri_bind; [apply tri_read'; exact Oc|]. intros x n1 L1 Ox. eapply tri_bind; [apply tri_read_any|]. intros y n2 L2 _.
  destruct x; try apply tri_panic. destruct y; try apply tri_panic. cbn [ptrs] in Ox. apply own_split in Ox. destruct Ox as [Oi Oo].
  eapply tri_bind; [apply tri_lookup; om|]. intros o n3 L3 _. destruct o as [o|]; [|apply tri_ret; trivial]. destruct ind as [mp|]; [|apply tri_panic].
  eapply tri_bind; [apply tri_clone_ii|]. intros p n4 L4 Op. eapply tri_bind; [apply tri_ptr_map; eapply own_mono; [exact Oi | lia]|]. intros m n5 L5 Om.
  eapply tri_bind; [apply tri_write'; [eapply own_mono; [exact Oi | lia] | cbn [ptrs]; apply own_map_set; [exact Om | om]]|]. intros u n6 L6 _. apply tri_ret. trivial.
Qed.
Lemma tri_add_index n c arg sp : own n [c] -> tri n (AddIndexInfo_h c arg sp) (fun _ _ => True).
Proof.
  intros Oc. unfold AddIndexInfo_h. eapply tri_bind; [apply tri_read'; exact Oc|]. intros x n1 L1 Ox. eapply tri_bind; [apply tri_read_any|]. intros y n2 L2 _.
  destruct x; try apply tri_panic. destruct y; try apply tri_panic. cbn [ptrs] in Ox. apply own_split in Ox. destruct Ox as [Oi Oo].
  eapply tri_bind; [apply tri_lookup; om|]. intros o n3 L3 _. destruct o as [o|]; [apply tri_ret; trivial|].
  eapply tri_bind; [apply tri_clone_ii|]. intros p n4 L4 Op. destruct ind as [mp|]; [|apply tri_panic]. eapply tri_bind; [apply tri_ptr_map; eapply own_mono; [exact Oi | lia]|]. intros m n5 L5 Om.
  eapply tri_bind; [apply tri_write'; [eapply own_mono; [exact Oi | lia] | cbn [ptrs]; apply own_map_set; [exact Om | om]]|]. intros u n6 L6 _.
  eapply tri_bind; [apply tri_append; eapply own_mono; [exact Oo | lia]|]. intros s n7 L7 Os.
  eapply tri_bind; [apply tri_write'; [eapply own_mono; [exact Oc | lia] | cbn [ptrs]; apply own_app; [eapply own_mono; [exact Oi | lia] | exact Os]]|]. intros u' n8 L8 _. apply tri_ret. trivial.
Qed.
Lemma tri_update_coll n d arg : own n [d] -> P arg -> tri n (UpdateCollectionInfo_h d arg) (fun _ _ => True).
Proof.
  intros Od Pa. unfold UpdateCollectionInfo_h. eapply tri_bind; [apply tri_read'; exact Od|]. intros x n1 L1 Ox. eapply tri_bind; [apply tri_read; exact Pa|]. intros y n2 L2 (_ & _ & La).
  destruct x; try apply tri_panic. destruct y; try apply tri_panic. cbn [ptrs] in Ox. apply own_split in Ox. destruct Ox as [Oi Oo].
  eapply tri_bind; [apply tri_lookup; om|]. intros o n3 L3 _. destruct o as [o|]; [|apply tri_ret; trivial]. destruct colls as [mp|]; [|apply tri_panic].
  eapply tri_bind; [apply tri_ptr_map; eapply own_mono; [exact Oi | lia]|]. intros m n5 L5 Om.
  eapply tri_bind; [apply tri_write'; [eapply own_mono; [exact Oi | lia] | cbn [ptrs]; apply own_map_set; [exact Om | apply own_one; [exact Pa | lia]]]|]. intros u n6 L6 _. apply tri_ret. trivial.
Qed.
Lemma tri_get_coll n d cn : own n [d] -> tri n (get_coll d cn) (fun n' p => own n' [p]).
Proof.
  intros Od. unfold get_coll. eapply tri_bind; [apply tri_read'; exact Od|]. intros x n1 L1 Ox. destruct x; try apply tri_panic. cbn [ptrs] in Ox. apply own_split in Ox. destruct Ox as [Oi Oo].
  eapply tri_bind; [apply tri_lookup; exact Oi|]. intros [p|] n2 L2 Op; [|apply tri_panic]. apply tri_ret. intros n3 L3. om.
Qed.
Lemma tri_get_idx n c k : own n [c] -> tri n (get_idx c k) (fun n' p => own n' [p]).
Proof.
  intros Od. unfold get_idx. eapply tri_bind; [apply tri_read'; exact Od|]. intros x n1 L1 Ox. destruct x; try apply tri_panic. cbn [ptrs] in Ox. apply own_split in Ox. destruct Ox as [Oi Oo].
  eapply tri_bind; [apply tri_lookup; exact Oi|]. intros [p|] n2 L2 Op; [|apply tri_panic]. apply tri_ret. intros n3 L3. om.
Qed.
Lemma tri_irun n p o : own n [p] -> tri n (irun p o) (fun _ _ => True).
Proof.
  intros Op. unfold irun. eapply tri_bind; [apply tri_read'; exact Op|]. intros x n1 L1 Ox. destruct x; try apply tri_panic. cbn [ptrs] in Ox. pose proof (own_split _ _ _ Ox) as [Or Oc].
  destruct o as [id' name' u' st'|j v|r].
  - assert (T : tri n1 (hwrite p (CIdx id' name' red cols u' st')) (fun _ _ => True)) by (apply tri_write'; [om | exact Ox]). destruct red, cols as [[? ?]|]; exact T.
  - assert (T : tri n1 (match cols with Some (a, k) => if Nat.ltb j k then y <~ hread a ;; match y with CArr l => hwrite a (CArr (put_at j v l)) | _ => hpanic end else hpanic | None => hpanic end) (fun _ _ => True)); [|destruct red, cols as [[? ?]|]; exact T].
    destruct cols as [[a k]|]; [|apply tri_panic]. destruct (Nat.ltb j k); [|apply tri_panic]. eapply tri_bind; [apply tri_read'; exact Oc|]. intros y n2 L2 _. destruct y; try apply tri_panic.
    apply tri_write'; [om | apply own_nil].
  - destruct red as [a|]; [|destruct cols as [[? ?]|]; apply tri_panic].
    assert (T : tri n1 (hwrite a (CRed r)) (fun _ _ => True)) by (apply tri_write'; [exact Or | apply own_nil]).
    destruct cols as [[? ?]|]; exact T.
Qed.
Lemma tri_crun n c o : own n [c] -> tri n (crun c o) (fun _ _ => True).
Proof.
  intros Oc. destruct o as [arg sp|arg|id name st|i|v sp|i o]; cbn [crun].
  - eapply tri_bind; [apply tri_add_index; exact Oc|]. intros u n1 L1 _. apply tri_ret. trivial.
  - eapply tri_bind; [apply tri_update_index; exact Oc|]. intros u n1 L1 _. apply tri_ret. trivial.
  - eapply tri_bind; [apply tri_read'; exact Oc|]. intros x n1 L1 Ox. destruct x; try apply tri_panic.
    assert (T : tri n1 (hwrite c (CCol id name ind order st)) (fun _ _ => True)) by (apply tri_write'; [om | exact Ox]). destruct ind; exact T.
  - eapply tri_bind; [apply tri_read'; exact Oc|]. intros x n1 L1 Ox. destruct x; try apply tri_panic. cbn [ptrs] in Ox. apply own_split in Ox. destruct Ox as [Oi Oo].
    destruct ind as [mp|]; [|apply tri_ret; trivial]. eapply tri_bind; [apply tri_ptr_map; exact Oi|]. intros m n2 L2 Om.
    apply tri_write'; [om | cbn [ptrs]; apply own_map_del; exact Om].
  - eapply tri_bind; [apply tri_read'; exact Oc|]. intros x n1 L1 Ox. destruct x; try apply tri_panic. cbn [ptrs] in Ox. apply own_split in Ox. destruct Ox as [Oi Oo].
    assert (T : tri n1 (order' <~ append_slice order v sp ;; hwrite c (CCol id name ind order' st)) (fun _ _ => True)).
    { eapply tri_bind; [apply tri_append; exact Oo|]. intros s n2 L2 Os. apply tri_write'; [eapply own_mono; [exact Oc | lia] | cbn [ptrs]; apply own_app; [om | exact Os]]. }
    destruct ind; exact T.
  - eapply tri_bind; [apply tri_get_idx; exact Oc|]. intros p n1 L1 Op. apply tri_irun. exact Op.
Qed.
Lemma tri_drun n d o : own n [d] -> match o with DUpdate arg => P arg | _ => True end -> tri n (drun d o) (fun _ _ => True).
Proof.
  intros Od Sa. destruct o as [arg|arg|cn|id name st|cn o]; cbn [drun].
  - eapply tri_bind; [apply tri_update_coll; [exact Od | exact Sa]|]. intros u n1 L1 _. apply tri_ret. trivial.
  - eapply tri_bind; [apply tri_clone_ci|]. intros c n1 L1 Oc. eapply tri_bind; [apply tri_update_coll; [om | apply Oc; left; reflexivity]|]. intros u n2 L2 _. apply tri_ret. trivial.
  - eapply tri_bind; [apply tri_get_coll; exact Od|]. intros c n1 L1 Oc. eapply tri_bind; [apply tri_update_coll; [om | apply Oc; left; reflexivity]|]. intros u n2 L2 _. apply tri_ret. trivial.
  - eapply tri_bind; [apply tri_read'; exact Od|]. intros x n1 L1 Ox. destruct x; try apply tri_panic. apply tri_write'; [om | exact Ox].
  - eapply tri_bind; [apply tri_get_coll; exact Od|]. intros c n1 L1 Oc. apply tri_crun. exact Oc.
Qed.
Lemma tri_orun1 n a o : own n [a] -> oper_safe o -> tri n (orun1 a o) (fun _ _ => True).
Proof. intros Oa Sf. destruct o as [o|o|o]; cbn [orun1]; [apply tri_irun | apply tri_crun | apply tri_drun]; try exact Oa. destruct o; try exact I. destruct Sf. Qed.
End region.

(** * The value at an address depends on what is reachable from it *)
Definition closed (h : heap) (S : addr -> Prop) : Prop := forall a c p, S a -> h_cell h a = Some c -> In p (ptrs c) -> S p.
Section frame.
Context (h h2 : heap) (S : addr -> Prop) (Cl : closed h S) (Eq : forall a c, S a -> h_cell h a = Some c -> h_cell h2 a = Some c).
Lemma slice_frame s l : (forall p, In p (slice_ptrs s) -> S p) -> slice_is h s l -> slice_is h2 s l.
Proof. intros Hs. destruct s as [[a n]|]; cbn [slice_is]; [|auto]. intros (arr & G & X). exists arr. split; [apply Eq; [apply Hs; left; reflexivity | exact G] | exact X]. Qed.
Lemma index_frame a v : S a -> index_is h a v -> index_is h2 a v.
Proof.
  intros Sa (red & cols & G & R & C). exists red, cols. pose proof (fun p => Cl a _ p Sa G) as Ps. cbn [ptrs] in Ps. split; [apply Eq; assumption|]. split.
  - destruct red as [r|], (ii_red v) as [o|]; cbn [red_is] in *; try assumption. apply Eq; [apply Ps; left; reflexivity | exact R].
  - eapply slice_frame; [|exact C]. intros p Hp. apply Ps. apply in_or_app. right. exact Hp.
Qed.
Lemma map_frame {A} (mk : smap addr -> cell) (el : heap -> addr -> A -> Prop) p o : (forall m, ptrs (mk m) = map snd (entries m)) ->
  (forall a v, S a -> el h a v -> el h2 a v) -> (forall x, In x (opt_ptrs p) -> S x) -> map_is mk el h p o -> map_is mk el h2 p o.
Proof.
  intros Hm He Hp. destruct p as [a|], o as [vm|]; cbn [map_is]; auto. intros (m & G & F). assert (Sa : S a) by (apply Hp; left; reflexivity). exists m. split; [apply Eq; assumption|].
  intros k. specialize (F k). destruct (get m k) as [x|] eqn:Gx, (get vm k) as [v|]; auto. apply He; [|exact F]. eapply Cl; [exact Sa | exact G|]. rewrite Hm. apply get_in in Gx. apply (in_map snd) in Gx. exact Gx.
Qed.
Lemma coll_frame a v : S a -> coll_is h a v -> coll_is h2 a v.
Proof.
  intros Sa (ind & order & G & M & O). exists ind, order. pose proof (fun p => Cl a _ p Sa G) as Ps. cbn [ptrs] in Ps. split; [apply Eq; assumption|]. split.
  - eapply map_frame; [reflexivity | exact index_frame | | exact M]. intros x Hx. apply Ps. apply in_or_app. left. exact Hx.
  - eapply slice_frame; [|exact O]. intros p Hp. apply Ps. apply in_or_app. right. exact Hp.
Qed.
Lemma db_frame a v : S a -> db_is h a v -> db_is h2 a v.
Proof.
  intros Sa (ind & order & G & M & O). exists ind, order. pose proof (fun p => Cl a _ p Sa G) as Ps. cbn [ptrs] in Ps. split; [apply Eq; assumption|]. split.
  - eapply map_frame; [reflexivity | exact coll_frame | | exact M]. intros x Hx. apply Ps. apply in_or_app. left. exact Hx.
  - eapply slice_frame; [|exact O]. intros p Hp. apply Ps. apply in_or_app. right. exact Hp.
Qed.
End frame.
(** values are determined *)
Lemma slice_fun h s l l' : slice_is h s l -> slice_is h s l' -> l = l'.
Proof. destruct s as [[a n]|]; cbn [slice_is]; [|congruence]. intros (arr & G & _ & ->) (arr' & G' & _ & ->). rewrite G in G'. inversion G'. reflexivity. Qed.
Lemma index_fun h a v v' : index_is h a v -> index_is h a v' -> v = v'.
Proof.
  intros (red & cols & G & R & C) (red' & cols' & G' & R' & C'). rewrite G in G'. inversion G'. subst red' cols'. pose proof (slice_fun _ _ _ _ C C').
  assert (ii_red v = ii_red v') by (destruct red, (ii_red v), (ii_red v'); cbn [red_is] in *; try contradiction; congruence). destruct v, v'. cbn in *. congruence.
Qed.
Lemma map_fun {A} mk (el : heap -> addr -> A -> Prop) h p o o' : (forall m m', mk m = mk m' -> m = m') -> (forall a v v', el h a v -> el h a v' -> v = v') ->
  map_is mk el h p o -> map_is mk el h p o' -> o = o'.
Proof.
  intros Mi Ei. destruct p as [a|], o as [vm|], o' as [vm'|]; cbn [map_is]; try tauto. intros (m & G & F) (m' & G' & F'). rewrite G in G'. inversion G' as [E]. apply Mi in E. subst m'. f_equal. apply smap_ext. intros k.
  specialize (F k). specialize (F' k). destruct (get m k), (get vm k), (get vm' k); try contradiction; [|reflexivity]. f_equal. eapply Ei; eassumption.
Qed.
Lemma coll_fun h a v v' : coll_is h a v -> coll_is h a v' -> v = v'.
Proof.
  intros (ind & order & G & M & O) (ind' & order' & G' & M' & O'). rewrite G in G'. inversion G'. subst ind' order'. pose proof (slice_fun _ _ _ _ O O').
  assert (ci_indices v = ci_indices v') by (eapply (map_fun CIMap); [congruence | apply index_fun | exact M | exact M']). destruct v, v'. cbn in *. congruence.
Qed.
Lemma db_fun h a v v' : db_is h a v -> db_is h a v' -> v = v'.
Proof.
  intros (ind & order & G & M & O) (ind' & order' & G' & M' & O'). rewrite G in G'. inversion G'. subst ind' order'. pose proof (slice_fun _ _ _ _ O O').
  assert (di_colls v = di_colls v') by (eapply (map_fun CCMap); [congruence | apply coll_fun | exact M | exact M']). destruct v, v'. cbn in *. congruence.
Qed.

(** * Clone makes an equal object *)
Definition wf (h : heap) : Prop := forall a, (h_next h <= a)%nat -> h_cell h a = None.
Definition grows (h h' : heap) : Prop := (h_next h <= h_next h')%nat /\ forall a c, h_cell h a = Some c -> h_cell h' a = Some c.
Lemma grows_refl h : grows h h.
Proof. split; [lia | auto]. Qed.
Lemma grows_trans a b c : grows a b -> grows b c -> grows a c.
Proof. intros [A1 A2] [B1 B2]. split; [lia | auto]. Qed.
Lemma halloc_ok h c : wf h -> exists h' a, halloc c h = Some (h', a) /\ wf h' /\ grows h h' /\ h_cell h' a = Some c.
Proof.
  intros W. eexists. eexists. split; [reflexivity|]. split; [|split; [split|]]; cbn [h_next h_cell].
  - intros a L. cbn [h_next h_cell] in *. destruct (Nat.eqb_spec a (h_next h)); [lia | apply W; lia].
  - lia.
  - intros a c0 G. destruct (Nat.eqb_spec a (h_next h)) as [->|N]; [rewrite (W _ (Nat.le_refl _)) in G; discriminate | exact G].
  - rewrite Nat.eqb_refl. reflexivity.
Qed.
Lemma index_grows h h' a v : grows h h' -> index_is h a v -> index_is h' a v.
Proof. intros [_ G]. apply (index_frame h h' (fun _ => True)); try exact I; [intros ? ? ? _ _ _; exact I | auto]. Qed.
Lemma coll_grows h h' a v : grows h h' -> coll_is h a v -> coll_is h' a v.
Proof. intros [_ G]. apply (coll_frame h h' (fun _ => True)); try exact I; [intros ? ? ? _ _ _; exact I | auto]. Qed.
Lemma db_grows h h' a v : grows h h' -> db_is h a v -> db_is h' a v.
Proof. intros [_ G]. apply (db_frame h h' (fun _ => True)); try exact I; [intros ? ? ? _ _ _; exact I | auto]. Qed.
Lemma slice_grows h h' s l : grows h h' -> slice_is h s l -> slice_is h' s l.
Proof. intros [_ G]. apply (slice_frame h h' (fun _ => True)); auto. Qed.
Lemma copy_ok h s l : wf h -> slice_is h s l -> exists h' s', copy_slice s h = Some (h', s') /\ wf h' /\ grows h h' /\ slice_is h' s' l.
Proof.
  intros W Sl. destruct s as [[x n]|]; cbn [copy_slice slice_is] in *.
  - destruct Sl as (arr & G & Ln & ->). unfold hbind, hread. rewrite G. destruct (halloc_ok h (CArr (firstn n arr)) W) as (h' & a & E & W' & Gr & Ga). rewrite E. cbn. exists h', (Some (a, n)).
    split; [reflexivity|]. split; [exact W'|]. split; [exact Gr|]. cbn [slice_is]. exists (firstn n arr). split; [exact Ga|]. split; [rewrite firstn_length; lia|]. rewrite firstn_firstn, Nat.min_id. reflexivity.
  - subst l. unfold hbind. destruct (halloc_ok h (CArr []) W) as (h' & a & E & W' & Gr & Ga). rewrite E. cbn. exists h', (Some (a, 0%nat)). split; [reflexivity|]. split; [exact W'|]. split; [exact Gr|]. exists []. auto.
Qed.
Lemma clone_ii_ok h a v : wf h -> index_is h a v -> exists h' a', IndexInfo_Clone a h = Some (h', a') /\ wf h' /\ grows h h' /\ index_is h' a' (clone_ii v).
Proof.
  intros W (red & cols & G & R & C). unfold IndexInfo_Clone, hbind at 1, hread at 1. rewrite G.
  assert (X : exists h1 red', match red with None => hret None | Some r => c <~ hread r ;; match c with CRed v => x <~ halloc (CRed v) ;; hret (Some x) | _ => hpanic end end h = Some (h1, red') /\ wf h1 /\ grows h h1 /\ red_is h1 red' (ii_red v)).
  { destruct red as [r|], (ii_red v) as [o|]; cbn [red_is] in R; try contradiction.
    - unfold hbind, hread. rewrite R. destruct (halloc_ok h (CRed o) W) as (h' & x & E & W' & Gr & Ga). rewrite E. cbn. exists h', (Some x). auto.
    - exists h, None. split; [reflexivity|]. split; [exact W|]. split; [apply grows_refl | exact I]. }
  destruct X as (h1 & red' & E1 & W1 & G1 & R1). unfold hbind. unfold hbind in E1. rewrite E1. cbn beta iota zeta.
  destruct (copy_ok h1 cols (ii_cols v) W1 (slice_grows _ _ _ _ G1 C)) as (h2 & cols' & E2 & W2 & G2 & C2). rewrite E2.
  destruct (halloc_ok h2 (CIdx (ii_id v) (ii_name v) red' cols' (ii_unique v) (ii_state v)) W2) as (h3 & x & E3 & W3 & G3 & Gx). rewrite E3. exists h3, x. split; [reflexivity|]. split; [exact W3|].
  split; [eapply grows_trans; [exact G1 | eapply grows_trans; eassumption]|]. exists red', cols'. split; [exact Gx|]. split; [|eapply slice_grows; eassumption].
  cbn [clone_ii ii_red]. destruct red' as [r'|], (ii_red v); cbn [red_is] in *; auto. apply G3, G2. exact R1.
Qed.
Section maps.
Context {A : Type} (el : heap -> addr -> A -> Prop) (g : A -> A) (f : addr -> H addr).
Hypothesis (Gr : forall h h' a v, grows h h' -> el h a v -> el h' a v).
Hypothesis (Fo : forall h a v, wf h -> el h a v -> exists h' a', f a h = Some (h', a') /\ wf h' /\ grows h h' /\ el h' a' (g v)).
Lemma entries_ok (vm : smap A) : forall l h acc, wf h -> (forall k p, In (k, p) l -> exists v, get vm k = Some v /\ el h p v) ->
  (forall k x, get acc k = Some x -> exists v, get vm k = Some v /\ el h x (g v)) ->
  exists h' m', clone_entries f l acc h = Some (h', m') /\ wf h' /\ grows h h' /\
    (forall k x, get m' k = Some x -> exists v, get vm k = Some v /\ el h' x (g v)) /\ (forall k, get m' k = None -> get acc k = None /\ forall p, ~ In (k, p) l).
Proof.
  induction l as [|[k p] l IH]; intros h acc W Hl Ha; cbn [clone_entries].
  - exists h, acc. split; [reflexivity|]. split; [exact W|]. split; [apply grows_refl|]. split; [exact Ha|]. intros k E. split; [exact E | intros p []].
  - destruct (Hl k p (or_introl eq_refl)) as (v & Gv & Ev). destruct (Fo h p v W Ev) as (h1 & p' & E1 & W1 & G1 & Ep). unfold hbind. rewrite E1.
    destruct (IH h1 (set acc k p') W1) as (h2 & m' & E2 & W2 & G2 & F2 & N2).
    + intros k' q Hq. destruct (Hl k' q (or_intror Hq)) as (v' & Gv' & Ev'). exists v'. split; [exact Gv' | eapply Gr; eassumption].
    + intros k' x. rewrite get_set. destruct (bytes_eqb k' k) eqn:Ek; [apply bytes_eqb_eq in Ek; subst k'; intros X; inversion X; subst x; eauto|].
      intros Gx. destruct (Ha k' x Gx) as (v' & Gv' & Ev'). exists v'. split; [exact Gv' | eapply Gr; eassumption].
    + exists h2, m'. split; [exact E2|]. split; [exact W2|]. split; [eapply grows_trans; eassumption|]. split; [exact F2|]. intros k' E'. destruct (N2 k' E') as [X Y].
      rewrite get_set in X. destruct (bytes_eqb k' k) eqn:Ek; [discriminate|]. split; [exact X|]. intros q [Z|Z]; [inversion Z; subst; rewrite bytes_eqb_refl in Ek; discriminate | exact (Y q Z)].
Qed.
(** the map part of the clone *)
Lemma clone_map_ok (mk : smap addr -> cell) h p o : (mk = CIMap \/ mk = CCMap) -> wf h -> map_is mk el h p o ->
  exists h1 m h' m', ptr_map p h = Some (h1, m) /\ clone_entries f (entries m) empty h1 = Some (h', m') /\ wf h' /\ grows h h' /\
    forall x h2, grows h' h2 -> h_cell h2 x = Some (mk m') -> map_is mk el h2 (Some x) (clone_map g o).
Proof.
  intros Hmk W M. destruct p as [a|], o as [vm|]; cbn [map_is] in M; try contradiction.
  - destruct M as (m & G & F). exists h, m.
    assert (E0 : ptr_map (Some a) h = Some (h, m)) by (cbn [ptr_map]; unfold hbind, hread; rewrite G; destruct Hmk as [-> | ->]; reflexivity).
    destruct (entries_ok vm (entries m) h empty W) as (h' & m' & E & W' & Gh & F' & N').
    + intros k q Hq. apply get_in in Hq. specialize (F k). rewrite Hq in F. destruct (get vm k) as [v|]; [eauto | contradiction].
    + intros k x. rewrite get_empty. discriminate.
    + exists h', m'. split; [exact E0|]. split; [exact E|]. split; [exact W'|]. split; [exact Gh|]. intros x h2 G2 Gx. cbn [map_is clone_map]. exists m'. split; [exact Gx|]. intros k. rewrite get_smap_map.
      destruct (get m' k) as [y|] eqn:Gy.
      * destruct (F' k y Gy) as (v & Gv & Ev). rewrite Gv. cbn [option_map]. eapply Gr; eassumption.
      * destruct (N' k Gy) as [_ Nk]. specialize (F k). destruct (get m k) as [q|] eqn:Gq; [destruct (Nk q); apply get_in; exact Gq|]. destruct (get vm k); [contradiction | exact I].
  - exists h, empty, h, empty. split; [reflexivity|]. split; [reflexivity|]. split; [exact W|]. split; [apply grows_refl|]. intros x h2 G2 Gx. cbn [map_is clone_map]. exists empty. split; [exact Gx|]. intros k. rewrite !get_empty. exact I.
Qed.
End maps.
Lemma clone_ci_ok h a v : wf h -> coll_is h a v -> exists h' a', CollectionInfo_Clone a h = Some (h', a') /\ wf h' /\ grows h h' /\ coll_is h' a' (clone_ci v).
Proof.
  intros W (ind & order & G & M & O). unfold CollectionInfo_Clone, hbind at 1, hread at 1. rewrite G.
  destruct (clone_map_ok index_is clone_ii IndexInfo_Clone index_grows clone_ii_ok CIMap h ind (ci_indices v) (or_introl eq_refl) W M) as (h1 & m & h2 & m' & E1 & E2 & W2 & G2 & Mk).
  unfold hbind. rewrite E1, E2. destruct (halloc_ok h2 (CIMap m') W2) as (h3 & x & E3 & W3 & G3 & Gx). rewrite E3.
  destruct (copy_ok h3 order (ci_order v) W3) as (h4 & s & E4 & W4 & G4 & Sl); [eapply slice_grows; [|exact O]; exact (grows_trans _ _ _ G2 G3)|]. rewrite E4.
  destruct (halloc_ok h4 (CCol (ci_id v) (ci_name v) (Some x) s (ci_state v)) W4) as (h5 & y & E5 & W5 & G5 & Gy). rewrite E5. exists h5, y. split; [reflexivity|]. split; [exact W5|].
  assert (G35 : grows h3 h5) by exact (grows_trans _ _ _ G4 G5). assert (G25 : grows h2 h5) by exact (grows_trans _ _ _ G3 G35).
  split; [exact (grows_trans _ _ _ G2 G25)|]. exists (Some x), s. split; [exact Gy|]. split; [|exact (slice_grows _ _ _ _ G5 Sl)].
  cbn [clone_ci ci_indices]. apply Mk; [exact G25 | apply G35; exact Gx].
Qed.
Lemma clone_di_ok h a v : wf h -> db_is h a v -> exists h' a', DBInfo_Clone a h = Some (h', a') /\ wf h' /\ grows h h' /\ db_is h' a' (clone_di v).
Proof.
  intros W (ind & order & G & M & O). unfold DBInfo_Clone, hbind at 1, hread at 1. rewrite G.
  destruct (clone_map_ok coll_is clone_ci CollectionInfo_Clone coll_grows clone_ci_ok CCMap h ind (di_colls v) (or_intror eq_refl) W M) as (h1 & m & h2 & m' & E1 & E2 & W2 & G2 & Mk).
  unfold hbind. rewrite E1, E2. destruct (halloc_ok h2 (CCMap m') W2) as (h3 & x & E3 & W3 & G3 & Gx). rewrite E3.
  destruct (copy_ok h3 order (di_order v) W3) as (h4 & s & E4 & W4 & G4 & Sl); [eapply slice_grows; [|exact O]; exact (grows_trans _ _ _ G2 G3)|]. rewrite E4.
  destruct (halloc_ok h4 (CDb (di_id v) (di_name v) (Some x) s (di_state v)) W4) as (h5 & y & E5 & W5 & G5 & Gy). rewrite E5. exists h5, y. split; [reflexivity|]. split; [exact W5|].
  assert (G35 : grows h3 h5) by exact (grows_trans _ _ _ G4 G5). assert (G25 : grows h2 h5) by exact (grows_trans _ _ _ G3 G35).
  split; [exact (grows_trans _ _ _ G2 G25)|]. exists (Some x), s. split; [exact Gy|]. split; [|exact (slice_grows _ _ _ _ G5 Sl)].
  cbn [clone_di di_colls]. apply Mk; [exact G25 | apply G35; exact Gx].
Qed.

(** * Separate objects stay separate *)
Definition separate (h : heap) (a b : addr) : Prop :=
  exists SA SB : addr -> Prop, SA a /\ SB b /\ closed h SA /\ closed h SB /\ (forall x, SA x -> SB x -> False) /\ (forall x, SA x \/ SB x -> (x < h_next h)%nat).
Lemma separate_sym h a b : separate h a b -> separate h b a.
Proof. intros (SA & SB & X1 & X2 & X3 & X4 & X5 & X6). exists SB, SA. split; [exact X2|]. split; [exact X1|]. split; [exact X4|]. split; [exact X3|]. split; [intros x Y Z; exact (X5 x Z Y) | intros x [Y|Y]; apply X6; auto]. Qed.
(** the values of b are those of before, whatever kind of object it is *)
Definition same_values (h h' : heap) (b : addr) : Prop :=
  (forall v, index_is h b v -> index_is h' b v) /\ (forall v, coll_is h b v -> coll_is h' b v) /\ (forall v, db_is h b v -> db_is h' b v).
Lemma same_values_refl h b : same_values h h b.
Proof. repeat split; auto. Qed.
Lemma step_separate h a b o : heap_ok h -> separate h a b -> oper_safe o ->
  heap_ok (ostep1 a o h) /\ separate (ostep1 a o h) a b /\ same_values h (ostep1 a o h) b.
Proof.
  intros Ok (SA & SB & Sa & Sb & Ca & Cb & Dj & Lt) Sf. unfold ostep1. destruct (orun1 a o h) as [[h' u]|] eqn:E; [|split; [exact Ok|]; split; [exists SA, SB; auto 10 | apply same_values_refl]].
  set (P := fun x => SA x \/ (h_next h <= x)%nat). destruct Ok as [O1 O2].
  assert (I : inv P h).
  { split; [split; assumption| |]; unfold P.
    - intros x c p [Sx|Lx] G Hp; [left; eapply Ca; eassumption | rewrite (O1 x Lx) in G; discriminate].
    - auto. }
  assert (Oa : own P (h_next h) [a]) by (apply own_one; [left; exact Sa | apply Lt; auto]).
  destruct (tri_orun1 P (h_next h) a o Oa Sf h h' u I (Nat.le_refl _) E) as ([[O1' O2'] Cl Fr] & L & F & _).
  assert (FB : forall x, SB x -> h_cell h' x = h_cell h x).
  { intros x Sx. apply F. intros [X|X]; [exact (Dj x X Sx) | pose proof (Lt x (or_intror Sx)); lia]. }
  split; [split; assumption|]. split.
  - exists (fun x => P x /\ (x < h_next h')%nat), SB. split; [split; [left; exact Sa | pose proof (Lt a (or_introl Sa)); lia]|]. split; [exact Sb|]. split; [|split; [|split]].
    + intros x c p [Px Lx] G Hp. split; [eapply Cl; eassumption | eapply O2'; eassumption].
    + intros x c p Sx G Hp. rewrite (FB x Sx) in G. eapply Cb; eassumption.
    + intros x [[X|X] _] Sx; [exact (Dj x X Sx) | pose proof (Lt x (or_intror Sx)); lia].
    + intros x [[_ X]|X]; [exact X | pose proof (Lt x (or_intror X)); lia].
  - assert (Eq : forall x c, SB x -> h_cell h x = Some c -> h_cell h' x = Some c) by (intros x c Sx G; rewrite (FB x Sx); exact G).
    split; [|split]; intros v Hv; [exact (index_frame h h' SB Cb Eq b v Sb Hv) | exact (coll_frame h h' SB Cb Eq b v Sb Hv) | exact (db_frame h h' SB Cb Eq b v Sb Hv)].
Qed.
Lemma run_separate a b os : forall h, heap_ok h -> separate h a b -> Forall (fun p => oper_safe (snd p)) os -> heap_ok (orun2 a b os h) /\ separate (orun2 a b os h) a b.
Proof.
  induction os as [|[w o] os IH]; intros h Ok Sp F; [auto|]. inversion F as [|? ? F1 F2]. subst. cbn [snd] in F1. unfold orun2. cbn [fold_left fst snd]. destruct w.
  - destruct (step_separate h a b o Ok Sp F1) as (X1 & X2 & _). apply IH; assumption.
  - destruct (step_separate h b a o Ok (separate_sym _ _ _ Sp) F1) as (X1 & X2 & _). apply IH; [exact X1 | apply separate_sym; exact X2 | exact F2].
Qed.
(** and clones are separate *)
Lemma clone_separate (f : addr -> H addr) : (forall P n p, tri P n (f p) (fun n' x => own P n' [x])) -> forall h a h' a', heap_ok h -> (a < h_next h)%nat -> f a h = Some (h', a') -> heap_ok h' /\ separate h' a a'.
Proof.
  intros Hf h a h' a' Ok La E. set (P := fun x => (h_next h <= x)%nat).
  assert (I : inv P h). { split; [exact Ok| |]; unfold P; [intros x c p Lx G; destruct Ok as [O1 _]; rewrite (O1 x Lx) in G; discriminate | auto]. }
  destruct (Hf P (h_next h) a h h' a' I (Nat.le_refl _) E) as ([[O1 O2] Cl Fr] & L & F & Ow).
  split; [split; assumption|]. exists (fun x => (x < h_next h)%nat), (fun x => P x /\ (x < h_next h')%nat). split; [exact La|]. split; [split; [apply (proj2 Ow); left; reflexivity | apply (proj1 Ow); left; reflexivity]|]. split; [|split; [|split]].
    + intros x c p Lx G Hp. rewrite F in G by (unfold P; lia). destruct Ok as [_ O2h]. eapply O2h; eassumption.
    + intros x c p [Px Lx] G Hp. split; [exact (Cl x c p Px G Hp) | exact (O2 x c p G Hp)].
    + intros x Lx [Px _]. unfold P in Px. lia.
    + intros x [Lx|[_ Lx]]; lia.
Qed.

