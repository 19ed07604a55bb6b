(** Model of the database object of the older document package, /repo/document/db.go: opening collections by name,
    for any number of DB objects (processes) on one store, under any schedule. *)
From Verif Require Import Bytes SMap Provider ProviderProofs World Memcmp MemcmpProofs Numeric KvUtil UtilTxn TxPost Sequence SequenceProofs OldSequence DocKeys P_DocKeys.

(** keys.go:30-34, db.go:44-52, 104-109 *)
Definition reservedKeywordCollection : bytes := str "collection".
Definition reservedKeywordIndex : bytes := str "index".
Definition collectionIDBandWidth : Z := 50.
Definition ErrEmptyCollectionName := ENamed (str "collection name cannot be empty").
Definition ErrCollectionNameForbiden := ENamed (str "collection name is a reserved keyword").
Definition ErrAlreadyClosed := ENamed (str "document db already closed").
Definition ErrAlreadyClosing := ENamed (str "document db already closing").

(** A call of DB.Collection that is inside getCollectionID (db.go:164-201): the transaction has read the name and found
    nothing, and the id is being drawn from the sequence; or it has been drawn. *)
Inductive gcall := GWait (name : bytes) (t : txn) | GHas (name : bytes) (t : txn) (v : Z).
(** DB objects, db.go:18-28: collectionSequence (inside gw_o), the mutex (one [gcall] at a time), the cache of opened
    collections (here: their ids) and whether Close has begun. *)
Record gworld := GW { gw_o : oworld; gw_call : nat -> option gcall; gw_cache : nat -> bytes -> option Z; gw_closed : nat -> bool }.
Definition gw_db (w : gworld) : db := ow_db (gw_o w).

(** [after]: the outcome of the rest of newCollection (collection.go:34-52: the document sequence and getIndexes,
    whose own transactions are [GForeign] events); on failure the id is stored but the collection is not cached *)
Inductive gev :=
| GNewDB (i : nat)                                  (* NewDB starts *)
| GSeq (i : nat) (lim : list bool) (io : bool)      (* the sequence call of object i completes *)
| GOpen (i : nat) (name : bytes) (lim : list bool) (after : option err)
| GNext (i : nat)                                   (* getCollectionID calls Next *)
| GPut (i : nat) (io : bool) (after : option err)  (* it writes the id and commits *)
| GClose (i : nat)
| GCrash (who : nat -> bool)
| GForeign (t : txn) (io : bool)
| GTick (n : nat).
Definition gobs := option (bytes * result Z).   (* a call of Collection returned: the name and the id *)

Definition gset_o (w : gworld) (o : oworld) : gworld := GW o (gw_call w) (gw_cache w) (gw_closed w).
Definition gset_call (w : gworld) (i : nat) (c : option gcall) : gworld := GW (gw_o w) (fupd (gw_call w) i c) (gw_cache w) (gw_closed w).
Definition gfinish (w : gworld) (i : nat) (name : bytes) (id : Z) (after : option err) : gworld * gobs :=
  match after with
  | None => (GW (gw_o w) (gw_call w) (fun j n => if Nat.eqb j i && bytes_eqb n name then Some id else gw_cache w j n) (gw_closed w), Some (name, Ok id))
  | Some e => (w, Some (name, Err e))
  end.
Notation oK := reservedKeywordCollection.
Definition gstep (w : gworld) (e : gev) : gworld * gobs :=
  match e with
  | GNewDB i => match ow_seq (gw_o w) i with
                | Some _ => (w, None)
                | None => (gset_o w (fst (ostep oK (gw_o w) (OBegin i (OcNew collectionIDBandWidth)))), None)
                end
  | GSeq i lim io =>
      let '(o, r) := ostep oK (gw_o w) (OEnd i lim io) in
      match gw_call w i, r with
      | Some (GWait name t), Some (Ok v) => (gset_call (gset_o w o) i (Some (GHas name t v)), None)
      | Some (GWait name t), Some (Err e) => (gset_call (gset_o w o) i None, Some (name, Err e))
      | Some (GWait name t), Some Panic => (gset_call (gset_o w o) i None, Some (name, Panic))
      | _, _ => (gset_o w o, None)
      end
  (* Collection, db.go:55-99, and the first half of getCollectionID *)
  | GOpen i name lim after =>
      match gw_call w i, ow_seq (gw_o w) i with
      | None, Some _ =>
          match name with
          | [] => (w, Some (name, Err ErrEmptyCollectionName))
          | _ =>
          if bytes_eqb name reservedKeywordCollection || bytes_eqb name reservedKeywordIndex then (w, Some (name, Err ErrCollectionNameForbiden))
          else if gw_closed w i then (w, Some (name, Err (match ow_call (gw_o w) i with Some _ => ErrAlreadyClosing | None => ErrAlreadyClosed end)))
          else match ow_call (gw_o w) i with
          | Some _ => (w, None)
          | None =>
          match gw_cache w i name with
          | Some id => (w, Some (name, Ok id))
          | None =>
              match tget (cnameKey name) (new_txn (gw_db w) true lim) with
              | (t, Ok v) => match DecodeFromBinary v with
                             | Some u => gfinish w i name (to_i64 u) after
                             | None => (w, Some (name, Err EDecode))
                             end
              | (t, Err ErrKeyNotFound) => (gset_call w i (Some (GWait name t)), None)
              | (t, Err e) => (w, Some (name, Err e))
              | (t, Panic) => (w, Some (name, Panic))
              end
          end end end
      | _, _ => (w, None)
      end
  | GNext i => match gw_call w i with
               | Some (GWait _ _) => (gset_o w (fst (ostep oK (gw_o w) (OBegin i OcNext))), None)
               | _ => (w, None)
               end
  | GPut i io after =>
      match gw_call w i with
      | Some (GHas name t v) =>
          match tset (cnameKey name) (Encode2Binary v []) t with
          | (t2, Ok _) =>
              match commit (gw_db w) t2 io with
              | (_, _, Ok _) => gfinish (gset_call (gset_o w (fst (ostep oK (gw_o w) (OForeign t2 io)))) i None) i name (to_i64 v) after
              | (_, _, Err e) => (gset_call w i None, Some (name, Err e))
              | (_, _, Panic) => (gset_call w i None, Some (name, Panic))
              end
          | (_, Err e) => (gset_call w i None, Some (name, Err e))
          | (_, Panic) => (gset_call w i None, Some (name, Panic))
          end
      | _ => (w, None)
      end
  (* Close, db.go:129-152: waits for the calls in progress, then releases (once) *)
  | GClose i => match gw_call w i, gw_closed w i with
                | None, false => (GW (fst (ostep oK (gw_o w) (OBegin i OcRelease))) (gw_call w) (gw_cache w) (fun j => if Nat.eqb j i then true else gw_closed w j), None)
                | _, _ => (w, None)
                end
  | GCrash who => (GW (fst (ostep oK (gw_o w) (OCrash who))) (fun j => if who j then None else gw_call w j)
                      (fun j n => if who j then None else gw_cache w j n) (fun j => if who j then false else gw_closed w j), None)
  | GForeign t io => (gset_o w (fst (ostep oK (gw_o w) (OForeign t io))), None)
  | GTick n => (gset_o w (fst (ostep oK (gw_o w) (OTick n))), None)
  end.
Fixpoint grun (w : gworld) (es : list gev) : gworld * list gobs :=
  match es with
  | [] => (w, [])
  | e :: es' => let '(w1, r) := gstep w e in let '(w2, rs) := grun w1 es' in (w2, r :: rs)
  end.
(** no DB object yet *)
Definition gstart (d : db) : gworld := GW (OW d (fun _ => None) (fun _ => None)) (fun _ => None) (fun _ _ => None) (fun _ => false).
(** other transactions leave the id counter and the names alone *)
Definition g_allowed (e : gev) : Prop :=
  match e with
  | GForeign t _ => get (t_pend t) (EncodeMetaSequenceKey oK) = None /\ forall n, get (t_pend t) (cnameKey n) = None
  | _ => True
  end.
(** the successful calls: names and ids *)
Definition opened (rs : list gobs) : list (bytes * Z) :=
  concat (map (fun r => match r with Some (n, Ok id) => [(n, id)] | _ => [] end) rs).

(** * Proofs *)
Lemma cname_nonempty n : cnameKey n <> [].
Proof. unfold cnameKey. rewrite EncodeBytes_app. discriminate. Qed.
Lemma cname_not_counter n : cnameKey n <> EncodeMetaSequenceKey oK.
Proof. intros E. apply (C48_keys_never_collide (KCollection n) (KSequence oK) I I) in E. discriminate. Qed.
Lemma cname_inj n n' : cnameKey n = cnameKey n' -> n = n'.
Proof. intros E. apply (C48_keys_never_collide (KCollection n) (KCollection n') I I) in E. cbn in E. congruence. Qed.

Lemma lease_frame d0 d1 lim io s d' s' r k : o_updateLease d0 d1 lim io s = (d', s', r) -> k <> o_key s ->
  get (d_kv d') k = get (d_kv d1) k.
Proof.
  intros E Nk. unfold o_updateLease in E.
  destruct (tget (o_key s) (new_txn d0 true lim)) as [t rg] eqn:Eg.
  assert (P : t_pend t = empty).
  { destruct (o_key s) as [|b0 k0] eqn:Ek; [unfold tget, tgetm, map_err, bget, bind in Eg; inversion Eg; reflexivity|].
    apply tget_post in Eg; [|reflexivity | discriminate]. destruct Eg as [-> _]. apply pend_track. }
  assert (F : forall num, (let lease := to_u64 (num + o_bw s) in
          let s1 := OSeq (o_key s) (o_bw s) num (o_leased s) in
          match tset (o_key s) (Encode2Binary lease []) t with
          | (_, Err e) => (d1, s1, Err e)
          | (_, Panic) => (d1, s1, Panic)
          | (t2, Ok _) =>
              match commit d1 t2 io with
              | (d, _, Ok _) => (d, OSeq (o_key s) (o_bw s) num lease, Ok tt)
              | (d, _, Err e) => (d, s1, Err e)
              | (d, _, Panic) => (d, OSeq (o_key s) (o_bw s) num lease, Panic)
              end
          end) = (d', s', r) -> get (d_kv d') k = get (d_kv d1) k).
  { intros num. cbv zeta. destruct (tset (o_key s) (Encode2Binary (to_u64 (num + o_bw s)) []) t) as [t2 r2] eqn:Es.
    destruct r2 as [u|e|]; [|intros X; apply pair3_inj in X; destruct X as (<- & _); reflexivity ..].
    apply tset_ok in Es. destruct Es as [l ->].
    destruct (commit d1 (put (o_key s) (Some (mk (Encode2Binary (to_u64 (num + o_bw s)) []))) l t) io) as [[d2 t4] rc] eqn:Ec.
    intros X. assert (D : d' = d2) by (destruct rc as [u'|e|]; apply pair3_inj in X; destruct X as (<- & _); reflexivity). subst d2.
    destruct (commit_cases _ _ _ _ _ _ Ec) as [(_ & Kv & _)|[_ ->]]; [|reflexivity].
    rewrite Kv, get_put, P, get_empty. replace (bytes_eqb k (o_key s)) with false by (symmetry; apply bytes_eqb_neq; exact Nk). reflexivity. }
  destruct rg as [v|e|]; [destruct (DecodeFromBinary v) as [z|] | destruct e | ]; try (exact (F _ E)); apply pair3_inj in E; destruct E as (<- & _); reflexivity.
Qed.
Lemma ostep_frame B rem K w used c e k : oinv B K rem w used c -> match e with OForeign _ _ => False | _ => True end -> k <> EncodeMetaSequenceKey K ->
  get (d_kv (ow_db (fst (ostep K w e)))) k = get (d_kv (ow_db w)) k.
Proof.
  intros I F Nk. destruct e as [i q|i lim io|who|t io|n]; cbn [ostep]; try contradiction; try reflexivity.
  - destruct (ow_call w i); [reflexivity|]. destruct q, (ow_seq w i); reflexivity.
  - destruct (ow_call w i) as [[d0 q]|]; [|reflexivity]. destruct q as [bw| |].
    + unfold o_New. destruct K as [|b K']; [reflexivity|]. destruct (bw =? 0); [reflexivity|].
      destruct (o_updateLease d0 (ow_db w) lim io (OSeq (EncodeMetaSequenceKey (b :: K')) bw 0 0)) as [[d s] r] eqn:E. cbn [fst ow_db].
      exact (lease_frame _ _ _ _ _ _ _ _ k E Nk).
    + destruct (ow_seq w i) as [s|] eqn:Hs; [|reflexivity]. destruct (oi_obj _ _ _ _ _ _ I i s Hs) as (Ky & _). unfold o_Next.
      destruct (o_leased s <=? o_next s); [|reflexivity].
      destruct (o_updateLease d0 (ow_db w) lim io s) as [[d s1] r] eqn:E. assert (X := lease_frame _ _ _ _ _ _ _ _ k E ltac:(rewrite Ky; exact Nk)).
      destruct r; exact X.
    + destruct (ow_seq w i) as [s|]; [|reflexivity]. unfold o_Release. destruct (o_leased s =? o_next s); [reflexivity|].
      destruct (tset (o_key s) (Encode2Binary (o_next s) []) (new_txn d0 true lim)) as [t2 [u|e|]]; reflexivity.
Qed.
Lemma ostep_txok B rem K w used c e tj : oinv B K rem w used c -> tx_ok (ow_db w) tj -> tx_ok (ow_db (fst (ostep K w e))) tj.
Proof.
  intros I T. pose proof (oi_db _ _ _ _ _ _ I) as Dk.
  assert (L : forall d0 lim io s d' s' r, o_updateLease d0 (ow_db w) lim io s = (d', s', r) -> tx_ok d' tj).
  { intros d0 lim io s d' s' r E. unfold o_updateLease in E. destruct (tget (o_key s) (new_txn d0 true lim)) as [t rg].
    assert (F : forall num, (let lease := to_u64 (num + o_bw s) in
          let s1 := OSeq (o_key s) (o_bw s) num (o_leased s) in
          match tset (o_key s) (Encode2Binary lease []) t with
          | (_, Err e) => (ow_db w, s1, Err e)
          | (_, Panic) => (ow_db w, s1, Panic)
          | (t2, Ok _) =>
              match commit (ow_db w) t2 io with
              | (d, _, Ok _) => (d, OSeq (o_key s) (o_bw s) num lease, Ok tt)
              | (d, _, Err e) => (d, s1, Err e)
              | (d, _, Panic) => (d, OSeq (o_key s) (o_bw s) num lease, Panic)
              end
          end) = (d', s', r) -> tx_ok d' tj).
    { intros num. cbv zeta. destruct (tset (o_key s) (Encode2Binary (to_u64 (num + o_bw s)) []) t) as [t2 [u|e1|]];
        [|intros X; apply pair3_inj in X; destruct X as (<- & _); exact T ..].
      destruct (commit (ow_db w) t2 io) as [[d2 t4] rc] eqn:Ec.
      intros X. assert (D : d' = d2) by (destruct rc as [u'|e1|]; apply pair3_inj in X; destruct X as (<- & _); reflexivity). subst d2.
      eapply commit_tx_ok; [exact Dk | exact Ec | exact T]. }
    destruct rg as [v|e1|]; [destruct (DecodeFromBinary v) as [z|] | destruct e1 | ]; try (exact (F _ E)); apply pair3_inj in E; destruct E as (<- & _); exact T. }
  destruct e as [i q|i lim io|who|t io|n]; cbn [ostep]; try exact T.
  - destruct (ow_call w i); [exact T|]. destruct q, (ow_seq w i); exact T.
  - destruct (ow_call w i) as [[d0 q]|]; [|exact T]. destruct q as [bw| |].
    + unfold o_New. destruct K as [|b K']; [exact T|]. destruct (bw =? 0); [exact T|].
      destruct (o_updateLease d0 (ow_db w) lim io (OSeq (EncodeMetaSequenceKey (b :: K')) bw 0 0)) as [[d s] r] eqn:E. exact (L _ _ _ _ _ _ _ E).
    + destruct (ow_seq w i) as [s|] eqn:Hs; [|exact T]. unfold o_Next. destruct (o_leased s <=? o_next s); [|exact T].
      destruct (o_updateLease d0 (ow_db w) lim io s) as [[d s1] r] eqn:E. assert (X := L _ _ _ _ _ _ _ E). destruct r; exact X.
    + destruct (ow_seq w i) as [s|]; [|exact T]. unfold o_Release. destruct (o_leased s =? o_next s); [exact T|].
      destruct (tset (o_key s) (Encode2Binary (o_next s) []) (new_txn d0 true lim)) as [t2 [u|e|]]; exact T.
  - destruct (commit (ow_db w) t io) as [[d2 t2] r2] eqn:E. cbn [fst ow_db]. eapply commit_tx_ok; [exact Dk | exact E | exact T].
Qed.

(** [stored m n u]: the store maps the collection name n to the id u *)
Definition stored (m : smap ent) (n : bytes) (u : Z) : Prop := get m (cnameKey n) = Some (mk (Encode2Binary u [])).
Lemma stored_fun m n u u' : is_u64 u -> is_u64 u' -> stored m n u -> stored m n u' -> u = u'.
Proof. unfold stored. intros A B H1 H2. rewrite H1 in H2. apply bin_inj; [assumption..|]. exact (f_equal (fun o => match o with Some e => e_val e | None => [] end) H2). Qed.
Definition waiting (w : gworld) (i : nat) (n : bytes) (t : txn) : Prop := gw_call w i = Some (GWait n t) \/ exists v, gw_call w i = Some (GHas n t v).
Record ginv (rem : Z) (w : gworld) (used : list Z) (c : Z) : Prop := {
  gi_o : oinv collectionIDBandWidth oK rem (gw_o w) used c;
  gi_c : c + collectionIDBandWidth * rem < two63;
  gi_pos : forall v, In v used -> 0 <= v;
  gi_st : forall n e, get (d_kv (gw_db w)) (cnameKey n) = Some e -> exists u, stored (d_kv (gw_db w)) n u /\ In u used;
  gi_inj : forall n n' u, In u used -> stored (d_kv (gw_db w)) n u -> stored (d_kv (gw_db w)) n' u -> n = n';
  gi_wait : forall i n t, waiting w i n t -> tx_ok (gw_db w) t /\ In (cnameKey n) (t_reads t) /\ t_pend t = empty /\ get (t_snap t) (cnameKey n) = None;
  gi_has : forall i n t v, gw_call w i = Some (GHas n t v) -> In v used /\ (forall n', ~ stored (d_kv (gw_db w)) n' v) /\
    forall j n' t' v', j <> i -> gw_call w j = Some (GHas n' t' v') -> v' <> v;
  gi_cache : forall i n id, gw_cache w i n = Some id -> In id used /\ stored (d_kv (gw_db w)) n id }.

Section ginv.
Notation BW := collectionIDBandWidth.
Lemma ids_app_pos o used : (forall v, In v used -> 0 <= v) -> (forall v, In v (ids1 o) -> 0 <= v) -> forall v, In v (ids1 o ++ used) -> 0 <= v.
Proof. intros A B v H. apply in_app_or in H. destruct H; auto. Qed.
Lemma ostep_ids_pos rem w used c i lim io v : oinv BW oK rem w used c -> In v (ids1 (snd (ostep oK w (OEnd i lim io)))) -> 0 <= v.
Proof.
  intros I. cbn [ostep]. destruct (ow_call w i) as [[d0 q]|]; [|intros []]. destruct q as [bw| |].
  - destruct (o_New d0 (ow_db w) lim io oK bw) as [[d s] r]. intros [].
  - destruct (ow_seq w i) as [s|]; [|intros []]. unfold o_Next.
    destruct (if o_leased s <=? o_next s then o_updateLease d0 (ow_db w) lim io s else (ow_db w, s, Ok tt)) as [[d s1] [u|e|]]; cbn [snd ids1]; [|intros []|intros []].
    intros [<-|[]]. unfold to_u64. apply Z.mod_pos_bound. reflexivity.
  - destruct (ow_seq w i) as [s|]; [|intros []]. destruct (o_Release d0 (ow_db w) lim s) as [[d s1] r]. intros [].
Qed.
Lemma ostep_ids_end w e : match e with OEnd _ _ _ => True | _ => ids1 (snd (ostep oK w e)) = [] end.
Proof.
  destruct e as [i q|i lim io|who|t io|n]; cbn [ostep]; try exact I; try reflexivity.
  - destruct (ow_call w i); [reflexivity|]. destruct q, (ow_seq w i); reflexivity.
  - destruct (commit (ow_db w) t io) as [[d2 t2] r2]. reflexivity.
Qed.
Lemma ginv_move rem w used c e calls cache closed :
  0 <= rem -> ginv (rem + 1) w used c -> o_allowed BW oK e ->
  (forall n, get (d_kv (ow_db (fst (ostep oK (gw_o w) e)))) (cnameKey n) = get (d_kv (gw_db w)) (cnameKey n)) ->
  (forall i, calls i = None \/ calls i = gw_call w i) ->
  (forall i n, cache i n = None \/ cache i n = gw_cache w i n) ->
  (forall v, In v (ids1 (snd (ostep oK (gw_o w) e))) -> ~ In v used) /\
  exists c', ginv rem (GW (fst (ostep oK (gw_o w) e)) calls cache closed) (ids1 (snd (ostep oK (gw_o w) e)) ++ used) c'.
Proof.
  intros R I A Fr Hca Hch. destruct I as [I1 I2 I3 I4 I5 I6 I7 I8].
  destruct (ostep_inv BW oK ltac:(reflexivity) rem (gw_o w) used c e R I1 A) as ((N1 & F1) & c' & Lc & I1'). split; [exact F1|]. exists c'.
  assert (Tx : forall tj, tx_ok (gw_db w) tj -> tx_ok (ow_db (fst (ostep oK (gw_o w) e))) tj) by (intros tj; eapply ostep_txok; exact I1).
  assert (Po : forall v, In v (ids1 (snd (ostep oK (gw_o w) e))) -> 0 <= v).
  { intros v. pose proof (ostep_ids_end (gw_o w) e) as X. destruct e; try (rewrite X; intros []). eapply ostep_ids_pos; exact I1. }
  assert (WT : forall i n t, waiting (GW (fst (ostep oK (gw_o w) e)) calls cache closed) i n t -> waiting w i n t).
  { intros i n t. unfold waiting. cbn [gw_call]. destruct (Hca i) as [-> | ->]; [intros [X|(v & X)]; discriminate | auto]. }
  split; unfold gw_db in *; cbn [gw_o gw_call gw_cache] in *.
  - exact I1'.
  - lia.
  - apply ids_app_pos; assumption.
  - intros n e0. unfold stored. rewrite Fr. intros H. destruct (I4 n e0 H) as (u & S1 & S2). exists u. split; [exact S1 | apply in_or_app; auto].
  - intros n n' u Hu. unfold stored. rewrite !Fr. intros S1 S2. destruct (I4 n _ S1) as (u' & S1' & U').
    apply in_app_or in Hu. destruct Hu as [Hu|Hu]; [|exact (I5 n n' u Hu S1 S2)].
    assert (u' = u). { assert (RU : forall x, 0 <= x -> x <= c' -> is_u64 x). { intros x X1 X2. unfold is_u64. rewrite two63_val in I2. rewrite two64_val. unfold BW in *. nia. }
      apply (stored_fun (d_kv (ow_db (gw_o w))) n); [| |exact S1'|exact S1]; apply RU; try (apply I3; exact U'); try (apply Po; exact Hu).
      - apply (oi_used _ _ _ _ _ _ I1'). apply in_or_app. auto.
      - apply (oi_used _ _ _ _ _ _ I1'). apply in_or_app. auto. }
    subst u'. exact (I5 n n' u U' S1 S2).
  - intros i n t Hw. destruct (I6 i n t (WT i n t Hw)) as (T1 & T2 & T3 & T4). split; [apply Tx; exact T1 | auto].
  - intros i n t v. destruct (Hca i) as [-> | ->]; [discriminate|]. intros H. destruct (I7 i n t v H) as (U1 & U2 & U3).
    split; [apply in_or_app; auto|]. split; [intros n'; unfold stored; rewrite Fr; apply U2|].
    intros j n' t' v' Nj. destruct (Hca j) as [-> | ->]; [discriminate | apply U3; exact Nj].
  - intros i n id. destruct (Hch i n) as [-> | ->]; [discriminate|]. intros H. destruct (I8 i n id H) as [U1 U2].
    split; [apply in_or_app; auto|]. unfold stored. rewrite Fr. exact U2.
Qed.
(** the world does not change at all (or only drops calls) *)
Lemma ginv_drop rem w used c calls cache : 0 <= rem -> ginv (rem + 1) w used c ->
  (forall i, calls i = None \/ calls i = gw_call w i) -> (forall i n, cache i n = None \/ cache i n = gw_cache w i n) ->
  ginv rem (GW (gw_o w) calls cache (gw_closed w)) used c.
Proof.
  intros R [I1 I2 I3 I4 I5 I6 I7 I8] Hca Hch. split; unfold gw_db in *; cbn [gw_o gw_call gw_cache] in *; try assumption.
  - apply oinv_rem; [reflexivity | exact R | exact I1].
  - unfold BW in *. lia.
  - intros i n t. unfold waiting. cbn [gw_call]. destruct (Hca i) as [-> | ->]; [intros [X|(v & X)]; discriminate | apply (I6 i n t)].
  - intros i n t v. destruct (Hca i) as [-> | ->]; [discriminate|]. intros H. destruct (I7 i n t v H) as (U1 & U2 & U3). split; [exact U1|]. split; [exact U2|].
    intros j n' t' v' Nj. destruct (Hca j) as [-> | ->]; [discriminate | apply U3; exact Nj].
  - intros i n id. destruct (Hch i n) as [-> | ->]; [discriminate | apply (I8 i n id)].
Qed.
Lemma ginv_call rem w used c i n t : ginv rem w used c -> tx_ok (gw_db w) t -> In (cnameKey n) (t_reads t) -> t_pend t = empty -> get (t_snap t) (cnameKey n) = None ->
  ginv rem (gset_call w i (Some (GWait n t))) used c.
Proof.
  intros [I1 I2 I3 I4 I5 I6 I7 I8] T1 T2 T3 T4. split; unfold gw_db in *; cbn [gset_call gw_o gw_call gw_cache] in *; try assumption.
  - intros j n' t'. unfold waiting. cbn [gset_call gw_call]. destruct (Nat.eq_dec j i) as [->|N].
    + rewrite fupd_eq. intros [X|(v & X)]; [|discriminate]. inversion X. subst. auto.
    + rewrite fupd_ne by exact N. apply (I6 j n' t').
  - intros j n' t' v'. destruct (Nat.eq_dec j i) as [->|N]; [rewrite fupd_eq; discriminate|]. rewrite fupd_ne by exact N. intros H.
    destruct (I7 j n' t' v' H) as (U1 & U2 & U3). split; [exact U1|]. split; [exact U2|]. intros k n2 t2 v2 Nk.
    destruct (Nat.eq_dec k i) as [->|Nki]; [rewrite fupd_eq; discriminate|]. rewrite fupd_ne by exact Nki. apply U3; exact Nk.
Qed.
Lemma ginv_got rem w used c i n t v : ginv rem w used c -> gw_call w i = Some (GWait n t) -> In v used -> (forall n', ~ stored (d_kv (gw_db w)) n' v) ->
  (forall j n' t' v', gw_call w j = Some (GHas n' t' v') -> v' <> v) -> ginv rem (gset_call w i (Some (GHas n t v))) used c.
Proof.
  intros [I1 I2 I3 I4 I5 I6 I7 I8] Hc Hv Ns Dj. split; unfold gw_db in *; cbn [gset_call gw_o gw_call gw_cache] in *; try assumption.
  - intros j n' t'. unfold waiting. cbn [gset_call gw_call]. destruct (Nat.eq_dec j i) as [->|N].
    + rewrite fupd_eq. intros [X|(v' & X)]; [discriminate|]. inversion X. subst. apply (I6 i n' t'). left. exact Hc.
    + rewrite fupd_ne by exact N. apply (I6 j n' t').
  - intros j n' t' v'. destruct (Nat.eq_dec j i) as [->|N].
    + rewrite fupd_eq. intros X. inversion X. subst. split; [exact Hv|]. split; [exact Ns|]. intros k n2 t2 v2 Nk. rewrite fupd_ne by exact Nk. apply Dj.
    + rewrite fupd_ne by exact N. intros H. destruct (I7 j n' t' v' H) as (U1 & U2 & U3). split; [exact U1|]. split; [exact U2|]. intros k n2 t2 v2 Nk.
      destruct (Nat.eq_dec k i) as [->|Nki]; [|rewrite fupd_ne by exact Nki; apply U3; exact Nk]. rewrite fupd_eq. intros X. inversion X. subst.
      intros E. apply (Dj j n' t' v' H). symmetry. exact E.
Qed.
Lemma ginv_cached rem w used c i n id after : ginv rem w used c -> stored (d_kv (gw_db w)) n id -> In id used ->
  ginv rem (fst (gfinish w i n id after)) used c.
Proof.
  intros I S U. destruct after as [e|]; [exact I|]. destruct I as [I1 I2 I3 I4 I5 I6 I7 I8]. split; unfold gw_db in *; cbn [gfinish fst gw_o gw_call gw_cache] in *; try assumption.
  intros j n' id'. destruct (Nat.eqb j i && bytes_eqb n' n) eqn:E; [|apply I8].
  apply andb_prop in E. destruct E as [_ E]. apply bytes_eqb_eq in E. subst n'. intros X. inversion X. subst. auto.
Qed.
(** the id is written: nobody else has the name or the id *)
Lemma ginv_put rem w used c i n t v l io d' t' : 0 <= rem -> ginv (rem + 1) w used c -> gw_call w i = Some (GHas n t v) ->
  commit (gw_db w) (put (cnameKey n) (Some (mk (Encode2Binary v []))) l t) io = (d', t', Ok tt) ->
  let w' := gset_call (gset_o w (fst (ostep oK (gw_o w) (OForeign (put (cnameKey n) (Some (mk (Encode2Binary v []))) l t) io)))) i None in
  gw_db w' = d' /\ ginv rem w' used c /\ (forall n' u, stored (d_kv (gw_db w)) n' u -> stored (d_kv d') n' u) /\ stored (d_kv d') n v /\ In v used.
Proof.
  intros R [I1 I2 I3 I4 I5 I6 I7 I8] Hc Ec w'. set (t2 := put (cnameKey n) (Some (mk (Encode2Binary v []))) l t) in *.
  destruct (I6 i n t) as (T1 & T2 & T3 & T4); [right; exists v; exact Hc|]. destruct (I7 i n t v Hc) as (U1 & U2 & U3).
  assert (P : forall k, get (t_pend t2) k = if bytes_eqb k (cnameKey n) then Some (Some (mk (Encode2Binary v []))) else None).
  { intros k. unfold t2. rewrite get_put, T3, get_empty. reflexivity. }
  assert (Ne : entries (t_pend t2) <> []). { intros X. apply entries_nil_iff in X. specialize (P (cnameKey n)). rewrite X, get_empty, bytes_eqb_refl in P. discriminate. }
  destruct (commit_cases _ _ _ _ _ _ Ec) as [(_ & Kv & Nc)|[X _]]; [|congruence].
  assert (Ab : get (d_kv (gw_db w)) (cnameKey n) = None).
  { rewrite (conflict_free (gw_db w) t2 (cnameKey n)); [exact T4 | exact T1 | exact (Nc Ne) | exact T2]. }
  assert (Gn : stored (d_kv d') n v). { unfold stored. rewrite Kv, P, bytes_eqb_refl. reflexivity. }
  assert (Go : forall n', n' <> n -> get (d_kv d') (cnameKey n') = get (d_kv (gw_db w)) (cnameKey n')).
  { intros n' N. rewrite Kv, P. replace (bytes_eqb (cnameKey n') (cnameKey n)) with false; [reflexivity|]. symmetry. apply bytes_eqb_neq. intros E. apply N, cname_inj, E. }
  assert (Gs : forall n' u, stored (d_kv (gw_db w)) n' u -> stored (d_kv d') n' u).
  { intros n' u S. unfold stored in *. destruct (list_eq_dec Byte.byte_eq_dec n' n) as [->|N]; [congruence | rewrite Go by exact N; exact S]. }
  assert (W' : gw_db w' = d'). { unfold w', gset_call, gset_o, gw_db. cbn [gw_o ostep]. unfold gw_db in Ec. rewrite Ec. reflexivity. }
  split; [exact W'|]. split; [|auto].
  assert (Dk := oi_db _ _ _ _ _ _ I1). unfold gw_db in *.
  assert (Tx : forall tj, tx_ok (ow_db (gw_o w)) tj -> tx_ok d' tj) by (intros tj; eapply commit_tx_ok; [exact Dk | exact Ec]).
  assert (Cn : forall v0, In v0 used -> is_u64 v0).
  { intros v0 H0. destruct (oi_used _ _ _ _ _ _ I1 v0 H0) as [Lv _]. specialize (I3 v0 H0). unfold is_u64. rewrite two63_val in I2. rewrite two64_val. unfold BW in *. nia. }
  split; unfold gw_db in *; rewrite ?W'; cbn [w' gset_call gset_o gw_o gw_call gw_cache] in *.
  - cbn [ostep]. rewrite Ec. cbn [fst]. apply oinv_foreign; [apply oinv_rem; [reflexivity | exact R | exact I1] | | eapply commit_db_ok; [exact Dk | exact Ec] | exact Tx].
    rewrite Kv, P. replace (bytes_eqb (EncodeMetaSequenceKey oK) (cnameKey n)) with false; [reflexivity|]. symmetry. apply bytes_eqb_neq. intros E. apply (cname_not_counter n). symmetry. exact E.
  - unfold BW in *. lia.
  - exact I3.
  - intros n' e0. destruct (list_eq_dec Byte.byte_eq_dec n' n) as [->|N]; [exists v; auto|]. rewrite Go by exact N. intros H. destruct (I4 n' e0 H) as (u & S1 & S2). exists u. auto.
  - intros n1 n2 u Hu S1 S2.
    assert (Q : forall n', n' <> n -> stored (d_kv d') n' u -> stored (d_kv (ow_db (gw_o w))) n' u) by (intros n' N; unfold stored; rewrite Go by exact N; auto).
    assert (Qv : forall n', n' <> n -> stored (d_kv d') n u -> stored (d_kv d') n' u -> False).
    { intros n' N Sn Sn'. assert (u = v) by (apply (stored_fun (d_kv d') n); auto). subst u. exact (U2 n' (Q n' N Sn')). }
    destruct (list_eq_dec Byte.byte_eq_dec n1 n) as [->|N1], (list_eq_dec Byte.byte_eq_dec n2 n) as [->|N2]; [reflexivity | exfalso; eauto | exfalso; eauto |].
    apply (I5 n1 n2 u Hu); apply Q; assumption.
  - intros j n' t0. unfold waiting. cbn [gw_call gset_call]. destruct (Nat.eq_dec j i) as [->|N]; [unfold w', gset_call; cbn [gw_call]; rewrite fupd_eq; intros [X|(v' & X)]; discriminate|].
    unfold w', gset_call. cbn [gw_call]. rewrite fupd_ne by exact N. intros H. destruct (I6 j n' t0 H) as (A1 & A2 & A3 & A4). auto.
  - intros j n' t0 v0. destruct (Nat.eq_dec j i) as [->|N]; [rewrite fupd_eq; discriminate|]. rewrite fupd_ne by exact N. intros H. destruct (I7 j n' t0 v0 H) as (A1 & A2 & A3).
    split; [exact A1|]. split.
    + intros m S. destruct (list_eq_dec Byte.byte_eq_dec m n) as [->|Nm].
      * assert (v0 = v) by (apply (stored_fun (d_kv d') n); auto). subst v0. exact (A3 i n t v (not_eq_sym N) Hc eq_refl).
      * apply (A2 m). unfold stored in *. rewrite <- Go by exact Nm. exact S.
    + intros k n2 t3 v2 Nk. destruct (Nat.eq_dec k i) as [->|Nki]; [rewrite fupd_eq; discriminate|]. rewrite fupd_ne by exact Nki. apply A3. exact Nk.
  - intros j m id H. destruct (I8 j m id H) as [A1 A2]. auto.
Qed.

Definition gsame (w w' : gworld) : Prop := forall n u, stored (d_kv (gw_db w)) n u -> stored (d_kv (gw_db w')) n u.
Lemma gstep_inv rem w used c e : 0 <= rem -> ginv (rem + 1) w used c -> g_allowed e ->
  exists used' c', ginv rem (fst (gstep w e)) used' c' /\ incl used used' /\ gsame w (fst (gstep w e)) /\
    forall n id, snd (gstep w e) = Some (n, Ok id) -> stored (d_kv (gw_db (fst (gstep w e)))) n id /\ In id used'.
Proof.
  intros R I A.
  assert (U64 : forall v, In v used -> is_u64 v /\ to_i64 v = v).
  { intros v H. destruct (oi_used _ _ _ _ _ _ (gi_o _ _ _ _ I) v H) as [Lv _]. pose proof (gi_pos _ _ _ _ I v H) as Pv. pose proof (gi_c _ _ _ _ I) as Cv.
    unfold BW in Cv. split; [unfold is_u64; rewrite two63_val in Cv; rewrite two64_val; lia | apply to_i64_id; unfold is_i64; rewrite two63_val in *; lia]. }
  assert (SAME : forall w0 (o : gobs), w0 = w -> (forall n id, o = Some (n, Ok id) -> stored (d_kv (gw_db w)) n id /\ In id used) ->
     exists used' c', ginv rem (fst (w0, o)) used' c' /\ incl used used' /\ gsame w (fst (w0, o)) /\
       forall n id, snd (w0, o) = Some (n, Ok id) -> stored (d_kv (gw_db (fst (w0, o)))) n id /\ In id used').
  { intros w0 o -> Ho. exists used, c. cbn [fst snd]. split; [|split; [apply incl_refl | split; [intros n u H; exact H | exact Ho]]].
    pose proof (ginv_drop rem w used c (gw_call w) (gw_cache w) R I ltac:(auto) ltac:(auto)) as X. destruct w; exact X. }
  assert (DROPC : forall i (o : gobs), (forall n id, o = Some (n, Ok id) -> False) ->
     exists used' c', ginv rem (fst (gset_call w i None, o)) used' c' /\ incl used used' /\ gsame w (fst (gset_call w i None, o)) /\
       forall n id, snd (gset_call w i None, o) = Some (n, Ok id) -> stored (d_kv (gw_db (fst (gset_call w i None, o)))) n id /\ In id used').
  { intros i o Ho. exists used, c. cbn [fst snd]. split; [|split; [apply incl_refl | split; [intros n u H; exact H | intros n id H; destruct (Ho n id H)]]].
    apply (ginv_drop rem w used c (fupd (gw_call w) i None) (gw_cache w) R I); [|auto].
    intros j. destruct (Nat.eq_dec j i) as [->|N]; [left; apply fupd_eq | right; apply fupd_ne; exact N]. }
  assert (OSTEP : forall oe calls cache closed (o : gobs), match oe with OEnd _ _ _ => False | OForeign t _ => get (t_pend t) (EncodeMetaSequenceKey oK) = None /\ forall n, get (t_pend t) (cnameKey n) = None | _ => True end ->
     o_allowed BW oK oe -> (forall i, calls i = None \/ calls i = gw_call w i) -> (forall i n, cache i n = None \/ cache i n = gw_cache w i n) -> o = None ->
     exists used' c', ginv rem (fst (GW (fst (ostep oK (gw_o w) oe)) calls cache closed, o)) used' c' /\ incl used used' /\ gsame w (fst (GW (fst (ostep oK (gw_o w) oe)) calls cache closed, o)) /\
       forall n id, snd (GW (fst (ostep oK (gw_o w) oe)) calls cache closed, o) = Some (n, Ok id) -> stored (d_kv (gw_db (fst (GW (fst (ostep oK (gw_o w) oe)) calls cache closed, o)))) n id /\ In id used').
  { intros oe calls cache closed o He Ha Hc Hch ->.
    assert (Fr : forall n, get (d_kv (ow_db (fst (ostep oK (gw_o w) oe)))) (cnameKey n) = get (d_kv (gw_db w)) (cnameKey n)).
    { intros n. destruct oe as [i k|i lim io|who|t io|m]; try (eapply (ostep_frame BW (rem + 1) oK (gw_o w) used c); [exact (gi_o _ _ _ _ I) | exact He || exact Logic.I | apply cname_not_counter]).
      cbn [ostep]. destruct (commit (ow_db (gw_o w)) t io) as [[d2 t2] r2] eqn:E. cbn [fst ow_db]. destruct (commit_cases _ _ _ _ _ _ E) as [(_ & Kv & _)|[_ ->]]; [|reflexivity].
      rewrite Kv, (proj2 He n). reflexivity. }
    destruct (ginv_move rem w used c oe calls cache closed R I Ha Fr Hc Hch) as (_ & c' & J).
    pose proof (ostep_ids_end (gw_o w) oe) as X. destruct oe as [i k|i lim io|who|t io|m]; try contradiction; rewrite X in J; (exists used, c'; cbn [fst snd];
      split; [exact J|]; split; [apply incl_refl|]; split; [|discriminate]; intros n u; unfold stored, gw_db; cbn [gw_o]; rewrite Fr; auto). }
  destruct e as [i|i lim io|i name lim after|i|i io after|i|who|t io|m]; cbn [gstep].
  - destruct (ow_seq (gw_o w) i); [apply SAME; [reflexivity | discriminate]|].
    apply OSTEP; auto. cbn [o_allowed]. unfold BW. lia.
  - assert (Fr : forall n, get (d_kv (ow_db (fst (ostep oK (gw_o w) (OEnd i lim io))))) (cnameKey n) = get (d_kv (gw_db w)) (cnameKey n)).
    { intros n. eapply (ostep_frame BW (rem + 1) oK (gw_o w) used c); [exact (gi_o _ _ _ _ I) | exact Logic.I | apply cname_not_counter]. }
    destruct (ginv_move rem w used c (OEnd i lim io) (gw_call w) (gw_cache w) (gw_closed w) R I Logic.I Fr ltac:(auto) ltac:(auto)) as (Fd & c' & J).
    destruct (ostep oK (gw_o w) (OEnd i lim io)) as [o r]. cbn [fst snd] in *. fold (gset_o w o) in J.
    assert (GS : gsame w (gset_o w o)) by (intros n u; unfold stored, gset_o, gw_db; cbn [gw_o]; rewrite Fr; auto).
    assert (IC : incl used (ids1 r ++ used)) by (intros v H; apply in_or_app; auto).
    assert (BASE : exists used' c', ginv rem (gset_o w o) used' c' /\ incl used used' /\ gsame w (gset_o w o) /\
       forall n id, (None : gobs) = Some (n, Ok id) -> stored (d_kv (gw_db (gset_o w o))) n id /\ In id used').
    { exists (ids1 r ++ used), c'. split; [exact J|]. split; [exact IC|]. split; [exact GS | discriminate]. }
    assert (FAIL : forall name er, exists used' c', ginv rem (gset_call (gset_o w o) i None) used' c' /\ incl used used' /\ gsame w (gset_call (gset_o w o) i None) /\
       forall n id, (Some (name, er) : gobs) = Some (n, Ok id) -> (forall z, er <> Ok z) -> stored (d_kv (gw_db (gset_o w o))) n id /\ In id used').
    { intros name er. exists (ids1 r ++ used), c'. split; [|split; [exact IC|]; split; [exact GS | intros n id X Y; inversion X; exfalso; eapply Y; eassumption]].
      destruct J as [J1 J2 J3 J4 J5 J6 J7 J8]. split; unfold gw_db in *; cbn [gset_call gset_o gw_o gw_call gw_cache] in *; try assumption.
      - intros j n t. unfold waiting, gset_call, gset_o. cbn [gw_call]. destruct (Nat.eq_dec j i) as [->|N]; [rewrite fupd_eq; intros [X|(v & X)]; discriminate | rewrite fupd_ne by exact N; apply (J6 j n t)].
      - intros j n t v. destruct (Nat.eq_dec j i) as [->|N]; [rewrite fupd_eq; discriminate|]. rewrite fupd_ne by exact N. intros H. destruct (J7 j n t v H) as (U1 & U2 & U3).
        split; [exact U1|]. split; [exact U2|]. intros k n2 t2 v2 Nk. destruct (Nat.eq_dec k i) as [->|Nki]; [rewrite fupd_eq; discriminate|]. rewrite fupd_ne by exact Nki. apply U3; exact Nk. }
    destruct (gw_call w i) as [[name t|name t v]|] eqn:Hc; [|exact BASE ..]. destruct r as [[v|er|]|]; [| | |exact BASE].
    + exists (ids1 (Some (Ok v)) ++ used), c'. cbn [fst snd]. split; [|split; [exact IC|]; split; [exact GS | discriminate]].
      apply ginv_got; [exact J | exact Hc | left; reflexivity | |].
      * intros n' S. unfold stored, gset_o, gw_db in S. cbn [gw_o] in S. rewrite Fr in S. destruct (gi_st _ _ _ _ I n' _ S) as (u & S1 & S2).
        assert (u = v); [|subst u; exact (Fd v (or_introl eq_refl) S2)]. apply (stored_fun (d_kv (gw_db w)) n'); [apply (U64 u S2)| |exact S1|exact S].
        assert (In v (ids1 (Some (Ok v)) ++ used)) as Hv by (left; reflexivity). pose proof (gi_pos _ _ _ _ J v Hv). destruct (oi_used _ _ _ _ _ _ (gi_o _ _ _ _ J) v Hv) as [Lv _]. pose proof (gi_c _ _ _ _ J) as Cv.
        unfold BW in Cv. unfold is_u64. rewrite two63_val in Cv. rewrite two64_val. lia.
      * intros j n' t' v' H E. subst v'. destruct (gi_has _ _ _ _ I j n' t' v H) as [X _]. exact (Fd v (or_introl eq_refl) X).
    + destruct (FAIL name (Err er)) as (used' & c2 & X1 & X2 & X3 & X4). exists used', c2. cbn [fst snd]. split; [exact X1|]. split; [exact X2|]. split; [exact X3 | discriminate].
    + destruct (FAIL name Panic) as (used' & c2 & X1 & X2 & X3 & X4). exists used', c2. cbn [fst snd]. split; [exact X1|]. split; [exact X2|]. split; [exact X3 | discriminate].
  - destruct (gw_call w i) as [gc|] eqn:Hc; [apply SAME; [reflexivity | discriminate]|]. destruct (ow_seq (gw_o w) i) as [sq|]; [|apply SAME; [reflexivity | discriminate]].
    destruct name as [|b0 name']; [apply SAME; [reflexivity | discriminate]|]. set (name := b0 :: name') in *.
    destruct (bytes_eqb name oK || bytes_eqb name reservedKeywordIndex); [apply SAME; [reflexivity | discriminate]|].
    destruct (gw_closed w i); [apply SAME; [reflexivity | discriminate]|]. destruct (ow_call (gw_o w) i); [apply SAME; [reflexivity | discriminate]|].
    destruct (gw_cache w i name) as [id|] eqn:Ch.
    { apply SAME; [reflexivity|]. intros n id' X. inversion X. subst. destruct (gi_cache _ _ _ _ I i name id' Ch). auto. }
    destruct (tget (cnameKey name) (new_txn (gw_db w) true lim)) as [t r] eqn:Eg. apply tget_post in Eg; [|reflexivity | apply cname_nonempty]. destruct Eg as [-> Er].
    destruct (get (d_kv (gw_db w)) (cnameKey name)) as [e0|] eqn:G0.
    + destruct (gi_st _ _ _ _ I name e0 G0) as (u & S1 & S2). unfold stored in S1. rewrite S1 in G0. pose proof (get_view_fresh (gw_db w) true lim (cnameKey name) (Some (Encode2Binary u [])) S1) as V.
      cbn [option_map] in V. rewrite V in Er. subst r. cbn [mk e_val]. rewrite DecodeFromBinary_enc by (apply U64; exact S2). rewrite (proj2 (U64 u S2)).
      exists used, c. split; [|split; [apply incl_refl|split]].
      * apply ginv_cached; [|exact S1|exact S2]. pose proof (ginv_drop rem w used c (gw_call w) (gw_cache w) R I ltac:(auto) ltac:(auto)) as X. destruct w; exact X.
      * destruct after; intros n u' H; exact H.
      * destruct after; intros n id X; [discriminate|]. inversion X. subst. split; [exact S1 | exact S2].
    + pose proof (get_view_fresh (gw_db w) true lim (cnameKey name) None G0) as V. cbn [option_map] in V. rewrite V in Er. subst r.
      exists used, c. cbn [fst snd]. split; [|split; [apply incl_refl|split; [intros n u H; exact H | discriminate]]].
      apply ginv_call.
      * pose proof (ginv_drop rem w used c (gw_call w) (gw_cache w) R I ltac:(auto) ltac:(auto)) as X. destruct w; exact X.
      * eapply tx_ok_ext; [apply ext_track | apply tx_ok_new].
      * apply reads_track; [reflexivity | apply get_empty].
      * apply pend_track.
      * destruct (ext_track (cnameKey name) (new_txn (gw_db w) true lim)) as (-> & _). exact G0.
  - destruct (gw_call w i) as [[name t|name t v]|]; [|apply SAME; [reflexivity | discriminate]..]. apply OSTEP; auto; exact Logic.I.
  - destruct (gw_call w i) as [[name t|name t v]|] eqn:Hc; [apply SAME; [reflexivity | discriminate]| |apply SAME; [reflexivity | discriminate]].
    destruct (tset (cnameKey name) (Encode2Binary v []) t) as [t2 r2] eqn:Es. destruct r2 as [uu|er|]; [|apply DROPC; discriminate..].
    apply tset_ok in Es. destruct Es as [l ->].
    destruct (commit (gw_db w) (put (cnameKey name) (Some (mk (Encode2Binary v []))) l t) io) as [[d2 t4] rc] eqn:Ec. destruct rc as [[]|er|]; [|apply DROPC; discriminate..].
    destruct (ginv_put rem w used c i name t v l io d2 t4 R I Hc Ec) as (W' & J & Gs & Sv & Uv).
    set (w' := gset_call (gset_o w (fst (ostep oK (gw_o w) (OForeign (put (cnameKey name) (Some (mk (Encode2Binary v []))) l t) io)))) i None) in *.
    rewrite (proj2 (U64 v Uv)). exists used, c. split; [apply ginv_cached; [exact J | rewrite W'; exact Sv | exact Uv]|]. split; [apply incl_refl|].
    assert (Gd : gw_db (fst (gfinish w' i name v after)) = d2) by (destruct after; exact W').
    split; [intros n u; rewrite Gd; apply Gs|]. rewrite Gd. destruct after; intros n id X; [discriminate|]. inversion X. subst n id. auto.
  - destruct (gw_call w i) eqn:Hc; [apply SAME; [reflexivity | discriminate]|]. destruct (gw_closed w i); [apply SAME; [reflexivity | discriminate]|]. apply OSTEP; auto; exact Logic.I.
  - apply OSTEP; auto; try exact Logic.I.
    + intros i. destruct (who i); auto.
    + intros i n. destruct (who i); auto.
  - apply OSTEP; auto. exact (proj1 A).
  - apply OSTEP; auto; exact Logic.I.
Qed.
Lemma grun_inv es : forall rem w used c, 0 <= rem -> ginv (rem + Z.of_nat (length es)) w used c -> Forall g_allowed es ->
  exists used' c', ginv rem (fst (grun w es)) used' c' /\ incl used used' /\ gsame w (fst (grun w es)) /\
    forall n id, In (n, id) (opened (snd (grun w es))) -> stored (d_kv (gw_db (fst (grun w es)))) n id /\ In id used'.
Proof.
  induction es as [|e es IH]; intros rem w used c R I A.
  - exists used, c. cbn [length] in I. rewrite Z.add_0_r in I. cbn. split; [exact I|]. split; [apply incl_refl|]. split; [intros n u H; exact H | intros n id []].
  - cbn [length] in I. replace (rem + Z.of_nat (S (length es))) with (rem + Z.of_nat (length es) + 1) in I by lia. inversion A as [|? ? A1 A2]. subst.
    destruct (gstep_inv (rem + Z.of_nat (length es)) w used c e ltac:(lia) I A1) as (used1 & c1 & I1 & L1 & S1 & O1).
    cbn [grun]. destruct (gstep w e) as [w1 r]. cbn [fst snd] in *. destruct (IH rem w1 used1 c1 R I1 A2) as (used2 & c2 & I2 & L2 & S2 & O2).
    destruct (grun w1 es) as [w2 rs]. cbn [fst snd] in *. exists used2, c2. split; [exact I2|]. split; [eapply incl_tran; eassumption|].
    split; [intros n u H; apply S2, S1, H|]. intros n id H. unfold opened in H. cbn [map concat] in H. apply in_app_or in H. destruct H as [H|H]; [|apply O2; exact H].
    destruct r as [[n' [id'|er|]]|]; cbn in H; try contradiction. destruct H as [H|[]]. inversion H. subst n' id'. destruct (O1 n id eq_refl) as [X Y]. split; [apply S2; exact X | apply L2; exact Y].
Qed.
End ginv.
