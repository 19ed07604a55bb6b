(** C35-C41: the client and the server. Error texts ([etext], [ptext]) are arbitrary texts that fit
    a message. Sizes of keys and values are bounded by 2^40 bytes ([small]), so that messages of up
    to 1000 entries fit the 2^62 bytes the wire theorems need. *)
From Verif Require Import Bytes Compact SMap Provider ProviderProofs Pb PbProofs PbLoop PbMsgs World Remote RemoteProofs RemoteTxn.

(** * C35: single operations *)
(** a step: the clock advances to [now], then the operation runs *)
Record step := Step { s_op : top; s_now : Z; s_lim : list bool; s_io : bool }.
Definition at_time (d : db) (now : Z) : db := Db (d_kv d) (d_ts d) (d_last d) now (d_clamp d).
Section Runs.
  Variables etext : err -> bytes.
  Variable ptext : perr -> bytes.
  (** results of a sequence issued through the client, and the store afterwards *)
  Fixpoint remote_run (d : db) (l : list step) : db * list (cres tval) :=
    match l with
    | [] => (d, [])
    | s :: l' => let '(d', r) := client_op etext ptext (at_time d (s_now s)) (s_op s) (s_lim s) (s_io s) in
                 let '(d'', rs) := remote_run d' l' in (d'', r :: rs)
    end.
  (** the same calls on the server's store, with the client's rendering of the outcome *)
  Fixpoint local_run (d : db) (l : list step) : db * list (cres tval) :=
    match l with
    | [] => (d, [])
    | s :: l' => let '(d', r) := local_db (at_time d (s_now s)) (s_op s) (s_lim s) (s_io s) in
                 let '(d'', rs) := local_run d' l' in (d'', seen etext (s_op s) r :: rs)
    end.
End Runs.
Theorem C35_remote_equals_local : forall etext ptext, texts_ok etext ptext -> forall l d,
  wire_store (d_kv d) -> Forall (fun s => 0 <= s_now s /\ op_ok (s_now s) (s_op s)) l ->
  remote_run etext ptext d l = local_run etext d l.
Proof.
  intros etext ptext HT l. induction l as [|s l IH]; intros d W F; [reflexivity|].
  inversion F as [|? ? [F1 F2] F3]; subst. cbn [remote_run local_run].
  rewrite (client_op_local etext ptext HT (at_time d (s_now s)) (s_op s) (s_lim s) (s_io s) W F2).
  pose proof (local_db_wire (at_time d (s_now s)) (s_op s) (s_lim s) (s_io s) F1 W F2) as W'.
  destruct (local_db (at_time d (s_now s)) (s_op s) (s_lim s) (s_io s)) as [d' r]. cbn [fst snd] in *.
  rewrite (IH d' W' F3). reflexivity.
Qed.
(** the rendering: values unchanged, a missing key is ErrKeyNotFound, other failures are errors
    that carry the server's text *)
Theorem C35_rendering : forall etext o r,
  (forall v, r = Ok v -> seen etext o r = COk v) /\
  (forall k, o = TGet k -> r = Err ErrKeyNotFound -> seen etext o r = CErr (CE ErrKeyNotFound)) /\
  (forall e, r = Err e -> exists ce, seen etext o r = CErr ce /\ (ce = CPB 2 (etext e) \/ e = ErrKeyNotFound /\ ce = CE e)).
Proof.
  intros etext o r. split; [intros v ->; reflexivity|]. split; [intros k -> ->; reflexivity|].
  intros e ->. destruct o; try (eexists; split; [reflexivity|left; reflexivity]).
  destruct e; try (eexists; split; [reflexivity|left; reflexivity]). eexists. split; [reflexivity|right; split; reflexivity].
Qed.
Definition texts (_ : err) : bytes := str "store error".
Definition ptexts (_ : perr) : bytes := str "bad request".
Lemma texts_small : texts_ok texts ptexts.
Proof. split; intros []; vm_compute; reflexivity. Qed.
Example C35_nonvacuous :
  let d := db_init 100 true in
  let l := [Step (TSet (str "k") (str "v") (Some (VMeta 10 (z2b 7)))) 100 [] false; Step (TGet (str "k")) 105 [] false;
            Step (TScan (Provider.ScanOpt false (str "k") []) 5) 105 [] false; Step (TGet (str "k")) 110 [] false] in
  wire_store (d_kv d) /\ Forall (fun s => 0 <= s_now s /\ op_ok (s_now s) (s_op s)) l /\
  snd (remote_run texts ptexts d l) =
    [COk VUnit; COk (VEnt (Ent (str "v") 110 (z2b 7))); COk (VItems [(str "k", Ent (str "v") 110 (z2b 7))]); CErr (CE ErrKeyNotFound)].
Proof.
  cbv zeta. split; [intros k e H; unfold db_init, d_kv in H; rewrite get_empty in H; discriminate|]. split; [|vm_compute; reflexivity].
  repeat (apply Forall_cons; [split; [cbn; lia|]|]); [| | | |constructor]; cbn [s_op s_now op_ok].
  - split; [vm_compute; reflexivity|]. split; [vm_compute; reflexivity|]. split.
    + intros x E. injection E as <-. unfold is_i64. rewrite two63_val. cbn [m_ttl]. lia.
    + intros x E. injection E as <-. unfold is_u64. rewrite two64_val. cbn [m_ttl]. lia.
  - vm_compute; reflexivity.
  - split; vm_compute; reflexivity.
  - vm_compute; reflexivity.
Qed.

(** * C36: Set inside a transaction *)
(** after the first request every Set with a non-empty key is refused as an invalid request, the
    transaction is lost (every later operation fails) and nothing is ever written *)
Theorem C36_later_set_kills_transaction : forall etext ptext, texts_ok etext ptext ->
  forall d lim io t v sent k x m, StatusResponse_unk (v_setResp v) = [] -> k <> [] -> small k -> small x -> meta_req_ok m ->
  exists sent', rop etext ptext d lim io (RTxn true (Some (Serving t v)) sent) (TSet k x m) =
    (d, RTxn true (Some Ended) sent', CErr (CPB 1 (ptext PWrongWireType))) /\
  forall d2 lim2 io2 o, is_noop o = false -> o <> TDiscard -> op_ok (d_now d2) o ->
    exists sent2, rop etext ptext d2 lim2 io2 (RTxn true (Some Ended) sent') o = (d2, RTxn true (Some Ended) sent2, CErr CClosed).
Proof.
  intros etext ptext HT d lim io t v sent k x m U Hk S1 S2 Hm.
  destruct (set_req k x m S1 S2 Hm) as (p & E1 & E2). exists (sent ++ [(FSet, p)]). split.
  - unfold rop, roundtrip. cbn [negb r_upd]. rewrite E1. unfold request. cbn [r_st r_upd r_sent]. unfold srv_frame.
    assert (E3 : StatusResponse_Unmarshal (v_setResp v) p = PErr PWrongWireType).
    { unfold SetRequest_Marshal, marshal in E1. destruct (_ <? _); [discriminate|]. apply POk_inj in E1. subst p.
      unfold SetRequest_MarshalTo, setReq2PB. cbn [SetRequest_Key SetRequest_Value SetRequest_Meta SetRequest_unk].
      destruct k as [|c k]; [contradiction|]. unfold w_bytes at 1. cbn [app]. reflexivity. }
    rewrite E3. unfold invalid_status, status. rewrite U. unfold parseSet. rewrite parse_status; [reflexivity| |apply HT].
    unfold is_i32, CodeInvalidRequest. lia.
  - intros d2 lim2 io2 o NO ND O. destruct o as [k' v' m'|k'|k'|k'|so limit| |]; cbn [is_noop op_ok] in *.
    + destruct O as (O1 & O2 & O3 & _). destruct (set_req k' v' m' O1 O2 O3) as (p' & F1 & _). unfold rop, roundtrip. cbn [negb r_upd]. rewrite F1. eexists. reflexivity.
    + unfold rop, roundtrip. rewrite (proj1 (key_req k' O)). eexists. reflexivity.
    + unfold rop, roundtrip. rewrite (proj1 (key_req k' O)). eexists. reflexivity.
    + unfold rop, roundtrip. cbn [negb r_upd]. rewrite (proj1 (key_req k' O)). eexists. reflexivity.
    + apply Z.leb_gt in NO. destruct (clamp_range limit NO) as [C1 _]. destruct O as [O1 O2]. unfold rop, roundtrip.
      destruct (Z.leb_spec limit 0); [lia|].
      rewrite (proj1 (scan_req so (clamp_limit limit) O1 O2 ltac:(unfold is_i32; lia))). eexists. reflexivity.
    + eexists. reflexivity.
    + contradiction.
Qed.
(** the property fails: Get then Set, on an empty store *)
Theorem C36_set_anywhere_refuted :
  let d := db_init 100 true in
  let prog := [(TGet (str "k"), (d, [], false)); (TSet (str "k") (str "v") None, (d, [], false)); (TCommit, (d, [], false))] in
  snd (rrun texts ptexts (newTxn true) prog) = [(d, CErr (CE ErrKeyNotFound)); (d, CErr (CPB 1 (str "bad request"))); (d, CErr CClosed)] /\
  exists d', snd (lrun texts true LNone prog) = [(d, CErr (CE ErrKeyNotFound)); (d, COk VUnit); (d', COk VUnit)] /\
    get (d_kv d') (str "k") = Some (mk (str "v")).
Proof. cbv zeta. split; [vm_compute; reflexivity|]. eexists. split; [vm_compute; reflexivity|vm_compute; reflexivity]. Qed.

(** * C37: scans inside a transaction *)
(** every scan after the first adds to the entries of the earlier ones: the reply starts with all of
    them *)
Lemma scan_cb_prefix limit l : forall acc t t' r, scan_loop l (scan_cb limit) acc t = (t', r) -> exists more, r = Ok (acc ++ more).
Proof.
  induction l as [|[k e] l IH]; intros acc t t' r; cbn [scan_loop].
  - intros H. inversion H; subst. exists []. rewrite app_nil_r. reflexivity.
  - unfold bind, scan_cb at 1, ret. cbn [fst snd]. destruct (negb _).
    + intros H. apply IH in H. destruct H as [more ->]. exists (mkEntry k (e_val e) (Some (metaResp e)) [] :: more). rewrite <- app_assoc. reflexivity.
    + intros H. inversion H; subst. eexists. reflexivity.
Qed.
Theorem C37_scans_accumulate : forall etext ptext d io t v p t' v' b, t_open t = true ->
  srv_frame etext ptext d io t v FScan p = (d, Serving t' v', Some b) ->
  exists more, ScanResponse_Entries (v_scanResp v') = ScanResponse_Entries (v_scanResp v) ++ more.
Proof.
  intros etext ptext d io t v p t' v' b Ho. unfold srv_frame. destruct (ScanRequest_Unmarshal (v_scanReq v) p) as [req|e|]; try discriminate.
  unfold here, run_h, handleScan. destruct (ScanRequest_Option req) as [o|]; [|cbn; discriminate].
  destruct (ScanRequest_Limit req =? 0).
  - cbn [ret fst snd]. intros H. injection H as _ <- _. exists []. cbn. rewrite app_nil_r. reflexivity.
  - unfold try, tscan. rewrite Ho. cbn [negb].
    set (lim' := if MaxEntry <? ScanRequest_Limit req then MaxEntry else ScanRequest_Limit req).
    destruct (scan_loop _ (scan_cb lim') (ScanResponse_Entries (v_scanResp v)) t) as [t1 r] eqn:E.
    apply scan_cb_prefix in E. destruct E as [more ->]. cbn [ret fst snd]. intros H. injection H as _ <- _. exists more. reflexivity.
Qed.
(** witness: two scans with disjoint prefixes, the second with limit 1 *)
Definition ab : db := Db (set (set empty (str "a1") (mk (str "x"))) (str "b1") (mk (str "y"))) 1 empty 100 true.
Theorem C37_independent_scans_refuted :
  let prog := [(TGet (str "a1"), (ab, [], false)); (TScan (Provider.ScanOpt false (str "a") []) 10, (ab, [], false));
               (TScan (Provider.ScanOpt false (str "b") []) 10, (ab, [], false))] in
  map snd (snd (rrun texts ptexts (newTxn false) prog)) =
    [COk (VEnt (mk (str "x"))); COk (VItems [(str "a1", mk (str "x"))]); COk (VItems [(str "a1", mk (str "x")); (str "b1", mk (str "y"))])] /\
  map snd (snd (lrun texts false LNone prog)) =
    [COk (VEnt (mk (str "x"))); COk (VItems [(str "a1", mk (str "x"))]); COk (VItems [(str "b1", mk (str "y"))])].
Proof. cbv zeta. split; vm_compute; reflexivity. Qed.
(** and options left empty keep the values of the previous request: here the second scan asks for
    everything but is answered for prefix "a" only (after the entries of the first) *)
Theorem C37_stale_options_refuted :
  let prog := [(TGet (str "a1"), (ab, [], false)); (TScan (Provider.ScanOpt false (str "a") []) 1, (ab, [], false));
               (TScan (Provider.ScanOpt false [] []) 10, (ab, [], false))] in
  map snd (snd (rrun texts ptexts (newTxn false) prog)) =
    [COk (VEnt (mk (str "x"))); COk (VItems [(str "a1", mk (str "x"))]); COk (VItems [(str "a1", mk (str "x")); (str "a1", mk (str "x"))])].
Proof. cbv zeta. vm_compute. reflexivity. Qed.

(** * C38 *)
Theorem C38_remote_transaction_equals_local : forall etext ptext, texts_ok etext ptext -> forall upd l,
  allowed upd PFresh (map fst l) ->
  Forall (fun x => op_ok (d_now (fst (fst (snd x)))) (fst x) /\ wire_store (d_kv (fst (fst (snd x)))) /\ 0 <= d_now (fst (fst (snd x)))) l ->
  snd (rrun etext ptext (newTxn upd) l) = snd (lrun etext upd LNone l).
Proof.
  intros etext ptext HT upd l A F. exact (proj1 (rrun_lrun etext ptext HT upd l PFresh (newTxn upd) LNone (conj eq_refl eq_refl) A F)).
Qed.
(** only Commit touches the store, whatever the state of the stream and the operation *)
Theorem C38_only_commit_has_effect : forall etext ptext d lim io r o, o <> TCommit ->
  fst (fst (rop etext ptext d lim io r o)) = d.
Proof.
  intros etext ptext d lim io r o NC.
  assert (R : forall c p, c <> FCommit -> fst (fst (request etext ptext d lim io r c p)) = d).
  { intros c p Hc. unfold request. destruct (r_st r) as [[t v|]|]; [|reflexivity|].
    - unfold srv_frame. destruct c; try contradiction; unfold here;
        repeat match goal with |- context [match ?u with POk _ => _ | PErr _ => _ | PPanic => _ end] => destruct u end; reflexivity.
    - destruct c; try reflexivity; destruct (first_frame _ _ _ _ _ _ _); reflexivity. }
  assert (RT : forall A c p (prs : option bytes -> cres A) f n, c <> FCommit -> fst (fst (roundtrip etext ptext d lim io r c p prs f n)) = d).
  { intros A c p prs f n Hc. unfold roundtrip. destruct p as [b|e|]; [|reflexivity|reflexivity].
    pose proof (R c b Hc) as H. destruct (request etext ptext d lim io r c b) as [[d' r'] x]. exact H. }
  destruct o; cbn [rop]; try (destruct (negb (r_upd r)); [reflexivity|]); try (destruct (_ <=? 0); [reflexivity|]); try (apply RT; discriminate).
  contradiction.
Qed.
(** a dropped stream: no later operation succeeds or has an effect, and nothing was committed *)
Theorem C38_dropped_stream : forall etext ptext d lim io r o, r_st r <> None -> is_noop o = false -> o <> TDiscard ->
  let '(d', r', x) := rop etext ptext d lim io (rdrop r) o in d' = d /\ r_st r' = Some Ended /\ forall v, x <> COk v.
Proof.
  intros etext ptext d lim io [upd st sent] o HS NO ND. cbn [r_st] in HS. destruct st as [s|]; [|contradiction]. unfold rdrop, srv_drop. cbn [option_map r_upd r_st r_sent].
  destruct o as [k v m|k|k|k|so limit| |]; cbn [rop r_upd is_noop] in *.
  - destruct (negb upd); [split; [reflexivity|]; split; [reflexivity|discriminate]|]. unfold roundtrip. destruct (SetRequest_Marshal _); cbn; (split; [reflexivity|]; split; [reflexivity|discriminate]).
  - unfold roundtrip. destruct (KeyRequest_Marshal _); cbn; (split; [reflexivity|]; split; [reflexivity|discriminate]).
  - unfold roundtrip. destruct (KeyRequest_Marshal _); cbn; (split; [reflexivity|]; split; [reflexivity|discriminate]).
  - destruct (negb upd); [split; [reflexivity|]; split; [reflexivity|discriminate]|]. unfold roundtrip. destruct (KeyRequest_Marshal _); cbn; (split; [reflexivity|]; split; [reflexivity|discriminate]).
  - rewrite NO. unfold roundtrip. destruct (ScanRequest_Marshal _); cbn; (split; [reflexivity|]; split; [reflexivity|discriminate]).
  - cbn. split; [reflexivity|]; split; [reflexivity|discriminate].
  - contradiction.
Qed.
(** a transaction using every kind of request, committed: all hypotheses hold, and the effects are those of
    the local transaction *)
Definition prog38 : list (top * (db * list bool * bool)) :=
  [(TSet (str "c1") (str "z") None, (ab, [], false)); (TGet (str "c1"), (ab, [], false)); (TDel (str "a1"), (ab, [], false));
   (TExists (str "a1"), (ab, [], false)); (TScan (Provider.ScanOpt false [] []) 10, (ab, [], false)); (TCommit, (ab, [], false))].
Example C38_nonvacuous :
  allowed true PFresh (map fst prog38) /\
  Forall (fun x => op_ok (d_now (fst (fst (snd x)))) (fst x) /\ wire_store (d_kv (fst (fst (snd x)))) /\ 0 <= d_now (fst (fst (snd x)))) prog38 /\
  map snd (snd (rrun texts ptexts (newTxn true) prog38)) =
   [COk VUnit; COk (VEnt (mk (str "z"))); COk VUnit; COk (VBool false);
    COk (VItems [(str "b1", mk (str "y")); (str "c1", mk (str "z"))]); COk VUnit] /\
  map (fun x => (get (d_kv (fst x)) (str "a1"), get (d_kv (fst x)) (str "c1"))) (snd (rrun texts ptexts (newTxn true) prog38)) =
   [(Some (mk (str "x")), None); (Some (mk (str "x")), None); (Some (mk (str "x")), None); (Some (mk (str "x")), None); (Some (mk (str "x")), None);
    (None, Some (mk (str "z")))].
Proof.
  split; [vm_compute; exact I|]. split; [|split; [vm_compute; reflexivity|vm_compute; reflexivity]].
  assert (W : wire_store (d_kv ab)).
  { intros k e H. apply get_in in H. cbn in H. destruct H as [H|[H|[]]]; injection H as <- <-;
      (split; [vm_compute; reflexivity|split; [vm_compute; reflexivity|unfold is_u64; rewrite two64_val; cbn; lia]]). }
  repeat (apply Forall_cons; [split; [|split; [exact W|cbn; lia]]|]); [| | | | | |constructor]; cbn [op_ok fst].
  - split; [vm_compute; reflexivity|]. split; [vm_compute; reflexivity|]. split; intros x E; discriminate.
  - vm_compute; reflexivity.
  - vm_compute; reflexivity.
  - vm_compute; reflexivity.
  - split; vm_compute; reflexivity.
  - exact I.
Qed.

(** * C39 *)
Theorem C39_limits : forall etext ptext, texts_ok etext ptext -> forall d o limit,
  wire_store (d_kv d) -> small (so_prefix o) -> small (so_offset o) ->
  (limit <= 0 -> client_scan etext ptext d o limit = COk []) /\
  (0 < limit -> exists all, bdb_scan d o None = Ok all /\
     client_scan etext ptext d o limit = COk (firstn (Z.to_nat (Z.min limit 1000)) all)).
Proof.
  intros etext ptext HT d o limit W S1 S2. split.
  - intros L. unfold client_scan. destruct (Z.leb_spec limit 0); [reflexivity|lia].
  - intros L. exists (scan_items (d_clamp d) (view (new_txn d false [])) o).
    assert (A : forall l acc t, exists t', scan_loop l (collect None) acc t = (t', Ok (acc ++ l))).
    { induction l as [|[k e] l IH]; intros acc t; cbn [scan_loop].
      - exists t. rewrite app_nil_r. reflexivity.
      - unfold bind, collect at 1, ret. cbn [fst snd]. destruct (IH (acc ++ [(k, e)]) (add_read k t)) as [t' E]. exists t'. rewrite E, <- app_assoc. reflexivity. }
    split.
    + unfold bdb_scan, tscan. cbn [new_txn t_open negb]. match goal with |- context [scan_loop ?l _ _ ?t] => destruct (A l [] t) as [t' E] end. rewrite E. reflexivity.
    + pose proof (client_op_local etext ptext HT d (TScan o limit) [] false W (conj S1 S2)) as H. cbn [client_op local_db] in H.
      destruct (Z.leb_spec limit 0); [lia|].
      destruct (tscan_both (new_txn d false []) o (Z.min limit 1000) eq_refl ltac:(lia) (wire_new d false [] W)) as (t' & T & _). cbv zeta in T.
      unfold bdb_scan, scan_n in H. rewrite T in H. cbn [snd fst seen] in H.
      change (t_clamp (new_txn d false [])) with (d_clamp d) in H. destruct (client_scan etext ptext d o limit) as [x|e|]; cbn [cmap] in H; congruence.
Qed.
Example C39_nonvacuous : wire_store (d_kv ab) /\ client_scan texts ptexts ab (Provider.ScanOpt false [] []) 1 = COk [(str "a1", mk (str "x"))] /\
  client_scan texts ptexts ab (Provider.ScanOpt false [] []) (-1) = COk [].
Proof.
  split; [|split; vm_compute; reflexivity]. intros k e H. apply get_in in H. cbn in H. destruct H as [H|[H|[]]]; injection H as <- <-;
      (split; [vm_compute; reflexivity|split; [vm_compute; reflexivity|unfold is_u64; rewrite two64_val; cbn; lia]]).
Qed.

(** * C40 *)
Theorem C40_mutations_refused_locally : forall etext ptext d lim io r, r_upd r = false ->
  (forall k v m, rop etext ptext d lim io r (TSet k v m) = (d, r, CErr CReadOnly)) /\
  (forall k, rop etext ptext d lim io r (TDel k) = (d, r, CErr CReadOnly)).
Proof. intros etext ptext d lim io r H. unfold rop. rewrite H. split; reflexivity. Qed.
(** Commit and Discard before any request: nothing sent ([r] is unchanged, including what it sent) *)
Theorem C40_empty_transaction_sends_nothing : forall etext ptext d lim io upd o, o = TCommit \/ o = TDiscard ->
  rop etext ptext d lim io (newTxn upd) o = (d, newTxn upd, COk VUnit).
Proof. intros etext ptext d lim io upd o [->| ->]; reflexivity. Qed.
(** whatever a read-only transaction does, it never sends a Set or Delete and never changes the store,
    not even by Commit *)
Definition ro_srv (s : option srv) : Prop := match s with Some (Serving t _) => t_upd t = false /\ t_pend t = empty | _ => True end.
Definition ro_sent (l : list (fcmd * bytes)) : Prop := Forall (fun x => fst x <> FSet /\ fst x <> FDelete) l.
Lemma run_h_ro {M} mar (h : Tx (option M)) t upd : (forall t' r, h t = (t', r) -> same_core t t') -> t_upd t = false -> t_pend t = empty ->
  ro_srv (Some (fst (run_h mar h t upd))).
Proof.
  intros H U P. unfold run_h. destruct (h t) as [t' [[m|]|e|]] eqn:E; try exact I. destruct (H t' _ eq_refl) as (_ & H2 & _ & H4).
  cbn [fst ro_srv]. split; congruence.
Qed.
Lemma h_get_core etext q resp t t' r : h_get etext q resp t = (t', r) -> same_core t t'.
Proof. unfold h_get, try. destruct (tgetm _ t) as [t1 r1] eqn:E. destruct (local_get_core _ _ _ _ E) as [C _]. destruct r1; intros H; inversion H; subst; exact C. Qed.
Lemma h_exists_core etext q resp t t' r : h_exists etext q resp t = (t', r) -> same_core t t'.
Proof. unfold h_exists, try. destruct (texists _ t) as [t1 r1] eqn:E. destruct (local_exists_core _ _ _ _ E) as [C _]. destruct r1; intros H; inversion H; subst; exact C. Qed.
Lemma scan_cb_core limit l : forall acc t t' r, scan_loop l (scan_cb limit) acc t = (t', r) -> same_core t t'.
Proof.
  induction l as [|[k e] l IH]; intros acc t t' r; cbn [scan_loop]; [intros H; inversion H; subst; apply same_core_refl|].
  unfold bind, scan_cb at 1, ret. cbn [fst snd]. destruct (negb _).
  - intros H. eapply same_core_trans; [apply add_read_same|eapply IH; exact H].
  - intros H. inversion H; subst. apply add_read_same.
Qed.
Lemma handleScan_core etext q resp t t' r : handleScan etext q resp t = (t', r) -> same_core t t'.
Proof.
  unfold handleScan. destruct (ScanRequest_Option q); [|intros H; inversion H; subst; apply same_core_refl].
  destruct (_ =? 0); [intros H; inversion H; subst; apply same_core_refl|]. unfold try, tscan.
  destruct (negb (t_open t)); [intros H; inversion H; subst; apply same_core_refl|].
  destruct (scan_loop _ _ _ t) as [t1 [x|e|]] eqn:E; apply scan_cb_core in E; intros H; inversion H; subst; exact E.
Qed.
Lemma commit_ro d t io d' t' r : t_pend t = empty -> commit d t io = (d', t', r) -> d' = d.
Proof. intros P. unfold commit. rewrite P. destruct (negb (t_open t)); intros H; inversion H; reflexivity. Qed.
Lemma request_ro etext ptext d lim io r c p d' r' x : c <> FSet -> c <> FDelete -> r_upd r = false -> ro_srv (r_st r) -> ro_sent (r_sent r) ->
  request etext ptext d lim io r c p = (d', r', x) -> d' = d /\ r_upd r' = false /\ ro_srv (r_st r') /\ ro_sent (r_sent r').
Proof.
  intros C1 C2 U S L. assert (L' : ro_sent (r_sent r ++ [(c, p)])) by (apply Forall_app; split; [exact L|constructor; [split; assumption|constructor]]).
  unfold request. destruct (r_st r) as [[t v|]|] eqn:ES.
  - destruct S as [S1 S2]. destruct (srv_frame etext ptext d io t v c p) as [[d1 s1] b1] eqn:E. intros H. inversion H; subst d' r' x. cbn [r_upd r_st r_sent].
    assert (d1 = d /\ ro_srv (Some s1)) as [-> R].
    { unfold srv_frame in E. destruct c; try contradiction.
      - destruct (KeyRequest_Unmarshal _ p); [|inversion E; subst; split; [reflexivity|exact I]|inversion E; subst; split; [reflexivity|exact I]].
        unfold here in E. inversion E; subst. split; [reflexivity|]. apply run_h_ro; [apply h_exists_core|assumption|assumption].
      - destruct (KeyRequest_Unmarshal _ p); [|inversion E; subst; split; [reflexivity|exact I]|inversion E; subst; split; [reflexivity|exact I]].
        unfold here in E. inversion E; subst. split; [reflexivity|]. apply run_h_ro; [apply h_get_core|assumption|assumption].
      - destruct (ScanRequest_Unmarshal _ p); [|inversion E; subst; split; [reflexivity|exact I]|inversion E; subst; split; [reflexivity|exact I]].
        unfold here in E. inversion E; subst. split; [reflexivity|]. apply run_h_ro; [apply handleScan_core|assumption|assumption].
      - destruct (commit d t io) as [[d2 t2] r2] eqn:EC. inversion E; subst. split; [exact (commit_ro _ _ _ _ _ _ S2 EC)|exact I].
      - inversion E; subst. split; [reflexivity|exact I]. }
    split; [reflexivity|]. split; [exact U|]. split; assumption.
  - intros H. inversion H; subst. split; [reflexivity|]. split; [exact U|]. split; [exact I|exact L'].
  - assert (G : forall c', c' <> FSet -> c' <> FDelete -> ro_srv (Some (fst (first_frame etext ptext d (r_upd r) lim c' p)))).
    { intros c' D1 D2. rewrite U. unfold first_frame. destruct c'; try contradiction; try exact I.
      - destruct (KeyRequest_Unmarshal _ p); [|exact I|exact I]. apply run_h_ro; [apply h_exists_core|reflexivity|reflexivity].
      - destruct (KeyRequest_Unmarshal _ p); [|exact I|exact I]. apply run_h_ro; [apply h_get_core|reflexivity|reflexivity].
      - destruct (ScanRequest_Unmarshal _ p); [|exact I|exact I]. apply run_h_ro; [apply handleScan_core|reflexivity|reflexivity]. }
    specialize (G c C1 C2). destruct c; try contradiction;
      try (intros H; inversion H; subst; split; [reflexivity|]; split; [exact U|]; split; [rewrite ES; exact I|exact L]);
      (destruct (first_frame _ _ _ _ _ _ _) as [s b]; intros H; inversion H; subst; split; [reflexivity|]; split; [exact U|]; split; [exact G|exact L']).
Qed.
Theorem C40_read_only_transactions_change_nothing : forall etext ptext l,
  let '(r', out) := rrun etext ptext (newTxn false) l in
  Forall (fun x => fst x <> FSet /\ fst x <> FDelete) (r_sent r') /\
  map fst out = map (fun x => fst (fst (snd x))) l.
Proof.
  intros etext ptext l.
  assert (G : forall l r, r_upd r = false -> ro_srv (r_st r) -> ro_sent (r_sent r) ->
    ro_sent (r_sent (fst (rrun etext ptext r l))) /\ map fst (snd (rrun etext ptext r l)) = map (fun x => fst (fst (snd x))) l).
  { clear l. intros l. induction l as [|[o [[d lim] io]] l IH]; intros r U S L; [split; [exact L|reflexivity]|].
    cbn [rrun]. assert (STEP : forall d' r' x, rop etext ptext d lim io r o = (d', r', x) -> d' = d /\ r_upd r' = false /\ ro_srv (r_st r') /\ ro_sent (r_sent r')).
    { intros d' r' x. assert (K : d = d /\ r_upd r = false /\ ro_srv (r_st r) /\ ro_sent (r_sent r)) by (split; [reflexivity|]; split; [exact U|]; split; assumption).
      assert (RT : forall A c p (prs : option bytes -> cres A) f n, c <> FSet -> c <> FDelete -> roundtrip etext ptext d lim io r c p prs f n = (d', r', x) ->
        d' = d /\ r_upd r' = false /\ ro_srv (r_st r') /\ ro_sent (r_sent r')).
      { intros A c p prs f n C1 C2. unfold roundtrip. destruct p as [b|e|]; [|intros H; inversion H; subst; exact K|intros H; inversion H; subst; exact K].
        destruct (request etext ptext d lim io r c b) as [[d1 r1] x1] eqn:E. intros H. inversion H; subst. exact (request_ro _ _ _ _ _ _ _ _ _ _ _ C1 C2 U S L E). }
      destruct o; cbn [rop]; rewrite ?U; cbn [negb]; try (intros H; inversion H; subst; exact K); try (apply RT; discriminate).
      destruct (_ <=? 0); [intros H; inversion H; subst; exact K|apply RT; discriminate]. }
    destruct (rop etext ptext d lim io r o) as [[d' r'] x] eqn:E. destruct (STEP d' r' x eq_refl) as (-> & U' & S' & L').
    specialize (IH r' U' S' L'). destruct (rrun etext ptext r' l) as [r2 xs]. cbn [fst snd map] in *. destruct IH as [I1 I2]. split; [exact I1|]. rewrite I2. reflexivity. }
  specialize (G l (newTxn false) eq_refl I (Forall_nil _)). destruct (rrun etext ptext (newTxn false) l) as [r' out]. exact G.
Qed.
Example C40_nonvacuous :
  let '(r, out) := rrun texts ptexts (newTxn false) [(TSet (str "a") [] None, (ab, [], false)); (TCommit, (ab, [], false)); (TGet (str "a1"), (ab, [], false)); (TDel (str "a1"), (ab, [], false)); (TCommit, (ab, [], false))] in
  map fst (r_sent r) = [FGet; FCommit] /\ map snd out = [CErr CReadOnly; COk VUnit; COk (VEnt (mk (str "x"))); CErr CReadOnly; COk VUnit].
Proof. vm_compute. split; reflexivity. Qed.

(** * C41 *)
Theorem C41_missing_key : forall etext ptext, texts_ok etext ptext -> forall d k, wire_store (d_kv d) -> small k ->
  (bdb_get d k = Err ErrKeyNotFound <-> client_get etext ptext d k = CErr (CE ErrKeyNotFound)).
Proof.
  intros etext ptext HT d k W S. pose proof (client_op_local etext ptext HT d (TGet k) [] false W S) as H. cbn [client_op local_db fst snd] in H.
  destruct (bdb_get d k) as [e|e|]; destruct (client_get etext ptext d k) as [x|x|]; cbn [cmap seen] in H;
    split; intros H0; try congruence; destruct e; cbn in H; congruence.
Qed.
(** in transactions: as first request (any state of the store) and later, through C38's rendering *)
Theorem C41_transaction_rendering : forall etext k v m,
  seen_txn etext (TGet k) (Err ErrKeyNotFound) = CErr (CE ErrKeyNotFound) /\
  seen_txn etext (TSet k v m) (Err ErrTxnTooBig) = CErr (CE ErrTxnTooBig).
Proof. intros. split; reflexivity. Qed.
(** Delete: a too big transaction reaches the client as a pbError with code 3, not as ErrTxnTooBig *)
Theorem C41_delete_too_big_refuted : forall etext ptext, texts_ok etext ptext -> forall d k io lim,
  wire_store (d_kv d) -> 0 <= d_now d -> small k -> good_key k ->
  exists r, rop etext ptext d (true :: lim) io (newTxn true) (TDel k) = (d, r, CErr (CPB 3 (etext ErrTxnTooBig))).
Proof.
  intros etext ptext HT d k io lim W N S G.
  destruct (sim_step etext ptext HT true d (true :: lim) io PFresh (newTxn true) LNone (TDel k) (PRunning false) (conj eq_refl eq_refl) eq_refl S (fun _ => conj W N))
    as (d' & r' & s' & y & A & B & _).
  unfold lop in B. cbn [is_noop local_op] in B. unfold bind, tdel, map_err, modify in B. cbn [new_txn t_upd t_open negb] in B. unfold good_key in G. rewrite G in B.
  cbn [new_txn t_lim too_big] in B. assert (d' = d /\ y = Err ErrTxnTooBig) as [-> ->] by (split; congruence). exists r'. exact A.
Qed.
(** Set outside a transaction: a too big write is reported as an internal error, code 2 *)
Theorem C41_plain_set_too_big_refuted : forall etext ptext, texts_ok etext ptext -> forall d k v lim io,
  wire_store (d_kv d) -> small k -> small v -> good_key k ->
  bdb_set d k v None (true :: lim) io = (d, Err ErrTxnTooBig) /\
  client_set etext ptext d k v None (true :: lim) io = (d, CErr (CPB 2 (etext ErrTxnTooBig))).
Proof.
  intros etext ptext HT d k v lim io W S1 S2 G.
  assert (A : bdb_set d k v None (true :: lim) io = (d, Err ErrTxnTooBig)).
  { unfold bdb_set, bdb_write, tsetm, map_err, modify. cbn [new_txn t_upd t_open negb]. unfold good_key in G. rewrite G. reflexivity. }
  split; [exact A|].
  pose proof (client_op_local etext ptext HT d (TSet k v None) (true :: lim) io W) as H. cbn [client_op local_db op_ok] in H.
  rewrite A in H. cbn [fst snd seen] in H.
  assert (O : small k /\ small v /\ meta_req_ok None /\ (forall x : vmeta, None = Some x -> is_u64 (d_now d + m_ttl x))) by (split; [exact S1|]; split; [exact S2|]; split; intros x E; discriminate).
  specialize (H O). destruct (client_set etext ptext d k v None (true :: lim) io) as [d' [x|x|]]; cbn [cmap] in H; congruence.
Qed.
(** whatever bytes arrive as a reply (or none): the client reports success only when they decode to a message with the
    code 0, and then what it reports is that message's *)
Theorem C41_only_code_zero_is_success : forall r,
  (forall u, parseSet r = COk u -> exists b m, r = Some b /\ StatusResponse_Unmarshal StatusResponse_empty b = POk m /\ StatusResponse_Code m = 0) /\
  (forall u, parseStatus r = COk u -> exists b m, r = Some b /\ StatusResponse_Unmarshal StatusResponse_empty b = POk m /\ StatusResponse_Code m = 0) /\
  (forall x, parseExists r = COk x -> exists b m, r = Some b /\ ExistsResponse_Unmarshal ExistsResponse_empty b = POk m /\ ExistsResponse_Code m = 0 /\ x = ExistsResponse_Exists m) /\
  (forall e, parseGet r = COk e -> exists b m, r = Some b /\ GetResponse_Unmarshal GetResponse_empty b = POk m /\ GetResponse_Code m = 0 /\ e_val e = GetResponse_Value m) /\
  (forall l, parseScan r = COk l -> exists b m, r = Some b /\ ScanResponse_Unmarshal ScanResponse_empty b = POk m /\ ScanResponse_Code m = 0 /\ map fst l = map Entry_Key (ScanResponse_Entries m)).
Proof.
  intros [b|]; [|repeat split; intros ? X; discriminate X].
  unfold parseSet, parseStatus, parseExists, parseGet, parseScan, parse. split; [|split; [|split; [|split]]].
  - intros u. destruct (StatusResponse_Unmarshal _ b) as [m|e|] eqn:Eu; try discriminate. destruct (Z.eqb_spec (StatusResponse_Code m) 0) as [E|E]; [|destruct (_ =? _); discriminate]. intros _. exists b, m. split; [reflexivity|]. split; [exact Eu | exact E].
  - intros u. destruct (StatusResponse_Unmarshal _ b) as [m|e|] eqn:Eu; try discriminate. destruct (Z.eqb_spec (StatusResponse_Code m) 0) as [E|E]; [|discriminate]. intros _. exists b, m. split; [reflexivity|]. split; [exact Eu | exact E].
  - intros u. destruct (ExistsResponse_Unmarshal _ b) as [m|e|] eqn:Eu; try discriminate. destruct (Z.eqb_spec (ExistsResponse_Code m) 0) as [E|E]; [|discriminate]. intros X. inversion X. exists b, m. split; [reflexivity|]. split; [exact Eu|]. split; [exact E | reflexivity].
  - intros u. destruct (GetResponse_Unmarshal _ b) as [m|e|] eqn:Eu; try discriminate. destruct (Z.eqb_spec (GetResponse_Code m) 0) as [E|E]; [|destruct (_ =? _); discriminate].
    destruct (GetResponse_Meta m); [|discriminate]. intros X. inversion X. exists b, m. split; [reflexivity|]. split; [exact Eu|]. split; [exact E | reflexivity].
  - intros u. destruct (ScanResponse_Unmarshal _ b) as [m|e|] eqn:Eu; try discriminate. destruct (Z.eqb_spec (ScanResponse_Code m) 0) as [E|E]; [|discriminate].
    destruct (scan_entries (ScanResponse_Entries m)) as [l|] eqn:Es; [|discriminate]. intros X. inversion X. subst u. exists b, m. split; [reflexivity|]. split; [exact Eu|]. split; [exact E|].
    clear X. revert l Es. induction (ScanResponse_Entries m) as [|y ys IH]; intros l Es; cbn [scan_entries] in Es; [inversion Es; reflexivity|].
    destruct (Entry_Meta y); [|discriminate]. destruct (scan_entries ys) as [r|]; [|discriminate]. inversion Es. cbn [map fst]. f_equal. apply IH. reflexivity.
Qed.
Example C41_nonvacuous : exists r, rop texts ptexts ab [true] false (newTxn true) (TDel (str "a1")) = (ab, r, CErr (CPB 3 (texts ErrTxnTooBig))) /\ good_key (str "a1").
Proof. eexists. split; vm_compute; reflexivity. Qed.

Print Assumptions C35_remote_equals_local.
Print Assumptions C36_later_set_kills_transaction.
Print Assumptions C36_set_anywhere_refuted.
Print Assumptions C37_scans_accumulate.
Print Assumptions C37_independent_scans_refuted.
Print Assumptions C38_remote_transaction_equals_local.
Print Assumptions C38_only_commit_has_effect.
Print Assumptions C38_dropped_stream.
Print Assumptions C39_limits.
Print Assumptions C40_read_only_transactions_change_nothing.
Print Assumptions C41_missing_key.
Print Assumptions C41_delete_too_big_refuted.
Print Assumptions C41_plain_set_too_big_refuted.
Print Assumptions C41_only_code_zero_is_success.
