(** Reloading the schema cache, on any metadata. *)
From Verif Require Import Bytes SMap Provider ProviderProofs World Memcmp MemcmpProofs Numeric KvUtil KeyModel Struct
  StructProofs StructHash StructList UtilTxn Sequence SequenceProofs Model Meta MetaSpec MetaProofs MetaOps MetaRun Schema Domain.
From Verif Require P_Schema.

(** the diffs of the [n] versions after [v], if all are there *)
Fixpoint diffs_of (f : Z -> option SchemaDiff) (n : nat) (v : Z) : option (list SchemaDiff) :=
  match n with
  | O => Some []
  | S n' => match f (v + 1) with None => None | Some x => option_map (cons x) (diffs_of f n' (v + 1)) end
  end.
Lemma diffs_length f n : forall v l, diffs_of f n v = Some l -> length l = n.
Proof.
  induction n as [|n IH]; intros v l H; cbn [diffs_of] in H; [injection H as <-; reflexivity|]. destruct (f (v + 1)) as [x|]; [|discriminate].
  destruct (diffs_of f n (v + 1)) as [l'|] eqn:E; [|discriminate]. injection H as <-. cbn [length]. rewrite (IH _ _ E). reflexivity.
Qed.
Lemma diffs_nth f n : forall v l, diffs_of f n v = Some l -> forall k, (k < n)%nat -> nth_error l k = f (v + 1 + Z.of_nat k).
Proof.
  induction n as [|n IH]; intros v l H k K; [lia|]. cbn [diffs_of] in H. destruct (f (v + 1)) as [x|] eqn:Fx; [|discriminate].
  destruct (diffs_of f n (v + 1)) as [l'|] eqn:E; [|discriminate]. injection H as <-. destruct k as [|k]; cbn [nth_error].
  - rewrite <- Fx. f_equal. lia.
  - rewrite (IH _ _ E k ltac:(lia)). f_equal. lia.
Qed.
Lemma diffs_none f n : forall v, diffs_of f n v = None <-> exists k, v < k <= v + Z.of_nat n /\ f k = None.
Proof.
  induction n as [|n IH]; intros v; cbn [diffs_of]; [split; [discriminate | intros (k & K & _); lia]|].
  destruct (f (v + 1)) as [x|] eqn:E.
  - destruct (diffs_of f n (v + 1)) eqn:D; cbn [option_map].
    + split; [discriminate|]. intros (k & K & F). destruct (Z.eq_dec k (v + 1)) as [->|N]; [congruence|]. assert (X : @None (list SchemaDiff) = Some l) by (rewrite <- D; symmetry; apply IH; exists k; split; [lia | exact F]). discriminate X.
    + split; [intros _|reflexivity]. apply IH in D. destruct D as (k & K & F). exists k. split; [lia | exact F].
  - split; [intros _; exists (v + 1); split; [lia | exact E] | reflexivity].
Qed.

Section WithJson.
Variable J : json.
Hypothesis JO : json_ok J.
Local Notation mgets := (mgets J).
Local Notation holds := (holds J).

Lemma view_get {X} n d A (m : Tx X) r : holds n d A -> n < two63 -> mgets A m r -> run_view d m = r.
Proof. intros (K & S & R & M) L H. eapply run_view_spec. exact (H S M false n _ R L). Qed.
Lemma load_diffs_r A n : forall v, 0 <= v -> v + Z.of_nat n < two63 -> mgets A (load_diffs J n v) (Ok (diffs_of (m_diff A) n v)).
Proof.
  induction n as [|n IH]; intros v V L; cbn [load_diffs diffs_of]; [apply mgets_ret|].
  eapply mgets_bind; [apply GetSchemaDiff_r; [exact JO | unfold is_i64; lia]|]. destruct (m_diff A (v + 1)) as [x|]; [|apply mgets_ret].
  eapply mgets_bind; [apply IH; lia | apply mgets_ret].
Qed.
(** what the reads give *)
Definition kept (A : mst) (cv : Z) : option (list SchemaDiff) :=
  let v := somez (m_ver A) in
  if (cv =? 0) || (maxNumberOfDiffsToLoad <? v - cv) then None else diffs_of (m_diff A) (Z.to_nat (v - cv)) cv.
Lemma reads_r n d A cv : holds n d A -> n < two63 -> 0 <= cv -> somez (m_ver A) < two63 ->
  (cv = somez (m_ver A) /\ run_view d (reload_reads J cv) = Ok LCurrent) \/
  (0 < cv /\ somez (m_ver A) < cv /\ run_view d (reload_reads J cv) = Panic) \/
  ((cv = 0 \/ cv < somez (m_ver A)) /\ cv <> somez (m_ver A) /\ exists ds, kept A cv = Some ds /\ run_view d (reload_reads J cv) = Ok (LDiffs ds)) \/
  ((cv = 0 \/ cv < somez (m_ver A)) /\ cv <> somez (m_ver A) /\ kept A cv = None /\ exists l, lists_dbs A l /\ run_view d (mexec J MListDBs) = Ok (VDbs l) /\ run_view d (reload_reads J cv) = Ok (LFull (somez (m_ver A)) l)).
Proof.
  intros H L V0 V1. set (v := somez (m_ver A)) in *. destruct (Z.eq_dec cv v) as [->|N].
  { left. split; [reflexivity|]. eapply view_get; [exact H | exact L|]. unfold reload_reads. eapply mgets_bind; [apply GetSchemaVersion_r|]. fold v. rewrite Z.eqb_refl. apply mgets_ret. }
  right. assert (Nb : (cv =? v) = false) by (apply Z.eqb_neq; exact N).
  assert (FULL : forall (T : mgets A (tryLoadSchemaDiff J cv v) (Ok None)), exists l, lists_dbs A l /\ run_view d (mexec J MListDBs) = Ok (VDbs l) /\ run_view d (reload_reads J cv) = Ok (LFull v l)).
  { intros T. destruct H as (K & S & R & M). destruct (ListDatabases_r J JO A S M) as (l & Ll & HL). exists l. split; [exact Ll|]. split.
    { assert (X : sread MetaPrefix (mexec J MListDBs) S (Ok (VDbs l))) by (cbn [mexec]; eapply sread_bind; [exact HL | apply sread_ret]). eapply run_view_spec. exact (X false n _ R L). }
    assert (X : sread MetaPrefix (reload_reads J cv) S (Ok (LFull v l))).
    { unfold reload_reads. eapply sread_bind; [apply (GetSchemaVersion_r J A S M)|]. fold v. rewrite Nb. eapply sread_bind; [apply (T S M)|]. eapply sread_bind; [exact HL | apply sread_ret]. }
    eapply run_view_spec. exact (X false n _ R L). }
  unfold kept. fold v. destruct ((cv =? 0) || (maxNumberOfDiffsToLoad <? v - cv)) eqn:B.
  - right. right. split.
    { apply orb_true_iff in B. destruct B as [B|B]; [left; apply Z.eqb_eq; exact B | right; apply Z.ltb_lt in B; unfold maxNumberOfDiffsToLoad in B; lia]. }
    split; [exact N|]. split; [reflexivity|]. apply FULL. unfold tryLoadSchemaDiff. rewrite B. apply mgets_ret.
  - pose proof B as B'. apply orb_false_iff in B'. destruct B' as [B1 B2]. apply Z.eqb_neq in B1. destruct (Z.ltb_spec (v - cv) 0) as [Ng|Ps].
    + left. split; [lia|]. split; [lia|]. eapply view_get; [exact H | exact L|]. unfold reload_reads. eapply mgets_bind; [apply GetSchemaVersion_r|]. fold v. rewrite Nb.
      unfold tryLoadSchemaDiff. rewrite B. destruct (Z.ltb_spec (v - cv) 0); [|lia]. intros S M w n0 V R' Ln. exact (spec_panic w V).
    + right. assert (T : mgets A (tryLoadSchemaDiff J cv v) (Ok (diffs_of (m_diff A) (Z.to_nat (v - cv)) cv))).
      { unfold tryLoadSchemaDiff. rewrite B. destruct (Z.ltb_spec (v - cv) 0); [lia|]. apply load_diffs_r; lia. }
      destruct (diffs_of (m_diff A) (Z.to_nat (v - cv)) cv) as [ds|] eqn:D.
      * left. split; [right; lia|]. split; [exact N|]. exists ds. split; [reflexivity|]. eapply view_get; [exact H | exact L|]. unfold reload_reads. eapply mgets_bind; [apply GetSchemaVersion_r|]. fold v. rewrite Nb.
        eapply mgets_bind; [exact T | apply mgets_ret].
      * right. split; [right; lia|]. split; [exact N|]. split; [reflexivity|]. apply FULL. exact T.
Qed.
End WithJson.
