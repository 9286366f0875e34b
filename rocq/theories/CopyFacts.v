(** * CopyFacts: what queries copy is bounded by how often they look types up. *)
From Coq Require Import List NArith Bool Lia PeanoNat.
From Verif Require Import TypeInfo Cost CopySpec Copies Spec BaseFacts Maps QuerySpec CostFacts.
Import ListNotations.
Open Scope N_scope.

Lemma cbind_ext {A B} (x y : counted A) (f g : A -> counted B) w : fst x = fst y -> snd x <= w * snd y ->
  (forall a, fst (f a) = fst (g a) /\ snd (f a) <= w * snd (g a)) -> fst (cbind x f) = fst (cbind y g) /\ snd (cbind x f) <= w * snd (cbind y g).
Proof.
  intros E L F. unfold cbind. rewrite E. destruct (fst y) as [a|k|q|]; cbn [fst snd]; try (split; [reflexivity|exact L]). destruct (F a) as [F1 F2]. split; [exact F1|]. nia.
Qed.
Section Weighed.
  Context (ti : type_information) (w : N) (W : none_larger ti w) (W1 : 1 <= w).
  Lemma fetched_small t : fetched ti t <= w.
  Proof.
    unfold fetched, from_id. destruct (N.eqb_spec t 0) as [->|H]; [exact W1|]. destruct (bt_get N.compare t (id_to_type_map ti)) as [ty|] eqn:E; [|lia].
    apply (W (t, ty)). unfold get. apply bt_get_pair. exact E.
  Qed.
  Lemma size_small : forall n t, size_copies n ti t <= w * size_lookups n ti t.
  Proof.
    induction n as [|n IH]; intros t; [cbn; lia|]. cbn [size_copies size_lookups]. pose proof (fetched_small t).
    destruct (from_id ti t) as [ty|]; [|lia]. destruct ty; try lia;
      try (match goal with |- context [size_copies n ti ?u] => pose proof (IH u) end; nia).
    destruct (id_of ti list_head_str) as [lh|]; [pose proof (fetched_small lh)|]; lia.
  Qed.
  Lemma resolve_small : forall n t, resolve_copies n ti t <= w * resolve_lookups n ti t.
  Proof.
    induction n as [|n IH]; intros t; [cbn; lia|]. cbn [resolve_copies resolve_lookups]. pose proof (fetched_small t).
    destruct (from_id ti t) as [ty|]; [|lia]. destruct ty; try lia; match goal with |- context [resolve_copies n ti ?u] => pose proof (IH u) end; nia.
  Qed.
  Lemma probe_small (p q : offset -> N -> counted (N * offset)) off ms : (forall o t, fst (p o t) = fst (q o t) /\ snd (p o t) <= w * snd (q o t)) ->
    fst (probe_counted p off ms) = fst (probe_counted q off ms) /\ snd (probe_counted p off ms) <= w * snd (probe_counted q off ms).
  Proof.
    intros PQ. induction ms as [|m ms IH]; [cbn; split; [reflexivity|lia]|]. cbn [probe_counted]. destruct (is_anonymous m); [|exact IH].
    apply cbind_ext; [reflexivity|cbn [free snd]; lia|]. intros o. destruct (PQ o (m_tid m)) as [E L]. rewrite E.
    destruct (fst (q o (m_tid m))); cbn [fst snd]; try (split; [reflexivity|exact L]). destruct IH as [I1 I2]. split; [exact I1|]. nia.
  Qed.
  Lemma offset_small c p : forall n off t it, fst (offset_of_copying n c ti p off t it) = fst (offset_of_counted n c ti p off t it) /\
    snd (offset_of_copying n c ti p off t it) <= w * snd (offset_of_counted n c ti p off t it).
  Proof.
    assert (Z : forall (r : outcome offset_error (N * offset)), fst (free r) = fst (free r) /\ snd (free r) <= w * snd (free r)) by (intros r; cbn; split; [reflexivity|lia]).
    induction n as [|n IH]; intros off t it; [apply Z|]. cbn [offset_of_copying offset_of_counted]. destruct (next c p it) as [[[comp|]|k|q|] it']; try apply Z.
    unfold round_copying, round_counted. apply cbind_ext; [reflexivity|apply resolve_small|]. intros [r ty]. cbn [snd].
    assert (A : forall d i, fst (cbind (array_step c ti d off i, array_copies ti d i) (fun o => offset_of_copying n c ti p o (element_tid d) it')) =
        fst (cbind (array_step c ti d off i, array_lookups ti d i) (fun o => offset_of_counted n c ti p o (element_tid d) it')) /\
      snd (cbind (array_step c ti d off i, array_copies ti d i) (fun o => offset_of_copying n c ti p o (element_tid d) it')) <=
        w * snd (cbind (array_step c ti d off i, array_lookups ti d i) (fun o => offset_of_counted n c ti p o (element_tid d) it'))).
    { intros d i. apply cbind_ext; [reflexivity| |intros o; apply IH]. cbn [snd]. unfold array_copies, array_lookups. destruct (element_count d <=? i); [lia|apply size_small]. }
    assert (B : forall name ms, let F probe go := cbind (probe_counted probe off ms) (fun found => match found with Some r => free (Ok r) | None =>
        match find (has_name name) ms with Some m => cbind (free (btf_err (offset_add off (m_offset m)))) (fun off' => go off' (m_tid m)) | None => free (Err OEMemberNotFound) end end) in
      let x := F (fun o mt => offset_of_copying n c ti p o mt it) (fun o mt => offset_of_copying n c ti p o mt it') in
      let y := F (fun o mt => offset_of_counted n c ti p o mt it) (fun o mt => offset_of_counted n c ti p o mt it') in
      fst x = fst y /\ snd x <= w * snd y).
    { intros name ms F x y. unfold x, y, F. destruct (probe_small (fun o mt => offset_of_copying n c ti p o mt it) (fun o mt => offset_of_counted n c ti p o mt it) off ms) as [E L]; [intros; apply IH|].
      apply cbind_ext; [exact E|exact L|]. intros [r0|]; [apply Z|]. destruct (find (has_name name) ms) as [m|]; [|apply Z].
      apply cbind_ext; [reflexivity|cbn [free snd]; lia|]. intros o. apply IH. }
    destruct ty; try apply Z; destruct comp as [i|name]; try apply Z; first [apply A|apply B].
  Qed.
End Weighed.
Lemma offset_of_copying_result n c ti p off t it : fst (offset_of_copying n c ti p off t it) = offset_of_impl n c ti p off t it.
Proof.
  assert (W : exists w, none_larger ti w /\ 1 <= w).
  { unfold none_larger. induction (get ti) as [|e l (w & A & B)]; [exists 1; split; [intros e []|lia]|]. exists (N.max w (held (snd e))). split; [|lia].
    intros x [->|Hx]; [lia|]. pose proof (A x Hx). lia. }
  destruct W as (w & W & W1). rewrite <- offset_of_counted_result. apply (offset_small ti w W W1).
Qed.
