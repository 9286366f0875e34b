(** * LocksMore: what stays in the cache, and fair schedules (lock steps apart). *)
From Coq Require Import Lia Bool.
From Verif Require Import TypeInfo Spec BaseFacts PathSpec Path QuerySpec Chains Sizes Follow Offsets Offsets2 OffsetOf Cache CacheProps Locks LocksProps.

(** Every event but a new call. *)
Definition no_call (ev : event) : Prop := match ev with Call _ => False | _ => True end.
(** A round lets every one of the first [n] threads run, with at least [F] fuel; anything else may happen in it too, except new calls. *)
Definition round (n F : nat) (evs : list event) : Prop :=
  Forall no_call evs /\ forall i, (i < n)%nat -> exists f, (F <= f)%nat /\ In (Step i f) evs.

Lemma set_nth_id {A} i (x : A) l : nth_error l i = Some x -> set_nth i x l = l.
Proof. revert i. induction l as [|y l IH]; intros [|i] H; cbn in *; try discriminate; [congruence|]. rewrite IH by exact H. reflexivity. Qed.

Section More.
  Context (pol : list lthread -> bool) (c : build) (ti : type_information).
  Notation computes k r := (offset_of_returns c ti (fst k) (snd k) r).

  Lemma lrun_app evs1 evs2 : lrun pol c ti (evs1 ++ evs2) = fold_left (lstep pol c ti) evs2 (lrun pol c ti evs1).
  Proof. unfold lrun. apply fold_left_app. Qed.

  (** The only step that changes the cache. *)
  Lemma step_changes fuel w t m t' : lstep_thread pol c ti fuel w t = Some (m, t') ->
    m = l_cache w \/ exists k v, t = LWrite k v true /\ t' = LWritten k v /\ m = cache_insert k v (l_cache w).
  Proof.
    intros H. destruct t as [k|k u|k f|k|k v|k v u|k v|k r]; cbn [lstep_thread] in H.
    - destruct (no_writer w && pol (l_threads w)); [|discriminate]. injection H as <- <-. auto.
    - destruct u; injection H as <- <-; auto.
    - destruct f; injection H as <- <-; auto.
    - destruct (offset_of_uncached fuel c ti (fst k) (snd k)); injection H as <- <-; auto.
    - destruct (no_holder w); [|discriminate]. injection H as <- <-. auto.
    - destruct u; injection H as <- <-; [right; eauto|auto].
    - injection H as <- <-. auto.
    - discriminate.
  Qed.

  (** Only keys that were asked for. *)
  Lemma lrun_asked evs k v : cache_get k (l_cache (lrun pol c ti evs)) = Some v -> In k (calls_made evs).
  Proof.
    revert k v. induction evs as [|ev evs IH] using rev_ind; intros k v H; [discriminate H|].
    rewrite calls_made_app. apply in_or_app. rewrite lrun_snoc in H. destruct ev as [k'|i fuel|]; cbn [lstep l_cache] in H; [left; eauto| |left; eauto].
    left. destruct (nth_error (l_threads (lrun pol c ti evs)) i) as [t|] eqn:E; [|eauto].
    destruct (lstep_thread pol c ti fuel (lrun pol c ti evs) t) as [[m t']|] eqn:Es; [|eauto]. cbn [l_cache fst] in H.
    apply step_changes in Es. destruct Es as [->|(k0 & v0 & -> & _ & ->)]; [eauto|].
    cbn [cache_insert cache_get] in H. destruct (key_eqb k k0) eqn:K; [|eauto]. apply key_eqb_iff in K. subst k0.
    destruct (lrun_ok pol c ti evs) as (_ & _ & M). rewrite <- M. change k with (lcall_of (LWrite k v0 true)). apply in_map. eapply nth_error_In. exact E.
  Qed.

  (** Entries are never changed or dropped. *)
  Lemma lrun_stays evs1 evs2 k v : valid_utf8 (snd k) ->
    cache_get k (l_cache (lrun pol c ti evs1)) = Some v -> cache_get k (l_cache (lrun pol c ti (evs1 ++ evs2))) = Some v.
  Proof.
    intros Hk H. induction evs2 as [|ev evs2 IH] using rev_ind; [rewrite app_nil_r; exact H|]. rewrite app_assoc, lrun_snoc.
    destruct (lrun_ok pol c ti (evs1 ++ evs2)) as (OC & OT & _). remember (lrun pol c ti (evs1 ++ evs2)) as w eqn:Ew. clear Ew.
    destruct ev as [k'|i fuel|]; cbn [lstep]; [exact IH| |exact IH].
    destruct (nth_error (l_threads w) i) as [t|] eqn:E; [|exact IH]. destruct (lstep_thread pol c ti fuel w t) as [[m t']|] eqn:Es; [|exact IH].
    cbn [l_cache fst]. apply step_changes in Es. destruct Es as [->|(k0 & v0 & -> & _ & ->)]; [exact IH|].
    cbn [cache_insert cache_get]. destruct (key_eqb k k0) eqn:K; [|exact IH].
    apply key_eqb_iff in K. subst k0. f_equal. rewrite Forall_forall in OT. pose proof (OT _ (nth_error_In _ _ E)) as W. cbn in W.
    pose proof (OC _ _ IH) as W2. pose proof (offset_of_det _ _ _ _ _ _ Hk W W2). congruence.
  Qed.

  (** No step of a call that ends in an error (or a panic) changes the cache. *)
  Definition wrote (t : lthread) : Prop := exists k v, t = LWritten k v \/ t = LDone k (Ok v).
  Lemma wrote_stays evs1 evs2 i t : nth_error (l_threads (lrun pol c ti evs1)) i = Some t -> wrote t ->
    exists t', nth_error (l_threads (lrun pol c ti (evs1 ++ evs2))) i = Some t' /\ wrote t'.
  Proof.
    intros E W. induction evs2 as [|ev evs2 IH] using rev_ind; [rewrite app_nil_r; eauto|]. rewrite app_assoc, lrun_snoc.
    destruct IH as (x & Ex & Wx). remember (lrun pol c ti (evs1 ++ evs2)) as w eqn:Ew. clear Ew E W. destruct ev as [k'|j fuel|]; cbn [lstep l_threads].
    - exists x. split; [|exact Wx]. rewrite nth_error_app1; [exact Ex|]. apply nth_error_Some. congruence.
    - destruct (nth_error (l_threads w) j) as [tj|] eqn:Ej; [|eauto]. destruct (lstep_thread pol c ti fuel w tj) as [[m t']|] eqn:Es; [|eauto]. cbn [l_threads snd].
      destruct (Nat.eq_dec j i) as [->|Hne]; [|exists x; rewrite set_nth_other by exact Hne; auto].
      rewrite Ex in Ej. injection Ej as <-. exists t'. split; [apply set_nth_same, nth_error_Some; congruence|].
      destruct Wx as (k & v & [-> | ->]); cbn [lstep_thread] in Es; [injection Es as <- <-; exists k, v; auto|discriminate].
    - eauto.
  Qed.
  Lemma lrun_failure evs1 i fuel evs2 k r : nth_error (l_threads (lrun pol c ti (evs1 ++ [Step i fuel] ++ evs2))) i = Some (LDone k r) ->
    (forall v, r <> Ok v) -> l_cache (lrun pol c ti (evs1 ++ [Step i fuel])) = l_cache (lrun pol c ti evs1).
  Proof.
    intros H NO. rewrite app_assoc in H.
    destruct (nth_error (l_threads (lrun pol c ti evs1)) i) as [t|] eqn:E; [|rewrite lrun_snoc; cbn [lstep]; rewrite E; reflexivity].
    destruct (lstep_thread pol c ti fuel (lrun pol c ti evs1) t) as [[m t']|] eqn:Es; [|rewrite lrun_snoc; cbn [lstep]; rewrite E, Es; reflexivity].
    destruct (step_changes _ _ _ _ _ Es) as [->|(k0 & v0 & -> & -> & ->)]; [rewrite lrun_snoc; cbn [lstep]; rewrite E, Es; reflexivity|]. exfalso.
    destruct (wrote_stays (evs1 ++ [Step i fuel]) evs2 i (LWritten k0 v0)) as (x & Ex & (k1 & v1 & W)).
    - rewrite lrun_snoc. cbn [lstep]. rewrite E, Es. cbn [l_threads snd]. apply set_nth_same, nth_error_Some. congruence.
    - exists k0, v0. auto.
    - rewrite Ex in H. injection H as ->. destruct W as [W|W]; [discriminate|]. injection W as _ ->. exact (NO v1 eq_refl).
  Qed.

  (** ** Fair schedules *)
  Lemma lstep_work w ev : no_call ev ->
    (work (lstep pol c ti w ev) < work w)%nat \/ l_threads (lstep pol c ti w ev) = l_threads w.
  Proof.
    destruct ev as [k|i fuel|]; intros N; [destruct N| |right; reflexivity]. cbn [lstep].
    destruct (nth_error (l_threads w) i) as [t|] eqn:E; [|right; reflexivity].
    destruct (lstep_thread pol c ti fuel w t) as [[m t']|] eqn:Es; [|right; reflexivity].
    assert (X : t' = t \/ (left_ t' < left_ t)%nat).
    { destruct t as [k|k u|k f|k|k v|k v u|k v|k r]; try (right; eapply lstep_thread_left; [exact Es|]; intros k' Ek'; discriminate Ek').
      cbn [lstep_thread] in Es. destruct (offset_of_uncached fuel c ti (fst k) (snd k)); injection Es as <- <-; cbn; auto; right; lia. }
    cbn [l_threads snd]. destruct X as [->|X]; [right; apply set_nth_id; exact E|left]. unfold work. cbn [l_threads]. eapply work_set; eassumption.
  Qed.
  Lemma same_can_step w w' i : l_threads w' = l_threads w -> can_step pol c ti w i -> can_step pol c ti w' i.
  Proof.
    intros E (t & Et & H). exists t. split; [congruence|]. intros fuel. specialize (H fuel).
    destruct t as [k|k u|k f|k|k v|k v u|k v|k r]; cbn [lstep_thread] in *; unfold no_writer, no_holder in *; rewrite ?E in *.
    - destruct (forallb _ _ && _); [discriminate|exact H].
    - destruct u; discriminate.
    - destruct f; discriminate.
    - destruct (offset_of_uncached _ _ _ _ _); discriminate.
    - destruct (forallb _ _); [discriminate|exact H].
    - destruct u; discriminate.
    - discriminate.
    - exact H.
  Qed.
  Lemma steps_work evs : Forall no_call evs -> forall w,
    (work (fold_left (lstep pol c ti) evs w) < work w)%nat \/ l_threads (fold_left (lstep pol c ti) evs w) = l_threads w.
  Proof.
    intros H. induction H as [|ev evs N _ IH]; intros w; [right; reflexivity|]. cbn [fold_left].
    destruct (lstep_work w ev N) as [A|A]; destruct (IH (lstep pol c ti w ev)) as [B|B]; [left; lia| | |right; congruence].
    - left. unfold work in *. rewrite B. exact A.
    - left. unfold work in *. rewrite A in B. exact B.
  Qed.
  Lemma round_calls evs : Forall no_call evs -> forall w, map lcall_of (l_threads (fold_left (lstep pol c ti) evs w)) = map lcall_of (l_threads w).
  Proof.
    intros H. induction H as [|ev evs N _ IH]; intros w; [reflexivity|]. cbn [fold_left]. rewrite IH.
    destruct ev as [k|i fuel|]; [destruct N|apply lstep_calls|reflexivity].
  Qed.
  Lemma round_works w F evs : lock_policy pol -> round (length (l_threads w)) F evs ->
    (forall k, In k (map lcall_of (l_threads w)) -> valid_utf8 (snd k) /\ offset_of_uncached F c ti (fst k) (snd k) <> Diverge) ->
    all_done w \/ (work (fold_left (lstep pol c ti) evs w) < work w)%nat.
  Proof.
    intros LP [N R] D. destruct (all_done_dec w) as [A|(i & t & E & Hd)]; [left; exact A|right].
    destruct (no_deadlock pol c ti w i t LP E Hd) as (j & Hj).
    assert (Lj : (j < length (l_threads w))%nat) by (destruct Hj as (x & Ex & _); apply nth_error_Some; congruence).
    destruct (R j Lj) as (f & Hf & Hin). apply in_split in Hin. destruct Hin as (e1 & e2 & ->).
    apply Forall_app in N. destruct N as [N1 N2]. inversion N2 as [|? ? _ N3]; subst. rewrite fold_left_app. cbn [fold_left].
    set (w1 := fold_left (lstep pol c ti) e1 w). assert (S1 := steps_work e1 N1 w). fold w1 in S1.
    assert (S2 : (work (lstep pol c ti w1 (Step j f)) < work w)%nat).
    { destruct S1 as [S1|S1].
      - destruct (lstep_work w1 (Step j f) I) as [S|S]; [lia|]. unfold work in *. rewrite S. exact S1.
      - replace (work w) with (work w1) by (unfold work; rewrite S1; reflexivity). apply step_works; [apply (same_can_step w w1 j S1 Hj)|].
        intros k Hk. rewrite S1 in Hk. apply (in_map lcall_of) in Hk. destruct (D k Hk) as [V X]. rewrite (returns_mono c ti _ _ F f V Hf X). exact X. }
    destruct (steps_work e2 N3 (lstep pol c ti w1 (Step j f))) as [S|S]; [lia|]. unfold work in *. rewrite S. exact S2.
  Qed.
  Lemma done_stays evs : Forall no_call evs -> forall w, all_done w -> all_done (fold_left (lstep pol c ti) evs w).
  Proof.
    intros N w A. destruct (steps_work evs N w) as [S|S]; [|unfold all_done in *; rewrite S; exact A]. exfalso.
    assert (Z : work w = 0%nat); [|lia]. clear S. unfold all_done in A. unfold work. induction A as [|t l Ht _ IH]; [reflexivity|]. cbn. destruct t; try discriminate. exact IH.
  Qed.
  Lemma fair_completes F rounds : lock_policy pol -> forall w, (work w <= length rounds)%nat -> Forall (round (length (l_threads w)) F) rounds ->
    (forall k, In k (map lcall_of (l_threads w)) -> valid_utf8 (snd k) /\ offset_of_uncached F c ti (fst k) (snd k) <> Diverge) ->
    all_done (fold_left (lstep pol c ti) (List.concat rounds) w).
  Proof.
    intros LP. induction rounds as [|evs rounds IH]; intros w Hw HR D.
    - cbn. destruct (all_done_dec w) as [A|(i & t & E & Hd)]; [exact A|]. exfalso. cbn in Hw.
      assert (left_ t <= work w)%nat; [|destruct t; cbn in *; try discriminate; lia].
      clear -E. unfold work. revert i E. induction (l_threads w) as [|x l IH]; intros [|i] E; try discriminate; cbn [fold_right]; [injection E as ->; lia|]. specialize (IH i E). lia.
    - inversion HR as [|? ? H1 H2]; subst. cbn [List.concat]. rewrite fold_left_app.
      destruct (round_works w F evs LP H1 D) as [A|S].
      + apply done_stays; [|apply done_stays; [apply H1|exact A]]. apply Forall_concat. eapply Forall_impl; [|exact H2]. intros x [N _]. exact N.
      + assert (M := round_calls evs (proj1 H1) w). assert (L : length (l_threads (fold_left (lstep pol c ti) evs w)) = length (l_threads w)).
        { apply (f_equal (@length _)) in M. rewrite !map_length in M. exact M. }
        apply IH; [cbn in Hw; lia|rewrite L; exact H2|rewrite M; exact D].
  Qed.
  Lemma lrun_fair evs F rounds : lock_policy pol -> (7 * length (calls_made evs) <= length rounds)%nat -> Forall (round (length (calls_made evs)) F) rounds ->
    (forall k, In k (calls_made evs) -> valid_utf8 (snd k) /\ offset_of_uncached F c ti (fst k) (snd k) <> Diverge) ->
    forall i k, nth_error (calls_made evs) i = Some k -> exists r,
      nth_error (l_threads (lrun pol c ti (evs ++ List.concat rounds))) i = Some (LDone k r) /\ computes k r.
  Proof.
    intros LP HL HR D i k Hk. destruct (lrun_ok pol c ti evs) as (_ & _ & M).
    assert (LM : length (l_threads (lrun pol c ti evs)) = length (calls_made evs)) by (rewrite <- M, map_length; reflexivity).
    assert (W : (work (lrun pol c ti evs) <= length rounds)%nat).
    { apply (Nat.le_trans _ (7 * length (calls_made evs))); [|exact HL]. rewrite <- LM. clear. unfold work. induction (l_threads (lrun pol c ti evs)) as [|t l IH]; [cbn; lia|]. cbn [fold_right length]. assert (left_ t <= 7)%nat by (destruct t; cbn; lia). lia. }
    assert (A : all_done (lrun pol c ti (evs ++ List.concat rounds))).
    { rewrite lrun_app. apply (fair_completes F); [exact LP|exact W|rewrite LM; exact HR|rewrite M; exact D]. }
    assert (NC : Forall no_call (List.concat rounds)) by (apply Forall_concat; eapply Forall_impl; [|exact HR]; intros x [N _]; exact N).
    assert (M2 : map lcall_of (l_threads (lrun pol c ti (evs ++ List.concat rounds))) = calls_made evs).
    { rewrite lrun_app, round_calls by exact NC. exact M. }
    rewrite <- M2, nth_error_map in Hk. destruct (nth_error (l_threads (lrun pol c ti (evs ++ List.concat rounds))) i) as [t|] eqn:E; [|discriminate].
    cbn in Hk. injection Hk as Hk. unfold all_done in A. rewrite Forall_forall in A. specialize (A _ (nth_error_In _ _ E)). destruct t; try discriminate. cbn in Hk. subst k0.
    exists r. split; [reflexivity|]. apply (lrun_exact pol c ti _ _ _ _ E).
  Qed.
End More.
