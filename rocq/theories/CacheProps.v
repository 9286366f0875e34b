(** * CacheProps: [offset_of] with the cache, under every schedule. *)
From Coq Require Import Lia.
From Verif Require Import TypeInfo Cache Spec PathSpec BaseFacts Maps Path QuerySpec Offsets OffsetOf.

(** The calls made by a schedule, in order, and the call a thread serves. *)
Definition calls_made (evs : list event) : list cache_key :=
  List.concat (map (fun ev => match ev with Call k => [k] | _ => [] end) evs).
Definition call_of (t : thread) : cache_key :=
  match t with Reading k | Computing k | Writing k _ | Finished k _ => k end.
(** Paths are Rust strings. *)
Definition valid_calls (evs : list event) : Prop := Forall (fun k => valid_utf8 (snd k)) (calls_made evs).
(** How often thread [i] is run with at least [fuel] fuel. *)
Definition turns (i fuel : nat) (evs : list event) : nat :=
  length (filter (fun ev => match ev with Step j f => Nat.eqb j i && Nat.leb fuel f | _ => false end) evs).
Definition poisons (evs : list event) : Prop := In Poison evs.

Lemma key_eqb_iff a b : key_eqb a b = true <-> a = b.
Proof.
  destruct a as [x p], b as [y q]. unfold key_eqb. cbn [fst snd]. rewrite andb_true_iff, N.eqb_eq, str_eqb_eq. split; [intros [-> ->]; reflexivity|intros [= -> ->]; auto].
Qed.
Lemma set_nth_same {A} i (x : A) l : (i < length l)%nat -> nth_error (set_nth i x l) i = Some x.
Proof. revert l. induction i as [|i IH]; intros [|y l] H; cbn in *; try lia; [reflexivity|]. apply IH. lia. Qed.
Lemma set_nth_other {A} i j (x : A) l : i <> j -> nth_error (set_nth i x l) j = nth_error l j.
Proof. revert j l. induction i as [|i IH]; intros [|j] [|y l] H; cbn; try congruence; try reflexivity. apply IH. congruence. Qed.
Lemma set_nth_In {A} i (x y : A) l : In y (set_nth i x l) -> y = x \/ In y l.
Proof. revert l. induction i as [|i IH]; intros [|z l] H; cbn in *; [auto|destruct H; auto|auto|]. destruct H as [H|H]; [auto|]. destruct (IH l H); auto. Qed.
Lemma set_nth_map {A B} (f : A -> B) i x l : option_map f (nth_error l i) = Some (f x) -> map f (set_nth i x l) = map f l.
Proof. revert l. induction i as [|i IH]; intros [|z l] H; cbn in *; try congruence. f_equal. auto. Qed.

Section Cached.
  Context (c : build) (ti : type_information).
  Notation computes k r := (offset_of_returns c ti (fst k) (snd k) r).
  Definition thread_ok (t : thread) : Prop :=
    match t with
    | Writing k v => computes k (Ok v)
    | Finished k r => computes k r
    | _ => True
    end.
  Definition cache_ok (m : cache) : Prop := forall k v, cache_get k m = Some v -> computes k (Ok v).
  Lemma step_thread_call fuel m po t : call_of (snd (step_thread c ti fuel m po t)) = call_of t.
  Proof.
    destruct t as [k|k|k v|k r]; cbn [step_thread]; try reflexivity.
    - destruct po; [reflexivity|]. destruct (cache_get k m); reflexivity.
    - destruct (offset_of_uncached fuel c ti (fst k) (snd k)); reflexivity.
  Qed.
  Lemma step_thread_ok fuel m po t : cache_ok m -> thread_ok t ->
    cache_ok (fst (step_thread c ti fuel m po t)) /\ thread_ok (snd (step_thread c ti fuel m po t)).
  Proof.
    intros Hm Ht. destruct t as [k|k|k v|k r]; cbn [step_thread].
    - destruct po; [split; [exact Hm|exact I]|]. destruct (cache_get k m) as [v|] eqn:E; cbn [fst snd]; (split; [exact Hm|]); [exact (Hm _ _ E)|exact I].
    - destruct (offset_of_uncached fuel c ti (fst k) (snd k)) as [v|k'|q|] eqn:E; cbn [fst snd]; (split; [exact Hm|]); cbn; try exact I; (split; [discriminate|eauto]).
    - cbn [fst snd]. split; [|exact Ht]. destruct po; [exact Hm|]. intros k' v' H. cbn in H. destruct (key_eqb k' k) eqn:E; [|exact (Hm _ _ H)].
      apply key_eqb_iff in E. subst k'. injection H as <-. exact Ht.
    - split; [exact Hm|exact Ht].
  Qed.
  Lemma step_ok w ev : cache_ok (w_cache w) -> Forall thread_ok (w_threads w) ->
    cache_ok (w_cache (step c ti w ev)) /\ Forall thread_ok (w_threads (step c ti w ev)).
  Proof.
    intros Hm Ht. destruct ev as [k|i fuel|]; cbn [step w_cache w_threads].
    - split; [exact Hm|]. apply Forall_app. split; [exact Ht|]. constructor; [exact I|constructor].
    - destruct (nth_error (w_threads w) i) as [t|] eqn:E; [|split; assumption]. cbn [w_cache w_threads].
      assert (Hti : thread_ok t) by (rewrite Forall_forall in Ht; apply Ht; eapply nth_error_In; exact E).
      destruct (step_thread_ok fuel (w_cache w) (w_poisoned w) t Hm Hti) as [H1 H2]. split; [exact H1|].
      apply Forall_forall. intros x Hx. apply set_nth_In in Hx. destruct Hx as [-> |Hx]; [exact H2|]. rewrite Forall_forall in Ht. auto.
    - split; assumption.
  Qed.
  Lemma run_snoc evs ev : run c ti (evs ++ [ev]) = step c ti (run c ti evs) ev.
  Proof. unfold run. rewrite fold_left_app. reflexivity. Qed.
  Lemma run_ok evs : cache_ok (w_cache (run c ti evs)) /\ Forall thread_ok (w_threads (run c ti evs)).
  Proof.
    induction evs as [|ev evs IH] using rev_ind; [split; [intros k v H; discriminate H|constructor]|].
    rewrite run_snoc. apply step_ok; apply IH.
  Qed.
  Lemma calls_made_app a b : calls_made (a ++ b) = calls_made a ++ calls_made b.
  Proof. unfold calls_made. rewrite map_app, concat_app. reflexivity. Qed.
  (** Thread [i] serves the [i]-th call. *)
  Theorem run_calls evs : map call_of (w_threads (run c ti evs)) = calls_made evs.
  Proof.
    induction evs as [|ev evs IH] using rev_ind; [reflexivity|]. rewrite run_snoc, calls_made_app, <- IH.
    destruct ev as [k|i fuel|]; cbn [step w_threads calls_made map List.concat].
    - rewrite map_app. reflexivity.
    - rewrite app_nil_r. destruct (nth_error (w_threads (run c ti evs)) i) as [t|] eqn:E; [|reflexivity]. cbn [w_threads].
      apply set_nth_map. rewrite E. cbn [option_map]. rewrite step_thread_call. reflexivity.
    - rewrite app_nil_r. reflexivity.
  Qed.
  (** C40: what a finished call returned is the uncached result. *)
  Theorem run_exact evs i k r : nth_error (w_threads (run c ti evs)) i = Some (Finished k r) ->
    nth_error (calls_made evs) i = Some k /\ computes k r.
  Proof.
    intros H. split.
    - rewrite <- run_calls, nth_error_map, H. reflexivity.
    - pose proof (proj2 (run_ok evs)) as F. rewrite Forall_forall in F. exact (F _ (nth_error_In _ _ H)).
  Qed.
  (** C41: what the cache holds is the uncached [Ok] result. *)
  Theorem run_entries evs k v : cache_get k (w_cache (run c ti evs)) = Some v -> computes k (Ok v).
  Proof. apply run_ok. Qed.
  (** A step that ends a call with an error (or a panic) leaves the cache alone. *)
  Theorem step_error evs i fuel k r : nth_error (w_threads (run c ti (evs ++ [Step i fuel]))) i = Some (Finished k r) ->
    (forall v, r <> Ok v) -> w_cache (run c ti (evs ++ [Step i fuel])) = w_cache (run c ti evs).
  Proof.
    rewrite run_snoc. cbn [step]. destruct (nth_error (w_threads (run c ti evs)) i) as [t|] eqn:E; [|reflexivity]. cbn [w_threads w_cache].
    rewrite set_nth_same by (apply nth_error_Some; congruence). intros H NO. destruct t as [k'|k'|k' v'|k' r']; cbn [step_thread] in *.
    - destruct (w_poisoned _); [reflexivity|]. destruct (cache_get _ _); reflexivity.
    - destruct (offset_of_uncached _ _ _ _ _); reflexivity.
    - cbn [snd] in H. injection H as <- <-. destruct (NO v' eq_refl).
    - reflexivity.
  Qed.
  Lemma poisoned_iff evs : w_poisoned (run c ti evs) = true <-> poisons evs.
  Proof.
    unfold poisons. induction evs as [|ev evs IH] using rev_ind; [cbn; split; [discriminate|intros []]|]. rewrite run_snoc, in_app_iff, <- IH.
    destruct ev as [k|i fuel|]; cbn [step]; [| |cbn; tauto].
    - cbn. split; [auto|]. intros [H|[H|[]]]; [exact H|discriminate].
    - destruct (nth_error _ i); cbn; (split; [auto|]); intros [H|[H|[]]]; auto; discriminate.
  Qed.
  (** C41: a successful call leaves its result in the cache, as long as the lock is not poisoned. *)
  Theorem run_cached evs k v : valid_calls evs -> ~ poisons evs -> In (Finished k (Ok v)) (w_threads (run c ti evs)) ->
    cache_get k (w_cache (run c ti evs)) = Some v.
  Proof.
    revert k v. induction evs as [|ev evs IH] using rev_ind; intros k v Hc Hp H; [destruct H|].
    assert (Hc' : valid_calls evs) by (unfold valid_calls in *; rewrite calls_made_app in Hc; apply Forall_app in Hc; tauto).
    assert (Hp' : ~ poisons evs) by (unfold poisons in *; rewrite in_app_iff in Hp; tauto).
    pose proof (run_ok evs) as [OC OT]. rewrite run_snoc in *.
    destruct ev as [k'|i fuel|]; cbn [step w_cache w_threads] in *.
    - apply in_app_iff in H. destruct H as [H|[H|[]]]; [auto|discriminate].
    - destruct (nth_error (w_threads (run c ti evs)) i) as [t|] eqn:E; [|auto]. cbn [w_cache w_threads] in *.
      assert (Ein : In t (w_threads (run c ti evs))) by (eapply nth_error_In; exact E).
      assert (Hval : valid_utf8 (snd (call_of t))).
      { unfold valid_calls in Hc'. rewrite <- run_calls in Hc'. rewrite Forall_forall in Hc'. apply Hc'. apply in_map. exact Ein. }
      assert (Hpo : w_poisoned (run c ti evs) = false) by (destruct (w_poisoned (run c ti evs)) eqn:P; [apply poisoned_iff in P; contradiction|reflexivity]).
      rewrite Hpo in *. apply set_nth_In in H. destruct t as [k0|k0|k0 v0|k0 r0]; cbn [step_thread] in *.
      + destruct (cache_get k0 (w_cache (run c ti evs))) as [v1|] eqn:G; cbn [fst snd] in *; (destruct H as [H|H]; [|auto]); [|discriminate]. injection H as -> ->. exact G.
      + destruct (offset_of_uncached _ _ _ _ _); cbn [fst snd] in *; (destruct H as [H|H]; [discriminate|auto]).
      + cbn [fst snd cache_insert cache_get] in *. destruct (key_eqb k k0) eqn:K.
        * apply key_eqb_iff in K. subst k0. f_equal. rewrite Forall_forall in OT. pose proof (OT _ Ein) as W. cbn in W.
          destruct H as [H|H]; [injection H as ->; reflexivity|]. pose proof (OT _ H) as W2. cbn in W2.
          pose proof (offset_of_det _ _ _ _ _ _ Hval W W2) as D. congruence.
        * destruct H as [H|H]; [|auto]. injection H as -> ->. assert (X : key_eqb k0 k0 = true) by (apply key_eqb_iff; reflexivity). congruence.
      + cbn [fst snd] in *. destruct H as [H|H]; [|auto]. apply IH; try assumption. rewrite H. exact Ein.
    - destruct Hp. unfold poisons. apply in_app_iff. right. left. reflexivity.
  Qed.

  (** Progress: how far a call still is from its end. *)
  Definition remaining (t : thread) : nat := match t with Reading _ => 3 | Computing _ => 2 | Writing _ _ => 1 | Finished _ _ => 0 end.
  Lemma step_thread_progress F fuel m po t : valid_utf8 (snd (call_of t)) -> offset_of_uncached F c ti (fst (call_of t)) (snd (call_of t)) <> Diverge -> (F <= fuel)%nat ->
    (remaining (snd (step_thread c ti fuel m po t)) <= remaining t - 1)%nat.
  Proof.
    intros Hv HF Hle. destruct t as [k|k|k v|k r]; cbn [step_thread call_of] in *.
    - destruct po; [cbn; lia|]. destruct (cache_get k m); cbn; lia.
    - rewrite (returns_mono c ti _ _ F fuel Hv Hle HF). destruct (offset_of_uncached F c ti (fst k) (snd k)) as [v|k'|q|]; cbn; try lia. congruence.
    - cbn. lia.
    - cbn. lia.
  Qed.
  Lemma step_thread_le fuel m po t : (remaining (snd (step_thread c ti fuel m po t)) <= remaining t)%nat.
  Proof.
    destruct t as [k|k|k v|k r]; cbn [step_thread].
    - destruct po; [cbn; lia|]. destruct (cache_get k m); cbn; lia.
    - destruct (offset_of_uncached fuel c ti (fst k) (snd k)) as [v|k'|q|]; cbn; lia.
    - cbn. lia.
    - cbn. lia.
  Qed.
  Lemma turns_snoc i F evs ev : turns i F (evs ++ [ev]) =
    (turns i F evs + match ev with Step j f => if Nat.eqb j i && Nat.leb F f then 1 else 0 | _ => 0 end)%nat.
  Proof.
    unfold turns. rewrite filter_app, app_length. f_equal. destruct ev as [k|j f|]; cbn; try reflexivity. destruct (Nat.eqb j i && Nat.leb F f); reflexivity.
  Qed.
  (** C40: a call that the uncached computation would finish is finished by three turns. *)
  Theorem run_progress evs1 evs2 i k F r : valid_utf8 (snd k) ->
    nth_error (calls_made evs1) i = Some k -> offset_of_uncached F c ti (fst k) (snd k) = r -> r <> Diverge ->
    (3 <= turns i F evs2)%nat -> nth_error (w_threads (run c ti (evs1 ++ evs2))) i = Some (Finished k r).
  Proof.
    intros Hv Hk HF Hr Ht.
    assert (G : forall evs2, exists t, nth_error (w_threads (run c ti (evs1 ++ evs2))) i = Some t /\ call_of t = k /\ (remaining t <= 3 - turns i F evs2)%nat).
    { clear evs2 Ht. intros evs2. induction evs2 as [|ev evs2 IH] using rev_ind.
      - rewrite app_nil_r. rewrite <- run_calls, nth_error_map in Hk. destruct (nth_error (w_threads (run c ti evs1)) i) as [t|]; [|discriminate].
        cbn in Hk. injection Hk as Hk. exists t. split; [reflexivity|]. split; [exact Hk|]. destruct t; cbn; lia.
      - destruct IH as (t & Et & Ek & Hle). rewrite app_assoc, run_snoc, turns_snoc. destruct ev as [k'|j f|]; cbn [step w_threads].
        + exists t. split; [|split; [exact Ek|lia]]. rewrite nth_error_app1; [exact Et|]. apply nth_error_Some. congruence.
        + destruct (nth_error (w_threads (run c ti (evs1 ++ evs2))) j) as [tj|] eqn:Ej.
          * cbn [w_threads]. destruct (Nat.eqb_spec j i) as [-> |Hne]; cbn [andb].
            -- rewrite Et in Ej. injection Ej as <-. eexists. split; [apply set_nth_same; apply nth_error_Some; congruence|]. split; [rewrite step_thread_call; exact Ek|].
               destruct (Nat.leb_spec F f) as [Hf|Hf].
               ++ pose proof (step_thread_progress F f (w_cache (run c ti (evs1 ++ evs2))) (w_poisoned (run c ti (evs1 ++ evs2))) t) as P.
                  rewrite Ek in P. specialize (P Hv ltac:(congruence) Hf). lia.
               ++ pose proof (step_thread_le f (w_cache (run c ti (evs1 ++ evs2))) (w_poisoned (run c ti (evs1 ++ evs2))) t). lia.
            -- exists t. rewrite set_nth_other by exact Hne. split; [exact Et|]. split; [exact Ek|lia].
          * exists t. split; [exact Et|]. split; [exact Ek|]. destruct (Nat.eqb_spec j i) as [-> |Hne]; [congruence|]. cbn [andb]. lia.
        + exists t. split; [exact Et|]. split; [exact Ek|lia]. }
    destruct (G evs2) as (t & Et & Ek & Hle). destruct t as [k'|k'|k' v'|k' r']; cbn [remaining call_of] in *; try lia. subst k'.
    rewrite Et. f_equal. f_equal. apply run_exact in Et. destruct Et as [_ Et].
    eapply offset_of_det; [exact Hv|exact Et|]. split; [exact Hr|eauto].
  Qed.
End Cached.

(** Entries are never changed or dropped. *)
Lemma entry_stays c ti evs1 evs2 k v : valid_utf8 (snd k) ->
  cache_get k (w_cache (run c ti evs1)) = Some v -> cache_get k (w_cache (run c ti (evs1 ++ evs2))) = Some v.
Proof.
  intros Hk H. induction evs2 as [|ev evs2 IH] using rev_ind; [rewrite app_nil_r; exact H|]. rewrite app_assoc, run_snoc.
  pose proof (run_ok c ti (evs1 ++ evs2)) as [OC OT]. remember (run c ti (evs1 ++ evs2)) as w eqn:Ew. clear Ew.
  destruct ev as [k'|i fuel|]; cbn [step]; [exact IH| |exact IH].
  destruct (nth_error (w_threads w) i) as [t|] eqn:E; [|exact IH]. cbn [w_cache].
  destruct t as [k0|k0|k0 v0|k0 r0]; cbn [step_thread].
  - destruct (w_poisoned w); [exact IH|]. destruct (cache_get k0 (w_cache w)); exact IH.
  - destruct (offset_of_uncached fuel c ti (fst k0) (snd k0)); exact IH.
  - cbn [fst]. destruct (w_poisoned w); [exact IH|]. cbn [cache_insert cache_get]. destruct (key_eqb k k0) eqn:K; [|exact IH].
    apply key_eqb_iff in K. subst k0. f_equal. rewrite Forall_forall in OT. pose proof (OT _ (nth_error_In _ _ E)) as W. cbn in W.
    pose proof (OC _ _ IH) as W2. pose proof (offset_of_det _ _ _ _ _ _ Hk W W2). congruence.
  - exact IH.
Qed.
