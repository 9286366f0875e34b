(** * PropWrap: exactly when size_of panics, and exactly what it returns when array sizes wrap (C29). *)
From Coq Require Import Strings.String.
From Coq Require Import List NArith Bool Lia Strings.Byte.
From Verif Require Import TypeInfo Spec BaseFacts LoadProps Final QuerySpec Chains Sizes PropLoad2 Sample Witness PropQuery.
Import ListNotations.
Open Scope N_scope.

(** Every mathematical size fits a wide enough usize. *)
Lemma has_size_wide ti t s : size ti t s -> exists b, has_size ti (fun n => n < 2 ^ b) t s.
Proof.
  unfold size. induction 1 as [t ty s F S|t h d s F S|t e n s A _ (b & IH) _|t u s A _ (b & IH)].
  - exists 0. eapply size_stored; eassumption.
  - exists 0. eapply size_pointer; eassumption.
  - exists (N.max b (s * n)). eapply size_array; [exact A| |].
    + eapply has_size_impl; [|exact IH]. intros k Hk. cbv beta in *. eapply N.lt_le_trans; [exact Hk|]. apply N.pow_le_mono_r; lia.
    + eapply N.lt_le_trans; [apply N.pow_gt_lin_r with (a := 2); lia|]. apply N.pow_le_mono_r; lia.
  - exists b. eapply size_same; eassumption.
Qed.
Lemma size_no_error c ti t s : size ti t s -> (exists v, size_of c ti t = Ok v) \/ exists q, size_of c ti t = Panic q.
Proof.
  intros H. destruct (has_size_wide ti t s H) as (b & W). destruct (size_of_spec {| usize_bits := b; overflow_checks := true |} ti t) as (A & _ & _ & E & _ & D). apply A in W.
  destruct (size_of_spec c ti t) as (_ & _ & _ & E' & _ & D'). destruct (size_of c ti t) as [v|k|q|] eqn:X; [left; eauto| |right; eauto|]; exfalso.
  - pose proof (proj1 (E' k) eq_refl) as Y. apply E in Y. congruence.
  - pose proof (proj1 D' eq_refl) as Y. apply D in Y. congruence.
Qed.
(** With overflow checks it panics exactly if the type has a size, but one of the products that enter into it does not fit. *)
Theorem C29_panics_exactly_partial : forall c ti t, overflow_checks c = true ->
  ((exists q, size_of c ti t = Panic q) <-> exists s, size ti t s /\ ~ has_size ti (fun n => n < 2 ^ usize_bits c) t s).
Proof.
  intros c ti t C. destruct (size_of_spec c ti t) as (_ & S2 & _ & _ & S5 & _). split.
  - intros (q & E). apply (S5 q E).
  - intros (s & H & F). destruct (size_no_error c ti t s H) as [(v & E)|E]; [|exact E]. exfalso. pose proof (S2 v C E) as Y. apply F.
    assert (v = s) as <- by (apply (size_det ti (fun _ => True) t); [eapply has_size_impl; [|exact Y]; cbv beta; auto|exact H]). exact Y.
Qed.
Print Assumptions C29_panics_exactly_partial.
Lemma stored_small e ti : usize_bits (cfg e) = 64 -> type_information_new e = Ok ti -> forall c, 32 <= usize_bits c -> forall n t v, size_of_fuel n c ti t = Ok v -> v < 2 ^ usize_bits c.
Proof.
  intros H L c B. destruct (C44_widths e ti H L) as [F _]. destruct (loaded_ids e ti H L) as (_ & A & _ & Z).
  assert (W : 2 ^ 32 <= 2 ^ usize_bits c) by (apply N.pow_le_mono_r; lia).
  assert (G : forall t ty, from_id ti t = Some ty -> ty <> TVoid -> type_fits ty).
  { intros t ty E V. destruct (N.eq_dec t 0) as [->|T]; [rewrite Z in E; congruence|]. apply (A t ty T) in E. rewrite Forall_forall in F. apply F. apply (in_map snd) in E. exact E. }
  assert (M : forall x y v, @mul_usize error_kind c x y = Ok v -> v < 2 ^ usize_bits c).
  { intros x y v E. destruct (N.lt_ge_cases (x * y) (2 ^ usize_bits c)) as [K|K]; [rewrite (mul_usize_fits c x y K) in E; injection E as <-; exact K|].
    rewrite (mul_usize_big c x y K) in E. destruct (overflow_checks c); [discriminate|]. injection E as <-. apply N.mod_lt. lia. }
  assert (U : forall x, u32 x -> x < 2 ^ usize_bits c) by (unfold u32; intros x X; lia).
  induction n as [|n IH]; intros t v E; [discriminate|]. cbn [size_of_fuel] in E. destruct (from_id ti t) as [ty|] eqn:Q; [|discriminate].
  destruct ty; try discriminate E; try (eapply IH; exact E); try (injection E as <-; apply U; apply (G _ _ Q); discriminate).
  - revert E. unfold pointer_size. destruct (id_of ti list_head_str) as [lh|]; [|discriminate]. destruct (from_id ti lh) as [[]|] eqn:Y; try discriminate. intros E. injection E as <-.
    assert (struct_size d0 < 2 ^ usize_bits c) by (apply U; apply (G _ _ Y); discriminate). assert (struct_size d0 / 2 <= struct_size d0) by (apply N.div_le_upper_bound; lia). lia.
  - destruct (size_of_fuel n c ti (element_tid d)) as [z|k|q|]; try discriminate E. exact (M _ _ _ E).
Qed.
(** Without, it returns the mathematical size modulo 2^64 (2^32), and an error exactly if there is none. *)
Theorem C29_wrapped_exactly_partial : forall e ti c t v, usize_bits (cfg e) = 64 -> type_information_new e = Ok ti -> 32 <= usize_bits c -> overflow_checks c = false ->
  (size_of c ti t = Ok v <-> exists s, size ti t s /\ v = s mod 2 ^ usize_bits c).
Proof.
  intros e ti c t v H L B C. destruct (size_of_spec c ti t) as (_ & _ & S3 & _ & S5 & _).
  assert (K : forall x, size_of c ti t = Ok x -> exists s, size ti t s /\ x = s mod 2 ^ usize_bits c).
  { intros x E. destruct (S3 x E) as (s & S & X). exists s. split; [exact S|]. unfold wraps in X. rewrite <- X. symmetry. apply N.mod_small. exact (stored_small e ti H L c B _ _ _ E). }
  split; [apply K|]. intros (s & S & ->). destruct (size_no_error c ti t s S) as [(x & E)|(q & E)]; [|apply S5 in E; destruct E as (_ & E & _); congruence].
  rewrite E. destruct (K x E) as (s' & S' & ->). rewrite (size_det ti (fun _ => True) t s s' S S'). reflexivity.
Qed.
Print Assumptions C29_wrapped_exactly_partial.
Example C29_wrap_met : type_information_new (file_env overflow_file) = Ok overflow_ti /\ size overflow_ti 3 (2 ^ 64) /\ size_of (build64 false) overflow_ti 3 = Ok 0 /\ size_of (build64 true) overflow_ti 3 = Panic ArithmeticOverflow.
Proof. split; [exact overflow_loads|]. split; [exact overflow_size|]. split; vm_compute; reflexivity. Qed.
