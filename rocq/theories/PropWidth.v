(** * PropWidth: a 32-bit and a 64-bit program get the same answers (C84).
    [c] is the narrower of two builds, [c'] the wider one; either may have overflow checks or not. *)
From Coq Require Import Strings.String.
From Coq Require Import List NArith Bool Lia Strings.Byte.
From Verif Require Import TypeInfo Spec PathSpec BaseFacts Path PathGrammar PathPrint QuerySpec Chains Sizes Follow Offsets Offsets2 OffsetOf OffsetOf2 OutcomeSpec WidthFacts LoadProps2 Final Sample Checker PropLoad2 PropQuery Witness LoadProps PropRelease.
Import ListNotations.
Open Scope N_scope.

Theorem C84_size_of : forall c c' ti t, usize_bits c <= usize_bits c' -> sizes_fit c ti -> size_of c' ti t = size_of c ti t.
Proof. intros c c' ti t W F. exact (size_of_wider c c' W ti t F). Qed.
Print Assumptions C84_size_of.

(** ** offset_of, for a path that both builds read as the same components *)
Lemma text_script c p cs bad : valid_utf8 p -> text_is c p cs bad -> exists e, ascripts c (PStart, p) cs e /\ (e = None <-> ~ bad).
Proof.
  intros V [[R N]|[M B]].
  - exists None. split; [apply script_reads; assumption|]. tauto.
  - exists (Some InvalidTypePath). split; [apply malformed_script; assumption|]. split; [discriminate|]. intros X. destruct (X B).
Qed.
Lemma script_kind c p cs e : valid_utf8 p -> ascripts c (PStart, p) cs e -> e = None \/ e = Some InvalidTypePath.
Proof. intros V A. destruct (script_of c p V) as (cs' & e' & A' & H). destruct (script_det _ _ _ _ A _ _ A') as [_ ->]. exact H. Qed.
Lemma returns_uncached c c' ti t p : (forall n, offset_of_uncached n c' ti t p = offset_of_uncached n c ti t p) ->
  (forall r, offset_of_returns c' ti t p r <-> offset_of_returns c ti t p r) /\ (offset_of_never_returns c' ti t p <-> offset_of_never_returns c ti t p).
Proof.
  intros E. split.
  - intros r. split; intros (D & n & H); (split; [exact D|exists n]); [rewrite <- E|rewrite E]; exact H.
  - split; intros H n; [rewrite <- E|rewrite E]; apply H.
Qed.
Theorem C84_offset_of : forall c c' ti t p cs bad, usize_bits c <= usize_bits c' -> sizes_fit c ti -> valid_utf8 p ->
  text_is c p cs bad -> text_is c' p cs bad ->
  (forall r, offset_of_returns c' ti t p r <-> offset_of_returns c ti t p r) /\
  (offset_of_never_returns c' ti t p <-> offset_of_never_returns c ti t p).
Proof.
  intros c c' ti t p cs bad W F V T T'. apply returns_uncached. intros n.
  destruct (text_script c p cs bad V T) as (e & A & B). destruct (text_script c' p cs bad V T') as (e' & A' & B').
  assert (e' = e) as ->.
  { destruct (script_kind c p cs e V A) as [-> | ->], (script_kind c' p cs e' V A') as [-> | ->]; try reflexivity; exfalso.
    - pose proof (proj1 B eq_refl) as X. apply B' in X. discriminate.
    - pose proof (proj1 B' eq_refl) as X. apply B in X. discriminate. }
  rewrite (uncached_user _ _ _ _ _ _ _ V A), (uncached_user _ _ _ _ _ _ _ V A'). f_equal. apply follow_wider; assumption.
Qed.
Print Assumptions C84_offset_of.

(** Every text is one, unless it has an index that only the wider build can hold: there the narrower one finds it malformed. *)
Theorem C84_texts : forall c c' p, usize_bits c <= usize_bits c' -> valid_utf8 p ->
  (exists cs bad, text_is c p cs bad /\ text_is c' p cs bad) \/
  (exists cs i, malformed_after c p cs /\ begins c' p (cs ++ [Index i]) /\ usize_max c < i <= usize_max c').
Proof.
  intros c c' p W V. destruct (script_of c p V) as (cs & e & A & K). destruct (script_wider c c' W (PStart, p) cs e ltac:(discriminate) A) as (cs' & e' & A' & X).
  destruct X as [[-> ->]|[-> (i & rest & -> & L)]].
  - left. exists cs. destruct K as [-> | ->].
    + exists False. split; left; (split; [apply script_reads; assumption|tauto]).
    + exists True. split; right; (split; [apply malformed_script; assumption|exact I]).
  - right. exists cs, i. split; [apply malformed_script; assumption|]. change (Index i :: rest) with ([Index i] ++ rest) in A'. rewrite app_assoc in A'. split; [eapply script_begins; [exact V|exact A']|].
    split; [exact L|].
    clear - A' V. rewrite <- app_assoc in A'. cbn [app] in A'. remember (PStart, p) as st eqn:S. clear S V. revert st A'. induction cs as [|x cs IH]; intros st A'; cbn [app] in A'.
    + inversion A' as [| |s0 x0 s1 cs0 e0 N _]; subst. destruct st as [ps l]. revert N.
      assert (Q : forall l0 s2, aindex c' l0 = (Ok (Some (Index i)), s2) -> i <= usize_max c').
      { intros l0 s2. unfold aindex. destruct (drop_while is_numeric l0) as [|b r]; [discriminate|]. destruct (is_rbracket b); [|discriminate].
        destruct (parse_usize c' _) as [j|] eqn:P; [|discriminate]. intros H. injection H as -> _. apply parse_usize_iff in P. apply P. }
      assert (NS : forall b l0 s2, astart b l0 <> (Ok (Some (Index i)), s2)).
      { intros b l0 s2. unfold astart, aname. destruct (_ || _); [|discriminate]. destruct (drop_while nameb l0) as [|b0 r]; [discriminate|]. destruct (is_lbracket b0); [discriminate|]. destruct (is_dot b0); discriminate. }
      assert (NA : forall l0 s2, aname l0 <> (Ok (Some (Index i)), s2)).
      { intros l0 s2. unfold aname. destruct (drop_while nameb l0) as [|b0 r]; [discriminate|]. destruct (is_lbracket b0); [discriminate|]. destruct (is_dot b0); discriminate. }
      unfold anext. cbn [fst snd]. destruct ps, l as [|b l]; try discriminate; try (intros N; exact (Q _ _ N)); try (intros N; destruct (NA _ _ N)); try (intros N; destruct (NS _ _ _ N)).
      * destruct (is_lbracket b); intros N; [exact (Q _ _ N)|destruct (NS _ _ _ N)].
      * destruct (is_lbracket b); [intros N; exact (Q _ _ N)|]. destruct (is_dot b); [|discriminate]. destruct l; [discriminate|]. intros N; destruct (NS _ _ _ N).
    + inversion A' as [| |s0 x0 s1 cs0 e0 N R]; subst. exact (IH _ R).
Qed.
Print Assumptions C84_texts.

Lemma reads_wider c c' p cs : usize_bits c <= usize_bits c' -> valid_utf8 p -> reads_as (usize_max c) p cs -> reads_as (usize_max c') p cs.
Proof.
  intros W V R. apply script_reads in R; [|exact V]. destruct (script_wider c c' W (PStart, p) cs None ltac:(discriminate) R) as (cs' & e' & A' & [[-> ->]|[X _]]); [|discriminate].
  apply script_reads; assumption.
Qed.

(** ** offset_of, for any path *)
Lemma wide_case c c' ti t p : usize_bits c <= usize_bits c' -> sizes_fit c ti -> counts_fit c ti -> valid_utf8 p ->
  (forall n, offset_of_uncached n c' ti t p = offset_of_uncached n c ti t p) \/
  ((exists cs, malformed_after c p cs) /\ forall n, match offset_of_uncached n c' ti t p with Ok _ => False | Panic _ => False
   | Err k => offset_of_uncached n c ti t p = Err k \/ offset_of_uncached n c ti t p = Err InvalidTypePath | Diverge => True end).
Proof.
  intros W F CF V. destruct (script_of c p V) as (cs & e & A & K). destruct (script_wider c c' W (PStart, p) cs e ltac:(discriminate) A) as (cs' & e' & A' & X).
  destruct X as [[-> ->]|[-> (i & rest & -> & L)]].
  - left. intros n. rewrite (uncached_user _ _ _ _ _ _ _ V A), (uncached_user _ _ _ _ _ _ _ V A'). f_equal. apply follow_wider; assumption.
  - right. split; [exists cs; apply malformed_script; assumption|]. intros n. rewrite (uncached_user _ _ _ _ _ _ _ V A), (uncached_user _ _ _ _ _ _ _ V A').
    pose proof (follow_loses c c' W ti e' i rest F CF L n (ByteOffset 0) t cs) as G. unfold loses in G.
    destruct (follow n c' ti e' (ByteOffset 0) t (cs ++ Index i :: rest)) as [z|y|q|]; try contradiction; [|exact I]. cbn [user_result].
    destruct G as [-> | ->]; [left|right]; reflexivity.
Qed.
(** The wider build gives no answer that the narrower one does not give, nor the other way round; where both give an error it is
    the same one, or the narrower build found an index too big. *)
Theorem C84_any_path : forall c c' ti t p, usize_bits c <= usize_bits c' -> sizes_fit c ti ->
  (forall x h d, from_id ti x = Some (TArray h d) -> element_count d <= usize_max c) -> valid_utf8 p ->
  (forall r, offset_of_returns c' ti t p (Ok r) <-> offset_of_returns c ti t p (Ok r)) /\
  (forall k, offset_of_returns c' ti t p (Err k) -> offset_of_returns c ti t p (Err k) \/ offset_of_returns c ti t p (Err InvalidTypePath)) /\
  (forall q, ~ offset_of_returns c' ti t p (Panic q) /\ ~ offset_of_returns c ti t p (Panic q)).
Proof.
  intros c c' ti t p W F CF V.
  assert (NP : forall c0 q, sizes_fit c0 ti -> ~ offset_of_returns c0 ti t p (Panic q)).
  { intros c0 q F0 H. destruct (offset_of_panic _ _ _ _ _ V H) as (_ & _ & x & z & Z & NZ). exact (NZ (F0 _ _ Z)). }
  split; [|split; [|intros q; split; apply NP; [exact (sizes_fit_wider c c' W ti F)|exact F]]].
  - destruct (wide_case c c' ti t p W F CF V) as [E|[[cs M] E]]; [intros r; exact (proj1 (returns_uncached c c' ti t p E) (Ok r))|]. intros r. split; intros (D & n & H).
    + specialize (E n). rewrite H in E. destruct E.
    + exfalso. eapply malformed_never_ok; [exact V|exact M|]. split; [exact D|exists n; exact H].
  - destruct (wide_case c c' ti t p W F CF V) as [E|[_ E]]; [intros k H; left; apply (proj1 (returns_uncached c c' ti t p E)); exact H|].
    intros k (D & n & H). specialize (E n). rewrite H in E. destruct E as [E|E]; [left|right]; (split; [discriminate|exists n; exact E]).
Qed.
Print Assumptions C84_any_path.

(** ** From a file to the answers *)
Theorem C84_from_file : forall rd img checks checks' ti, serves rd img -> N.of_nat (length img) <= 2 ^ 32 - 2 ^ 20 ->
  type_information_new {| cfg := build32 checks; rd := rd |} = Ok ti -> sizes_fit (build32 checks) ti ->
  type_information_new {| cfg := build64 checks'; rd := rd |} = Ok ti /\
  (forall t, size_of (build32 checks) ti t = size_of (build64 checks') ti t) /\
  (forall t p r, valid_utf8 p -> offset_of_returns (build32 checks) ti t p (Ok r) <-> offset_of_returns (build64 checks') ti t p (Ok r)) /\
  (forall t p cs, valid_utf8 p -> reads_as (2 ^ 32 - 1) p cs -> forall r,
     offset_of_returns (build32 checks) ti t p r <-> offset_of_returns (build64 checks') ti t p r).
Proof.
  intros rd img checks checks' ti S L E F. apply (C02_same_accepted_partial rd img checks' checks ti S L) in E. split; [exact E|].
  assert (W : usize_bits (build32 checks) <= usize_bits (build64 checks')) by (change (32 <= 64); lia).
  split; [intros t; symmetry; apply C84_size_of; assumption|]. split.
  - intros t p r V. symmetry. apply (C84_any_path (build32 checks) (build64 checks') ti t p W F); [|exact V].
    destruct (C44_widths {| cfg := build64 checks'; rd := rd |} ti eq_refl E) as [TF _]. destruct (loaded_ids {| cfg := build64 checks'; rd := rd |} ti eq_refl E) as (_ & A & _ & Z).
    intros x h d X. assert (x <> 0) as NZ by (intros ->; rewrite Z in X; discriminate X). apply (A x _ NZ) in X. rewrite Forall_forall in TF. apply (in_map snd) in X. apply TF in X.
    cbn [snd type_fits] in X. unfold usize_max. cbn [usize_bits build32]. unfold u32 in X. lia.
  - intros t p cs V R r. symmetry. apply (C84_offset_of (build32 checks) (build64 checks') ti t p cs False W F V).
    + left. split; [exact R|tauto].
    + left. split; [|tauto]. exact (reads_wider (build32 checks) (build64 checks') p cs W V R).
Qed.
Print Assumptions C84_from_file.

(** The sample's sizes fit into 32 bits.  The array of 2^31 4-byte elements of the overflow table has a size that does not:
    there the builds differ. *)
Example C84_met :
  (forall b, sizes_fit (build32 b) sample_ti) /\ N.of_nat (length sample_img) <= 2 ^ 32 - 2 ^ 20 /\
  type_information_new {| cfg := build32 true; rd := readable_file sample_img |} = Ok sample_ti /\
  offset_of_returns (build32 true) sample_ti 24 (s "tasks[2].b") (Ok (3, ByteOffset 136)) /\
  offset_of_returns (build32 true) sample_ti 24 (s "tasks[4294967296]") (Err InvalidTypePath) /\
  offset_of_returns (build64 true) sample_ti 24 (s "tasks[4294967296]") (Err InvalidTypePath) /\
  (size_of (build64 true) overflow_ti 2 = Ok (2 ^ 33) /\ size_of (build32 true) overflow_ti 2 = Panic ArithmeticOverflow /\ size_of (build32 false) overflow_ti 2 = Ok 0) /\
  (offset_of_returns (build64 true) overflow_ti 3 (s "[1]") (Err InvalidTypePath) /\ offset_of_returns (build32 false) overflow_ti 3 (s "[1]") (Ok (2, ByteOffset 0))).
Proof.
  split; [intros []; apply sized_within_fit; vm_compute; reflexivity|]. split; [vm_compute; discriminate|]. split; [vm_compute; reflexivity|].
  split; [split; [discriminate|exists 20%nat; vm_compute; reflexivity]|]. split; [split; [discriminate|exists 20%nat; vm_compute; reflexivity]|]. split; [split; [discriminate|exists 20%nat; vm_compute; reflexivity]|].
  split; [repeat split; vm_compute; reflexivity|]. split; (split; [discriminate|exists 20%nat; vm_compute; reflexivity]).
Qed.
