(** * WidthFacts: the same query in a narrow and in a wide build. *)
From Coq Require Import Lia.
From Verif Require Import TypeInfo Spec PathSpec BaseFacts Path PathGrammar PathPrint QuerySpec Chains Sizes Follow Offsets Offsets2 OffsetOf.

Section Widths.
Variables c c' : build.
Hypothesis W : usize_bits c <= usize_bits c'.

Lemma wider_max : usize_max c <= usize_max c'.
Proof. unfold usize_max. pose proof (N.pow_le_mono_r 2 _ _ ltac:(discriminate) W). assert (2 ^ usize_bits c <> 0) by (apply N.pow_nonzero; discriminate). lia. Qed.

(** ** Sizes *)
Lemma sizes_fit_wider ti : sizes_fit c ti -> sizes_fit c' ti.
Proof.
  intros F t z Z. eapply has_size_impl; [|exact (F t z Z)]. intros n L. cbv beta in *. eapply N.lt_le_trans; [exact L|]. apply N.pow_le_mono_r; [discriminate|exact W].
Qed.
Lemma size_of_wider ti t : sizes_fit c ti -> size_of c' ti t = size_of c ti t.
Proof.
  intros F. pose proof (sizes_fit_wider ti F) as F'. destruct (size_of_spec c ti t) as (A & _ & B & E & _ & D). destruct (size_of_spec c' ti t) as (A' & _ & _ & E' & _ & D').
  destruct (size_of c ti t) as [z|k|q|] eqn:X.
  - destruct (B z eq_refl) as (z0 & Z & _). rewrite (A' z0 (F' _ _ Z)). specialize (A z0 (F _ _ Z)). congruence.
  - apply E'. apply E. reflexivity.
  - exfalso. exact (sizes_fit_no_panic c ti t q F X).
  - apply D'. apply D. reflexivity.
Qed.
Lemma array_step_wider ti d off i : sizes_fit c ti -> array_step c' ti d off i = array_step c ti d off i.
Proof. intros F. unfold array_step. rewrite (size_of_wider ti _ F). reflexivity. Qed.
Lemma follow_wider ti e : sizes_fit c ti -> forall n off t cs, follow n c' ti e off t cs = follow n c ti e off t cs.
Proof.
  intros F. induction n as [|n IH]; intros off t cs; [reflexivity|]. destruct cs as [|x cs]; [reflexivity|]. rewrite !follow_S.
  destruct (resolve ti t) as [[r ty]|k|q|]; try reflexivity. cbn [obind snd]. unfold round. destruct x as [i|nm].
  - destruct ty; try reflexivity. rewrite (array_step_wider ti d off i F). destruct (array_step c ti d off i); try reflexivity. cbn [obind]. apply IH.
  - destruct ty; try reflexivity; cbn [member_lists].
    all: rewrite (probe_ext _ _ off _ (fun o mt => IH o mt (Name nm :: cs))).
    all: destruct (probe_anonymous _ off _) as [[z|]|k|q|]; try reflexivity; cbn [obind].
    all: destruct (find _ _) as [m|]; try reflexivity; destruct (btf_err _); try reflexivity; cbn [obind]; apply IH.
Qed.

(** ** The text of a path *)
Definition widened (cs : list component) (e : option error_kind) (cs' : list component) (e' : option error_kind) : Prop :=
  (cs' = cs /\ e' = e) \/ (e = Some InvalidTypePath /\ exists i rest, cs' = cs ++ Index i :: rest /\ usize_max c < i).
Lemma parse_wider w : match parse_usize c w with Some i => parse_usize c' w = Some i
  | None => match parse_usize c' w with Some i => usize_max c < i | None => True end end.
Proof.
  pose proof wider_max. destruct (parse_usize c w) as [i|] eqn:E.
  - apply parse_usize_iff in E. apply parse_usize_iff. destruct E as (E1 & E2 & E3 & E4). repeat split; try assumption. lia.
  - destruct (parse_usize c' w) as [i|] eqn:E'; [|exact I]. apply parse_usize_iff in E'. destruct E' as (E1 & E2 & E3 & E4).
    destruct (N.lt_ge_cases (usize_max c) i) as [L|L]; [exact L|]. exfalso. assert (parse_usize c w = Some i) by (apply parse_usize_iff; auto). congruence.
Qed.
Definition step_wider (r r' : pitem * (pstate * str)) : Prop :=
  r' = r \/ (fst r = Err InvalidTypePath /\ exists i, fst r' = Ok (Some (Index i)) /\ usize_max c < i).
Lemma aindex_wider l : step_wider (aindex c l) (aindex c' l).
Proof.
  unfold aindex. destruct (drop_while is_numeric l) as [|b r]; [left; reflexivity|]. destruct (is_rbracket b); [|left; reflexivity].
  pose proof (parse_wider (take_while is_numeric l)) as P. destruct (parse_usize c _) as [i|]; [rewrite P; left; reflexivity|].
  destruct (parse_usize c' _) as [i|]; [|left; reflexivity]. right. split; [reflexivity|]. exists i. split; [reflexivity|exact P].
Qed.
Lemma anext_wider s : step_wider (anext c s) (anext c' s).
Proof.
  destruct s as [st l]. unfold anext. cbn [fst snd]. destruct st, l as [|b l]; try (left; reflexivity).
  all: try apply aindex_wider.
  all: destruct (is_lbracket b); try apply aindex_wider; left; reflexivity.
Qed.
Lemma script_wider s cs e : fine s -> ascripts c s cs e -> exists cs' e', ascripts c' s cs' e' /\ widened cs e cs' e'.
Proof.
  intros Fi A. revert Fi. induction A as [s H|s k H|s x s' cs e H A IH]; intros Fi.
  - destruct (anext_wider s) as [E|[E _]]; [|congruence]. exists [], None. split; [apply as_end; congruence|left; auto].
  - destruct (anext_wider s) as [E|[E (i & E' & L)]].
    + exists [], (Some k). split; [apply as_bad; congruence|left; auto].
    + assert (k = InvalidTypePath) as -> by congruence. destruct (anext c' s) as [y s2] eqn:Y. cbn [fst] in E'. subst y.
      pose proof (anext_cases c' s Fi) as G. rewrite Y in G. cbn [fst snd] in G. destruct G as [_ G].
      destruct (script_total c' s2 G) as (cs2 & e2 & S2 & _). exists (Index i :: cs2), e2. split; [eapply as_more; eassumption|].
      right. split; [reflexivity|]. exists i, cs2. auto.
  - pose proof (anext_cases c s Fi) as G. rewrite H in G. cbn [fst snd] in G. destruct G as [_ G]. destruct (IH G) as (cs' & e' & S2 & X).
    destruct (anext_wider s) as [E|[E _]]; [|rewrite H in E; discriminate E].
    exists (x :: cs'), e'. split; [eapply as_more; [rewrite E; exact H|exact S2]|].
    destruct X as [[-> ->]|[X (i & rest & -> & L)]]; [left; auto|right]. split; [exact X|]. exists i, rest. auto.
Qed.

(** ** An index above the narrow range *)
Definition loses (narrow wide : outcome offset_error (N * offset)) : Prop :=
  match wide with Ok _ => False | Panic _ => False | Err y => narrow = Err y \/ narrow = Err (OEBtf InvalidTypePath) | Diverge => True end.
Lemma probe_loses (f g : offset -> N -> outcome offset_error (N * offset)) : (forall o mt, loses (f o mt) (g o mt)) -> forall off ms,
  match probe_anonymous g off ms with Ok (Some _) => False | Panic _ => False | Ok None => probe_anonymous f off ms = Ok None
  | Err y => probe_anonymous f off ms = Err y | Diverge => True end.
Proof.
  intros H off. induction ms as [|m ms IH]; [reflexivity|]. cbn [probe_anonymous]. destruct (is_anonymous m); [|exact IH].
  destruct (offset_add (m_offset m) off) as [o|k|q|] eqn:Q; cbn [btf_err obind]; try reflexivity; try exact I.
  - specialize (H o (m_tid m)). unfold loses in H. destruct (g o (m_tid m)) as [z|y|q|]; try contradiction; [|exact I].
    destruct H as [-> | ->]; exact IH.
  - pose proof (add_not_panic (m_offset m) off) as G. rewrite Q in G. exact G.
Qed.
(** Every array has a number of elements that the narrow build can count. *)
Definition counts_fit (ti : type_information) : Prop := forall t h d, from_id ti t = Some (TArray h d) -> element_count d <= usize_max c.
Lemma follow_loses ti e' i rest : sizes_fit c ti -> counts_fit ti -> usize_max c < i -> forall n off t cs,
  loses (follow n c ti (Some InvalidTypePath) off t cs) (follow n c' ti e' off t (cs ++ Index i :: rest)).
Proof.
  intros F CF L. induction n as [|n IH]; intros off t cs; [exact I|].
  pose proof (resolve_sound ti t) as RS. destruct cs as [|x cs]; cbn [app]; rewrite follow_S.
  - destruct (resolve ti t) as [[r ty]|k|q|] eqn:R; cbn [obind snd].
    + unfold round. destruct ty; cbn [loses]; try (right; reflexivity). unfold array_step.
      destruct RS as [_ O]. apply opaque_iff in O. destruct O as [O _]. pose proof (CF _ _ _ O) as Q.
      replace (element_count d <=? i) with true by (symmetry; apply N.leb_le; lia). right. reflexivity.
    + right. reflexivity.
    + destruct RS.
    + exact I.
  - rewrite follow_S. destruct (resolve ti t) as [[r ty]|k|q|] eqn:R; cbn [obind snd].
    2:{ left. reflexivity. } 2:{ destruct RS. } 2:{ exact I. }
    destruct x as [j|nm].
    + unfold round. destruct ty; cbn [loses]; try (left; reflexivity). rewrite (array_step_wider ti d off j F).
      destruct (array_step c ti d off j) as [o|k|q|] eqn:Q; cbn [obind]; try exact I; [apply IH|left; reflexivity|].
      unfold array_step in Q. destruct (element_count d <=? j); [discriminate|]. destruct (size_of c ti (element_tid d)) as [z|k|q'|] eqn:Z; cbn [btf_err obind] in Q; try discriminate.
      * destruct (index_size j z) as [v|]; cbn [ok_or obind] in Q; [|discriminate]. unfold offset_add_u32 in Q. destruct off as [b|b w]; [destruct (checked 32 (b + v))|]; discriminate Q.
      * exact (sizes_fit_no_panic c ti _ _ F Z).
    + assert (G : forall ms, loses (obind (probe_anonymous (fun o mt => follow n c ti (Some InvalidTypePath) o mt (Name nm :: cs)) off ms) (fun found => match found with Some r => Ok r | None =>
         match find (has_name nm) ms with Some m => obind (btf_err (offset_add off (m_offset m))) (fun off' => follow n c ti (Some InvalidTypePath) off' (m_tid m) cs) | None => Err OEMemberNotFound end end))
         (obind (probe_anonymous (fun o mt => follow n c' ti e' o mt (Name nm :: cs ++ Index i :: rest)) off ms) (fun found => match found with Some r => Ok r | None =>
         match find (has_name nm) ms with Some m => obind (btf_err (offset_add off (m_offset m))) (fun off' => follow n c' ti e' off' (m_tid m) (cs ++ Index i :: rest)) | None => Err OEMemberNotFound end end))).
      { intros ms. pose proof (probe_loses _ _ (fun o mt => IH o mt (Name nm :: cs)) off ms) as P. cbn [app] in P.
        destruct (probe_anonymous (fun o mt => follow n c' ti e' o mt _) off ms) as [[z|]|y|q|]; try contradiction; [| |exact I].
        - rewrite P. cbn [obind]. destruct (find (has_name nm) ms) as [m|]; [|left; reflexivity]. pose proof (add_not_panic off (m_offset m)) as NP.
          destruct (offset_add off (m_offset m)) as [o|k|q|]; try contradiction; cbn [btf_err obind]; [apply IH|left; reflexivity].
        - rewrite P. left. reflexivity. }
      unfold round. destruct ty; cbn [member_lists loses]; try (left; reflexivity); apply G.
Qed.
End Widths.

