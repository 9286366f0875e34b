(** * Taken: what the queries answer for every lawful program, whatever its list_head looks like (for C79). *)
From Coq Require Import List NArith ZArith Bool Lia Strings.Byte.
From Verif Require Import TypeInfo Spec BaseFacts PathSpec Path QuerySpec Chains Sizes Follow Offsets Offsets2 OffsetOf Encode Maps LoadProps PropPath PropQuery PropOffset PropOutcome CSpec CFacts PropC.
Import ListNotations.
Open Scope N_scope.

Section Taken.
  Context (m : machine) (P : program) (L : N -> option (N * N)) (LG : lawful m P L) (ti : type_information) (TD : table_describes ti m P L)
    (PT : forall w, pointer_sized ti w <-> pointer_taken P L w).
  Lemma pointers_behind t u : size_behind P t u -> (of_pointers P t <-> of_pointers P u).
  Proof.
    intros (d & D & E). split; intro O.
    - pose proof (points_to_pointers _ _ _ O D) as Y. destruct d; try contradiction; subst; exact Y.
    - eapply op_behind; [|exact O]. exists d. auto.
  Qed.
  Lemma pointers_in_array t e x n : declared P t (CArray e x n) -> (of_pointers P t <-> of_pointers P e).
  Proof. intro D. split; intro O; [exact (points_to_pointers _ _ _ O D)|eapply op_array; eauto]. Qed.
  Lemma taken_iff t z : size ti t z <-> taken_size P L t z.
  Proof.
    split.
    - unfold size. induction 1 as [t ty s F S|t h d s F S|t e n s A S IH _|t u s A S IH].
      + apply tk_own; [|eapply stored_from; eauto]. intro O. destruct (td_only _ _ _ _ TD _ _ F) as [[_ ->]|(d & w & D & V)]; [contradiction|].
        pose proof (points_to_pointers _ _ _ O D) as X. destruct d; try contradiction; destruct ty; cbn [view describe] in V; try discriminate V; contradiction.
      + eapply tk_pointer; [eapply pointer_from; eauto|apply PT; exact S].
      + destruct A as (h & d & F & <- & <-). eapply tk_array; [eapply array_from; eauto|exact IH].
      + eapply tk_behind; [eapply size_alias_from; eauto|exact IH].
    - induction 1 as [t z O [a E]|t u w D T|t u z B T IH|t e x n z D T IH].
      + eapply size_fits_if; [exact LG|exact TD|intros; exact I|exact E|]. intro X. destruct (O X).
      + destruct (td_has _ _ _ _ TD _ _ D) as (ty & w' & F & V). destruct ty; cbn [view describe] in V; try discriminate V. eapply size_pointer; [exact F|apply PT; exact T].
      + eapply size_same; [eapply size_alias_to; eauto|exact IH].
      + destruct (array_to _ _ _ _ TD _ _ _ _ D) as (h & d & F & <- & <-). eapply size_array; [exists h, d; auto|exact IH|exact I].
  Qed.
  Lemma taken_cases t z : taken_size P L t z -> exists y a, L t = Some (y, a) /\
    ((~ of_pointers P t /\ z = y) \/ (of_pointers P t /\ exists w, pointer_taken P L w /\ z * pointer_bytes m = y * w)).
  Proof.
    clear PT TD ti. induction 1 as [t z O [a E]|t u w D T|t u z B T IH|t e x n z D T IH].
    - exists z, a. auto.
    - exists (pointer_bytes m), (pointer_align m). split; [exact (L_is _ _ _ LG _ _ D)|right]. split; [eapply op_pointer; eauto|]. exists w. split; [exact T|lia].
    - destruct IH as (y & a & E & IH). exists y, a. rewrite (behind_size _ _ _ LG _ _ B). split; [exact E|]. rewrite (pointers_behind _ _ B). exact IH.
    - destruct IH as (y & a & E & IH). exists (y * n), a. rewrite (L_is _ _ _ LG _ _ D). cbn [size_align]. rewrite E. split; [reflexivity|]. rewrite (pointers_in_array _ _ _ _ D).
      destruct IH as [[O ->]|(O & w & W & EW)]; [left; auto|right]. split; [exact O|]. exists w. split; [exact W|]. nia.
  Qed.
  (** A bound for 64-bit targets. *)
  Lemma taken_small t z : 1 <= pointer_bytes m -> taken_size P L t z -> z < 2 ^ 64.
  Proof.
    clear PT TD ti. intros PB T. destruct (taken_cases _ _ T) as (y & a & E & X). pose proof (l_small _ _ _ LG _ _ _ E) as S. destruct X as [[_ ->]|(_ & w & W & EW)].
    - lia.
    - destruct W as (h & pk & al & n & fs & zh & _ & _ & [ah Eh] & ->). pose proof (l_small _ _ _ LG _ _ _ Eh) as Sh.
      assert (zh / 2 <= zh) by (apply N.div_le_upper_bound; lia). assert (z <= y * (zh / 2)) by nia. assert (y * (zh / 2) <= 2 ^ 29 * 2 ^ 29) by (apply N.mul_le_mono; lia). lia.
  Qed.
  Context (c : build) (TF : forall t z, taken_size P L t z -> z < 2 ^ usize_bits c).
  Lemma taken_fit : sizes_fit c ti.
  Proof.
    intros t z S. unfold size in S. induction S as [t ty s F S|t h d s F S|t e n s A S IH _|t u s A S IH].
    - eapply size_stored; eauto.
    - eapply size_pointer; eauto.
    - eapply size_array; [exact A|exact IH|]. apply (TF t). apply taken_iff. eapply size_array; [exact A|exact S|exact I].
    - eapply size_same; eauto.
  Qed.
  Lemma t_size_of t z : size_of c ti t = Ok z <-> taken_size P L t z.
  Proof. rewrite (proj1 (C28_size_of c ti t taken_fit)). apply taken_iff. Qed.
  Lemma t_size_answers t : replies (size_of c ti t).
  Proof.
    destruct (C28_size_of c ti t taken_fit) as (_ & _ & NP & DV). destruct (size_of c ti t) as [z|k|q|] eqn:E; cbn; auto; [exact (NP q eq_refl)|].
    apply (c_acyclic _ _ _ _ LG TD t). destruct (proj1 DV eq_refl) as (f & F0 & F). exists f. split; [exact F0|]. intro n. right. left. apply F.
  Qed.
  Lemma t_offset_answers t p : valid_utf8 p -> exists r, offset_of_returns c ti t p r /\ replies r.
  Proof.
    intro Hp. destruct (C30_offset_of_terminates_partial c ti t p Hp (c_acyclic _ _ _ _ LG TD)) as [r R]. exists r. split; [exact R|].
    destruct r as [x|k|q|]; cbn; auto; [|destruct R; congruence].
    destruct (PropClosed.C56_every_text c p Hp) as (cs & bad & T). destruct (C52_outcome_explained c ti t p cs bad Hp T (or_intror taken_fit)) as [_ X].
    destruct (X _ R) as (o & v & i & rest & h & d & z & _ & _ & _ & S & NF). exact (NF (taken_fit _ _ S)).
  Qed.
  Lemma t_sound t p u o : valid_utf8 p -> offset_of_returns c ti t p (Ok (u, o)) ->
    fits32 o /\ exists cs, reads_as (usize_max c) p cs /\ reaches false (taken_size P L) m P L t cs u o.
  Proof.
    intros Hp R. destruct (C32_sound c ti t p u o Hp (or_intror taken_fit) R) as (F & cs & RA & LD). split; [exact F|]. exists cs. split; [exact RA|].
    exact (proj1 (reaches_ext _ _ _ _ _ _ _ _ _ _ taken_iff) (proj1 (designates_iff _ _ _ _ LG TD _ _ _ _ _) LD)).
  Qed.
  (** Places behind pointers: *)
  Definition beyond (y : N) : Prop := y = 0 \/ exists e, taken_size P L e y.
  Lemma c_is_pointers t d : c_is false P t d -> exists r, declared P r d /\ (of_pointers P t <-> of_pointers P r) /\ forall z, taken_size P L r z -> taken_size P L t z.
  Proof.
    intros (r & C & D). exists r. split; [exact D|]. clear D. induction C as [t|t u v B C [IH1 IH2]]; [split; [reflexivity|auto]|]. apply behind_sized in B.
    split; [rewrite (pointers_behind _ _ B); exact IH1|]. intros z Z. eapply tk_behind; eauto.
  Qed.
  Lemma pointer_array t h d i z : is ti t (TArray h d) -> i < element_count d -> size ti (element_tid d) z ->
    (~ of_pointers P (element_tid d) /\ c_size L (element_tid d) z) \/ (of_pointers P t /\ of_pointers P (element_tid d) /\ taken_size P L t (z * element_count d)).
  Proof.
    intros It Hi S. apply taken_iff in S. destruct (c_is_pointers _ _ (is_array_from _ _ _ _ LG TD _ _ _ It)) as (r & D & O & K).
    destruct (taken_cases _ _ S) as (y & a & E & [[X ->]|[X _]]); [left; split; [exact X|exists a; exact E]|right].
    split; [apply O; eapply op_array; eauto|]. split; [exact X|]. apply K. eapply tk_array; eauto.
  Qed.
  Lemma no_members t ty ms : is ti t ty -> members_of ty ms -> ~ of_pointers P t.
  Proof.
    intros It M O. destruct (is_members_from _ _ _ _ LG TD _ _ _ It M) as (r & un & pk & al & nm & fs & z & a & C & F & D & Y).
    destruct (c_is_pointers t (CAggregate un pk al nm fs)) as (r' & D' & O' & _); [exists r; auto|]. apply O' in O. exact (points_to_pointers _ _ _ O D').
  Qed.
  Lemma visits_pointers t cs r b : visits ti (size ti) t cs r b -> of_pointers P t -> forall y, size ti t y -> b <= y.
  Proof.
    induction 1 as [t cs|t h d i n cs r b It Hi S V IH|t ty ms n mb b0 cs r b It M Nm Em _ IH|t ty ms n mb b0 cs r b It M Im En Em _ IH]; intros O y Y.
    - lia.
    - destruct (pointer_array _ _ _ _ _ It Hi S) as [[X _]|(_ & X & Z)].
      + destruct (c_is_pointers _ _ (is_array_from _ _ _ _ LG TD _ _ _ It)) as (r' & D & O' & _). destruct X. apply (pointers_in_array _ _ _ _ D). apply O'. exact O.
      + apply taken_iff in Z. rewrite (size_det _ _ _ _ _ Y Z). specialize (IH X _ S). nia.
    - destruct (no_members _ _ _ It M O).
    - destruct (no_members _ _ _ It M O).
  Qed.
  Lemma leads_pointers t cs u o : leads ti (size ti) t cs u o -> of_pointers P t -> forall y, size ti t y -> exists b, o = ByteOffset b /\ b <= y.
  Proof.
    induction 1 as [t|t h d i n cs u o It Hi S _ IH|t ty ms n mb b0 cs u o It M Nm Em _ IH|t ty ms n mb b0 w It M Nm Em|t ty ms n mb b0 cs u o It M Im En Em _ IH]; intros O y Y;
      try (destruct (no_members _ _ _ It M O)).
    - exists 0. split; [reflexivity|lia].
    - destruct (pointer_array _ _ _ _ _ It Hi S) as [[X _]|(_ & X & Z)].
      + destruct (c_is_pointers _ _ (is_array_from _ _ _ _ LG TD _ _ _ It)) as (r' & D & O' & _). destruct X. apply (pointers_in_array _ _ _ _ D). apply O'. exact O.
      + apply taken_iff in Z. rewrite (size_det _ _ _ _ _ Y Z). destruct (IH X _ S) as (b & -> & Le). cbn [QuerySpec.shift]. eexists. split; [reflexivity|]. nia.
  Qed.
  Lemma element_within t h d i n z a : is ti t (TArray h d) -> i < element_count d -> c_size L (element_tid d) n -> L t = Some (z, a) -> L (element_tid d) = Some (n, a) /\ i * n + n <= z.
  Proof.
    intros It Hi [a' E] Lt. pose proof (c_is_size _ _ _ LG _ _ (is_array_from _ _ _ _ LG TD _ _ _ It)) as X.
    cbn [size_align] in X. rewrite E, Lt in X. injection X as -> ->. split; [exact E|]. nia.
  Qed.
  Lemma t_visits t cs r b : visits ti (size ti) t cs r b -> forall z a, L t = Some (z, a) -> exists y, beyond y /\ b <= z + y.
  Proof.
    induction 1 as [t cs|t h d i n cs r b It Hi S V IH|t ty ms n mb b0 cs r b It M Nm Em _ IH|t ty ms n mb b0 cs r b It M Im En Em _ IH]; intros z a Lt.
    - exists 0. split; [left; reflexivity|lia].
    - destruct (pointer_array _ _ _ _ _ It Hi S) as [[_ X]|(O & X & Z)].
      + destruct (element_within _ _ _ _ _ _ _ It Hi X Lt) as [Le Hle]. destruct (IH _ _ Le) as (y & B & Y). exists y. split; [exact B|lia].
      + exists (n * element_count d). split; [right; eauto|]. apply taken_iff in Z. pose proof (visits_pointers _ _ _ _ V X _ S). nia.
    - destruct Nm as (ms1 & ms2 & -> & _ & _). pose proof (member_inside m P L LG ti TD _ _ _ _ _ _ It M (in_elt _ _ _) Lt) as X. rewrite Em in X. destruct X as (z1 & a1 & Lm & Hle).
      destruct (IH _ _ Lm) as (y & B & Y). exists y. split; [exact B|lia].
    - pose proof (member_inside m P L LG ti TD _ _ _ _ _ _ It M Im Lt) as X. rewrite Em in X. destruct X as (z1 & a1 & Lm & Hle).
      destruct (IH _ _ Lm) as (y & B & Y). exists y. split; [exact B|lia].
  Qed.
  Lemma t_leads t cs u o : leads ti (size ti) t cs u o -> forall z a, L t = Some (z, a) -> exists y, beyond y /\
    match o with ByteOffset b => b <= z + y | BitOffsetAndSize b _ => b <= 8 * (z + y) end.
  Proof.
    induction 1 as [t|t h d i n cs u o It Hi S LD IH|t ty ms n mb b0 cs u o It M Nm Em _ IH|t ty ms n mb b0 w It M Nm Em|t ty ms n mb b0 cs u o It M Im En Em _ IH]; intros z a Lt.
    - exists 0. split; [left; reflexivity|lia].
    - destruct (pointer_array _ _ _ _ _ It Hi S) as [[_ X]|(O & X & Z)].
      + destruct (element_within _ _ _ _ _ _ _ It Hi X Lt) as [Le Hle]. destruct (IH _ _ Le) as (y & B & Y). exists y. split; [exact B|]. destruct o; cbn [QuerySpec.shift]; lia.
      + exists (n * element_count d). split; [right; eauto|]. destruct (leads_pointers _ _ _ _ LD X _ S) as (b & -> & Le). cbn [QuerySpec.shift]. nia.
    - destruct Nm as (ms1 & ms2 & -> & _ & _). pose proof (member_inside m P L LG ti TD _ _ _ _ _ _ It M (in_elt _ _ _) Lt) as X. rewrite Em in X. destruct X as (z1 & a1 & Lm & Hle).
      destruct (IH _ _ Lm) as (y & B & Y). exists y. split; [exact B|]. destruct o; cbn [QuerySpec.shift]; lia.
    - destruct Nm as (ms1 & ms2 & -> & _ & _). pose proof (member_inside m P L LG ti TD _ _ _ _ _ _ It M (in_elt _ _ _) Lt) as X. rewrite Em in X.
      exists 0. split; [left; reflexivity|lia].
    - pose proof (member_inside m P L LG ti TD _ _ _ _ _ _ It M Im Lt) as X. rewrite Em in X. destruct X as (z1 & a1 & Lm & Hle).
      destruct (IH _ _ Lm) as (y & B & Y). exists y. split; [exact B|]. destruct o; cbn [QuerySpec.shift]; lia.
  Qed.
  Lemma t_complete t p cs u o : valid_utf8 p -> (forall t z e y, c_size L t z -> taken_size P L e y -> 8 * (z + y) < 2 ^ 32) ->
    reads_as (usize_max c) p cs -> reaches false (taken_size P L) m P L t cs u o -> offset_of_returns c ti t p (Ok (u, o)).
  Proof.
    intros Hp RM RA D. pose proof (proj2 (designates_iff _ _ _ _ LG TD _ _ _ _ _) (proj2 (reaches_ext _ _ _ _ _ _ _ _ _ _ taken_iff) D)) as LD.
    assert (B : fits32 o /\ forall r b, visits ti (size ti) t cs r b -> b < 2 ^ 32).
    { destruct cs as [|x cs].
      - inversion D; subst. split; [reflexivity|]. intros r b Vb. inversion Vb; subst. reflexivity.
      - destruct (designates_sized m P L LG _ _ _ _ _ _ D) as (z & a & E).
        assert (BB : forall y, beyond y -> 8 * (z + y) < 2 ^ 32).
        { intros y [-> |[e Y]]; [pose proof (l_small _ _ _ LG _ _ _ E); lia|]. eapply RM; [exists a; exact E|exact Y]. }
        split.
        + destruct (t_leads _ _ _ _ LD _ _ E) as (y & Y & Le). specialize (BB y Y). destruct o; cbn; lia.
        + intros r b Vb. destruct (t_visits _ _ _ _ Vb _ _ E) as (y & Y & Le). specialize (BB y Y). lia. }
    destruct B as [B1 B2]. eapply C33_complete; try eassumption.
    - exact (c_acyclic _ _ _ _ LG TD).
    - exact taken_fit.
    - exact (c_anonymous _ _ _ _ LG TD).
    - exact (c_unambiguous _ _ _ _ LG TD).
  Qed.
End Taken.
