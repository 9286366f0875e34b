(** * PropC: btfparse agrees with the C compiler (C76).  C declarations, their layout, and [designates]: CSpec.v. *)
From Coq Require Import Strings.String.
From Coq Require Import List NArith ZArith Bool Lia Strings.Byte.
From Verif Require Import TypeInfo Spec BaseFacts PathSpec Path QuerySpec Chains Sizes Follow Offsets Offsets2 OffsetOf OffsetOf2 Encode EncodeProof Maps LoadProps Witness Sample
  OutcomeSpec Outcome PropPath PropQuery PropOffset PropOutcome PropClosed DisjointSpec PropDisjoint PropRelease CSpec CFacts.
Import ListNotations.
Open Scope N_scope.

(** ** The loaded table *)
Lemma describe_name m L d : (forall un pk al nm fs, d = CAggregate un pk al nm fs -> layout_of_fields m L un pk al fs <> None) -> forall ty x, view ty = Some (describe m L x d) -> declared_name ty = c_name d.
Proof.
  intros H ty x V. destruct d; cbn [describe] in V;
    try (destruct ty; cbn [view] in V; try discriminate V; injection V; intros; cbn; congruence).
  destruct (layout_of_fields m L is_union packed aligned fields) as [[ms [sz a]]|] eqn:Y; [|destruct (H _ _ _ _ _ eq_refl Y)].
  destruct is_union; destruct ty; cbn [view] in V; try discriminate V; injection V; intros; cbn; congruence.
Qed.
Lemma forall2_left {A B} (R : A -> B -> Prop) l k : Forall2 R l k -> forall i a, nth_error l i = Some a -> exists b, nth_error k i = Some b /\ R a b.
Proof. induction 1 as [|a b l k X _ IH]; intros [|i] a' E; try discriminate; [|exact (IH i a' E)]. injection E as <-. exists b. auto. Qed.
Lemma forall2_right {A B} (R : A -> B -> Prop) l k : Forall2 R l k -> forall i b, nth_error k i = Some b -> exists a, nth_error l i = Some a /\ R a b.
Proof. induction 1 as [|a b l k X _ IH]; intros [|i] b' E; try discriminate; [|exact (IH i b' E)]. injection E as <-. exists a. auto. Qed.
Section Loaded.
  Context (m : machine) (P : program) (L : N -> option (N * N)) (LG : lawful m P L) (ti : type_information)
    (T : ti = tables (types ti)) (FT : Forall type_fits (types ti)) (V : Forall2 (fun d ty => exists x, view ty = Some (describe m L x d)) P (types ti)).
  Lemma type_of_decl i ty : nth_error (types ti) i = Some ty -> exists d x, nth_error P i = Some d /\ view ty = Some (describe m L x d).
  Proof. intro E. destruct (forall2_right _ _ _ V _ _ E) as (d & D & x & X). eauto. Qed.
  Lemma decl_of_type i d : nth_error P i = Some d -> exists ty x, nth_error (types ti) i = Some ty /\ view ty = Some (describe m L x d).
  Proof. intro E. destruct (forall2_left _ _ _ V _ _ E) as (ty & D & x & X). eauto. Qed.
  Lemma carries_declared i n : carries (types ti) i n <-> exists d, declared P i d /\ c_name d = Some n.
  Proof.
    assert (K : forall d, declared P i d -> forall ty x, view ty = Some (describe m L x d) -> declared_name ty = c_name d).
    { intros d D. apply describe_name. intros un pk al nm fs -> Y. destruct (aggregate _ _ _ LG _ _ _ _ _ _ D) as (ms & sz & a & Y' & _). congruence. }
    split.
    - intros (ty & A & E). apply type_at_nth in A. destruct A as [I A]. destruct (type_of_decl _ _ A) as (d & x & D & Vd). exists d.
      assert (D' : declared P i d) by (split; [lia|exact D]). split; [exact D'|]. rewrite <- (K d D' ty x Vd). exact E.
    - intros (d & D & E). destruct (decl_of_type _ _ (proj2 D)) as (ty & x & A & Vd). exists ty. split; [apply type_at_nth; split; [destruct D; lia|exact A]|].
      rewrite (K d D ty x Vd). exact E.
  Qed.
  Lemma last_name n t : n <> void_str -> (id_of ti n = Some t <-> last_called P n t).
  Proof.
    intro Z. rewrite (id_of_spec _ _ _ T FT). split.
    - intros [[E _]|(_ & C & M)]; [contradiction|]. apply carries_declared in C. split; [exact C|]. intros t' d D E. apply M. apply carries_declared. eauto.
    - intros [C M]. right. split; [exact Z|]. split; [apply carries_declared; exact C|]. intros j J. apply carries_declared in J. destruct J as (d & D & E). eapply M; eauto.
  Qed.
  Lemma only_name n t d : n <> void_str -> declared P t d -> c_name d = Some n -> (forall t' d', declared P t' d' -> c_name d' = Some n -> t' = t) ->
    id_of ti n = Some t.
  Proof.
    intros Z D E U. apply (last_name _ _ Z). split; [eauto|]. intros t' d' D' E'. rewrite (U _ _ D' E'). apply N.le_refl.
  Qed.
  Lemma own_name t d : declared P t d -> name_of ti t = c_name d.
  Proof.
    intro D. assert (X : forall n, name_of ti t = Some n <-> c_name d = Some n).
    { intro n. rewrite (name_of_spec _ _ _ T FT). split.
      - intros [[E _]|C]; [subst; destruct D; lia|]. apply carries_declared in C. destruct C as (d' & D' & E). rewrite (declared_det _ _ _ _ D D'). exact E.
      - intro E. right. apply carries_declared. eauto. }
    destruct (name_of ti t) as [n|]; [symmetry; apply X; reflexivity|]. destruct (c_name d) as [n|]; [|reflexivity]. destruct (proj2 (X n) eq_refl). reflexivity.
  Qed.
  Lemma loaded_table : table_describes ti m P L.
  Proof.
    constructor.
    - apply from_id_spec; [exact T|]. left. auto.
    - intros t d [D1 D]. destruct (decl_of_type _ _ D) as (ty & x & A & Vd). exists ty, x. split; [|exact Vd]. apply from_id_spec; [exact T|]. right.
      apply type_at_nth. split; [lia|exact A].
    - intros t ty F. apply from_id_spec in F; [|exact T]. destruct F as [[-> ->]|A]; [left; auto|right]. apply type_at_nth in A. destruct A as [I A].
      destruct (type_of_decl _ _ A) as (d & x & D & Vd). exists d, x. split; [split; [lia|exact D]|exact Vd].
    - intros h d D E U. eapply only_name; try eassumption. discriminate.
  Qed.
End Loaded.

Lemma behind_sized P t u : behind false P t u -> size_behind P t u.
Proof. intros (d & D & E). exists d. split; [exact D|]. destruct d; try contradiction; try assumption. destruct E; discriminate. Qed.

Lemma reaches_impl tags (sz sz' : N -> N -> Prop) m P L t cs u o : (forall e z, sz e z -> sz' e z) -> reaches tags sz m P L t cs u o -> reaches tags sz' m P L t cs u o.
Proof. intros A. induction 1; [constructor|eapply d_element|eapply d_member|eapply d_bitfield|eapply d_anonymous]; eauto. Qed.
Lemma reaches_ext tags (sz sz' : N -> N -> Prop) m P L t cs u o : (forall e z, sz e z <-> sz' e z) -> (reaches tags sz m P L t cs u o <-> reaches tags sz' m P L t cs u o).
Proof. intro A. split; apply reaches_impl; intros e z; apply A. Qed.

(** ** Queries on a table that describes a program *)
Definition replies {E A} (r : outcome E A) : Prop := match r with Ok _ | Err _ => True | Panic _ | Diverge => False end.
Section Queries.
  Context (m : machine) (P : program) (L : N -> option (N * N)) (LG : lawful m P L) (ti : type_information) (TD : table_describes ti m P L) (PS : pointers_right ti m P)
    (c : build) (U : 32 <= usize_bits c).
  Let SF := c_sizes_fit ti m P L LG TD PS c U.
  Lemma c_size_of t z : size_of c ti t = Ok z <-> (exists a, L t = Some (z, a)) /\ measurable ti P t.
  Proof. rewrite (proj1 (C28_size_of c ti t SF)). exact (size_iff _ _ _ _ LG TD PS t z). Qed.
  Lemma c_size_answers t : replies (size_of c ti t).
  Proof.
    destruct (C28_size_of c ti t SF) as (_ & _ & NP & DV). destruct (size_of c ti t) as [z|k|q|] eqn:E; cbn; auto; [exact (NP q eq_refl)|].
    apply (c_acyclic _ _ _ _ LG TD t). destruct (proj1 DV eq_refl) as (f & F0 & F). exists f. split; [exact F0|]. intro n. right. left. apply F.
  Qed.
  Lemma designates_sized sz t x cs u o : reaches false sz m P L t (x :: cs) u o -> exists z a, L t = Some (z, a).
  Proof.
    intro D. assert (A : (exists e y n, c_is false P t (CArray e y n)) \/ exists un pk al nm fs, c_is false P t (CAggregate un pk al nm fs)) by (inversion D; subst; eauto 9).
    destruct A as [(e & y & n & A)|(un & pk & al & nm & fs & A)]; pose proof (c_is_size _ _ _ LG _ _ A) as E; destruct A as (r & _ & Dr); rewrite E.
    - destruct (l_ok _ _ _ LG _ _ Dr) as (_ & Le & _). cbn [size_align]. destruct (L e) as [[z a]|]; [eauto|congruence].
    - rewrite <- (L_is _ _ _ LG _ _ Dr). destruct (aggregate _ _ _ LG _ _ _ _ _ _ Dr) as (ms & z & a & _ & X & _). eauto.
  Qed.
  (** the members of a struct lie in it *)
  Lemma member_inside t ty ms mb z a : is ti t ty -> members_of ty ms -> In mb ms -> L t = Some (z, a) ->
    match m_offset mb with ByteOffset b => exists z' a', L (m_tid mb) = Some (z', a') /\ b + z' <= z | BitOffsetAndSize b w => b + w <= 8 * z end.
  Proof.
    clear SF U. intros It M I Lt. destruct (is_members_from _ _ _ _ LG TD _ _ _ It M) as (r & un & pk & al & nm & fs & z0 & a0 & C & F & D & Y).
    assert (Ct : c_is false P t (CAggregate un pk al nm fs)) by (exists r; auto). pose proof (c_is_size _ _ _ LG _ _ Ct) as E. cbn [size_align] in E. rewrite Y in E. cbn in E.
    rewrite Lt in E. injection E as <- <-. destruct (member_place _ _ _ LG _ _ _ _ _ _ _ _ _ _ D Y I) as (f & z' & a' & _ & _ & _ & E2 & E3 & E4). cbn in E2, E4.
    destruct (f_width f), (m_offset mb); try contradiction.
    - destruct E4 as (-> & E4 & _). exact E4.
    - exists z', a'. split; [rewrite E2; exact E3|]. lia.
  Qed.
  Lemma element_inside t h d i n z a : is ti t (TArray h d) -> i < element_count d -> size ti (element_tid d) n -> L t = Some (z, a) -> L (element_tid d) = Some (n, a) /\ i * n + n <= z.
  Proof.
    intros It Hi S Lt. destruct (size_from _ _ _ _ LG TD PS _ _ S) as [[a' E] _]. pose proof (c_is_size _ _ _ LG _ _ (is_array_from _ _ _ _ LG TD _ _ _ It)) as X.
    cbn [size_align] in X. rewrite E, Lt in X. injection X as -> ->. split; [exact E|]. nia.
  Qed.
  Lemma c_visits_inside t cs r b : visits ti (size ti) t cs r b -> forall z a, L t = Some (z, a) -> exists z' a', L r = Some (z', a') /\ b + z' <= z.
  Proof.
    induction 1 as [t cs|t h d i n cs r b It Hi S _ IH|t ty ms n mb b0 cs r b It M Nm Em _ IH|t ty ms n mb b0 cs r b It M Im En Em _ IH]; intros z a Lt.
    - exists z, a. split; [exact Lt|lia].
    - destruct (element_inside _ _ _ _ _ _ _ It Hi S Lt) as [Le Hle]. destruct (IH _ _ Le) as (z' & a' & Lr & X). exists z', a'. split; [exact Lr|lia].
    - destruct Nm as (ms1 & ms2 & -> & _ & _). pose proof (member_inside _ _ _ _ _ _ It M (in_elt _ _ _) Lt) as X. rewrite Em in X. destruct X as (z1 & a1 & Lm & Hle).
      destruct (IH _ _ Lm) as (z' & a' & Lr & X). exists z', a'. split; [exact Lr|lia].
    - pose proof (member_inside _ _ _ _ _ _ It M Im Lt) as X. rewrite Em in X. destruct X as (z1 & a1 & Lm & Hle).
      destruct (IH _ _ Lm) as (z' & a' & Lr & X). exists z', a'. split; [exact Lr|lia].
  Qed.
  Lemma c_leads_inside t cs u o : leads ti (size ti) t cs u o -> forall z a, L t = Some (z, a) ->
    match o with ByteOffset b => exists z' a', L u = Some (z', a') /\ b + z' <= z | BitOffsetAndSize b w => b + w <= 8 * z end.
  Proof.
    induction 1 as [t|t h d i n cs u o It Hi S _ IH|t ty ms n mb b0 cs u o It M Nm Em _ IH|t ty ms n mb b0 w It M Nm Em|t ty ms n mb b0 cs u o It M Im En Em _ IH]; intros z a Lt.
    - exists z, a. split; [exact Lt|lia].
    - destruct (element_inside _ _ _ _ _ _ _ It Hi S Lt) as [Le Hle]. specialize (IH _ _ Le). destruct o as [b|b w]; cbn [QuerySpec.shift].
      + destruct IH as (z' & a' & Lr & X). exists z', a'. split; [exact Lr|lia].
      + lia.
    - destruct Nm as (ms1 & ms2 & -> & _ & _). pose proof (member_inside _ _ _ _ _ _ It M (in_elt _ _ _) Lt) as X. rewrite Em in X. destruct X as (z1 & a1 & Lm & Hle).
      specialize (IH _ _ Lm). destruct o as [b|b w]; cbn [QuerySpec.shift]; [|lia]. destruct IH as (z' & a' & Lr & X). exists z', a'. split; [exact Lr|lia].
    - destruct Nm as (ms1 & ms2 & -> & _ & _). pose proof (member_inside _ _ _ _ _ _ It M (in_elt _ _ _) Lt) as X. rewrite Em in X. exact X.
    - pose proof (member_inside _ _ _ _ _ _ It M Im Lt) as X. rewrite Em in X. destruct X as (z1 & a1 & Lm & Hle).
      specialize (IH _ _ Lm). destruct o as [b|b w]; cbn [QuerySpec.shift]; [|lia]. destruct IH as (z' & a' & Lr & X). exists z', a'. split; [exact Lr|lia].
  Qed.
  Lemma c_offset_of t p u o : valid_utf8 p ->
    (offset_of_returns c ti t p (Ok (u, o)) <-> exists cs, reads_as (usize_max c) p cs /\ reaches false (fun e z => c_size L e z /\ measurable ti P e) m P L t cs u o).
  Proof.
    intro Hp. assert (SI : forall e z, size ti e z <-> c_size L e z /\ measurable ti P e) by exact (size_iff _ _ _ _ LG TD PS). split.
    - intro R. destruct (C32_sound c ti t p u o Hp (or_intror SF) R) as (_ & cs & RA & LD). exists cs. split; [exact RA|].
      refine (proj1 (reaches_ext _ _ _ _ _ _ _ _ _ _ SI) (proj1 (designates_iff _ _ _ _ LG TD _ _ _ _ _) LD)).
    - intros (cs & RA & D). pose proof (proj2 (designates_iff _ _ _ _ LG TD _ _ _ _ _) (proj2 (reaches_ext _ _ _ _ _ _ _ _ _ _ SI) D)) as LD.
      assert (B : fits32 o /\ forall r b, visits ti (size ti) t cs r b -> b < 2 ^ 32).
      { destruct cs as [|x cs].
        - inversion D; subst. split; [reflexivity|]. intros r b Vb. inversion Vb; subst. reflexivity.
        - destruct (designates_sized _ _ _ _ _ _ D) as (z & a & E). pose proof (l_small _ _ _ LG _ _ _ E) as SM. split.
          + pose proof (c_leads_inside _ _ _ _ LD _ _ E) as IN. destruct o as [b|b w]; cbn; [destruct IN as (? & ? & _ & ?); lia|lia].
          + intros r b Vb. destruct (c_visits_inside _ _ _ _ Vb _ _ E) as (? & ? & _ & ?). lia. }
      destruct B as [B1 B2]. eapply C33_complete; try eassumption.
      + exact (c_acyclic _ _ _ _ LG TD).
      + exact (c_anonymous _ _ _ _ LG TD).
      + exact (c_unambiguous _ _ _ _ LG TD).
  Qed.
  Lemma c_offset_answers t p : valid_utf8 p -> exists r, offset_of_returns c ti t p r /\ replies r.
  Proof.
    intro Hp. destruct (C30_offset_of_terminates_partial c ti t p Hp (c_acyclic _ _ _ _ LG TD)) as [r R]. exists r. split; [exact R|].
    destruct r as [x|k|q|]; cbn; auto; [|destruct R; congruence].
    destruct (C56_every_text c p Hp) as (cs & bad & T). destruct (C52_outcome_explained c ti t p cs bad Hp T (or_intror SF)) as [_ X].
    destruct (X _ R) as (o & v & i & rest & h & d & z & _ & _ & _ & S & NF). exact (NF (SF _ _ S)).
  Qed.
  Lemma c_pointee_answers t : replies (pointee_tid ti t).
  Proof.
    destruct (C31_pointee ti t) as [P1 P2]. destruct (pointee_tid ti t) as [u|k|q|] eqn:E; cbn; auto.
    + assert (X : pointee_tid ti t = Err InvalidTypeID); [|congruence]. rewrite E. apply P2; [|intros u Q; apply P1 in Q; discriminate].
      intros (f & F0 & F). apply (c_acyclic _ _ _ _ LG TD t). exists f. split; [exact F0|]. intro n. left. destruct (F n) as (ty & F1 & F2). exists ty. auto.
    + assert (X : pointee_tid ti t = Err InvalidTypeID); [|congruence]. rewrite E. apply P2; [|intros u Q; apply P1 in Q; discriminate].
      intros (f & F0 & F). apply (c_acyclic _ _ _ _ LG TD t). exists f. split; [exact F0|]. intro n. left. destruct (F n) as (ty & F1 & F2). exists ty. auto.
  Qed.
End Queries.
(** With list_head, the size of a pointer is known. *)
Lemma legal_right m P L ti : legal m P L -> table_describes ti m P L -> pointers_right ti m P /\ forall t, measurable ti P t.
Proof.
  intros [LG PM] TD. split.
  - intros t u D. apply (pointer_size _ _ _ _ LG TD). apply PM. eauto.
  - intro t. assert (X : (exists t u, declared P t (CPointer u)) \/ ~ exists t u, declared P t (CPointer u)).
    { clear. destruct (existsb (fun d => match d with CPointer _ => true | _ => false end) P) eqn:E; [left|right].
      - apply existsb_exists in E. destruct E as (d & I & E). destruct d; try discriminate. destruct (In_nth_error _ _ I) as [i Ni]. exists (N.of_nat i + 1), target.
        split; [lia|]. replace (N.to_nat (N.of_nat i + 1 - 1)) with i by lia. exact Ni.
      - intros (t & u & _ & D). apply nth_error_In in D. assert (existsb (fun d => match d with CPointer _ => true | _ => false end) P = true); [|congruence].
        apply existsb_exists. eexists. split; [exact D|reflexivity]. }
    destruct X as [X|X].
    + left. exists (pointer_bytes m). apply (pointer_size _ _ _ _ LG TD); [apply PM; exact X|reflexivity].
    + right. intro O. apply X. clear - O. induction O; eauto.
Qed.
Lemma reaches_all tags (ok : N -> Prop) m P L t cs u o : (forall e, ok e) -> reaches tags (fun e z => c_size L e z /\ ok e) m P L t cs u o <-> reaches tags (c_size L) m P L t cs u o.
Proof. intro A. split; apply reaches_impl; [intros e z [X _]; exact X|auto]. Qed.

(** ** C76 *)
Lemma on_64 e img ti : loadable (cfg e) img -> serves (rd e) img -> (type_information_new e = Ok ti <-> type_information_new {| cfg := build64 true; rd := rd e |} = Ok ti).
Proof.
  destruct e as [[b k] rd]. intros [U|[U Le]] SV; cbn [cfg usize_bits Reader.rd] in *; subst b.
  - destruct k; [reflexivity|]. change {| usize_bits := 64; overflow_checks := false |} with (build64 false). rewrite (load_profile rd). reflexivity.
  - exact (C02_same_accepted_partial rd img true k ti SV Le).
Qed.
(** The file of a program loads. *)
Theorem C76_loads : forall m P L e img, loadable (cfg e) img -> serves (rd e) img -> compiled m P L img ->
  exists ti, type_information_new e = Ok ti /\ length (get ti) = length P.
Proof.
  intros m P L e img U SV (ts & FD & F2). destruct (proj2 (load_iff {| cfg := build64 true; rd := rd e |} img eq_refl SV ts) FD) as (ti & ET & E).
  exists ti. split; [apply (on_64 _ _ _ U SV); exact ET|].
  rewrite <- (map_length snd). fold (types ti). rewrite E. clear - F2. induction F2; cbn; congruence.
Qed.
Print Assumptions C76_loads.
Lemma loaded_program m P L e img ti : loadable (cfg e) img -> serves (rd e) img -> compiled m P L img -> type_information_new e = Ok ti ->
  ti = tables (types ti) /\ Forall type_fits (types ti) /\ Forall2 (fun d ty => exists x, view ty = Some (describe m L x d)) P (types ti).
Proof.
  intros U SV (ts & FD & F2) ET. apply (on_64 _ _ _ U SV) in ET. set (e' := {| cfg := build64 true; rd := rd e |}) in *.
  destruct (loaded_types e' _ eq_refl ET) as (T1 & T2 & _). split; [exact T1|]. split; [exact T2|].
  destruct (proj2 (load_iff e' img eq_refl SV ts) FD) as (ti' & ET' & E). rewrite ET in ET'. injection ET' as <-. rewrite E. exact F2.
Qed.
Lemma program_table m P L e img ti : lawful m P L -> loadable (cfg e) img -> serves (rd e) img -> compiled m P L img -> type_information_new e = Ok ti -> table_describes ti m P L.
Proof. intros LG U SV C ET. destruct (loaded_program _ _ _ _ _ _ U SV C ET) as (T1 & T2 & T3). eapply loaded_table; eassumption. Qed.

(** A name stands for the last type that has it, and every type has its own. *)
Theorem C76_by_name : forall m P L e img ti n t, lawful m P L -> loadable (cfg e) img -> serves (rd e) img -> compiled m P L img -> type_information_new e = Ok ti ->
  n <> s "void" -> (id_of ti n = Some t <-> last_called P n t).
Proof.
  intros m P L e img ti n t LG U SV C ET Z. destruct (loaded_program _ _ _ _ _ _ U SV C ET) as (T1 & T2 & T3). exact (last_name m P L LG ti T1 T2 T3 n t Z).
Qed.
Print Assumptions C76_by_name.
Theorem C76_names : forall m P L e img ti t d, lawful m P L -> loadable (cfg e) img -> serves (rd e) img -> compiled m P L img -> type_information_new e = Ok ti ->
  declared P t d -> name_of ti t = c_name d.
Proof.
  intros m P L e img ti t d LG U SV C ET D. destruct (loaded_program _ _ _ _ _ _ U SV C ET) as (T1 & T2 & T3). exact (own_name m P L LG ti T1 T2 T3 t d D).
Qed.
Print Assumptions C76_names.
(** size_of is sizeof. *)
Theorem C76_size_of : forall m P L e img ti c t z, legal m P L -> loadable (cfg e) img -> serves (rd e) img -> compiled m P L img -> type_information_new e = Ok ti ->
  32 <= usize_bits c -> (size_of c ti t = Ok z <-> exists a, L t = Some (z, a)).
Proof.
  intros m P L e img ti c t z LG U SV C ET UC. pose proof (program_table _ _ _ _ _ _ LG U SV C ET) as TD. destruct (legal_right _ _ _ _ LG TD) as [PS MS].
  rewrite (c_size_of m P L LG ti TD PS c UC). split; [intros [X _]; exact X|auto].
Qed.
Print Assumptions C76_size_of.
(** offset_of finds exactly the objects that the designator designates in C, where they are. *)
Theorem C76_offset_of : forall m P L e img ti c t p u o, legal m P L -> loadable (cfg e) img -> serves (rd e) img -> compiled m P L img -> type_information_new e = Ok ti ->
  32 <= usize_bits c -> ~ is_tag P t -> valid_utf8 p ->
  (offset_of_returns c ti t p (Ok (u, o)) <-> exists cs, reads_as (usize_max c) p cs /\ designates m P L t cs u o).
Proof.
  intros m P L e img ti c t p u o LG U SV C ET UC Z Hp. pose proof (program_table _ _ _ _ _ _ LG U SV C ET) as TD. destruct (legal_right _ _ _ _ LG TD) as [PS MS].
  rewrite (c_offset_of m P L LG ti TD PS c UC t p u o Hp). unfold designates.
  split; intros (cs & RA & D); exists cs; (split; [exact RA|]).
  - apply designates_mono. apply (reaches_all _ _ _ _ _ _ _ _ _ MS). exact D.
  - apply (reaches_all _ _ _ _ _ _ _ _ _ MS). apply designates_plain; [exact (l_tags _ _ _ LG)|exact Z|exact D].
Qed.
Print Assumptions C76_offset_of.
(** pointee_tid is the type a pointer points to. *)
Theorem C76_pointee : forall m P L e img ti t u, lawful m P L -> loadable (cfg e) img -> serves (rd e) img -> compiled m P L img -> type_information_new e = Ok ti ->
  ~ is_tag P t -> (pointee_tid ti t = Ok u <-> c_is true P t (CPointer u)).
Proof.
  intros m P L e img ti t u LG U SV C ET Z. rewrite (proj1 (C31_pointee ti t)), (points_iff _ _ _ _ (program_table _ _ _ _ _ _ LG U SV C ET)).
  split; [apply c_is_mono|apply c_is_plain; [exact (l_tags _ _ _ LG)|exact Z]].
Qed.
Print Assumptions C76_pointee.
(** Every query is answered, by a result or an error: no panic, no endless loop. *)
Theorem C76_answered : forall m P L e img ti c t p, legal m P L -> loadable (cfg e) img -> serves (rd e) img -> compiled m P L img -> type_information_new e = Ok ti ->
  32 <= usize_bits c ->
  replies (size_of c ti t) /\ replies (pointee_tid ti t) /\ (valid_utf8 p -> exists r, offset_of_returns c ti t p r /\ replies r).
Proof.
  intros m P L e img ti c t p LG U SV C ET UC. pose proof (program_table _ _ _ _ _ _ LG U SV C ET) as TD. destruct (legal_right _ _ _ _ LG TD) as [PS MS]. split; [|split].
  - apply (c_size_answers m P L LG ti TD PS c UC).
  - apply (c_pointee_answers m P L LG ti TD).
  - apply (c_offset_answers m P L LG ti TD PS c UC).
Qed.
Print Assumptions C76_answered.
(** What is in different members of a struct does not overlap. *)
Theorem C76_apart : forall m P L e img ti c t pk al nm fs i j f g n n' cs cs' p p' u o u' o',
  legal m P L -> loadable (cfg e) img -> serves (rd e) img -> compiled m P L img -> type_information_new e = Ok ti -> 32 <= usize_bits c ->
  ~ is_tag P t -> c_is true P t (CAggregate false pk al nm fs) -> nth_error fs i = Some f -> nth_error fs j = Some g -> i <> j -> c_accounts true P n f -> c_accounts true P n' g ->
  valid_utf8 p -> valid_utf8 p' -> reads_as (usize_max c) p (Name n :: cs) -> reads_as (usize_max c) p' (Name n' :: cs') ->
  offset_of_returns c ti t p (Ok (u, o)) -> offset_of_returns c ti t p' (Ok (u', o')) ->
  forall k, ~ (c_takes L u o k /\ c_takes L u' o' k).
Proof.
  intros m P L e img ti c t pk al nm fs i j f g n n' cs cs' p p' u o u' o' LG U SV C ET UC Z Ct Nf Ng Nij Af Ag Hp Hp' R R' O O' k [T T'].
  pose proof (program_table _ _ _ _ _ _ LG U SV C ET) as TD. destruct (legal_right _ _ _ _ LG TD) as [PS MS]. apply (takes_iff _ _ _ _ LG TD PS MS) in T, T'.
  refine (C64_no_overlap c ti t p p' _ _ u o u' o' Hp Hp' (c_sizes_fit _ _ _ _ LG TD PS c UC) (c_consistent _ _ _ _ LG TD PS MS) (c_unambiguous _ _ _ _ LG TD) (c_members_apart _ _ _ _ LG TD PS MS) R R' _ O O' k (conj T T')).
  pose proof (l_tags _ _ _ LG) as TB.
  assert (X : forall x y, In y fs -> c_accounts true P x y -> c_accounts false P x y).
  { intros x y Iy [A|(A & W & O1)]; [left; exact A|right]. split; [exact A|]. split; [exact W|]. apply offers_plain; [exact TB|eapply member_plain; eauto|exact O1]. }
  exact (struct_parts _ _ _ _ LG TD MS _ _ _ _ _ _ _ _ _ _ _ _ _ (c_is_plain P TB _ _ Z Ct) Nf Ng Nij (X _ _ (nth_error_In _ _ Nf) Af) (X _ _ (nth_error_In _ _ Ng) Ag)).
Qed.
Print Assumptions C76_apart.
(** What is not a bitfield is aligned. *)
Theorem C76_aligned : forall m P L e img ti c t p u b z a, legal m P L -> usual m P ->
  loadable (cfg e) img -> serves (rd e) img -> compiled m P L img -> type_information_new e = Ok ti -> 32 <= usize_bits c -> valid_utf8 p ->
  offset_of_returns c ti t p (Ok (u, ByteOffset b)) -> L u = Some (z, a) -> b mod a = 0.
Proof.
  intros m P L e img ti c t p u b z a LG US U SV C ET UC Hp R Lu. pose proof (program_table _ _ _ _ _ _ LG U SV C ET) as TD. destruct (legal_right _ _ _ _ LG TD) as [PS MS].
  apply (c_offset_of m P L LG ti TD PS c UC) in R; [|exact Hp].
  destruct R as (cs & _ & D). destruct (designates_aligned _ _ _ LG US _ (fun e z X => proj1 X) _ _ _ _ D _ _ _ eq_refl Lu) as [A _]. apply N.mod_divide; [|exact A].
  pose proof (L_align _ _ _ LG _ _ _ Lu). lia.
Qed.
Print Assumptions C76_aligned.
(** There is one layout, if no type contains itself. *)
Theorem C76_one_layout : forall m P, no_circles P -> exists L, abi m P L /\ forall L', abi m P L' -> forall t, L' t = L t.
Proof. intros m P H. destruct (abi_exists m P H) as [L A]. exists L. split; [exact A|]. intros L' A' t. exact (abi_unique m P L' L H A' A t). Qed.
Print Assumptions C76_one_layout.

(** Every lawful program can be written, in either byte order. *)
Theorem C76_has_file : forall m P L version flags reserved en, lawful m P L ->
  Forall (fun d => reserved_ok (reserved d)) (map (fun d => describe m L (usually d) d) P) -> len (program_file version flags reserved en m P L) < 2 ^ 32 ->
  compiled m P L (program_file version flags reserved en m P L).
Proof.
  intros m P L ver fl res en LG RS LN.
  assert (OK : Forall decl_ok (map (fun d => describe m L (usually d) d) P)).
  { apply Forall_map, Forall_forall. intros d I. destruct (In_nth_error _ _ I) as [i Ni]. apply (describe_ok _ _ _ LG (N.of_nat i + 1)).
    split; [lia|]. replace (N.to_nat (N.of_nat i + 1 - 1)) with i by lia. exact Ni. }
  destruct (encode_describes ver fl res en _ OK RS LN) as (ts & FD & V). exists ts. split; [exact FD|]. rewrite map_map in V. clear - V. revert ts V.
  induction P as [|d P IH]; intros ts V; (destruct ts as [|ty ts]; [try discriminate; constructor|try discriminate]). injection V as V1 V2. constructor; [|apply IH; exact V2].
  destruct en; [exists (usually d); exact V1|]. cbn [as_loaded] in V1. destruct d; try (exists (usually (CPointer 0)); exact V1); try (eexists; exact V1).
  - exists {| w_char := false; w_boolean := false; w_flag := signed; w_value := fun v => exchanged_value signed (value_of signed (snd v)) |}.
    rewrite V1. cbn [describe exchanged usually w_flag w_value]. rewrite map_map. reflexivity.
  - eexists (usually _). rewrite V1. cbn [describe]. destruct (layout_of_fields m L is_union packed aligned fields) as [[ms [z a]]|]; [destruct is_union|]; reflexivity.
Qed.
Print Assumptions C76_has_file.

(** ** A program *)
Definition member_ n t : field := {| f_name := n; f_type := t; f_width := None; f_align := 1 |}.
Definition bits_ n t w : field := {| f_name := n; f_type := t; f_width := Some w; f_align := 1 |}.
Definition aligned_ n t al : field := {| f_name := n; f_type := t; f_width := None; f_align := al |}.
Definition machine64 : machine := {| pointer_bytes := 8; pointer_align := 8; unnamed_aligns := false |}.
Definition machine32 : machine := {| pointer_bytes := 4; pointer_align := 4; unnamed_aligns := true |}.
Definition kernel : program :=
  [ CInteger (s "int") 4 4 true;                                           (* 1 *)
    CInteger (s "char") 1 1 true;                                          (* 2 *)
    CPointer 4;                                                            (* 3: struct list_head * *)
    CAggregate false false 1 (nm "list_head") [member_ (nm "next") 3; member_ (nm "prev") 3]; (* 4 *)
    CArray 2 1 16;                                                         (* 5: char[16] *)
    CAggregate true false 1 None [member_ (nm "a") 1; member_ (nm "b") 3];         (* 6 *)
    CAggregate false false 1 (nm "task") [member_ (nm "state") 2; member_ (nm "pid") 1; bits_ (nm "flags") 1 3; bits_ (nm "more") 1 30;
      member_ None 6; member_ (nm "comm") 5; member_ (nm "list") 4];       (* 7 *)
    CTypedef (s "task_t") 7;                                               (* 8 *)
    CConst 8;                                                              (* 9 *)
    CArray 9 1 3;                                                          (* 10: const task_t[3] *)
    CAggregate false false 1 (nm "holder") [member_ (nm "x") 2; member_ (nm "tasks") 10]; (* 11 *)
    CIncomplete (s "hidden") false;                                        (* 12 *)
    CPointer 12;                                                           (* 13: struct hidden * *)
    CPrototype [(nm "x", 1); (None, 13)] 0;                                (* 14 *)
    CEnumeration (nm "color") 4 4 true [(s "RED", 0%Z); (s "GREEN", (-1)%Z)]; (* 15 *)
    CFloating (s "double") 8 8;                                            (* 16 *)
    CTag (s "rcu") 8;                                                      (* 17: task_t __rcu *)
    CPointer 17;                                                           (* 18: task_t __rcu * *)
    CFunction (nm "wake") 1 14;                                            (* 19 *)
    CVariable (s "current") 18 1;                                          (* 20: task_t __rcu *current *)
    CSection (s ".data") 8 [(20, 0, 8)];                                   (* 21 *)
    CMark (s "fast") 19 0;                                                 (* 22: an attribute of wake *)
    CEnumeration (nm "small") 1 1 false [(s "BIG", 255%Z)];                (* 23 *)
    CTag (s "user") 18;                                                    (* 24: task_t __rcu * __user *)
    CPointer 24 ].                                                         (* 25 *)
(** struct wire { char tag; int value; int : 3; int low : 5; int tail __attribute__((aligned(16))); } __attribute__((packed)) *)
Definition kernel_packed : program := kernel ++
  [ CAggregate false true 1 (nm "wire") [member_ (nm "tag") 2; member_ (nm "value") 1; bits_ None 1 3; bits_ (nm "low") 1 5; aligned_ (nm "tail") 1 16]; (* 26 *)
    CEnumeration64 (nm "wide") 8 8 true [(s "FAR", (- 2 ^ 40)%Z)] ]. (* 27 *)
Definition computed_layout (m : machine) (P : program) : N -> option (N * N) := layout_fuel m P 60.
(** How deep the types are nested. *)
Fixpoint nesting (P : program) (n : nat) (t : N) : nat :=
  match n with
  | O => O
  | S n => if 1 <=? t then match nth_error P (N.to_nat (t - 1)) with Some d => S (fold_right Nat.max O (map (nesting P n) (refers d))) | None => O end else O
  end.
Definition numbered (P : program) : list (N * cdecl) := combine (map N.of_nat (seq 1 (length P))) P.
Lemma declared_numbered P t d : declared P t d -> In (t, d) (numbered P).
Proof.
  assert (G : forall (P : program) k i d, nth_error P i = Some d -> In (N.of_nat (k + i), d) (combine (map N.of_nat (seq k (length P))) P)).
  { clear. induction P as [|x P IH]; intros k i d E; [destruct i; discriminate|]. destruct i as [|i]; cbn in E |- *.
    - injection E as ->. left. rewrite Nat.add_0_r. reflexivity.
    - right. rewrite Nat.add_succ_r. apply (IH (S k) i d E). }
  intros [T E]. specialize (G P 1%nat _ _ E). replace (N.of_nat (1 + N.to_nat (t - 1))) with t in G by lia. exact G.
Qed.
Lemma by_number (P : program) (Q : N -> cdecl -> Prop) : Forall (fun x => Q (fst x) (snd x)) (numbered P) -> forall t d, declared P t d -> Q t d.
Proof. intros F t d D. rewrite Forall_forall in F. exact (F _ (declared_numbered _ _ _ D)). Qed.

(** Names offered, up to a depth. *)
Fixpoint all_names (P : program) (n : nat) (t : N) : list str :=
  match n with
  | O => []
  | S n => match nth_error P (N.to_nat (t - 1)) with
           | Some (CTypedef _ u | CConst u | CVolatile u | CRestrict u | CTag _ u) => all_names P n u
           | Some (CAggregate _ _ _ _ fs) => flat_map (fun f => match f_name f, f_width f with Some x, _ => [x] | None, None => all_names P n (f_type f) | None, Some _ => [] end) fs
           | _ => []
           end
  end.
Definition field_names (P : program) (n : nat) (f : field) : list str := match f_name f, f_width f with Some x, _ => [x] | None, None => all_names P n (f_type f) | None, Some _ => [] end.
Lemma all_names_complete P rank : (forall t d u, declared P t d -> In u (refers d) -> (rank u < rank t)%nat) ->
  forall x t, c_offers true P x t -> forall n, (rank t < n)%nat -> In x (all_names P n t).
Proof.
  intros R x.
  assert (C : forall t un pk al nm_ fs, c_is true P t (CAggregate un pk al nm_ fs) -> forall f, In f fs ->
    (forall n, (rank (f_type f) < n)%nat -> In x (field_names P n f)) -> forall n, (rank t < n)%nat -> In x (all_names P n t)).
  { intros t un pk al nm_ fs (r & C & D) f If H. induction C as [t|t u v (d & D' & X) C IH]; intros n Hn; (destruct n as [|n]; [lia|]); cbn [all_names].
    - rewrite (proj2 D). apply in_flat_map. exists f. split; [exact If|]. apply H.
      assert (rank (f_type f) < rank t)%nat by (eapply R; [exact D|apply in_map; exact If]). lia.
    - rewrite (proj2 D'). assert (rank u < rank t)%nat by (eapply R; [exact D'|]; destruct d; try contradiction; try destruct X; subst; left; reflexivity).
      destruct d; try contradiction; try destruct X; subst; apply IH; try assumption; lia. }
  induction 1 as [t un pk al nm_ fs f Ct If E|t un pk al nm_ fs f Ct If E W _ IH]; intros n Hn; eapply C; try eassumption; intros k Hk; unfold field_names; rewrite E; try rewrite W.
  - left. reflexivity.
  - apply IH. exact Hk.
Qed.
Definition distinct_fields (P : program) (n : nat) (fs : list field) : bool :=
  forallb (fun i => forallb (fun j => (i =? j)%nat || match nth_error fs i, nth_error fs j with
    | Some f, Some g => negb (existsb (fun x => existsb (str_eqb x) (field_names P n g)) (field_names P n f)) | _, _ => true end) (seq 0 (length fs))) (seq 0 (length fs)).
Lemma distinct_check P rank n : (forall t d u, declared P t d -> In u (refers d) -> (rank u < rank t)%nat) -> (forall t d, declared P t d -> (rank t < n)%nat) ->
  Forall (fun x => match snd x with CAggregate _ _ _ _ fs => distinct_fields P n fs = true | _ => True end) (numbered P) -> distinct_members P.
Proof.
  intros R B F t un pk al nm_ fs x i j f g D Nf Ng Af Ag. pose proof (by_number P (fun _ d => match d with CAggregate _ _ _ _ fs => distinct_fields P n fs = true | _ => True end) F _ _ D) as K. cbn in K. unfold distinct_fields in K.
  rewrite forallb_forall in K. assert (Li := proj1 (nth_error_Some fs i) ltac:(congruence)). assert (Lj := proj1 (nth_error_Some fs j) ltac:(congruence)).
  specialize (K i). rewrite in_seq in K. specialize (K ltac:(lia)). rewrite forallb_forall in K. specialize (K j). rewrite in_seq in K. specialize (K ltac:(lia)).
  destruct (Nat.eqb_spec i j) as [E|E]; [exact E|exfalso]. rewrite Nf, Ng in K. cbn [orb] in K. apply negb_true_iff in K.
  assert (X : forall f0, In f0 fs -> c_accounts true P x f0 -> In x (field_names P n f0)).
  { intros f0 I0 [A|(A1 & AW & A2)]; unfold field_names; [rewrite A; left; reflexivity|]. rewrite A1, AW. eapply all_names_complete; [exact R|exact A2|].
    assert (rank (f_type f0) < rank t)%nat by (eapply R; [exact D|apply in_map; exact I0]). specialize (B _ _ D). lia. }
  apply not_true_iff_false in K. apply K. apply existsb_exists. exists x. split; [apply X; [eapply nth_error_In; eauto|exact Af]|].
  apply existsb_exists. exists x. split; [apply X; [eapply nth_error_In; eauto|exact Ag]|]. apply str_eqb_eq. reflexivity.
Qed.
Lemma ascii_check n : forallb (fun b => (0 <? Byte.to_N b) && (Byte.to_N b <? 128)) n = true -> ascii_name n.
Proof.
  intro H. apply Forall_forall. intros b I. rewrite forallb_forall in H. specialize (H b I). apply andb_true_iff in H. destruct H as [H1 H2].
  apply N.ltb_lt in H1, H2. split; assumption.
Qed.
Lemma plain_field L n t al : (match n with Some x => ascii_name x | None => True end) -> t < 2 ^ 32 -> 1 <= al -> field_ok L (aligned_ n t al).
Proof. intros H T A. split; [destruct n; cbn; [constructor; [exact H|constructor]|constructor]|]. split; [exact T|]. split; [exact A|exact I]. Qed.
Lemma bit_field L n t w z a : (match n with Some x => ascii_name x | None => True end) -> t < 2 ^ 32 -> 1 <= w < 2 ^ 8 -> L t = Some (z, a) -> w <= 8 * z -> field_ok L (bits_ n t w).
Proof.
  intros H T W E Le. split; [destruct n; cbn; [constructor; [exact H|constructor]|constructor]|]. split; [exact T|]. split; [discriminate|]. cbn.
  split; [reflexivity|]. split; [intros _; exact W|]. exists z, a. auto.
Qed.
Ltac ascii := apply ascii_check; vm_compute; reflexivity.
Ltac names_ok := cbn [c_name opt_name]; first [apply Forall_nil|apply Forall_cons; [ascii|apply Forall_nil]].
Ltac fields_ok := repeat (apply Forall_cons; [first [apply plain_field; [first [exact I|ascii]|reflexivity|discriminate]
  |eapply bit_field; [first [exact I|ascii]|reflexivity|split; [discriminate|reflexivity]|vm_compute; reflexivity|discriminate]]|]); apply Forall_nil.
Lemma computed_undeclared m P t : (forall d, ~ declared P t d) -> computed_layout m P t = None.
Proof.
  intro H. unfold computed_layout. generalize 60%nat. intros [|n]; [reflexivity|]. cbn [layout_fuel]. destruct (N.leb_spec 1 t) as [T|T]; [|reflexivity].
  destruct (nth_error P (N.to_nat (t - 1))) as [d|] eqn:E; [|reflexivity]. destruct (H d). split; assumption.
Qed.
Lemma lawful_check m P (rank : N -> nat) : 1 <= pointer_align m -> (pointer_align m | pointer_bytes m) -> 
  Forall (fun x => Forall (fun u => (rank u < rank (fst x))%nat) (refers (snd x))) (numbered P) ->
  Forall (fun x => computed_layout m P (fst x) = size_align m (computed_layout m P) (snd x)) (numbered P) ->
  Forall (fun x => (rank (fst x) < 60)%nat) (numbered P) ->
  Forall (fun x => match snd x with CAggregate _ _ _ _ fs => distinct_fields P 60 fs = true | _ => True end) (numbered P) ->
  Forall (fun x => cdecl_ok m (computed_layout m P) (snd x)) (numbered P) ->
  Forall (fun x => match computed_layout m P (fst x) with Some (z, _) => 8 * z < 2 ^ 32 | None => True end) (numbered P) ->
  Forall (fun x => Forall (fun u => match nth_error P (N.to_nat (u - 1)) with Some (CTag _ _) => match snd x with CTag _ _ => True | _ => False end | _ => True end) (refers (snd x))) (numbered P) ->
  lawful m P (computed_layout m P).
Proof.
  intros M1 M2 R A B DS OK SM TG.
  assert (IO : forall t d u, declared P t d -> In u (refers d) -> (rank u < rank t)%nat).
  { intros t d u D I. pose proof (by_number P (fun t d => Forall (fun u => (rank u < rank t)%nat) (refers d)) R _ _ D) as K. cbn in K. rewrite Forall_forall in K. exact (K _ I). }
  constructor.
  - split; assumption.
  - split; [apply by_number; exact A|apply computed_undeclared].
  - exists rank. exact IO.
  - apply (distinct_check P rank 60); [exact IO| |exact DS]. apply (by_number P (fun t d => (rank t < 60)%nat)). exact B.
  - intros t d u D I (x & v & Du).
    pose proof (by_number P (fun t d => Forall (fun u => match nth_error P (N.to_nat (u - 1)) with Some (CTag _ _) => match d with CTag _ _ => True | _ => False end | _ => True end) (refers d)) TG _ _ D) as K.
    cbn beta in K. rewrite Forall_forall in K. specialize (K u I). rewrite (proj2 Du) in K. destruct d; try contradiction. do 2 eexists. exact D.
  - apply (by_number P (fun t d => cdecl_ok m (computed_layout m P) d)). exact OK.
  - intros t z a E. destruct (declared_or_not P t) as [[d D]|D]; [|rewrite (computed_undeclared m P t D) in E; discriminate].
    pose proof (by_number P (fun t d => match computed_layout m P t with Some (z, _) => 8 * z < 2 ^ 32 | None => True end) SM _ _ D) as K. cbn beta in K. rewrite E in K. exact K.
Qed.
Ltac each tac := repeat (apply Forall_cons; [tac|]); apply Forall_nil.
Ltac sized := do 2 eexists; split; [vm_compute; reflexivity|first [discriminate|reflexivity]].
Ltac one_ok := cbn [snd]; split; [names_ok|]; cbv beta iota;
  first [exact I|reflexivity|split; [split; [discriminate|first [reflexivity|discriminate]]|discriminate]
    |split; [discriminate|split; [reflexivity|split; reflexivity]]
    |split; [discriminate|split; [reflexivity|split; [fields_ok|sized]]]
    |split; [split; [discriminate|reflexivity]|split; [discriminate|split; [reflexivity|each ltac:(split; [ascii|split; [discriminate|reflexivity]])]]]
    |split; reflexivity
    |split; [reflexivity|split; [reflexivity|each ltac:(split; [reflexivity|split; reflexivity])]]
    |split; [reflexivity|split; [reflexivity|each ltac:(split; [names_ok|reflexivity])]]].
Ltac nested := vm_compute; repeat constructor.
Ltac program_lawful := match goal with |- lawful _ ?P _ => apply (lawful_check _ P (nesting P 60)) end;
  [discriminate|exists 1; reflexivity|each ltac:(cbn [snd refers map]; each nested)
  |each ltac:(vm_compute; reflexivity)|each nested|each ltac:(cbn [snd]; first [exact I|vm_compute; reflexivity])
  |each ltac:(one_ok)|each ltac:(vm_compute; first [exact I|reflexivity])|each ltac:(cbn [snd refers map]; each ltac:(exact I))].
Ltac program_legal h f g p q := split;
  [program_lawful|intros _; exists h, f, g, p, q;
   split; [split; [discriminate|reflexivity]|]; split; [split; [discriminate|reflexivity]|]; split; [reflexivity|]; split; [reflexivity|];
   split; [split; [discriminate|reflexivity]|]; split; [reflexivity|]; split; [reflexivity|];
   match goal with |- forall t d, declared ?P t d -> _ => apply (by_number P (fun t d => c_name d = Some (String.list_byte_of_string "list_head") -> t = h)) end;
   each ltac:(let E := fresh in intro E; (reflexivity || discriminate E))].
Ltac kernel_rules := program_legal 4 (member_ (nm "next") 3) (member_ (nm "prev") 3) 4 4.
Lemma kernel_legal : legal machine64 kernel (computed_layout machine64 kernel). Proof. kernel_rules. Qed.
Lemma kernel_legal32 : legal machine32 kernel (computed_layout machine32 kernel). Proof. kernel_rules. Qed.
Lemma packed_legal : legal machine64 kernel_packed (computed_layout machine64 kernel_packed). Proof. kernel_rules. Qed.
Definition file_of (m : machine) (P : program) (en : endianness) : list byte := program_file x01 x00 (fun _ => 0) en m P (computed_layout m P).
Definition table_of (img : list byte) : type_information :=
  match type_information_new (file_env img) with
  | Ok ti => ti
  | _ => {| id_to_type_map := []; name_to_id_map := []; id_to_name_map := [] |}
  end.
Definition kernel_img : list byte := Eval vm_compute in file_of machine64 kernel Little.
Definition kernel_img32 : list byte := Eval vm_compute in file_of machine32 kernel Big.
Definition packed_img : list byte := Eval vm_compute in file_of machine64 kernel_packed Big.
Definition kernel_ti : type_information := Eval vm_compute in table_of kernel_img.
Definition kernel_ti32 : type_information := Eval vm_compute in table_of kernel_img32.
Definition packed_ti : type_information := Eval vm_compute in table_of packed_img.
Lemma file_compiled m P en : lawful m P (computed_layout m P) -> len (file_of m P en) < 2 ^ 32 -> compiled m P (computed_layout m P) (file_of m P en).
Proof. intros LG H. apply C76_has_file; [exact LG| |exact H]. apply Forall_forall. intros d _. exists 0, 0. repeat split. Qed.
Lemma kernel_compiled : compiled machine64 kernel (computed_layout machine64 kernel) kernel_img.
Proof. change kernel_img with (id kernel_img). replace (id kernel_img) with (file_of machine64 kernel Little) by (vm_compute; reflexivity). apply file_compiled; [exact kernel_legal|vm_compute; reflexivity]. Qed.
Lemma kernel_compiled32 : compiled machine32 kernel (computed_layout machine32 kernel) kernel_img32.
Proof. change kernel_img32 with (id kernel_img32). replace (id kernel_img32) with (file_of machine32 kernel Big) by (vm_compute; reflexivity). apply file_compiled; [exact kernel_legal32|vm_compute; reflexivity]. Qed.
Lemma packed_compiled : compiled machine64 kernel_packed (computed_layout machine64 kernel_packed) packed_img.
Proof. change packed_img with (id packed_img). replace (id packed_img) with (file_of machine64 kernel_packed Big) by (vm_compute; reflexivity). apply file_compiled; [exact packed_legal|vm_compute; reflexivity]. Qed.
Lemma kernel_loads : type_information_new (file_env kernel_img) = Ok kernel_ti. Proof. vm_compute. reflexivity. Qed.
Lemma kernel_loads32 : type_information_new (file_env kernel_img32) = Ok kernel_ti32. Proof. vm_compute. reflexivity. Qed.
Lemma packed_loads : type_information_new (file_env packed_img) = Ok packed_ti. Proof. vm_compute. reflexivity. Qed.
(** [struct holder] holds [const task_t[3]], [task] has padding, bitfields that do not fit into one unit, an anonymous union and a [list_head]. *)
Example C76_met : let c := build64 true in let layout := computed_layout machine64 kernel in
  legal machine64 kernel layout /\ usual machine64 kernel /\ serves (rd (file_env kernel_img)) kernel_img /\ compiled machine64 kernel layout kernel_img /\
  type_information_new (file_env kernel_img) = Ok kernel_ti /\
  layout 7 = Some (56, 8) /\ size_of c kernel_ti 7 = Ok 56 /\ layout 11 = Some (176, 8) /\ size_of c kernel_ti 11 = Ok 176 /\
  layout 12 = None /\ size_of c kernel_ti 12 = Err NotSized /\
  id_of kernel_ti (s "holder") = Some 11 /\ (forall t, is_tag kernel t -> t = 17 \/ t = 24) /\
  designates machine64 kernel layout 11 [Name (s "tasks"); Index 2; Name (s "b")] 3 (ByteOffset 136) /\
  offset_of_returns c kernel_ti 11 (s "tasks[2].b") (Ok (3, ByteOffset 136)) /\
  designates machine64 kernel layout 11 [Name (s "tasks"); Index 1; Name (s "more")] 1 (BitOffsetAndSize 608 30) /\
  offset_of_returns c kernel_ti 11 (s "tasks[1].more") (Ok (1, BitOffsetAndSize 608 30)) /\
  pointee_tid kernel_ti 13 = Ok 12 /\
  (exists nm fs f g, c_is true kernel 9 (CAggregate false false 1 nm fs) /\ nth_error fs 4 = Some f /\ nth_error fs 5 = Some g /\
     c_accounts true kernel (s "b") f /\ c_accounts true kernel (s "comm") g) /\
  offset_of_returns c kernel_ti 9 (s "b") (Ok (3, ByteOffset 16)) /\ offset_of_returns c kernel_ti 9 (s "comm[15]") (Ok (2, ByteOffset 39)).
Proof.
  cbv zeta.
  assert (R : forall t p r, r <> Diverge -> offset_of_uncached 20 (build64 true) kernel_ti t p = r -> offset_of_returns (build64 true) kernel_ti t p r).
  { intros t p r Z E. split; [exact Z|]. exists 20%nat. exact E. }
  assert (D9 : c_is true kernel 9 (CAggregate false false 1 (nm "task") [member_ (nm "state") 2; member_ (nm "pid") 1; bits_ (nm "flags") 1 3; bits_ (nm "more") 1 30;
      member_ None 6; member_ (nm "comm") 5; member_ (nm "list") 4])).
  { exists 7. split; [|split; [discriminate|reflexivity]]. apply (chain_step _ 9 8); [eexists; split; [split; [discriminate|reflexivity]|reflexivity]|].
    apply (chain_step _ 8 7); [eexists; split; [split; [discriminate|reflexivity]|reflexivity]|]. constructor. }
  split; [exact kernel_legal|]. split.
  { split; [exists 3; reflexivity|]. apply by_number.
    repeat (apply Forall_cons; [cbn [snd]; first [exact I
      |split; [first [exists 0; reflexivity|exists 2; reflexivity|exists 3; reflexivity]|exists 1; reflexivity]
      |split; [reflexivity|]; split; [exists 0; reflexivity|]; repeat (apply Forall_cons; [exists 0; reflexivity|]); apply Forall_nil]|]). apply Forall_nil. }
  split; [apply file_serves|]. split; [exact kernel_compiled|]. split; [exact kernel_loads|].
  split; [vm_compute; reflexivity|]. split; [vm_compute; reflexivity|]. split; [vm_compute; reflexivity|]. split; [vm_compute; reflexivity|].
  split; [vm_compute; reflexivity|]. split; [vm_compute; reflexivity|]. split; [vm_compute; reflexivity|].
  split.
  { intros t (n & u & D). revert n u D. assert (K : forall t d, declared kernel t d -> match d with CTag _ _ => t = 17 \/ t = 24 | _ => True end);
      [apply by_number; each ltac:(cbn; first [exact I|left; reflexivity|right; reflexivity])|]. intros n u D. exact (K _ _ D). }
  assert (D11 : c_is true kernel 11 (CAggregate false false 1 (nm "holder") [member_ (nm "x") 2; member_ (nm "tasks") 10])) by (exists 11; split; [constructor|split; [discriminate|reflexivity]]).
  assert (D10 : c_is true kernel 10 (CArray 9 1 3)) by (exists 10; split; [constructor|split; [discriminate|reflexivity]]).
  assert (D6 : c_is true kernel 6 (CAggregate true false 1 None [member_ (nm "a") 1; member_ (nm "b") 3])) by (exists 6; split; [constructor|split; [discriminate|reflexivity]]).
  split.
  { change (ByteOffset 136) with (shift 8 (ByteOffset 128)). eapply d_member; [exact D11|vm_compute; reflexivity|right; left; reflexivity|].
    change (ByteOffset 128) with (shift (2 * 56) (ByteOffset 16)). eapply d_element; [exact D10|reflexivity|eexists; vm_compute; reflexivity|].
    change (ByteOffset 16) with (shift 16 (ByteOffset 0)). eapply d_anonymous; [exact D9|vm_compute; reflexivity|do 4 right; left; reflexivity|].
    change (ByteOffset 0) with (shift 0 (ByteOffset 0)). eapply d_member; [exact D6|vm_compute; reflexivity|right; left; reflexivity|]. constructor. }
  split; [apply R; [discriminate|vm_compute; reflexivity]|]. split.
  { change (BitOffsetAndSize 608 30) with (shift 8 (BitOffsetAndSize 544 30)). eapply d_member; [exact D11|vm_compute; reflexivity|right; left; reflexivity|].
    change (BitOffsetAndSize 544 30) with (shift (1 * 56) (BitOffsetAndSize 96 30)). eapply d_element; [exact D10|reflexivity|eexists; vm_compute; reflexivity|].
    eapply d_bitfield; [exact D9|vm_compute; reflexivity|do 3 right; left; reflexivity]. }
  split; [apply R; [discriminate|vm_compute; reflexivity]|]. split; [vm_compute; reflexivity|]. split.
  { do 4 eexists. split; [exact D9|]. split; [reflexivity|]. split; [reflexivity|]. split; [right|left; reflexivity].
    split; [reflexivity|]. split; [reflexivity|]. eapply c_offers_member; [exact D6|right; left; reflexivity|reflexivity]. }
  split; apply R; try discriminate; vm_compute; reflexivity.
Qed.
(** A packed struct with an unnamed bitfield and an aligned member. *)
Example C76_met_packed : let c := build64 true in let layout := computed_layout machine64 kernel_packed in
  legal machine64 kernel_packed layout /\ serves (rd (file_env packed_img)) packed_img /\ compiled machine64 kernel_packed layout packed_img /\
  type_information_new (file_env packed_img) = Ok packed_ti /\
  layout 26 = Some (32, 16) /\ size_of c packed_ti 26 = Ok 32 /\ offset_of_returns c packed_ti 26 (s "value") (Ok (1, ByteOffset 1)) /\
  offset_of_returns c packed_ti 26 (s "low") (Ok (1, BitOffsetAndSize 43 5)) /\ offset_of_returns c packed_ti 26 (s "tail") (Ok (1, ByteOffset 16)).
Proof.
  cbv zeta. split; [exact packed_legal|]. split; [apply file_serves|]. split; [exact packed_compiled|]. split; [exact packed_loads|].
  split; [vm_compute; reflexivity|]. split; [vm_compute; reflexivity|].
  split; [split; [discriminate|exists 20%nat; vm_compute; reflexivity]|]. split; (split; [discriminate|exists 20%nat; vm_compute; reflexivity]).
Qed.
(** The same program on a machine with 32-bit pointers, where unnamed bitfields align, loaded on such a machine. *)
Example C76_met32 : let c := build32 false in let e := {| cfg := c; rd := readable_file kernel_img32 |} in let layout := computed_layout machine32 kernel in
  legal machine32 kernel layout /\ loadable (cfg e) kernel_img32 /\ serves (rd e) kernel_img32 /\ compiled machine32 kernel layout kernel_img32 /\
  type_information_new e = Ok kernel_ti32 /\ 32 <= usize_bits c /\
  layout 3 = Some (4, 4) /\ size_of c kernel_ti32 3 = Ok 4 /\ layout 7 = Some (44, 4) /\ size_of c kernel_ti32 7 = Ok 44 /\
  offset_of_returns c kernel_ti32 11 (s "tasks[2].list.prev") (Ok (3, ByteOffset 132)).
Proof.
  cbv zeta. split; [exact kernel_legal32|]. split; [right; split; [reflexivity|vm_compute; discriminate]|]. split; [apply file_serves|]. split; [exact kernel_compiled32|].
  split; [vm_compute; reflexivity|]. split; [discriminate|].
  split; [vm_compute; reflexivity|]. split; [vm_compute; reflexivity|]. split; [vm_compute; reflexivity|]. split; [vm_compute; reflexivity|].
  split; [discriminate|]. exists 20%nat. vm_compute. reflexivity.
Qed.
