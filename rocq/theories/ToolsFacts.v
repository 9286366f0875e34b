(** * ToolsFacts: proofs about the command line tools (C54). *)
From Coq Require Import Strings.String.
From Coq Require Import List NArith Bool Lia Strings.Byte.
From Verif Require Import TypeInfo Spec BaseFacts PathSpec PathGrammar PathPrint PathCanon QuerySpec OutcomeSpec Sizes Follow LoadProps Exact Final Tools ToolsSpec.
Import ListNotations.
Open Scope N_scope.

(** The relations of QuerySpec.v look at a table only through [from_id] and [id_of]. *)
Definition equal_tables (ti1 ti2 : type_information) : Prop :=
  (forall i, from_id ti1 i = from_id ti2 i) /\ (forall n, id_of ti1 n = id_of ti2 n).
Lemma equal_sym ti1 ti2 : equal_tables ti1 ti2 -> equal_tables ti2 ti1.
Proof. intros [A C]. split; intros x; symmetry; auto. Qed.

Lemma chain_mono (R R' : N -> N -> Prop) : (forall x y, R x y -> R' x y) -> forall x y, chain R x y -> chain R' x y.
Proof. intros H x y C. induction C; econstructor; eauto. Qed.
Lemma endless_mono (R R' : N -> N -> Prop) : (forall x y, R x y -> R' x y) -> forall x, endless R x -> endless R' x.
Proof. intros H x (f & E & S). exists f. split; [exact E|]. intros n. apply H, S. Qed.

Section Equal.
  Context (ti1 ti2 : type_information) (HE : equal_tables ti1 ti2).
  Lemma eq_size_alias t u : size_alias ti1 t u -> size_alias ti2 t u.
  Proof. intros (ty & H & K). rewrite (proj1 HE) in H. exists ty. auto. Qed.
  Lemma eq_array_of t u n : array_of ti1 t u n -> array_of ti2 t u n.
  Proof. intros (h & d & H & K). rewrite (proj1 HE) in H. exists h, d. auto. Qed.
  Lemma eq_size_link t u : size_link ti1 t u -> size_link ti2 t u.
  Proof. intros [H|[n H]]; [left; apply eq_size_alias; exact H|right; exists n; apply eq_array_of; exact H]. Qed.
  Lemma eq_pointer s : pointer_sized ti1 s -> pointer_sized ti2 s.
  Proof. intros (lh & h & d & H & K & E). rewrite (proj2 HE) in H. rewrite (proj1 HE) in K. exists lh, h, d. auto. Qed.
  Lemma eq_has_size P t s : has_size ti1 P t s -> has_size ti2 P t s.
  Proof.
    induction 1 as [t ty s H K|t h d s H K|t e n s H _ IH K|t u s H _ IH].
    - eapply size_stored; [rewrite <- (proj1 HE); exact H|exact K].
    - eapply size_pointer; [rewrite <- (proj1 HE); exact H|apply eq_pointer; exact K].
    - eapply size_array; [apply eq_array_of; exact H|exact IH|exact K].
    - eapply size_same; [apply eq_size_alias; exact H|exact IH].
  Qed.
  Lemma eq_transparent t u : transparent ti1 t u -> transparent ti2 t u.
  Proof. intros (ty & H & K). rewrite (proj1 HE) in H. exists ty. auto. Qed.
  Lemma eq_anonymous t u : anonymous_link ti1 t u -> anonymous_link ti2 t u.
  Proof. intros (ty & ms & m & H & K). rewrite (proj1 HE) in H. exists ty, ms, m. auto. Qed.
  Lemma eq_link t u : link ti1 t u -> link ti2 t u.
  Proof. intros [H|[H|H]]; [left; apply eq_transparent|right; left; apply eq_size_link|right; right; apply eq_anonymous]; exact H. Qed.
End Equal.
Section Equal2.
  Context (ti1 ti2 : type_information) (HE : equal_tables ti1 ti2).
  Let HE' := equal_sym _ _ HE.
  Lemma eq_no_size t k : no_size ti1 t k -> no_size ti2 t k.
  Proof.
    assert (C : forall x y, chain (size_link ti1) x y -> chain (size_link ti2) x y) by (apply chain_mono; apply eq_size_link; exact HE).
    intros [t' u H K|t' u h d H K L|t' u ty H K L].
    - eapply no_unknown; [apply C; exact H|rewrite <- (proj1 HE); exact K].
    - eapply no_pointer; [apply C; exact H|rewrite <- (proj1 HE); exact K|]. intros s Hs. apply (L s). apply (eq_pointer ti2 ti1 HE'). exact Hs.
    - eapply no_unsized; [apply C; exact H|rewrite <- (proj1 HE); exact K|exact L].
  Qed.
  Lemma eq_is t ty : is ti1 t ty -> is ti2 t ty.
  Proof.
    intros (r & C & H & K). exists r. split; [revert C; apply chain_mono; apply eq_transparent; exact HE|]. split; [rewrite <- (proj1 HE); exact H|].
    intros u Hu. apply (K u). apply (eq_transparent ti2 ti1 HE'). exact Hu.
  Qed.
  Lemma eq_leads sz t cs u o : leads ti1 sz t cs u o -> leads ti2 sz t cs u o.
  Proof.
    induction 1.
    - constructor.
    - eapply leads_index; try eassumption. apply eq_is; eassumption.
    - eapply leads_member; try eassumption. apply eq_is; eassumption.
    - eapply leads_bitfield; try eassumption. apply eq_is; eassumption.
    - eapply leads_anonymous; try eassumption. apply eq_is; eassumption.
  Qed.
  Lemma eq_gets sz o t cs o' u rest : gets ti1 sz o t cs o' u rest -> gets ti2 sz o t cs o' u rest.
  Proof.
    induction 1.
    - constructor.
    - eapply gets_index; try eassumption. apply eq_is; eassumption.
    - eapply gets_member; try eassumption. apply eq_is; eassumption.
    - eapply gets_anonymous; try eassumption. apply eq_is; eassumption.
  Qed.
  Lemma eq_offers n t : offers ti1 n t -> offers ti2 n t.
  Proof. induction 1; [eapply offers_member|eapply offers_anonymous]; try eassumption; apply eq_is; eassumption. Qed.
  Lemma eq_accounts n m : accounts ti1 n m -> accounts ti2 n m.
  Proof. intros [H|[H K]]; [left; exact H|right; split; [exact H|apply eq_offers; exact K]]. Qed.
End Equal2.
Lemma leads_size ti (sz sz' : N -> N -> Prop) t cs u o : (forall x z, sz x z -> sz' x z) -> leads ti sz t cs u o -> leads ti sz' t cs u o.
Proof.
  intros H L. induction L.
  - constructor.
  - eapply leads_index; eauto.
  - eapply leads_member; eauto.
  - eapply leads_bitfield; eauto.
  - eapply leads_anonymous; eauto.
Qed.
Lemma gets_size ti (sz sz' : N -> N -> Prop) o t cs o' u rest : (forall x z, sz x z -> sz' x z) -> gets ti sz o t cs o' u rest -> gets ti sz' o t cs o' u rest.
Proof.
  intros H L. induction L.
  - constructor.
  - eapply gets_index; eauto.
  - eapply gets_member; eauto.
  - eapply gets_anonymous; eauto.
Qed.
Lemma eq_fine c ti1 ti2 o u rest : equal_tables ti1 ti2 -> fine c ti1 o u rest -> fine c ti2 o u rest.
Proof.
  intros HE (F1 & F2 & F3). pose proof (equal_sym _ _ HE) as HE'. split; [|split; [exact F2|]].
  - intros H. apply F1. revert H. apply endless_mono. apply eq_link. exact HE'.
  - destruct rest as [|[i|n] rest]; [exact I| |].
    2: { intros ty ms H1 H2. destruct (F3 ty ms (eq_is _ _ HE' _ _ H1) H2) as [G1 G2]. split; [exact G1|].
      intros m1 m2 I1 I2 A1 A2. apply G2; try assumption; apply (eq_accounts _ _ HE'); assumption. }
    intros h d s H1 H2 H3. apply (eq_has_size _ _ HE). eapply F3; [apply (eq_is _ _ HE'); exact H1|exact H2|apply (eq_has_size _ _ HE'); exact H3].
Qed.

(** ** What a tool gets from the file *)
Lemma loaded_table e ti : usize_bits (cfg e) = 64 -> type_information_new e = Ok ti -> table (map snd (get ti)) ti.
Proof.
  intros H E. destruct (loaded_ids e ti H E) as (_ & _ & A & Z). split.
  - intros i t. destruct (N.eq_dec i 0) as [->|Hi].
    + rewrite Z. split; [intros [= <-]; left; auto|]. intros [[_ ->]|[K _]]; [reflexivity|lia].
    + rewrite (A i t Hi). split; [right; assumption|]. intros [[? _]|K]; [contradiction|exact K].
  - intros n i. rewrite (loaded_id_of e ti H E n i). unfold meaning. reflexivity.
Qed.
Lemma table_equal ts ti1 ti2 : table ts ti1 -> table ts ti2 -> equal_tables ti1 ti2.
Proof.
  intros [A1 C1] [A2 C2]. split.
  - intros i. destruct (from_id ti1 i) as [t|] eqn:E.
    + symmetry. apply A2, A1. exact E.
    + destruct (from_id ti2 i) as [t|] eqn:E'; [|reflexivity]. apply A2, A1 in E'. congruence.
  - intros n. destruct (id_of ti1 n) as [t|] eqn:E.
    + symmetry. apply C2, C1. exact E.
    + destruct (id_of ti2 n) as [t|] eqn:E'; [|reflexivity]. apply C2, C1 in E'. congruence.
Qed.
Definition opened (b : build) (img : list byte) : outcome error_kind type_information := type_information_new {| cfg := b; rd := readable_file img |}.
Lemma opened_contents b img ts : usize_bits b = 64 -> (exists ti, opened b img = Ok ti /\ map snd (get ti) = ts) <-> contents img ts.
Proof. intros H. unfold contents. rewrite <- describes_cases. exact (load_iff {| cfg := b; rd := readable_file img |} img H (readable_file_serves img) ts). Qed.
Lemma asked_iff b fs path name ti i : usize_bits b = 64 -> asked fs path name ti i <->
  exists img ti0, fs path = Some img /\ opened b img = Ok ti0 /\ equal_tables ti0 ti /\ id_of ti0 name = Some i.
Proof.
  intros H. split.
  - intros (img & ts & F & C & T & M). apply (opened_contents b img ts H) in C. destruct C as (ti0 & L & <-).
    assert (T0 := loaded_table {| cfg := b; rd := readable_file img |} ti0 H L).
    exists img, ti0. split; [exact F|]. split; [exact L|]. split; [eapply table_equal; eassumption|]. apply (proj2 T0). exact M.
  - intros (img & ti0 & F & L & E & I).
    assert (T0 := loaded_table {| cfg := b; rd := readable_file img |} ti0 H L).
    exists img, (map snd (get ti0)). split; [exact F|]. split; [apply (opened_contents b img _ H); eauto|]. split.
    + destruct T0 as [A C], E as [E1 E2]. split; intros; [rewrite <- E1; apply A|rewrite <- E2; apply C].
    + apply (proj2 T0). exact I.
Qed.
Lemma asked_self b fs path name img ti i : usize_bits b = 64 -> fs path = Some img -> opened b img = Ok ti -> id_of ti name = Some i -> asked fs path name ti i.
Proof. intros H F L I. apply (asked_iff b); [exact H|]. exists img, ti. repeat split; auto. Qed.

(** ** Text *)
Lemma show_decimal n : show n = decimal n. Proof. reflexivity. Qed.
Lemma decimal_inj i j : decimal i = decimal j -> i = j.
Proof.
  intros E. destruct (decimal_digits (N.max i j) i) as (_ & _ & V & _); [lia|]. destruct (decimal_digits (N.max i j) j) as (_ & _ & W & _); [lia|].
  rewrite E in V. congruence.
Qed.
(** Where digits end. *)
Lemma digits_split d1 r1 d2 r2 x y : Forall ascii_digit d1 -> Forall ascii_digit d2 -> ~ ascii_digit x -> ~ ascii_digit y ->
  d1 ++ x :: r1 = d2 ++ y :: r2 -> d1 = d2 /\ x :: r1 = y :: r2.
Proof.
  intros H1. revert d2. induction H1 as [|a d1 Ha H1 IH]; intros d2 H2 Hx Hy E.
  - destruct H2 as [|c d2 Hc H2]; [auto|]. cbn in E. injection E as -> _. contradiction.
  - destruct H2 as [|c d2 Hc H2]; cbn in E; [injection E as -> _; contradiction|]. injection E as -> E.
    destruct (IH d2 H2 Hx Hy E) as [-> E']. auto.
Qed.
Lemma decimal_all i : Forall ascii_digit (decimal i).
Proof. destruct (decimal_digits i i) as (_ & F & _); [lia|]. exact F. Qed.
Lemma rev_eq {A} (a b : list A) : a = b -> rev a = rev b. Proof. congruence. Qed.
Ltac not_digit := let H := fresh in intros H; unfold ascii_digit, PathSpec.between in H; vm_compute in H; destruct H as [H1 H2]; try (apply H1; reflexivity); apply H2; reflexivity.
(** Reading digits from the right. *)
Lemma digits_split_right l1 d1 l2 d2 x y : Forall ascii_digit d1 -> Forall ascii_digit d2 -> ~ ascii_digit x -> ~ ascii_digit y ->
  (l1 ++ [x]) ++ d1 = (l2 ++ [y]) ++ d2 -> l1 ++ [x] = l2 ++ [y] /\ d1 = d2.
Proof.
  intros H1 H2 Hx Hy E. apply rev_eq in E. rewrite !rev_app_distr in E. cbn [rev app] in E.
  destruct (digits_split (rev d1) (rev l1) (rev d2) (rev l2) x y) as [E1 E2]; try assumption; try (apply Forall_rev; assumption).
  apply rev_eq in E1. rewrite !rev_involutive in E1. split; [|exact E1].
  apply rev_eq in E2. cbn [rev] in E2. rewrite !rev_involutive in E2. exact E2.
Qed.
Lemma size_text_inj n i z n' i' z' : size_text n i z = size_text n' i' z' -> n = n' /\ i = i' /\ z = z'.
Proof.
  unfold size_text. intros E. apply app_inv_head in E. rewrite !app_assoc in E. apply app_inv_tail in E.
  change (text_of " and requires ") with (text_of " and requires" ++ [x20]) in E. change (text_of " has ID ") with (text_of " has ID" ++ [x20]) in E.
  rewrite !app_assoc in E. destruct (digits_split_right _ _ _ _ x20 x20 (decimal_all z) (decimal_all z') ltac:(not_digit) ltac:(not_digit) E) as [E1 E2].
  apply decimal_inj in E2. apply app_inv_tail in E1. apply app_inv_tail in E1.
  destruct (digits_split_right _ _ _ _ x20 x20 (decimal_all i) (decimal_all i') ltac:(not_digit) ltac:(not_digit) E1) as [E3 E4].
  apply decimal_inj in E4. apply app_inv_tail in E3. apply app_inv_tail in E3. auto.
Qed.
Lemma digits_then d1 d2 s1 s2 : Forall ascii_digit d1 -> Forall ascii_digit d2 ->
  (exists x r, s1 = x :: r /\ ~ ascii_digit x) -> (exists x r, s2 = x :: r /\ ~ ascii_digit x) -> d1 ++ s1 = d2 ++ s2 -> d1 = d2 /\ s1 = s2.
Proof. intros H1 H2 (x & r & -> & Hx) (y & r' & -> & Hy) E. exact (digits_split _ _ _ _ _ _ H1 H2 Hx Hy E). Qed.
Ltac nondigit_head := eexists _, _; split; [reflexivity|not_digit].
Lemma place_text_inj u o u' o' : place_text u o = place_text u' o' -> u = u' /\ o = o'.
Proof.
  destruct o as [b|b z], o' as [b'|b' z']; unfold place_text; intros E; apply app_inv_head in E;
    (apply digits_then in E; [|apply decimal_all|apply decimal_all|nondigit_head|nondigit_head]); destruct E as [Eu E]; apply decimal_inj in Eu; subst u'.
  - apply app_inv_head in E. apply digits_then in E; [|apply decimal_all|apply decimal_all|nondigit_head|nondigit_head]. destruct E as [Eb _].
    apply decimal_inj in Eb. subst. auto.
  - exfalso. vm_compute in E. discriminate.
  - exfalso. vm_compute in E. discriminate.
  - apply app_inv_head in E. apply digits_then in E; [|apply decimal_all|apply decimal_all|nondigit_head|nondigit_head]. destruct E as [Eb E].
    apply app_inv_head in E. apply digits_then in E; [|apply decimal_all|apply decimal_all|nondigit_head|nondigit_head]. destruct E as [Ez _].
    apply decimal_inj in Eb. apply decimal_inj in Ez. subst. auto.
Qed.
