(** * Renumber: queries on tables that differ by a renumbering of types. *)
From Coq Require Import List NArith ZArith Bool Lia Strings.Byte.
From Verif Require Import TypeInfo Spec BaseFacts Encode QuerySpec Chains Sizes Follow RenumberSpec.
Import ListNotations.
Open Scope N_scope.

Lemma size_enough c ti t n : (chain_fuel ti <= n)%nat -> size_of_fuel n c ti t = size_of c ti t.
Proof.
  intros H. destruct (size_of c ti t) eqn:D; try (rewrite <- D; unfold size_of in D; induction H as [|m H IH]; [reflexivity|]; rewrite size_mono by (rewrite IH; unfold size_of; rewrite D; discriminate); exact IH).
  apply size_diverge in D. apply size_endless. exact D.
Qed.
Lemma resolve_enough ti t n : (chain_fuel ti <= n)%nat -> resolve_fuel n ti t = resolve ti t.
Proof.
  intros H. destruct (resolve ti t) eqn:D; try (rewrite <- D; unfold resolve in D; induction H as [|m H IH]; [reflexivity|]; rewrite resolve_mono by (rewrite IH; unfold resolve; rewrite D; discriminate); exact IH).
  apply resolve_diverge in D. apply resolve_endless. exact D.
Qed.
Lemma pointee_enough ti t n : (chain_fuel ti <= n)%nat -> pointee_tid_fuel n ti t = pointee_tid ti t.
Proof.
  intros H. destruct (pointee_tid ti t) eqn:D; try (rewrite <- D; unfold pointee_tid in D; induction H as [|m H IH]; [reflexivity|]; rewrite pointee_mono by (rewrite IH; unfold pointee_tid; rewrite D; discriminate); exact IH).
  apply pointee_spec in D. apply pointee_endless. exact D.
Qed.
Lemma pointer_size_spec ti : (exists s, pointer_sized ti s /\ pointer_size ti = Ok s) \/ ((forall s, ~ pointer_sized ti s) /\ pointer_size ti = Err InvalidTypeID).
Proof.
  unfold pointer_sized, pointer_size. destruct (id_of ti list_head_str) as [lh|]; [|right; split; [intros s (l & h & d & E & _); discriminate|reflexivity]].
  destruct (from_id ti lh) as [ty|] eqn:F; [|right; split; [intros s (l & h & d & E & G & _); injection E as <-; congruence|reflexivity]].
  destruct ty as [| | | |h d| | | | | | | | | | | | | | |]; try (right; split; [intros s (l & h' & d' & E & G & _); injection E as <-; congruence|reflexivity]).
  left. exists (struct_size d / 2). split; [|reflexivity]. exists lh, h, d. auto.
Qed.
Lemma same_pointer_size ti1 ti2 : (forall s, pointer_sized ti1 s <-> pointer_sized ti2 s) -> pointer_size ti2 = pointer_size ti1.
Proof.
  intros H. destruct (pointer_size_spec ti1) as [(s & P & ->)|[P ->]]; destruct (pointer_size_spec ti2) as [(s' & P' & ->)|[P' ->]].
  - f_equal. apply H in P. destruct P as (l & h & d & E & F & ->). destruct P' as (l' & h' & d' & E' & F' & ->). rewrite E in E'. injection E' as <-. rewrite F in F'. injection F' as <- <-. reflexivity.
  - destruct (P' s). apply H. exact P.
  - destruct (P s'). apply H. exact P'.
  - reflexivity.
Qed.

Section Renumbered.
  Context (D : N -> Prop) (f : N -> N) (ti1 ti2 : type_information).
  Hypothesis HR : renumbered D f ti1 ti2.
  Definition alike (ty1 ty2 : type_variant) : Prop :=
    view ty2 = option_map (rename f) (view ty1) /\ forall d, view ty1 = Some d -> Forall D (mentions d).
  Lemma renumbered_cases t : D t ->
    (from_id ti1 t = None /\ from_id ti2 (f t) = None) \/
    exists ty1 ty2, from_id ti1 t = Some ty1 /\ from_id ti2 (f t) = Some ty2 /\ alike ty1 ty2.
  Proof.
    intros Hd. specialize (HR t Hd). unfold shows in HR. destruct (from_id ti1 t) as [ty1|]; destruct (from_id ti2 (f t)) as [ty2|].
    - right. exists ty1, ty2. split; [reflexivity|]. split; [reflexivity|]. unfold alike.
      destruct (view ty1) as [d1|]; destruct (view ty2) as [d2|]; try discriminate; try (destruct HR; discriminate).
      + destruct HR as [E F]. injection E as ->. split; [reflexivity|]. intros d [= <-]. exact F.
      + split; [reflexivity|discriminate].
    - exfalso. destruct (view ty1); [destruct HR|]; discriminate.
    - exfalso. destruct (view ty2); discriminate.
    - left. auto.
  Qed.

  Ltac alike_cases A ty1 ty2 :=
    let V := fresh "V" in let M := fresh "M" in destruct A as [V M]; destruct ty1, ty2; cbn [view option_map rename] in V; try discriminate V;
    try specialize (M _ eq_refl); cbn [view mentions] in M; try (injection V; clear V; intros).
  Ltac subst_f := repeat match goal with E : _ = f _ |- _ => rewrite E; clear E end.
  Ltac use_D := match goal with M : Forall D (_ :: _) |- _ => inversion M; subst; clear M end.

  Lemma renumbered_pointee n : forall t, D t -> pointee_tid_fuel n ti2 (f t) = map_ok f (pointee_tid_fuel n ti1 t).
  Proof.
    induction n as [|n IH]; intros t Hd; [reflexivity|]. cbn [pointee_tid_fuel].
    destruct (renumbered_cases t Hd) as [[-> ->]|(ty1 & ty2 & -> & -> & A)]; [reflexivity|]. alike_cases A ty1 ty2; try reflexivity.
    all: try use_D; try subst_f; try reflexivity; apply IH; assumption.
  Qed.

  Hypothesis HP : forall s, pointer_sized ti1 s <-> pointer_sized ti2 s.
  Lemma renumbered_size c n : forall t, D t -> size_of_fuel n c ti2 (f t) = size_of_fuel n c ti1 t.
  Proof.
    induction n as [|n IH]; intros t Hd; [reflexivity|]. cbn [size_of_fuel].
    destruct (renumbered_cases t Hd) as [[-> ->]|(ty1 & ty2 & -> & -> & A)]; [reflexivity|]. alike_cases A ty1 ty2; try reflexivity; try (f_equal; assumption).
    all: try (apply same_pointer_size; exact HP).
    all: try use_D; try subst_f; try (apply IH; assumption).
    rewrite IH by assumption. match goal with E : element_count _ = _ |- _ => rewrite E end. reflexivity.
  Qed.
  Lemma renumbered_size_of c t : D t -> size_of c ti2 (f t) = size_of c ti1 t.
  Proof.
    intros Hd. rewrite <- (size_enough c ti2 (f t) (Nat.max (chain_fuel ti1) (chain_fuel ti2))) by lia.
    rewrite <- (size_enough c ti1 t (Nat.max (chain_fuel ti1) (chain_fuel ti2))) by lia. apply renumbered_size. exact Hd.
  Qed.
  Lemma renumbered_pointee_tid t : D t -> pointee_tid ti2 (f t) = map_ok f (pointee_tid ti1 t).
  Proof.
    clear HP. intros Hd. rewrite <- (pointee_enough ti2 (f t) (Nat.max (chain_fuel ti1) (chain_fuel ti2))) by lia.
    rewrite <- (pointee_enough ti1 t (Nat.max (chain_fuel ti1) (chain_fuel ti2))) by lia. apply renumbered_pointee. exact Hd.
  Qed.
  Definition resolved_alike (a b : outcome offset_error (N * type_variant)) : Prop :=
    match a, b with
    | Ok (t1, ty1), Ok (t2, ty2) => t2 = f t1 /\ alike ty1 ty2
    | Err k1, Err k2 => k1 = k2
    | Panic p1, Panic p2 => p1 = p2
    | Diverge, Diverge => True
    | _, _ => False
    end.
  Lemma renumbered_resolve_fuel n : forall t, D t -> resolved_alike (resolve_fuel n ti1 t) (resolve_fuel n ti2 (f t)).
  Proof.
    induction n as [|n IH]; intros t Hd; [exact I|]. cbn [resolve_fuel].
    destruct (renumbered_cases t Hd) as [[-> ->]|(ty1 & ty2 & -> & -> & A)]; [reflexivity|]. pose proof A as B. alike_cases A ty1 ty2; try (split; [reflexivity|exact B]).
    all: try use_D; try subst_f; apply IH; assumption.
  Qed.
  Lemma renumbered_resolve t : D t -> resolved_alike (resolve ti1 t) (resolve ti2 (f t)).
  Proof.
    intros Hd. rewrite <- (resolve_enough ti2 (f t) (Nat.max (chain_fuel ti1) (chain_fuel ti2))) by lia.
    rewrite <- (resolve_enough ti1 t (Nat.max (chain_fuel ti1) (chain_fuel ti2))) by lia. apply renumbered_resolve_fuel. exact Hd.
  Qed.
  Definition moved_to (r : N * offset) : N * offset := (f (fst r), snd r).
  Definition member_alike (m1 m2 : member) : Prop := m_name m2 = m_name m1 /\ m_tid m2 = f (m_tid m1) /\ m_offset m2 = m_offset m1 /\ D (m_tid m1).
  Lemma members_alike ms1 ms2 :
    map (fun m => (m_name m, m_tid m, m_offset m)) ms2 = map (fun m => (fst (fst m), f (snd (fst m)), snd m)) (map (fun m => (m_name m, m_tid m, m_offset m)) ms1) ->
    Forall D (map (fun m : option str * N * offset => snd (fst m)) (map (fun m => (m_name m, m_tid m, m_offset m)) ms1)) -> Forall2 member_alike ms1 ms2.
  Proof.
    revert ms2. induction ms1 as [|m1 ms1 IH]; intros [|m2 ms2] E F; try discriminate; constructor.
    - cbn in E, F. injection E as E1 E2 E3 _. inversion F; subst. repeat split; assumption.
    - cbn in E, F. injection E as _ _ _ E. inversion F; subst. apply IH; assumption.
  Qed.
  Lemma probe_alike P1 P2 off ms1 ms2 : (forall o t, D t -> P2 o (f t) = map_ok moved_to (P1 o t)) -> Forall2 member_alike ms1 ms2 ->
    probe_anonymous P2 off ms2 = map_ok (option_map moved_to) (probe_anonymous P1 off ms1).
  Proof.
    intros HPr H. induction H as [|m1 m2 ms1 ms2 (En & Et & Eo & Hd) _ IH]; [reflexivity|]. cbn [probe_anonymous]. unfold is_anonymous. rewrite En, Et, Eo.
    destruct (m_name m1); [exact IH|]. destruct (offset_add (m_offset m1) off) as [o|k|p|]; cbn [btf_err obind]; try reflexivity.
    rewrite HPr by exact Hd. destruct (P1 o (m_tid m1)); cbn [map_ok option_map]; try reflexivity. exact IH.
  Qed.
  Lemma find_alike n ms1 ms2 : Forall2 member_alike ms1 ms2 ->
    match find (has_name n) ms1, find (has_name n) ms2 with Some m1, Some m2 => member_alike m1 m2 | None, None => True | _, _ => False end.
  Proof.
    intros H. induction H as [|m1 m2 ms1 ms2 (En & Et & Eo & Hd) _ IH]; [exact I|]. cbn [find]. unfold has_name in *. rewrite En.
    destruct (m_name m1) as [x|] eqn:X; [|exact IH]. destruct (str_eqb x n); [|exact IH]. unfold member_alike. rewrite X. split; [exact En|]. split; [exact Et|]. split; [exact Eo|exact Hd].
  Qed.
  Definition members_in (ty : type_variant) : option (list member) :=
    match ty with TStruct _ d => Some (member_list d) | TUnion _ d => Some (member_list d) | _ => None end.
  Lemma alike_members ty1 ty2 : alike ty1 ty2 ->
    match members_in ty1, members_in ty2 with Some a, Some b => Forall2 member_alike a b | None, None => True | _, _ => False end.
  Proof. intros A. alike_cases A ty1 ty2; try exact I; cbn [members_in]; apply members_alike; assumption. Qed.

  Lemma renumbered_impl c p n : forall off t it, D t ->
    offset_of_impl n c ti2 p off (f t) it = map_ok moved_to (offset_of_impl n c ti1 p off t it).
  Proof.
    induction n as [|n IH]; intros off t it Hd; [reflexivity|]. cbn [offset_of_impl].
    destruct (next c p it) as [[[comp|]|k|q|] it']; try reflexivity.
    pose proof (renumbered_resolve t Hd) as R. destruct (resolve ti1 t) as [[r1 ty1]|k|q|]; destruct (resolve ti2 (f t)) as [[r2 ty2]|k'|q'|]; cbn in R; try destruct R; try reflexivity.
    clear Hd. rename H0 into A. pose proof (alike_members _ _ A) as AM. destruct comp as [i|name].
    - clear AM. alike_cases A ty1 ty2; try reflexivity. inversion M as [|? ? De _]; subst. unfold array_step.
      repeat match goal with E : element_count _ = _ |- _ => rewrite E | E : element_tid _ = _ |- _ => rewrite E end.
      destruct (element_count d <=? i); [reflexivity|]. rewrite renumbered_size_of by exact De.
      destruct (size_of c ti1 (element_tid d)) as [s|k|q|]; cbn [btf_err obind]; try reflexivity.
      destruct (index_size i s) as [z|]; cbn [ok_or obind]; [|reflexivity]. destruct (offset_add_u32 off z) as [o|k|q|]; cbn [btf_err obind]; try reflexivity. apply IH. exact De.
    - assert (step : forall ms1 ms2, Forall2 member_alike ms1 ms2 ->
        obind (probe_anonymous (fun o mt => offset_of_impl n c ti2 p o mt it) off ms2) (fun found => match found with Some r => Ok r | None =>
          match find (has_name name) ms2 with Some m => obind (btf_err (offset_add off (m_offset m))) (fun off' => offset_of_impl n c ti2 p off' (m_tid m) it') | None => Err OEMemberNotFound end end)
        = map_ok moved_to (obind (probe_anonymous (fun o mt => offset_of_impl n c ti1 p o mt it) off ms1) (fun found => match found with Some r => Ok r | None =>
          match find (has_name name) ms1 with Some m => obind (btf_err (offset_add off (m_offset m))) (fun off' => offset_of_impl n c ti1 p off' (m_tid m) it') | None => Err OEMemberNotFound end end))).
      { clear AM. intros ms1 ms2 AM. rewrite (probe_alike (fun o mt => offset_of_impl n c ti1 p o mt it) (fun o mt => offset_of_impl n c ti2 p o mt it) off ms1 ms2) by (try exact AM; intros; apply IH; assumption).
        destruct (probe_anonymous _ off ms1) as [[r|]|k|q|]; cbn [map_ok option_map obind]; try reflexivity.
        pose proof (find_alike name ms1 ms2 AM) as F. destruct (find (has_name name) ms1) as [m1|]; destruct (find (has_name name) ms2) as [m2|]; try destruct F; try reflexivity.
        destruct H1 as (Et & Eo & Dm). rewrite Et, Eo. destruct (offset_add off (m_offset m1)) as [o|k|q|]; cbn [btf_err obind]; try reflexivity. apply IH. exact Dm. }
      destruct A as [V _]. destruct ty1, ty2; cbn [view option_map rename] in V; try discriminate V; try reflexivity; apply step; exact AM.
  Qed.
  Theorem renumbered_offset_of n c t p : D t -> offset_of_uncached n c ti2 (f t) p = map_ok moved_to (offset_of_uncached n c ti1 t p).
  Proof. intros Hd. unfold offset_of_uncached. rewrite renumbered_impl by exact Hd. destruct (offset_of_impl n c ti1 p (ByteOffset 0) t piter_new); reflexivity. Qed.
End Renumbered.
