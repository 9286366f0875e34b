(** Facts about what queries look at (C75). *)
From Coq Require Import List NArith Bool Lia.
From Verif Require Import TypeInfo BaseFacts Spec PathSpec Path PathGrammar QuerySpec Chains Sizes Follow Offsets Offsets2 Renumber LookSpec.
Import ListNotations.
Open Scope N_scope.

Section Look.
  Context (ti1 ti2 : type_information).
  Lemma like_cases {A} (view : type_variant -> A) t : option_map view (from_id ti2 t) = option_map view (from_id ti1 t) ->
    (from_id ti1 t = None /\ from_id ti2 t = None) \/ exists a b, from_id ti1 t = Some a /\ from_id ti2 t = Some b /\ view b = view a.
  Proof.
    intros HR. destruct (from_id ti1 t) as [a|]; destruct (from_id ti2 t) as [b|]; try discriminate; [|left; auto].
    right. exists a, b. split; [reflexivity|]. split; [reflexivity|]. injection HR as E. exact E.
  Qed.
  Definition like (a b : type_variant) : Prop := view_path b = view_path a.
  Ltac like_cases_in A a b := unfold like in A; destruct a, b; cbn [view_path view_size view_pointer] in A; try discriminate A; try (injection A; clear A; intros).
  Ltac rw := repeat match goal with E : _ ?x = _ ?y |- _ => rewrite E; clear E end.

  Lemma look_pointee n : forall t, (forall x, follows ti1 t x -> same_item ti1 ti2 x) -> pointee_tid_fuel n ti2 t = pointee_tid_fuel n ti1 t.
  Proof.
    induction n as [|n IH]; intros t H; [reflexivity|]. cbn [pointee_tid_fuel].
    assert (K : forall u, alias ti1 t u -> forall x, follows ti1 u x -> same_item ti1 ti2 x) by (intros u L x P; apply H; destruct P; constructor; econstructor; eassumption).
    destruct (like_cases view_pointer t (H _ (follows_type _ _ _ (chain_here _ _)))) as [[-> ->]|(a & b & E & -> & A)]; [reflexivity|]. rewrite E. like_cases_in A a b; try reflexivity; rw; try reflexivity; apply IH; apply K; eexists; (split; [exact E|reflexivity]).
  Qed.
  Lemma look_pointee_tid t : (forall x, follows ti1 t x -> same_item ti1 ti2 x) -> pointee_tid ti2 t = pointee_tid ti1 t.
  Proof.
    rewrite <- (pointee_enough ti2 t (Nat.max (chain_fuel ti1) (chain_fuel ti2))) by lia.
    rewrite <- (pointee_enough ti1 t (Nat.max (chain_fuel ti1) (chain_fuel ti2))) by lia. apply look_pointee.
  Qed.
  Lemma look_size c n : forall t, (forall x, measures ti1 t x -> same_item ti1 ti2 x) -> size_of_fuel n c ti2 t = size_of_fuel n c ti1 t.
  Proof.
    induction n as [|n IH]; intros t H; [reflexivity|]. cbn [size_of_fuel].
    assert (K : forall u, size_link ti1 t u -> forall x, measures ti1 u x -> same_item ti1 ti2 x).
    { intros u L x P. apply H. destruct P; [constructor|eapply measures_pointer; [|eassumption]]; econstructor; eassumption. }
    destruct (like_cases view_size t (H _ (measures_type _ _ _ (chain_here _ _)))) as [[-> ->]|(a & b & E & -> & A)]; [reflexivity|]. rewrite E.
    assert (P : (exists h d, a = TPtr h d) -> pointer_size ti2 = pointer_size ti1).
    { intros (h & d & ->). apply same_pointer_size. apply (H PointerSize). eapply measures_pointer; [constructor|exact E]. }
    like_cases_in A a b; try reflexivity; try (f_equal; assumption); try (apply P; eauto).
    all: rw; try (apply IH, K; left; eexists; (split; [exact E|]); cbn [qualified]; eauto 6).
    rewrite IH; [reflexivity|]. apply K. right. eexists. eexists. eexists. split; [exact E|]. split; reflexivity.
  Qed.
  Lemma look_size_of c t : (forall x, measures ti1 t x -> same_item ti1 ti2 x) -> size_of c ti2 t = size_of c ti1 t.
  Proof.
    rewrite <- (size_enough c ti2 t (Nat.max (chain_fuel ti1) (chain_fuel ti2))) by lia.
    rewrite <- (size_enough c ti1 t (Nat.max (chain_fuel ti1) (chain_fuel ti2))) by lia. apply look_size.
  Qed.
  Definition resolved_like (a b : outcome offset_error (N * type_variant)) : Prop :=
    match a, b with
    | Ok (t1, ty1), Ok (t2, ty2) => like ty1 ty2
    | Err k1, Err k2 => k1 = k2
    | Panic p1, Panic p2 => p1 = p2
    | Diverge, Diverge => True
    | _, _ => False
    end.
  Lemma look_resolve_fuel n : forall t, (forall u, chain (transparent ti1) t u -> same_item ti1 ti2 (Passed u)) -> resolved_like (resolve_fuel n ti1 t) (resolve_fuel n ti2 t).
  Proof.
    induction n as [|n IH]; intros t H; [exact I|]. cbn [resolve_fuel].
    assert (K : forall u, transparent ti1 t u -> forall v, chain (transparent ti1) u v -> same_item ti1 ti2 (Passed v)) by (intros u L v P; apply H; econstructor; eassumption).
    destruct (like_cases view_path t (H _ (chain_here _ _))) as [[-> ->]|(a & b & E & -> & A)]; [reflexivity|]. rewrite E. pose proof A as B.
    like_cases_in A a b; try exact B; rw; apply IH; apply K; eexists; (split; [exact E|]); cbn [qualified]; eauto 6.
  Qed.
  Lemma look_resolve t : (forall u, chain (transparent ti1) t u -> same_item ti1 ti2 (Passed u)) -> resolved_like (resolve ti1 t) (resolve ti2 t).
  Proof.
    rewrite <- (resolve_enough ti2 t (Nat.max (chain_fuel ti1) (chain_fuel ti2))) by lia.
    rewrite <- (resolve_enough ti1 t (Nat.max (chain_fuel ti1) (chain_fuel ti2))) by lia. apply look_resolve_fuel.
  Qed.

  Definition member_like (m1 m2 : member) : Prop := m_name m2 = m_name m1 /\ m_tid m2 = m_tid m1 /\ m_offset m2 = m_offset m1.
  Lemma like_members a b : like a b -> match member_lists a, member_lists b with Some l1, Some l2 => Forall2 member_like l1 l2 | None, None => True | _, _ => False end.
  Proof.
    assert (K : forall l1 l2, map (fun m => (m_name m, m_tid m, m_offset m)) l2 = map (fun m => (m_name m, m_tid m, m_offset m)) l1 -> Forall2 member_like l1 l2).
    { induction l1 as [|m1 l1 IH]; intros [|m2 l2] E; try discriminate; constructor; cbn in E; injection E as E1 E2 E3 E4; [repeat split; assumption|apply IH; exact E4]. }
    intros A. like_cases_in A a b; try exact I; cbn [member_lists]; apply K; assumption.
  Qed.
  Lemma like_probe P1 P2 off l1 l2 : Forall2 member_like l1 l2 -> (forall m o, In m l1 -> m_name m = None -> P2 o (m_tid m) = P1 o (m_tid m)) -> probe_anonymous P2 off l2 = probe_anonymous P1 off l1.
  Proof.
    intros H. induction H as [|m1 m2 l1 l2 (En & Et & Eo) _ IH]; intros E; [reflexivity|]. cbn [probe_anonymous]. unfold is_anonymous. rewrite En, Et, Eo.
    specialize (IH (fun m o I => E m o (or_intror I))).
    destruct (m_name m1) eqn:Nm; [exact IH|]. destruct (offset_add (m_offset m1) off) as [o|k|p|]; cbn [btf_err obind]; try reflexivity.
    rewrite (E m1 o (or_introl eq_refl) Nm). destruct (P1 o (m_tid m1)); try reflexivity. exact IH.
  Qed.
  Lemma like_find n l1 l2 : Forall2 member_like l1 l2 ->
    match find (has_name n) l1, find (has_name n) l2 with Some m1, Some m2 => m_tid m2 = m_tid m1 /\ m_offset m2 = m_offset m1 | None, None => True | _, _ => False end.
  Proof.
    intros H. induction H as [|m1 m2 l1 l2 (En & Et & Eo) _ IH]; [exact I|]. cbn [find]. unfold has_name in *. rewrite En.
    destruct (m_name m1) as [x|]; [|exact IH]. destruct (str_eqb x n); [auto|exact IH].
  Qed.
  Lemma look_follow c e n : forall off t cs, (forall x, sees ti1 t cs x -> same_item ti1 ti2 x) -> follow n c ti2 e off t cs = follow n c ti1 e off t cs.
  Proof.
    induction n as [|n IH]; intros off t cs H; [reflexivity|]. destruct cs as [|x cs]; [reflexivity|]. rewrite !follow_S.
    pose proof (look_resolve t (fun u U => H _ (sees_type _ _ _ _ _ U))) as R.
    destruct (resolve ti1 t) as [[r1 a]|k|q|] eqn:E1; destruct (resolve ti2 t) as [[r2 b]|k'|q'|]; cbn [resolved_like] in R; try contradiction; try (subst; reflexivity).
    assert (Ia : is ti1 t a) by (apply is_resolve; eauto).
    cbn [obind snd]. pose proof (like_members a b R) as AM. destruct x as [i|name].
    - unfold round. clear AM. like_cases_in R a b; try reflexivity. unfold array_step. rw. destruct (N.leb_spec (element_count d) i) as [_|L]; [reflexivity|].
      rewrite look_size_of by (intros x M; apply H; eapply sees_size; eassumption).
      destruct (size_of c ti1 _) as [s|k|q|]; cbn [btf_err obind]; try reflexivity.
      destruct (index_size i s) as [z|]; cbn [ok_or obind]; [|reflexivity]. destruct (offset_add_u32 off z) as [o|k|q|]; cbn [btf_err obind]; try reflexivity.
      apply IH. intros x M. apply H. eapply sees_element; eassumption.
    - unfold round. destruct (member_lists a) as [l1|] eqn:L1; destruct (member_lists b) as [l2|] eqn:L2; try contradiction.
      + assert (Ma : members_of a l1) by (destruct a; try discriminate L1; injection L1 as <-; reflexivity).
        assert (Va : a <> TVoid) by (intros ->; discriminate L1). assert (Vb : b <> TVoid) by (intros ->; discriminate L2).
        rewrite <- (like_probe (fun o mt => follow n c ti1 e o mt (Name name :: cs)) (fun o mt => follow n c ti2 e o mt (Name name :: cs)) off l1 l2 AM)
          by (intros m o I An; apply IH; intros x M; apply H; eapply sees_anonymous; eassumption).
        pose proof (like_find name l1 l2 AM) as F.
        assert (G : forall m1 o, find (has_name name) l1 = Some m1 -> follow n c ti2 e o (m_tid m1) cs = follow n c ti1 e o (m_tid m1) cs).
        { intros m1 o Fm. apply IH. intros x M. apply H. eapply sees_member; [exact Ia|exact Ma|apply find_named; exact Fm|exact M]. }
        destruct a; try discriminate L1; destruct b; try discriminate L2.
        all: destruct (probe_anonymous _ off l2) as [[r|]|k|q|]; cbn [obind]; try reflexivity.
        all: destruct (find (has_name name) l1) as [m1|] eqn:F1; destruct (find (has_name name) l2) as [m2|]; try contradiction; try reflexivity; destruct F as [Ft Fo].
        all: rewrite Ft, Fo; destruct (offset_add off (m_offset m1)) as [o|k|q|]; cbn [btf_err obind]; try reflexivity; apply G; reflexivity.
      + clear AM. unfold like in R. destruct a, b; try discriminate R; try discriminate L1; try discriminate L2; reflexivity.
  Qed.
End Look.
