(** * BlindFacts: the queries depend on shapes alone. *)
From Coq Require Import List NArith Bool Lia.
From Verif Require Import TypeInfo BaseFacts Spec PathSpec Path PathGrammar QuerySpec Chains Sizes Follow Renumber BlindSpec.
Import ListNotations.
Open Scope N_scope.

Lemma str_eqb_iff a b : str_eqb a b = true <-> a = b.
Proof. split; [apply str_eqb_eq|intros ->; apply str_eqb_eq; reflexivity]. Qed.

Section Blind.
  Context (g : str -> str) (ti1 ti2 : type_information).
  Hypothesis G : one_to_one g.
  Hypothesis HR : relabelled g ti1 ti2.

  Definition like (a b : type_variant) : Prop := shape_of b = relabel g (shape_of a).
  Lemma like_cases t : (from_id ti1 t = None /\ from_id ti2 t = None) \/ exists a b, from_id ti1 t = Some a /\ from_id ti2 t = Some b /\ like a b.
  Proof.
    specialize (HR t). destruct (from_id ti1 t) as [a|]; destruct (from_id ti2 t) as [b|]; try discriminate; [|left; auto].
    right. exists a, b. split; [reflexivity|]. split; [reflexivity|]. injection HR as E. exact E.
  Qed.
  Ltac like_cases_in A a b := unfold like in A; destruct a, b; cbn [shape_of relabel] in A; try discriminate A; try (injection A; clear A; intros).
  Ltac rw := repeat match goal with E : _ ?x = _ ?y |- _ => rewrite E; clear E end.

  Lemma like_pointee n : forall t, pointee_tid_fuel n ti2 t = pointee_tid_fuel n ti1 t.
  Proof.
    induction n as [|n IH]; intros t; [reflexivity|]. cbn [pointee_tid_fuel].
    destruct (like_cases t) as [[-> ->]|(a & b & -> & -> & A)]; [reflexivity|]. like_cases_in A a b; try reflexivity; rw; try reflexivity; apply IH.
  Qed.
  Lemma like_pointee_tid t : pointee_tid ti2 t = pointee_tid ti1 t.
  Proof.
    rewrite <- (pointee_enough ti2 t (Nat.max (chain_fuel ti1) (chain_fuel ti2))) by lia.
    rewrite <- (pointee_enough ti1 t (Nat.max (chain_fuel ti1) (chain_fuel ti2))) by lia. apply like_pointee.
  Qed.
  Definition resolved_like (a b : outcome offset_error (N * type_variant)) : Prop :=
    match a, b with
    | Ok (t1, ty1), Ok (t2, ty2) => like ty1 ty2
    | Err k1, Err k2 => k1 = k2
    | Panic p1, Panic p2 => p1 = p2
    | Diverge, Diverge => True
    | _, _ => False
    end.
  Lemma like_resolve_fuel n : forall t, resolved_like (resolve_fuel n ti1 t) (resolve_fuel n ti2 t).
  Proof.
    induction n as [|n IH]; intros t; [exact I|]. cbn [resolve_fuel].
    destruct (like_cases t) as [[-> ->]|(a & b & -> & -> & A)]; [reflexivity|]. pose proof A as B. like_cases_in A a b; try exact B; rw; apply IH.
  Qed.
  Lemma like_resolve t : resolved_like (resolve ti1 t) (resolve ti2 t).
  Proof.
    rewrite <- (resolve_enough ti2 t (Nat.max (chain_fuel ti1) (chain_fuel ti2))) by lia.
    rewrite <- (resolve_enough ti1 t (Nat.max (chain_fuel ti1) (chain_fuel ti2))) by lia. apply like_resolve_fuel.
  Qed.

  Hypothesis HP : forall s, pointer_sized ti1 s <-> pointer_sized ti2 s.
  Lemma like_size c n : forall t, size_of_fuel n c ti2 t = size_of_fuel n c ti1 t.
  Proof.
    induction n as [|n IH]; intros t; [reflexivity|]. cbn [size_of_fuel].
    destruct (like_cases t) as [[-> ->]|(a & b & -> & -> & A)]; [reflexivity|]. like_cases_in A a b; try reflexivity; try (f_equal; assumption).
    all: try (apply same_pointer_size; exact HP). all: rw; try apply IH. rewrite IH. reflexivity.
  Qed.
  Lemma like_size_of c t : size_of c ti2 t = size_of c ti1 t.
  Proof.
    rewrite <- (size_enough c ti2 t (Nat.max (chain_fuel ti1) (chain_fuel ti2))) by lia.
    rewrite <- (size_enough c ti1 t (Nat.max (chain_fuel ti1) (chain_fuel ti2))) by lia. apply like_size.
  Qed.

  Definition member_like (m1 m2 : member) : Prop := m_name m2 = option_map g (m_name m1) /\ m_tid m2 = m_tid m1 /\ m_offset m2 = m_offset m1.
  Lemma like_members a b : like a b -> match member_lists a, member_lists b with Some l1, Some l2 => Forall2 member_like l1 l2 | None, None => True | _, _ => False end.
  Proof.
    assert (K : forall l1 l2, map (fun m => (m_name m, m_tid m, m_offset m)) l2 = map (fun m => (option_map g (fst (fst m)), snd (fst m), snd m)) (map (fun m => (m_name m, m_tid m, m_offset m)) l1) ->
      Forall2 member_like l1 l2).
    { induction l1 as [|m1 l1 IH]; intros [|m2 l2] E; try discriminate; constructor; cbn in E; injection E as E1 E2 E3 E4; [repeat split; assumption|apply IH; exact E4]. }
    intros A. like_cases_in A a b; try exact I; cbn [member_lists]; apply K; assumption.
  Qed.
  Lemma like_probe P1 P2 off l1 l2 : (forall o t, P2 o t = P1 o t) -> Forall2 member_like l1 l2 -> probe_anonymous P2 off l2 = probe_anonymous P1 off l1.
  Proof.
    intros E H. induction H as [|m1 m2 l1 l2 (En & Et & Eo) _ IH]; [reflexivity|]. cbn [probe_anonymous]. unfold is_anonymous. rewrite En, Et, Eo.
    destruct (m_name m1); cbn [option_map]; [exact IH|]. destruct (offset_add (m_offset m1) off) as [o|k|p|]; cbn [btf_err obind]; try reflexivity.
    rewrite E. destruct (P1 o (m_tid m1)); try reflexivity. exact IH.
  Qed.
  Lemma like_find n l1 l2 : Forall2 member_like l1 l2 ->
    match find (has_name n) l1, find (has_name (g n)) l2 with Some m1, Some m2 => m_tid m2 = m_tid m1 /\ m_offset m2 = m_offset m1 | None, None => True | _, _ => False end.
  Proof.
    intros H. induction H as [|m1 m2 l1 l2 (En & Et & Eo) _ IH]; [exact I|]. cbn [find]. unfold has_name in *. rewrite En.
    destruct (m_name m1) as [x|]; cbn [option_map]; [|exact IH].
    replace (str_eqb (g x) (g n)) with (str_eqb x n); [destruct (str_eqb x n); [auto|exact IH]|].
    destruct (str_eqb x n) eqn:E; symmetry.
    - apply str_eqb_iff in E. subst. apply str_eqb_iff. reflexivity.
    - destruct (str_eqb (g x) (g n)) eqn:F; [|reflexivity]. apply str_eqb_iff, G, str_eqb_iff in F. congruence.
  Qed.
  Lemma like_follow c e n : forall off t cs, follow n c ti2 e off t (map (relabel_component g) cs) = follow n c ti1 e off t cs.
  Proof.
    induction n as [|n IH]; intros off t cs; [reflexivity|]. destruct cs as [|x cs]; [reflexivity|]. cbn [map]. rewrite !follow_S.
    pose proof (like_resolve t) as R. destruct (resolve ti1 t) as [[r1 a]|k|q|]; destruct (resolve ti2 t) as [[r2 b]|k'|q'|]; cbn [resolved_like] in R; try contradiction; try (subst; reflexivity).
    cbn [obind snd]. pose proof (like_members a b R) as AM. destruct x as [i|name]; cbn [relabel_component].
    - unfold round. clear AM. like_cases_in R a b; try reflexivity. unfold array_step. rw. destruct (_ <=? i); [reflexivity|]. rewrite like_size_of.
      destruct (size_of c ti1 _) as [s|k|q|]; cbn [btf_err obind]; try reflexivity.
      destruct (index_size i s) as [z|]; cbn [ok_or obind]; [|reflexivity]. destruct (offset_add_u32 off z) as [o|k|q|]; cbn [btf_err obind]; try reflexivity. apply IH.
    - unfold round. destruct (member_lists a) as [l1|] eqn:L1; destruct (member_lists b) as [l2|] eqn:L2; try contradiction.
      + assert (Va : a <> TVoid) by (intros ->; discriminate L1). assert (Vb : b <> TVoid) by (intros ->; discriminate L2).
        rewrite <- (like_probe (fun o mt => follow n c ti1 e o mt (Name name :: cs)) (fun o mt => follow n c ti2 e o mt (Name (g name) :: map (relabel_component g) cs)) off l1 l2) by (try exact AM; intros o mt; exact (IH o mt (Name name :: cs))).
        pose proof (like_find name l1 l2 AM) as F. 
        destruct a; try discriminate L1; destruct b; try discriminate L2.
        all: destruct (probe_anonymous _ off l2) as [[r|]|k|q|]; cbn [obind]; try reflexivity.
        all: destruct (find (has_name name) l1) as [m1|]; destruct (find (has_name (g name)) l2) as [m2|]; try contradiction; try reflexivity; destruct F as [Ft Fo].
        all: rewrite Ft, Fo; destruct (offset_add off (m_offset m1)) as [o|k|q|]; cbn [btf_err obind]; try reflexivity; apply IH.
      + clear AM. unfold like in R. destruct a, b; try discriminate R; try discriminate L1; try discriminate L2; reflexivity.
  Qed.
End Blind.
