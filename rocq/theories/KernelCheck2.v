(** * KernelCheck2: [kernel_resolved] decided, for concrete tables. *)
From Coq Require Import List NArith Bool Lia.
From Verif Require Import TypeInfo BaseFacts QuerySpec KernelSpec Checker Offsets Offsets2.
Import ListNotations.
Open Scope N_scope.

Section Check.
  Context (ti : type_information) (ptr : N).
  Definition same_size (ty : type_variant) : option N :=
    match ty with
    | TTypedef _ d | TTypeTag _ d => Some (nl_tid d)
    | TConst _ d | TVolatile _ d | TRestrict _ d => Some (link_tid d)
    | TVar _ d => Some (var_tid d)
    | _ => None end.
  Lemma same_size_alias t ty u : from_id ti t = Some ty -> (same_size ty = Some u <-> size_alias ti t u).
  Proof.
    intros H. split.
    - intros E. exists ty. split; [exact H|]. destruct ty; cbn in E; try discriminate; injection E as <-; cbn; eauto 6.
    - intros (ty' & H' & A). rewrite H in H'. injection H' as <-. destruct A as [A|[(? & ? & -> & <-)|(? & ? & -> & <-)]]; [|reflexivity|reflexivity].
      destruct ty; cbn in A |- *; try contradiction; f_equal; exact A.
  Qed.
  Definition own_size (ty : type_variant) : option N :=
    match ty with
    | TInt _ d => Some (int_size d) | TFloat _ d => Some (float_size d) | TEnum _ d | TEnum64 _ d => Some (enum_size d)
    | TStruct _ d | TUnion _ d => Some (struct_size d) | TDataSec _ d => Some (ds_size d) | _ => None end.
  Lemma own_size_stored ty s : own_size ty = Some s <-> stored_size ty s.
  Proof. destruct ty; cbn; split; intros H; try discriminate; try contradiction; congruence. Qed.
  Fixpoint ksize (fuel : nat) (t : N) : option N :=
    match fuel, from_id ti t with
    | S fuel, Some ty => match own_size ty, same_size ty, ty with
        | Some s, _, _ => Some s
        | _, Some u, _ => ksize fuel u
        | _, _, TPtr _ _ => Some ptr
        | _, _, TArray _ d => match ksize fuel (element_tid d) with Some s => if s * element_count d <? 2 ^ 32 then Some (s * element_count d) else None | None => None end
        | _, _, _ => None end
    | _, _ => None end.
  Lemma ksize_sound fuel : forall t s, ksize fuel t = Some s -> kernel_size ti ptr t s.
  Proof.
    induction fuel as [|fuel IH]; intros t s; [discriminate|]. cbn [ksize]. destruct (from_id ti t) as [ty|] eqn:H; [|discriminate].
    destruct (own_size ty) as [s'|] eqn:O. { intros E. injection E as <-. eapply kernel_stored; [exact H|]. apply own_size_stored. exact O. }
    destruct (same_size ty) as [u|] eqn:U. { intros E. eapply kernel_same; [apply (same_size_alias _ _ _ H); exact U|exact (IH _ _ E)]. }
    destruct ty; try discriminate.
    - intros E. injection E as <-. eapply kernel_pointer. exact H.
    - destruct (ksize fuel (element_tid d)) as [s'|] eqn:E; [|discriminate]. destruct (N.ltb_spec (s' * element_count d) (2 ^ 32)) as [L|]; [|discriminate].
      intros X. injection X as <-. eapply kernel_array; [exact H|exact (IH _ _ E)|exact L].
  Qed.
  Definition contained (ty : type_variant) : list N :=
    match ty with
    | TArray _ d => [element_tid d]
    | TStruct _ d | TUnion _ d => map m_tid (member_list d)
    | _ => match same_size ty with Some u => [u] | None => [] end end.
  Lemma contained_contains ty u : contains ty u -> In u (contained ty).
  Proof. destruct ty; cbn; intros H; try contradiction; auto; destruct H as (m & I & <-); apply in_map; exact I. Qed.
  Fixpoint depth (fuel : nat) (t : N) : nat :=
    match fuel, from_id ti t with
    | S fuel, Some ty => fold_right (fun u n => Nat.max (S (depth fuel u)) n) 0%nat (contained ty)
    | _, _ => 0%nat end.
  Definition resolve_check (fuel : nat) : bool :=
    forallb (fun t => match from_id ti t with
      | None => true
      | Some ty => forallb (fun u => Nat.ltb (depth fuel u) (depth fuel t)) (contained ty) &&
          match ty with
          | TFwd _ d => nl_tid d =? 0
          | TArray _ _ => match ksize fuel t with Some _ => true | None => false end
          | TStruct _ d | TUnion _ d => forallb (fun m => match m_offset m with
              | ByteOffset b => match ksize fuel (m_tid m) with Some s => b + s <=? struct_size d | None => false end
              | BitOffsetAndSize b z => b + z <=? 8 * struct_size d end) (member_list d)
          | _ => true end end) (all_ids ti).
  Lemma resolve_check_sound fuel : resolve_check fuel = true -> kernel_resolved ti ptr.
  Proof.
    intros H. unfold resolve_check in H. rewrite forallb_forall in H.
    assert (G : forall t ty, from_id ti t = Some ty -> forallb (fun u => Nat.ltb (depth fuel u) (depth fuel t)) (contained ty) = true /\
       match ty with
          | TFwd _ d => nl_tid d =? 0
          | TArray _ _ => match ksize fuel t with Some _ => true | None => false end
          | TStruct _ d | TUnion _ d => forallb (fun m => match m_offset m with
              | ByteOffset b => match ksize fuel (m_tid m) with Some s => b + s <=? struct_size d | None => false end
              | BitOffsetAndSize b z => b + z <=? 8 * struct_size d end) (member_list d)
          | _ => true end = true).
    { intros t ty F. specialize (H t (from_id_all _ _ _ F)). rewrite F in H. apply andb_prop in H. exact H. }
    constructor.
    - exists (depth fuel). intros t ty u F C. destruct (G t ty F) as [X _]. rewrite forallb_forall in X. apply Nat.ltb_lt. apply X. apply contained_contains. exact C.
    - intros t h d F. destruct (G _ _ F) as [_ X]. apply N.eqb_eq. exact X.
    - intros t h d F. destruct (G _ _ F) as [_ X]. destruct (ksize fuel t) as [s|] eqn:E; [|discriminate]. exists s. exact (ksize_sound _ _ _ E).
    - intros t ty ms m st F M I S. destruct (G _ _ F) as [_ X].
      assert (Y : forallb (fun m => match m_offset m with
              | ByteOffset b => match ksize fuel (m_tid m) with Some s => b + s <=? st | None => false end
              | BitOffsetAndSize b z => b + z <=? 8 * st end) ms = true) by (destruct ty; cbn in M; try contradiction; cbn in S; subst; exact X).
      rewrite forallb_forall in Y. specialize (Y _ I). destruct (m_offset m) as [b|b z]; [|apply N.leb_le; exact Y].
      destruct (ksize fuel (m_tid m)) as [s|] eqn:E; [|discriminate]. exists s. split; [exact (ksize_sound _ _ _ E)|]. intros _. apply N.leb_le. exact Y.
  Qed.
  Fixpoint is_regular (fuel : nat) (t : N) : bool :=
    match fuel, from_id ti t with
    | _, None => true
    | S fuel, Some ty => match same_size ty, ty with
        | Some u, _ => is_regular fuel u
        | None, TInt _ d => int_bits d =? 8 * int_size d
        | None, TEnum _ d | None, TEnum64 _ d => enum_size d <=? 4
        | None, _ => true end
    | O, Some _ => false end.
  Lemma is_regular_sound fuel : forall t, is_regular fuel t = true -> regular ti t.
  Proof.
    induction fuel as [|fuel IH]; intros t H r C.
    - cbn in H. destruct (from_id ti t) eqn:F; [discriminate|]. destruct C as [t|t u v (ty & F' & _) _]; [rewrite F; exact I|congruence].
    - cbn [is_regular] in H. destruct (from_id ti t) as [ty|] eqn:F; [|destruct C as [t|t u v (ty & F' & _) _]; [rewrite F; exact I|congruence]].
      destruct (same_size ty) as [u|] eqn:U.
      + destruct C as [t|t u' v A C]; [rewrite F; destruct ty; cbn in U; try discriminate; exact I|]. apply (same_size_alias _ _ _ F) in A. rewrite U in A. injection A as <-. exact (IH _ H _ C).
      + destruct C as [t|t u' v A C]; [|apply (same_size_alias _ _ _ F) in A; congruence]. rewrite F. destruct ty; try exact I; try (apply N.eqb_eq; exact H); apply N.leb_le; exact H.
  Qed.
  Lemma regular_check_sound fuel : forallb (fun t => match from_id ti t with
      | Some (TStruct _ d) | Some (TUnion _ d) => forallb (fun m => is_regular fuel (m_tid m)) (member_list d) | _ => true end) (all_ids ti) = true ->
    forall s ty ms m, from_id ti s = Some ty -> members_of ty ms -> In m ms -> regular ti (m_tid m).
  Proof.
    intros H s ty ms m F M I. rewrite forallb_forall in H. specialize (H _ (from_id_all _ _ _ F)). rewrite F in H.
    apply (is_regular_sound fuel). destruct ty; cbn in M; try contradiction; subst ms; rewrite forallb_forall in H; exact (H _ I).
  Qed.
End Check.
