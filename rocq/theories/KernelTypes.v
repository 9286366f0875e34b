(** * KernelTypes: proofs for C86. *)
From Coq Require Import List NArith Bool Lia.
From Verif Require Import TypeInfo Spec QuerySpec Sizes Chains KernelSpec.
Import ListNotations.
Open Scope N_scope.

Section Resolved.
  Context (ti : type_information) (ptr : N) (R : kernel_resolved ti ptr) (Hz : from_id ti 0 = Some TVoid).
  (** No chain of links is endless: a forward leads to void, all others go down. *)
  Lemma resolved_link : exists rank : N -> nat, forall t u, link ti t u -> (rank u < rank t)%nat.
  Proof.
    destruct (no_loops _ _ R) as [rank K].
    exists (fun t => match from_id ti t with Some TVoid => 0 | Some (TFwd _ _) => 1 | _ => 2 + rank t end)%nat.
    assert (Low : forall t u ty, from_id ti t = Some ty -> contains ty u ->
      ((match from_id ti u with Some TVoid => 0 | Some (TFwd _ _) => 1 | _ => 2 + rank u end) < (match from_id ti t with Some TVoid => 0 | Some (TFwd _ _) => 1 | _ => 2 + rank t end))%nat).
    { intros t u ty H C. pose proof (K _ _ _ H C) as L. rewrite H.
      assert (E : (match ty with TVoid => 0 | TFwd _ _ => 1 | _ => 2 + rank t end = 2 + rank t)%nat) by (destruct ty; cbn in C; try contradiction; reflexivity).
      rewrite E. destruct (from_id ti u) as [[]|]; lia. }
    intros t u [(ty & H & [Q|(h & d & -> & E)])|[[(ty & H & Q)|(n & h & d & H & E & _)]|(ty & ms & m & H & M & I & _ & E)]].
    - apply (Low t u ty H). destruct ty; cbn in Q |- *; try contradiction; exact Q.
    - rewrite (no_target _ _ R _ _ _ H) in E. subst u. rewrite Hz, H. lia.
    - apply (Low t u ty H). destruct Q as [Q|[(h & d & -> & E)|(h & d & -> & E)]]; [|exact E|exact E]. destruct ty; cbn in Q |- *; try contradiction; exact Q.
    - apply (Low t u _ H). exact E.
    - apply (Low t u ty H). destruct ty; cbn in M |- *; try contradiction; exists m; rewrite M; auto.
  Qed.
  Lemma resolved_acyclic : acyclic ti.
  Proof.
    destruct resolved_link as [rank K]. intros t (f & _ & F).
    assert (X : forall n, (rank (f n) + n <= rank (f 0%nat))%nat). { induction n as [|n IH]; [lia|]. pose proof (K _ _ (F n)). lia. }
    specialize (X (S (rank (f 0%nat)))). lia.
  Qed.

  Lemma stored_fun ty s s' : stored_size ty s -> stored_size ty s' -> s = s'.
  Proof. destruct ty; cbn; intros; try contradiction; congruence. Qed.
  Lemma alias_fun t u u' : size_alias ti t u -> size_alias ti t u' -> u = u'.
  Proof.
    intros (ty & H & A) (ty' & H' & A'). rewrite H in H'. injection H' as <-.
    destruct A as [A|[(? & ? & -> & E)|(? & ? & -> & E)]], A' as [A'|[(? & ? & X & E')|(? & ? & X & E')]]; try (destruct ty; cbn in A, A'; try contradiction; congruence); try (subst ty; cbn in *; contradiction); try (cbn in *; contradiction); try congruence.
  Qed.
  Lemma alias_not_stored t u ty s : size_alias ti t u -> from_id ti t = Some ty -> stored_size ty s -> False.
  Proof. intros (ty' & H & A) H' S. rewrite H in H'. injection H' as <-. destruct A as [A|[(? & ? & -> & _)|(? & ? & -> & _)]]; [|exact S|exact S]. destruct ty'; cbn in A, S; contradiction. Qed.
  Lemma alias_kind t u ty : size_alias ti t u -> from_id ti t = Some ty -> match ty with TPtr _ _ | TArray _ _ => False | _ => True end.
  Proof. intros (ty' & H & A) H'. rewrite H in H'. injection H' as <-. destruct A as [A|[(? & ? & -> & _)|(? & ? & -> & _)]]; [|exact I|exact I]. destruct ty'; cbn in A; try contradiction; exact I. Qed.
  Lemma kernel_size_inv t ty s : kernel_size ti ptr t s -> from_id ti t = Some ty ->
    match ty with
    | TPtr _ _ => s = ptr
    | TArray _ d => exists s0, kernel_size ti ptr (element_tid d) s0 /\ s = s0 * element_count d
    | _ => stored_size ty s \/ exists u, size_alias ti t u /\ kernel_size ti ptr u s
    end.
  Proof.
    intros K H. destruct K as [t ty' s H' S|t h d H'|t h d s H' K L|t u s A K].
    - rewrite H in H'. injection H' as <-. destruct ty; cbn in S; try contradiction; left; exact S.
    - rewrite H in H'. injection H' as ->. reflexivity.
    - rewrite H in H'. injection H' as ->. exists s. auto.
    - pose proof (alias_kind _ _ _ A H) as N. destruct ty; try contradiction; right; exists u; auto.
  Qed.
  Lemma kernel_size_fun t s : kernel_size ti ptr t s -> forall s', kernel_size ti ptr t s' -> s = s'.
  Proof.
    induction 1 as [t ty s H S|t h d H|t h d s H K IH L|t u s A K IH]; intros s' X.
    - pose proof (kernel_size_inv _ _ _ X H) as Y. assert (Z : stored_size ty s' \/ exists u, size_alias ti t u /\ kernel_size ti ptr u s') by (destruct ty; try (destruct S; fail); exact Y).
      destruct Z as [Z|(u & A & _)]; [exact (stored_fun _ _ _ S Z)|destruct (alias_not_stored _ _ _ _ A H S)].
    - symmetry. exact (kernel_size_inv _ _ _ X H).
    - destruct (kernel_size_inv _ _ _ X H) as (s0 & K0 & ->). f_equal. apply IH. exact K0.
    - pose proof A as (ty & H & _). pose proof (kernel_size_inv _ _ _ X H) as Y. pose proof (alias_kind _ _ _ A H) as N.
      assert (Z : stored_size ty s' \/ exists u, size_alias ti t u /\ kernel_size ti ptr u s') by (destruct ty; try contradiction; exact Y).
      destruct Z as [Z|(u' & A' & K')]; [destruct (alias_not_stored _ _ _ _ A H Z)|]. apply IH. rewrite (alias_fun _ _ _ A A'). exact K'.
  Qed.

  (** With the kernel's pointers, sizes are the kernel's. *)
  Lemma kernel_has_size (P : pointer_sized ti ptr) t s : kernel_size ti ptr t s -> has_size ti (fun n => n < 2 ^ 32) t s.
  Proof.
    induction 1 as [t ty s H S|t h d H|t h d s H K IH L|t u s A K IH].
    - eapply size_stored; eassumption.
    - eapply size_pointer; eassumption.
    - eapply size_array; [exists h, d; eauto|exact IH|exact L].
    - eapply size_same; eassumption.
  Qed.
  Lemma size_kernel (P : pointer_sized ti ptr) t s : size ti t s -> kernel_size ti ptr t s.
  Proof.
    induction 1 as [t ty s H S|t h d s H PS|t e n s (h & d & H & <- & <-) S IH _|t u s A S IH].
    - eapply kernel_stored; eassumption.
    - assert (s = ptr) as -> by (destruct P as (lh & h1 & d1 & A1 & A2 & ->), PS as (lh' & h2 & d2 & B1 & B2 & ->); congruence). eapply kernel_pointer. exact H.
    - destruct (arrays_sized _ _ R _ _ _ H) as [s' K]. destruct (kernel_size_inv _ _ _ K H) as (s0 & K0 & E). rewrite (kernel_size_fun _ _ IH _ K0), <- E. exact K.
    - eapply kernel_same; eassumption.
  Qed.
  (** With any other list_head they fit 64 bits nevertheless. *)
  Lemma size_bound (B : forall p, pointer_sized ti p -> p < 2 ^ 31) (P1 : 1 <= ptr) t s : size ti t s -> forall s', kernel_size ti ptr t s' -> s <= s' * 2 ^ 31.
  Proof.
    induction 1 as [t ty s H S|t h d s H PS|t e n s (h & d & H & <- & <-) S IH _|t u s A S IH]; intros s' K.
    - rewrite (kernel_size_fun _ _ K s (kernel_stored _ _ _ _ _ H S)). nia.
    - rewrite (kernel_size_inv _ _ _ K H). specialize (B _ PS). nia.
    - destruct (kernel_size_inv _ _ _ K H) as (s0 & K0 & ->). specialize (IH _ K0). nia.
    - pose proof A as (ty & H & _). pose proof (kernel_size_inv _ _ _ K H) as Y. pose proof (alias_kind _ _ _ A H) as N.
      assert (Z : stored_size ty s' \/ exists u, size_alias ti t u /\ kernel_size ti ptr u s') by (destruct ty; try contradiction; exact Y).
      destruct Z as [Z|(u' & A' & K')]; [destruct (alias_not_stored _ _ _ _ A H Z)|]. apply IH. rewrite (alias_fun _ _ _ A A'). exact K'.
  Qed.
  Lemma resolved_fits (B : forall p, pointer_sized ti p -> p < 2 ^ 31) (P1 : 1 <= ptr) t s : size ti t s -> has_size ti (fun n => n < 2 ^ 64) t s.
  Proof.
    induction 1 as [t ty s H S|t h d s H PS|t e n s (h & d & H & <- & <-) S IH _|t u s A S IH].
    - eapply size_stored; eassumption.
    - eapply size_pointer; eassumption.
    - eapply size_array; [exists h, d; eauto|exact IH|]. destruct (arrays_sized _ _ R _ _ _ H) as [s' K].
      inversion K as [? ty' ? H' S'|? h' d' H'|? h' d' s0 H' K' L'|? u' ? A' K']; subst.
      + rewrite H in H'. injection H' as <-. contradiction.
      + congruence.
      + rewrite H in H'. injection H' as <- <-. pose proof (size_bound B P1 _ _ S _ K'). change (2 ^ 64) with (2 ^ 32 * (2 * 2 ^ 31)). nia.
      + destruct (alias_kind _ _ _ A' H).
    - eapply size_same; eassumption.
  Qed.
  Lemma resolved_consistent (P : pointer_sized ti ptr) : (forall t ty ms m, from_id ti t = Some ty -> members_of ty ms -> In m ms -> regular ti (m_tid m)) -> consistent ti.
  Proof.
    intros G t ty ms m st H M I S. pose proof (members_inside _ _ R _ _ _ _ _ H M I S) as X. destruct (m_offset m) as [b|b z]; [|exact X].
    destruct X as (s & K & L). exists s. split; [|exact (L (G _ _ _ _ H M I))]. eapply has_size_impl; [|exact (kernel_has_size P _ _ K)]. auto.
  Qed.
End Resolved.
