(** * MessageFacts: the messages of errors (C57, C58). *)
From Coq Require Import List NArith ZArith Bool Lia ZifyBool ZifyNat ZifyN Strings.Byte.
From Verif Require Import TypeInfo Spec BaseFacts PathSpec Path PathGrammar PathPrint QuerySpec Chains Sizes Follow Offsets Offsets2 OffsetOf OffsetOf2 OutcomeSpec Outcome Message MessageSpec.
Import ListNotations.
Open Scope N_scope.

(** ** Forgetting the messages *)
Lemma kind_bind {A B} (m : outcome message A) (f : A -> outcome message B) : kind_only (obind m f) = obind (kind_only m) (fun a => kind_only (f a)).
Proof. destruct m; reflexivity. Qed.
Lemma pointee_kind_fuel n ti : forall t, kind_only (pointee_msg_fuel n ti t) = pointee_tid_fuel n ti t.
Proof.
  induction n as [|n IH]; intros t; [reflexivity|]. cbn [pointee_msg_fuel pointee_tid_fuel]. destruct (from_id ti t) as [ty|]; [|reflexivity].
  destruct ty; try reflexivity; apply IH.
Qed.
Lemma pointee_kind ti t : kind_only (pointee_msg ti t) = pointee_tid ti t.
Proof. apply pointee_kind_fuel. Qed.
Lemma pointer_size_kind ti : kind_only (pointer_size_msg ti) = pointer_size ti.
Proof.
  unfold pointer_size_msg, pointer_size. destruct (id_of ti list_head_str) as [lh|]; [|reflexivity].
  destruct (from_id ti lh) as [ty|]; [|reflexivity]. destruct ty; reflexivity.
Qed.
Lemma mul_kind c a b : kind_only (mul_usize c a b) = mul_usize c a b.
Proof. unfold mul_usize, wrap_or_panic. destruct (_ <? _); [reflexivity|]. destruct (overflow_checks c); reflexivity. Qed.
Lemma size_kind_fuel n c ti : forall t, kind_only (size_msg_fuel n c ti t) = size_of_fuel n c ti t.
Proof.
  induction n as [|n IH]; intros t; [reflexivity|]. cbn [size_msg_fuel size_of_fuel]. destruct (from_id ti t) as [ty|]; [|reflexivity].
  destruct ty; try reflexivity; try apply IH; [apply pointer_size_kind|]. rewrite kind_bind, IH.
  destruct (size_of_fuel n c ti (element_tid d)); cbn [obind]; try reflexivity. apply mul_kind.
Qed.
Lemma size_kind c ti t : kind_only (size_msg c ti t) = size_of c ti t.
Proof. apply size_kind_fuel. Qed.
Lemma ok_or_kind {A} (m : message) (x : option A) : kind_only (ok_or m x) = ok_or (message_kind m) x.
Proof. destruct x; reflexivity. Qed.
Lemma add_kind a b : kind_only (add_msg a b) = offset_add a b.
Proof.
  destruct a as [a|a z], b as [b|b z']; try reflexivity; cbn [add_msg offset_add].
  - rewrite kind_bind, ok_or_kind. cbn [message_kind]. reflexivity.
  - destruct (checked 32 (a * 8)) as [v|]; cbn [ok_or obind kind_only message_kind]; [|reflexivity].
    destruct (checked 32 (v + b)); reflexivity.
Qed.
Lemma add_u32_kind a n : kind_only (add_u32_msg a n) = offset_add_u32 a n.
Proof. destruct a as [a|a z]; [|reflexivity]. cbn [add_u32_msg offset_add_u32]. destruct (checked 32 (a + n)); reflexivity. Qed.
Definition kind_item (r : mitem * piter) : pitem * piter := (kind_only (fst r), snd r).
Lemma parse_name_kind p it : kind_item (parse_name_msg p it) = parse_name p it.
Proof.
  unfold parse_name_msg, parse_name. destruct (name_scan (skipn (position it) p) (position it)) as [pos [|]]; [|reflexivity].
  unfold str_slice. destruct (_ && _); reflexivity.
Qed.
Lemma parse_index_kind c p it : kind_item (parse_index_msg c p it) = parse_index c p it.
Proof.
  unfold parse_index_msg, parse_index. destruct (index_scan (skipn (position it) p) (position it)) as [pos [|]]; [|reflexivity].
  destruct (negb _); [reflexivity|]. unfold str_slice. destruct (_ && _); [|reflexivity].
  destruct (Nat.eqb _ 0); [reflexivity|]. destruct (parse_usize c _); [reflexivity|]. destruct (forallb is_digit _); reflexivity.
Qed.
Transparent next.
Lemma next_kind_fuel n c p : forall it, kind_item (next_msg_fuel n c p it) = next_fuel n c p it.
Proof.
  induction n as [|n IH]; intros it; [reflexivity|]. cbn [next_msg_fuel next_fuel]. destruct (pst it); try reflexivity;
  (destruct (nth_error p (position it)) as [b|]; [|reflexivity]); rewrite <- ?parse_name_kind, <- ?parse_index_kind.
  - destruct (is_lbracket b); [reflexivity|]. destruct (_ || _); reflexivity.
  - reflexivity.
  - reflexivity.
  - destruct (is_lbracket b); [reflexivity|]. destruct (is_dot b); [apply IH|reflexivity].
  - destruct (_ || _); reflexivity.
Qed.
Lemma next_kind c p it : kind_item (next_msg c p it) = next c p it.
Proof. apply next_kind_fuel. Qed.
Opaque next.
Definition kind_of {A} (r : outcome offset_error A) : outcome error_kind A :=
  match r with Ok a => Ok a | Err m => Err (offset_error_kind m) | Panic p => Panic p | Diverge => Diverge end.
Lemma resolve_kind_fuel n ti : forall t, kind_only (resolve_msg_fuel n ti t) = kind_of (resolve_fuel n ti t).
Proof.
  induction n as [|n IH]; intros t; [reflexivity|]. cbn [resolve_msg_fuel resolve_fuel]. destruct (from_id ti t) as [ty|]; [|reflexivity].
  destruct ty; try reflexivity; apply IH.
Qed.
Lemma resolve_kind ti t : kind_only (resolve_msg ti t) = kind_of (resolve ti t).
Proof. apply resolve_kind_fuel. Qed.
Lemma kind_of_btf {A} (r : outcome error_kind A) : kind_of (btf_err r) = r.
Proof. destruct r; reflexivity. Qed.
Lemma kind_of_bind {A B} (m : outcome offset_error A) (f : A -> outcome offset_error B) : kind_of (obind m f) = obind (kind_of m) (fun a => kind_of (f a)).
Proof. destruct m; reflexivity. Qed.
Lemma array_step_kind c ti d off i : kind_only (array_step_msg c ti d off i) = kind_of (array_step c ti d off i).
Proof.
  unfold array_step_msg, array_step. destruct (element_count d <=? i); [reflexivity|].
  rewrite kind_bind, kind_of_bind, size_kind, kind_of_btf. destruct (size_of c ti (element_tid d)) as [s| | |]; cbn [obind]; try reflexivity.
  destruct (index_size i s); cbn [ok_or obind]; [|reflexivity]. rewrite add_u32_kind, kind_of_btf. reflexivity.
Qed.
Lemma probe_kind f g off ms : (forall o mt, kind_only (f o mt) = kind_of (g o mt)) -> kind_only (probe_msg f off ms) = kind_of (probe_anonymous g off ms).
Proof.
  intros H. induction ms as [|m ms IH]; [reflexivity|]. cbn [probe_msg probe_anonymous]. destruct (is_anonymous m); [|exact IH].
  rewrite kind_bind, kind_of_bind, add_kind, kind_of_btf. destruct (offset_add (m_offset m) off) as [o| | |]; cbn [obind]; try reflexivity.
  specialize (H o (m_tid m)). destruct (f o (m_tid m)), (g o (m_tid m)); cbn in H; try discriminate H; cbn; try congruence; exact IH.
Qed.
Lemma impl_kind c ti p n : forall off t it, kind_only (offset_of_msg_impl n c ti p off t it) = kind_of (offset_of_impl n c ti p off t it).
Proof.
  induction n as [|n IH]; intros off t it; [reflexivity|]. cbn [offset_of_msg_impl offset_of_impl].
  pose proof (next_kind c p it) as E. destruct (next_msg c p it) as [x it']. unfold kind_item in E. cbn [fst snd] in E. rewrite <- E.
  destruct x as [[x|]|m|q|]; cbn [kind_only]; try reflexivity.
  pose proof (resolve_kind ti t) as R. destruct (resolve_msg ti t) as [[r ty]|m|q|], (resolve ti t) as [[r' ty']|m'|q'|]; cbn in R; try discriminate R; try (cbn; congruence).
  injection R as <- <-.
  assert (HI : forall d i, kind_only (obind (array_step_msg c ti d off i) (fun off' => offset_of_msg_impl n c ti p off' (element_tid d) it')) =
    kind_of (obind (array_step c ti d off i) (fun off' => offset_of_impl n c ti p off' (element_tid d) it'))).
  { intros d i. rewrite kind_bind, kind_of_bind, array_step_kind. destruct (array_step c ti d off i); cbn [kind_of obind]; try reflexivity. apply IH. }
  assert (HN : forall ms name, kind_only (obind (probe_msg (fun o mt => offset_of_msg_impl n c ti p o mt it) off ms) (fun found => match found with Some r => Ok r | None =>
      match find (has_name name) ms with Some m => obind (add_msg off (m_offset m)) (fun off' => offset_of_msg_impl n c ti p off' (m_tid m) it') | None => Err (MMemberNotFound name) end end)) =
    kind_of (obind (probe_anonymous (fun o mt => offset_of_impl n c ti p o mt it) off ms) (fun found => match found with Some r => Ok r | None =>
      match find (has_name name) ms with Some m => obind (btf_err (offset_add off (m_offset m))) (fun off' => offset_of_impl n c ti p off' (m_tid m) it') | None => Err OEMemberNotFound end end))).
  { intros ms name. rewrite kind_bind, kind_of_bind, (probe_kind _ (fun o mt => offset_of_impl n c ti p o mt it)) by (intros; apply IH).
    destruct (probe_anonymous _ off ms) as [[r0|]|k|q|]; cbn [kind_of obind]; try reflexivity.
    destruct (find (has_name name) ms) as [m|]; [|reflexivity]. rewrite kind_bind, kind_of_bind, add_kind, kind_of_btf.
    destruct (offset_add off (m_offset m)); cbn [obind]; try reflexivity. apply IH. }
  destruct ty; try reflexivity; destruct x as [i|name]; try reflexivity. all: try apply HI. all: apply HN.
Qed.
Lemma offset_of_kind n c ti t p : kind_only (offset_of_msg n c ti t p) = offset_of_uncached n c ti t p.
Proof. unfold offset_of_msg, offset_of_uncached. rewrite impl_kind. reflexivity. Qed.

(** ** pointee_tid and size_of *)
Lemma alias_of ti t ty u : from_id ti t = Some ty -> qualified ty u -> alias ti t u.
Proof. intros H Q. exists ty. auto. Qed.
Lemma pointee_says_fuel n ti : forall t m, pointee_msg_fuel n ti t = Err m -> pointee_reason ti t m.
Proof.
  induction n as [|n IH]; intros t m H; [discriminate|]. cbn [pointee_msg_fuel] in H. destruct (from_id ti t) as [ty|] eqn:E.
  2:{ injection H as <-. exists t. split; [apply chain_here|exact E]. }
  assert (ST : forall u, qualified ty u -> pointee_msg_fuel n ti u = Err m -> pointee_reason ti t m).
  { intros u Q G. apply IH in G. destruct G as (r & C & G). exists r. split; [eapply chain_step; [eapply alias_of; eassumption|exact C]|exact G]. }
  destruct ty; try (eapply ST; [reflexivity|exact H]); try discriminate H; injection H as <-; exists t;
  (split; [apply chain_here|]; eexists; split; [exact E|]; split; [intros u []|exact I]).
Qed.
Lemma pointee_reason_det ti t m m' : pointee_reason ti t m -> pointee_reason ti t m' -> m = m'.
Proof.
  assert (End : forall r m, match m with MInvalidTypeId => from_id ti r = None
      | MNotAPointer => exists ty, from_id ti r = Some ty /\ (forall u, ~ qualified ty u) /\ match ty with TPtr _ _ => False | _ => True end | _ => False end -> forall u, ~ alias ti r u).
  { intros r m0 H u (ty & E & Q). destruct m0; try contradiction; [congruence|]. destruct H as (ty' & E' & G & _). assert (ty' = ty) by congruence. subst. exact (G u Q). }
  intros (r & C & H) (r' & C' & H').
  assert (r = r').
  { revert r' C' H'. induction C as [t|t u r S C IH]; intros r' C' H'.
    - inversion C' as [|? v ? S']; subst; [reflexivity|]. destruct (End _ _ H _ S').
    - inversion C' as [|? v ? S' C'']; subst; [destruct (End _ _ H' _ S)|]. rewrite (alias_det _ _ _ _ S' S) in C''. exact (IH H _ C'' H'). }
  subst r'. destruct m; try contradiction; destruct m'; try contradiction; try reflexivity; exfalso; [destruct H' as (ty & H' & _)|destruct H as (ty & H & _)]; congruence.
Qed.

Lemma pointee_says ti t m : pointee_msg ti t = Err m <-> pointee_reason ti t m.
Proof.
  split; [apply pointee_says_fuel|]. intros H.
  pose proof (pointee_kind ti t) as K. pose proof (pointee_spec ti t) as (P1 & P2 & P3).
  assert (End : forall u, ~ points_to ti t u /\ ~ endless (alias ti) t).
  { intros u. destruct H as (r & C & H). assert (NA : forall u, ~ alias ti r u).
    { intros v (ty & E & Q). destruct m; try contradiction; [congruence|]. destruct H as (ty' & E' & G & _). assert (ty' = ty) by congruence. subst. exact (G v Q). }
    split.
    - intros (q & h & d & C' & Q & _). revert q C' Q. induction C as [t|t v r S C IH]; intros q C' Q.
      + inversion C' as [|? v ? S']; subst; [|destruct (NA _ S')]. destruct m; try contradiction; [congruence|]. destruct H as (ty' & E' & _ & G). rewrite Q in E'. injection E' as <-. exact G.
      + inversion C' as [|? v' ? S' C'']; subst; [destruct S as (ty & E & G); rewrite Q in E; injection E as <-; exact G|].
        rewrite (alias_det _ _ _ _ S' S) in C''. eapply IH; try eassumption; [apply pointee_kind|apply pointee_spec|apply pointee_spec|apply pointee_spec].
    - clear K P1 P2 P3. induction C as [t|t v r S C IH]; intros En.
      + apply endless_head in En. destruct En as (v & S). exact (NA _ S).
      + apply IH; auto. eapply endless_step; [apply alias_det|exact S|exact En]. }
  destruct (pointee_msg ti t) as [u|m'|q|] eqn:E; cbn [kind_only] in K.
  - destruct (End u) as [N _]. destruct N. apply P1. symmetry. exact K.
  - f_equal. eapply pointee_reason_det; [eapply pointee_says_fuel; exact E|exact H].
  - rewrite <- K in P3. destruct P3.
  - destruct (End 0) as [_ N]. destruct N. apply P2. symmetry. exact K.
Qed.
Definition size_end (ti : type_information) (r : N) (m : message) : Prop :=
  match m with
  | MInvalidTypeId => from_id ti r = None
  | MNoListHead => (exists h d, from_id ti r = Some (TPtr h d)) /\ id_of ti list_head_str = None
  | MListHeadInvalid => (exists h d, from_id ti r = Some (TPtr h d)) /\ exists lh, id_of ti list_head_str = Some lh /\ from_id ti lh = None
  | MListHeadNotStruct => (exists h d, from_id ti r = Some (TPtr h d)) /\
      exists lh ty, id_of ti list_head_str = Some lh /\ from_id ti lh = Some ty /\ match ty with TStruct _ _ => False | _ => True end
  | MNoSize ty => from_id ti r = Some ty /\ unsized ty
  | _ => False
  end.
Lemma size_says_fuel n c ti : forall t m, size_msg_fuel n c ti t = Err m -> size_reason ti t m.
Proof.
  induction n as [|n IH]; intros t m H; [discriminate|]. cbn [size_msg_fuel] in H. destruct (from_id ti t) as [ty|] eqn:E.
  2:{ injection H as <-. exists t. split; [apply chain_here|exact E]. }
  assert (ST : forall u, size_link ti t u -> size_msg_fuel n c ti u = Err m -> size_reason ti t m).
  { intros u Q G. apply IH in G. destruct G as (r & C & G). exists r. split; [eapply chain_step; [exact Q|exact C]|exact G]. }
  destruct ty; try discriminate H; try (eapply ST; [left; eapply size_alias_of; [exact E|reflexivity]|exact H]);
  try (injection H as <-; exists t; split; [apply chain_here|split; [exact E|exact I]]).
  - unfold pointer_size_msg in H. exists t. split; [apply chain_here|]. destruct (id_of ti list_head_str) as [lh|] eqn:L.
    2:{ injection H as <-. split; [eauto|reflexivity]. }
    destruct (from_id ti lh) as [ty|] eqn:F.
    2:{ injection H as <-. split; [eauto|]. exists lh. auto. }
    destruct ty; try discriminate H; injection H as <-; (split; [eauto|]; eexists lh, _; split; [reflexivity|]; split; [exact F|exact I]).
  - destruct (size_msg_fuel n c ti (element_tid d)) as [s|m'|q|] eqn:G; cbn [obind] in H; try discriminate H.
    + apply mul_usize_not_err in H. destruct H.
    + injection H as ->. eapply ST; [right; eexists; eapply array_of_of; exact E|exact G].
Qed.
Lemma size_end_here ti r m : size_end ti r m -> forall u, ~ size_link ti r u.
Proof.
  intros H u L. apply size_link_cases in L. destruct L as (ty & E & Q). destruct m; cbn [size_end] in H; try contradiction; try congruence;
  try (destruct H as [(h & d & H) _]; rewrite H in E; injection E as <-; exact Q).
  destruct H as [H U]. rewrite H in E. injection E as <-. destruct t; contradiction.
Qed.
Lemma chain_end (R : N -> N -> Prop) : (forall a b b', R a b -> R a b' -> b = b') -> forall t r r', chain R t r -> chain R t r' ->
  (forall u, ~ R r u) -> (forall u, ~ R r' u) -> r = r'.
Proof.
  intros Det t r r' C. revert r'. induction C as [t|t u r S C IH]; intros r' C' N N'.
  - inversion C' as [|? v ? S']; subst; [reflexivity|]. destruct (N _ S').
  - inversion C' as [|? v ? S' C'']; subst; [destruct (N' _ S)|]. rewrite (Det _ _ _ S' S) in C''. auto.
Qed.
Lemma size_reason_det ti t m m' : size_reason ti t m -> size_reason ti t m' -> m = m'.
Proof.
  intros (r & C & H) (r' & C' & H'). change (size_end ti r m) in H. change (size_end ti r' m') in H'.
  rewrite <- (chain_end _ (size_link_det ti) _ _ _ C C' (size_end_here _ _ _ H) (size_end_here _ _ _ H')) in H'.
  destruct m; cbn [size_end] in H; try contradiction; destruct m'; cbn [size_end] in H'; try contradiction; try reflexivity;
  repeat match goal with
  | X : _ /\ _ |- _ => destruct X
  | X : exists _, _ |- _ => destruct X
  end; try congruence;
  repeat match goal with
  | X : from_id ti ?a = Some ?x, Y : from_id ti ?a = Some ?y |- _ => rewrite X in Y; injection Y as Y; subst
  end; try contradiction; try reflexivity; exfalso; congruence.
Qed.
Lemma size_says c ti t m : size_msg c ti t = Err m <-> size_reason ti t m.
Proof.
  split; [apply size_says_fuel|]. intros H. pose proof (size_kind c ti t) as K.
  pose proof H as (r & C & Hr). change (size_end ti r m) in Hr. pose proof (size_end_here _ _ _ Hr) as NL.
  assert (NE : ~ endless (size_link ti) t).
  { clear K H. induction C as [t|t v r S C IH]; intros En.
    - apply endless_head in En. destruct En as (v & S). exact (NL _ S).
    - apply IH; auto. eapply endless_step; [apply size_link_det|exact S|exact En]. }
  assert (NS : forall s, ~ size ti t s).
  { clear K H NE. induction C as [t|t v r S C IH]; intros s Hs.
    - apply has_size_cases in Hs. destruct Hs as (ty & E & Hs).
      assert (P : (exists h d, from_id ti t = Some (TPtr h d)) -> pointer_sized ti s -> match m with MNoListHead | MListHeadInvalid | MListHeadNotStruct => True | _ => False end -> False).
      { intros _ (lh & h & d & L & F & _) Hm. destruct m; try contradiction; cbn [size_end] in Hr; destruct Hr as [_ Hr]; [congruence| |].
        - destruct Hr as (lh' & L' & F'). congruence.
        - destruct Hr as (lh' & ty' & L' & F' & G). assert (lh' = lh) by congruence. subst. rewrite F in F'. injection F' as <-. exact G. }
      destruct m; cbn [size_end] in Hr; try contradiction; try congruence;
      try (apply P; [apply Hr| |exact I]; destruct Hr as [(h & d & Hr) _]; rewrite Hr in E; injection E as <-; exact Hs).
      destruct Hr as [F U]. rewrite F in E. injection E as <-. destruct t0; contradiction.
    - specialize (IH Hr NL). inversion Hs as [? ty ? E Q|? h d ? E Q|? e n s0 A Hs0 _|? u ? A Hs0]; subst.
      + apply size_link_cases in S. destruct S as (ty' & E' & Q'). rewrite E in E'. injection E' as <-. destruct ty; cbn in Q; contradiction.
      + apply size_link_cases in S. destruct S as (ty' & E' & Q'). rewrite E in E'. injection E' as <-. exact Q'.
      + assert (e = v) by (eapply size_link_det; [right; eexists; exact A|exact S]). subst. exact (IH _ Hs0).
      + assert (u = v) by (eapply size_link_det; [left; exact A|exact S]). subst. exact (IH _ Hs0). }
  destruct (size_of_spec c ti t) as (P1 & P2 & P3 & P4).
  destruct (size_msg c ti t) as [s|m'|q|] eqn:E; cbn [kind_only] in K; symmetry in K.
  - destruct (P3 s K) as (s0 & Hs0 & _). destruct (NS _ Hs0).
  - f_equal. eapply size_reason_det; [eapply size_says_fuel; exact E|exact H].
  - apply size_of_spec in K. destruct K as (_ & _ & s0 & Hs0 & _). destruct (NS _ Hs0).
  - apply size_diverge in K. contradiction.
Qed.
