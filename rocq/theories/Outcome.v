(** * Outcome: every outcome of offset_of has its reason where the path gets to (C52, C30). *)
From Coq Require Import List NArith ZArith Bool Lia ZifyBool ZifyNat ZifyN.
From Verif Require Import TypeInfo Spec BaseFacts PathSpec Path PathGrammar PathPrint PathCanon QuerySpec Chains Sizes Follow Offsets Offsets2 OffsetOf OffsetOf2 OutcomeSpec.
Import ListNotations.
Open Scope N_scope.

Lemma gets_trans ti sz o t cs o1 t1 cs1 o2 t2 cs2 : gets ti sz o t cs o1 t1 cs1 -> gets ti sz o1 t1 cs1 o2 t2 cs2 -> gets ti sz o t cs o2 t2 cs2.
Proof. induction 1; intros H'; [exact H'|eapply gets_index; eauto|eapply gets_member; eauto|eapply gets_anonymous; eauto]. Qed.
Lemma gets_impl ti (sz sz' : N -> N -> Prop) o t cs o1 t1 cs1 : (forall e s, sz e s -> sz' e s) -> gets ti sz o t cs o1 t1 cs1 -> gets ti sz' o t cs o1 t1 cs1.
Proof. intros H. induction 1; [apply gets_here|eapply gets_index; eauto|eapply gets_member; eauto|eapply gets_anonymous; eauto]. Qed.
Lemma blocked_impl ti (sz sz' : N -> N -> Prop) (bad bad' : Prop) : (forall e s, sz e s -> sz' e s) -> (bad -> bad') ->
  forall o u cs k, blocked ti sz bad o u cs k -> blocked ti sz' bad' o u cs k.
Proof.
  intros H Hb. fix IH 5. intros o u cs k B. destruct B as [| | | | | | | | | |o u n rest ty ms Hty Hms Hno Hall].
  - apply malformed. auto.
  - eapply unknown; eassumption.
  - apply beyond. assumption.
  - eapply no_element; eassumption.
  - eapply no_element_size; eassumption.
  - eapply element_too_far; eauto.
  - eapply element_of_bitfield; eassumption.
  - eapply member_of_bitfield; eassumption.
  - eapply no_members; eassumption.
  - eapply unnamed_bitfield; eassumption.
  - eapply no_member; [eassumption|eassumption|eassumption|]. intros m Hin Hn. destruct (Hall m Hin Hn) as (b & o' & v & rest' & k' & E & G & B).
    exists b, o', v, rest', k'. split; [exact E|]. split; [eapply gets_impl; eassumption|]. exact (IH _ _ _ _ B).
Qed.
Section Follow.
  Context (c : build) (ti : type_information).
  Notation gets := (gets ti (computed c ti)).
  Notation blocked := (blocked ti (computed c ti)).
  Definition goes_wrong (bad : Prop) o t cs k := exists o' u rest, gets o t cs o' u rest /\ blocked bad o' u rest k.

  (** Adding offsets, once more: what the errors mean *)
  Lemma add_member a o : match offset_add (ByteOffset a) o with
    | Ok o' => o' = shift a o /\ fits32 o' | Err k => k = InvalidOffset /\ ~ fits32 (shift a o) | _ => False end.
  Proof.
    pose proof (add_not_panic (ByteOffset a) o) as NP. destruct (offset_add (ByteOffset a) o) as [o'|k|q|] eqn:E; try contradiction.
    - apply add_byte_ok. exact E.
    - assert (k = InvalidOffset).
      { destruct o as [b|b z]; cbn in E; unfold checked in E; repeat match type of E with context [if ?x then _ else _] => destruct x; cbn in E end; congruence. }
      split; [assumption|]. intros F. pose proof (proj2 (add_byte_ok a o (shift a o)) (conj eq_refl F)). congruence.
  Qed.
  Lemma add_anonymous o m : match offset_add (m_offset m) o with
    | Ok o' => exists b, m_offset m = ByteOffset b /\ o' = shift b o
    | Err k => (k = UnexpectedBitfield /\ exists b z, m_offset m = BitOffsetAndSize b z) \/
               (k = InvalidOffset /\ exists b, m_offset m = ByteOffset b /\ ~ fits32 (shift b o))
    | _ => False end.
  Proof.
    destruct (m_offset m) as [b|b z] eqn:E; [|rewrite add_bits; left; eauto].
    pose proof (add_member b o) as A. destruct (offset_add (ByteOffset b) o) as [o'|k|q|]; try contradiction.
    - exists b. split; [reflexivity|apply A].
    - right. destruct A as [-> A]. eauto.
  Qed.

  Lemma follow_outcome e n : e = None \/ e = Some InvalidTypePath -> forall off t cs, match follow n c ti e off t cs with
    | Ok (u, o) => e = None /\ gets off t cs o u []
    | Err k => goes_wrong (e <> None) off t cs (offset_error_kind k)
    | Panic q => exists o u i rest h d, gets off t cs o u (Index i :: rest) /\ is ti u (TArray h d) /\ i < element_count d /\ size_of c ti (element_tid d) = Panic q
    | Diverge => True end.
  Proof.
    intros He. induction n as [|n IH]; intros off t cs; [exact I|]. destruct cs as [|x cs].
    { cbn [follow]. destruct He as [->| ->]; [split; [reflexivity|apply gets_here]|].
      exists off, t, []. split; [apply gets_here|]. apply malformed. discriminate. }
    rewrite follow_S. pose proof (resolve_sound ti t) as RS. destruct (resolve ti t) as [[r ty]|k|q|] eqn:ER; cbn [obind snd]; [| |destruct RS|exact I].
    2:{ destruct RS as [-> (r & Hch & Hr)]. exists off, t, (x :: cs). split; [apply gets_here|]. cbn. eapply unknown; eassumption. }
    assert (Hty : is ti t ty) by (exists r; exact RS). clear RS ER r.
    assert (Stop : forall k, blocked (e <> None) off t (x :: cs) k -> goes_wrong (e <> None) off t (x :: cs) k) by (intros k Hk; exists off, t, (x :: cs); split; [apply gets_here|exact Hk]).
    destruct x as [i|name].
    - assert (NoArr : match ty with TArray _ _ => False | _ => True end -> goes_wrong (e <> None) off t (Index i :: cs) InvalidTypePath).
      { intros Hna. apply Stop. eapply no_element; [exact Hty|]. destruct ty; try exact I. destruct Hna. }
      unfold round. destruct ty; cbn [offset_error_kind]; try (apply NoArr; exact I). clear NoArr.
      unfold array_step. destruct (N.leb_spec (element_count d) i) as [L|L]; [cbn; apply Stop; eapply no_element; eassumption|].
      destruct (size_of c ti (element_tid d)) as [s|k|q|] eqn:Es; cbn [btf_err obind].
      + destruct (index_size i s) as [v|] eqn:Ei.
        * apply index_size_iff in Ei. destruct Ei as [-> Hv]. cbn [ok_or obind].
          destruct off as [a|b z]; [|cbn; apply Stop; eapply element_of_bitfield; eassumption].
          rewrite add_u32_byte. destruct (N.ltb_spec (a + i * s) (2 ^ 32)) as [F|F]; cbn [btf_err obind].
          -- specialize (IH (ByteOffset (a + i * s)) (element_tid d) cs). destruct (follow n c ti e (ByteOffset (a + i * s)) (element_tid d) cs) as [[u o]|k|q|]; [| | |exact I].
             ++ destruct IH as [E G]. split; [exact E|]. eapply gets_index; eassumption.
             ++ destruct IH as (o' & u & rest & G & Bk). exists o', u, rest. split; [eapply gets_index; eassumption|exact Bk].
             ++ destruct IH as (o' & u & i' & rest & h' & d' & G & R). exists o', u, i', rest, h', d'. split; [eapply gets_index; eassumption|exact R].
          -- cbn. exists (ByteOffset (a + i * s)), (element_tid d), cs. split; [eapply gets_index; try eassumption; apply gets_here|]. apply beyond. cbn. lia.
        * cbn. apply Stop. eapply element_too_far; try eassumption. destruct (N.lt_ge_cases (i * s) (2 ^ 32)) as [F|F]; [|exact F].
          pose proof (proj2 (index_size_iff i s (i * s)) (conj eq_refl F)). congruence.
      + cbn. apply Stop. eapply no_element_size; try eassumption. apply size_of_spec in Es. exact Es.
      + exists off, t, i, cs, h, d. split; [apply gets_here|]. auto.
      + exact I.
    - assert (NM : (forall ms, ~ members_of ty ms) -> goes_wrong (e <> None) off t (Name name :: cs) InvalidTypePath).
      { intros Hna. apply Stop. eapply no_members; [exact Hty|]. intros (ms & Hms). exact (Hna ms Hms). }
      assert (D : (exists ms, members_of ty ms) \/ (forall ms, ~ members_of ty ms)) by (destruct ty; try (right; intros ms []; fail); left; eexists; reflexivity).
      destruct D as [(ms & Hms)|D].
      2:{ assert (R : forall p g, exists k, round c ti e p g off ty (Name name) = Err k /\ offset_error_kind k = InvalidTypePath).
          { intros p g. unfold round. destruct ty; try (eexists; split; reflexivity); exfalso; eapply D; reflexivity. }
          match goal with |- context [round c ti e ?p ?g off ty (Name name)] => destruct (R p g) as (k & -> & Ek) end. rewrite Ek. auto. }
      clear NM. rewrite (round_name _ _ _ _ _ _ _ ms _ Hms).
      pose proof (probe_cases (fun o mt => follow n c ti e o mt (Name name :: cs)) off ms) as P.
      destruct (probe_anonymous (fun o mt => follow n c ti e o mt (Name name :: cs)) off ms) as [[[u o]|]|k|q|]; cbn [obind]; [| | | |exact I].
      + destruct P as (m & o1 & Hin & Hn & Ho & F). pose proof (add_anonymous off m) as A. rewrite Ho in A. destruct A as (b & Em & ->).
        specialize (IH (shift b off) (m_tid m) (Name name :: cs)). rewrite F in IH. destruct IH as [E G]. split; [exact E|]. eapply gets_anonymous; eassumption.
      + (* all anonymous members fail *)
        assert (All : forall m, In m ms -> m_name m = None -> exists b o' v rest' k, m_offset m = ByteOffset b /\ gets (shift b off) (m_tid m) (Name name :: cs) o' v rest' /\ blocked (e <> None) o' v rest' k).
        { intros m Hin Hn. destruct (P m Hin Hn) as (o1 & k & Ho & F). pose proof (add_anonymous off m) as A. rewrite Ho in A. destruct A as (b & Em & ->).
          specialize (IH (shift b off) (m_tid m) (Name name :: cs)). rewrite F in IH. destruct IH as (o' & v & rest' & G & Bk). exists b, o', v, rest'. eauto. }
        destruct (find (has_name name) ms) as [m|] eqn:Ef.
        * apply find_named in Ef. destruct off as [a|b z].
          2:{ rewrite add_bits. cbn. apply Stop. eapply member_of_bitfield; eassumption. }
          pose proof (add_member a (m_offset m)) as A. destruct (offset_add (ByteOffset a) (m_offset m)) as [o'|k|q|]; try destruct A; cbn [btf_err obind].
          -- subst o'. specialize (IH (shift a (m_offset m)) (m_tid m) cs). destruct (follow n c ti e (shift a (m_offset m)) (m_tid m) cs) as [[u o]|k|q|]; [| | |exact I].
             ++ destruct IH as [E G]. split; [exact E|]. eapply gets_member; eassumption.
             ++ destruct IH as (o' & u & rest & G & Bk). exists o', u, rest. split; [eapply gets_member; eassumption|exact Bk].
             ++ destruct IH as (o' & u & i' & rest & h' & d' & G & R). exists o', u, i', rest, h', d'. split; [eapply gets_member; eassumption|exact R].
          -- subst k. cbn. exists (shift a (m_offset m)), (m_tid m), cs. split; [eapply gets_member; try eassumption; apply gets_here|]. apply beyond. assumption.
        * cbn. apply Stop. eapply no_member; try eassumption. intros m Hin Hn. apply has_name_iff in Hn. pose proof (find_none _ _ Ef m Hin). congruence.
      + destruct P as (m & k' & Hin & Hn & Ho & ->). cbn [offset_error_kind]. pose proof (add_anonymous off m) as A. rewrite Ho in A.
        destruct A as [(-> & b & z & Em)|(-> & b & Em & F)].
        * apply Stop. eapply unnamed_bitfield; eassumption.
        * exists (shift b off), (m_tid m), (Name name :: cs). split; [eapply gets_anonymous; try eassumption; apply gets_here|]. apply beyond. exact F.
      + destruct P as (m & o1 & Hin & Hn & Ho & F). pose proof (add_anonymous off m) as A. rewrite Ho in A. destruct A as (b & Em & ->).
        specialize (IH (shift b off) (m_tid m) (Name name :: cs)). rewrite F in IH. destruct IH as (o' & u & i' & rest & h' & d' & G & R). exists o', u, i', rest, h', d'.
        split; [eapply gets_anonymous; eassumption|exact R].
  Qed.

  (** ** Endless chains *)
  Definition goes_on (o : offset) (t : N) (cs : list component) : Prop := exists o' u rest, gets o t cs o' u rest /\ endless (link ti) u.
  Lemma follow_walk_here e : let K := length (known ti) in forall cs j off t,
    follow (S (length cs * (K + 2) + j)) c ti e off t cs = Diverge ->
    goes_on off t cs \/ exists m, (j <= m)%nat /\ walk (link ti) m t.
  Proof.
    intros K. induction cs as [|comp cs IHcs]; [intros j off t H; cbn in H; destruct e; discriminate|].
    assert (Next : forall n off t, (length cs * (K + 2) + S K <= n)%nat -> follow (S n) c ti e off t cs = Diverge -> goes_on off t cs).
    { intros n off t Hn H.
      assert (H' : follow (S (length cs * (K + 2) + S K)) c ti e off t cs = Diverge).
      { destruct (follow (S (length cs * (K + 2) + S K)) c ti e off t cs) eqn:E; try reflexivity;
        (rewrite (follow_le c ti e (S (length cs * (K + 2) + S K)) (S n)) in H by (try lia; rewrite E; discriminate); rewrite E in H; discriminate). }
      apply IHcs in H'. destruct H' as [H'|(m & Hm & W)]; [exact H'|]. exists off, t, cs. split; [apply gets_here|]. eapply endless_of_walk; [apply link_known| |exact W]. lia. }
    induction j as [|j IHj]; intros off t H; [right; exists 0%nat; split; [lia|apply walk_O]|].
    cbn [length] in *. replace (S (length cs) * (K + 2) + S j)%nat with (S (S (length cs) * (K + 2) + j)) in H by lia.
    rewrite follow_S in H. pose proof (resolve_sound ti t) as RS. destruct (resolve ti t) as [[r ty]|k|q|] eqn:ER; cbn [obind snd] in H; try discriminate.
    2:{ left. exists off, t, (comp :: cs). split; [apply gets_here|]. eapply endless_impl; [|exact RS]. intros a b Hab. left. exact Hab. }
    destruct RS as [Hch Hop]. assert (Hty : is ti t ty) by (exists r; split; assumption).
    destruct comp as [i|name].
    - unfold round in H. destruct ty; try discriminate H. apply obind_diverge in H. destruct H as [H|(off' & Ha & H)].
      + apply array_step_diverge in H. apply size_diverge in H. left. exists off, t, (Index i :: cs). split; [apply gets_here|].
        assert (E1 : endless (link ti) r).
        { apply endless_cons with (u := element_tid d); [right; left; right; exists (element_count d); apply (array_of_of ti r h d); apply Hop|].
          eapply endless_impl; [|exact H]. intros a b Hab. right. left. exact Hab. }
        clear -Hch E1. induction Hch; [exact E1|]. eapply endless_cons; [left; eassumption|]. auto.
      + left. apply array_step_ok in Ha. destruct Ha as (s & a & Hi & Hs & -> & -> & _). apply Next in H; [|lia]. destruct H as (o' & u & rest & G & En).
        exists o', u, rest. split; [eapply gets_index; eassumption|exact En].
    - assert (G : exists ms, member_lists ty = Some ms /\
         obind (probe_anonymous (fun o mt => follow (S (S (length cs) * (K + 2) + j)) c ti e o mt (Name name :: cs)) off ms) (fun found => match found with Some r => Ok r | None =>
         match find (has_name name) ms with Some m => obind (btf_err (offset_add off (m_offset m))) (fun off' => follow (S (S (length cs) * (K + 2) + j)) c ti e off' (m_tid m) cs) | None => Err OEMemberNotFound end end) = Diverge).
      { unfold round in H. destruct ty; try discriminate H; eexists; (split; [reflexivity|exact H]). }
      destruct G as (ms & Hms & G). apply member_lists_iff in Hms. apply obind_diverge in G. destruct G as [G|(found & _ & G)].
      + pose proof (probe_cases (fun o mt => follow (S (S (length cs) * (K + 2) + j)) c ti e o mt (Name name :: cs)) off ms) as P.
        rewrite G in P. destruct P as (m & o & Hin & Hn & Ho & Hf). pose proof (add_anonymous off m) as A. rewrite Ho in A. destruct A as (b & Em & ->).
        apply IHj in Hf. destruct Hf as [(o' & u & rest & G' & En)|(k & Hk & W)].
        { left. exists o', u, rest. split; [eapply gets_anonymous; eassumption|exact En]. }
        right.
        destruct (walk_chain (transparent ti) (link ti) t r (S k) ltac:(intros a0 b0 Hab; left; exact Hab) Hch) as (k' & Hk' & W').
        { eapply walk_S; [|exact W]. right. right. exists ty, ms, m. repeat split; auto. apply Hop. }
        exists k'. split; [lia|exact W'].
      + left. destruct found; [discriminate|]. destruct (find (has_name name) ms) as [m|] eqn:Ef; [|discriminate]. apply find_named in Ef.
        apply obind_diverge in G. destruct G as [G|(off' & Ha & G)].
        * pose proof (add_not_panic off (m_offset m)) as NP. destruct (offset_add off (m_offset m)); cbn in G; try discriminate; contradiction.
        * apply Next in G; [|lia]. destruct G as (o' & u & rest & G & En).
          destruct off as [a|b z]; [|rewrite add_bits in Ha; discriminate].
          pose proof (add_member a (m_offset m)) as A. destruct (offset_add (ByteOffset a) (m_offset m)) as [o1|k|q|]; try discriminate. injection Ha as ->. destruct A as [-> _].
          exists o', u, rest. split; [eapply gets_member; eassumption|exact En].
  Qed.
  Lemma follow_goes_on e off t cs : goes_on off t cs \/ exists n, follow n c ti e off t cs <> Diverge.
  Proof.
    set (n := S (length cs * (length (known ti) + 2) + S (length (known ti)))).
    destruct (follow n c ti e off t cs) eqn:E; try (right; exists n; rewrite E; discriminate).
    left. apply follow_walk_here in E. destruct E as [H|(m & Hm & W)]; [exact H|]. exists off, t, cs. split; [apply gets_here|]. eapply endless_of_walk; [apply link_known| |exact W]. lia.
  Qed.
End Follow.

(** ** offset_of *)
Lemma returns_of_follow c ti t p cs e n : valid_utf8 p -> ascripts c (PStart, p) cs e -> follow n c ti e (ByteOffset 0) t cs <> Diverge ->
  offset_of_returns c ti t p (user_result (follow n c ti e (ByteOffset 0) t cs)).
Proof. intros V A D. split; [intros H; apply user_diverge in H; contradiction|]. exists n. apply uncached_user; assumption. Qed.
Lemma text_script c p cs bad : valid_utf8 p -> text_is c p cs bad -> exists e, ascripts c (PStart, p) cs e /\ (e = None \/ e = Some InvalidTypePath) /\ (e <> None <-> bad).
Proof.
  intros V [[R N]|[M B]].
  - exists None. split; [apply script_reads; assumption|]. split; [auto|]. split; [congruence|]. intros B. destruct (N B).
  - exists (Some InvalidTypePath). split; [apply malformed_script; assumption|]. split; [auto|]. split; [auto|discriminate].
Qed.
Theorem offset_of_outcome c ti t p cs bad : valid_utf8 p -> text_is c p cs bad -> overflow_checks c = true \/ sizes_fit c ti ->
  ((exists r, offset_of_returns c ti t p r) \/ exists o u rest, gets ti (size ti) (ByteOffset 0) t cs o u rest /\ endless (link ti) u) /\
  forall r, offset_of_returns c ti t p r -> match r with
    | Ok (u, o) => ~ bad /\ gets ti (size ti) (ByteOffset 0) t cs o u []
    | Err k => exists o u rest, gets ti (size ti) (ByteOffset 0) t cs o u rest /\ blocked ti (size ti) bad o u rest k
    | Panic q => exists o u i rest h d s, gets ti (size ti) (ByteOffset 0) t cs o u (Index i :: rest) /\ is ti u (TArray h d) /\ i < element_count d /\
        size ti (element_tid d) s /\ ~ has_size ti (fun n => n < 2 ^ usize_bits c) (element_tid d) s
    | Diverge => False end.
Proof.
  intros V T Hc. destruct (text_script c p cs bad V T) as (e & A & He & Hb).
  assert (Sz : forall x s, computed c ti x s -> size ti x s) by (intros x s Hx; eapply computed_size; eassumption). split.
  - destruct (follow_goes_on c ti e (ByteOffset 0) t cs) as [(o & u & rest & G & En)|(n & D)].
    + right. exists o, u, rest. split; [eapply gets_impl; eassumption|exact En].
    + left. eexists. eapply returns_of_follow; eassumption.
  - intros r [D (n & E)]. rewrite (uncached_user _ _ _ _ _ _ _ V A) in E. pose proof (follow_outcome c ti e n He (ByteOffset 0) t cs) as F.
    destruct (follow n c ti e (ByteOffset 0) t cs) as [[u o]|k|q|]; cbn in E; subst r.
    + destruct F as [-> G]. split; [intros B; apply Hb in B; congruence|]. eapply gets_impl; eassumption.
    + destruct F as (o & u & rest & G & B). exists o, u, rest. split; [eapply gets_impl; eassumption|]. eapply blocked_impl; [exact Sz| |exact B]. apply Hb.
    + destruct F as (o & u & i & rest & h & d & G & H1 & H2 & H3). apply size_of_spec in H3. destruct H3 as (_ & _ & s & Hs & Hn).
      exists o, u, i, rest, h, d, s. split; [eapply gets_impl; eassumption|]. auto.
    + congruence.
Qed.

(** ** Completeness along the path *)
Section Fine.
  Context (c : build) (ti : type_information).
  Definition fine_along o t cs := forall o' u rest, gets ti (size ti) o t cs o' u rest -> fine c ti o' u rest.
  Lemma fine_here o t cs : fine_along o t cs -> fine c ti o t cs.
  Proof. intros H. apply H, gets_here. Qed.
  Lemma fine_index a t h d i s cs : fine_along (ByteOffset a) t (Index i :: cs) -> is ti t (TArray h d) -> i < element_count d -> size ti (element_tid d) s ->
    fine_along (ByteOffset (a + i * s)) (element_tid d) cs.
  Proof. intros H H1 H2 H3 o' u rest G. apply H. eapply gets_index; eassumption. Qed.
  Lemma fine_member a t ty ms n m cs : fine_along (ByteOffset a) t (Name n :: cs) -> is ti t ty -> members_of ty ms -> named ms n m ->
    fine_along (shift a (m_offset m)) (m_tid m) cs.
  Proof. intros H H1 H2 H3 o' u rest G. apply H. eapply gets_member; eassumption. Qed.
  Lemma fine_anonymous o t ty ms n m b cs : fine_along o t (Name n :: cs) -> is ti t ty -> members_of ty ms -> In m ms -> m_name m = None -> m_offset m = ByteOffset b ->
    fine_along (shift b o) (m_tid m) (Name n :: cs).
  Proof. intros H H1 H2 H3 H4 H5 o' u rest G. apply H. eapply gets_anonymous; eassumption. Qed.
  Lemma fine_size o t h d i cs s : fine c ti o t (Index i :: cs) -> is ti t (TArray h d) -> i < element_count d ->
    (computed c ti (element_tid d) s <-> size ti (element_tid d) s) /\ forall q, size_of c ti (element_tid d) <> Panic q.
  Proof.
    intros (_ & _ & F) Ht Hi. assert (X : forall s0, size ti (element_tid d) s0 -> size_of c ti (element_tid d) = Ok s0) by (intros s0 H0; apply size_of_spec; eapply F; eassumption).
    split; [split; [|apply X]|].
    - intros H. unfold computed in H. destruct (size_of_spec c ti (element_tid d)) as (_ & _ & P & _). destruct (P s H) as (s0 & H0 & _).
      pose proof (X s0 H0). assert (s0 = s) by congruence. subst s0. exact H0.
    - intros q H. pose proof H as H'. apply size_of_spec in H'. destruct H' as (_ & _ & s0 & H0 & _). rewrite (X s0 H0) in H. discriminate.
  Qed.
  Lemma gets_fine o t cs o' u rest : gets ti (computed c ti) o t cs o' u rest -> fine_along o t cs -> gets ti (size ti) o t cs o' u rest.
  Proof.
    induction 1 as [|a t h d i s cs o' u rest Hty Hi Hs G IH|a t ty ms n m cs o' u rest Hty Hms Hm G IH|o t ty ms n m b cs o' u rest Hty Hms Hin Hn Em G IH]; intros F.
    - apply gets_here.
    - assert (Hs' : size ti (element_tid d) s) by (eapply fine_size; [apply fine_here; exact F|exact Hty|exact Hi|exact Hs]).
      eapply gets_index; try eassumption. apply IH. eapply fine_index; eassumption.
    - eapply gets_member; try eassumption. apply IH. eapply fine_member; eassumption.
    - eapply gets_anonymous; try eassumption. apply IH. eapply fine_anonymous; eassumption.
  Qed.
  Lemma leads_fine t cs u o : leads ti (computed c ti) t cs u o -> forall a, fine_along (ByteOffset a) t cs -> leads ti (size ti) t cs u o.
  Proof.
    induction 1 as [t|t h d i s cs u o Hty Hi Hs Hl IH|t ty ms n m b cs u o Hty Hms Hm Ho Hl IH|t ty ms n m b z Hty Hms Hm Ho|t ty ms n m b cs u o Hty Hms Hin Hn Ho Hl IH]; intros a F.
    - apply leads_here.
    - assert (Hs' : size ti (element_tid d) s) by (eapply fine_size; [apply fine_here; exact F|exact Hty|exact Hi|exact Hs]).
      eapply leads_index; try eassumption. eapply IH. eapply fine_index; eassumption.
    - pose proof (fine_member _ _ _ _ _ _ _ F Hty Hms Hm) as F'. rewrite Ho in F'. eapply leads_member; try eassumption. eapply IH. exact F'.
    - eapply leads_bitfield; eassumption.
    - eapply leads_anonymous; try eassumption. eapply IH. exact (fine_anonymous _ _ _ _ _ _ _ _ F Hty Hms Hin Hn Ho).
  Qed.
  Lemma follow_fine n : forall a t cs u o k, leads ti (size ti) t cs u o -> fine_along (ByteOffset a) t cs -> follow n c ti None (ByteOffset a) t cs <> Err k.
  Proof.
    induction n as [|n IH]; intros a t cs u o k Hl F H; [discriminate|]. pose proof (fine_here _ _ _ F) as FH.
    assert (Hanon : forall ty ms m name cs', is ti t ty -> members_of ty ms -> cs = Name name :: cs' -> In m ms -> m_name m = None ->
       exists b, m_offset m = ByteOffset b /\ offset_add (m_offset m) (ByteOffset a) = Ok (ByteOffset (b + a)) /\ fine_along (ByteOffset (b + a)) (m_tid m) cs).
    { intros ty ms m name cs' Hty Hms -> Hin Hn. destruct FH as (_ & _ & FH). destruct (FH ty ms Hty Hms) as [FB _]. destruct (FB m Hin Hn) as [b Hb].
      exists b. split; [exact Hb|]. rewrite Hb. pose proof (fine_anonymous _ _ _ _ _ _ _ _ F Hty Hms Hin Hn Hb) as F'. cbn [shift] in F'.
      split; [|exact F']. apply add_byte_ok. split; [reflexivity|]. apply (fine_here _ _ _ F'). }
    inversion Hl as [t0|t0 h d i s cs0 u0 o0 Hty Hi Hs Hl'|t0 ty ms name m b cs0 u0 o0 Hty Hms Hm Ho Hl'|t0 ty ms name m b z Hty Hms Hm Ho|t0 ty ms name m b cs0 u0 o0 Hty Hms Hin Hn Ho Hl']; subst.
    - discriminate H.
    - apply is_resolve in Hty as Hr. destruct Hr as [r Hr]. rewrite follow_S, Hr in H. cbn [obind snd round] in H.
      pose proof (fine_index _ _ _ _ _ _ _ F Hty Hi Hs) as F'.
      assert (St : array_step c ti d (ByteOffset a) i = Ok (ByteOffset (a + i * s))).
      { apply array_step_ok. exists s, a. split; [exact Hi|]. split; [eapply fine_size; [exact FH|exact Hty|exact Hi|exact Hs]|]. repeat split. apply (fine_here _ _ _ F'). }
      rewrite St in H. cbn [obind] in H. eapply IH; [exact Hl'|exact F'|exact H].
    - apply is_resolve in Hty as Hr. destruct Hr as [r Hr]. rewrite follow_S, Hr in H. cbn [obind snd] in H.
      apply (round_name_err _ _ _ _ _ _ _ _ _ _ Hms) in H. destruct H as [(m' & k' & Hin' & Hn' & E)|[_ H]].
      + destruct (Hanon _ _ _ _ _ Hty Hms eq_refl Hin' Hn') as (b' & _ & E' & _). congruence.
      + specialize (H m Hm). rewrite Ho in H. pose proof (fine_member _ _ _ _ _ _ _ F Hty Hms Hm) as F'. rewrite Ho in F'. cbn [shift] in F'.
        assert (St : offset_add (ByteOffset a) (ByteOffset b) = Ok (ByteOffset (a + b))) by (apply add_byte_ok; split; [reflexivity|apply (fine_here _ _ _ F')]).
        rewrite St in H. destruct H as [k' H]. eapply IH; [exact Hl'|exact F'|exact H].
    - apply is_resolve in Hty as Hr. destruct Hr as [r Hr]. rewrite follow_S, Hr in H. cbn [obind snd] in H.
      apply (round_name_err _ _ _ _ _ _ _ _ _ _ Hms) in H. destruct H as [(m' & k' & Hin' & Hn' & E)|[_ H]].
      + destruct (Hanon _ _ _ _ _ Hty Hms eq_refl Hin' Hn') as (b' & _ & E' & _). congruence.
      + specialize (H m Hm). rewrite Ho in H. pose proof (fine_member _ _ _ _ _ _ _ F Hty Hms Hm) as F'. rewrite Ho in F'. cbn [shift] in F'.
        assert (St : offset_add (ByteOffset a) (BitOffsetAndSize b z) = Ok (BitOffsetAndSize (8 * a + b) z)) by (apply add_byte_ok; split; [reflexivity|apply (fine_here _ _ _ F')]).
        rewrite St in H. destruct H as [k' H]. destruct n; discriminate H.
    - apply is_resolve in Hty as Hr. destruct Hr as [r Hr]. rewrite follow_S, Hr in H. cbn [obind snd] in H.
      apply (round_name_err _ _ _ _ _ _ _ _ _ _ Hms) in H. destruct H as [(m' & k' & Hin' & Hn' & E)|[H _]].
      + destruct (Hanon _ _ _ _ _ Hty Hms eq_refl Hin' Hn') as (b' & _ & E' & _). congruence.
      + destruct (H m Hin Hn) as (o1 & k' & E & Fo). destruct (Hanon _ _ _ _ _ Hty Hms eq_refl Hin Hn) as (b' & Eb & E' & F').
        rewrite E in E'. injection E' as ->. rewrite Ho in Eb. injection Eb as <-. eapply IH; [exact Hl'|exact F'|exact Fo].
  Qed.
  Lemma leads_fine_det t cs u o : leads ti (size ti) t cs u o -> forall a u' o', fine_along (ByteOffset a) t cs -> leads ti (size ti) t cs u' o' -> u' = u /\ o' = o.
  Proof.
    induction 1 as [t|t h d i s cs u o Hty Hi Hs Hl IH|t ty ms n m b cs u o Hty Hms Hm Ho Hl IH|t ty ms n m b z Hty Hms Hm Ho|t ty ms n m b cs u o Hty Hms Hin Hn Ho Hl IH];
      intros a u' o' F H'; pose proof (fine_here _ _ _ F) as (_ & _ & FH).
    - inversion H'; subst. auto.
    - inversion H' as [|? h' d' ? s' ? ? o1 Hty' Hi' Hs' Hl'| | |]; subst. pose proof (is_det _ _ _ _ Hty Hty') as E. injection E as <- <-.
      rewrite (size_det ti _ _ _ _ Hs Hs') in *. destruct (IH _ _ _ (fine_index _ _ _ _ _ _ _ F Hty Hi Hs') Hl') as [-> ->]. auto.
    - apply named_In in Hm as Hm0. destruct Hm0 as [Hin0 Hn0]. destruct (FH ty ms Hty Hms) as [_ FU].
      pose proof (fine_member _ _ _ _ _ _ _ F Hty Hms Hm) as F'. rewrite Ho in F'. cbn [shift] in F'.
      inversion H' as [| |? ty' ms' ? m' b' ? ? o1 Hty' Hms' Hm' Ho' Hl'|? ty' ms' ? m' b' z' Hty' Hms' Hm' Ho'|? ty' ms' ? m' b' ? ? o1 Hty' Hms' Hin' Hn' Ho' Hl']; subst;
        pose proof (is_det _ _ _ _ Hty Hty') as E; subst ty'; pose proof (members_of_det _ _ _ Hms Hms') as E; subst ms'.
      + apply named_In in Hm' as [Hin1 Hn1]. assert (m' = m) by (apply FU; try assumption; left; assumption). subst m'.
        rewrite Ho in Ho'. injection Ho' as <-. destruct (IH _ _ _ F' Hl') as [-> ->]. auto.
      + apply named_In in Hm' as [Hin1 Hn1]. assert (m' = m) by (apply FU; try assumption; left; assumption). subst m'. congruence.
      + exfalso. assert (m' = m).
        { apply FU; try assumption; [right; split; [assumption|eapply leads_offers; [exact Hl'|reflexivity]]|left; assumption]. }
        subst m'. congruence.
    - apply named_In in Hm as Hm0. destruct Hm0 as [Hin0 Hn0]. destruct (FH ty ms Hty Hms) as [_ FU].
      inversion H' as [| |? ty' ms' ? m' b' ? ? o1 Hty' Hms' Hm' Ho' Hl'|? ty' ms' ? m' b' z' Hty' Hms' Hm' Ho'|? ty' ms' ? m' b' ? ? o1 Hty' Hms' Hin' Hn' Ho' Hl']; subst;
        pose proof (is_det _ _ _ _ Hty Hty') as E; subst ty'; pose proof (members_of_det _ _ _ Hms Hms') as E; subst ms'.
      + apply named_In in Hm' as [Hin1 Hn1]. assert (m' = m) by (apply FU; try assumption; left; assumption). subst m'. congruence.
      + apply named_In in Hm' as [Hin1 Hn1]. assert (m' = m) by (apply FU; try assumption; left; assumption). subst m'.
        rewrite Ho in Ho'. injection Ho' as <- <-. auto.
      + exfalso. assert (m' = m).
        { apply FU; try assumption; [right; split; [assumption|eapply leads_offers; [exact Hl'|reflexivity]]|left; assumption]. }
        subst m'. congruence.
    - assert (A : accounts ti n m) by (right; split; [exact Hn|eapply leads_offers; [exact Hl|reflexivity]]). destruct (FH ty ms Hty Hms) as [_ FU].
      inversion H' as [| |? ty' ms' ? m' b' ? ? o1 Hty' Hms' Hm' Ho' Hl'|? ty' ms' ? m' b' z' Hty' Hms' Hm' Ho'|? ty' ms' ? m' b' ? ? o1 Hty' Hms' Hin' Hn' Ho' Hl']; subst;
        pose proof (is_det _ _ _ _ Hty Hty') as E; subst ty'; pose proof (members_of_det _ _ _ Hms Hms') as E; subst ms'.
      + exfalso. apply named_In in Hm' as [Hin1 Hn1]. assert (m' = m) by (apply FU; try assumption; left; assumption). subst m'. congruence.
      + exfalso. apply named_In in Hm' as [Hin1 Hn1]. assert (m' = m) by (apply FU; try assumption; left; assumption). subst m'. congruence.
      + assert (m' = m).
        { apply FU; try assumption. right. split; [assumption|eapply leads_offers; [exact Hl'|reflexivity]]. }
        subst m'. rewrite Ho in Ho'. injection Ho' as <-. destruct (IH _ _ _ (fine_anonymous _ _ _ _ _ _ _ _ F Hty Hms Hin Hn Ho) Hl') as [-> ->]. auto.
  Qed.
  Theorem offset_of_fine t p cs : valid_utf8 p -> reads_as (usize_max c) p cs ->
    (forall o' u' rest, gets ti (size ti) (ByteOffset 0) t cs o' u' rest -> fine c ti o' u' rest) ->
    forall u o, offset_of_returns c ti t p (Ok (u, o)) <-> leads ti (size ti) t cs u o.
  Proof.
    intros V R F. apply script_reads in R as A; [|exact V].
    assert (Snd : forall u o, offset_of_returns c ti t p (Ok (u, o)) -> leads ti (size ti) t cs u o).
    { intros u o E. destruct (offset_of_sound c ti t p u o V E) as (_ & cs' & R' & L).
      assert (cs' = cs) as -> by (eapply accepted_det; [exact V| |]; apply accepted_iff; eassumption). exact (leads_fine _ _ _ _ L 0 F). }
    intros u o. split; [apply Snd|]. intros L.
    destruct (follow_goes_on c ti None (ByteOffset 0) t cs) as [(o' & u' & rest & G & En)|(n & D)].
    - exfalso. apply (gets_fine _ _ _ _ _ _) in G; [|exact F]. destruct (F _ _ _ G) as (NE & _). exact (NE En).
    - pose proof (returns_of_follow c ti t p cs None n V A D) as Ret. pose proof (follow_outcome c ti None n (or_introl eq_refl) (ByteOffset 0) t cs) as X.
      destruct (follow n c ti None (ByteOffset 0) t cs) as [[u' o']|k|q|] eqn:E; cbn [user_result] in Ret.
      + destruct (leads_fine_det _ _ _ _ L 0 u' o' F (Snd _ _ Ret)) as [-> ->]. exact Ret.
      + exfalso. exact (follow_fine n 0 t cs u o k L F E).
      + exfalso. destruct X as (o' & u' & i & rest & h & d & G & H1 & H2 & H3). apply (gets_fine _ _ _ _ _ _) in G; [|exact F].
        destruct (fine_size _ _ _ _ _ _ 0 (F _ _ _ G) H1 H2) as [_ NP]. exact (NP q H3).
      + congruence.
  Qed.
End Fine.
