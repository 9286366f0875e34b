(** * Offsets2: termination, determinism, containment, moving the base. *)
From Coq Require Import Lia ZifyBool ZifyNat ZifyN.
From Verif Require Import TypeInfo BaseFacts Spec PathSpec Path PathGrammar QuerySpec Chains Sizes Follow Offsets.

(** ** Sizes *)
Lemma computed_size c ti e s : overflow_checks c = true \/ sizes_fit c ti -> computed c ti e s -> size ti e s.
Proof.
  intros H Hc. destruct (size_of_spec c ti e) as (S1 & S2 & S3 & _). destruct H as [H|H].
  - eapply has_size_impl; [|apply S2; assumption]. auto.
  - destruct (S3 s Hc) as (s0 & Hs & _). pose proof (S1 s0 (H _ _ Hs)) as E. unfold computed in Hc. rewrite E in Hc. injection Hc as <-. exact Hs.
Qed.
Lemma size_computed c ti e s : sizes_fit c ti -> size ti e s -> computed c ti e s.
Proof. intros H Hs. destruct (size_of_spec c ti e) as (S1 & _). apply S1, H, Hs. Qed.
Lemma sizes_fit_no_panic c ti x p : sizes_fit c ti -> size_of c ti x <> Panic p.
Proof.
  intros H E. destruct (size_of_spec c ti x) as (_ & _ & _ & _ & S5 & _). destruct (S5 p E) as (_ & _ & s & Hs & Hn). apply Hn, H, Hs.
Qed.
Lemma leads_impl ti (sz sz' : N -> N -> Prop) t cs u o : (forall e s, sz e s -> sz' e s) -> leads ti sz t cs u o -> leads ti sz' t cs u o.
Proof.
  intros H. induction 1.
  - constructor.
  - eapply leads_index; eauto.
  - eapply leads_member; eauto.
  - eapply leads_bitfield; eauto.
  - eapply leads_anonymous; eauto.
Qed.
Lemma visits_impl ti (sz sz' : N -> N -> Prop) t cs u o : (forall e s, sz e s -> sz' e s) -> visits ti sz t cs u o -> visits ti sz' t cs u o.
Proof.
  intros H. induction 1.
  - constructor.
  - eapply visits_index; eauto.
  - eapply visits_member; eauto.
  - eapply visits_anonymous; eauto.
Qed.

(** ** Termination *)
Lemma walk_le R n m t : (n <= m)%nat -> walk R m t -> walk R n t.
Proof. intros H (f & Hf & Hw). exists f. split; [exact Hf|]. intros k Hk. apply Hw. lia. Qed.
Lemma walk_chain (R R' : N -> N -> Prop) t u n : (forall a b, R a b -> R' a b) -> chain R t u -> walk R' n u -> exists m, (n <= m)%nat /\ walk R' m t.
Proof.
  intros H. induction 1 as [t|t v u Hr _ IH]; intros Hw; [eauto|]. destruct (IH Hw) as (m & Hm & W).
  exists (S m). split; [lia|]. eapply walk_S; eauto.
Qed.
Lemma link_known ti a b : link ti a b -> In a (known ti).
Proof.
  intros [H|[H|(ty & ms & m & H & Hm & _)]]; [eapply transparent_known; exact H|eapply size_link_known; exact H|].
  eapply from_id_known; [exact H|]. intros ->. exact Hm.
Qed.
Lemma endless_impl (R R' : N -> N -> Prop) t : (forall a b, R a b -> R' a b) -> endless R t -> endless R' t.
Proof. intros H (f & Hf & Hw). exists f. split; [exact Hf|]. auto. Qed.
Lemma array_step_diverge c ti d off i : array_step c ti d off i = Diverge -> size_of c ti (element_tid d) = Diverge.
Proof.
  unfold array_step. destruct (element_count d <=? i); [discriminate|].
  destruct (size_of c ti (element_tid d)) as [s|k|q|]; cbn [btf_err obind]; try discriminate; [|reflexivity].
  destruct (index_size i s); cbn [ok_or obind]; [|discriminate]. destruct off; [rewrite add_u32_byte; destruct (_ <? _)|]; discriminate.
Qed.
Lemma follow_walk c ti e : let K := length (known ti) in forall cs j off t,
  follow (S (length cs * (K + 2) + j)) c ti e off t cs = Diverge ->
  (exists u, endless (link ti) u) \/ exists m, (j <= m)%nat /\ walk (link ti) m t.
Proof.
  intros K. induction cs as [|comp cs IHcs]; [intros j off t H; cbn in H; destruct e; discriminate|].
  assert (Next : forall n off t, (length cs * (K + 2) + S K <= n)%nat -> follow (S n) c ti e off t cs = Diverge -> exists u, endless (link ti) u).
  { intros n off t Hn H.
    assert (H' : follow (S (length cs * (K + 2) + S K)) c ti e off t cs = Diverge).
    { destruct (follow (S (length cs * (K + 2) + S K)) c ti e off t cs) eqn:E; try reflexivity;
      (rewrite (follow_le c ti e (S (length cs * (K + 2) + S K)) (S n)) in H by (try lia; rewrite E; discriminate); rewrite E in H; discriminate). }
    apply IHcs in H'. destruct H' as [H'|(m & Hm & W)]; [exact H'|]. exists t. eapply endless_of_walk; [apply link_known| |exact W]. lia. }
  induction j as [|j IHj]; intros off t H; [right; exists 0%nat; split; [lia|apply walk_O]|].
  cbn [length] in *. replace (S (length cs) * (K + 2) + S j)%nat with (S (S (length cs) * (K + 2) + j)) in H by lia.
  rewrite follow_S in H. pose proof (resolve_sound ti t) as RS. destruct (resolve ti t) as [[r ty]|k|q|] eqn:ER; cbn [obind snd] in H; try discriminate.
  2:{ left. exists t. eapply endless_impl; [|exact RS]. intros a b Hab. left. exact Hab. }
  destruct RS as [Hch Hop]. destruct comp as [i|name].
  - unfold round in H. destruct ty; try discriminate H. apply obind_diverge in H. destruct H as [H|(off' & _ & H)].
    + apply array_step_diverge in H. apply size_diverge in H. left. exists (element_tid d). eapply endless_impl; [|exact H]. intros a b Hab. right. left. exact Hab.
    + left. eapply Next; [|exact H]. lia.
  - assert (G : exists ms, member_lists ty = Some ms /\
       obind (probe_anonymous (fun o mt => follow (S (S (length cs) * (K + 2) + j)) c ti e o mt (Name name :: cs)) off ms) (fun found => match found with Some r => Ok r | None =>
       match find (has_name name) ms with Some m => obind (btf_err (offset_add off (m_offset m))) (fun off' => follow (S (S (length cs) * (K + 2) + j)) c ti e off' (m_tid m) cs) | None => Err OEMemberNotFound end end) = Diverge).
    { unfold round in H. destruct ty; try discriminate H; eexists; (split; [reflexivity|exact H]). }
    destruct G as (ms & Hms & G). apply member_lists_iff in Hms. apply obind_diverge in G. destruct G as [G|(found & _ & G)].
    + pose proof (probe_cases (fun o mt => follow (S (S (length cs) * (K + 2) + j)) c ti e o mt (Name name :: cs)) off ms) as P.
      rewrite G in P. destruct P as (m & o & Hin & Hn & _ & Hf). apply IHj in Hf. destruct Hf as [Hf|(k & Hk & W)]; [left; exact Hf|]. right.
      destruct (walk_chain (transparent ti) (link ti) t r (S k) ltac:(intros a b Hab; left; exact Hab) Hch) as (k' & Hk' & W').
      { eapply walk_S; [|exact W]. right. right. exists ty, ms, m. repeat split; auto. apply Hop. }
      exists k'. split; [lia|exact W'].
    + left. destruct found; [discriminate|]. destruct (find (has_name name) ms) as [m|]; [|discriminate].
      apply obind_diverge in G. destruct G as [G|(off' & _ & G)].
      * pose proof (add_not_panic off (m_offset m)) as NP. destruct (offset_add off (m_offset m)); cbn in G; try discriminate; contradiction.
      * eapply Next; [|exact G]. lia.
Qed.
Lemma follow_returns c ti e off t cs : (exists u, endless (link ti) u) \/ exists n, follow n c ti e off t cs <> Diverge.
Proof.
  set (n := S (length cs * (length (known ti) + 2) + S (length (known ti)))).
  destruct (follow n c ti e off t cs) eqn:E; try (right; exists n; rewrite E; discriminate).
  left. apply follow_walk in E. destruct E as [H|(m & Hm & W)]; [exact H|]. exists t. eapply endless_of_walk; [apply link_known| |exact W]. lia.
Qed.

(** ** Unambiguous names (C33) *)
Lemma is_det ti t ty ty' : is ti t ty -> is ti t ty' -> ty = ty'.
Proof. intros H H'. apply is_resolve in H, H'. destruct H as [r H], H' as [r' H']. congruence. Qed.
Lemma members_of_det ty ms ms' : members_of ty ms -> members_of ty ms' -> ms = ms'.
Proof. destruct ty; cbn; try contradiction; congruence. Qed.
Lemma named_In ms n m : named ms n m -> In m ms /\ m_name m = Some n.
Proof. intros (ms1 & ms2 & -> & H & _). split; [apply in_elt|exact H]. Qed.
Lemma leads_offers ti sz t cs u o : leads ti sz t cs u o -> forall n cs', cs = Name n :: cs' -> offers ti n t.
Proof.
  induction 1 as [t|t h d i s cs u o Hty Hi Hs Hl IH|t ty ms n m b cs u o Hty Hms Hm Ho Hl IH|t ty ms n m b z Hty Hms Hm Ho|t ty ms n m b cs u o Hty Hms Hin Hn Ho Hl IH];
    intros n' cs' E; try discriminate; injection E as <- <-.
  - apply named_In in Hm. destruct Hm. eapply offers_member; eassumption.
  - apply named_In in Hm. destruct Hm. eapply offers_member; eassumption.
  - eapply offers_anonymous; eauto.
Qed.
Lemma leads_det ti (sz : N -> N -> Prop) : unambiguous ti -> (forall e s s', sz e s -> sz e s' -> s = s') ->
  forall t cs u o, leads ti sz t cs u o -> forall u' o', leads ti sz t cs u' o' -> u' = u /\ o' = o.
Proof.
  intros HU Hsz. induction 1 as [t|t h d i s cs u o Hty Hi Hs Hl IH|t ty ms n m b cs u o Hty Hms Hm Ho Hl IH|t ty ms n m b z Hty Hms Hm Ho|t ty ms n m b cs u o Hty Hms Hin Hn Ho Hl IH];
    intros u' o' H'.
  - inversion H'; subst. auto.
  - inversion H' as [|? h' d' ? s' ? ? o1 Hty' Hi' Hs' Hl'| | |]; subst. pose proof (is_det _ _ _ _ Hty Hty') as E. injection E as <- <-.
    rewrite (Hsz _ _ _ Hs Hs') in *. destruct (IH _ _ Hl') as [-> ->]. auto.
  - apply named_In in Hm as Hm0. destruct Hm0 as [Hin0 Hn0].
    inversion H' as [| |? ty' ms' ? m' b' ? ? o1 Hty' Hms' Hm' Ho' Hl'|? ty' ms' ? m' b' z' Hty' Hms' Hm' Ho'|? ty' ms' ? m' b' ? ? o1 Hty' Hms' Hin' Hn' Ho' Hl']; subst;
      pose proof (is_det _ _ _ _ Hty Hty') as E; subst ty'; pose proof (members_of_det _ _ _ Hms Hms') as E; subst ms'.
    + apply named_In in Hm' as [Hin1 Hn1]. assert (m' = m) by (apply (HU t ty ms n); try assumption; left; assumption). subst m'.
      rewrite Ho in Ho'. injection Ho' as <-. destruct (IH _ _ Hl') as [-> ->]. auto.
    + apply named_In in Hm' as [Hin1 Hn1]. assert (m' = m) by (apply (HU t ty ms n); try assumption; left; assumption). subst m'. congruence.
    + exfalso. assert (m' = m).
      { apply (HU t ty ms n); try assumption; [right; split; [assumption|eapply leads_offers; [exact Hl'|reflexivity]]|left; assumption]. }
      subst m'. congruence.
  - apply named_In in Hm as Hm0. destruct Hm0 as [Hin0 Hn0].
    inversion H' as [| |? ty' ms' ? m' b' ? ? o1 Hty' Hms' Hm' Ho' Hl'|? ty' ms' ? m' b' z' Hty' Hms' Hm' Ho'|? ty' ms' ? m' b' ? ? o1 Hty' Hms' Hin' Hn' Ho' Hl']; subst;
      pose proof (is_det _ _ _ _ Hty Hty') as E; subst ty'; pose proof (members_of_det _ _ _ Hms Hms') as E; subst ms'.
    + apply named_In in Hm' as [Hin1 Hn1]. assert (m' = m) by (apply (HU t ty ms n); try assumption; left; assumption). subst m'. congruence.
    + apply named_In in Hm' as [Hin1 Hn1]. assert (m' = m) by (apply (HU t ty ms n); try assumption; left; assumption). subst m'.
      rewrite Ho in Ho'. injection Ho' as <- <-. auto.
    + exfalso. assert (m' = m).
      { apply (HU t ty ms n); try assumption; [right; split; [assumption|eapply leads_offers; [exact Hl'|reflexivity]]|left; assumption]. }
      subst m'. congruence.
  - assert (A : accounts ti n m) by (right; split; [exact Hn|eapply leads_offers; [exact Hl|reflexivity]]).
    inversion H' as [| |? ty' ms' ? m' b' ? ? o1 Hty' Hms' Hm' Ho' Hl'|? ty' ms' ? m' b' z' Hty' Hms' Hm' Ho'|? ty' ms' ? m' b' ? ? o1 Hty' Hms' Hin' Hn' Ho' Hl']; subst;
      pose proof (is_det _ _ _ _ Hty Hty') as E; subst ty'; pose proof (members_of_det _ _ _ Hms Hms') as E; subst ms'.
    + exfalso. apply named_In in Hm' as [Hin1 Hn1]. assert (m' = m) by (apply (HU t ty ms n); try assumption; left; assumption). subst m'. congruence.
    + exfalso. apply named_In in Hm' as [Hin1 Hn1]. assert (m' = m) by (apply (HU t ty ms n); try assumption; left; assumption). subst m'. congruence.
    + assert (m' = m).
      { apply (HU t ty ms n); try assumption. right. split; [assumption|eapply leads_offers; [exact Hl'|reflexivity]]. }
      subst m'. rewrite Ho in Ho'. injection Ho' as <-. destruct (IH _ _ Hl') as [-> ->]. auto.
Qed.

(** ** Containment (C35) *)
Lemma size_transparent ti t u s : size ti t s -> transparent ti t u -> size ti u s.
Proof.
  intros H Ht. apply has_size_cases in H. destruct H as (ty & E & H). apply transparent_cases in Ht. destruct Ht as (ty' & E' & Q).
  rewrite E in E'. injection E' as <-. destruct ty; try contradiction; subst u; exact H.
Qed.
Lemma size_is ti t ty s : size ti t s -> is ti t ty -> exists r, from_id ti r = Some ty /\ size ti r s.
Proof.
  intros H (r & Hc & Ho & _). induction Hc as [t|t v r Hr _ IH]; [eauto|]. apply IH; [eapply size_transparent; eassumption|exact Ho].
Qed.
Lemma leads_inside ti t cs u o : consistent ti -> leads ti (size ti) t cs u o -> forall st, size ti t st ->
  match o with
  | ByteOffset b => exists su, size ti u su /\ b + su <= st
  | BitOffsetAndSize b z => b + z <= 8 * st
  end.
Proof.
  intros HC. induction 1 as [t|t h d i s cs u o Hty Hi Hs Hl IH|t ty ms n m b cs u o Hty Hms Hm Ho Hl IH|t ty ms n m b z Hty Hms Hm Ho|t ty ms n m b cs u o Hty Hms Hin Hn Ho Hl IH]; intros st Hst.
  - exists st. split; [exact Hst|lia].
  - destruct (size_is _ _ _ _ Hst Hty) as (r & Er & Hr). apply has_size_cases in Hr. destruct Hr as (ty & E & Hr). rewrite Er in E. injection E as <-.
    destruct Hr as (s0 & Hs0 & -> & _). rewrite (size_det _ _ _ _ _ Hs0 Hs) in *. specialize (IH s Hs).
    assert (i * s + s <= s * element_count d) by (replace (i * s + s) with (s * (i + 1)) by lia; apply N.mul_le_mono_l; lia).
    destruct o as [b|b z]; cbn [shift].
    + destruct IH as (su & Hsu & Hle). exists su. split; [exact Hsu|lia].
    + lia.
  - destruct (size_is _ _ _ _ Hst Hty) as (r & Er & Hr). apply has_size_cases in Hr. destruct Hr as (ty' & E & Hr). rewrite Er in E. injection E as <-.
    apply named_In in Hm. destruct Hm as [Hin _]. assert (Hss : stored_size ty st) by (destruct ty; cbn in Hms; try contradiction; symmetry; exact Hr).
    pose proof (HC _ _ _ _ _ Er Hms Hin Hss) as G. rewrite Ho in G. destruct G as (s & Hs & Hle). specialize (IH s Hs).
    destruct o as [b'|b' z]; cbn [shift]; [|lia]. destruct IH as (su & Hsu & Hle'). exists su. split; [exact Hsu|lia].
  - destruct (size_is _ _ _ _ Hst Hty) as (r & Er & Hr). apply has_size_cases in Hr. destruct Hr as (ty' & E & Hr). rewrite Er in E. injection E as <-.
    apply named_In in Hm. destruct Hm as [Hin _]. assert (Hss : stored_size ty st) by (destruct ty; cbn in Hms; try contradiction; symmetry; exact Hr).
    pose proof (HC _ _ _ _ _ Er Hms Hin Hss) as G. rewrite Ho in G. exact G.
  - destruct (size_is _ _ _ _ Hst Hty) as (r & Er & Hr). apply has_size_cases in Hr. destruct Hr as (ty' & E & Hr). rewrite Er in E. injection E as <-.
    assert (Hss : stored_size ty st) by (destruct ty; cbn in Hms; try contradiction; symmetry; exact Hr).
    pose proof (HC _ _ _ _ _ Er Hms Hin Hss) as G. rewrite Ho in G. destruct G as (s & Hs & Hle). specialize (IH s Hs).
    destruct o as [b'|b' z]; cbn [shift]; [|lia]. destruct IH as (su & Hsu & Hle'). exists su. split; [exact Hsu|lia].
Qed.

(** ** Moving the base (C38) *)
Definition is_err {E A} (r : outcome E A) : Prop := match r with Err _ => True | _ => False end.
Definition no_result {E A} (r : outcome E (option A)) : Prop := match r with Ok None | Err _ => True | _ => False end.
Lemma probe_skip f1 f2 off1 off2 ms :
  (forall m, In m ms -> m_name m = None ->
     match offset_add (m_offset m) off2 with
     | Ok o2 => exists o1, offset_add (m_offset m) off1 = Ok o1 /\ (is_err (f1 o1 (m_tid m)) -> is_err (f2 o2 (m_tid m)))
     | _ => True end) ->
  (forall m o r, In m ms -> f1 o (m_tid m) <> Ok r) -> no_result (probe_anonymous f1 off1 ms) -> no_result (probe_anonymous f2 off2 ms).
Proof.
  induction ms as [|m ms IH]; intros H HN G; [exact I|]. cbn [probe_anonymous] in *.
  assert (H' : forall m', In m' ms -> m_name m' = None ->
     match offset_add (m_offset m') off2 with
     | Ok o2 => exists o1, offset_add (m_offset m') off1 = Ok o1 /\ (is_err (f1 o1 (m_tid m')) -> is_err (f2 o2 (m_tid m')))
     | _ => True end) by (intros m' Hm'; apply H; right; exact Hm').
  assert (HN' : forall m' o r, In m' ms -> f1 o (m_tid m') <> Ok r) by (intros m' o r Hm'; apply HN; right; exact Hm').
  destruct (is_anonymous m) eqn:Ea; [|auto]. apply is_anonymous_iff in Ea.
  specialize (H m (or_introl eq_refl) Ea). pose proof (add_not_panic (m_offset m) off2) as NP.
  destruct (offset_add (m_offset m) off2) as [o2|k2|p2|]; cbn [btf_err obind]; try contradiction; [|exact I].
  destruct H as (o1 & E1 & H). rewrite E1 in G. cbn [btf_err obind] in G.
  pose proof (HN m o1) as HO. destruct (f1 o1 (m_tid m)) as [r1|k1|p1|] eqn:F1; [exfalso; eapply HO; [left; reflexivity|reflexivity]| |contradiction|contradiction].
  - cbn in H. specialize (H I). destruct (f2 o2 (m_tid m)); cbn in H; try contradiction. apply IH; assumption.
Qed.
Lemma round_name c ti e p g off ty ms name : members_of ty ms -> round c ti e p g off ty (Name name) =
  obind (probe_anonymous p off ms) (fun found => match found with Some r => Ok r | None =>
    match find (has_name name) ms with Some m => obind (btf_err (offset_add off (m_offset m))) (fun off' => g off' (m_tid m)) | None => Err OEMemberNotFound end end).
Proof. intros H. destruct ty; cbn in H; try contradiction; subst ms; reflexivity. Qed.
Lemma round_no_members c ti e p g off ty name : member_lists ty = None -> is_err (round c ti e p g off ty (Name name)).
Proof. intros H. unfold round. rewrite H. destruct ty; exact I. Qed.
Lemma array_step_bits c ti d x y z i : array_step c ti d (BitOffsetAndSize x z) i = array_step c ti d (BitOffsetAndSize y z) i.
Proof. reflexivity. Qed.
Lemma probe_ext' f g off ms : (forall m o, offset_add (m_offset m) off = Ok o -> f o (m_tid m) = g o (m_tid m)) ->
  probe_anonymous f off ms = probe_anonymous g off ms.
Proof.
  intros H. induction ms as [|m ms IH]; [reflexivity|]. cbn [probe_anonymous]. destruct (is_anonymous m); [|exact IH].
  specialize (H m). destruct (offset_add (m_offset m) off) as [o| | |]; cbn [btf_err obind]; try reflexivity. rewrite (H o eq_refl), IH. reflexivity.
Qed.
Lemma move_bits c ti e n : forall x y z t cs, cs <> [] -> x <= y -> is_err (follow n c ti e (BitOffsetAndSize x z) t cs) ->
  is_err (follow n c ti e (BitOffsetAndSize y z) t cs).
Proof.
  induction n as [|n IH]; intros x y z t cs Hcs Hxy H; [destruct H|]. destruct cs as [|comp cs]; [congruence|].
  rewrite follow_S in H |- *. destruct (resolve ti t) as [[r ty]|k|q|]; cbn [obind snd] in *; try exact H.
  destruct comp as [i|name].
  - unfold round in *. destruct ty; exact H || (rewrite (array_step_bits c ti d y x z i); destruct (array_step c ti d (BitOffsetAndSize x z) i) as [o|k|q|] eqn:E; cbn [obind] in *; try exact H; apply array_step_ok in E; destruct E as (s & a & _ & _ & E & _); discriminate).
  - destruct (member_lists ty) as [ms|] eqn:Ems; [|apply round_no_members; exact Ems]. apply member_lists_iff in Ems.
    rewrite (round_name _ _ _ _ _ _ _ _ _ Ems) in H. rewrite (round_name _ _ _ _ _ _ _ _ _ Ems).
    assert (G : no_result (probe_anonymous (fun o mt => follow n c ti e o mt (Name name :: cs)) (BitOffsetAndSize y z) ms)).
    { eapply (probe_skip (fun o mt => if match o with BitOffsetAndSize _ _ => true | _ => false end then follow n c ti e o mt (Name name :: cs) else Err OEVoidDereference)); [| |].
      - instantiate (1 := BitOffsetAndSize x z). intros m Hin Hn. destruct (m_offset m) as [b|b z']; [|exact I].
        destruct (offset_add (ByteOffset b) (BitOffsetAndSize y z)) as [o2| | |] eqn:E2; try exact I. apply add_byte_ok in E2. destruct E2 as [-> F2].
        exists (BitOffsetAndSize (8 * b + x) z). split; [apply add_byte_ok; split; [reflexivity|cbn in *; lia]|].
        cbn [shift]. intros HE. eapply IH; [discriminate| |exact HE]. lia.
      - intros m o r0 _. cbn beta. destruct o as [b|b z']; [discriminate|]. apply follow_bits. discriminate.
      - rewrite (probe_ext' _ (fun o mt => follow n c ti e o mt (Name name :: cs))).
        + destruct (probe_anonymous _ (BitOffsetAndSize x z) ms) as [[[u o]|]|k|q|]; try exact I; exact H.
        + intros m o Ho. destruct (m_offset m) as [b|b z']; [|discriminate Ho]. apply add_byte_ok in Ho. destruct Ho as [-> _]. reflexivity. }
    destruct (probe_anonymous _ (BitOffsetAndSize y z) ms) as [[r0|]|k|q|]; cbn [obind]; try contradiction; [|exact I].
    destruct (find (has_name name) ms) as [m|]; [|exact I]. rewrite add_bits. exact I.
Qed.

Lemma probe_moved a f1 f2 off1 off2 ms :
  (forall m, In m ms -> m_name m = None ->
     match offset_add (m_offset m) off1 with
     | Ok o1 => exists o2, offset_add (m_offset m) off2 = Ok o2 /\ (is_err (f1 o1 (m_tid m)) -> is_err (f2 o2 (m_tid m))) /\
                 (forall u o, f1 o1 (m_tid m) = Ok (u, o) -> f2 o2 (m_tid m) = Ok (u, shift a o))
     | Err _ => is_err (offset_add (m_offset m) off2)
     | _ => True end) ->
  match probe_anonymous f1 off1 ms with
  | Ok None => probe_anonymous f2 off2 ms = Ok None
  | Ok (Some (u, o)) => probe_anonymous f2 off2 ms = Ok (Some (u, shift a o))
  | Err _ => is_err (probe_anonymous f2 off2 ms)
  | _ => True end.
Proof.
  induction ms as [|m ms IH]; intros H; [reflexivity|]. cbn [probe_anonymous].
  specialize (IH (fun m' Hm' => H m' (or_intror Hm'))). destruct (is_anonymous m) eqn:Ea; [|exact IH]. apply is_anonymous_iff in Ea.
  specialize (H m (or_introl eq_refl) Ea). destruct (offset_add (m_offset m) off1) as [o1|k1|p1|]; cbn [btf_err obind]; try exact I.
  - destruct H as (o2 & -> & HE & HO). cbn [btf_err obind]. destruct (f1 o1 (m_tid m)) as [[u o]|k1|p1|]; try exact I.
    + rewrite (HO u o eq_refl). reflexivity.
    + specialize (HE I). destruct (f2 o2 (m_tid m)); try contradiction. exact IH.
  - destruct (offset_add (m_offset m) off2); try contradiction. exact I.
Qed.
Lemma move_bytes c ti e n a : forall x t cs,
  (forall r b, visits ti (computed c ti) t cs r b -> a + x + b < 2 ^ 32) ->
  (forall u o, leads ti (computed c ti) t cs u o -> fits32 (shift (a + x) o)) ->
  match follow n c ti e (ByteOffset x) t cs with
  | Ok (u, o) => follow n c ti e (ByteOffset (a + x)) t cs = Ok (u, shift a o)
  | Err _ => is_err (follow n c ti e (ByteOffset (a + x)) t cs)
  | _ => True end.
Proof.
  induction n as [|n IH]; intros x t cs Hv Hl; [exact I|]. destruct cs as [|comp cs]; [cbn; destruct e; [exact I|reflexivity]|].
  rewrite !follow_S. pose proof (is_resolve ti t) as HI. destruct (resolve ti t) as [[r ty]|k|q|]; cbn [obind snd]; try exact I.
  assert (Hty : is ti t ty) by (apply HI; eauto). clear HI. destruct comp as [i|name].
  - unfold round. destruct ty; try exact I.
    unfold array_step. destruct (N.leb_spec (element_count d) i) as [Hi|Hi]; [exact I|].
    destruct (size_of c ti (element_tid d)) as [s|k|q|] eqn:Es; cbn [btf_err obind]; try exact I.
    assert (V : forall r b', visits ti (computed c ti) (element_tid d) cs r b' -> a + (x + i * s) + b' < 2 ^ 32).
    { intros r' b' V. pose proof (Hv r' (i * s + b') ltac:(eapply visits_index; eassumption)). lia. }
    pose proof (V _ _ (visits_here _ _ _ _)) as V0.
    assert (Ei : index_size i s = Some (i * s)) by (apply index_size_iff; split; [reflexivity|lia]). rewrite Ei. cbn [ok_or obind].
    rewrite !add_u32_byte. replace (x + i * s <? 2 ^ 32) with true by lia. replace (a + x + i * s <? 2 ^ 32) with true by lia. cbn [btf_err obind].
    replace (a + x + i * s) with (a + (x + i * s)) by lia. apply IH; [exact V|].
    intros u o L. replace (a + (x + i * s)) with (a + x + i * s) by lia. rewrite <- shift_shift. apply (Hl u). eapply leads_index; eassumption.
  - destruct (member_lists ty) as [ms|] eqn:Ems.
    2:{ pose proof (round_no_members c ti e (fun o mt => follow n c ti e o mt (Name name :: cs)) (fun o mt => follow n c ti e o mt cs) (ByteOffset x) ty name Ems) as R1.
        pose proof (round_no_members c ti e (fun o mt => follow n c ti e o mt (Name name :: cs)) (fun o mt => follow n c ti e o mt cs) (ByteOffset (a + x)) ty name Ems) as R2.
        destruct (round _ _ _ _ _ (ByteOffset x) _ _) as [[u o]| | |]; try contradiction. exact R2. }
    apply member_lists_iff in Ems. do 2 rewrite (round_name _ _ _ _ _ _ _ _ _ Ems).
    pose proof (probe_moved a (fun o mt => follow n c ti e o mt (Name name :: cs)) (fun o mt => follow n c ti e o mt (Name name :: cs)) (ByteOffset x) (ByteOffset (a + x)) ms) as P.
    assert (HP : forall m, In m ms -> m_name m = None ->
     match offset_add (m_offset m) (ByteOffset x) with
     | Ok o1 => exists o2, offset_add (m_offset m) (ByteOffset (a + x)) = Ok o2 /\ (is_err (follow n c ti e o1 (m_tid m) (Name name :: cs)) -> is_err (follow n c ti e o2 (m_tid m) (Name name :: cs))) /\
                 (forall u o, follow n c ti e o1 (m_tid m) (Name name :: cs) = Ok (u, o) -> follow n c ti e o2 (m_tid m) (Name name :: cs) = Ok (u, shift a o))
     | Err _ => is_err (offset_add (m_offset m) (ByteOffset (a + x)))
     | _ => True end).
    { intros m Hin Hn. destruct (m_offset m) as [b|b z] eqn:Em; [|exact I].
      assert (V : forall r b', visits ti (computed c ti) (m_tid m) (Name name :: cs) r b' -> a + (b + x) + b' < 2 ^ 32).
      { intros r' b' V. pose proof (Hv r' (b + b') ltac:(eapply visits_anonymous; eassumption)). lia. }
      pose proof (V _ _ (visits_here _ _ _ _)) as V0.
      assert (E1 : offset_add (ByteOffset b) (ByteOffset x) = Ok (ByteOffset (b + x))) by (apply add_byte_ok; split; [reflexivity|cbn; lia]).
      assert (E2 : offset_add (ByteOffset b) (ByteOffset (a + x)) = Ok (ByteOffset (a + (b + x)))) by (apply add_byte_ok; split; [cbn; f_equal; lia|cbn; lia]).
      rewrite E1, E2. eexists. split; [reflexivity|].
      specialize (IH (b + x) (m_tid m) (Name name :: cs) V). assert (L : forall u o, leads ti (computed c ti) (m_tid m) (Name name :: cs) u o -> fits32 (shift (a + (b + x)) o)).
      { intros u o L. replace (a + (b + x)) with (a + x + b) by lia. rewrite <- shift_shift. apply (Hl u). eapply leads_anonymous; eassumption. }
      specialize (IH L). split.
      - intros HE. destruct (follow n c ti e (ByteOffset (b + x)) (m_tid m) (Name name :: cs)) as [[u o]| | |]; try contradiction. exact IH.
      - intros u o HE. rewrite HE in IH. exact IH. }
    specialize (P HP). destruct (probe_anonymous _ (ByteOffset x) ms) as [[[u o]|]|k|q|]; cbn [obind]; try exact I.
    + rewrite P. reflexivity.
    + rewrite P. cbn [obind]. destruct (find (has_name name) ms) as [m|] eqn:Ef; [|exact I]. apply find_named in Ef.
      destruct (m_offset m) as [b|b z] eqn:Em.
      * assert (V : forall r b', visits ti (computed c ti) (m_tid m) cs r b' -> a + (x + b) + b' < 2 ^ 32).
        { intros r' b' V. pose proof (Hv r' (b + b') ltac:(eapply visits_member; eassumption)). lia. }
        pose proof (V _ _ (visits_here _ _ _ _)) as V0.
        assert (E1 : offset_add (ByteOffset x) (ByteOffset b) = Ok (ByteOffset (x + b))) by (apply add_byte_ok; split; [reflexivity|cbn; lia]).
        assert (E2 : offset_add (ByteOffset (a + x)) (ByteOffset b) = Ok (ByteOffset (a + (x + b)))) by (apply add_byte_ok; split; [cbn; f_equal; lia|cbn; lia]).
        rewrite E1, E2. cbn [btf_err obind]. apply IH; [exact V|].
        intros u o L. replace (a + (x + b)) with (a + x + b) by lia. rewrite <- shift_shift. apply (Hl u). eapply leads_member; eassumption.
      * destruct cs as [|comp cs].
        -- pose proof (Hl _ _ ltac:(eapply leads_bitfield; eassumption)) as F. cbn [shift fits32] in F.
           assert (E1 : offset_add (ByteOffset x) (BitOffsetAndSize b z) = Ok (BitOffsetAndSize (8 * x + b) z)) by (apply add_byte_ok; split; [reflexivity|cbn; lia]).
           assert (E2 : offset_add (ByteOffset (a + x)) (BitOffsetAndSize b z) = Ok (BitOffsetAndSize (8 * (a + x) + b) z)) by (apply add_byte_ok; split; [reflexivity|exact F]).
           rewrite E1, E2. cbn [btf_err obind]. destruct n as [|n]; [exact I|]. cbn [follow]. destruct e; [exact I|]. cbn [shift]. do 3 f_equal. lia.
        -- pose proof (add_not_panic (ByteOffset (a + x)) (BitOffsetAndSize b z)) as NP2.
           destruct (offset_add (ByteOffset x) (BitOffsetAndSize b z)) as [o1|k1|p1|] eqn:E1; cbn [btf_err obind]; try exact I.
           ++ apply add_byte_ok in E1. destruct E1 as [-> F1]. cbn [shift].
              pose proof (follow_bits c ti e n (8 * x + b) z (m_tid m) (comp :: cs)) as NB.
              destruct (offset_add (ByteOffset (a + x)) (BitOffsetAndSize b z)) as [o2|k2|p2|] eqn:E2; cbn [btf_err obind]; try contradiction.
              ** apply add_byte_ok in E2. destruct E2 as [-> F2]. cbn [shift].
                 pose proof (move_bits c ti e n (8 * x + b) (8 * (a + x) + b) z (m_tid m) (comp :: cs) ltac:(discriminate) ltac:(lia)) as MB.
                 destruct (follow n c ti e (BitOffsetAndSize (8 * x + b) z) (m_tid m) (comp :: cs)) as [[u o]| | |]; try exact I; [|exact (MB I)].
                 exfalso. eapply NB; [discriminate|reflexivity].
              ** destruct (follow n c ti e (BitOffsetAndSize (8 * x + b) z) (m_tid m) (comp :: cs)) as [[u o]| | |]; try exact I.
                 exfalso. eapply NB; [discriminate|reflexivity].
           ++ destruct (offset_add (ByteOffset (a + x)) (BitOffsetAndSize b z)) as [o2|k2|p2|] eqn:E2; cbn [btf_err obind]; try contradiction; [|exact I].
              exfalso. apply add_byte_ok in E2. destruct E2 as [-> F2].
              assert (X : offset_add (ByteOffset x) (BitOffsetAndSize b z) = Ok (BitOffsetAndSize (8 * x + b) z)) by (apply add_byte_ok; split; [reflexivity|cbn in *; lia]). congruence.
    + destruct (probe_anonymous _ (ByteOffset (a + x)) ms); try contradiction. exact I.
Qed.

(** In a consistent table every place met on a path lies inside the type. *)
Lemma visits_inside ti t cs r a : consistent ti -> visits ti (size ti) t cs r a -> forall st, size ti t st -> exists sr, size ti r sr /\ a + sr <= st.
Proof.
  intros HC. induction 1 as [t cs|t h d i s cs u a Hty Hi Hs V IH|t ty ms n m b cs u a Hty Hms Hm Ho V IH|t ty ms n m b cs u a Hty Hms Hin Hn Ho V IH]; intros st Hst.
  - exists st. split; [exact Hst|lia].
  - destruct (size_is _ _ _ _ Hst Hty) as (r & Er & Hr). apply has_size_cases in Hr. destruct Hr as (ty & E & Hr). rewrite Er in E. injection E as <-.
    destruct Hr as (s0 & Hs0 & -> & _). rewrite (size_det _ _ _ _ _ Hs0 Hs) in *. destruct (IH s Hs) as (su & Hsu & Hle).
    assert (i * s + s <= s * element_count d) by (replace (i * s + s) with (s * (i + 1)) by lia; apply N.mul_le_mono_l; lia).
    exists su. split; [exact Hsu|lia].
  - destruct (size_is _ _ _ _ Hst Hty) as (r & Er & Hr). apply has_size_cases in Hr. destruct Hr as (ty' & E & Hr). rewrite Er in E. injection E as <-.
    apply named_In in Hm. destruct Hm as [Hin _]. assert (Hss : stored_size ty st) by (destruct ty; cbn in Hms; try contradiction; symmetry; exact Hr).
    pose proof (HC _ _ _ _ _ Er Hms Hin Hss) as G. rewrite Ho in G. destruct G as (s & Hs & Hle). destruct (IH s Hs) as (su & Hsu & Hle').
    exists su. split; [exact Hsu|lia].
  - destruct (size_is _ _ _ _ Hst Hty) as (r & Er & Hr). apply has_size_cases in Hr. destruct Hr as (ty' & E & Hr). rewrite Er in E. injection E as <-.
    assert (Hss : stored_size ty st) by (destruct ty; cbn in Hms; try contradiction; symmetry; exact Hr).
    pose proof (HC _ _ _ _ _ Er Hms Hin Hss) as G. rewrite Ho in G. destruct G as (s & Hs & Hle). destruct (IH s Hs) as (su & Hsu & Hle').
    exists su. split; [exact Hsu|lia].
Qed.
