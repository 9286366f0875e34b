(** * OffsetOf: facts about [offset_of] as a user calls it (no cache). *)
From Coq Require Import Lia.
From Verif Require Import TypeInfo Spec PathSpec BaseFacts Path PathGrammar PathPrint QuerySpec Chains Sizes Follow Offsets Offsets2.

Definition user_result (r : outcome offset_error (N * offset)) : outcome error_kind (N * offset) :=
  match r with Ok r => Ok r | Err k => Err (offset_error_kind k) | Panic q => Panic q | Diverge => Diverge end.
Lemma user_diverge r : user_result r = Diverge <-> r = Diverge.
Proof. destruct r; cbn; split; congruence. Qed.
Lemma uncached_user c ti p cs e n t : valid_utf8 p -> ascripts c (PStart, p) cs e ->
  offset_of_uncached n c ti t p = user_result (follow n c ti e (ByteOffset 0) t cs).
Proof. intros Hp Hs. apply uncached_follow; assumption. Qed.
Lemma script_of c p : valid_utf8 p -> exists cs e, ascripts c (PStart, p) cs e /\ (e = None \/ e = Some InvalidTypePath).
Proof.
  intros _. destruct (script_total c (PStart, p)) as (cs & e & H & _ & He); [discriminate|]. eauto.
Qed.
Lemma script_reads c p cs : valid_utf8 p -> reads_as (usize_max c) p cs <-> ascripts c (PStart, p) cs None.
Proof. intros Hp. rewrite <- accepted_iff by exact Hp. apply accepted_script. exact Hp. Qed.
Lemma follow_never_ok_bad c ti k n t cs r : follow n c ti (Some k) (ByteOffset 0) t cs <> Ok r.
Proof. intros H. destruct r as [u o]. apply follow_sound in H; [|lia]. destruct H as [H _]. discriminate. Qed.

(** The result does not depend on the fuel once there is one. *)
Theorem offset_of_det c ti t p r1 r2 : valid_utf8 p -> offset_of_returns c ti t p r1 -> offset_of_returns c ti t p r2 -> r1 = r2.
Proof.
  intros Hp [D1 [n1 H1]] [D2 [n2 H2]]. destruct (script_of c p Hp) as (cs & e & Hs & _).
  rewrite (uncached_user _ _ _ _ _ _ _ Hp Hs) in H1. rewrite (uncached_user _ _ _ _ _ _ _ Hp Hs) in H2.
  assert (E : follow n1 c ti e (ByteOffset 0) t cs = follow n2 c ti e (ByteOffset 0) t cs).
  { apply follow_stable; intros E; rewrite E in *; cbn in *; congruence. }
  congruence.
Qed.
Lemma returns_mono c ti t p n m : valid_utf8 p -> (n <= m)%nat -> offset_of_uncached n c ti t p <> Diverge ->
  offset_of_uncached m c ti t p = offset_of_uncached n c ti t p.
Proof.
  intros Hp Hnm. destruct (script_of c p Hp) as (cs & e & Hs & _). rewrite !(uncached_user _ _ _ _ _ _ _ Hp Hs). intros H.
  f_equal. apply follow_le; [exact Hnm|]. intros E. apply H. rewrite E. reflexivity.
Qed.

(** ** Soundness *)
Theorem offset_of_sound c ti t p u o : valid_utf8 p -> offset_of_returns c ti t p (Ok (u, o)) ->
  fits32 o /\ exists cs, reads_as (usize_max c) p cs /\ leads ti (computed c ti) t cs u o.
Proof.
  intros Hp [_ [n H]]. destruct (script_of c p Hp) as (cs & e & Hs & _). rewrite (uncached_user _ _ _ _ _ _ _ Hp Hs) in H.
  destruct (follow n c ti e (ByteOffset 0) t cs) as [[u' o']| | |] eqn:F; try discriminate. cbn in H. injection H as -> ->.
  apply follow_sound in F; [|lia]. destruct F as (-> & Hf & o'' & L & E). rewrite shift_0 in E. subst o''.
  split; [exact Hf|]. exists cs. split; [apply script_reads; assumption|exact L].
Qed.

(** ** Termination *)
Theorem offset_of_terminates c ti t p : valid_utf8 p -> acyclic ti -> exists r, offset_of_returns c ti t p r.
Proof.
  intros Hp Ha. destruct (script_of c p Hp) as (cs & e & Hs & _).
  destruct (follow_returns c ti e (ByteOffset 0) t cs) as [(u & Hu)|(n & Hn)]; [destruct (Ha u Hu)|].
  exists (offset_of_uncached n c ti t p). split; [|eauto]. rewrite (uncached_user _ _ _ _ _ _ _ Hp Hs), user_diverge. exact Hn.
Qed.

(** ** Completeness *)
Theorem offset_of_complete c ti t p cs u o : valid_utf8 p -> reads_as (usize_max c) p cs ->
  acyclic ti -> sizes_fit c ti -> anonymous_in_bytes ti -> unambiguous ti ->
  leads ti (size ti) t cs u o -> fits32 o -> (forall r b, visits ti (size ti) t cs r b -> b < 2 ^ 32) ->
  offset_of_returns c ti t p (Ok (u, o)).
Proof.
  intros Hp Hr Ha Hs Hb Hu HL Ho Hv.
  destruct (offset_of_terminates c ti t p Hp Ha) as (r & Hret). assert (Hret' := Hret). destruct Hret' as [D [n H]].
  apply script_reads in Hr; [|exact Hp]. rewrite (uncached_user _ _ _ _ _ _ _ Hp Hr) in H.
  assert (HLc : leads ti (computed c ti) t cs u o) by (eapply leads_impl; [|exact HL]; intros; apply size_computed; assumption).
  destruct (follow n c ti None (ByteOffset 0) t cs) as [[u' o']|k|q|] eqn:F; cbn in H.
  - apply follow_sound in F; [|lia]. destruct F as (_ & _ & o'' & L & E). rewrite shift_0 in E. subst o''.
    assert (L' : leads ti (size ti) t cs u' o') by (eapply leads_impl; [|exact L]; intros; eapply computed_size; eauto).
    destruct (leads_det ti (size ti) Hu (fun e s s' => size_det ti _ e s s') _ _ _ _ HL _ _ L') as [-> ->]. subst r. exact Hret.
  - exfalso. eapply follow_complete; [exact Hb|exact HLc| | |exact F].
    + rewrite shift_0. exact Ho.
    + intros r' b V. rewrite N.add_0_l. apply (Hv r'). eapply visits_impl; [|exact V]. intros. eapply computed_size; eauto.
  - exfalso. apply follow_panic in F. destruct F as (x & F). eapply sizes_fit_no_panic; eassumption.
  - congruence.
Qed.

(** ** Transparency *)
Lemma follow_transparent c ti e n off t u cs : transparent ti t u -> cs <> [] \/ e <> None -> follow n c ti e off t cs = follow n c ti e off u cs.
Proof.
  intros Ht Hcs. destruct n as [|n]; [reflexivity|]. destruct cs as [|x cs].
  - destruct Hcs as [H|H]; [congruence|]. cbn [follow]. destruct e; [reflexivity|congruence].
  - rewrite !follow_S, (resolve_step ti t u Ht). reflexivity.
Qed.
Lemma reads_nil max p : reads_as max p [] <-> p = [].
Proof.
  split.
  - intros (p0 & H & G). inversion H; subst. destruct G as [-> |[[_ G]|[_ (cs' & n & E)]]]; [reflexivity|congruence|destruct cs'; discriminate].
  - intros ->. exists []. split; [constructor|auto].
Qed.
Theorem offset_of_transparent c ti t u p n : valid_utf8 p -> p <> [] -> transparent ti t u ->
  offset_of_uncached n c ti t p = offset_of_uncached n c ti u p.
Proof.
  intros Hp Hne Ht. destruct (script_of c p Hp) as (cs & e & Hs & He). rewrite !(uncached_user _ _ _ _ _ _ _ Hp Hs).
  f_equal. apply follow_transparent; [exact Ht|]. destruct cs as [|x cs]; [|left; discriminate]. right. intros ->.
  apply script_reads in Hs; [|exact Hp]. apply reads_nil in Hs. congruence.
Qed.

(** ** The empty path *)
Theorem offset_of_empty c ti t : offset_of_returns c ti t [] (Ok (t, ByteOffset 0)).
Proof. split; [discriminate|]. exists 1%nat. reflexivity. Qed.

(** ** Profiles (C43) *)
Lemma mul_profile {E} c c' x y : usize_bits c = usize_bits c' -> overflow_checks c = true ->
  match @mul_usize E c x y with Panic _ => True | r => mul_usize c' x y = r end.
Proof.
  intros Hb Ho. unfold mul_usize, wrap_or_panic. rewrite Ho, Hb. destruct (_ <? _); [reflexivity|exact I].
Qed.
Lemma size_profile_fuel c c' ti n : usize_bits c = usize_bits c' -> overflow_checks c = true -> forall t,
  match size_of_fuel n c ti t with Panic _ => True | r => size_of_fuel n c' ti t = r end.
Proof.
  intros Hb Ho. induction n as [|n IH]; intros t; [reflexivity|]. cbn [size_of_fuel].
  destruct (from_id ti t) as [ty|]; [|reflexivity]. destruct ty; try reflexivity; try apply IH.
  - destruct (pointer_size ti); reflexivity || exact I.
  - specialize (IH (element_tid d)). destruct (size_of_fuel n c ti (element_tid d)) as [s|k|q|]; cbn [obind]; try exact I; rewrite IH; cbn [obind]; try reflexivity.
    apply mul_profile; assumption.
Qed.
Lemma size_profile c c' ti t : usize_bits c = usize_bits c' -> overflow_checks c = true ->
  match size_of c ti t with Panic _ => True | r => size_of c' ti t = r end.
Proof. intros Hb Ho. unfold size_of. apply (size_profile_fuel c c' ti (chain_fuel ti) Hb Ho t). Qed.
Lemma array_profile c c' ti d off i : usize_bits c = usize_bits c' -> overflow_checks c = true ->
  match array_step c ti d off i with Panic _ => True | r => array_step c' ti d off i = r end.
Proof.
  intros Hb Ho. unfold array_step. destruct (_ <=? _); [reflexivity|]. pose proof (size_profile c c' ti (element_tid d) Hb Ho) as H.
  destruct (size_of c ti (element_tid d)) as [s|k|q|]; cbn [btf_err obind]; try exact I; rewrite H; cbn [btf_err obind]; try reflexivity.
  destruct (obind (ok_or _ _) _); reflexivity || exact I.
Qed.
Lemma probe_profile f g off ms : (forall o mt, match f o mt with Panic _ => True | r => g o mt = r end) ->
  match probe_anonymous f off ms with Panic _ => True | r => probe_anonymous g off ms = r end.
Proof.
  intros H. induction ms as [|m ms IH]; [reflexivity|]. cbn [probe_anonymous]. destruct (is_anonymous m); [|exact IH].
  destruct (offset_add (m_offset m) off) as [o| | |]; cbn [btf_err obind]; try reflexivity || exact I.
  specialize (H o (m_tid m)). destruct (f o (m_tid m)); try rewrite H; try reflexivity || exact I. exact IH.
Qed.
Lemma follow_profile c c' ti e n : usize_bits c = usize_bits c' -> overflow_checks c = true -> forall off t cs,
  match follow n c ti e off t cs with Panic _ => True | r => follow n c' ti e off t cs = r end.
Proof.
  intros Hb Ho. induction n as [|n IH]; intros off t cs; [reflexivity|]. destruct cs as [|x cs]; [cbn; destruct e; reflexivity|].
  rewrite !follow_S. destruct (resolve ti t) as [[r ty]|k|q|]; cbn [obind snd]; try reflexivity || exact I.
  destruct x as [i|name].
  - unfold round. destruct ty; try reflexivity. pose proof (array_profile c c' ti d off i Hb Ho) as H.
    destruct (array_step c ti d off i) as [o|k|q|]; cbn [obind]; try exact I; rewrite H; cbn [obind]; try reflexivity. apply IH.
  - destruct (member_lists ty) as [ms|] eqn:Ems; [|unfold round; rewrite Ems; destruct ty; reflexivity].
    apply member_lists_iff in Ems. do 2 rewrite (round_name _ _ _ _ _ _ _ _ _ Ems).
    pose proof (probe_profile (fun o mt => follow n c ti e o mt (Name name :: cs)) (fun o mt => follow n c' ti e o mt (Name name :: cs)) off ms (fun o mt => IH o mt _)) as H.
    destruct (probe_anonymous _ off ms) as [[r0|]|k|q|]; cbn [obind]; try exact I; rewrite H; cbn [obind]; try reflexivity.
    destruct (find (has_name name) ms) as [m|]; [|reflexivity]. destruct (offset_add off (m_offset m)); cbn [btf_err obind]; try reflexivity || exact I. apply IH.
Qed.
Lemma next_build c c' p it : usize_bits c = usize_bits c' -> next c p it = next c' p it.
Proof. intros H. destruct c as [w o], c' as [w' o']. cbn in H. subst w'. reflexivity. Qed.
Lemma script_build c c' s cs e : usize_bits c = usize_bits c' -> ascripts c s cs e -> ascripts c' s cs e.
Proof.
  intros H. assert (E : forall s, anext c s = anext c' s) by (intros; destruct c as [w o], c' as [w' o']; cbn in H; subst w'; reflexivity).
  induction 1; [apply as_end|apply as_bad|eapply as_more; [|eassumption]]; rewrite <- E; assumption.
Qed.
Theorem offset_of_profile c c' ti t p r : usize_bits c = usize_bits c' -> overflow_checks c = true -> valid_utf8 p ->
  offset_of_returns c ti t p r -> (forall q, r <> Panic q) -> offset_of_returns c' ti t p r.
Proof.
  intros Hb Ho Hp [D [n H]] NP. destruct (script_of c p Hp) as (cs & e & Hs & _). pose proof (script_build _ _ _ _ _ Hb Hs) as Hs'.
  rewrite (uncached_user _ _ _ _ _ _ _ Hp Hs) in H. split; [exact D|]. exists n. rewrite (uncached_user _ _ _ _ _ _ _ Hp Hs').
  pose proof (follow_profile c c' ti e n Hb Ho (ByteOffset 0) t cs) as F.
  destruct (follow n c ti e (ByteOffset 0) t cs) as [x|k|q|]; [| |exfalso; eapply NP; symmetry; exact H|]; rewrite F; exact H.
Qed.
Theorem offset_of_panic c ti t p q : valid_utf8 p -> offset_of_returns c ti t p (Panic q) ->
  q = ArithmeticOverflow /\ overflow_checks c = true /\ exists x s, size ti x s /\ ~ has_size ti (fun n => n < 2 ^ usize_bits c) x s.
Proof.
  intros Hp [D [n H]]. destruct (script_of c p Hp) as (cs & e & Hs & _). rewrite (uncached_user _ _ _ _ _ _ _ Hp Hs) in H.
  destruct (follow n c ti e (ByteOffset 0) t cs) as [x|k|q'|] eqn:F; try discriminate. cbn in H. injection H as ->.
  apply follow_panic in F. destruct F as (x & F). apply size_of_spec in F. destruct F as (-> & Ho & s & Hs1 & Hs2). eauto 6.
Qed.
Lemma leads_profile c c' ti n : usize_bits c = usize_bits c' -> sizes_fit c ti -> forall off e t cs,
  follow n c' ti e off t cs = follow n c ti e off t cs.
Proof.
  intros Hb Hf off e t cs.
  assert (HC : forall c0, usize_bits c0 = usize_bits c -> follow n c0 ti e off t cs = follow n {| usize_bits := usize_bits c; overflow_checks := true |} ti e off t cs).
  { intros c0 H0. pose proof (follow_profile {| usize_bits := usize_bits c; overflow_checks := true |} c0 ti e n (eq_sym H0) eq_refl off t cs) as F.
    destruct (follow n {| usize_bits := usize_bits c; overflow_checks := true |} ti e off t cs) as [x|k|q|] eqn:E; try exact F.
    exfalso. apply follow_panic in E. destruct E as (x & E). eapply (sizes_fit_no_panic {| usize_bits := usize_bits c; overflow_checks := true |}); [|exact E]. exact Hf. }
  rewrite (HC c' (eq_sym Hb)), (HC c eq_refl). reflexivity.
Qed.
Theorem offset_of_profile_fit c c' ti t p n : usize_bits c = usize_bits c' -> sizes_fit c ti -> valid_utf8 p ->
  offset_of_uncached n c' ti t p = offset_of_uncached n c ti t p.
Proof.
  intros Hb Hf Hp. destruct (script_of c p Hp) as (cs & e & Hs & _). pose proof (script_build _ _ _ _ _ Hb Hs) as Hs'.
  rewrite (uncached_user _ _ _ _ _ _ _ Hp Hs), (uncached_user _ _ _ _ _ _ _ Hp Hs'). f_equal. apply leads_profile; assumption.
Qed.
Theorem size_of_profile_fit c c' ti t : usize_bits c = usize_bits c' -> sizes_fit c ti -> size_of c' ti t = size_of c ti t.
Proof.
  intros Hb Hf.
  assert (HC : forall c0, usize_bits c0 = usize_bits c -> size_of c0 ti t = size_of {| usize_bits := usize_bits c; overflow_checks := true |} ti t).
  { intros c0 H0. pose proof (size_profile {| usize_bits := usize_bits c; overflow_checks := true |} c0 ti t (eq_sym H0) eq_refl) as F.
    destruct (size_of {| usize_bits := usize_bits c; overflow_checks := true |} ti t) as [x|k|q|] eqn:E; try exact F.
    exfalso. eapply (sizes_fit_no_panic {| usize_bits := usize_bits c; overflow_checks := true |}); [|exact E]. exact Hf. }
  rewrite (HC c' (eq_sym Hb)), (HC c eq_refl). reflexivity.
Qed.
