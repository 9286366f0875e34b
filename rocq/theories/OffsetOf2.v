(** * OffsetOf2: refused and malformed paths, indexing, plain members, containment. *)
From Coq Require Import Lia.
From Verif Require Import TypeInfo Spec PathSpec BaseFacts Path PathGrammar PathPrint QuerySpec Chains Sizes Follow Offsets Offsets2 OffsetOf.

(** ** Prefixes of a path *)
Lemma calls_length n c p : forall it, length (calls n c p it) = n.
Proof. induction n as [|n IH]; intros it; [reflexivity|]. cbn [calls]. cbn [length]. f_equal. apply IH. Qed.
Lemma calls_app n c p : forall it m, exists l, calls (n + m) c p it = calls n c p it ++ l.
Proof.
  induction n as [|n IH]; intros it m; [eexists; reflexivity|]. cbn [calls Nat.add]. destruct (IH (snd (next c p it)) m) as (l & ->).
  exists l. reflexivity.
Qed.
Lemma yields_app n m c p : exists l, yields (n + m) c p = yields n c p ++ l.
Proof. apply calls_app. Qed.
Lemma map_Some_inj (cs cs' : list component) : map (fun x => @Ok error_kind _ (Some x)) cs = map (fun x => Ok (Some x)) cs' -> cs = cs'.
Proof.
  revert cs'. induction cs as [|x cs IH]; intros [|x' cs'] H; try discriminate; [reflexivity|]. cbn in H. injection H as -> H. f_equal. auto.
Qed.
Lemma app_same_length {A} (a b c d : list A) : length a = length b -> a ++ c = b ++ d -> a = b.
Proof.
  revert b. induction a as [|x a IH]; intros [|y b] Hl H; try discriminate; [reflexivity|]. cbn in H. injection H as -> H. f_equal. apply IH; [now injection Hl|exact H].
Qed.
Lemma begins_script c p cs cs' e : valid_utf8 p -> ascripts c (PStart, p) cs' e -> begins c p cs -> exists rest, cs' = cs ++ rest.
Proof.
  intros Hp Hs Hb. unfold begins in Hb. pose proof (yields_script c p cs' e Hp Hs (length cs)) as Y.
  destruct (yields_app (length cs) (length cs' + 1) c p) as (l & El).
  replace (length cs + (length cs' + 1))%nat with (length cs' + 1 + length cs)%nat in El by lia. rewrite Y, Hb in El. clear -El.
  revert El. generalize (repeat (@Ok error_kind (option component) None) (length cs)) as z. revert cs'.
  induction cs as [|x cs IH]; intros cs' z El; [eexists; reflexivity|].
  destruct cs' as [|x' cs']; cbn in El.
  - injection El as E _. destruct e; discriminate.
  - injection El as -> El. destruct (IH cs' z El) as (rest & ->). exists rest. reflexivity.
Qed.
Lemma script_begins c p cs rest e : valid_utf8 p -> ascripts c (PStart, p) (cs ++ rest) e -> begins c p cs.
Proof.
  intros Hp Hs. unfold begins. pose proof (yields_script c p _ e Hp Hs 0) as Y. rewrite app_length in Y.
  destruct (yields_app (length cs) (length rest + 1) c p) as (l & El).
  replace (length cs + (length rest + 1))%nat with (length cs + length rest + 1 + 0)%nat in El by lia. rewrite Y in El. rewrite map_app, <- app_assoc in El.
  symmetry. eapply app_same_length; [|exact El]. unfold yields. rewrite map_length, calls_length. reflexivity.
Qed.
Lemma malformed_script c p cs : valid_utf8 p -> malformed_after c p cs <-> ascripts c (PStart, p) cs (Some InvalidTypePath).
Proof.
  intros Hp. split.
  - intros H. destruct (script_of c p Hp) as (cs' & e & Hs & He).
    assert (Hb : begins c p cs).
    { unfold begins, malformed_after in *. destruct (yields_app (length cs) 1 c p) as (l & El). replace (length cs + 1)%nat with (S (length cs)) in El by lia.
      rewrite H in El. symmetry. eapply app_same_length; [|exact El]. unfold yields. rewrite map_length, calls_length. reflexivity. }
    destruct (begins_script c p cs cs' e Hp Hs Hb) as (rest & ->).
    pose proof (yields_script c p _ e Hp Hs 0) as Y. rewrite app_length in Y.
    destruct (yields_app (S (length cs)) (length rest) c p) as (l & El). replace (S (length cs) + length rest)%nat with (length cs + length rest + 1 + 0)%nat in El by lia.
    rewrite Y in El. unfold malformed_after in H. rewrite H, map_app, <- !app_assoc in El. apply app_inv_head in El.
    destruct rest as [|x rest]; [|discriminate El]. cbn in El. injection El as E _. rewrite app_nil_r in Hs. destruct He as [-> | ->]; [discriminate E|exact Hs].
  - intros Hs. pose proof (yields_script c p _ _ Hp Hs 0) as Y. unfold malformed_after. replace (S (length cs)) with (length cs + 1 + 0)%nat by lia. exact Y.
Qed.
(** Every path is either understood or malformed after some components. *)
Lemma reads_or_malformed c p : valid_utf8 p -> (exists cs, reads_as (usize_max c) p cs) \/ (exists cs, malformed_after c p cs).
Proof.
  intros Hp. destruct (script_of c p Hp) as (cs & e & Hs & [-> | ->]); [left|right]; exists cs; [apply script_reads|apply malformed_script]; assumption.
Qed.
Lemma reads_not_malformed c p cs cs' : valid_utf8 p -> reads_as (usize_max c) p cs -> malformed_after c p cs' -> False.
Proof.
  intros Hp Hr Hm. apply script_reads in Hr; [|exact Hp]. apply malformed_script in Hm; [|exact Hp]. destruct (script_det _ _ _ _ Hr _ _ Hm) as [_ E]. discriminate.
Qed.
Lemma reads_begins c p cs rest : valid_utf8 p -> reads_as (usize_max c) p (cs ++ rest) -> begins c p cs.
Proof. intros Hp Hr. apply script_reads in Hr; [|exact Hp]. eapply script_begins; eassumption. Qed.

(** A malformed path never succeeds. *)
Theorem malformed_never_ok c ti t p cs r : valid_utf8 p -> malformed_after c p cs -> ~ offset_of_returns c ti t p (Ok r).
Proof.
  intros Hp Hm [_ [n H]]. apply malformed_script in Hm; [|exact Hp]. rewrite (uncached_user _ _ _ _ _ _ _ Hp Hm) in H.
  destruct (follow n c ti (Some InvalidTypePath) (ByteOffset 0) t cs) as [r'|k|q|] eqn:F; try discriminate. eapply follow_never_ok_bad; exact F.
Qed.

(** ** Refused components *)
Definition path_error (r : outcome offset_error (N * offset)) : Prop :=
  match r with Ok _ => False | Err k => offset_error_kind k = InvalidTypePath | _ => True end.
Lemma named_det ms n m m' : named ms n m -> named ms n m' -> m = m'.
Proof. rewrite <- !find_named. congruence. Qed.
Section Stuck.
  Context (c : build) (ti : type_information) (e : option error_kind).
  Hypothesis Hu : unambiguous ti.
  Hypothesis Hb : anonymous_in_bytes ti.
  (** What probing the anonymous members gives. *)
  Lemma probe_here n a t ty ms name cs : is ti t ty -> members_of ty ms -> a < 2 ^ 32 ->
    (forall r b, visits ti (computed c ti) t (Name name :: cs) r b -> a + b < 2 ^ 32) ->
    match probe_anonymous (fun o mt => follow n c ti e o mt (Name name :: cs)) (ByteOffset a) ms with
    | Ok (Some r) => exists m b, In m ms /\ m_name m = None /\ m_offset m = ByteOffset b /\ offers ti name (m_tid m) /\
                       follow n c ti e (ByteOffset (a + b)) (m_tid m) (Name name :: cs) = Ok r
    | Err _ => False
    | _ => True end.
  Proof.
    intros Hty Hms Ha Hv. destruct (is_from_id ti t ty Hty) as (r0 & Er0).
    assert (HA : forall m, In m ms -> m_name m = None -> exists b, m_offset m = ByteOffset b /\ offset_add (m_offset m) (ByteOffset a) = Ok (ByteOffset (a + b)) /\ a + b < 2 ^ 32).
    { intros m Hin Hn. destruct (Hb _ _ _ _ Er0 Hms Hin Hn) as (b & Em). exists b. split; [exact Em|].
      pose proof (Hv _ _ (visits_anonymous _ _ _ _ _ _ _ _ _ _ _ Hty Hms Hin Hn Em (visits_here _ _ _ _))) as V.
      rewrite Em. split; [|lia]. apply add_byte_ok. split; [cbn; f_equal; lia|cbn; lia]. }
    pose proof (probe_cases (fun o mt => follow n c ti e o mt (Name name :: cs)) (ByteOffset a) ms) as P.
    destruct (probe_anonymous _ (ByteOffset a) ms) as [[[u o]|]|k|q|]; try exact I.
    - destruct P as (m & o' & Hin & Hn & Ho & F). destruct (HA m Hin Hn) as (b & Em & Ho' & Hlt). rewrite Ho' in Ho. injection Ho as <-.
      exists m, b. repeat split; try assumption. apply follow_sound in F; [|exact Hlt]. destruct F as (_ & _ & o'' & L & _). eapply leads_offers; [exact L|reflexivity].
    - destruct P as (m & k' & Hin & Hn & Ho & _). destruct (HA m Hin Hn) as (b & Em & Ho' & _). congruence.
  Qed.

  Lemma follow_stuck t cs u o : leads ti (computed c ti) t cs u o -> forall b rest n a, o = ByteOffset b ->
    (forall r b', visits ti (computed c ti) t (cs ++ rest) r b' -> a + b' < 2 ^ 32) ->
    (forall m, path_error (follow m c ti e (ByteOffset (a + b)) u rest)) ->
    path_error (follow n c ti e (ByteOffset a) t (cs ++ rest)).
  Proof.
    induction 1 as [t|t h d i s cs u o Hty Hi Hs HL IH|t ty ms nm m b0 cs u o Hty Hms Hm Ho HL IH|t ty ms nm m b0 s Hty Hms Hm Ho|t ty ms nm m b0 cs u o Hty Hms Hin Hn Ho HL IH];
      intros b rest n a Eo Hv Hst.
    - injection Eo as <-. rewrite N.add_0_r in Hst. apply Hst.
    - destruct n as [|n]; [exact I|]. cbn [app]. rewrite follow_S. assert (Hty' := Hty). apply is_resolve in Hty'. destruct Hty' as (r & ->). cbn [obind snd round].
      destruct o as [b1|]; [|discriminate]. injection Eo as <-.
      assert (V : forall r b', visits ti (computed c ti) (element_tid d) (cs ++ rest) r b' -> a + i * s + b' < 2 ^ 32).
      { intros r' b' V. pose proof (Hv r' (i * s + b') ltac:(eapply visits_index; eassumption)). lia. }
      pose proof (V _ _ (visits_here _ _ _ _)) as V0.
      assert (E : array_step c ti d (ByteOffset a) i = Ok (ByteOffset (a + i * s))).
      { apply array_step_ok. exists s, a. repeat split; try assumption. lia. }
      rewrite E. cbn [obind]. apply (IH b1 rest n (a + i * s) eq_refl V). intros m. replace (a + i * s + b1) with (a + (i * s + b1)) by lia. apply Hst.
    - destruct n as [|n]; [exact I|]. cbn [app]. rewrite follow_S. assert (Hty' := Hty). apply is_resolve in Hty'. destruct Hty' as (r & ->). cbn [obind snd].
      rewrite (round_name _ _ _ _ _ _ _ _ _ Hms). destruct o as [b1|]; [|discriminate]. injection Eo as <-.
      pose proof (Hv _ _ (visits_here _ _ _ _)) as V0.
      pose proof (probe_here n a t ty ms nm (cs ++ rest) Hty Hms ltac:(lia) Hv) as P.
      destruct (probe_anonymous _ (ByteOffset a) ms) as [[r0|]|k|q|]; cbn [obind]; try exact I; [| |destruct P].
      + destruct P as (m' & b' & Hin' & Hn' & _ & Hoff & _). exfalso. apply named_In in Hm. destruct Hm as [Hin Hnm].
        assert (E : m' = m) by (eapply (Hu _ _ _ nm); [exact Hty|exact Hms|exact Hin'|exact Hin|right; auto|left; exact Hnm]). congruence.
      + assert (V : forall r b', visits ti (computed c ti) (m_tid m) (cs ++ rest) r b' -> a + b0 + b' < 2 ^ 32).
        { intros r' b' V. pose proof (Hv r' (b0 + b') ltac:(eapply visits_member; eassumption)). lia. }
        pose proof (V _ _ (visits_here _ _ _ _)) as V1.
        apply find_named in Hm. rewrite Hm. rewrite Ho. assert (E : offset_add (ByteOffset a) (ByteOffset b0) = Ok (ByteOffset (a + b0))) by (apply add_byte_ok; split; [reflexivity|cbn; lia]).
        rewrite E. cbn [btf_err obind]. apply (IH b1 rest n (a + b0) eq_refl V). intros k. replace (a + b0 + b1) with (a + (b0 + b1)) by lia. apply Hst.
    - discriminate.
    - destruct n as [|n]; [exact I|]. cbn [app]. rewrite follow_S. assert (Hty' := Hty). apply is_resolve in Hty'. destruct Hty' as (r & ->). cbn [obind snd].
      rewrite (round_name _ _ _ _ _ _ _ _ _ Hms). destruct o as [b1|]; [|discriminate]. injection Eo as <-.
      pose proof (Hv _ _ (visits_here _ _ _ _)) as V0.
      assert (Hof : accounts ti nm m) by (right; split; [exact Hn|eapply leads_offers; [exact HL|reflexivity]]).
      pose proof (probe_here n a t ty ms nm (cs ++ rest) Hty Hms ltac:(lia) Hv) as P.
      destruct (probe_anonymous _ (ByteOffset a) ms) as [[r0|]|k|q|]; cbn [obind]; try exact I; [| |destruct P].
      + destruct P as (m' & b' & Hin' & Hn' & Ho' & Hoff & F). exfalso.
        assert (E : m' = m) by (eapply (Hu _ _ _ nm); [exact Hty|exact Hms|exact Hin'|exact Hin|right; auto|exact Hof]). subst m'.
        rewrite Ho in Ho'. injection Ho' as <-.
        assert (PE : path_error (follow n c ti e (ByteOffset (a + b0)) (m_tid m) ((Name nm :: cs) ++ rest))).
        { apply (IH b1 rest n (a + b0) eq_refl).
          - intros r' b' V. pose proof (Hv r' (b0 + b') ltac:(eapply visits_anonymous; eassumption)). lia.
          - intros k. replace (a + b0 + b1) with (a + (b0 + b1)) by lia. apply Hst. }
        cbn [app] in PE. rewrite F in PE. exact PE.
      + destruct (find (has_name nm) ms) as [m'|] eqn:Ef; [|reflexivity]. exfalso. apply find_named, named_In in Ef. destruct Ef as [Hin' Hn'].
        assert (E : m' = m) by (eapply (Hu _ _ _ nm); [exact Hty|exact Hms|exact Hin'|exact Hin|left; exact Hn'|exact Hof]). congruence.
  Qed.
  Lemma refused_stuck u x rest n a : refused ti u x -> (forall r b, visits ti (computed c ti) u (x :: rest) r b -> a + b < 2 ^ 32) ->
    path_error (follow n c ti e (ByteOffset a) u (x :: rest)).
  Proof.
    intros Hr Hv. destruct n as [|n]; [exact I|]. rewrite follow_S. destruct x as [i|nm]; destruct Hr as (ty & Hty & Hr); assert (Hty' := Hty); apply is_resolve in Hty'; destruct Hty' as (r & ->); cbn [obind snd].
    - unfold round. destruct ty; try reflexivity. unfold array_step. replace (element_count d <=? i) with true by lia. reflexivity.
    - destruct Hr as [Hr|[[ms Hms] Hr]].
      + unfold round. destruct (member_lists ty) as [ms|] eqn:Ems; [|destruct ty; reflexivity]. apply member_lists_iff in Ems. destruct Hr. exists ms. exact Ems.
      + rewrite (round_name _ _ _ _ _ _ _ _ _ Hms). pose proof (Hv _ _ (visits_here _ _ _ _)) as V0.
        pose proof (probe_here n a u ty ms nm rest Hty Hms ltac:(lia) Hv) as P.
        destruct (probe_anonymous _ (ByteOffset a) ms) as [[r0|]|k|q|]; cbn [obind]; try exact I; [| |destruct P].
        * destruct P as (m' & b' & Hin' & Hn' & _ & Hoff & _). destruct Hr. eapply offers_anonymous; eassumption.
        * destruct (find (has_name nm) ms) as [m'|] eqn:Ef; [|reflexivity]. apply find_named, named_In in Ef. destruct Ef as [Hin' Hn']. destruct Hr. eapply offers_member; eassumption.
  Qed.
End Stuck.
Lemma leads_visits ti sz t cs u o : leads ti sz t cs u o -> forall b, o = ByteOffset b -> forall rest r b', visits ti sz u rest r b' -> visits ti sz t (cs ++ rest) r (b + b').
Proof.
  induction 1 as [t|t h d i s cs u o Hty Hi Hs HL IH|t ty ms nm m b0 cs u o Hty Hms Hm Ho HL IH|t ty ms nm m b0 s Hty Hms Hm Ho|t ty ms nm m b0 cs u o Hty Hms Hin Hn Ho HL IH];
    intros b Eo rest r b' V.
  - injection Eo as <-. exact V.
  - destruct o as [b1|]; [|discriminate]. injection Eo as <-. rewrite <- N.add_assoc. cbn [app]. eapply visits_index; eauto.
  - destruct o as [b1|]; [|discriminate]. injection Eo as <-. rewrite <- N.add_assoc. cbn [app]. eapply visits_member; eauto.
  - discriminate.
  - destruct o as [b1|]; [|discriminate]. injection Eo as <-. rewrite <- N.add_assoc. cbn [app]. eapply visits_anonymous; eauto.
Qed.

(** The beginning of the path leads to [u], where the next component is refused. *)
Theorem offset_of_refused c ti t p cs x rest u b : valid_utf8 p ->
  acyclic ti -> sizes_fit c ti -> anonymous_in_bytes ti -> unambiguous ti ->
  reads_as (usize_max c) p (cs ++ x :: rest) -> leads ti (size ti) t cs u (ByteOffset b) -> refused ti u x ->
  (forall r b', visits ti (size ti) t (cs ++ x :: rest) r b' -> b' < 2 ^ 32) ->
  offset_of_returns c ti t p (Err InvalidTypePath).
Proof.
  intros Hp Ha Hs Hab Hu Hr HL Hx Hv. destruct (offset_of_terminates c ti t p Hp Ha) as (r & Hret). assert (Hret' := Hret). destruct Hret' as [D [n H]].
  apply script_reads in Hr; [|exact Hp]. rewrite (uncached_user _ _ _ _ _ _ _ Hp Hr) in H.
  assert (HLc : leads ti (computed c ti) t cs u (ByteOffset b)) by (eapply leads_impl; [|exact HL]; intros; apply size_computed; assumption).
  assert (Hvc : forall r b', visits ti (computed c ti) t (cs ++ x :: rest) r b' -> 0 + b' < 2 ^ 32).
  { intros r' b' V. apply (Hv r'). eapply visits_impl; [|exact V]. intros. eapply computed_size; eauto. }
  assert (PE : path_error (follow n c ti None (ByteOffset 0) t (cs ++ x :: rest))).
  { eapply follow_stuck; try eassumption; [reflexivity|]. intros m. apply refused_stuck; try assumption. intros r' b' V. rewrite N.add_0_l.
    apply (Hvc r'). eapply leads_visits; [exact HLc|reflexivity|exact V]. }
  destruct (follow n c ti None (ByteOffset 0) t (cs ++ x :: rest)) as [r'|k|q|] eqn:F; cbn in H, PE.
  - destruct PE.
  - rewrite PE in H. subst r. exact Hret.
  - exfalso. apply follow_panic in F. destruct F as (y & F). eapply sizes_fit_no_panic; eassumption.
  - congruence.
Qed.
(** The beginning of the path leads to some place, and what follows is malformed. *)
Theorem offset_of_malformed c ti t p cs u b : valid_utf8 p ->
  acyclic ti -> sizes_fit c ti -> anonymous_in_bytes ti -> unambiguous ti ->
  malformed_after c p cs -> leads ti (size ti) t cs u (ByteOffset b) ->
  (forall r b', visits ti (size ti) t cs r b' -> b' < 2 ^ 32) ->
  offset_of_returns c ti t p (Err InvalidTypePath).
Proof.
  intros Hp Ha Hs Hab Hu Hr HL Hv. destruct (offset_of_terminates c ti t p Hp Ha) as (r & Hret). assert (Hret' := Hret). destruct Hret' as [D [n H]].
  apply malformed_script in Hr; [|exact Hp]. rewrite (uncached_user _ _ _ _ _ _ _ Hp Hr) in H.
  assert (HLc : leads ti (computed c ti) t cs u (ByteOffset b)) by (eapply leads_impl; [|exact HL]; intros; apply size_computed; assumption).
  assert (PE : path_error (follow n c ti (Some InvalidTypePath) (ByteOffset 0) t (cs ++ []))).
  { eapply follow_stuck; try eassumption; [reflexivity| |].
    - intros r' b' V. rewrite app_nil_r in V. apply (Hv r'). eapply visits_impl; [|exact V]. intros. eapply computed_size; eauto.
    - intros [|m]; [exact I|reflexivity]. }
  rewrite app_nil_r in PE.
  destruct (follow n c ti (Some InvalidTypePath) (ByteOffset 0) t cs) as [r'|k|q|] eqn:F; cbn in H, PE.
  - destruct PE.
  - rewrite PE in H. subst r. exact Hret.
  - exfalso. apply follow_panic in F. destruct F as (y & F). eapply sizes_fit_no_panic; eassumption.
  - congruence.
Qed.

(** The first component alone decides, on any table. *)
Lemma first_component c p x : valid_utf8 p -> begins c p [x] -> exists cs e, ascripts c (PStart, p) (x :: cs) e.
Proof.
  intros Hp Hb. destruct (script_of c p Hp) as (cs & e & Hs & _). destruct (begins_script c p [x] cs e Hp Hs Hb) as (rest & ->). eauto.
Qed.
Theorem offset_of_first_index c ti t p i ty : valid_utf8 p -> begins c p [Index i] -> is ti t ty ->
  match ty with TArray _ d => element_count d <= i | _ => True end -> offset_of_returns c ti t p (Err InvalidTypePath).
Proof.
  intros Hp Hb Hty Hx. destruct (first_component c p _ Hp Hb) as (cs & e & Hs). split; [discriminate|]. exists 1%nat.
  rewrite (uncached_user _ _ _ _ _ _ _ Hp Hs), follow_S. apply is_resolve in Hty. destruct Hty as (r & ->). cbn [obind snd]. unfold round.
  destruct ty; try reflexivity. unfold array_step. replace (element_count d <=? i) with true by lia. reflexivity.
Qed.
Theorem offset_of_first_name c ti t p nm ty : valid_utf8 p -> begins c p [Name nm] -> is ti t ty -> ~ has_members ty ->
  offset_of_returns c ti t p (Err InvalidTypePath).
Proof.
  intros Hp Hb Hty Hx. destruct (first_component c p _ Hp Hb) as (cs & e & Hs). split; [discriminate|]. exists 1%nat.
  rewrite (uncached_user _ _ _ _ _ _ _ Hp Hs), follow_S. apply is_resolve in Hty. destruct Hty as (r & ->). cbn [obind snd]. unfold round.
  destruct (member_lists ty) as [ms|] eqn:Ems; [|destruct ty; reflexivity]. apply member_lists_iff in Ems. destruct Hx. exists ms. exact Ems.
Qed.
Theorem offset_of_first_malformed c ti t p : valid_utf8 p -> malformed_after c p [] -> offset_of_returns c ti t p (Err InvalidTypePath).
Proof.
  intros Hp Hm. apply malformed_script in Hm; [|exact Hp]. split; [discriminate|]. exists 1%nat. rewrite (uncached_user _ _ _ _ _ _ _ Hp Hm). reflexivity.
Qed.
Theorem offset_of_unknown c ti t p x r : valid_utf8 p -> begins c p [x] -> chain (transparent ti) t r -> from_id ti r = None ->
  offset_of_returns c ti t p (Err InvalidTypeID).
Proof.
  intros Hp Hb Hc Hr. destruct (first_component c p _ Hp Hb) as (cs & e & Hs). split; [discriminate|]. exists 1%nat.
  rewrite (uncached_user _ _ _ _ _ _ _ Hp Hs), follow_S, (resolve_chain _ _ _ Hc), (resolve_unknown _ _ Hr). reflexivity.
Qed.
(** ** Indexing an array *)
Theorem offset_of_index_big c ti t h d i s p : valid_utf8 p -> begins c p [Index i] -> is ti t (TArray h d) -> i < element_count d ->
  size_of c ti (element_tid d) = Ok s -> 2 ^ 32 <= i * s -> offset_of_returns c ti t p (Err InvalidTypePath).
Proof.
  intros Hp Hb Hty Hi Hs Hbig. destruct (first_component c p _ Hp Hb) as (cs & e & Hsc). split; [discriminate|]. exists 1%nat.
  rewrite (uncached_user _ _ _ _ _ _ _ Hp Hsc), follow_S. apply is_resolve in Hty. destruct Hty as (r & ->). cbn [obind snd]. unfold round, array_step.
  replace (element_count d <=? i) with false by lia. rewrite Hs. cbn [btf_err obind].
  destruct (index_size i s) as [v|] eqn:E; [apply index_size_iff in E; lia|]. reflexivity.
Qed.
Theorem offset_of_index c ti t h d i s p q cs : valid_utf8 p -> valid_utf8 q ->
  reads_as (usize_max c) p (Index i :: cs) -> reads_as (usize_max c) q cs ->
  is ti t (TArray h d) -> i < element_count d -> size_of c ti (element_tid d) = Ok s ->
  (forall r b, visits ti (computed c ti) (element_tid d) cs r b -> i * s + b < 2 ^ 32) ->
  (forall u o, leads ti (computed c ti) (element_tid d) cs u o -> fits32 (shift (i * s) o)) ->
  (forall u o, offset_of_returns c ti (element_tid d) q (Ok (u, o)) -> offset_of_returns c ti t p (Ok (u, shift (i * s) o))) /\
  (forall k, offset_of_returns c ti (element_tid d) q (Err k) -> exists k', offset_of_returns c ti t p (Err k')).
Proof.
  intros Hp Hq Hrp Hrq Hty Hi Hs Hv Hl. apply script_reads in Hrp; [|exact Hp]. apply script_reads in Hrq; [|exact Hq].
  assert (HF : forall n, follow (S n) c ti None (ByteOffset 0) t (Index i :: cs) = follow n c ti None (ByteOffset (i * s + 0)) (element_tid d) cs).
  { intros n. rewrite follow_S. apply is_resolve in Hty. destruct Hty as (r & ->). cbn [obind snd round].
    assert (E : array_step c ti d (ByteOffset 0) i = Ok (ByteOffset (i * s + 0))).
    { apply array_step_ok. exists s, 0. pose proof (Hv _ _ (visits_here _ _ _ _)). repeat split; try assumption; [f_equal|]; lia. }
    rewrite E. reflexivity. }
  assert (HM : forall n, match follow n c ti None (ByteOffset 0) (element_tid d) cs with
    | Ok (u, o) => follow n c ti None (ByteOffset (i * s + 0)) (element_tid d) cs = Ok (u, shift (i * s) o)
    | Err _ => is_err (follow n c ti None (ByteOffset (i * s + 0)) (element_tid d) cs) | _ => True end).
  { intros n. apply move_bytes.
    - intros r b V. pose proof (Hv r b V). lia.
    - intros u o L. rewrite N.add_0_r. exact (Hl u o L). }
  split.
  - intros u o [_ [n H]]. rewrite (uncached_user _ _ _ _ _ _ _ Hq Hrq) in H. split; [discriminate|]. exists (S n).
    rewrite (uncached_user _ _ _ _ _ _ _ Hp Hrp), HF. specialize (HM n).
    destruct (follow n c ti None (ByteOffset 0) (element_tid d) cs) as [[u' o']| | |]; try discriminate. cbn in H. injection H as -> ->. rewrite HM. reflexivity.
  - intros k [_ [n H]]. rewrite (uncached_user _ _ _ _ _ _ _ Hq Hrq) in H. specialize (HM n).
    destruct (follow n c ti None (ByteOffset 0) (element_tid d) cs) as [[u' o']|k'| |]; try discriminate.
    destruct (follow n c ti None (ByteOffset (i * s + 0)) (element_tid d) cs) as [|k''| |] eqn:F; try contradiction.
    exists (offset_error_kind k''). split; [discriminate|]. exists (S n). rewrite (uncached_user _ _ _ _ _ _ _ Hp Hrp), HF, F. reflexivity.
Qed.

(** ** Members *)
Definition no_index (cs : list component) : Prop := Forall (fun x => match x with Name _ => True | _ => False end) cs.
Lemma probe_no_panic f off ms : (forall o mt q, f o mt <> Panic q) -> forall q, probe_anonymous f off ms <> Panic q.
Proof.
  intros H q E. pose proof (probe_cases f off ms) as P. rewrite E in P. destruct P as (m & o & _ & _ & _ & F). exact (H _ _ _ F).
Qed.
Lemma follow_names c ti e n : forall cs off t q, no_index cs -> follow n c ti e off t cs <> Panic q.
Proof.
  induction n as [|n IH]; intros cs off t q Hc; [discriminate|]. destruct cs as [|x cs]; [cbn; destruct e; discriminate|].
  inversion Hc as [|x' cs' Hx Hc']; subst. destruct x as [|nm]; [destruct Hx|]. rewrite follow_S.
  pose proof (resolve_sound ti t) as R. destruct (resolve ti t) as [[r ty]|k|q'|]; cbn [obind snd]; try discriminate; [|destruct R].
  destruct (member_lists ty) as [ms|] eqn:Ems; [|unfold round; rewrite Ems; destruct ty; discriminate]. apply member_lists_iff in Ems.
  rewrite (round_name _ _ _ _ _ _ _ _ _ Ems).
  pose proof (probe_no_panic (fun o mt => follow n c ti e o mt (Name nm :: cs)) off ms (fun o mt q0 => IH (Name nm :: cs) o mt q0 Hc)) as P.
  destruct (probe_anonymous _ off ms) as [[r0|]|k|q'|]; cbn [obind]; try discriminate; [|exfalso; exact (P q' eq_refl)].
  destruct (find (has_name nm) ms) as [m|]; [|discriminate]. pose proof (add_not_panic off (m_offset m)) as A.
  destruct (offset_add off (m_offset m)); cbn [btf_err obind]; try discriminate; [|destruct A]. apply IH. exact Hc'.
Qed.
Theorem offset_of_member c ti t p ty ms nm m : valid_utf8 p -> reads_as (usize_max c) p [Name nm] ->
  acyclic ti -> anonymous_in_bytes ti -> (forall r b, visits ti (size ti) t [Name nm] r b -> b < 2 ^ 32) ->
  is ti t ty -> members_of ty ms -> named ms nm m -> (forall m', In m' ms -> m_name m' = None -> ~ offers ti nm (m_tid m')) ->
  fits32 (m_offset m) -> offset_of_returns c ti t p (Ok (m_tid m, m_offset m)).
Proof.
  intros Hp Hr Ha Hb Hv Hty Hms Hm Hno Hf.
  destruct (offset_of_terminates c ti t p Hp Ha) as (r & Hret). assert (Hret' := Hret). destruct Hret' as [D [n H]].
  apply script_reads in Hr; [|exact Hp]. rewrite (uncached_user _ _ _ _ _ _ _ Hp Hr) in H.
  assert (NP : forall q, follow n c ti None (ByteOffset 0) t [Name nm] <> Panic q) by (intros q; apply follow_names; constructor; [exact I|constructor]).
  assert (Hvc : forall r b', visits ti (computed c ti) t [Name nm] r b' -> 0 + b' < 2 ^ 32).
  { intros r' b' V. rewrite N.add_0_l. apply (Hv r'). clear -V.
    remember [Name nm] as cs eqn:E. induction V as [t cs|t h d i s cs u a Hty Hi Hs V IH|t ty ms n m b cs u a Hty Hms Hm Ho V IH|t ty ms n m b cs u a Hty Hms Hin Hn Ho V IH]; try discriminate.
    - apply visits_here.
    - injection E as -> ->. inversion V; subst. eapply visits_member; try eassumption. apply visits_here.
    - injection E as -> ->. eapply visits_anonymous; try eassumption. apply IH. reflexivity. }
  destruct n as [|n]; [cbn in H; congruence|]. rewrite follow_S in H, NP. pose proof Hty as Hty'. apply is_resolve in Hty'. destruct Hty' as (r0 & Er0). rewrite Er0 in H, NP. cbn [obind snd] in H, NP.
  rewrite (round_name _ _ _ _ _ _ _ _ _ Hms) in H. pose proof (probe_here c ti None Hb n 0 t ty ms nm [] Hty Hms ltac:(lia) Hvc) as P.
  assert (NP' := NP). assert (NPr : forall q, obind (resolve ti t) (fun r => round c ti None (fun o mt => follow n c ti None o mt [Name nm]) (fun o mt => follow n c ti None o mt []) (ByteOffset 0) (snd r) (Name nm)) <> Panic q).
  { rewrite Er0. exact NP. }
  clear NP NP' NPr.
  pose proof (probe_no_panic (fun o mt => follow n c ti None o mt [Name nm]) (ByteOffset 0) ms (fun o mt q => follow_names c ti None n [Name nm] o mt q ltac:(constructor; [exact I|constructor]))) as NP.
  destruct (probe_anonymous _ (ByteOffset 0) ms) as [[r1|]|k|q|]; cbn [obind] in H.
  - destruct P as (m' & b' & Hin' & Hn' & _ & Hoff & _). destruct (Hno m' Hin' Hn' Hoff).
  - apply find_named in Hm. rewrite Hm in H. rewrite (add_identity _ Hf) in H. cbn [btf_err obind] in H.
    destruct n as [|n]; cbn in H; [congruence|]. subst r. exact Hret.
  - destruct P.
  - destruct (NP q eq_refl).
  - cbn in H. congruence.
Qed.

(** ** Containment *)
Theorem offset_of_inside c ti t p u o st : valid_utf8 p -> sizes_fit c ti -> consistent ti ->
  offset_of_returns c ti t p (Ok (u, o)) -> size_of c ti t = Ok st ->
  match o with
  | ByteOffset b => exists su, size_of c ti u = Ok su /\ b + su <= st
  | BitOffsetAndSize b z => b + z <= 8 * st
  end.
Proof.
  intros Hp Hf Hc Hr Hst. apply offset_of_sound in Hr; [|exact Hp]. destruct Hr as (_ & cs & _ & L).
  assert (L' : leads ti (size ti) t cs u o) by (eapply leads_impl; [|exact L]; intros; eapply computed_size; eauto).
  pose proof (leads_inside ti t cs u o Hc L' st (computed_size _ _ _ _ (or_intror Hf) Hst)) as G.
  destruct o as [b|b z]; [|exact G]. destruct G as (su & Hsu & Hle). exists su. split; [apply size_computed; assumption|exact Hle].
Qed.
