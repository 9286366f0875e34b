(** Facts about the search (C70). *)
From Coq Require Import List NArith Bool Lia.
From Verif Require Import TypeInfo Spec BaseFacts PathSpec Path PathGrammar QuerySpec Chains Sizes Follow Offsets Offsets2 OffsetOf OffsetOf2 OutcomeSpec Outcome Message MessageSpec MessageFacts MessagePath MessageOffset SearchSpec.
Import ListNotations.
Open Scope N_scope.

Lemma adds_iff a o r : adds a o r <-> add_msg a o = r.
Proof.
  split.
  - intros [a0 o0 F|a0 b L|a0 b z L|a0 b z L1 L2|b z o0]; cbn [add_msg]; unfold checked, two_pow.
    + destruct o0 as [b|b z]; cbn [QuerySpec.shift fits32] in *.
      * destruct (N.ltb_spec (a0 + b) (2 ^ 32)); [reflexivity|lia].
      * destruct (N.ltb_spec (a0 * 8) (2 ^ 32)); [|lia]. cbn [ok_or obind]. destruct (N.ltb_spec (a0 * 8 + b) (2 ^ 32)); [|lia]. cbn [ok_or obind]. do 2 f_equal. lia.
    + destruct (N.ltb_spec (a0 + b) (2 ^ 32)); [lia|reflexivity].
    + destruct (N.ltb_spec (a0 * 8) (2 ^ 32)); [lia|reflexivity].
    + destruct (N.ltb_spec (a0 * 8) (2 ^ 32)); [|lia]. cbn [ok_or obind]. destruct (N.ltb_spec (a0 * 8 + b) (2 ^ 32)); [lia|reflexivity].
    + reflexivity.
  - intros <-. destruct a as [a|b z]; [|constructor]. destruct o as [b|b z]; cbn [add_msg]; unfold checked, two_pow.
    + destruct (N.ltb_spec (a + b) (2 ^ 32)); cbn [ok_or obind]; [apply (adds_fits a (ByteOffset b)); assumption|apply adds_far; assumption].
    + destruct (N.ltb_spec (a * 8) (2 ^ 32)); cbn [ok_or obind]; [|apply adds_far_bits; lia].
      destruct (N.ltb_spec (a * 8 + b) (2 ^ 32)); cbn [ok_or obind]; [|apply adds_far_bit; lia].
      replace (a * 8 + b) with (8 * a + b) by lia. apply (adds_fits a (BitOffsetAndSize b z)). cbn. lia.
Qed.
Lemma add_u32_is o v : add_u32_msg o v = add_msg o (ByteOffset v). Proof. destruct o; reflexivity. Qed.
Lemma add_msg_ends a o : (exists r, add_msg a o = Ok r) \/ exists m, add_msg a o = Err m.
Proof. destruct a as [a|b z], o as [b'|b' z']; cbn [add_msg]; unfold checked, two_pow; repeat (destruct (_ <? _); cbn [ok_or obind]); eauto. Qed.

Lemma resolve_msg_ok ti t ty : is ti t ty -> exists r, resolve_msg ti t = Ok (r, ty).
Proof.
  intros H. apply is_resolve in H. destruct H as [r H]. exists r. pose proof (resolve_kind ti t) as K. rewrite H in K. cbn [kind_of] in K. destruct (resolve_msg ti t); cbn [kind_only] in K; try discriminate K. injection K as ->. reflexivity.
Qed.
Lemma resolve_msg_unknown ti t r : chain (transparent ti) t r -> from_id ti r = None -> resolve_msg ti t = Err MInvalidTypeId.
Proof.
  intros H U. pose proof (resolve_kind ti t) as K. rewrite (resolve_chain ti t r H), (resolve_unknown ti r U) in K. cbn [kind_of offset_error_kind] in K.
  pose proof (resolve_msg_says ti t) as R. destruct (resolve_msg ti t) as [[? ?]|m|q|]; cbn [kind_only] in K; try discriminate K. destruct R as [-> _]. reflexivity.
Qed.
Lemma resolve_msg_endless ti t : resolve_msg ti t = Diverge <-> endless (transparent ti) t.
Proof.
  rewrite <- resolve_diverge. pose proof (resolve_kind ti t) as K. destruct (resolve_msg ti t), (resolve ti t); cbn in K; try discriminate K; split; congruence.
Qed.
Lemma size_msg_endless c ti t : size_msg c ti t = Diverge <-> endless (size_link ti) t.
Proof.
  rewrite <- (size_diverge c). pose proof (size_kind c ti t) as K. destruct (size_msg c ti t), (size_of c ti t); cbn in K; try discriminate K; split; congruence.
Qed.

Section Hunt.
  Context (c : build) (ti : type_information) (e : option message).
  Notation result := (outcome message (N * offset)).
  (** One round *)
  Definition look (probe go : offset -> N -> result) (off : offset) (ty : type_variant) (x : component) : result :=
    match ty with
    | TVoid => Err MVoidDereference
    | _ =>
      match x with
      | Index i =>
          match ty with
          | TArray _ d => obind (array_step_msg c ti d off i) (fun off' => go off' (element_tid d))
          | TPtr _ _ => Err MPtrNotIndexable
          | _ => Err MTypeNotIndexable
          end
      | Name name =>
          match member_lists ty with
          | None => Err MNotStructOrUnion
          | Some ms =>
              obind (probe_msg probe off ms)
                (fun found =>
                 match found with
                 | Some r => Ok r
                 | None =>
                     match find (has_name name) ms with
                     | Some m => obind (add_msg off (m_offset m)) (fun off' => go off' (m_tid m))
                     | None => Err (MMemberNotFound name)
                     end
                 end)
          end
      end
    end.
  Fixpoint hunt (n : nat) (off : offset) (t : N) (cs : list component) : result :=
    match n with
    | O => Diverge
    | S n' =>
        match cs with
        | [] => match e with None => Ok (t, off) | Some m => Err m end
        | x :: cs' => obind (resolve_msg ti t) (fun r => look (fun o mt => hunt n' o mt cs) (fun o mt => hunt n' o mt cs') off (snd r) x)
        end
    end.
  Lemma hunt_S n off t x cs : hunt (S n) off t (x :: cs) = obind (resolve_msg ti t) (fun r => look (fun o mt => hunt n o mt (x :: cs)) (fun o mt => hunt n o mt cs) off (snd r) x).
  Proof. reflexivity. Qed.
  Lemma probe_msg_ext f g off ms : (forall o mt, f o mt = g o mt) -> probe_msg f off ms = probe_msg g off ms.
  Proof. intros H. induction ms as [|m ms IH]; [reflexivity|]. cbn [probe_msg]. destruct (is_anonymous m); [|exact IH]. destruct (add_msg _ _); cbn [obind]; try reflexivity. rewrite H. destruct (g a (m_tid m)); try reflexivity. exact IH. Qed.
  Lemma impl_hunt p n : forall off t it cs, mscript c p it cs e -> offset_of_msg_impl n c ti p off t it = hunt n off t cs.
  Proof.
    induction n as [|n IH]; intros off t it cs M; [reflexivity|]. pose proof M as M0. cbn [offset_of_msg_impl]. inversion M as [it0 E|it0 m0 E|it0 x it' cs' e0 E M']; subst.
    - destruct (next_msg c p it) as [r it']. cbn [fst] in E. subst r. cbn. rewrite <- H1. reflexivity.
    - destruct (next_msg c p it) as [r it']. cbn [fst] in E. subst r. cbn. rewrite <- H1. reflexivity.
    - rewrite E, hunt_S. destruct (resolve_msg ti t) as [[r ty]|k|q|]; try reflexivity. cbn [obind snd].
      assert (P : forall ms, probe_msg (fun o mt => offset_of_msg_impl n c ti p o mt it) off ms = probe_msg (fun o mt => hunt n o mt (x :: cs')) off ms) by (intros ms; apply probe_msg_ext; intros; apply IH; exact M0).
      assert (G : forall o mt, offset_of_msg_impl n c ti p o mt it' = hunt n o mt cs') by (intros; apply IH; exact M').
      destruct ty; destruct x as [i|name]; cbn [look member_lists]; try reflexivity.
      + destruct (array_step_msg c ti d off i); cbn [obind]; try reflexivity. apply G.
      + rewrite P. destruct (probe_msg _ off (member_list d)) as [[?|]|?|?|]; cbn [obind]; try reflexivity. destruct (find _ _); try reflexivity. destruct (add_msg _ _); cbn [obind]; try reflexivity. apply G.
      + rewrite P. destruct (probe_msg _ off (member_list d)) as [[?|]|?|?|]; cbn [obind]; try reflexivity. destruct (find _ _); try reflexivity. destruct (add_msg _ _); cbn [obind]; try reflexivity. apply G.
  Qed.
  Lemma probe_msg_mono f g off ms : (forall o mt, f o mt <> Diverge -> g o mt = f o mt) -> probe_msg f off ms <> Diverge -> probe_msg g off ms = probe_msg f off ms.
  Proof.
    intros H. induction ms as [|m ms IH]; [reflexivity|]. cbn [probe_msg]. destruct (is_anonymous m); [|exact IH]. destruct (add_msg _ _); cbn [obind]; try reflexivity.
    intros D. rewrite H by (intros X; rewrite X in D; congruence). destruct (f a (m_tid m)); try reflexivity. apply IH. exact D.
  Qed.
  Lemma look_mono p1 p2 g1 g2 off ty x : (forall o mt, p1 o mt <> Diverge -> p2 o mt = p1 o mt) -> (forall o mt, g1 o mt <> Diverge -> g2 o mt = g1 o mt) ->
    look p1 g1 off ty x <> Diverge -> look p2 g2 off ty x = look p1 g1 off ty x.
  Proof.
    intros Hp Hg. assert (M : forall name ms,
      obind (probe_msg p1 off ms) (fun found => match found with Some r => Ok r | None =>
        match find (has_name name) ms with Some m => obind (add_msg off (m_offset m)) (fun off' => g1 off' (m_tid m)) | None => Err (MMemberNotFound name) end end) <> Diverge ->
      obind (probe_msg p2 off ms) (fun found => match found with Some r => Ok r | None =>
        match find (has_name name) ms with Some m => obind (add_msg off (m_offset m)) (fun off' => g2 off' (m_tid m)) | None => Err (MMemberNotFound name) end end) =
      obind (probe_msg p1 off ms) (fun found => match found with Some r => Ok r | None =>
        match find (has_name name) ms with Some m => obind (add_msg off (m_offset m)) (fun off' => g1 off' (m_tid m)) | None => Err (MMemberNotFound name) end end)).
    { intros name ms D. rewrite (probe_msg_mono p1 p2) by (try exact Hp; intros X; rewrite X in D; apply D; reflexivity).
      destruct (probe_msg p1 off ms) as [[?|]|?|?|]; cbn [obind] in *; try reflexivity. destruct (find _ _); try reflexivity. destruct (add_msg _ _); cbn [obind] in *; try reflexivity. apply Hg. exact D. }
    destruct ty; destruct x as [i|name]; cbn [look member_lists]; try reflexivity; try (apply M).
    intros D. destruct (array_step_msg c ti d off i); cbn [obind] in *; try reflexivity. apply Hg. exact D.
  Qed.
  Lemma hunt_mono n : forall off t cs, hunt n off t cs <> Diverge -> hunt (S n) off t cs = hunt n off t cs.
  Proof.
    induction n as [|n IH]; intros off t cs D; [exfalso; apply D; reflexivity|]. destruct cs as [|x cs]; [reflexivity|]. rewrite hunt_S in D. rewrite !hunt_S.
    destruct (resolve_msg ti t) as [[r ty]|k|q|]; cbn [obind snd] in *; try reflexivity. apply look_mono; [intros; apply IH; assumption|intros; apply IH; assumption|exact D].
  Qed.
  Lemma hunt_le n m off t cs : (n <= m)%nat -> hunt n off t cs <> Diverge -> hunt m off t cs = hunt n off t cs.
  Proof. induction 1 as [|m L IH]; [reflexivity|]. intros D. rewrite hunt_mono; [apply IH; exact D|rewrite IH by exact D; exact D]. Qed.

  (** ** Anonymous members *)
  Lemma anonymous_iff m : is_anonymous m = true <-> m_name m = None.
  Proof. unfold is_anonymous. destruct (m_name m); split; congruence. Qed.
  Definition all_missed (f : offset -> N -> result) (off : offset) (ms : list member) : Prop :=
    forall b, In b ms -> m_name b = None -> exists o' k, add_msg (m_offset b) off = Ok o' /\ f o' (m_tid b) = Err k.
  Lemma probe_cases f off ms : match probe_msg f off ms with
    | Ok None => all_missed f off ms
    | Ok (Some r) => exists before a after o', ms = before ++ a :: after /\ m_name a = None /\ all_missed f off before /\ add_msg (m_offset a) off = Ok o' /\ f o' (m_tid a) = Ok r
    | Err m => exists before a after, ms = before ++ a :: after /\ m_name a = None /\ all_missed f off before /\ add_msg (m_offset a) off = Err m
    | Panic q => exists before a after o', ms = before ++ a :: after /\ m_name a = None /\ all_missed f off before /\ add_msg (m_offset a) off = Ok o' /\ f o' (m_tid a) = Panic q
    | Diverge => exists before a after o', ms = before ++ a :: after /\ m_name a = None /\ all_missed f off before /\ add_msg (m_offset a) off = Ok o' /\ f o' (m_tid a) = Diverge
    end.
  Proof.
    induction ms as [|m ms IH]; cbn [probe_msg]; [intros b []|]. destruct (is_anonymous m) eqn:A.
    - apply anonymous_iff in A. destruct (add_msg (m_offset m) off) as [o'|k|q|] eqn:E; cbn [obind].
      + destruct (f o' (m_tid m)) as [r|k|q|] eqn:F.
        * exists [], m, ms, o'. repeat split; try assumption. intros b [].
        * assert (X : forall ms', all_missed f off ms' -> all_missed f off (m :: ms')) by (intros ms' X b [<-|Hb] Hn; [exists o', k; auto|apply X; assumption]).
          destruct (probe_msg f off ms) as [[r|]|k'|q|]; [| | | |]; try (destruct IH as (before & a & after & o1 & -> & H1 & H2 & H3); exists (m :: before), a, after, o1; split; [reflexivity|split; [exact H1|split; [apply X; exact H2|exact H3]]]).
          -- apply X. exact IH.
          -- destruct IH as (before & a & after & -> & H1 & H2 & H3). exists (m :: before), a, after. split; [reflexivity|split; [exact H1|split; [apply X; exact H2|exact H3]]].
        * exists [], m, ms, o'. repeat split; try assumption. intros b [].
        * exists [], m, ms, o'. repeat split; try assumption. intros b [].
      + exists [], m, ms. repeat split; try assumption. intros b [].
      + destruct (add_msg_ends (m_offset m) off) as [[r X]|[r X]]; congruence.
      + destruct (add_msg_ends (m_offset m) off) as [[r X]|[r X]]; congruence.
    - assert (A' : m_name m <> None) by (intros X; apply anonymous_iff in X; congruence).
      assert (X : forall ms', all_missed f off ms' -> all_missed f off (m :: ms')) by (intros ms' X b [<-|Hb] Hn; [contradiction|apply X; assumption]).
      destruct (probe_msg f off ms) as [[r|]|k'|q|]; try (destruct IH as (before & a & after & o1 & -> & H1 & H2 & H3); exists (m :: before), a, after, o1; split; [reflexivity|split; [exact H1|split; [apply X; exact H2|exact H3]]]).
      + apply X. exact IH.
      + destruct IH as (before & a & after & -> & H1 & H2 & H3). exists (m :: before), a, after. split; [reflexivity|split; [exact H1|split; [apply X; exact H2|exact H3]]].
  Qed.
  Lemma missed_skip f off before ms : all_missed f off before -> probe_msg f off (before ++ ms) = probe_msg f off ms.
  Proof.
    induction before as [|m before IH]; intros H; [reflexivity|]. cbn [app probe_msg]. rewrite IH by (intros b Hb; apply H; right; exact Hb). destruct (is_anonymous m) eqn:A; [|reflexivity].
    apply anonymous_iff in A. destruct (H m (or_introl eq_refl) A) as (o' & k & E & F). rewrite E. cbn [obind]. rewrite F. reflexivity.
  Qed.
  Lemma step_eq d off i : array_step_msg c ti d off i =
    if element_count d <=? i then Err (MIndexOutOfBounds i (element_count d))
    else obind (size_msg c ti (element_tid d)) (fun s => if i * s <? 2 ^ 32 then add_msg off (ByteOffset (i * s)) else Err MArrayOffsetOverflow).
  Proof.
    unfold array_step_msg. destruct (element_count d <=? i); [reflexivity|]. destruct (size_msg c ti (element_tid d)) as [s|k|q|]; cbn [obind]; try reflexivity.
    pose proof (index_size_iff i s) as IS. destruct (N.ltb_spec (i * s) (2 ^ 32)) as [L|L].
    - rewrite (proj2 (IS (i * s)) (conj eq_refl L)). cbn [ok_or obind]. apply add_u32_is.
    - destruct (index_size i s) as [v|]; [|reflexivity]. destruct (proj1 (IS v) eq_refl) as [-> L']. lia.
  Qed.
  Lemma members_lists ty ms : member_lists ty = Some ms <-> members_of ty ms.
  Proof. destruct ty; cbn; split; intros H; try discriminate H; try contradiction; try (injection H as ->; reflexivity); rewrite H; reflexivity. Qed.

  (** ** The search finds what the function returns *)
  Lemma missed_fail n off name cs ms : (forall o t r, hunt n o t (Name name :: cs) = r -> r <> Diverge -> finds c ti e o t (Name name :: cs) r) ->
    all_missed (fun o mt => hunt n o mt (Name name :: cs)) off ms -> all_fail (finds c ti e) off name cs ms.
  Proof. intros IH H b Hb Hn. destruct (H b Hb Hn) as (o' & k & A & F). exists o', k. split; [apply adds_iff; exact A|]. apply IH; [exact F|discriminate]. Qed.
  Lemma named_none name ms : find (has_name name) ms = None -> forall b, In b ms -> m_name b <> Some name.
  Proof. intros Ef b Hb Hn. apply has_name_iff in Hn. pose proof (find_none _ _ Ef b Hb). congruence. Qed.
  Lemma hunt_finds n : forall off t cs r, hunt n off t cs = r -> r <> Diverge -> finds c ti e off t cs r.
  Proof.
    induction n as [|n IH]; intros off t cs r H D; [exfalso; apply D; symmetry; exact H|]. destruct cs as [|x cs]; [cbn [hunt] in H; subst r; apply finds_end|]. rewrite hunt_S in H.
    pose proof (resolve_msg_says ti t) as RS. destruct (resolve_msg ti t) as [[u ty]|k|q|]; cbn [obind snd] in H; [| |contradiction|exfalso; apply D; symmetry; exact H].
    2:{ subst r. destruct RS as (-> & u & H1 & H2). eapply finds_unknown; eassumption. }
    assert (M : forall name ms, x = Name name -> members_of ty ms ->
      obind (probe_msg (fun o mt => hunt n o mt (x :: cs)) off ms) (fun found => match found with Some r => Ok r | None =>
        match find (has_name name) ms with Some m => obind (add_msg off (m_offset m)) (fun off' => hunt n off' (m_tid m) cs) | None => Err (MMemberNotFound name) end end) = r ->
      finds c ti e off t (x :: cs) r).
    { clear H. intros name ms -> Hms H. pose proof (probe_cases (fun o mt => hunt n o mt (Name name :: cs)) off ms) as PC.
      destruct (probe_msg _ off ms) as [[r0|]|m|q|]; cbn [obind] in H.
      - subst r. destruct PC as (before & a & after & o' & -> & Hn & Hb & Ha & Hf). eapply finds_in_anonymous; try eassumption.
        + eapply missed_fail; [intros; eapply IH; eassumption|exact Hb].
        + apply adds_iff. exact Ha.
        + apply IH; [exact Hf|discriminate].
        + discriminate.
      - assert (AF : all_fail (finds c ti e) off name cs ms) by (eapply missed_fail; [intros; eapply IH; eassumption|exact PC]).
        destruct (find (has_name name) ms) as [a|] eqn:Ef.
        + apply find_named in Ef. destruct (add_msg off (m_offset a)) as [o'|m|q|] eqn:Ea; cbn [obind] in H.
          * eapply finds_member; try eassumption; [apply adds_iff; exact Ea|]. apply IH; [exact H|exact D].
          * subst r. eapply finds_stray_member; try eassumption. apply adds_iff. exact Ea.
          * destruct (add_msg_ends off (m_offset a)) as [[? X]|[? X]]; congruence.
          * destruct (add_msg_ends off (m_offset a)) as [[? X]|[? X]]; congruence.
        + subst r. eapply finds_no_member; try eassumption. apply named_none. exact Ef.
      - subst r. destruct PC as (before & a & after & -> & Hn & Hb & Ha). eapply finds_stray_anonymous; try eassumption.
        + eapply missed_fail; [intros; eapply IH; eassumption|exact Hb].
        + apply adds_iff. exact Ha.
      - subst r. destruct PC as (before & a & after & o' & -> & Hn & Hb & Ha & Hf). eapply finds_in_anonymous; try eassumption.
        + eapply missed_fail; [intros; eapply IH; eassumption|exact Hb].
        + apply adds_iff. exact Ha.
        + apply IH; [exact Hf|discriminate].
        + discriminate.
      - exfalso. apply D. symmetry. exact H. }
    assert (V : ty = TVoid -> finds c ti e off t (x :: cs) r) by (intros ->; destruct x; cbn [look] in H; subst r; apply finds_void; exact RS).
    destruct x as [i|name].
    - destruct ty; try (apply V; reflexivity); cbn [look] in H; try (subst r; eapply finds_no_array; [exact RS|exact I]).
      + subst r. eapply finds_pointer. exact RS.
      + clear M V. rewrite step_eq in H. destruct (N.leb_spec (element_count d) i) as [L|L]; cbn [obind] in H; [subst r; eapply finds_outside; eassumption|].
        destruct (size_msg c ti (element_tid d)) as [s|k|q|] eqn:Es; cbn [obind] in H; [|subst r; eapply finds_unsized; eassumption|subst r; eapply finds_panic; eassumption|exfalso; apply D; symmetry; exact H].
        destruct (N.ltb_spec (i * s) (2 ^ 32)) as [L'|L']; [|cbn [obind] in H; subst r; eapply finds_far; eassumption].
        destruct (add_msg off (ByteOffset (i * s))) as [o'|m|q|] eqn:Ea; cbn [obind] in H.
        * eapply finds_element; try eassumption; [apply adds_iff; exact Ea|]. apply IH; [exact H|exact D].
        * subst r. eapply finds_stray_element; try eassumption. apply adds_iff. exact Ea.
        * destruct (add_msg_ends off (ByteOffset (i * s))) as [[? X]|[? X]]; congruence.
        * destruct (add_msg_ends off (ByteOffset (i * s))) as [[? X]|[? X]]; congruence.
    - destruct ty; try (apply V; reflexivity); cbn [look member_lists] in H; try (eapply M; [reflexivity|reflexivity|exact H]);
        (subst r; eapply finds_no_members; [exact RS|discriminate|intros (ms & X); exact X]).
  Qed.

  (** ** The function returns what the search finds *)
  Definition reached (o : offset) (t : N) (cs : list component) (r : result) : Prop := r <> Diverge /\ exists n, hunt n o t cs = r.
  Lemma fail_fuel off cs ms : (forall b, In b ms -> m_name b = None -> exists o' k, adds (m_offset b) off (Ok o') /\ reached o' (m_tid b) cs (Err k)) ->
    exists n0, forall n, (n0 <= n)%nat -> all_missed (fun o mt => hunt n o mt cs) off ms.
  Proof.
    induction ms as [|m ms IH]; intros H; [exists 0%nat; intros n _ b []|].
    destruct IH as [n1 H1]; [intros b Hb; apply H; right; exact Hb|]. destruct (m_name m) as [nm|] eqn:Em.
    - exists n1. intros n L b [<-|Hb] Hn; [congruence|]. apply (H1 n L b Hb Hn).
    - destruct (H m (or_introl eq_refl) Em) as (o' & k & A & _ & n2 & F). apply adds_iff in A. exists (Nat.max n1 n2). intros n L b [<-|Hb] Hn.
      + exists o', k. split; [exact A|]. rewrite (hunt_le n2 n) by (try lia; rewrite F; discriminate). exact F.
      + apply (H1 n ltac:(lia) b Hb Hn).
  Qed.
  Lemma reached_go o' t' cs' r : reached o' t' cs' r -> exists n0, forall n, (n0 <= n)%nat -> hunt n o' t' cs' = r.
  Proof. intros (D & n0 & F). exists n0. intros n L. rewrite (hunt_le n0 n) by (try exact L; rewrite F; exact D). exact F. Qed.
  Lemma look_members ms ty p g off name : members_of ty ms -> look p g off ty (Name name) =
    obind (probe_msg p off ms) (fun found => match found with Some r => Ok r | None =>
        match find (has_name name) ms with Some m => obind (add_msg off (m_offset m)) (fun off' => g off' (m_tid m)) | None => Err (MMemberNotFound name) end end).
  Proof. intros H. destruct ty; try contradiction; cbn [members_of] in H; subst ms; reflexivity. Qed.
  Lemma finds_reached : forall o t cs r, finds c ti e o t cs r -> reached o t cs r.
  Proof.
    assert (E0 : forall (t : N) (o : offset), match e with None => Ok (t, o) | Some m => Err m end <> Diverge) by (intros; destruct e; discriminate).
    fix IH 5. intros o t cs r H.
    destruct H as [o t|o t x cs u Hc Hu|o t x cs Hi|o t i cs h d Hi|o t i cs ty Hi Hty|o t i cs h d Hi L|o t i cs h d m Hi L Hs|o t i cs h d q Hi L Hs|o t i cs h d s Hi L Hs Hf
      |o t i cs h d s m Hi L Hs Hf Ha|o t i cs h d s o' r Hi L Hs Hf Ha Hr|o t n cs ty Hi Hv Hm|o t n cs ty before a after m Hi Hms Hn AF Ha|o t n cs ty before a after o' r Hi Hms Hn AF Ha Hr Hne
      |o t n cs ty ms Hi Hms AF Hn|o t n cs ty ms a m Hi Hms AF Hn Ha|o t n cs ty ms a o' r Hi Hms AF Hn Ha Hr].
    - split; [apply E0|]. exists 1%nat. reflexivity.
    - split; [discriminate|]. exists 1%nat. rewrite hunt_S, (resolve_msg_unknown ti t u Hc Hu). reflexivity.
    - split; [discriminate|]. exists 1%nat. destruct (resolve_msg_ok ti t _ Hi) as [u Hr]. rewrite hunt_S, Hr. reflexivity.
    - split; [discriminate|]. exists 1%nat. destruct (resolve_msg_ok ti t _ Hi) as [u Hr]. rewrite hunt_S, Hr. reflexivity.
    - split; [discriminate|]. exists 1%nat. destruct (resolve_msg_ok ti t _ Hi) as [u Hr]. rewrite hunt_S, Hr. destruct ty; try contradiction; reflexivity.
    - split; [discriminate|]. exists 1%nat. destruct (resolve_msg_ok ti t _ Hi) as [u Hr]. rewrite hunt_S, Hr. cbn [obind snd look]. rewrite step_eq.
      destruct (N.leb_spec (element_count d) i); [reflexivity|lia].
    - split; [discriminate|]. exists 1%nat. destruct (resolve_msg_ok ti t _ Hi) as [u Hr]. rewrite hunt_S, Hr. cbn [obind snd look]. rewrite step_eq.
      destruct (N.leb_spec (element_count d) i); [lia|]. rewrite Hs. reflexivity.
    - split; [discriminate|]. exists 1%nat. destruct (resolve_msg_ok ti t _ Hi) as [u Hr]. rewrite hunt_S, Hr. cbn [obind snd look]. rewrite step_eq.
      destruct (N.leb_spec (element_count d) i); [lia|]. rewrite Hs. reflexivity.
    - split; [discriminate|]. exists 1%nat. destruct (resolve_msg_ok ti t _ Hi) as [u Hr]. rewrite hunt_S, Hr. cbn [obind snd look]. rewrite step_eq.
      destruct (N.leb_spec (element_count d) i); [lia|]. rewrite Hs. cbn [obind]. destruct (N.ltb_spec (i * s) (2 ^ 32)); [lia|]. reflexivity.
    - split; [discriminate|]. exists 1%nat. destruct (resolve_msg_ok ti t _ Hi) as [u Hr]. rewrite hunt_S, Hr. cbn [obind snd look]. rewrite step_eq.
      destruct (N.leb_spec (element_count d) i); [lia|]. rewrite Hs. cbn [obind]. destruct (N.ltb_spec (i * s) (2 ^ 32)); [|lia].
      apply adds_iff in Ha. rewrite Ha. reflexivity.
    - destruct (IH _ _ _ _ Hr) as (D & n0 & F). split; [exact D|]. exists (S n0). destruct (resolve_msg_ok ti t _ Hi) as [u Hu]. rewrite hunt_S, Hu. cbn [obind snd look]. rewrite step_eq.
      destruct (N.leb_spec (element_count d) i); [lia|]. rewrite Hs. cbn [obind]. destruct (N.ltb_spec (i * s) (2 ^ 32)); [|lia].
      apply adds_iff in Ha. rewrite Ha. exact F.
    - split; [discriminate|]. exists 1%nat. destruct (resolve_msg_ok ti t _ Hi) as [u Hr]. rewrite hunt_S, Hr. cbn [obind snd].
      destruct ty; try reflexivity; try congruence; exfalso; apply Hm; eexists; reflexivity.
    - split; [discriminate|]. destruct (fail_fuel o (Name n :: cs) before) as [n0 F].
      { intros b Hb Hbn. destruct (AF b Hb Hbn) as (o1 & k & A & X). exists o1, k. split; [exact A|]. exact (IH _ _ _ _ X). }
      exists (S n0). destruct (resolve_msg_ok ti t _ Hi) as [u Hu]. rewrite hunt_S, Hu. cbn [obind snd]. rewrite (look_members _ _ _ _ _ _ Hms), (missed_skip _ _ _ _ (F n0 (le_n n0))).
      cbn [probe_msg]. rewrite (proj2 (anonymous_iff a) Hn). apply adds_iff in Ha. rewrite Ha. reflexivity.
    - destruct (fail_fuel o (Name n :: cs) before) as [n0 F].
      { intros b Hb Hbn. destruct (AF b Hb Hbn) as (o1 & k & A & X). exists o1, k. split; [exact A|]. exact (IH _ _ _ _ X). }
      pose proof (IH _ _ _ _ Hr) as R. pose proof R as [D _]. split; [exact D|]. destruct (reached_go _ _ _ _ R) as [n1 G].
      exists (S (Nat.max n0 n1)). destruct (resolve_msg_ok ti t _ Hi) as [u Hu]. rewrite hunt_S, Hu. cbn [obind snd]. rewrite (look_members _ _ _ _ _ _ Hms), (missed_skip _ _ _ _ (F (Nat.max n0 n1) ltac:(lia))).
      cbn [probe_msg]. rewrite (proj2 (anonymous_iff a) Hn). apply adds_iff in Ha. rewrite Ha. cbn [obind]. rewrite (G (Nat.max n0 n1) ltac:(lia)).
      destruct r as [r|k|q|]; [reflexivity|destruct (Hne k); reflexivity|reflexivity|destruct D; reflexivity].
    - split; [discriminate|]. destruct (fail_fuel o (Name n :: cs) ms) as [n0 F].
      { intros b Hb Hbn. destruct (AF b Hb Hbn) as (o1 & k & A & X). exists o1, k. split; [exact A|]. exact (IH _ _ _ _ X). }
      exists (S n0). destruct (resolve_msg_ok ti t _ Hi) as [u Hu]. rewrite hunt_S, Hu. cbn [obind snd]. rewrite (look_members _ _ _ _ _ _ Hms).
      rewrite <- (app_nil_r ms) at 1. rewrite (missed_skip _ _ _ _ (F n0 (le_n n0))). cbn [probe_msg obind].
      destruct (find (has_name n) ms) as [a|] eqn:Ef; [|reflexivity]. apply find_some in Ef. destruct Ef as [Ef1 Ef2]. apply has_name_iff in Ef2. destruct (Hn a Ef1 Ef2).
    - split; [discriminate|]. destruct (fail_fuel o (Name n :: cs) ms) as [n0 F].
      { intros b Hb Hbn. destruct (AF b Hb Hbn) as (o1 & k & A & X). exists o1, k. split; [exact A|]. exact (IH _ _ _ _ X). }
      exists (S n0). destruct (resolve_msg_ok ti t _ Hi) as [u Hu]. rewrite hunt_S, Hu. cbn [obind snd]. rewrite (look_members _ _ _ _ _ _ Hms).
      rewrite <- (app_nil_r ms) at 1. rewrite (missed_skip _ _ _ _ (F n0 (le_n n0))). cbn [probe_msg obind].
      apply find_named in Hn. rewrite Hn. apply adds_iff in Ha. rewrite Ha. reflexivity.
    - destruct (fail_fuel o (Name n :: cs) ms) as [n0 F].
      { intros b Hb Hbn. destruct (AF b Hb Hbn) as (o1 & k & A & X). exists o1, k. split; [exact A|]. exact (IH _ _ _ _ X). }
      pose proof (IH _ _ _ _ Hr) as R. pose proof R as [D _]. split; [exact D|]. destruct (reached_go _ _ _ _ R) as [n1 G].
      exists (S (Nat.max n0 n1)). destruct (resolve_msg_ok ti t _ Hi) as [u Hu]. rewrite hunt_S, Hu. cbn [obind snd]. rewrite (look_members _ _ _ _ _ _ Hms).
      rewrite <- (app_nil_r ms) at 1. rewrite (missed_skip _ _ _ _ (F (Nat.max n0 n1) ltac:(lia))). cbn [probe_msg obind].
      apply find_named in Hn. rewrite Hn. apply adds_iff in Ha. rewrite Ha. cbn [obind]. apply G. lia.
  Qed.
  Lemma reached_iff o t cs r : reached o t cs r <-> finds c ti e o t cs r.
  Proof. split; [intros (D & n & F); eapply hunt_finds; eassumption|apply finds_reached]. Qed.
  Lemma finds_det o t cs r r' : finds c ti e o t cs r -> finds c ti e o t cs r' -> r = r'.
  Proof.
    intros H H'. apply finds_reached in H, H'. destruct (reached_go _ _ _ _ H) as [n F], (reached_go _ _ _ _ H') as [n' F'].
    rewrite <- (F (Nat.max n n')) by lia. apply F'. lia.
  Qed.

  (** ** Never over *)
  Lemma fail_or_busy n off name cs ms : all_fail (finds c ti e) off name cs ms ->
    probe_msg (fun o mt => hunt n o mt (Name name :: cs)) off ms = Ok None \/ probe_msg (fun o mt => hunt n o mt (Name name :: cs)) off ms = Diverge.
  Proof.
    induction ms as [|m ms IH]; intros AF; [left; reflexivity|]. cbn [probe_msg]. destruct IH as [IH|IH]; [intros b Hb; apply AF; right; exact Hb| |];
    (destruct (is_anonymous m) eqn:A; [|rewrite IH; auto]); apply anonymous_iff in A; destruct (AF m (or_introl eq_refl) A) as (o' & k & Ha & F);
    apply adds_iff in Ha; rewrite Ha; cbn [obind]; apply finds_reached in F; destruct (reached_go _ _ _ _ F) as [n0 G];
    (destruct (hunt n o' (m_tid m) (Name name :: cs)) as [r|k'|q|] eqn:E; [exfalso|auto|exfalso|auto]);
    pose proof (G (Nat.max n n0) ltac:(lia)) as X; rewrite (hunt_le n (Nat.max n n0)) in X by (try lia; rewrite E; discriminate); congruence.
  Qed.
  Lemma busy_hunt n o t cs : busy c ti e n o t cs -> hunt n o t cs = Diverge.
  Proof.
    induction 1 as [o t cs|n o t x cs He|n o t i cs h d Hi L He|n o t i cs h d s o' Hi L Hs Hf Ha Hb IH|n o t x cs ty before a after o' Hi Hms Hn AF Ha Hb IH|n o t x cs ty ms a o' Hi Hms AF Hn Ha Hb IH].
    - reflexivity.
    - destruct n as [|n]; [reflexivity|]. apply resolve_msg_endless in He. rewrite hunt_S, He. reflexivity.
    - destruct n as [|n]; [reflexivity|]. destruct (resolve_msg_ok ti t _ Hi) as [u Hu]. rewrite hunt_S, Hu. cbn [obind snd look]. rewrite step_eq.
      destruct (N.leb_spec (element_count d) i); [lia|]. apply (size_msg_endless c) in He. rewrite He. reflexivity.
    - destruct (resolve_msg_ok ti t _ Hi) as [u Hu]. rewrite hunt_S, Hu. cbn [obind snd look]. rewrite step_eq.
      destruct (N.leb_spec (element_count d) i); [lia|]. rewrite Hs. cbn [obind]. destruct (N.ltb_spec (i * s) (2 ^ 32)); [|lia]. apply adds_iff in Ha. rewrite Ha. exact IH.
    - destruct (resolve_msg_ok ti t _ Hi) as [u Hu]. rewrite hunt_S, Hu. cbn [obind snd]. rewrite (look_members _ _ _ _ _ _ Hms).
      assert (P : probe_msg (fun o mt => hunt n o mt (Name x :: cs)) o (before ++ a :: after) = Diverge); [|rewrite P; reflexivity]. clear Hms.
      revert AF. induction before as [|m before IHb]; intros AF; cbn [app probe_msg].
      + rewrite (proj2 (anonymous_iff a) Hn). apply adds_iff in Ha. rewrite Ha. cbn [obind]. rewrite IH. reflexivity.
      + specialize (IHb (fun b Hb => AF b (or_intror Hb))). destruct (is_anonymous m) eqn:A; [|exact IHb]. apply anonymous_iff in A. destruct (AF m (or_introl eq_refl) A) as (o1 & k & Ha' & F).
        apply adds_iff in Ha'. rewrite Ha'. cbn [obind]. apply finds_reached in F. destruct (reached_go _ _ _ _ F) as [n0 G].
        destruct (hunt n o1 (m_tid m) (Name x :: cs)) as [r|k'|q|] eqn:E; [exfalso|exact IHb|exfalso|reflexivity];
        pose proof (G (Nat.max n n0) ltac:(lia)) as X; rewrite (hunt_le n (Nat.max n n0)) in X by (try lia; rewrite E; discriminate); congruence.
    - destruct (resolve_msg_ok ti t _ Hi) as [u Hu]. rewrite hunt_S, Hu. cbn [obind snd]. rewrite (look_members _ _ _ _ _ _ Hms).
      destruct (fail_or_busy n o x cs ms AF) as [P|P]; rewrite P; [|reflexivity]. cbn [obind]. apply find_named in Hn. rewrite Hn. apply adds_iff in Ha. rewrite Ha. exact IH.
  Qed.
  Lemma hunt_busy n : forall o t cs, hunt n o t cs = Diverge -> busy c ti e n o t cs.
  Proof.
    induction n as [|n IH]; intros o t cs H; [constructor|]. destruct cs as [|x cs]; [cbn [hunt] in H; destruct e; discriminate H|]. rewrite hunt_S in H.
    pose proof (resolve_msg_says ti t) as RS. destruct (resolve_msg ti t) as [[u ty]|k|q|] eqn:Er; cbn [obind snd] in H; try discriminate H.
    2:{ apply busy_chain. apply resolve_msg_endless. exact Er. }
    assert (V : ty <> TVoid) by (intros ->; destruct x; discriminate H). destruct x as [i|name].
    - destruct ty; try discriminate H; try congruence. cbn [look] in H. rewrite step_eq in H. destruct (N.leb_spec (element_count d) i) as [L|L]; cbn [obind] in H; [discriminate H|].
      destruct (size_msg c ti (element_tid d)) as [s|k|q|] eqn:Es; cbn [obind] in H; try discriminate H.
      2:{ eapply busy_size; [exact RS|exact L|]. apply (size_msg_endless c). exact Es. }
      destruct (N.ltb_spec (i * s) (2 ^ 32)) as [L'|L']; [|discriminate H]. destruct (add_msg o (ByteOffset (i * s))) as [o'|m|q|] eqn:Ea; cbn [obind] in H; try discriminate H.
      + eapply busy_element; try eassumption; [apply adds_iff; exact Ea|]. apply IH. exact H.
      + destruct (add_msg_ends o (ByteOffset (i * s))) as [[? X]|[? X]]; congruence.
    - destruct (member_lists ty) as [ms|] eqn:Em; [|destruct ty; try congruence; cbn [look] in H; rewrite ?Em in H; discriminate H].
      apply members_lists in Em. rewrite (look_members _ _ _ _ _ _ Em) in H. pose proof (probe_cases (fun o mt => hunt n o mt (Name name :: cs)) o ms) as PC.
      assert (Z : forall ms', all_missed (fun o mt => hunt n o mt (Name name :: cs)) o ms' -> all_fail (finds c ti e) o name cs ms') by (intros ms'; apply missed_fail; intros; eapply hunt_finds; eassumption).
      destruct (probe_msg _ o ms) as [[r0|]|m|q|]; cbn [obind] in H; try discriminate H.
      + destruct (find (has_name name) ms) as [a|] eqn:Ef; [|discriminate H]. apply find_named in Ef. destruct (add_msg o (m_offset a)) as [o'|m|q|] eqn:Ea; cbn [obind] in H; try discriminate H.
        * eapply busy_member; try eassumption; [apply Z; exact PC|apply adds_iff; exact Ea|]. apply IH. exact H.
        * destruct (add_msg_ends o (m_offset a)) as [[? X]|[? X]]; congruence.
      + destruct PC as (before & a & after & o' & -> & Hn & Hb & Ha & Hf). eapply busy_anonymous; try eassumption; [apply Z; exact Hb|apply adds_iff; exact Ha|]. apply IH. exact Hf.
  Qed.
End Hunt.
