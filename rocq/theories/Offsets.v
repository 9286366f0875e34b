(** * Offsets: offset_of (C24, C30, C32 - C39). *)
From Coq Require Import Lia ZifyBool ZifyNat ZifyN.
From Verif Require Import TypeInfo BaseFacts Spec PathSpec Path PathGrammar QuerySpec Chains Sizes Follow.

(** ** Offset addition (C24) *)
Lemma checked_32 v : checked 32 v = if v <? 2 ^ 32 then Some v else None.
Proof. reflexivity. Qed.
Lemma add_u32_byte a n : offset_add_u32 (ByteOffset a) n = if a + n <? 2 ^ 32 then Ok (ByteOffset (a + n)) else Err InvalidOffset.
Proof. unfold offset_add_u32. rewrite checked_32. destruct (_ <? _); reflexivity. Qed.
Lemma add_byte a o : fits32 o -> offset_add (ByteOffset a) o =
  match shift a o with
  | ByteOffset v => if v <? 2 ^ 32 then Ok (ByteOffset v) else Err InvalidOffset
  | BitOffsetAndSize v s => if v <? 2 ^ 32 then Ok (BitOffsetAndSize v s) else Err InvalidOffset
  end.
Proof.
  intros H. destruct o as [b|b s]; unfold offset_add, shift; rewrite !checked_32; cbn in H.
  - destruct (_ <? _); reflexivity.
  - replace (a * 8) with (8 * a) by lia. destruct (N.ltb_spec (8 * a) (2 ^ 32)) as [H1|H1]; cbn [ok_or obind].
    + rewrite checked_32. destruct (8 * a + b <? 2 ^ 32); reflexivity.
    + replace (8 * a + b <? 2 ^ 32) with false by lia. reflexivity.
Qed.
Lemma add_byte_ok a o o' : offset_add (ByteOffset a) o = Ok o' <-> o' = shift a o /\ fits32 o'.
Proof.
  destruct o as [b|b s]; unfold offset_add, shift, fits32; rewrite !checked_32.
  - destruct (N.ltb_spec (a + b) (2 ^ 32)) as [H|H]; cbn [ok_or obind].
    + split; [intros [= <-]; auto|intros [-> _]; reflexivity].
    + split; [discriminate|]. intros [-> G]. lia.
  - replace (a * 8) with (8 * a) by lia. destruct (N.ltb_spec (8 * a) (2 ^ 32)) as [H1|H1]; cbn [ok_or obind].
    + rewrite checked_32. destruct (N.ltb_spec (8 * a + b) (2 ^ 32)) as [H|H]; cbn [ok_or obind].
      * split; [intros [= <-]; auto|intros [-> _]; reflexivity].
      * split; [discriminate|]. intros [-> G]. lia.
    + split; [discriminate|]. intros [-> G]. lia.
Qed.
Lemma add_bits b s o : offset_add (BitOffsetAndSize b s) o = Err UnexpectedBitfield.
Proof. reflexivity. Qed.
Lemma shift_shift a b o : shift a (shift b o) = shift (a + b) o.
Proof. destruct o; cbn; f_equal; lia. Qed.
Lemma shift_0 o : shift 0 o = o.
Proof. destruct o; cbn; f_equal; lia. Qed.
Lemma add_identity o : fits32 o -> offset_add (ByteOffset 0) o = Ok o.
Proof. intros H. apply add_byte_ok. rewrite shift_0. auto. Qed.
Lemma add_not_panic o1 o2 : match offset_add o1 o2 with Panic _ | Diverge => False | _ => True end.
Proof.
  destruct o1, o2; cbn; try exact I; rewrite ?checked_32; repeat (destruct (_ <? _); cbn [ok_or obind]; rewrite ?checked_32; try exact I).
Qed.
Lemma add_assoc o1 o2 o3 o12 o23 r : offset_add o1 o2 = Ok o12 -> offset_add o2 o3 = Ok o23 -> offset_add o12 o3 = Ok r -> offset_add o1 o23 = Ok r.
Proof.
  destruct o1 as [a|]; [|discriminate]. destruct o2 as [b|]; [|discriminate]. intros H12 H23 H.
  apply add_byte_ok in H12. destruct H12 as [-> _]. cbn [shift] in H. apply add_byte_ok in H. destruct H as [-> F].
  apply add_byte_ok in H23. destruct H23 as [-> _]. apply add_byte_ok. rewrite shift_shift. auto.
Qed.

(** ** Indices *)
Lemma index_size_iff i s v : index_size i s = Some v <-> v = i * s /\ v < 2 ^ 32.
Proof.
  unfold index_size, checked, two_pow. destruct (N.ltb_spec (i * s) (2 ^ 64)) as [H|H].
  - destruct (N.ltb_spec (i * s) (2 ^ 32)) as [G|G].
    + split; [intros [= <-]; auto|intros [-> _]; reflexivity].
    + split; [discriminate|intros [-> ?]; lia].
  - split; [discriminate|]. intros [-> ?]. assert (2 ^ 32 < 2 ^ 64) by reflexivity. lia.
Qed.
Lemma array_step_ok c ti d off i off' : array_step c ti d off i = Ok off' <->
  exists s a, i < element_count d /\ size_of c ti (element_tid d) = Ok s /\ off = ByteOffset a /\
    off' = ByteOffset (a + i * s) /\ a + i * s < 2 ^ 32.
Proof.
  unfold array_step. destruct (N.leb_spec (element_count d) i) as [H|H].
  { split; [discriminate|]. intros (s & a & G & _). lia. }
  destruct (size_of c ti (element_tid d)) as [s|k|p|]; cbn [btf_err obind];
    try (split; [discriminate|intros (s & a & _ & G & _); discriminate]).
  destruct (index_size i s) as [v|] eqn:Ei; cbn [ok_or obind].
  - apply index_size_iff in Ei. destruct Ei as [-> Hv]. destruct off as [a|b z].
    + rewrite add_u32_byte. destruct (N.ltb_spec (a + i * s) (2 ^ 32)) as [G|G]; cbn [btf_err].
      * split; [intros [= <-]; exists s, a; auto|]. intros (s' & a' & _ & [= <-] & [= <-] & -> & _). reflexivity.
      * split; [discriminate|]. intros (s' & a' & _ & [= <-] & [= <-] & _ & ?). lia.
    + cbn. split; [discriminate|]. intros (s' & a' & _ & _ & ? & _). discriminate.
  - split; [discriminate|]. intros (s' & a & _ & [= <-] & _ & _ & G).
    assert (X : index_size i s = Some (i * s)) by (apply index_size_iff; split; [reflexivity|lia]). congruence.
Qed.

(** ** Members *)
Lemma has_name_iff n m : has_name n m = true <-> m_name m = Some n.
Proof.
  unfold has_name. destruct (m_name m) as [n'|]; [|split; discriminate]. rewrite str_eqb_eq. split; congruence.
Qed.
Lemma find_named n ms m : find (has_name n) ms = Some m <-> named ms n m.
Proof.
  unfold named. induction ms as [|m0 ms IH]; cbn [find].
  - split; [discriminate|]. intros (ms1 & ms2 & H & _). destruct ms1; discriminate.
  - destruct (has_name n m0) eqn:E.
    + pose proof (proj1 (has_name_iff _ _) E) as E'. split.
      * intros [= <-]. exists [], ms. repeat split; auto.
      * intros (ms1 & ms2 & H & Hn & Hf). destruct ms1 as [|m1 ms1]; injection H as -> H; [reflexivity|].
        exfalso. apply (Hf m1); [left; reflexivity|exact E'].
    + rewrite IH. split; intros (ms1 & ms2 & H & Hn & Hf).
      * exists (m0 :: ms1), ms2. split; [cbn; f_equal; exact H|]. split; [exact Hn|]. intros m' [<-|Hm]; [|auto].
        intros G. apply has_name_iff in G. congruence.
      * destruct ms1 as [|m1 ms1]; injection H as -> H.
        -- apply has_name_iff in Hn. congruence.
        -- exists ms1, ms2. repeat split; auto. intros m' Hm. apply Hf. right. exact Hm.
Qed.
Lemma is_anonymous_iff m : is_anonymous m = true <-> m_name m = None.
Proof. unfold is_anonymous. destruct (m_name m); split; congruence. Qed.
Lemma member_lists_iff ty ms : member_lists ty = Some ms <-> members_of ty ms.
Proof. destruct ty; cbn; split; try discriminate; try contradiction; congruence. Qed.

Lemma probe_cases f off ms : match probe_anonymous f off ms with
  | Ok (Some r) => exists m o, In m ms /\ m_name m = None /\ offset_add (m_offset m) off = Ok o /\ f o (m_tid m) = Ok r
  | Ok None => forall m, In m ms -> m_name m = None -> exists o k, offset_add (m_offset m) off = Ok o /\ f o (m_tid m) = Err k
  | Err k => exists m k', In m ms /\ m_name m = None /\ offset_add (m_offset m) off = Err k' /\ k = OEBtf k'
  | Panic p => exists m o, In m ms /\ m_name m = None /\ offset_add (m_offset m) off = Ok o /\ f o (m_tid m) = Panic p
  | Diverge => exists m o, In m ms /\ m_name m = None /\ offset_add (m_offset m) off = Ok o /\ f o (m_tid m) = Diverge
  end.
Proof.
  induction ms as [|m ms IH]; cbn [probe_anonymous]; [intros m []|].
  assert (Skip : (forall o k, m_name m = None -> offset_add (m_offset m) off = Ok o -> f o (m_tid m) = Err k -> True) ->
    (m_name m = None -> exists o k, offset_add (m_offset m) off = Ok o /\ f o (m_tid m) = Err k) ->
    match probe_anonymous f off ms with
    | Ok (Some r) => exists m' o, In m' (m :: ms) /\ m_name m' = None /\ offset_add (m_offset m') off = Ok o /\ f o (m_tid m') = Ok r
    | Ok None => forall m', In m' (m :: ms) -> m_name m' = None -> exists o k, offset_add (m_offset m') off = Ok o /\ f o (m_tid m') = Err k
    | Err k => exists m' k', In m' (m :: ms) /\ m_name m' = None /\ offset_add (m_offset m') off = Err k' /\ k = OEBtf k'
    | Panic p => exists m' o, In m' (m :: ms) /\ m_name m' = None /\ offset_add (m_offset m') off = Ok o /\ f o (m_tid m') = Panic p
    | Diverge => exists m' o, In m' (m :: ms) /\ m_name m' = None /\ offset_add (m_offset m') off = Ok o /\ f o (m_tid m') = Diverge
    end).
  { intros _ Hm. destruct (probe_anonymous f off ms) as [[r|]|k|p|].
    - destruct IH as (m' & o & Hi & H). exists m', o. split; [right; exact Hi|exact H].
    - intros m' [<-|Hi] Hn; auto.
    - destruct IH as (m' & o & Hi & H). exists m', o. split; [right; exact Hi|exact H].
    - destruct IH as (m' & o & Hi & H). exists m', o. split; [right; exact Hi|exact H].
    - destruct IH as (m' & o & Hi & H). exists m', o. split; [right; exact Hi|exact H]. }
  destruct (is_anonymous m) eqn:Ea.
  - apply is_anonymous_iff in Ea. pose proof (add_not_panic (m_offset m) off) as NP.
    destruct (offset_add (m_offset m) off) as [o|k|p|] eqn:Eo; cbn [btf_err obind]; try contradiction.
    + destruct (f o (m_tid m)) as [r|k|p|] eqn:Ef; try (exists m, o; repeat split; auto; left; reflexivity).
      apply Skip; [auto|]. intros _. exists o, k. auto.
    + exists m, k. repeat split; auto. left. reflexivity.
  - apply Skip; [auto|]. intros H. apply is_anonymous_iff in H. congruence.
Qed.

(** ** Soundness (C32) *)
Definition computed (c : build) (ti : type_information) (e s : N) : Prop := size_of c ti e = Ok s.
Lemma follow_bits c ti e n : forall b z t cs r, cs <> [] -> follow n c ti e (BitOffsetAndSize b z) t cs <> Ok r.
Proof.
  induction n as [|n IH]; intros b z t cs r Hcs H; [discriminate|]. destruct cs as [|comp cs]; [congruence|].
  rewrite follow_S in H. destruct (resolve ti t) as [[x ty]|k|q|]; cbn [obind snd] in H; try discriminate.
  unfold round in H. destruct comp as [i|name].
  - destruct ty; try discriminate H. destruct (array_step c ti d _ i) as [o| | |] eqn:E; cbn [obind] in H; try discriminate.
    apply array_step_ok in E. destruct E as (s & a & _ & _ & E & _). discriminate.
  - assert (G : match member_lists ty with None => True | Some ms =>
       obind (probe_anonymous (fun o mt => follow n c ti e o mt (Name name :: cs)) (BitOffsetAndSize b z) ms) (fun found => match found with Some r => Ok r | None =>
       match find (has_name name) ms with Some m => obind (btf_err (offset_add (BitOffsetAndSize b z) (m_offset m))) (fun off' => follow n c ti e off' (m_tid m) cs) | None => Err OEMemberNotFound end end) <> Ok r end).
    { destruct (member_lists ty) as [ms|]; [|exact I]. intros G.
      pose proof (probe_cases (fun o mt => follow n c ti e o mt (Name name :: cs)) (BitOffsetAndSize b z) ms) as P.
      destruct (probe_anonymous _ _ ms) as [[r0|]|k|q|]; cbn [obind] in G; try discriminate.
      - injection G as ->. destruct P as (m & o & _ & _ & Ho & Hf). destruct (m_offset m) as [a|a w]; [|discriminate Ho].
        apply add_byte_ok in Ho. destruct Ho as [-> _]. cbn [shift] in Hf. eapply IH; [|exact Hf]. discriminate.
      - destruct (find (has_name name) ms) as [m|]; [|discriminate]. rewrite add_bits in G. discriminate. }
    destruct ty; try discriminate H; exact (G H).
Qed.
Lemma round_name_ok c ti e p g off ty name r : round c ti e p g off ty (Name name) = Ok r ->
  exists ms, members_of ty ms /\
    ((exists m o, In m ms /\ m_name m = None /\ offset_add (m_offset m) off = Ok o /\ p o (m_tid m) = Ok r) \/
     (exists m o, named ms name m /\ offset_add off (m_offset m) = Ok o /\ g o (m_tid m) = Ok r)).
Proof.
  intros H. assert (G : exists ms, member_lists ty = Some ms /\
      obind (probe_anonymous p off ms) (fun found => match found with Some r => Ok r | None =>
       match find (has_name name) ms with Some m => obind (btf_err (offset_add off (m_offset m))) (fun off' => g off' (m_tid m)) | None => Err OEMemberNotFound end end) = Ok r).
  { unfold round in H. destruct ty; try discriminate H; eexists; (split; [reflexivity|exact H]). }
  destruct G as (ms & Hm & G). exists ms. split; [apply member_lists_iff; exact Hm|].
  pose proof (probe_cases p off ms) as P. destruct (probe_anonymous p off ms) as [[r0|]|k|q|]; cbn [obind] in G; try discriminate.
  - injection G as ->. left. exact P.
  - right. destruct (find (has_name name) ms) as [m|] eqn:Ef; [|discriminate]. apply find_named in Ef.
    destruct (offset_add off (m_offset m)) as [o| | |] eqn:Eo; cbn [btf_err obind] in G; try discriminate. exists m, o. auto.
Qed.
Lemma follow_sound c ti e n : forall a t cs u o, follow n c ti e (ByteOffset a) t cs = Ok (u, o) -> a < 2 ^ 32 ->
  e = None /\ fits32 o /\ exists o', leads ti (computed c ti) t cs u o' /\ o = shift a o'.
Proof.
  induction n as [|n IH]; intros a t cs u o H Ha; [discriminate|]. destruct cs as [|comp cs].
  { cbn in H. destruct e; [discriminate|]. injection H as -> <-. split; [reflexivity|]. split; [exact Ha|].
    exists (ByteOffset 0). split; [constructor|]. cbn. f_equal. lia. }
  rewrite follow_S in H. pose proof (is_resolve ti t) as HI. destruct (resolve ti t) as [[x ty]|k|q|]; cbn [obind snd] in H; try discriminate.
  assert (Hty : is ti t ty) by (apply HI; eauto). clear HI. destruct comp as [i|name].
  - unfold round in H. destruct ty; try discriminate H. destruct (array_step c ti d (ByteOffset a) i) as [off| | |] eqn:E; cbn [obind] in H; try discriminate.
    apply array_step_ok in E. destruct E as (s & a0 & Hi & Hs & [= <-] & -> & Hlt).
    apply IH in H; [|exact Hlt]. destruct H as (He & Hf & o' & Hl & ->). split; [exact He|]. split; [exact Hf|].
    exists (shift (i * s) o'). split; [eapply leads_index; eassumption|]. rewrite shift_shift. reflexivity.
  - apply round_name_ok in H. destruct H as (ms & Hms & [(m & o1 & Hin & Hn & Ho & Hf)|(m & o1 & Hn & Ho & Hf)]).
    + destruct (m_offset m) as [b|b z] eqn:Em; [|discriminate Ho]. apply add_byte_ok in Ho. destruct Ho as [-> Hlt]. cbn [shift fits32] in Hf, Hlt.
      apply IH in Hf; [|exact Hlt]. destruct Hf as (He & Hfit & o' & Hl & ->). split; [exact He|]. split; [exact Hfit|].
      exists (shift b o'). split; [eapply leads_anonymous; eassumption|]. rewrite shift_shift. f_equal. lia.
    + apply add_byte_ok in Ho. destruct Ho as [-> Hlt]. destruct (m_offset m) as [b|b z] eqn:Em; cbn [shift fits32] in Hf, Hlt.
      * apply IH in Hf; [|exact Hlt]. destruct Hf as (He & Hfit & o' & Hl & ->). split; [exact He|]. split; [exact Hfit|].
        exists (shift b o'). split; [eapply leads_member; eassumption|]. rewrite shift_shift. reflexivity.
      * destruct cs as [|comp cs]; [|exfalso; eapply follow_bits; [|exact Hf]; discriminate].
        destruct n as [|n]; [discriminate|]. cbn in Hf. destruct e; [discriminate|]. injection Hf as <- <-.
        split; [reflexivity|]. split; [exact Hlt|]. exists (BitOffsetAndSize b z). split; [eapply leads_bitfield; eassumption|reflexivity].
Qed.

(** ** Completeness (C33) *)
Lemma is_from_id ti t ty : is ti t ty -> exists r, from_id ti r = Some ty.
Proof. intros (r & _ & H & _). eauto. Qed.
Lemma round_name_err c ti e p g off ty ms name k : members_of ty ms -> round c ti e p g off ty (Name name) = Err k ->
  (exists m k', In m ms /\ m_name m = None /\ offset_add (m_offset m) off = Err k') \/
  ((forall m, In m ms -> m_name m = None -> exists o k, offset_add (m_offset m) off = Ok o /\ p o (m_tid m) = Err k) /\
   forall m, named ms name m -> match offset_add off (m_offset m) with Ok o => exists k, g o (m_tid m) = Err k | _ => True end).
Proof.
  intros Hms H. apply member_lists_iff in Hms.
  assert (G : obind (probe_anonymous p off ms) (fun found => match found with Some r => Ok r | None =>
       match find (has_name name) ms with Some m => obind (btf_err (offset_add off (m_offset m))) (fun off' => g off' (m_tid m)) | None => Err OEMemberNotFound end end) = Err k).
  { unfold round in H. destruct ty; try discriminate Hms; cbn in Hms; injection Hms as <-; exact H. }
  pose proof (probe_cases p off ms) as P. destruct (probe_anonymous p off ms) as [[r0|]|k0|q|]; cbn [obind] in G; try discriminate.
  - right. split; [exact P|]. intros m Hm. apply find_named in Hm. rewrite Hm in G.
    destruct (offset_add off (m_offset m)) as [o| | |]; auto. cbn in G. eauto.
  - left. destruct P as (m & k' & H1 & H2 & H3 & _). eauto.
Qed.
Lemma follow_complete c ti n : anonymous_in_bytes ti -> forall a t cs u o k,
  leads ti (computed c ti) t cs u o -> fits32 (shift a o) -> (forall r b, visits ti (computed c ti) t cs r b -> a + b < 2 ^ 32) ->
  follow n c ti None (ByteOffset a) t cs <> Err k.
Proof.
  intros HA. induction n as [|n IH]; intros a t cs u o k Hl Hfit Hv H; [discriminate|].
  assert (Hanon : forall ty ms m name cs', is ti t ty -> members_of ty ms -> cs = Name name :: cs' -> In m ms -> m_name m = None ->
     exists b, m_offset m = ByteOffset b /\ offset_add (m_offset m) (ByteOffset a) = Ok (ByteOffset (b + a)) /\
       (forall r b', visits ti (computed c ti) (m_tid m) cs r b' -> b + a + b' < 2 ^ 32)).
  { intros ty ms m name cs' Hty Hms -> Hin Hn. destruct (is_from_id _ _ _ Hty) as [r Hr]. destruct (HA _ _ _ _ Hr Hms Hin Hn) as [b Hb].
    exists b. split; [exact Hb|]. rewrite Hb.
    assert (V : forall r b', visits ti (computed c ti) (m_tid m) (Name name :: cs') r b' -> b + a + b' < 2 ^ 32).
    { intros r' b' V. pose proof (Hv r' (b + b') ltac:(eapply visits_anonymous; eassumption)). lia. }
    split; [|exact V]. apply add_byte_ok. split; [reflexivity|]. cbn. specialize (V (m_tid m) 0 (visits_here _ _ _ _)). lia. }
  inversion Hl as [t0|t0 h d i s cs0 u0 o0 Hty Hi Hs Hl'|t0 ty ms name m b cs0 u0 o0 Hty Hms Hm Ho Hl'|t0 ty ms name m b z Hty Hms Hm Ho|t0 ty ms name m b cs0 u0 o0 Hty Hms Hin Hn Ho Hl']; subst.
  - discriminate H.
  - apply is_resolve in Hty as Hr. destruct Hr as [r Hr]. rewrite follow_S, Hr in H. cbn [obind snd round] in H.
    assert (V : forall r b', visits ti (computed c ti) (element_tid d) cs0 r b' -> a + i * s + b' < 2 ^ 32).
    { intros r' b' V. pose proof (Hv r' (i * s + b') ltac:(eapply visits_index; eassumption)). lia. }
    assert (St : array_step c ti d (ByteOffset a) i = Ok (ByteOffset (a + i * s))).
    { apply array_step_ok. exists s, a. repeat split; auto. specialize (V _ _ (visits_here _ _ _ _)). lia. }
    rewrite St in H. cbn [obind] in H. eapply IH; [exact Hl'| |exact V|exact H]. rewrite <- shift_shift. exact Hfit.
  - apply is_resolve in Hty as Hr. destruct Hr as [r Hr]. rewrite follow_S, Hr in H. cbn [obind snd] in H.
    apply (round_name_err _ _ _ _ _ _ _ _ _ _ Hms) in H. destruct H as [(m' & k' & Hin' & Hn' & E)|[_ H]].
    + destruct (Hanon _ _ _ _ _ Hty Hms eq_refl Hin' Hn') as (b' & _ & E' & _). congruence.
    + specialize (H m Hm). rewrite Ho in H.
      assert (V : forall r b', visits ti (computed c ti) (m_tid m) cs0 r b' -> a + b + b' < 2 ^ 32).
      { intros r' b' V. pose proof (Hv r' (b + b') ltac:(eapply visits_member; eassumption)). lia. }
      assert (St : offset_add (ByteOffset a) (ByteOffset b) = Ok (ByteOffset (a + b))).
      { apply add_byte_ok. split; [reflexivity|]. cbn. specialize (V _ _ (visits_here _ _ _ _)). lia. }
      rewrite St in H. destruct H as [k' H]. eapply IH; [exact Hl'| |exact V|exact H]. rewrite <- shift_shift. exact Hfit.
  - apply is_resolve in Hty as Hr. destruct Hr as [r Hr]. rewrite follow_S, Hr in H. cbn [obind snd] in H.
    apply (round_name_err _ _ _ _ _ _ _ _ _ _ Hms) in H. destruct H as [(m' & k' & Hin' & Hn' & E)|[_ H]].
    + destruct (Hanon _ _ _ _ _ Hty Hms eq_refl Hin' Hn') as (b' & _ & E' & _). congruence.
    + specialize (H m Hm). rewrite Ho in H.
      assert (St : offset_add (ByteOffset a) (BitOffsetAndSize b z) = Ok (BitOffsetAndSize (8 * a + b) z)).
      { apply add_byte_ok. split; [reflexivity|]. exact Hfit. }
      rewrite St in H. destruct H as [k' H]. destruct n; discriminate H.
  - apply is_resolve in Hty as Hr. destruct Hr as [r Hr]. rewrite follow_S, Hr in H. cbn [obind snd] in H.
    apply (round_name_err _ _ _ _ _ _ _ _ _ _ Hms) in H. destruct H as [(m' & k' & Hin' & Hn' & E)|[H _]].
    + destruct (Hanon _ _ _ _ _ Hty Hms eq_refl Hin' Hn') as (b' & _ & E' & _). congruence.
    + destruct (H m Hin Hn) as (o1 & k' & E & F). destruct (Hanon _ _ _ _ _ Hty Hms eq_refl Hin Hn) as (b' & Eb & E' & V).
      rewrite E in E'. injection E' as ->. rewrite Ho in Eb. injection Eb as <-.
      eapply IH; [exact Hl'| |exact V|exact F]. rewrite N.add_comm, <- shift_shift. exact Hfit.
Qed.

(** ** Panics come from array sizes only *)
Lemma follow_panic c ti e n : forall off t cs p, follow n c ti e off t cs = Panic p -> exists x, size_of c ti x = Panic p.
Proof.
  induction n as [|n IH]; intros off t cs p H; [discriminate|]. destruct cs as [|comp cs]; [cbn in H; destruct e; discriminate|].
  rewrite follow_S in H. pose proof (resolve_sound ti t) as RS. destruct (resolve ti t) as [[x ty]|k|q|]; cbn [obind snd] in H; try discriminate; [|destruct RS].
  destruct comp as [i|name].
  - unfold round in H. destruct ty; try discriminate H. destruct (array_step c ti d off i) as [o|k|q|] eqn:E; cbn [obind] in H; try discriminate.
    + eapply IH. exact H.
    + injection H as ->. unfold array_step in E. destruct (element_count d <=? i); [discriminate|].
      destruct (size_of c ti (element_tid d)) as [s|k|q|] eqn:Es; cbn [btf_err obind] in E; try discriminate.
      * destruct (index_size i s); cbn [ok_or obind] in E; [|discriminate]. destruct off; [rewrite add_u32_byte in E; destruct (_ <? _) in E|]; discriminate E.
      * injection E as ->. eauto.
  - assert (G : match member_lists ty with None => True | Some ms =>
       obind (probe_anonymous (fun o mt => follow n c ti e o mt (Name name :: cs)) off ms) (fun found => match found with Some r => Ok r | None =>
       match find (has_name name) ms with Some m => obind (btf_err (offset_add off (m_offset m))) (fun off' => follow n c ti e off' (m_tid m) cs) | None => Err OEMemberNotFound end end) = Panic p -> exists x, size_of c ti x = Panic p end).
    { destruct (member_lists ty) as [ms|]; [|exact I]. intros G.
      pose proof (probe_cases (fun o mt => follow n c ti e o mt (Name name :: cs)) off ms) as P.
      destruct (probe_anonymous _ _ ms) as [[r0|]|k|q|]; cbn [obind] in G; try discriminate.
      - destruct (find (has_name name) ms) as [m|]; [|discriminate]. pose proof (add_not_panic off (m_offset m)) as NP.
        destruct (offset_add off (m_offset m)); cbn [btf_err obind] in G; try contradiction; try discriminate. eapply IH. exact G.
      - injection G as ->. destruct P as (m & o & _ & _ & _ & Hf). eapply IH. exact Hf. }
    unfold round in H. destruct ty; try discriminate H; exact (G H).
Qed.
