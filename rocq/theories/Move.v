(** * Move: following a path from a later start gives the same result, later. *)
From Coq Require Import Lia.
From Verif Require Import TypeInfo Spec BaseFacts PathSpec Path PathGrammar QuerySpec Chains Sizes Follow Offsets Offsets2 OffsetOf OffsetOf2.

Lemma follow_bits_same c ti e n x y z t comp cs : (forall ty, is ti t ty -> ~ has_members ty) ->
  follow n c ti e (BitOffsetAndSize x z) t (comp :: cs) = follow n c ti e (BitOffsetAndSize y z) t (comp :: cs).
Proof.
  intros H. destruct n as [|n]; [reflexivity|]. rewrite !follow_S. pose proof (is_resolve ti t) as HI.
  destruct (resolve ti t) as [[r ty]|k|q|]; cbn [obind snd]; try reflexivity.
  assert (Hty : is ti t ty) by (apply HI; eauto). specialize (H ty Hty). unfold round. destruct comp as [i|name].
  - destruct ty; reflexivity.
  - destruct (member_lists ty) as [ms|] eqn:E; [|reflexivity]. apply member_lists_iff in E. destruct H. exists ms. exact E.
Qed.
Lemma probe_moved_eq a f1 f2 off1 off2 ms :
  (forall m, In m ms -> m_name m = None ->
     match offset_add (m_offset m) off1 with
     | Ok o1 => exists o2, offset_add (m_offset m) off2 = Ok o2 /\ f2 o2 (m_tid m) = moved a (f1 o1 (m_tid m))
     | r => offset_add (m_offset m) off2 = r end) ->
  probe_anonymous f2 off2 ms =
  match probe_anonymous f1 off1 ms with
  | Ok (Some (u, o)) => Ok (Some (u, shift a o))
  | r => r end.
Proof.
  intros H. induction ms as [|m ms IH]; [reflexivity|]. cbn [probe_anonymous].
  specialize (IH (fun m' Hin => H m' (or_intror Hin))). destruct (is_anonymous m) eqn:A; [|exact IH].
  apply is_anonymous_iff in A. specialize (H m (or_introl eq_refl) A).
  destruct (offset_add (m_offset m) off1) as [o1|k|q|] eqn:E1.
  - destruct H as (o2 & -> & H). cbn [btf_err obind]. rewrite H. destruct (f1 o1 (m_tid m)) as [[u o]|k|q|]; cbn [moved]; try reflexivity. exact IH.
  - rewrite H. reflexivity.
  - rewrite H. reflexivity.
  - rewrite H. reflexivity.
Qed.
Lemma follow_moved c ti e n a : plain_bitfields ti -> forall x t cs,
  (forall r b, visits ti (computed c ti) t cs r b -> a + x + b < 2 ^ 32) ->
  (forall cs1 cs2 u o, cs = cs1 ++ cs2 -> leads ti (computed c ti) t cs1 u o -> fits32 (shift (a + x) o)) ->
  follow n c ti e (ByteOffset (a + x)) t cs = moved a (follow n c ti e (ByteOffset x) t cs).
Proof.
  intros Hpb. induction n as [|n IH]; intros x t cs Hv Hl; [reflexivity|]. destruct cs as [|comp cs]; [cbn; destruct e; reflexivity|].
  rewrite !follow_S. pose proof (is_resolve ti t) as HI. destruct (resolve ti t) as [[r ty]|k|q|]; cbn [obind snd]; try reflexivity.
  assert (Hty : is ti t ty) by (apply HI; eauto). clear HI. destruct comp as [i|name].
  - unfold round. destruct ty; try reflexivity.
    unfold array_step. destruct (N.leb_spec (element_count d) i) as [Hi|Hi]; [reflexivity|].
    destruct (size_of c ti (element_tid d)) as [s|k|q|] eqn:Es; cbn [btf_err obind]; try reflexivity.
    assert (V : forall r b', visits ti (computed c ti) (element_tid d) cs r b' -> a + (x + i * s) + b' < 2 ^ 32).
    { intros r' b' V. pose proof (Hv r' (i * s + b') ltac:(eapply visits_index; eassumption)). lia. }
    pose proof (V _ _ (visits_here _ _ _ _)) as V0.
    assert (Ei : index_size i s = Some (i * s)) by (apply index_size_iff; split; [reflexivity|lia]). rewrite Ei. cbn [ok_or obind].
    rewrite !add_u32_byte. replace (x + i * s <? 2 ^ 32) with true by lia. replace (a + x + i * s <? 2 ^ 32) with true by lia. cbn [btf_err obind].
    replace (a + x + i * s) with (a + (x + i * s)) by lia. apply IH; [exact V|].
    intros cs1 cs2 u o -> L. replace (a + (x + i * s)) with (a + x + i * s) by lia. rewrite <- shift_shift. apply (Hl (Index i :: cs1) cs2 u); [reflexivity|]. eapply leads_index; eassumption.
  - destruct (member_lists ty) as [ms|] eqn:Ems; [|unfold round; rewrite Ems; destruct ty; reflexivity].
    apply member_lists_iff in Ems. do 2 rewrite (round_name _ _ _ _ _ _ _ _ _ Ems).
    rewrite (probe_moved_eq a (fun o mt => follow n c ti e o mt (Name name :: cs)) (fun o mt => follow n c ti e o mt (Name name :: cs)) (ByteOffset x) (ByteOffset (a + x)) ms).
    2:{ intros m Hin Hn. destruct (m_offset m) as [b|b z] eqn:Em; [|reflexivity].
      assert (V : forall r b', visits ti (computed c ti) (m_tid m) (Name name :: cs) r b' -> a + (b + x) + b' < 2 ^ 32).
      { intros r' b' V. pose proof (Hv r' (b + b') ltac:(eapply visits_anonymous; eassumption)). lia. }
      pose proof (V _ _ (visits_here _ _ _ _)) as V0.
      assert (E1 : offset_add (ByteOffset b) (ByteOffset x) = Ok (ByteOffset (b + x))) by (apply add_byte_ok; split; [reflexivity|cbn; lia]).
      assert (E2 : offset_add (ByteOffset b) (ByteOffset (a + x)) = Ok (ByteOffset (a + (b + x)))) by (apply add_byte_ok; split; [cbn; f_equal; lia|cbn; lia]).
      rewrite E1, E2. eexists. split; [reflexivity|]. apply IH; [exact V|].
      intros cs1 cs2 u o E L. replace (a + (b + x)) with (a + x + b) by lia. destruct cs1 as [|comp1 cs1].
      - inversion L; subst. cbn. lia.
      - injection E as <- E. rewrite <- shift_shift. apply (Hl (Name name :: cs1) cs2 u); [cbn; congruence|]. eapply leads_anonymous; eassumption. }
    destruct (probe_anonymous _ (ByteOffset x) ms) as [[[u o]|]|k|q|]; cbn [obind]; try reflexivity.
    destruct (find (has_name name) ms) as [m|] eqn:Ef; [|reflexivity]. apply find_named in Ef.
    destruct (m_offset m) as [b|b z] eqn:Em.
    + assert (V : forall r b', visits ti (computed c ti) (m_tid m) cs r b' -> a + (x + b) + b' < 2 ^ 32).
      { intros r' b' V. pose proof (Hv r' (b + b') ltac:(eapply visits_member; eassumption)). lia. }
      pose proof (V _ _ (visits_here _ _ _ _)) as V0.
      assert (E1 : offset_add (ByteOffset x) (ByteOffset b) = Ok (ByteOffset (x + b))) by (apply add_byte_ok; split; [reflexivity|cbn; lia]).
      assert (E2 : offset_add (ByteOffset (a + x)) (ByteOffset b) = Ok (ByteOffset (a + (x + b)))) by (apply add_byte_ok; split; [cbn; f_equal; lia|cbn; lia]).
      rewrite E1, E2. cbn [btf_err obind]. apply IH; [exact V|].
      intros cs1 cs2 u o -> L. replace (a + (x + b)) with (a + x + b) by lia. rewrite <- shift_shift. apply (Hl (Name name :: cs1) cs2 u); [reflexivity|]. eapply leads_member; eassumption.
    + pose proof (Hl [Name name] cs _ _ eq_refl (leads_bitfield _ _ _ _ _ _ _ _ _ Hty Ems Ef Em)) as F. cbn [shift fits32] in F.
      assert (E1 : offset_add (ByteOffset x) (BitOffsetAndSize b z) = Ok (BitOffsetAndSize (8 * x + b) z)) by (apply add_byte_ok; split; [reflexivity|cbn; lia]).
      assert (E2 : offset_add (ByteOffset (a + x)) (BitOffsetAndSize b z) = Ok (BitOffsetAndSize (8 * (a + x) + b) z)) by (apply add_byte_ok; split; [reflexivity|cbn; lia]).
      rewrite E1, E2. cbn [btf_err obind]. destruct cs as [|comp' cs'].
      * destruct n as [|n']; [reflexivity|]. cbn. destruct e; [reflexivity|]. cbn. do 2 f_equal. f_equal. lia.
      * assert (Hno : forall ty', is ti (m_tid m) ty' -> ~ has_members ty').
        { destruct (is_from_id ti t ty Hty) as (r0 & Er0). apply named_In in Ef. destruct Ef as [Hin _]. exact (Hpb _ _ _ _ _ _ Er0 Ems Hin Em). }
        rewrite (follow_bits_same c ti e n (8 * (a + x) + b) (8 * x + b) z (m_tid m) comp' cs' Hno).
        destruct n as [|n']; [reflexivity|]. 
        pose proof (follow_bits c ti e (S n') (8 * x + b) z (m_tid m) (comp' :: cs')) as FB.
        destruct (follow (S n') c ti e (BitOffsetAndSize (8 * x + b) z) (m_tid m) (comp' :: cs')) as [r0| | |]; try reflexivity.
        exfalso. exact (FB r0 ltac:(discriminate) eq_refl).
Qed.

(** ** Indexing *)
Theorem offset_of_index_eq c ti t h d i s p q cs : valid_utf8 p -> valid_utf8 q ->
  reads_as (usize_max c) p (Index i :: cs) -> reads_as (usize_max c) q cs -> plain_bitfields ti ->
  is ti t (TArray h d) -> i < element_count d -> size_of c ti (element_tid d) = Ok s ->
  (forall r b, visits ti (computed c ti) (element_tid d) cs r b -> i * s + b < 2 ^ 32) ->
  (forall cs1 cs2 u o, cs = cs1 ++ cs2 -> leads ti (computed c ti) (element_tid d) cs1 u o -> fits32 (shift (i * s) o)) ->
  forall n, offset_of_uncached (S n) c ti t p = moved (i * s) (offset_of_uncached n c ti (element_tid d) q).
Proof.
  intros Hp Hq Hrp Hrq Hpb Hty Hi Hs Hv Hl n. apply script_reads in Hrp; [|exact Hp]. apply script_reads in Hrq; [|exact Hq].
  rewrite (uncached_user _ _ _ _ _ _ _ Hp Hrp), (uncached_user _ _ _ _ _ _ _ Hq Hrq), follow_S.
  apply is_resolve in Hty. destruct Hty as (r & ->). cbn [obind snd round].
  assert (E : array_step c ti d (ByteOffset 0) i = Ok (ByteOffset (i * s + 0))).
  { apply array_step_ok. exists s, 0. pose proof (Hv _ _ (visits_here _ _ _ _)). repeat split; try assumption; [f_equal|]; lia. }
  rewrite E. cbn [obind]. rewrite (follow_moved c ti None n (i * s) Hpb 0).
  - destruct (follow n c ti None (ByteOffset 0) (element_tid d) cs) as [[u o]| | |]; reflexivity.
  - intros r' b V. pose proof (Hv r' b V). lia.
  - intros cs1 cs2 u o E' L. rewrite N.add_0_r. exact (Hl cs1 cs2 u o E' L).
Qed.
