(** Facts about files whose sections lie elsewhere (C69). *)
From Coq Require Import List NArith Bool Lia Strings.Byte.
From Verif Require Import TypeInfo Spec BaseFacts Exact BrokenSpec Final RelocateSpec.
Import ListNotations.
Open Scope N_scope.

(** ** Bytes one by one *)
Lemma bytes_at_nth img off bs : bytes_at img off bs -> forall i b, nth_error bs i = Some b -> byte_of img (off + N.of_nat i) = Some b.
Proof.
  intros (pre & post & -> & L) i b H. unfold byte_of. assert (i < length bs)%nat by (apply nth_error_Some; congruence).
  rewrite nth_error_app2 by lia. rewrite nth_error_app1 by lia. rewrite <- H. f_equal. lia.
Qed.
Lemma list_ext {A} (l l' : list A) : length l = length l' -> (forall i a b, nth_error l i = Some a -> nth_error l' i = Some b -> a = b) -> l = l'.
Proof.
  revert l'. induction l as [|x l IH]; intros [|y l'] L H; try discriminate L; [reflexivity|]. f_equal; [exact (H 0%nat x y eq_refl eq_refl)|].
  apply IH; [injection L as L; exact L|]. intros i a b. exact (H (S i) a b).
Qed.
Lemma nth_bytes_at img off bs : bs <> [] -> (forall i b, nth_error bs i = Some b -> byte_of img (off + N.of_nat i) = Some b) -> bytes_at img off bs.
Proof.
  intros Hne H. assert (Hl : (N.to_nat off + length bs <= length img)%nat).
  { assert (L : (length bs - 1 < length bs)%nat) by (destruct bs; [congruence|cbn; lia]). destruct (nth_error bs (length bs - 1)) as [b|] eqn:E; [|apply nth_error_None in E; lia].
    apply H in E. unfold byte_of in E. assert (N.to_nat (off + N.of_nat (length bs - 1)) < length img)%nat by (apply nth_error_Some; congruence). lia. }
  destruct (bytes_at_slice img off (N.of_nat (length bs)) ltac:(lia)) as [Hs Ls]. replace bs with (slice img off (N.of_nat (length bs))) at 1; [exact Hs|].
  apply list_ext; [lia|]. intros i b b' E E'. pose proof (bytes_at_nth _ _ _ Hs i b E). pose proof (H i b' E'). congruence.
Qed.
Lemma same_bytes_at img img' lo lo' n x bs : same_bytes img img' lo lo' n -> bs <> [] -> x + N.of_nat (length bs) <= n -> bytes_at img (lo + x) bs -> bytes_at img' (lo' + x) bs.
Proof.
  intros H Hne L Hb. apply nth_bytes_at; [exact Hne|]. intros i b E. assert (i < length bs)%nat by (apply nth_error_Some; congruence).
  rewrite <- (bytes_at_nth _ _ _ Hb i b E), <- !N.add_assoc. symmetry. apply H. lia.
Qed.

Section Move.
  Context (f f' : layout) (Ho : order f = order f').
  Context (Ht : same_bytes (image f) (image f') (types_lo f) (types_lo f') (types_hi f - types_lo f)).
  Context (Hs : same_bytes (image f) (image f') (strings_lo f) (strings_lo f') (strings_hi f - strings_lo f)).
  Context (Lt : types_lo f <= types_hi f) (Ls : strings_lo f <= strings_hi f).
  Context (Et : types_hi f + types_lo f' = types_hi f' + types_lo f) (Es : strings_hi f + strings_lo f' = strings_hi f' + strings_lo f).
  Context (B1 : types_hi f < 2 ^ 32) (B2 : types_hi f' < 2 ^ 32) (B3 : strings_hi f < 2 ^ 32) (B4 : strings_hi f' < 2 ^ 32).

  (** The place in the other file *)
  Definition at_types (o o' : N) : Prop := types_lo f <= o /\ o + types_lo f' = o' + types_lo f.
  Lemma mv_word n o o' v : at_types o o' -> (n <> 0)%nat -> o + N.of_nat n <= types_hi f -> word_at (image f) (order f) n o v -> word_at (image f') (order f') n o' v.
  Proof.
    intros [L E] Hn Hi (bs & Hl & Hb & Hv). exists bs. split; [exact Hl|]. split; [|rewrite <- Ho; exact Hv].
    replace o with (types_lo f + (o - types_lo f)) in Hb by lia. apply (same_bytes_at _ _ _ _ _ _ _ Ht) in Hb; [|intros ->; cbn in Hl; lia|lia].
    replace o' with (types_lo f' + (o - types_lo f)) by lia. exact Hb.
  Qed.
  Lemma mv_u32 o o' v : at_types o o' -> o + 4 <= types_hi f -> u32_at (image f) (order f) o v -> u32_at (image f') (order f') o' v.
  Proof. intros H L. apply mv_word; [exact H|discriminate|exact L]. Qed.
  Lemma at_plus o o' k : at_types o o' -> at_types (o + k) (o' + k). Proof. unfold at_types. lia. Qed.

  Lemma mv_raw k bs : raw_string f k bs -> raw_string f' k bs.
  Proof.
    intros (Hb & Hn & L & _). split; [|split; [exact Hn|split; [lia|exact B4]]].
    apply (same_bytes_at _ _ _ _ _ _ _ Hs) in Hb; [exact Hb|destruct bs; discriminate|rewrite app_length; cbn [length]; lia].
  Qed.
  Lemma mv_string k x : string_at f k x -> string_at f' k x.
  Proof. intros (bs & H & L). exists bs. split; [apply mv_raw; exact H|exact L]. Qed.
  Lemma mv_name k x : name_at f k x -> name_at f' k x.
  Proof. destruct x as [x|]; [|exact (fun H => H)]. intros [H1 H2]. split; [exact H1|apply mv_string; exact H2]. Qed.
  Lemma mv_bad k x : bad_string f k x -> bad_string f' k x.
  Proof.
    intros [[-> H]|(-> & _ & bs & Hb & Hne & Hn & L)].
    - left. split; [reflexivity|]. right. lia.
    - right. split; [reflexivity|]. split; [exact B4|]. exists bs. split; [|split; [exact Hne|split; [exact Hn|lia]]].
      apply (same_bytes_at _ _ _ _ _ _ _ Hs) in Hb; [exact Hb|exact Hne|lia].
  Qed.
  Lemma mv_header o o' h : at_types o o' -> o + 12 <= types_hi f -> header_at f o h -> header_at f' o' h.
  Proof.
    intros H L (H1 & (info & H2 & H3) & H4). split; [|split; [exists info; split; [|exact H3]|]].
    - eapply mv_u32; [exact H|lia|exact H1].
    - eapply mv_u32; [apply at_plus; exact H|lia|exact H2].
    - eapply mv_u32; [apply at_plus; exact H|lia|exact H4].
  Qed.
  Lemma mv_items {A} (item item' : N -> A -> Prop) o o' sz n l : at_types o o' -> o + sz * n <= types_hi f ->
    (forall p p' a, at_types p p' -> p + sz <= types_hi f -> item p a -> item' p' a) -> items_at item o sz n l -> items_at item' o' sz n l.
  Proof.
    intros H L HI [Hl Hi]. split; [exact Hl|]. intros i a E. assert (i < length l)%nat by (apply nth_error_Some; congruence).
    apply (HI (o + sz * N.of_nat i)); [apply at_plus; exact H| |apply Hi; exact E].
    assert (sz * (N.of_nat i + 1) <= sz * n) by (apply N.mul_le_mono_l; lia). lia.
  Qed.
  Lemma mv_member kf o o' m : at_types o o' -> o + 12 <= types_hi f -> member_at f kf o m -> member_at f' kf o' m.
  Proof.
    intros H L (H1 & H2 & H3 & w & H4 & H5). split; [eapply mv_u32; [exact H|lia|exact H1]|]. split; [apply mv_name; exact H2|].
    split; [eapply mv_u32; [apply at_plus; exact H|lia|exact H3]|]. exists w. split; [eapply mv_u32; [apply at_plus; exact H|lia|exact H4]|exact H5].
  Qed.
  Lemma mv_enumerator n sg o o' m : (n <> 0)%nat -> at_types o o' -> o + (4 + N.of_nat n) <= types_hi f -> enumerator_at f n sg o m -> enumerator_at f' n sg o' m.
  Proof.
    intros Hn H L ((k & H1 & H2) & w & H3 & H4). split.
    - exists k. split; [eapply mv_u32; [exact H|lia|exact H1]|apply mv_string; exact H2].
    - exists w. split; [eapply mv_word; [apply at_plus; exact H|exact Hn|lia|exact H3]|exact H4].
  Qed.
  Lemma mv_parameter o o' m : at_types o o' -> o + 8 <= types_hi f -> parameter_at f o m -> parameter_at f' o' m.
  Proof.
    intros H L (H1 & H2 & H3). split; [eapply mv_u32; [exact H|lia|exact H1]|]. split; [apply mv_name; exact H2|].
    eapply mv_u32; [apply at_plus; exact H|lia|exact H3].
  Qed.
  Lemma mv_variable o o' m : at_types o o' -> o + 12 <= types_hi f -> variable_at f o m -> variable_at f' o' m.
  Proof.
    intros H L (H1 & H2 & H3). split; [eapply mv_u32; [exact H|lia|exact H1]|]. split; eapply mv_u32; try (apply at_plus; exact H); try eassumption; lia.
  Qed.
  Lemma mv_payload o o' h t : at_types o o' -> o + extra_size h <= types_hi f -> payload_at f o h t -> payload_at f' o' h t.
  Proof.
    intros H L. unfold extra_size in L. unfold payload_at, h_name.
    assert (NM : forall k x, name_at f k x -> name_at f' k x) by exact mv_name.
    assert (MI : forall n l kf, o + 12 * n <= types_hi f -> items_at (member_at f kf) o 12 n l -> items_at (member_at f' kf) o' 12 n l).
    { intros n l kf L'. apply mv_items; [exact H|exact L'|]. intros. eapply mv_member; eassumption. }
    destruct (h_kind h).
    - intros (d & w & E1 & E2 & E3 & E4 & E5). exists d, w. split; [exact E1|]. split; [apply NM; exact E2|]. split; [exact E3|]. split; [eapply mv_u32; [exact H|lia|exact E4]|exact E5].
    - exact (fun x => x).
    - intros (d & E1 & E2 & E3 & E4). exists d. split; [exact E1|]. split; [eapply mv_u32; [exact H|lia|exact E2]|].
      split; (eapply mv_u32; [apply at_plus; exact H|lia|eassumption]).
    - intros (d & E1 & E2 & E3 & E4). exists d. split; [exact E1|]. split; [apply NM; exact E2|]. split; [exact E3|]. apply MI; [exact L|exact E4].
    - intros (d & E1 & E2 & E3 & E4). exists d. split; [exact E1|]. split; [apply NM; exact E2|]. split; [exact E3|]. apply MI; [exact L|exact E4].
    - intros (d & E1 & E2 & E3 & E4 & E5). exists d. split; [exact E1|]. split; [apply NM; exact E2|]. split; [exact E3|]. split; [exact E4|].
      revert E5. apply mv_items; [exact H|exact L|]. intros p p' a. apply (mv_enumerator 4). discriminate.
    - intros (n & E1 & E2). exists n. split; [exact E1|apply NM; exact E2].
    - intros (n & E1 & E2). exists n. split; [exact E1|apply NM; exact E2].
    - exact (fun x => x).
    - exact (fun x => x).
    - exact (fun x => x).
    - intros (n & E1 & E2). exists n. split; [exact E1|apply NM; exact E2].
    - intros (d & E1 & E2 & E3). exists d. split; [exact E1|]. split; [exact E2|]. revert E3. apply mv_items; [exact H|exact L|]. intros p p' a. apply mv_parameter.
    - intros (d & E1 & E2 & E3 & E4 & E5). exists d. split; [exact E1|]. split; [apply NM; exact E2|]. split; [exact E3|]. split; [eapply mv_u32; [exact H|lia|exact E4]|exact E5].
    - intros (d & E1 & E2 & E3 & E4). exists d. split; [exact E1|]. split; [apply NM; exact E2|]. split; [exact E3|]. revert E4. apply mv_items; [exact H|exact L|]. intros p p' a. apply mv_variable.
    - intros (n & E1 & E2). exists n. split; [exact E1|apply NM; exact E2].
    - intros (d & E1 & E2 & E3 & E4). exists d. split; [exact E1|]. split; [apply NM; exact E2|]. split; [exact E3|]. eapply mv_u32; [exact H|lia|exact E4].
    - intros (n & E1 & E2). exists n. split; [exact E1|apply NM; exact E2].
    - intros (d & E1 & E2 & E3 & E4 & E5). exists d. split; [exact E1|]. split; [apply NM; exact E2|]. split; [exact E3|]. split; [exact E4|].
      revert E5. apply mv_items; [exact H|exact L|]. intros p p' a. apply (mv_enumerator 8). discriminate.
  Qed.
  Lemma mv_record o o' t stop stop' : at_types o o' -> at_types stop stop' -> stop <= types_hi f -> record_at f o t stop -> record_at f' o' t stop'.
  Proof.
    intros H H' L (h & H1 & H2 & H3 & H4 & H5 & H6). exists h. split; [eapply mv_header; [exact H|exact H4|exact H1]|].
    split; [eapply mv_payload; [apply at_plus; exact H|lia|exact H2]|]. unfold at_types in *. lia.
  Qed.
  Lemma mv_records o ts stop : records_at f o ts stop -> forall o' stop', at_types o o' -> at_types stop stop' -> stop <= types_hi f -> records_at f' o' ts stop'.
  Proof.
    induction 1 as [o|o t next ts stop Hlt Hr Hrs IH]; intros o' stop' H H' L.
    - assert (o' = stop') as -> by (unfold at_types in *; lia). constructor.
    - assert (M : o <= next /\ next <= stop).
      { split; [destruct Hr as (h & _ & _ & -> & _); lia|]. clear - Hrs. induction Hrs as [|? ? ? ? ? ? (h & _ & _ & -> & _)]; lia. }
      assert (At : at_types next (next + types_lo f' - types_lo f)) by (unfold at_types in *; lia).
      econstructor; [unfold at_types in *; lia| |apply IH; [exact At|exact H'|exact L]]. eapply mv_record; [exact H|exact At|lia|exact Hr].
  Qed.
  Lemma mv_unnamed_size h : extra_size (unnamed h) = extra_size h. Proof. reflexivity. Qed.
  Lemma mv_defect o o' h x : at_types o o' -> o + checked_size h <= types_hi f -> defect_at f o h x -> defect_at f' o' h x.
  Proof.
    intros H L D. destruct D as [x t K Hn Hp Hb|x i ms no tid w K Hi Hms H1 H2 H3 Hne Hb|i ms no name tid w K Hi Hms H1 Hn H2 H3 KF W|x n i vs no K Hi Hvs H1 Hb|x i ps no tid K Hi Hps H1 H2 Hne Hb].
    - apply bad_record_name with t; [exact K|exact Hn| |apply mv_bad; exact Hb]. eapply mv_payload; [exact H| |exact Hp].
      rewrite mv_unnamed_size. unfold checked_size in L. destruct (h_kind h); try exact L. discriminate K.
    - assert (X : o + 12 * i + 12 <= types_hi f) by (unfold checked_size, extra_size in L; destruct K as [K|K]; rewrite K in L; lia).
      eapply bad_member_name; [exact K|exact Hi| | | | |exact Hne|apply mv_bad; exact Hb].
      + eapply mv_items; [exact H| | |exact Hms]; [lia|]. intros p p' a. apply mv_member.
      + eapply mv_u32; [apply at_plus; exact H|lia|exact H1].
      + eapply mv_u32; [do 2 apply at_plus; exact H|lia|exact H2].
      + eapply mv_u32; [do 2 apply at_plus; exact H|lia|exact H3].
    - assert (X : o + 12 * i + 12 <= types_hi f) by (unfold checked_size, extra_size in L; destruct K as [K|K]; rewrite K in L; lia).
      eapply unaligned_member; [exact K|exact Hi| | |apply mv_name; exact Hn| | |exact KF|exact W].
      + eapply mv_items; [exact H| | |exact Hms]; [lia|]. intros p p' a. apply mv_member.
      + eapply mv_u32; [apply at_plus; exact H|lia|exact H1].
      + eapply mv_u32; [do 2 apply at_plus; exact H|lia|exact H2].
      + eapply mv_u32; [do 2 apply at_plus; exact H|lia|exact H3].
    - assert (X : o + (4 + N.of_nat n) * i + (4 + N.of_nat n) <= types_hi f /\ n <> O) by (unfold checked_size, extra_size in L; destruct K as [[K ->]|[K ->]]; rewrite K in L; (split; [lia|discriminate])).
      destruct X as [X X']. eapply bad_enumerator_name; [exact K|exact Hi| | |apply mv_bad; exact Hb].
      + eapply mv_items; [exact H| | |exact Hvs]; [lia|]. intros p p' a. apply mv_enumerator. exact X'.
      + eapply mv_u32; [apply at_plus; exact H|lia|exact H1].
    - assert (X : o + 8 * i + 8 <= types_hi f) by (unfold checked_size, extra_size in L; rewrite K in L; lia).
      eapply bad_parameter_name; [exact K|exact Hi| | | |exact Hne|apply mv_bad; exact Hb].
      + eapply mv_items; [exact H| | |exact Hps]; [lia|]. intros p p' a. apply mv_parameter.
      + eapply mv_u32; [apply at_plus; exact H|lia|exact H1].
      + eapply mv_u32; [do 2 apply at_plus; exact H|lia|exact H2].
  Qed.
  Lemma mv_bad_record o o' x : at_types o o' -> bad_record f o x -> bad_record f' o' x.
  Proof.
    intros H B. pose proof H as [H1 H2]. destruct B as [C|C L|nm info C L W1 W2 K|h C L Hh K|h x C Hh L D].
    - lia.
    - apply header_does_not_fit; [exact B2|lia].
    - eapply BrokenSpec.unknown_kind; [exact B2|lia| | |exact K]; (eapply mv_u32; [first [exact H|apply at_plus; exact H]|lia|eassumption]).
    - eapply data_does_not_fit; [exact B2|lia|eapply mv_header; [exact H|exact L|exact Hh]|lia].
    - eapply bad_data; [exact B2|eapply mv_header; [exact H|lia|exact Hh]|lia|]. eapply mv_defect; [apply at_plus; exact H|exact L|exact D].
  Qed.
End Move.
