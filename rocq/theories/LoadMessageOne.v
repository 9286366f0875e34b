(** * LoadMessageOne: a file that is not accepted has one message (C61). *)
From Coq Require Import Strings.Byte.
From Coq Require Import List NArith ZArith Bool Lia ZifyBool ZifyNat ZifyN.
From Verif Require Import TypeInfo Spec BaseFacts Bits Maps Exact Errors LoadProps LoadProps2 Transport Grow Final BrokenSpec Explain LoadMessage LoadMessageSpec LoadMessageFacts LoadMessageTrue.
Import ListNotations.
Open Scope N_scope.

Lemma says_bad_string f k m : bad_string_says f k m -> bad_string f k (lmessage_kind m).
Proof.
  intros [H|H1 H2|H1 H2|H1 H2 H3|bs H1 H2 H3 H4 H5]; cbn [lmessage_kind]; unfold bad_string; try (left; split; [reflexivity|]).
  - destruct (N.le_gt_cases (2 ^ 32) (strings_hi f)); [left; assumption|right; lia].
  - left. exact H2.
  - right. lia.
  - right. exact H3.
  - right. split; [reflexivity|]. split; [exact H1|]. exists bs. auto.
Qed.
Lemma name_not_bad f k n x : name_at f k n -> k <> 0 -> bad_string f k x -> False.
Proof. intros Hn Nz Hb. destruct n as [s|]; [|exact (Nz Hn)]. destruct Hn as [_ Hn]. exact (bad_string_no_string _ _ _ _ Hb Hn). Qed.
Lemma u32_fun img en o a b : u32_at img en o a -> u32_at img en o b -> a = b.
Proof. apply word_at_fun. Qed.

Section Items.
  Context {A : Type} (item : N -> A -> Prop) (off sz : N).
  Lemma items_nth n l i : items_at item off sz n l -> i < n -> exists a, item (off + sz * i) a.
  Proof.
    intros [Hl Hi] L. destruct (nth_error l (N.to_nat i)) as [a|] eqn:E; [|apply nth_error_None in E; lia].
    exists a. specialize (Hi (N.to_nat i) a E). rewrite N2Nat.id in Hi. exact Hi.
  Qed.
  (** The first item that is not there. *)
  Lemma items_first i j l l' : items_at item off sz i l -> items_at item off sz j l' ->
    (forall a, ~ item (off + sz * i) a) -> (forall a, ~ item (off + sz * j) a) -> i = j.
  Proof.
    intros Hi Hj Ni Nj. destruct (N.lt_trichotomy i j) as [L|[E|L]]; [|exact E|].
    - destruct (items_nth j l' i Hj L) as [a Ha]. destruct (Ni a Ha).
    - destruct (items_nth i l j Hi L) as [a Ha]. destruct (Nj a Ha).
  Qed.
End Items.

Section One.
  Context (f : layout).
  Lemma no_member kf o k x : u32_at (image f) (order f) o k -> k <> 0 -> bad_string f k x -> forall m, ~ member_at f kf o m.
  Proof. intros H Nz Hb m (Hn & Hm & _). rewrite (u32_fun _ _ _ _ _ H Hn) in *. exact (name_not_bad _ _ _ _ Hm Nz Hb). Qed.
  Lemma no_aligned o w : u32_at (image f) (order f) (o + 8) w -> w mod 8 <> 0 -> forall m, ~ member_at f false o m.
  Proof. intros H Hw m (_ & _ & _ & w' & Hw' & Ho). rewrite (u32_fun _ _ _ _ _ H Hw') in *. destruct Ho as [Ho _]. exact (Hw Ho). Qed.
  Lemma no_enumerator n sg o k x : u32_at (image f) (order f) o k -> bad_string f k x -> forall v, ~ enumerator_at f n sg o v.
  Proof. intros H Hb v ((k' & Hk & Hst) & _). rewrite (u32_fun _ _ _ _ _ H Hk) in *. exact (bad_string_no_string _ _ _ _ Hb Hst). Qed.
  Lemma no_parameter o k x : u32_at (image f) (order f) o k -> k <> 0 -> bad_string f k x -> forall p, ~ parameter_at f o p.
  Proof. intros H Nz Hb p (Hn & Hm & _). rewrite (u32_fun _ _ _ _ _ H Hn) in *. exact (name_not_bad _ _ _ _ Hm Nz Hb). Qed.

  (** Payloads contain their items. *)
  Lemma payload_members off h t : h_kind h = KStruct \/ h_kind h = KUnion -> payload_at f off h t -> exists ms, items_at (member_at f (h_kind_flag h)) off 12 (h_vlen h) ms.
  Proof. unfold payload_at. intros [-> | ->] (d & _ & _ & _ & H); eauto. Qed.
  Lemma payload_enumerators n off h t : (h_kind h = KEnum /\ n = 4%nat) \/ (h_kind h = KEnum64 /\ n = 8%nat) -> payload_at f off h t ->
    exists vs, items_at (enumerator_at f n (h_kind_flag h)) off (4 + N.of_nat n) (h_vlen h) vs.
  Proof. unfold payload_at. intros [[-> ->]|[-> ->]] (d & _ & _ & _ & _ & H); exists (named_value_list d); exact H. Qed.
  Lemma payload_parameters off h t : h_kind h = KFuncProto -> payload_at f off h t -> exists ps, items_at (parameter_at f) off 8 (h_vlen h) ps.
  Proof. unfold payload_at. intros -> (d & _ & _ & H). eauto. Qed.
  Lemma payload_name off h t : kind_has_name (h_kind h) = true -> payload_at f off h t -> exists n, name_at f (h_name_offset h) n.
  Proof.
    unfold payload_at, h_name. destruct (h_kind h); try discriminate; intros _ H.
    all: try (destruct H as (n & _ & H); exists n; exact H). all: try (destruct H as (d & w & _ & H & _); eexists; exact H).
    all: destruct H as (d & _ & H & _); eexists; exact H.
  Qed.

  Lemma defect_no_payload off h x t : defect_at f off h x -> payload_at f off h t -> False.
  Proof.
    intros [y t' Hn Nz _ Hb|y i ms no tid w HK Hi _ H1 _ _ Nz Hb|i ms no nm tid w HK Hi _ _ _ _ H3 KF W|y n i vs no HK Hi _ H1 Hb|y i ps no tid HK Hi _ H1 _ Nz Hb] Hp.
    - destruct (payload_name _ _ _ Hn Hp) as [n Hn']. exact (name_not_bad _ _ _ _ Hn' Nz Hb).
    - destruct (payload_members _ _ _ HK Hp) as [l Hl]. destruct (items_nth _ _ _ _ _ i Hl Hi) as [m Hm]. exact (no_member _ _ _ _ H1 Nz Hb m Hm).
    - destruct (payload_members _ _ _ HK Hp) as [l Hl]. rewrite KF in Hl. destruct (items_nth _ _ _ _ _ i Hl Hi) as [m Hm]. exact (no_aligned _ _ H3 W m Hm).
    - destruct (payload_enumerators n _ _ _ HK Hp) as [l Hl]. destruct (items_nth _ _ _ _ _ i Hl Hi) as [v Hv]. exact (no_enumerator _ _ _ _ _ H1 Hb v Hv).
    - destruct (payload_parameters _ _ _ HK Hp) as [l Hl]. destruct (items_nth _ _ _ _ _ i Hl Hi) as [p Hp']. exact (no_parameter _ _ _ H1 Nz Hb p Hp').
  Qed.

  Lemma reaches_defect off h k x : reaches f off h k -> bad_string f k x -> defect_at f off h x.
  Proof.
    intros [t Hn <- Nz Hp|i ms tid w HK Hi Hms H1 H2 H3 Nz|n i vs HK Hi Hvs H1|i ps tid HK Hi Hps H1 H2 Nz] Hb.
    - eapply bad_record_name; eassumption.
    - eapply bad_member_name; eassumption.
    - eapply bad_enumerator_name; eassumption.
    - eapply bad_parameter_name; eassumption.
  Qed.
  Lemma reaches_one off h k k' x x' : reaches f off h k -> reaches f off h k' -> bad_string f k x -> bad_string f k' x' -> k = k'.
  Proof.
    assert (Half : forall k k' x', (exists t, payload_at f off (unnamed h) t) -> h_name_offset h = k -> kind_has_name (h_kind h) = true -> reaches f off h k' -> bad_string f k' x' -> k = k').
    { clear k k' x x'. intros k k' x' [t Hp] Hk HN [t' Hn <- Nz _|i ms tid w HK Hi Hms H1 H2 H3 Nz|n i vs HK Hi Hvs H1|i ps tid HK Hi Hps H1 H2 Nz] Hb; [congruence|exfalso ..].
      - destruct (payload_members _ (unnamed h) _ HK Hp) as [l Hl]. destruct (items_nth _ _ _ _ _ i Hl Hi) as [m Hm]. exact (no_member _ _ _ _ H1 Nz Hb m Hm).
      - destruct (payload_enumerators n _ (unnamed h) _ HK Hp) as [l Hl]. destruct (items_nth _ _ _ _ _ i Hl Hi) as [v Hv]. exact (no_enumerator _ _ _ _ _ H1 Hb v Hv).
      - rewrite HK in HN. discriminate. }
    intros R R' Hb Hb'. destruct R as [t Hn Hk Nz Hp|i ms tid w HK Hi Hms H1 H2 H3 Nz|n i vs HK Hi Hvs H1|i ps tid HK Hi Hps H1 H2 Nz].
    - exact (Half k k' x' (ex_intro _ t Hp) Hk Hn R' Hb').
    - destruct R' as [t' Hn' Hk' Nz' Hp'|i' ms' tid' w' HK' Hi' Hms' H1' H2' H3' Nz'|n' i' vs' HK' _ _ _|i' ps' tid' HK' _ _ _ _ _].
      + symmetry. refine (Half k' k x (ex_intro _ t' Hp') Hk' Hn' _ Hb). eapply reaches_member_name; eassumption.
      + assert (i = i') by (eapply items_first; [exact Hms|exact Hms'|eapply no_member; eassumption|eapply no_member; eassumption]). subst i'. exact (u32_fun _ _ _ _ _ H1 H1').
      + destruct HK, HK' as [[? _]|[? _]]; congruence.
      + destruct HK; congruence.
    - destruct R' as [t' Hn' Hk' Nz' Hp'|i' ms' tid' w' HK' _ _ _ _ _ _|n' i' vs' HK' Hi' Hvs' H1'|i' ps' tid' HK' _ _ _ _ _].
      + symmetry. refine (Half k' k x (ex_intro _ t' Hp') Hk' Hn' _ Hb). eapply reaches_enumerator_name; eassumption.
      + destruct HK as [[? _]|[? _]], HK'; congruence.
      + assert (n = n') by (destruct HK as [[? ->]|[? ->]], HK' as [[? ->]|[? ->]]; congruence). subst n'.
        assert (i = i') by (eapply items_first; [exact Hvs|exact Hvs'|eapply no_enumerator; eassumption|eapply no_enumerator; eassumption]). subst i'. exact (u32_fun _ _ _ _ _ H1 H1').
      + destruct HK as [[? _]|[? _]]; congruence.
    - destruct R' as [t' Hn' Hk' Nz' Hp'|i' ms' tid' w' HK' _ _ _ _ _ _|n' i' vs' HK' _ _ _|i' ps' tid' HK' Hi' Hps' H1' H2' Nz'].
      + rewrite HK in Hn'. discriminate.
      + destruct HK'; congruence.
      + destruct HK' as [[? _]|[? _]]; congruence.
      + assert (i = i') by (eapply items_first; [exact Hps|exact Hps'|eapply no_parameter; eassumption|eapply no_parameter; eassumption]). subst i'. exact (u32_fun _ _ _ _ _ H1 H1').
  Qed.
  Lemma header_one o h h' : header_at f o h -> header_at f o h' -> h = h'.
  Proof.
    intros (A1 & (i & A2 & A3 & A4 & A5) & A6) (B1 & (i' & B2 & B3 & B4 & B5) & B6).
    rewrite (u32_fun _ _ _ _ _ A2 B2) in *. pose proof (u32_fun _ _ _ _ _ A1 B1). pose proof (u32_fun _ _ _ _ _ A6 B6).
    assert (h_kind h = h_kind h') by (rewrite <- B3 in A3; destruct (h_kind h), (h_kind h'); try reflexivity; discriminate).
    destruct h, h'; cbn in *; congruence.
  Qed.
  Lemma bad_no_record o x t s : bad_record f o x -> record_at f o t s -> False.
  Proof.
    intros Hb (h & Hh & Hp & _ & H1 & H2 & H3). destruct Hb as [L|L1 L2|nm info L1 L2 Hn Hi Hk|h' L1 L2 Hh' L3|h' x L1 Hh' L2 Hd]; try lia.
    - destruct Hh as (_ & (i & Hi' & HK & _) & _). rewrite (u32_fun _ _ _ _ _ Hi Hi') in Hk. rewrite <- HK in Hk. destruct (h_kind h); cbn in Hk; lia.
    - rewrite (header_one _ _ _ Hh' Hh) in *. lia.
    - rewrite (header_one _ _ _ Hh' Hh) in *. exact (defect_no_payload _ _ _ _ Hd Hp).
  Qed.
  Lemma says_bad_record o m : bad_record_says f o m -> bad_record f o (lmessage_kind m).
  Proof.
    intros [L|L1 L2|nm info L1 L2 Hn Hi Hk|h L1 L2 Hh L3|h k m' L1 Hh L2 Hr Hm|h i ms no nm tid w L1 Hh L2 HK Hi Hms H1 Hn H2 H3 KF W]; cbn [lmessage_kind].
    - apply types_end_past_4G; assumption.
    - apply header_does_not_fit; assumption.
    - eapply BrokenSpec.unknown_kind; eassumption.
    - eapply data_does_not_fit; eassumption.
    - eapply bad_data; try eassumption. eapply reaches_defect; [eassumption|]. apply says_bad_string. exact Hm.
    - eapply bad_data; try eassumption. eapply unaligned_member; eassumption.
  Qed.
End One.

Lemma bad_string_one img en hf k m m' : bad_string_says (layout_of img en hf) k m -> bad_string_says (layout_of img en hf) k m' -> m = m'.
Proof.
  intros H H'. destruct H as [H|H1 H2|H1 H2|H1 H2 H3|bs H1 H2 H3 H4 H5], H' as [H'|H1' H2'|H1' H2'|H1' H2' H3'|bs' H1' H2' H3' H4' H5']; try reflexivity; exfalso;
    cbn [layout_of strings_lo strings_hi] in *; try lia.
  all: try (destruct bs'; [apply H3'; reflexivity|cbn [length] in H5'; lia]).
  all: destruct bs; [apply H3; reflexivity|cbn [length] in H5; lia].
Qed.
Lemma record_lo f a ts b : records_at f a ts b -> a <= b.
Proof. induction 1 as [|a0 t n l b0 Hin' Hrec Hrest IH]; [lia|]. destruct Hrec as (h & _ & _ & -> & _). lia. Qed.
(** The bad record is the first one. *)
Lemma bad_place img en hf a ts o ts' o' x x' : let f := layout_of img en hf in types_lo f <= a ->
  records_at f a ts o -> records_at f a ts' o' -> bad_record f o x -> bad_record f o' x' -> o = o'.
Proof.
  intros f Ha H. revert Ha ts' o'. induction H as [a|a t n l b Hin Hrec Hrest IH]; intros Ha ts' o' H' B B'.
  - destruct H' as [a|a t' n' l' b' Hin' Hrec' Hrest']; [reflexivity|]. destruct (bad_no_record _ _ _ _ _ B Hrec').
  - inversion H' as [q|a0 t' n' l' b' Hin' Hrec' Hrest']; subst; [destruct (bad_no_record _ _ _ _ _ B' Hrec)|].
    destruct (record_det img en hf a t n t' n' Ha (N.lt_le_incl _ _ Hin) Hrec Hrec') as [<- <-]. eapply IH; try eassumption.
    destruct Hrec as (h & _ & _ & -> & _). lia.
Qed.

Lemma says_broken img m : broken_says img m -> broken img (lmessage_kind m).
Proof.
  intros [a b Hb N1 N2|en hf Hf Hbig|en hf ts o k f Hf Hlo Hr Hin Bad]; cbn [lmessage_kind].
  - eapply wrong_magic; eassumption.
  - eapply types_start_past_4G; eassumption.
  - eapply wrong_record; try eassumption. apply says_bad_record. exact Bad.
Qed.
(** Which messages there are about a record. *)
Lemma record_messages f o m : bad_record_says f o m -> lmessage_kind m <> InvalidMagic /\ m <> LTypesStart /\ (lmessage_kind m = InvalidTypeSectionOffset -> m = LTypesEnd \/ m = LTypesOffset).
Proof.
  intros [L|L1 L2|nm info L1 L2 Hn Hi Hk|h L1 L2 Hh L3|h k m' L1 Hh L2 Hr Hm|h i ms no nm tid w L1 Hh L2 HK Hi Hms H1 Hn H2 H3 KF W]; try (repeat split; try discriminate; auto; fail).
  destruct Hm; (repeat split; discriminate).
Qed.
Lemma record_one img en hf o m m' : let f := layout_of img en hf in lmessage_kind m = lmessage_kind m' -> bad_record_says f o m -> bad_record_says f o m' -> m = m'.
Proof.
  intros f K H H'. destruct H as [L|L1 L2|nm info L1 L2 Hn Hi Hk|h L1 L2 Hh L3|h k m0 L1 Hh L2 Hr Hm|h i ms no nm tid w L1 Hh L2 HK Hi Hms H1 Hn H2 H3 KF W],
    H' as [L'|L1' L2'|nm' info' L1' L2' Hn' Hi' Hk'|h' L1' L2' Hh' L3'|h' k' m0' L1' Hh' L2' Hr' Hm'|h' i' ms' no' nm' tid' w' L1' Hh' L2' HK' Hi' Hms' H1' Hn' H2' H3' KF' W'];
    cbn [lmessage_kind] in K; try discriminate K; try reflexivity; try lia.
  all: try (destruct Hm'; discriminate K). all: try (destruct Hm; discriminate K).
  - rewrite (u32_fun _ _ _ _ _ Hi Hi'). reflexivity.
  - rewrite <- (header_one _ _ _ _ Hh Hh') in Hr'. pose proof (says_bad_string _ _ _ Hm) as B. pose proof (says_bad_string _ _ _ Hm') as B'.
    rewrite <- (reaches_one _ _ _ _ _ _ _ Hr Hr' B B') in Hm'. exact (bad_string_one _ _ _ _ _ _ Hm Hm').
Qed.
Lemma says_one img m m' : broken_says img m -> broken_says img m' -> m = m'.
Proof.
  intros H H'. pose proof (says_broken _ _ H) as B. pose proof (says_broken _ _ H') as B'.
  set (e := {| cfg := {| usize_bits := 64; overflow_checks := true |}; rd := readable_file img |}).
  assert (K : lmessage_kind m = lmessage_kind m').
  { pose proof (broken_fails e img eq_refl (readable_file_serves img) _ B). pose proof (broken_fails e img eq_refl (readable_file_serves img) _ B'). congruence. }
  clear B B' e. destruct H as [a b Hb N1 N2|en hf Hf Hbig|en hf ts o m f Hf Hlo Hr Hin Bad], H' as [a' b' Hb' N1' N2'|en' hf' Hf' Hbig'|en' hf' ts' o' m' f' Hf' Hlo' Hr' Hin' Bad'];
    cbn [lmessage_kind] in K; try discriminate K; try reflexivity.
  - pose proof (bytes_at_inj _ _ _ _ Hb Hb' eq_refl) as E. injection E as <- <-. reflexivity.
  - destruct (record_messages _ _ _ Bad') as [N _]. congruence.
  - destruct (header_unique _ _ _ _ _ Hf Hf') as [<- <-]. subst f'. lia.
  - destruct (record_messages _ _ _ Bad) as [N _]. congruence.
  - destruct (header_unique _ _ _ _ _ Hf Hf') as [<- <-]. subst f. lia.
  - destruct (header_unique _ _ _ _ _ Hf Hf') as [<- <-]. subst f f'.
    pose proof (bad_place img en hf _ _ _ _ _ _ _ (N.le_refl _) Hr Hr' (says_bad_record _ _ _ Bad) (says_bad_record _ _ _ Bad')) as <-.
    exact (record_one img en hf o m m' K Bad Bad').
Qed.

(** A file says the same to everyone who reads it. *)
Lemma says_iff e img m : usize_bits (cfg e) = 64 -> serves (rd e) img ->
  broken_says img m -> type_information_new_msg e = Err m.
Proof.
  intros H64 Hs Hm. pose proof (broken_fails e img H64 Hs _ (says_broken _ _ Hm)) as E.
  pose proof (er_load e reader_new) as Er. unfold type_information_new in E. rewrite Er in E. unfold forget in E. cbn [fst] in E.
  unfold type_information_new_msg. destruct (load_msg e reader_new) as [[a|m'|p|] r'] eqn:El; cbn [fst] in *; try discriminate. f_equal.
  destruct (tl_load e img H64 Hs m') as [(k & -> & off & n & tr & U)|B]; [unfold type_information_new_msg; rewrite El; reflexivity| |exact (says_one _ _ _ B Hm)].
  exfalso. rewrite El in U. cbn [snd] in U.
  destruct (broken_answered e img _ H64 Hs (says_broken _ _ Hm) off n (Fails k)) as [bs Eb]; [|discriminate].
  unfold requests. rewrite Er. unfold forget. cbn [snd]. rewrite U. left. reflexivity.
Qed.

(** ** Hexadecimal *)
Lemma hex_digit_spec d : d < 16 -> hex_digit_value (hex_digit d) d.
Proof.
  intros L. unfold hex_digit, hex_digit_value.
  assert (C : forall v, v < 256 -> Byte.to_N (byte_of v) = v).
  { intros v Lv. unfold byte_of. rewrite N.mod_small by exact Lv. destruct (Byte.of_N v) as [b|] eqn:E; [apply Byte.to_of_N; exact E|]. apply Byte.of_N_None_iff in E. lia. }
  destruct (N.ltb_spec d 10); [left|right]; rewrite C by lia; lia.
Qed.
Lemma hex_digits_spec fuel : forall n, n < 2 ^ N.of_nat fuel -> hex_value (hex_digits fuel n) n.
Proof.
  induction fuel as [|fuel IH]; intros n L; [cbn in *; replace n with 0 by lia; constructor|]. cbn [hex_digits].
  assert (D : n mod 16 < 16) by (apply N.mod_lt; discriminate). pose proof (N.div_mod' n 16) as E.
  destruct (N.ltb_spec n 16) as [S|S].
  - replace n with (16 * 0 + n mod 16) at 2 by (rewrite (N.mod_small n 16) by exact S; lia). apply hex_snoc; [constructor|]. apply hex_digit_spec. exact D.
  - replace n with (16 * (n / 16) + n mod 16) at 3 by lia. apply hex_snoc; [|apply hex_digit_spec; exact D]. apply IH.
    rewrite Nat2N.inj_succ, N.pow_succ_r' in L. assert (n / 16 <= n / 2) by (apply N.div_le_compat_l; lia). assert (n / 2 < 2 ^ N.of_nat fuel) by (apply N.div_lt_upper_bound; lia). lia.
Qed.
Lemma hex_zeros k s n : hex_value s n -> hex_value (repeat x30 k ++ s) n.
Proof.
  intros H. induction H as [|s n b d H IH Hd].
  - rewrite app_nil_r. induction k as [|k IH]; [constructor|]. replace (S k) with (k + 1)%nat by lia. rewrite repeat_app. change 0 with (16 * 0 + 0). apply hex_snoc; [exact IH|]. left. split; [reflexivity|lia].
  - rewrite app_assoc. apply hex_snoc; assumption.
Qed.
Lemma hex_spec w n : hex_value (hex w n) n.
Proof.
  unfold hex. cbv zeta. apply hex_zeros, hex_digits_spec. rewrite Nat2N.inj_succ, N2Nat.id.
  destruct n as [|p]; [reflexivity|]. apply N.log2_spec. lia.
Qed.
Lemma hex_digits_length fuel : forall n k, n < 16 ^ N.of_nat k -> (1 <= k)%nat -> (length (hex_digits fuel n) <= k)%nat.
Proof.
  induction fuel as [|fuel IH]; intros n k L Hk; cbn [hex_digits]; [cbn; lia|]. rewrite app_length. cbn [length].
  destruct (N.ltb_spec n 16) as [S|S]; [cbn; lia|]. destruct k as [|[|k]]; [lia|cbn in L; lia|]. specialize (IH (n / 16) (Datatypes.S k)).
  enough (n / 16 < 16 ^ N.of_nat (Datatypes.S k)) by (specialize (IH H ltac:(lia)); lia). apply N.div_lt_upper_bound; [lia|]. rewrite <- N.pow_succ_r'. rewrite <- Nat2N.inj_succ. exact L.
Qed.
(** exactly [w] digits, if they are enough *)
Lemma hex_length w n : n < 16 ^ N.of_nat w -> (1 <= w)%nat -> length (hex w n) = w.
Proof.
  intros L Hw. unfold hex. cbv zeta. rewrite app_length, repeat_length. pose proof (hex_digits_length (S (N.to_nat (N.log2 n))) n w L Hw). lia.
Qed.
