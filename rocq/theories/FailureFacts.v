(** Facts about the panic messages of the tools (C68). *)
From Coq Require Import Strings.String.
From Coq Require Import List NArith Bool Lia Strings.Byte.
From Verif Require Import TypeInfo Spec BaseFacts PathSpec PathGrammar QuerySpec Chains Sizes LoadProps Exact Final Maps Debug DebugSpec DebugFacts DebugText Message MessageSpec MessageFacts
  LoadMessage LoadMessageSpec LoadMessageFacts Tools ToolsSpec ToolsFacts OffsetOf Failure FailureSpec PropLoadMessage PropMessage.
Import ListNotations.
Open Scope N_scope.

(** ** The text of an error *)
Lemma kind_text k : error_kind_debug k = kind_word k. Proof. destruct k; reflexivity. Qed.
Lemma error_kind_code : code error_kind_debug.
Proof. apply words_code; [intros k; destruct k; reflexivity|intros k k'; destruct k, k'; intros E; try reflexivity; discriminate]. Qed.
Lemma debug_error_shown k m : shows_error k m (debug_error k m).
Proof.
  exists (debug_str m). split; [exists (escape m); split; [apply escape_literal|reflexivity]|].
  unfold debug_error, debug_struct, field, joined. rewrite kind_text. destruct k; reflexivity.
Qed.
Lemma kind_word_words k : Forall wordlike (kind_word k). Proof. apply all_words_ok. destruct k; reflexivity. Qed.
Lemma kind_word_inj k k' : kind_word k = kind_word k' -> k = k'.
Proof. destruct k, k'; intros E; try reflexivity; discriminate. Qed.
Lemma shown_inj k m k' m' t : shows_error k m t -> shows_error k' m' t -> k = k' /\ m = m'.
Proof.
  intros (q & (w & L & ->) & E) (q' & (w' & L' & ->) & E'). rewrite E in E'. apply app_inv_head in E'.
  apply word_code in E'; try apply kind_word_words; try (apply stop_app; reflexivity). destruct E' as [Ek E']. apply app_inv_head in E'.
  split; [apply kind_word_inj; exact Ek|]. cbn [app] in E'. injection E' as E'.
  rewrite <- !app_assoc in E'. cbn [app] in E'. apply (f_equal decode) in E'. rewrite (literal_decode _ _ _ L), (literal_decode _ _ _ L') in E'. congruence.
Qed.

(** ** A size has a bound *)
Lemma size_bounded ti t s : size ti t s -> exists B, forall B', B <= B' -> has_size ti (fun n => n < 2 ^ B') t s.
Proof.
  unfold size. induction 1 as [t ty s H K|t h d s H K|t e n s H _ IH K|t u s H _ IH].
  - exists 0. intros. eapply size_stored; eassumption.
  - exists 0. intros. eapply size_pointer; eassumption.
  - destruct IH as [B IH]. exists (N.max B (s * n)). intros B' HB. eapply size_array; [exact H|apply IH; lia|].
    apply N.lt_le_trans with (2 ^ (s * n)); [apply N.pow_gt_lin_r; lia|apply N.pow_le_mono_r; lia].
  - destruct IH as [B IH]. exists B. intros B' HB. eapply size_same; [exact H|apply IH; exact HB].
Qed.
Lemma size_panic_iff c ti t : size_of c ti t = Panic ArithmeticOverflow <->
  overflow_checks c = true /\ exists s, size ti t s /\ ~ has_size ti (fun n => n < 2 ^ usize_bits c) t s.
Proof.
  split; [intros E; apply size_of_spec in E; tauto|]. intros (Hc & s & Hs & Hn). destruct (size_of_spec c ti t) as (_ & S2 & _ & S4 & S5 & S6).
  destruct (size_bounded ti t s Hs) as [B HB]. set (c' := {| usize_bits := B; overflow_checks := true |}).
  assert (E' : size_of c' ti t = Ok s) by (apply (proj1 (size_of_spec c' ti t)); apply HB; cbn; lia).
  destruct (size_of_spec c' ti t) as (_ & _ & _ & S4' & _ & S6').
  destruct (size_of c ti t) as [z|k|p|] eqn:E.
  - exfalso. pose proof (S2 z Hc eq_refl) as Hz. assert (z = s) as -> by (apply (size_det ti (fun _ => True) t); [exact (has_size_impl ti _ (fun _ => True) t z (fun n _ => I) Hz)|exact Hs]). contradiction.
  - exfalso. assert (X : size_of c' ti t = Err k) by (apply S4', S4; reflexivity). congruence.
  - destruct (S5 p eq_refl) as [-> _]. reflexivity.
  - exfalso. assert (X : size_of c' ti t = Diverge) by (apply S6', S6; reflexivity). congruence.
Qed.

(** ** More time does not change a message *)
Lemma probe_mono (f g : offset -> N -> outcome message (N * offset)) off ms :
  (forall o t, f o t <> Diverge -> g o t = f o t) -> probe_msg f off ms <> Diverge -> probe_msg g off ms = probe_msg f off ms.
Proof.
  intros H. induction ms as [|m ms IH]; [reflexivity|]. cbn [probe_msg]. destruct (is_anonymous m); [|exact IH].
  destruct (add_msg (m_offset m) off) as [o|k|p|]; cbn [obind]; try reflexivity. intros D.
  assert (F : f o (m_tid m) <> Diverge) by (intros E; rewrite E in D; apply D; reflexivity). rewrite (H _ _ F).
  destruct (f o (m_tid m)) as [r|k|p|]; try reflexivity. apply IH. exact D.
Qed.
Lemma obind_live {E A B} (o : outcome E A) (f : A -> outcome E B) : obind o f <> Diverge -> o <> Diverge.
Proof. destruct o; cbn; congruence. Qed.
Definition msg_step (rec : offset -> N -> piter -> outcome message (N * offset)) (c : build) (ti : type_information) (path : str)
    (off : offset) (tid : N) (it : piter) : outcome message (N * offset) :=
  match next_msg c path it with
  | (Ok None, _) => Ok (tid, off)
  | (Err k, _) => Err k
  | (Panic p, _) => Panic p
  | (Diverge, _) => Diverge
  | (Ok (Some comp), it') =>
      match resolve_msg ti tid with
      | Err k => Err k
      | Panic p => Panic p
      | Diverge => Diverge
      | Ok (_, TVoid) => Err MVoidDereference
      | Ok (_, t) =>
          match comp with
          | Index i =>
              match t with
              | TArray _ d => obind (array_step_msg c ti d off i) (fun off' => rec off' (element_tid d) it')
              | TPtr _ _ => Err MPtrNotIndexable
              | _ => Err MTypeNotIndexable
              end
          | Name name =>
              match (match t with TStruct _ d => Some (member_list d) | TUnion _ d => Some (member_list d) | _ => None end) with
              | None => Err MNotStructOrUnion
              | Some ms =>
                  obind (probe_msg (fun o mt => rec o mt it) off ms)
                    (fun found =>
                     match found with
                     | Some r => Ok r
                     | None =>
                         match find (has_name name) ms with
                         | Some m => obind (add_msg off (m_offset m)) (fun off' => rec off' (m_tid m) it')
                         | None => Err (MMemberNotFound name)
                         end
                     end)
              end
          end
      end
  end.
Lemma msg_unfold n c ti p off t it : offset_of_msg_impl (S n) c ti p off t it = msg_step (offset_of_msg_impl n c ti p) c ti p off t it.
Proof. reflexivity. Qed.
Lemma step_mono (f g : offset -> N -> piter -> outcome message (N * offset)) c ti p off t it :
  (forall o u i, f o u i <> Diverge -> g o u i = f o u i) -> msg_step f c ti p off t it <> Diverge -> msg_step g c ti p off t it = msg_step f c ti p off t it.
Proof.
  intros H. unfold msg_step. destruct (next_msg c p it) as [[[x|]|k|q|] it']; try reflexivity.
  destruct (resolve_msg ti t) as [[r ty]|k|q|]; try reflexivity.
  assert (A : forall d i, obind (array_step_msg c ti d off i) (fun off' => f off' (element_tid d) it') <> Diverge ->
     obind (array_step_msg c ti d off i) (fun off' => g off' (element_tid d) it') = obind (array_step_msg c ti d off i) (fun off' => f off' (element_tid d) it')).
  { intros d i. destruct (array_step_msg c ti d off i); cbn [obind]; try reflexivity. apply H. }
  assert (B : forall name ms, obind (probe_msg (fun o mt => f o mt it) off ms) (fun found => match found with Some r => Ok r | None =>
       match find (has_name name) ms with Some m => obind (add_msg off (m_offset m)) (fun off' => f off' (m_tid m) it') | None => Err (MMemberNotFound name) end end) <> Diverge ->
     obind (probe_msg (fun o mt => g o mt it) off ms) (fun found => match found with Some r => Ok r | None =>
       match find (has_name name) ms with Some m => obind (add_msg off (m_offset m)) (fun off' => g off' (m_tid m) it') | None => Err (MMemberNotFound name) end end) =
     obind (probe_msg (fun o mt => f o mt it) off ms) (fun found => match found with Some r => Ok r | None =>
       match find (has_name name) ms with Some m => obind (add_msg off (m_offset m)) (fun off' => f off' (m_tid m) it') | None => Err (MMemberNotFound name) end end)).
  { intros name ms D. rewrite (probe_mono (fun o mt => f o mt it) (fun o mt => g o mt it)); [|intros o u Du; exact (H o u it Du)|exact (obind_live _ _ D)].
    destruct (probe_msg (fun o mt => f o mt it) off ms) as [[r'|]|k|q|]; cbn [obind] in *; try reflexivity.
    destruct (find (has_name name) ms) as [m|]; [|reflexivity]. destruct (add_msg off (m_offset m)); cbn [obind] in *; try reflexivity. apply H. exact D. }
  destruct ty; try reflexivity; destruct x as [i|name]; try reflexivity; solve [apply A|apply B].
Qed.
Lemma msg_mono c ti p n : forall off t it, offset_of_msg_impl n c ti p off t it <> Diverge ->
  offset_of_msg_impl (S n) c ti p off t it = offset_of_msg_impl n c ti p off t it.
Proof.
  induction n as [|n IH]; intros off t it D; [exfalso; apply D; reflexivity|].
  rewrite (msg_unfold (S n)), (msg_unfold n) in *. apply step_mono; [exact IH|exact D].
Qed.
Lemma offset_msg_le c ti t p n m : (n <= m)%nat -> offset_of_msg n c ti t p <> Diverge -> offset_of_msg m c ti t p = offset_of_msg n c ti t p.
Proof. intros H D. induction H as [|m H IH]; [reflexivity|]. rewrite <- IH. apply msg_mono. unfold offset_of_msg in IH. rewrite IH. exact D. Qed.
Lemma offset_msg_same c ti t p n m : offset_of_msg n c ti t p <> Diverge -> offset_of_msg m c ti t p <> Diverge -> offset_of_msg n c ti t p = offset_of_msg m c ti t p.
Proof. intros D D'. destruct (PeanoNat.Nat.le_ge_cases n m) as [H|H]; [symmetry|]; apply offset_msg_le; assumption. Qed.

(** ** The messages of a failed load have different texts *)
Lemma hex_digit_det b d d' : hex_digit_value b d -> hex_digit_value b d' -> d = d'.
Proof. unfold hex_digit_value. lia. Qed.
Lemma hex_value_det s n : LoadMessageSpec.hex_value s n -> forall n', LoadMessageSpec.hex_value s n' -> n = n'.
Proof.
  induction 1 as [|s n b d _ IH Hd]; intros n' H'.
  - inversion H' as [|s' n'' b' d' H1 H2 E]; [reflexivity|]. destruct s'; discriminate E.
  - inversion H' as [E|s' n'' b' d' H1 H2 E]; [destruct s; discriminate E|]. apply app_inj_tail in E. destruct E as [-> ->].
    rewrite (IH _ H1), (hex_digit_det _ _ _ Hd H2). reflexivity.
Qed.
Lemma hex_inj w n n' : hex w n = hex w n' -> n = n'.
Proof. intros E. apply (hex_value_det (hex w n)); [|rewrite E]; apply LoadMessageOne.hex_spec. Qed.
Definition text_or (o : option str) : str := match o with Some t => t | None => [] end.
Lemma lmessage_text_inj m m' x : lmessage_text m = Some x -> lmessage_text m' = Some x -> m = m'.
Proof.
  intros E E'. assert (L : lmessage_text m' <> None) by congruence. rewrite <- E' in E. clear E' x.
  destruct m as [k|v| | | |v|g y| | | |v|v| ], m' as [k'|v'| | | |v'|g' y'| | | |v'|v'| ]; cbn [lmessage_text] in E; try discriminate E; try reflexivity;
    try (exfalso; apply L; reflexivity); clear L; apply (f_equal text_or) in E; unfold text_or in E; apply app_inv_head in E.
  - apply hex_inj in E. congruence.
  - apply hex_inj in E. congruence.
  - apply kind_code_ in E; try (apply stop_app; reflexivity). destruct E as [-> E]. apply app_inv_head, app_inv_tail in E. f_equal.
    destruct y, y'; try reflexivity; discriminate E.
  - apply hex_inj in E. congruence.
  - apply app_inv_tail, hex_inj in E. congruence.
Qed.

(** ** Opening the file *)
Definition file_load (b : build) (img : list byte) : outcome lmessage type_information := type_information_new_msg {| cfg := b; rd := readable_file img |}.
Lemma requests_io b img off n k asked : requests {| cfg := b; rd := readable_file img |} = (off, n, Fails k) :: asked -> k = IOError.
Proof.
  intros E. pose proof (requests_honest _ [] off n _ asked E) as H. unfold readable_file in H. cbn [rd] in H.
  destruct (off + n <=? N.of_nat (List.length img)); congruence.
Qed.
Lemma file_load_cases b img : usize_bits b = 64 ->
  (exists ti, file_load b img = Ok ti /\ opened b img = Ok ti /\ forall m, ~ broken_says img m) \/
  (exists m, file_load b img = Err m /\ broken_says img m /\ (forall ti, opened b img <> Ok ti)) \/
  (file_load b img = Err (LReadable IOError) /\ (forall ti, opened b img <> Ok ti) /\ forall m, ~ broken_says img m).
Proof.
  intros H64. set (e := {| cfg := b; rd := readable_file img |}). pose proof (C61_kind_of_message e) as [K1 K2].
  assert (I : forall m, file_load b img = Err m <-> _) by (intros m; exact (C61_message_iff e img m H64 (readable_file_serves img))).
  destruct (load_total e H64) as [[ti E]|[k E]].
  - left. exists ti. pose proof (proj2 (K1 ti) E) as E'. split; [exact E'|]. split; [exact E|]. intros m B.
    pose proof (proj2 (I m) (or_introl B)) as C. unfold file_load in C. fold e in C. congruence.
  - right. pose proof (proj1 (K2 k) E) as (m & Em & _). assert (No : forall ti, opened b img <> Ok ti) by (intros ti; unfold opened; fold e; congruence).
    destruct (proj1 (I m) Em) as [B|(k' & off & n & asked & -> & R & L)]; [left; eauto|]. right. pose proof (requests_io _ _ _ _ _ _ R) as ->.
    split; [exact Em|]. split; [exact No|]. intros m B.
    assert (m = LReadable IOError) as -> by (pose proof (proj2 (I m) (or_introl B)) as C; unfold file_load in C; fold e in C; congruence).
    destruct (C61_texts _ _ B) as (t & Et & _). discriminate Et.
Qed.
Lemma broken_text img m : broken_says img m -> exists x, lmessage_text m = Some x.
Proof. intros B. destruct (C61_texts _ _ B) as (x & E & _). eauto. Qed.
Lemma not_contents b img : usize_bits b = 64 -> (forall ti, opened b img <> Ok ti) <-> forall ts, ~ contents img ts.
Proof.
  intros H64. split.
  - intros H ts C. apply (opened_contents b img ts H64) in C. destruct C as (ti & E & _). exact (H ti E).
  - intros H ti E. apply (H (map snd (get ti))). apply (opened_contents b img _ H64). eauto.
Qed.
Lemma open_cases b sys path rest : usize_bits b = 64 ->
  (exists c t, open_btf_msg b sys path rest = {| fprinted := [Opening path]; fended := FPanicked t |} /\ file_cause sys path c /\ tells sys path c t /\
     (forall ti, ~ loaded_from b sys path ti) /\ forall c', file_cause sys path c' -> c' = c) \/
  (exists ti, loaded_from b sys path ti /\ open_btf_msg b sys path rest = rest ti /\ (forall ti', loaded_from b sys path ti' -> ti' = ti) /\ forall c, ~ file_cause sys path c).
Proof.
  intros H64. unfold open_btf_msg, loaded_from. destruct (sys_files sys path) as [img|] eqn:Ef; cbn [some funwrap].
  - change (type_information_new_msg _) with (file_load b img).
    assert (T : forall ti, (exists i, Some img = Some i /\ opened b i = Ok ti) -> opened b img = Ok ti) by (intros ti (i & E & H); injection E as <-; exact H).
    destruct (file_load_cases b img H64) as [(ti & E & Et & Nb)|[(m & E & B & No)|(E & No & Nb)]]; rewrite E; cbn [funwrap].
    + right. exists ti. split; [exists img; split; [reflexivity|exact Et]|]. split; [reflexivity|]. split.
      * intros ti' H. apply T in H. congruence.
      * intros c. destruct c; cbn [file_cause]; try rewrite Ef; try discriminate; try tauto.
        -- intros (i & H & H'). injection H as <-. exact (Nb _ H').
        -- intros (i & H & H' & _). injection H as <-. apply (proj2 (not_contents b img H64) H' ti). exact Et.
    + left. destruct (broken_text _ _ B) as [x Ex]. exists (Broken m). eexists. split; [reflexivity|]. split; [exists img; split; [exact Ef|exact B]|]. split.
      * exists x. eexists. split; [exact Ex|]. split; [apply debug_error_shown|]. unfold say_load. rewrite Ex. reflexivity.
      * split; [intros ti H; apply T in H; exact (No ti H)|]. intros c. destruct c; cbn [file_cause]; try rewrite Ef; try discriminate; try tauto.
        -- intros (i & H & H'). injection H as <-. f_equal. apply (proj2 (C61_one_message _ _ B)). exact H'.
        -- intros (i & H & _ & H'). injection H as <-. destruct (H' _ B).
    + left. exists TooShort. eexists. split; [reflexivity|]. split; [exists img; split; [exact Ef|]; split; [apply (not_contents b img H64); exact No|exact Nb]|]. split.
      * eexists. split; [apply debug_error_shown|]. reflexivity.
      * split; [intros ti H; apply T in H; exact (No ti H)|]. intros c. destruct c; cbn [file_cause]; try rewrite Ef; try discriminate; try tauto.
        intros (i & H & H'). injection H as <-. destruct (Nb _ H').
  - left. exists CannotOpen. eexists. split; [reflexivity|]. split; [exact Ef|]. split; [reflexivity|].
    split; [intros ti (i & H & _); discriminate|]. intros c. destruct c; cbn [file_cause]; try rewrite Ef; try tauto; intros (i & H & _); discriminate.
Qed.

(** ** The kinds of a load with messages *)
Lemma file_load_kind b img : opened b img = match file_load b img with Ok a => Ok a | Err m => Err (lmessage_kind m) | Panic p => Panic p | Diverge => Diverge end.
Proof.
  unfold opened, file_load, type_information_new, type_information_new_msg. rewrite (er_load _ reader_new). reflexivity.
Qed.
