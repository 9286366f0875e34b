(** * LoadMessageTrue: every message of a failed load is true of the file (C61). *)
From Coq Require Import Strings.Byte.
From Coq Require Import List NArith ZArith Bool Lia ZifyBool ZifyNat ZifyN.
From Verif Require Import TypeInfo Spec BaseFacts Bits Maps Exact Errors LoadProps LoadProps2 Transport Final BrokenSpec Explain LoadMessage LoadMessageSpec LoadMessageFacts.
Import ListNotations.
Open Scope N_scope.

(** The Readable's own error, for the last request. *)
Definition told (x : lmessage) (r : reader) : Prop := exists k, x = LReadable k /\ unread k r.
Definition tells {A} (o : N) (en : endianness) (m : LM A) (D : lmessage -> Prop) : Prop :=
  forall r x r', placed o en r -> m r = (Err x, r') -> told x r' \/ D x.

Section Rules.
  Context (en : endianness) (D : lmessage -> Prop).
  Lemma tl_weaken {A} o (m : LM A) (D' : lmessage -> Prop) : tells o en m D' -> (forall x, D' x -> D x) -> tells o en m D.
  Proof. intros H W r x r' P E. destruct (H r x r' P E); auto. Qed.
  Lemma tl_ext {A} o (m m' : LM A) : (forall r, m r = m' r) -> tells o en m' D -> tells o en m D.
  Proof. intros E H r x r' P Er. rewrite E in Er. exact (H r x r' P Er). Qed.
  Lemma tl_ret {A} o (a : A) : tells o en (lret a) D.
  Proof. intros r x r' _ E. discriminate. Qed.
  Lemma tl_fail {A} o k : D k -> tells o en (@lfail A k) D.
  Proof. intros H r x r' _ E. injection E as <- _. auto. Qed.
  Lemma tl_lift {A} o (y : outcome lmessage A) : (forall k, y = Err k -> D k) -> tells o en (llift y) D.
  Proof. intros H r x r' _ E. unfold llift in E. injection E as E _. auto. Qed.
  (** a part that only reads *)
  Lemma tl_from {A} o (m : M A) : explains o en m (fun _ => False) -> tells o en (from m) D.
  Proof.
    intros H r x r' P E. unfold from in E. destruct (m r) as [[a|k|p|] r1] eqn:Em; cbn in E; try discriminate. injection E as <- <-.
    destruct (H r k r1 P Em) as [U|[]]. left. exists k. auto.
  Qed.
  Lemma tl_bind {A B} o (lm : LM A) (m : M A) (k : A -> LM B) S : erases lm m -> exactly o en m S -> tells o en lm D ->
    (forall a o', S a o' -> tells o' en (k a) D) -> tells o en (lbind lm k) D.
  Proof.
    intros Er Hm Xm Xk r x r' P E. unfold lbind in E. specialize (Er r). destruct (lm r) as [[a|k'|p|] r1] eqn:Em; try discriminate.
    - destruct (Hm r P) as [H1 _]. destruct (H1 a r1 Er) as [He Hs]. exact (Xk a (r_off r1) Hs r1 x r' (conj eq_refl He) E).
    - injection E as -> ->. exact (Xm r x r' P Em).
  Qed.
  Lemma tl_first {A B} o (m : LM A) (k : A -> LM B) : tells o en m D -> (forall a r, match fst (k a r) with Err _ => False | _ => True end) -> tells o en (lbind m k) D.
  Proof.
    intros Xm Xk r x r' P E. unfold lbind in E. destruct (m r) as [[a|k'|p|] r1] eqn:Em; try discriminate.
    - specialize (Xk a r1). rewrite E in Xk. destruct Xk.
    - injection E as -> ->. exact (Xm r x r' P Em).
  Qed.
  Lemma tl_opt {A B} o k0 (y : option A) (k : A -> LM B) : (y = None -> D k0) -> (forall a, y = Some a -> tells o en (k a) D) ->
    tells o en (lbind (llift (ok_or k0 y)) k) D.
  Proof.
    intros HN HS. destruct y as [a|].
    - exact (HS a eq_refl).
    - intros r x r' _ E. unfold lbind, llift in E. cbn in E. injection E as <- _. auto.
  Qed.
  Lemma tl_ok {A B} o (y : outcome lmessage A) a (k : A -> LM B) : y = Ok a -> tells o en (k a) D -> tells o en (lbind (llift y) k) D.
  Proof. intros -> H. exact H. Qed.
  Lemma tl_off {B} o (k : N -> LM B) : tells o en (k o) D -> tells o en (lbind (from get_offset) k) D.
  Proof. intros H r x r' [Ho He] E. unfold lbind, from, get_offset in E. cbn in E. rewrite Ho in E. exact (H r x r' (conj Ho He) E). Qed.
  Lemma tl_set {B} o p (k : unit -> LM B) : tells p en (k tt) D -> tells o en (lbind (from (set_offset p)) k) D.
  Proof. intros H r x r' [Ho He] E. unfold lbind, from, set_offset in E. cbn in E. refine (H _ x r' _ E). split; [reflexivity|exact He]. Qed.
  Lemma tl_inspect {A} o (m : LM A) back : tells o en m D -> tells o en (linspect_err m (with_offset back)) D.
  Proof.
    intros H r x r' P E. unfold linspect_err in E. destruct (m r) as [[a|k|p|] r1] eqn:Em; try discriminate. injection E as -> <-.
    destruct (H r x r1 P Em) as [(k & E & off & n & tr & U)|U]; [left; exists k; split; [exact E|]; exists off, n, tr; exact U|auto].
  Qed.
  Lemma tl_repeat {A} (lm : LM A) (m : M A) sz (item : N -> A -> Prop) : erases lm m -> forall n q,
    (forall j, (j < n)%nat -> exactly (q + sz * N.of_nat j) en m (fun a o' => item (q + sz * N.of_nat j) a /\ o' = q + sz * N.of_nat j + sz)) ->
    (forall l, (length l < n)%nat -> (forall i a, nth_error l i = Some a -> item (q + sz * N.of_nat i) a) -> tells (q + sz * N.of_nat (length l)) en lm D) ->
    tells q en (repeat_LM n lm) D.
  Proof.
    intros Er. induction n as [|n IH]; intros q Hex Hx; cbn [repeat_LM]; [apply tl_ret|].
    eapply tl_bind; [exact Er| | |].
    - specialize (Hex 0%nat ltac:(lia)). replace (q + sz * N.of_nat 0) with q in Hex by lia. exact Hex.
    - specialize (Hx [] ltac:(cbn; lia)). replace (q + sz * N.of_nat (@length A [])) with q in Hx by (cbn; lia). apply Hx. intros [|i] a E; discriminate.
    - intros a o' [Ha ->]. eapply tl_first; [|intros l r; exact I]. apply IH.
      + intros j Hj. specialize (Hex (S j) ltac:(lia)). replace (q + sz * N.of_nat (S j)) with (q + sz + sz * N.of_nat j) in Hex by lia. exact Hex.
      + intros l Hl Hit. specialize (Hx (a :: l) ltac:(cbn; lia)). replace (q + sz * N.of_nat (length (a :: l))) with (q + sz + sz * N.of_nat (length l)) in Hx by (cbn [length]; lia).
        apply Hx. intros [|i] b E; [injection E as <-; replace (q + sz * N.of_nat 0) with q by lia; exact Ha|].
        replace (q + sz * N.of_nat (S i)) with (q + sz + sz * N.of_nat i) by lia. exact (Hit i b E).
  Qed.
End Rules.

Section Image.
  Context (e : env) (img : list byte).
  Hypothesis H64 : usize_bits (cfg e) = 64.
  Hypothesis Hs : serves (rd e) img.

  Lemma tl_uint en D o n : tells o en (from (read_uint e n)) D.
  Proof. apply tl_from. apply xp_uint. Qed.
  Lemma tl_u8 en D o : tells o en (from (read_u8 e)) D.
  Proof. apply tl_from. apply xp_u8. Qed.

  Section File.
    Context (fh : file_header) (en : endianness).
    Notation f := (layout_of img en (fields fh)).
    Notation tlo := (hdr_len fh + type_off fh).
    Notation thi := (hdr_len fh + type_off fh + type_len fh).
    Notation slo := (hdr_len fh + str_off fh).
    Notation shi := (hdr_len fh + str_off fh + str_len fh).

    Lemma tl_string o k : tells o en (parse_string_msg e fh k) (bad_string_says f k).
    Proof.
      unfold parse_string_msg.
      apply tl_opt; [intros C; apply checked_None in C; apply says_strings_start; exact C|]. intros a C1. apply checked_Some in C1. destruct C1 as [<- C1].
      apply tl_opt; [intros C; apply checked_None in C; apply says_strings_end; assumption|]. intros a C2. apply checked_Some in C2. destruct C2 as [<- C2].
      apply tl_opt; [intros C; apply checked_None in C; apply says_overflow; assumption|]. intros a C3. apply checked_Some in C3. destruct C3 as [<- C3].
      destruct (N.leb_spec shi (slo + k)) as [Hge|Hlt]; [apply tl_fail; apply (says_offset f); assumption|].
      apply tl_off, tl_set. apply tl_first; [|intros s r; exact I].
      match goal with |- tells _ _ (while_LM ?b ?body ?i) _ => apply tl_ext with (m' := while_lnat (N.to_nat b) body i); [intros r0; apply while_LM_nat|] end.
      match goal with |- tells _ _ (while_lnat _ ?body _) ?D => enough (G : forall n bs s, (bs = [] \/ bytes_at img (slo + k) bs) -> ~ In x00 bs -> slo + k + N.of_nat (length bs) <= shi ->
        tells (slo + k + N.of_nat (length bs)) en (while_lnat n body s) D) end.
      { specialize (G (N.to_nat (shi - (slo + k) + 1)) [] []). replace (slo + k + N.of_nat (@length byte [])) with (slo + k) in G by (cbn; lia). apply G; [left; reflexivity|intros []|lia]. }
      induction n as [|n IH]; intros bs s Hb Hno Hl; cbn [while_lnat]; [apply tl_lift; discriminate|].
      eapply tl_bind with (m := x <- get_offset ;; o1 <- lift (add_usize (cfg e) x 1) ;; if shi <? o1 then fail InvalidString else
           c <- inspect_err (read_u8 e) (with_offset o) ;; if bval c =? 0 then ret (inr s) else ret (inl (push_char s c)))
         (S := fun x p => exists b, bytes_at img (slo + k + N.of_nat (length bs)) [b] /\ p = slo + k + N.of_nat (length bs) + 1 /\ slo + k + N.of_nat (length bs) + 1 <= shi /\
         if bval b =? 0 then x = inr s else x = inl (push_char s b)).
      - er.
      - apply ex_bind_off. eapply ex_bind_ok; [unfold add_usize; rewrite H64; apply wrap_small; lia|].
        destruct (N.ltb_spec shi (slo + k + N.of_nat (length bs) + 1)) as [L|L].
        + eapply ex_iff; [apply ex_fail|]. intros x p. split; [intros []|]. intros (b & _ & _ & ? & _). lia.
        + eapply ex_iff.
          * eapply ex_bindp; [apply ex_inspect_err; apply ex_u8 with (img := img); try assumption; lia|]. intros c Hc.
            instantiate (1 := fun c x p => (if bval c =? 0 then x = inr s else x = inl (push_char s c)) /\ p = slo + k + N.of_nat (length bs) + 1).
            cbn beta. destruct (bval c =? 0); apply ex_ret.
          * intros x p. cbn beta. split; [intros (c & Hc & H1 & H2); exists c; repeat split; try assumption; lia|]. intros (c & Hc & H1 & _ & H2). exists c. auto.
      - apply tl_off. eapply tl_ok; [unfold add_usize; rewrite H64; apply wrap_small; lia|].
        destruct (N.ltb_spec shi (slo + k + N.of_nat (length bs) + 1)) as [L|L].
        + apply tl_fail. assert (NE : bs <> []) by (intros ->; cbn in *; lia). apply (says_not_terminated f k bs); try assumption; [|cbn [layout_of strings_lo strings_hi fields hf_hdr_len hf_str_off hf_str_len]; lia].
          destruct Hb as [?|Hb]; [contradiction|exact Hb].
        + apply tl_first; [apply tl_inspect, tl_u8|]. intros c r. destruct (bval c =? 0); exact I.
      - intros x p (b & Hb1 & -> & Hl1 & Hx). destruct (N.eqb_spec (bval b) 0) as [Z|Z]; subst x; [apply tl_ret|].
        specialize (IH (bs ++ [b]) (push_char s b)). rewrite app_length in IH. cbn [length] in IH.
        replace (slo + k + N.of_nat (length bs + 1)) with (slo + k + N.of_nat (length bs) + 1) in IH by lia. apply IH; [|intros Hi|exact Hl1].
        + right. destruct Hb as [->|Hb]; [cbn [app length] in *; replace (slo + k + N.of_nat 0) with (slo + k) in Hb1 by lia; exact Hb1|]. apply bytes_at_app. auto.
        + apply in_app_or in Hi. destruct Hi as [Hi|[Hi|[]]]; [exact (Hno Hi)|]. apply Z. rewrite Hi. reflexivity.
    Qed.
    Lemma tl_name o k : tells o en (parse_name_msg_opt e fh k) (fun x => k <> 0 /\ bad_string_says f k x).
    Proof.
      unfold parse_name_msg_opt. destruct (N.eqb_spec k 0) as [E|E]; cbn [negb]; [apply tl_ret|].
      apply tl_first; [|intros; exact I]. eapply tl_weaken; [apply tl_string|]. auto.
    Qed.
    Ltac u32_step := eapply tl_bind; [apply er_from|apply ex_u32 with (img := img); try assumption; lia|apply tl_uint|].
    Lemma tl_header o : tlo < 2 ^ 32 -> o + 12 < 2 ^ 64 -> tells o en (header_msg e fh) (bad_record_says f o).
    Proof.
      intros Hlo Hb. unfold header_msg.
      apply tl_opt; [intros C; apply checked_None in C; lia|]. intros a C1. apply checked_Some in C1. destruct C1 as [<- C1].
      apply tl_opt; [intros C; apply checked_None in C; apply says_types_end; exact C|]. intros a C2. apply checked_Some in C2. destruct C2 as [<- C2].
      apply tl_off. eapply tl_ok; [unfold add_usize, TYPE_HEADER_SIZE; rewrite H64; apply wrap_small; exact Hb|].
      destruct (N.ltb_spec thi (o + 12)) as [L|L]; [apply tl_fail, says_header_past_end; assumption|].
      u32_step. intros no o1 [Hno ->]. u32_step. intros info o1 [Hinfo ->].
      eapply tl_bind; [apply er_kind|apply ex_lift|apply tl_lift|].
      - intros k Ek. unfold kind_msg in Ek. destruct (kind_new_err (N.shiftr (N.land info 0x1F000000) 24)) as [[k' Hk']|[Hk' Bad]]; [rewrite Hk' in Ek; discriminate|].
        rewrite Hk' in Ek. cbn [renamed] in Ek. injection Ek as <-. rewrite field_kind in Bad |- *. eapply says_kind; try eassumption.
      - intros k o1 _. apply tl_first; [apply tl_uint|intros; exact I].
    Qed.
    Lemma tl_member h o : o + 12 < 2 ^ 64 -> tells o en (parse_member_msg e fh h) (fun x => exists no tid w,
      u32_at img en o no /\ u32_at img en (o + 4) tid /\ u32_at img en (o + 8) w /\
      ((no <> 0 /\ bad_string_says f no x) \/ (exists name, name_at f no name) /\ h_kind_flag h = false /\ w mod 8 <> 0 /\ x = LUnaligned)).
    Proof.
      intros Hb. unfold parse_member_msg. u32_step. intros no o1 [Hno ->]. u32_step. intros tid o1 [Htid ->]. u32_step. intros w o1 [Hw ->].
      replace (o + 4 + 4) with (o + 8) in Hw by lia. eapply tl_bind; [apply er_name|apply ex_name with (img := img); assumption| |].
      - eapply tl_weaken; [apply tl_name|]. cbn beta. intros x Hx. exists no, tid, w. auto 6.
      - intros name o1 [Hn ->]. apply tl_first; [|intros; exact I]. apply tl_lift. intros k Ek. unfold decode_member_offset in Ek.
        destruct (h_kind_flag h) eqn:KF; [destruct (_ && _); discriminate|]. destruct (N.eqb_spec (w mod 8) 0) as [Z|Z]; [discriminate|]. cbn in Ek. injection Ek as <-.
        exists no, tid, w. do 3 (split; [assumption|]). right. split; [exists name; exact Hn|]. auto.
    Qed.
    Lemma tl_value32 o sg : o + 8 < 2 ^ 64 -> tells o en (parse_named_value32_msg e fh sg) (fun x => exists no, u32_at img en o no /\ bad_string_says f no x).
    Proof.
      intros Hb. unfold parse_named_value32_msg. u32_step. intros no o1 [Hno ->]. eapply tl_bind; [apply er_string|apply ex_string with (img := img); assumption| |].
      - eapply tl_weaken; [apply tl_string|]. cbn beta. eauto.
      - intros name o1 [_ ->]. destruct sg; apply tl_first; try (intros; exact I); [apply tl_from; unfold read_i32; apply xp_first; [apply xp_uint|intros; exact I]|apply tl_uint].
    Qed.
    Lemma tl_value64 o sg : o + 12 < 2 ^ 64 -> tells o en (parse_named_value64_msg e fh sg) (fun x => exists no, u32_at img en o no /\ bad_string_says f no x).
    Proof.
      intros Hb. unfold parse_named_value64_msg. u32_step. intros no o1 [Hno ->]. eapply tl_bind; [apply er_string|apply ex_string with (img := img); assumption| |].
      - eapply tl_weaken; [apply tl_string|]. cbn beta. eauto.
      - intros name o1 [_ ->]. destruct sg; apply tl_first; try (intros; exact I); [apply tl_from; unfold read_i64; apply xp_first; [apply xp_uint|intros; exact I]|apply tl_uint].
    Qed.
    Lemma tl_parameter o : o + 8 < 2 ^ 64 -> tells o en (parse_parameter_msg e fh) (fun x => exists no tid, u32_at img en o no /\ u32_at img en (o + 4) tid /\ no <> 0 /\ bad_string_says f no x).
    Proof.
      intros Hb. unfold parse_parameter_msg. u32_step. intros no o1 [Hno ->]. u32_step. intros tid o1 [Htid ->]. apply tl_first; [|intros; exact I].
      eapply tl_weaken; [apply tl_name|]. cbn beta. intros x [H1 H2]. exists no, tid. auto.
    Qed.
    Lemma tl_variable o (D : lmessage -> Prop) : o + 12 < 2 ^ 64 -> tells o en (from (parse_variable e)) D.
    Proof. intros Hb. apply tl_from. apply xp_variable with (img := img); assumption. Qed.

    Lemma tl_define {A} K (size : build -> header -> outcome error_kind N) (dn : env -> file_header -> header -> LM A) h o n (D : lmessage -> Prop) :
      size (cfg e) h = Ok n -> h_kind h = K -> tlo <= o -> o <= thi -> thi < 2 ^ 32 -> n < 2 ^ 32 ->
      (thi < o + n -> D LTypesOffset) -> (o + n <= thi -> tells o en (dn e fh h) D) ->
      tells o en (define_type_msg K size dn e fh h) D.
    Proof.
      intros Hsize HK Hlo Hhi Hb Hn Hbad Hd. unfold define_type_msg.
      replace (kind_eqb (h_kind h) K) with true by (rewrite HK; destruct K; reflexivity). cbn [negb].
      intros r x r' P E. unfold lbind at 1 in E. unfold from at 1, lift at 1 2 in E. rewrite Hsize in E. cbn [renamed fst snd] in E. revert r x r' P E.
      match goal with |- forall r x r', placed o en r -> ?m r = _ -> _ => change (tells o en m D) end.
      destruct (N.ltb_spec 0 n) as [Hp|Hz].
      - eapply tl_bind with (m := tss <- lift (add_u32 (cfg e) (hdr_len fh) (type_off fh)) ;;
              tse <- lift (add_u32 (cfg e) tss (type_len fh)) ;; q <- get_offset ;; if q <? tss then fail InvalidTypeSectionOffset else
              stop <- lift (add_usize (cfg e) q n) ;; if tse <? stop then fail InvalidTypeSectionOffset else ret tt) (S := fun _ p => p = o /\ o + n <= thi).
        + er.
        + eapply ex_bind_ok; [apply wrap_small; lia|]. eapply ex_bind_ok; [apply wrap_small; lia|]. apply ex_bind_off.
          destruct (N.ltb_spec o tlo); [lia|]. eapply ex_bind_ok; [unfold add_usize; rewrite H64; apply wrap_small; lia|].
          destruct (N.ltb_spec thi (o + n)); [eapply ex_iff; [apply ex_fail|]; intros a p; split; [intros []|lia]|].
          eapply ex_iff; [apply ex_ret|]. intros [] p. intuition lia.
        + eapply tl_ok; [apply wrap_small; lia|]. eapply tl_ok; [apply wrap_small; lia|]. apply tl_off.
          destruct (N.ltb_spec o tlo); [lia|]. eapply tl_ok; [unfold add_usize; rewrite H64; apply wrap_small; lia|].
          destruct (N.ltb_spec thi (o + n)); [apply tl_fail; auto|apply tl_ret].
        + intros [] p [-> L]. auto.
      - eapply tl_bind with (S := fun _ p => p = o); [apply er_ret|eapply ex_iff; [apply ex_ret|]; intros [] p; tauto|apply tl_ret|]. intros [] p ->. apply Hd. lia.
    Qed.

    (** What is said about the data after the header [h] at [o]. *)
    Inductive data_says (h : header) (o : N) : lmessage -> Prop :=
    | ds_past_end : thi < o + checked_size h -> data_says h o LTypesOffset
    | ds_string k m : o + checked_size h <= thi -> reaches f o h k -> bad_string_says f k m -> data_says h o m
    | ds_unaligned i ms no name tid w : o + checked_size h <= thi -> h_kind h = KStruct \/ h_kind h = KUnion -> i < h_vlen h ->
        items_at (member_at f (h_kind_flag h)) o 12 i ms -> u32_at img en (o + 12 * i) no -> name_at f no name ->
        u32_at img en (o + 12 * i + 4) tid -> u32_at img en (o + 12 * i + 8) w -> h_kind_flag h = false -> w mod 8 <> 0 -> data_says h o LUnaligned.
    Lemma tl_parse_type h o : h_vlen h < 2 ^ 16 -> tlo <= o -> o <= thi -> thi < 2 ^ 32 ->
      tells o en (parse_type_msg (h_kind h) e fh h) (data_says h o).
    Proof.
      intros Hv Hlo Hhi Hb.
      assert (C12 : mul_usize (cfg e) (h_vlen h) 12 = @Ok error_kind _ (h_vlen h * 12)) by (unfold mul_usize; rewrite H64; apply wrap_small; lia).
      assert (C8 : mul_usize (cfg e) (h_vlen h) 8 = @Ok error_kind _ (h_vlen h * 8)) by (unfold mul_usize; rewrite H64; apply wrap_small; lia).
      enough (G : forall K, h_kind h = K -> tells o en (parse_type_msg K e fh h) (data_says h o)) by (apply G; reflexivity).
      intros K HK.
      assert (R : forall A size (dn : env -> file_header -> header -> LM A) (mk : A -> type_variant) n, size (cfg e) h = Ok n -> n = checked_size h ->
        (o + n <= thi -> tells o en (dn e fh h) (data_says h o)) -> tells o en (lbind (define_type_msg K size dn e fh h) (fun d => lret (mk d))) (data_says h o)).
      { intros A size dn mk n Hsz En Hx. apply tl_first; [|intros; exact I]. eapply tl_define with (n := n); try eassumption.
        - assert (extra_size h < 2 ^ 32) by (unfold extra_size; destruct (h_kind h); lia). subst n. unfold checked_size. destruct (h_kind h); lia.
        - intros L. apply ds_past_end. lia. }
      assert (CS : checked_size h = match K with KArray => 12 * h_vlen h | KInt | KVar | KDeclTag => 4 | KStruct | KUnion | KDataSec | KEnum64 => 12 * h_vlen h | KEnum | KFuncProto => 8 * h_vlen h | _ => 0 end)
        by (unfold checked_size, extra_size; rewrite HK; destruct K; reflexivity).
      assert (NM : forall p, o + checked_size h <= thi -> kind_has_name K = true -> (exists t, payload_at f o (unnamed h) t) -> tells p en (parse_name_msg_opt e fh (h_name_offset h)) (data_says h o)).
      { intros p L Hn [t Ht]. eapply tl_weaken; [apply tl_name|]. cbn beta. intros x [N0 Bad]. eapply ds_string; [exact L| |exact Bad]. eapply reaches_record_name; try eassumption; [rewrite HK; exact Hn|reflexivity]. }
      unfold payload_at in NM. cbn [unnamed h_kind h_vlen h_kind_flag h_size_or_type h_name_offset] in NM. rewrite HK in NM.
      assert (N0 : h_name f (unnamed h) None) by reflexivity.
      assert (ST : K = KStruct \/ K = KUnion -> o + h_vlen h * 12 <= thi -> tells o en (struct_data_msg e fh h) (data_says h o)).
      { intros HS L. unfold struct_data_msg.
        assert (CS' : checked_size h = 12 * h_vlen h) by (destruct HS as [->| ->]; exact CS).
        eapply tl_bind; [apply er_repeat, er_member| | |].
        - apply ex_repeat with (sz := 12) (item := member_at f (h_kind_flag h)). intros i Hi. apply ex_member; try assumption; try reflexivity. lia.
        - apply tl_repeat with (m := parse_member e fh h) (sz := 12) (item := member_at f (h_kind_flag h)); [apply er_member|intros j Hj; apply ex_member; try assumption; try reflexivity; lia|].
          intros l Hl Hit. eapply tl_weaken; [apply tl_member; lia|]. cbn beta. intros x (no & tid & w & H1 & H2 & H3 & Hx).
          assert (It : items_at (member_at f (h_kind_flag h)) o 12 (N.of_nat (length l)) l) by (split; [reflexivity|exact Hit]).
          destruct Hx as [[Hn0 Bad]|((name & Hn) & KF & Wm & ->)].
          + eapply ds_string; [lia| |exact Bad]. eapply (reaches_member_name _ _ _ _ (N.of_nat (length l)) l tid w); try eassumption; [rewrite HK; exact HS|lia].
          + eapply (ds_unaligned _ _ (N.of_nat (length l)) l no name tid w); try eassumption; [lia|rewrite HK; exact HS|lia].
        - intros l o1 [Hl _]. apply tl_first; [|intros; exact I]. rewrite N2Nat.id in Hl.
          apply NM; [lia|destruct HS as [->| ->]; reflexivity|].
          destruct HS as [->| ->]; (eexists; exists {| struct_name := None; struct_size := h_size_or_type h; member_list := l |}; split; [reflexivity|]; split; [exact N0|]; split; [reflexivity|exact Hl]). }
      assert (NL : o + checked_size h <= thi -> kind_has_name K = true -> (exists t, payload_at f o (unnamed h) t) -> tells o en (named_link_data_msg e fh h) (data_says h o)).
      { intros L Hn Ht. unfold named_link_data_msg. apply tl_first; [|intros; exact I]. eapply tl_weaken; [apply tl_name|]. cbn beta. intros x [Nz Bad]. destruct Ht as [t Pt].
        eapply ds_string; [exact L| |exact Bad]. eapply reaches_record_name; try eassumption; [rewrite HK; exact Hn|reflexivity]. }
      unfold payload_at in NL. cbn [unnamed h_kind h_vlen h_kind_flag h_size_or_type h_name_offset] in NL. rewrite HK in NL.
      unfold parse_type_msg. destruct K.
      - apply R with (n := 4); [reflexivity|congruence|]. intros L. unfold int_data_msg. u32_step. intros w o1 [Hw ->]. cbv zeta. apply tl_first; [|intros; exact I].
        apply NM; [lia|reflexivity|]. eexists. exists {| int_name := None; int_size := h_size_or_type h; int_signed := N.testbit w 24; int_char := N.testbit w 25; int_boolean := N.testbit w 26; int_offset := w / 2 ^ 16 mod 256; int_bits := w mod 256 |}, w.
        split; [reflexivity|]. split; [exact N0|]. split; [reflexivity|]. split; [exact Hw|]. repeat split; reflexivity.
      - apply R with (n := 0); [reflexivity|congruence|]. intros L. apply tl_ret.
      - apply R with (n := h_vlen h * 12); [assumption|lia|]. intros L. unfold array_data_msg. u32_step. intros a o1 [_ ->]. u32_step. intros b o1 [_ ->]. apply tl_first; [apply tl_uint|intros; exact I].
      - apply R with (n := h_vlen h * 12); [assumption|lia|]. intros L. apply ST; auto.
      - apply R with (n := h_vlen h * 12); [assumption|lia|]. intros L. apply ST; auto.
      - apply R with (n := h_vlen h * 8); [assumption|lia|]. intros L. unfold enum_data_msg. cbv zeta. eapply tl_bind; [apply er_repeat, er_value32| | |].
        + apply ex_repeat with (sz := 8) (item := enumerator_at f 4 (h_kind_flag h)). intros i Hi. apply ex_value32; try assumption. lia.
        + apply tl_repeat with (m := parse_named_value32 e fh (h_kind_flag h)) (sz := 8) (item := enumerator_at f 4 (h_kind_flag h)); [apply er_value32|intros j Hj; apply ex_value32; try assumption; lia|].
          intros l Hl Hit. eapply tl_weaken; [apply tl_value32; lia|]. cbn beta. intros x (no & H1 & Bad). eapply ds_string; [lia| |exact Bad].
          apply (reaches_enumerator_name _ _ _ _ 4%nat (N.of_nat (length l)) l); [left; auto|lia|split; [reflexivity|exact Hit]|exact H1].
        + intros l o1 [Hl _]. apply tl_first; [|intros; exact I]. rewrite N2Nat.id in Hl. apply NM; [lia|reflexivity|].
          eexists. exists {| enum_name := None; enum_size := h_size_or_type h; named_value_list := l; enum_signed := h_kind_flag h |}. repeat (split; [reflexivity|]). exact Hl.
      - apply R with (n := 0); [reflexivity|congruence|]. intros L. apply NL; [lia|reflexivity|]. eexists. exists None. split; [reflexivity|exact N0].
      - apply R with (n := 0); [reflexivity|congruence|]. intros L. apply NL; [lia|reflexivity|]. eexists. exists None. split; [reflexivity|exact N0].
      - apply R with (n := 0); [reflexivity|congruence|]. intros L. apply tl_ret.
      - apply R with (n := 0); [reflexivity|congruence|]. intros L. apply tl_ret.
      - apply R with (n := 0); [reflexivity|congruence|]. intros L. apply tl_ret.
      - apply R with (n := 0); [reflexivity|congruence|]. intros L. apply NL; [lia|reflexivity|]. eexists. exists None. split; [reflexivity|exact N0].
      - apply R with (n := h_vlen h * 8); [assumption|lia|]. intros L. unfold func_proto_data_msg. apply tl_first; [|intros; exact I].
        apply tl_repeat with (m := parse_parameter e fh) (sz := 8) (item := parameter_at f); [apply er_parameter|intros j Hj; apply ex_parameter; try assumption; lia|].
        intros l Hl Hit. eapply tl_weaken; [apply tl_parameter; lia|]. cbn beta. intros x (no & tid & H1 & H2 & Nz & Bad). eapply ds_string; [lia| |exact Bad].
        apply (reaches_parameter_name _ _ _ _ (N.of_nat (length l)) l tid); try assumption; [lia|split; [reflexivity|exact Hit]].
      - apply R with (n := 4); [reflexivity|congruence|]. intros L. unfold var_data_msg. u32_step. intros w o1 [Hw ->]. apply tl_first; [|intros; exact I].
        apply NM; [lia|reflexivity|]. eexists. exists {| var_name := None; var_tid := h_size_or_type h; linkage := w; var_linkage_type := if w =? 0 then LinkStatic else LinkGlobal |}.
        split; [reflexivity|]. split; [exact N0|]. split; [reflexivity|]. split; [exact Hw|reflexivity].
      - apply R with (n := h_vlen h * 12); [assumption|lia|]. intros L. unfold data_sec_data_msg. eapply tl_bind; [apply er_repeat, er_from| | |].
        + apply ex_repeat with (sz := 12) (item := variable_at f). intros i Hi. apply ex_variable; try assumption. lia.
        + apply tl_repeat with (m := parse_variable e) (sz := 12) (item := variable_at f); [apply er_from|intros j Hj; apply ex_variable; try assumption; lia|]. intros l Hl Hit. apply tl_variable. lia.
        + intros l o1 [Hl _]. apply tl_first; [|intros; exact I]. rewrite N2Nat.id in Hl. apply NM; [lia|reflexivity|].
          eexists. exists {| ds_name := None; ds_size := h_size_or_type h; variable_list := l |}. repeat (split; [reflexivity|]). exact Hl.
      - apply R with (n := 0); [reflexivity|congruence|]. intros L. unfold float_data_msg. apply tl_first; [|intros; exact I]. apply NM; [lia|reflexivity|]. eexists. exists None. split; [reflexivity|exact N0].
      - apply R with (n := 4); [reflexivity|congruence|]. intros L. unfold decl_tag_data_msg. u32_step. intros w o1 [Hw ->]. apply tl_first; [|intros; exact I].
        apply NM; [lia|reflexivity|]. eexists. exists {| dt_name := None; dt_tid := h_size_or_type h; component_index := w |}.
        split; [reflexivity|]. split; [exact N0|]. split; [reflexivity|]. exact Hw.
      - apply R with (n := 0); [reflexivity|congruence|]. intros L. apply NL; [lia|reflexivity|]. eexists. exists None. split; [reflexivity|exact N0].
      - apply R with (n := h_vlen h * 12); [assumption|lia|]. intros L. unfold enum64_data_msg. cbv zeta. eapply tl_bind; [apply er_repeat, er_value64| | |].
        + apply ex_repeat with (sz := 12) (item := enumerator_at f 8 (h_kind_flag h)). intros i Hi. apply ex_value64; try assumption. lia.
        + apply tl_repeat with (m := parse_named_value64 e fh (h_kind_flag h)) (sz := 12) (item := enumerator_at f 8 (h_kind_flag h)); [apply er_value64|intros j Hj; apply ex_value64; try assumption; lia|].
          intros l Hl Hit. eapply tl_weaken; [apply tl_value64; lia|]. cbn beta. intros x (no & H1 & Bad). eapply ds_string; [lia| |exact Bad].
          apply (reaches_enumerator_name _ _ _ _ 8%nat (N.of_nat (length l)) l); [right; auto|lia|split; [reflexivity|exact Hit]|exact H1].
        + intros l o1 [Hl _]. apply tl_first; [|intros; exact I]. rewrite N2Nat.id in Hl. apply NM; [lia|reflexivity|].
          eexists. exists {| enum_name := None; enum_size := h_size_or_type h; named_value_list := l; enum_signed := h_kind_flag h |}. repeat (split; [reflexivity|]). exact Hl.
    Qed.
    Definition parse_record_msg : LM type_variant := lbind (header_msg e fh) (fun h => parse_type_msg (h_kind h) e fh h).
    Lemma er_record : erases parse_record_msg (parse_record e fh).
    Proof. apply er_bind; [apply er_header|]. intros h. apply er_parse_type. Qed.
    Lemma tl_record o : tlo < 2 ^ 32 -> tlo <= o -> o <= thi -> o + 12 < 2 ^ 64 -> tells o en parse_record_msg (bad_record_says f o).
    Proof.
      intros H32 Hlo Hhi Hb. unfold parse_record_msg. eapply tl_bind; [apply er_header|apply ex_header with (img := img); assumption|apply tl_header; assumption|].
      intros h o1 (Hh & Hfit & Hb32 & ->). eapply tl_weaken; [apply tl_parse_type; try lia|].
      - destruct Hh as (_ & (info & _ & _ & -> & _) & _). apply N.mod_lt. discriminate.
      - intros x [L|k m L Hr Hm|i ms no name tid w L HK Hi Hms Hno Hn Ht Hw KF W].
        + eapply says_data_past_end; eassumption.
        + eapply says_string; eassumption.
        + eapply says_unaligned; eassumption.
    Qed.

    Definition load_body_msg (tse : N) (st : load_state) : LM (load_state + type_information) :=
      lbind (from get_offset) (fun o => if o <? tse then
        lbind (header_msg e fh) (fun h => lbind (parse_type_msg (h_kind h) e fh h) (fun t =>
        let tid := tid_generator st in
        lbind (llift (add_u32 (cfg e) tid 1)) (fun next =>
        lret (inl {| tid_generator := next; maps := add_type (maps st) tid t |}))))
      else lret (inr (maps st))).
    Lemma er_body tse st : erases (load_body_msg tse st) (load_body e fh tse st).
    Proof. unfold load_body_msg, load_body. er; try apply er_header; try apply er_parse_type. Qed.
    Lemma tl_loop n : forall (ts0 : list type_variant) st o,
      thi - o < N.of_nat n -> tlo <= o -> tlo < 2 ^ 32 -> thi < 2 ^ 33 -> records_at f tlo ts0 o ->
      tid_generator st = 1 + N.of_nat (length ts0) -> 12 * N.of_nat (length ts0) <= o - tlo ->
      tells o en (while_lnat n (load_body_msg thi) st) (fun x => exists ts o', records_at f tlo ts o' /\ o' < thi /\ bad_record_says f o' x).
    Proof.
      induction n as [|n IH]; intros ts0 st o Hm Hlo H32 H33 Hpre Htid Hlen; [lia|]. cbn [while_lnat].
      destruct (N.ltb_spec o thi) as [L|L].
      - eapply tl_bind with (m := load_body e fh thi st) (S := fun x o' => exists t, record_at f o t o' /\
                  x = inl {| tid_generator := tid_generator st + 1; maps := add_type (maps st) (tid_generator st) t |}).
        + apply er_body.
        + unfold load_body. apply ex_bind_off. destruct (N.ltb_spec o thi) as [_|]; [|lia].
          eapply ex_ext with (m' := t <- parse_record e fh ;;
              next <- lift (add_u32 (cfg e) (tid_generator st) 1) ;;
              ret (@inl load_state type_information {| tid_generator := next; maps := add_type (maps st) (tid_generator st) t |})).
          { intros r0. unfold parse_record, bind. destruct (header_new e fh r0) as [[h|k'|p|] r1]; reflexivity. }
          eapply ex_iff.
          * eapply ex_bind with (T := fun t o1 x o' => x = inl {| tid_generator := tid_generator st + 1; maps := add_type (maps st) (tid_generator st) t |} /\ o' = o1);
              [apply ex_record with (img := img); try assumption; lia|].
            intros t' o' _. eapply ex_bind_ok; [apply wrap_small; lia|]. apply ex_ret.
          * intros x o'. cbn beta. split.
            -- intros (t' & o2 & Hr & -> & ->). eauto.
            -- intros (t' & Hr & ->). eauto 6.
        + unfold load_body_msg. apply tl_off. destruct (N.ltb_spec o thi) as [_|]; [|lia].
          eapply tl_ext with (m' := lbind parse_record_msg (fun t => lbind (llift (add_u32 (cfg e) (tid_generator st) 1)) (fun next =>
              lret (@inl load_state type_information {| tid_generator := next; maps := add_type (maps st) (tid_generator st) t |})))).
          { intros r0. unfold parse_record_msg, lbind. destruct (header_msg e fh r0) as [[h|k'|p|] r1]; reflexivity. }
          apply tl_first.
          * eapply tl_weaken; [apply tl_record; lia|]. intros x Bad. exists ts0, o. auto.
          * intros t r. unfold lbind, llift, add_u32. rewrite (wrap_small (cfg e) 32 (tid_generator st + 1)) by lia. exact I.
        + intros x o' (t & Hrec & ->). cbn iota. pose proof (record_stop e img H64 fh en _ _ _ Hrec) as Hst.
          apply IH with (ts0 := ts0 ++ [t]); cbn [tid_generator]; rewrite ?app_length; cbn [length]; try lia.
          eapply records_app; eassumption.
      - intros r x r' [Po Pe] E. exfalso. unfold load_body_msg in E. unfold lbind at 1 in E. unfold lbind at 1 in E. unfold from, get_offset in E. cbn in E. rewrite Po in E.
        destruct (N.ltb_spec o thi); [lia|]. discriminate.
    Qed.
  End File.

  Lemma tl_load x : type_information_new_msg e = Err x -> told x (snd (load_msg e reader_new)) \/ broken_says img x.
  Proof.
    unfold type_information_new_msg. destruct (load_msg e reader_new) as [out r'] eqn:E. cbn [fst snd]. intros ->.
    unfold load_msg in E. unfold lbind at 1 in E. pose proof (er_file_header e reader_new) as Er. destruct (file_header_msg e reader_new) as [[fh|k|p|] r1] eqn:Eh; try discriminate.
    - unfold forget in Er. cbn [fst snd] in Er. destruct (header_sound e img H64 Hs fh r1 Er) as (en & P & Hf).
      assert (X : tells 24 en (lbind (llift (ok_or LTypesStart (checked 32 (hdr_len fh + type_off fh)))) (fun tss =>
        lbind (llift (ok_or LTypesEnd (checked (usize_bits (cfg e)) (tss + type_len fh)))) (fun tse =>
        lbind (from (set_offset tss)) (fun _ => load_types_msg e fh tse)))) (broken_says img)); [|exact (X r1 x r' P E)].
      assert (TL : type_len fh < 2 ^ 32) by (destruct Hf as (_ & _ & _ & Hc & _); eapply u32_at_lt; exact Hc).
      rewrite H64.
      apply tl_opt; [intros C; apply checked_None in C; eapply says_types_start; eassumption|]. intros a C1. apply checked_Some in C1. destruct C1 as [<- C1].
      apply tl_opt; [intros C; apply checked_None in C; lia|]. intros a C2. apply checked_Some in C2. destruct C2 as [<- C2].
      apply tl_set. unfold load_types_msg. eapply tl_ext; [intros r0; apply while_LM_nat|].
      eapply tl_weaken; [apply (tl_loop fh en (N.to_nat (type_len fh + 1)) [] load_init); cbn [length load_init tid_generator]; try lia; constructor|].
      cbn beta. intros k (ts & o & H1 & H2 & H3). eapply says_record; eassumption.
    - injection E as -> ->. clear Er. unfold file_header_msg in Eh. unfold lbind at 1 in Eh. unfold from at 1, set_offset at 1 2 in Eh. cbn [fst snd renamed] in Eh.
      unfold lbind at 1 in Eh. unfold detect_endianness_msg in Eh. unfold lbind at 1 in Eh. unfold from at 1 in Eh.
      destruct (read_u16 e (with_offset 0 reader_new)) as [[m|k|p|] r2] eqn:Em; cbn [fst snd renamed] in Eh; try discriminate.
      + destruct (ex_word e img H64 Hs 0 Little 2 ltac:(lia) ltac:(lia) (with_offset 0 reader_new) ltac:(split; reflexivity)) as [Hm _].
        destruct (Hm m r2 Em) as [He [(bs & Hl & Hb & Hv) Ho]]. cbn [value] in Hv. rewrite little_value_eq in Hv.
        destruct (magic_word e H64 bs Hl) as [ML MB].
        assert (Q : forall en r, placed 2 en r -> (lbind (from (read_u8 e)) (fun v => lbind (from (read_u8 e)) (fun f => lbind (from (read_u32 e)) (fun hl => lbind (from (read_u32 e)) (fun toff =>
          lbind (from (read_u32 e)) (fun tlen => lbind (from (read_u32 e)) (fun soff => lbind (from (read_u32 e)) (fun slen =>
          lret {| version := bval v; flags := bval f; hdr_len := hl; type_off := toff; type_len := tlen; str_off := soff; str_len := slen |}))))))) ) r = (Err x, r') -> told x r').
        { intros en r P Er. assert (X : tells 2 en (lbind (from (read_u8 e)) (fun v => lbind (from (read_u8 e)) (fun f => lbind (from (read_u32 e)) (fun hl => lbind (from (read_u32 e)) (fun toff =>
            lbind (from (read_u32 e)) (fun tlen => lbind (from (read_u32 e)) (fun soff => lbind (from (read_u32 e)) (fun slen =>
            lret {| version := bval v; flags := bval f; hdr_len := hl; type_off := toff; type_len := tlen; str_off := soff; str_len := slen |}))))))) ) (fun _ => False)).
          { do 2 (eapply tl_bind; [apply er_from|apply ex_u8 with (img := img); try assumption; lia|apply tl_u8|intros ? ? [_ ->]]).
            do 4 (eapply tl_bind; [apply er_from|apply ex_u32 with (img := img); try assumption; lia|apply tl_uint|intros ? ? [_ ->]]).
            apply tl_first; [apply tl_uint|intros; exact I]. }
          destruct (X r x r' P Er) as [U|[]]. exact U. }
        destruct (N.eqb_spec m BTF_LITTLE_ENDIAN_MAGIC) as [C|C].
        * left. refine (Q Little _ _ Eh). split; [exact Ho|reflexivity].
        * destruct (N.eqb_spec m BTF_BIG_ENDIAN_MAGIC) as [C'|C'].
          -- left. refine (Q Big _ _ Eh). split; [exact Ho|reflexivity].
          -- injection Eh as <- <-. right. destruct bs as [|a [|b [|? ?]]]; try discriminate.
             assert (Em' : m = Byte.to_N a + 256 * Byte.to_N b) by (rewrite <- Hv; cbn [from_le_bytes]; unfold bval; lia).
             rewrite Em'. apply (says_magic img a b Hb).
             ++ intros Eb. apply C. rewrite <- Hv. apply ML. exact Eb.
             ++ intros Eb. apply C'. rewrite <- Hv. apply MB. exact Eb.
      + injection Eh as <- ->. left. exists k. split; [reflexivity|]. destruct (xp_uint e Little (fun _ => False) 0 2 (with_offset 0 reader_new) k r' ltac:(split; reflexivity) Em) as [U|[]]. exact U.
  Qed.
End Image.
