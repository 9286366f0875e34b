(** * Errors: which error a malformed image gives. *)
From Coq Require Import Lia ZifyBool ZifyNat ZifyN.
From Verif Require Import TypeInfo BaseFacts Spec Bits Maps Exact.
From Coq Require Import Strings.Byte.

Definition errs {A} (o : N) (en : endianness) (m : M A) (k : error_kind) : Prop :=
  forall r, placed o en r -> fst (m r) = Err k.

Lemma errs_fail {A} o en k : errs o en (@fail A k) k.
Proof. intros r _. reflexivity. Qed.
Lemma errs_first {A B} o en (m : M A) (k : A -> M B) x : errs o en m x -> errs o en (bind m k) x.
Proof.
  intros H r Hr. specialize (H r Hr). unfold bind. destruct (m r) as [[a|e|p|] r']; cbn in *; try discriminate. injection H as ->. reflexivity.
Qed.
Lemma errs_then {A B} o en (m : M A) (k : A -> M B) S a o' x :
  exactly o en m S -> S a o' -> errs o' en (k a) x -> errs o en (bind m k) x.
Proof.
  intros Hm Hs Hk r Hr. destruct (Hm r Hr) as [_ H2]. destruct (H2 a o' Hs) as (r' & E & P).
  rewrite (bind_eq _ _ _ _ _ E). apply Hk. exact P.
Qed.
Lemma errs_lift {A} o en k : errs o en (@lift A (Err k)) k.
Proof. intros r _. reflexivity. Qed.
Lemma errs_off {B} o en (k : N -> M B) x : errs o en (k o) x -> errs o en (bind get_offset k) x.
Proof. intros H r Hr. unfold bind, get_offset. destruct Hr as [Ho He]. rewrite Ho. apply H. split; assumption. Qed.
Lemma errs_set {B} o en p (k : unit -> M B) x : errs p en (k tt) x -> errs o en (bind (set_offset p) k) x.
Proof. intros H r [Ho He]. unfold bind, set_offset. apply H. split; [reflexivity|exact He]. Qed.
Lemma errs_ok {A B} o en (y : outcome error_kind A) a (k : A -> M B) x :
  y = Ok a -> errs o en (k a) x -> errs o en (bind (lift y) k) x.
Proof. intros -> H. exact H. Qed.
Lemma errs_ext {A} o en (m m' : M A) x : (forall r, m r = m' r) -> errs o en m' x -> errs o en m x.
Proof. intros E H r Hr. rewrite E. apply H. exact Hr. Qed.

Section Image.
  Context (e : env) (img : list byte).
  Hypothesis H64 : usize_bits (cfg e) = 64.
  Hypothesis Hs : serves (rd e) img.

  Section File.
    Context (fh : file_header) (en : endianness).
    Let f := layout_of img en (fields fh).
    Notation tlo := (hdr_len fh + type_off fh).
    Notation thi := (hdr_len fh + type_off fh + type_len fh).
    Notation slo := (hdr_len fh + str_off fh).
    Notation shi := (hdr_len fh + str_off fh + str_len fh).

    Definition parse_record : M type_variant := h <- header_new e fh ;; parse_type (h_kind h) e fh h.

    (** a failing record after a good prefix makes the whole load fail *)
    Lemma errs_loop n : forall (ts0 : list type_variant) st o ts o1 k,
      thi - o < N.of_nat n -> tlo <= o -> thi < 2 ^ 33 ->
      tid_generator st = 1 + N.of_nat (length ts0) -> 12 * N.of_nat (length ts0) <= o - tlo ->
      records_at f o ts o1 -> o1 < thi -> errs o1 en parse_record k ->
      errs o en (while_nat n (load_body e fh thi) st) k.
    Proof.
      induction n as [|n IH]; intros ts0 st o ts o1 k Hm Hlo H33 Htid Hlen Hpre Hin Hbad; [lia|].
      cbn [while_nat]. inversion Hpre as [|o0 t next ts' stop Hin0 Hrec Hrest]; subst.
      - apply errs_first. unfold load_body. apply errs_off.
        destruct (N.ltb_spec o1 thi) as [_|]; [|lia].
        eapply errs_ext with (m' := t <- parse_record ;;
              next <- lift (add_u32 (cfg e) (tid_generator st) 1) ;;
              ret (@inl load_state type_information {| tid_generator := next; maps := add_type (maps st) (tid_generator st) t |})).
        { intros r0. unfold parse_record, bind. destruct (header_new e fh r0) as [[h|k'|p|] r1]; reflexivity. }
        apply errs_first. exact Hbad.
      - pose proof (record_stop e img H64 fh en _ _ _ Hrec) as Hst.
        assert (H32 : thi < 2 ^ 32) by (destruct Hrec as (h & _ & _ & _ & _ & _ & ?); assumption).
        change (types_hi f) with thi in Hin0.
        eapply errs_then with (o' := next)
          (a := inl {| tid_generator := tid_generator st + 1; maps := add_type (maps st) (tid_generator st) t |})
          (S := fun x o' => exists t, record_at f o t o' /\
                  x = inl {| tid_generator := tid_generator st + 1; maps := add_type (maps st) (tid_generator st) t |}).
        + unfold load_body. apply ex_bind_off. destruct (N.ltb_spec o thi) as [_|]; [|lia].
          eapply ex_ext with (m' := t <- parse_record ;;
              next <- lift (add_u32 (cfg e) (tid_generator st) 1) ;;
              ret (@inl load_state type_information {| tid_generator := next; maps := add_type (maps st) (tid_generator st) t |})).
          { intros r0. unfold parse_record, bind. destruct (header_new e fh r0) as [[h|k'|p|] r1]; reflexivity. }
          eapply ex_iff.
          * eapply ex_bind with (T := fun t o1 x o' => x = inl {| tid_generator := tid_generator st + 1; maps := add_type (maps st) (tid_generator st) t |} /\ o' = o1);
              [apply ex_record with (img := img); try assumption; lia|].
            intros t' o' _. eapply ex_bind_ok; [apply wrap_small; lia|]. apply ex_ret.
          * intros x o'. cbn beta. split.
            -- intros (t' & o2 & Hr & -> & ->). eauto.
            -- intros (t' & Hr & ->). eauto 6.
        + eauto.
        + cbn iota. eapply IH with (ts0 := ts0 ++ [t]); try eassumption; cbn [tid_generator]; rewrite ?app_length; cbn [length]; lia.
    Qed.
  End File.

  Lemma load_err_at fh en ts o k r1 :
    file_header_new e reader_new = (Ok fh, r1) -> placed 24 en r1 ->
    hdr_len fh + type_off fh < 2 ^ 32 -> type_len fh < 2 ^ 32 ->
    records_at (layout_of img en (fields fh)) (hdr_len fh + type_off fh) ts o ->
    o < hdr_len fh + type_off fh + type_len fh ->
    errs o en (parse_record fh) k ->
    type_information_new e = Err k.
  Proof.
    intros Eh P1 Hlo Htl Hpre Hin Hbad. unfold type_information_new, load.
    rewrite (bind_eq _ _ _ _ _ Eh).
    rewrite (bind_eq _ _ r1 (hdr_len fh + type_off fh) r1).
    2:{ unfold lift. rewrite (proj2 (checked_Some 32 (hdr_len fh + type_off fh) _)) by (split; [reflexivity|exact Hlo]). reflexivity. }
    rewrite (bind_eq _ _ r1 (hdr_len fh + type_off fh + type_len fh) r1).
    2:{ unfold lift. rewrite H64, (proj2 (checked_Some 64 (hdr_len fh + type_off fh + type_len fh) _)) by (split; [reflexivity|lia]). reflexivity. }
    rewrite (bind_eq _ _ r1 tt (with_offset (hdr_len fh + type_off fh) r1)) by reflexivity.
    unfold load_types. rewrite while_M_nat.
    apply (errs_loop fh en (N.to_nat (type_len fh + 1)) [] load_init (hdr_len fh + type_off fh) ts o k);
      cbn [length load_init tid_generator maps]; try lia; auto.
    split; [reflexivity|apply P1].
  Qed.

  (** The same in terms of the file. *)
  Lemma load_err en hf ts o k :
    let f := layout_of img en hf in
    file_header_at img en hf -> types_lo f < 2 ^ 32 ->
    records_at f (types_lo f) ts o -> o < types_hi f ->
    (forall fh, fields fh = hf -> errs o en (parse_record fh) k) ->
    type_information_new e = Err k.
  Proof.
    intros f Hfh Hlo Hpre Hin Hbad.
    destruct (header_complete e img H64 Hs en hf Hfh) as (fh & r1 & Eh & <- & P1).
    eapply load_err_at; eauto.
    destruct Hfh as (_ & _ & _ & Hc & _). eapply u32_at_lt. exact Hc.
  Qed.

  (** ** Section bounds (C20) *)
  Lemma err_section_start en hf :
    file_header_at img en hf -> 2 ^ 32 <= hf_hdr_len hf + hf_type_off hf ->
    type_information_new e = Err InvalidTypeSectionOffset.
  Proof.
    intros Hfh Hbig. destruct (header_complete e img H64 Hs en hf Hfh) as (fh & r1 & Eh & <- & P1).
    unfold type_information_new, load. rewrite (bind_eq _ _ _ _ _ Eh).
    unfold bind at 1, lift at 1. cbn [fields hf_hdr_len hf_type_off] in Hbig.
    rewrite (proj2 (checked_None 32 _) Hbig). reflexivity.
  Qed.

  Lemma errs_header_32 fh o en : 2 ^ 32 <= hdr_len fh + type_off fh + type_len fh ->
    hdr_len fh + type_off fh < 2 ^ 32 ->
    errs o en (header_new e fh) InvalidTypeSectionOffset.
  Proof.
    intros H H'. unfold header_new. eapply errs_ok.
    { rewrite (proj2 (checked_Some 32 (hdr_len fh + type_off fh) _)) by (split; [reflexivity|exact H']). reflexivity. }
    apply errs_first. rewrite (proj2 (checked_None 32 _) H). apply errs_lift.
  Qed.

  Lemma err_section_end en hf :
    file_header_at img en hf -> hf_hdr_len hf + hf_type_off hf < 2 ^ 32 -> 0 < hf_type_len hf ->
    2 ^ 32 <= hf_hdr_len hf + hf_type_off hf + hf_type_len hf ->
    type_information_new e = Err InvalidTypeSectionOffset.
  Proof.
    intros Hfh Hlo Hpos Hbig.
    apply (load_err en hf [] (hf_hdr_len hf + hf_type_off hf)); cbn [layout_of types_lo types_hi]; auto; try lia.
    - constructor.
    - intros fh <-. cbn [fields hf_hdr_len hf_type_off hf_type_len] in *.
      apply errs_first. apply errs_header_32; assumption.
  Qed.

  Section Record.
    Context (en : endianness) (hf : header_fields).
    Notation f := (layout_of img en hf).
    Context (ts : list type_variant) (o : N).
    Hypothesis Hfh : file_header_at img en hf.
    Hypothesis Hlo : types_lo f < 2 ^ 32.
    Hypothesis Hpre : records_at f (types_lo f) ts o.
    Hypothesis Hin : o < types_hi f.
    Hypothesis H32 : types_hi f < 2 ^ 32.

    Lemma prefix_lo a l b : records_at f a l b -> a <= b.
    Proof.
      induction 1 as [|a t n l b Hin' Hrec Hrest IH]; [lia|].
      destruct Hrec as (h & _ & _ & -> & _). lia.
    Qed.

    Lemma header_prefix {B} fh (k : N -> M B) x : fields fh = hf ->
      errs o en (if types_hi f <? o + 12 then fail InvalidTypeSectionOffset else k 0) x ->
      errs o en
       (tss <- lift (ok_or InvalidTypeSectionOffset (checked 32 (hdr_len fh + type_off fh))) ;;
        tse <- lift (ok_or InvalidTypeSectionOffset (checked 32 (tss + type_len fh))) ;;
        o <- get_offset ;;
        stop <- lift (add_usize (cfg e) o TYPE_HEADER_SIZE) ;;
        if tse <? stop then fail InvalidTypeSectionOffset else k 0) x.
    Proof.
      intros <- H. cbn [layout_of types_lo types_hi fields hf_hdr_len hf_type_off hf_type_len] in *.
      eapply errs_ok.
      { rewrite (proj2 (checked_Some 32 (hdr_len fh + type_off fh) _)) by (split; [reflexivity|exact Hlo]). reflexivity. }
      eapply errs_ok.
      { rewrite (proj2 (checked_Some 32 (hdr_len fh + type_off fh + type_len fh) _)) by (split; [reflexivity|exact H32]). reflexivity. }
      apply errs_off. eapply errs_ok.
      { unfold add_usize, TYPE_HEADER_SIZE. rewrite H64. apply wrap_small. lia. }
      exact H.
    Qed.

    (** C15: the header does not fit *)
    Lemma err_header_fits : types_hi f < o + 12 -> type_information_new e = Err InvalidTypeSectionOffset.
    Proof.
      intros Hbig. eapply load_err; try eassumption. intros fh E. apply errs_first.
      unfold header_new. apply (header_prefix fh (fun _ => _) _ E).
      destruct (N.ltb_spec (types_hi f) (o + 12)); [apply errs_fail|lia].
    Qed.

    (** C19: unknown kind *)
    Lemma err_kind no info :
      o + 12 <= types_hi f -> u32_at img en o no -> u32_at img en (o + 4) info ->
      (info / 2 ^ 24 mod 32 = 0 \/ 19 < info / 2 ^ 24 mod 32) ->
      type_information_new e = Err InvalidBTFKind.
    Proof.
      intros Hfit Hno Hinfo Hk. eapply load_err; try eassumption. intros fh E. apply errs_first.
      unfold header_new. apply (header_prefix fh (fun _ => _) _ E).
      destruct (N.ltb_spec (types_hi f) (o + 12)); [lia|].
      eapply errs_then; [apply ex_u32 with (img := img); try assumption; lia|split; [exact Hno|reflexivity]|].
      eapply errs_then; [apply ex_u32 with (img := img); try assumption; lia|split; [exact Hinfo|reflexivity]|].
      apply errs_first.
      destruct (kind_new_err (N.shiftr (N.land info 0x1F000000) 24)) as [[k Hk']|[Hk' _]].
      - apply kind_new_spec in Hk'. rewrite field_kind in Hk'. rewrite <- Hk' in Hk. destruct k; cbn in Hk; lia.
      - rewrite Hk'. apply errs_lift.
    Qed.

    Lemma errs_payload h k :
      header_at f o h -> o + 12 <= types_hi f ->
      (forall fh, fields fh = hf -> errs (o + 12) en (parse_type (h_kind h) e fh h) k) ->
      type_information_new e = Err k.
    Proof.
      intros Hh Hfit Hbad. eapply load_err; try eassumption. intros fh E.
      unfold parse_record. subst hf.
      eapply errs_then; [apply ex_header with (img := img); try assumption; lia| |apply Hbad; reflexivity].
      cbn [layout_of types_hi fields hf_hdr_len hf_type_off hf_type_len] in *. auto.
    Qed.

    Lemma errs_define_fit {D} K size (dn : env -> file_header -> header -> M D) fh h n :
      fields fh = hf -> size (cfg e) h = Ok n -> h_kind h = K -> n < 2 ^ 32 -> o + 12 <= types_hi f ->
      types_hi f < o + 12 + n ->
      errs (o + 12) en (define_type_new K size dn e fh h) InvalidTypeSectionOffset.
    Proof.
      pose proof (prefix_lo _ _ _ Hpre) as Hle. intros <- Hsize HK Hn Hfit Hbig.
      cbn [layout_of types_lo types_hi fields hf_hdr_len hf_type_off hf_type_len] in *.
      unfold define_type_new.
      replace (kind_eqb (h_kind h) K) with true by (rewrite HK; destruct K; reflexivity). cbn [negb].
      eapply errs_ok; [exact Hsize|].
      destruct (N.ltb_spec 0 n); [|lia]. apply errs_first.
      eapply errs_ok; [apply wrap_small; lia|]. eapply errs_ok; [apply wrap_small; lia|].
      apply errs_off. destruct (N.ltb_spec (o + 12) (hdr_len fh + type_off fh)); [lia|].
      eapply errs_ok; [unfold add_usize; rewrite H64; apply wrap_small; lia|].
      destruct (N.ltb_spec (hdr_len fh + type_off fh + type_len fh) (o + 12 + n)); [apply errs_fail|lia].
    Qed.

    (** C15: the extra data does not fit *)
    Lemma err_extra_fits h :
      header_at f o h -> o + 12 <= types_hi f -> types_hi f < o + 12 + checked_size h ->
      type_information_new e = Err InvalidTypeSectionOffset.
    Proof.
      intros Hh Hfit Hbig. eapply errs_payload; try eassumption. intros fh E.
      assert (Hv : h_vlen h < 2 ^ 16).
      { destruct Hh as (_ & (info & _ & _ & -> & _) & _). apply N.mod_lt. discriminate. }
      assert (C12 : mul_usize (cfg e) (h_vlen h) 12 = @Ok error_kind _ (h_vlen h * 12))
        by (unfold mul_usize; rewrite H64; apply wrap_small; lia).
      assert (C8 : mul_usize (cfg e) (h_vlen h) 8 = @Ok error_kind _ (h_vlen h * 8))
        by (unfold mul_usize; rewrite H64; apply wrap_small; lia).
      enough (G : forall K, h_kind h = K -> errs (o + 12) en (parse_type K e fh h) InvalidTypeSectionOffset) by (apply G; reflexivity).
      intros K HK. unfold checked_size, extra_size in Hbig. rewrite HK in Hbig. unfold parse_type.
      destruct K; try lia; apply errs_first;
        first [ eapply errs_define_fit with (n := 4); try eassumption; try reflexivity; lia
              | eapply errs_define_fit with (n := h_vlen h * 12); try eassumption; try reflexivity; lia
              | eapply errs_define_fit with (n := h_vlen h * 8); try eassumption; try reflexivity; lia ].
    Qed.

    (** C13, C21: defects in the payload *)
    Section Payload.
      Context (fh : file_header).
      Hypothesis E : fields fh = hf.
      Notation off := (o + 12).

      Lemma errs_string p k x : bad_string f k x -> errs p en (parse_string e fh k) x.
      Proof.
        intros Hbad. subst hf. unfold bad_string in Hbad.
        cbn [layout_of strings_lo strings_hi fields hf_hdr_len hf_str_off hf_str_len image] in Hbad.
        set (slo := hdr_len fh + str_off fh) in *. set (shi := slo + str_len fh) in *.
        unfold parse_string. fold slo. destruct (checked 32 slo) as [v|] eqn:C1.
        2:{ apply checked_None in C1. destruct Hbad as [[-> _]|(_ & Hb & _)]; [apply errs_first, errs_lift|lia]. }
        apply checked_Some in C1. destruct C1 as [<- C1]. eapply errs_ok; [reflexivity|].
        fold shi. destruct (checked 32 shi) as [v|] eqn:C2.
        2:{ apply checked_None in C2. destruct Hbad as [[-> _]|(_ & Hb & _)]; [apply errs_first, errs_lift|lia]. }
        apply checked_Some in C2. destruct C2 as [<- C2]. eapply errs_ok; [reflexivity|].
        destruct (checked 32 (slo + k)) as [v|] eqn:C3.
        2:{ apply checked_None in C3. destruct Hbad as [[-> _]|(_ & _ & bs & _ & _ & _ & Hl)]; [apply errs_first, errs_lift|lia]. }
        apply checked_Some in C3. destruct C3 as [<- C3]. eapply errs_ok; [reflexivity|].
        destruct (N.leb_spec shi (slo + k)) as [Hge|Hlt].
        { destruct Hbad as [[-> _]|(_ & _ & bs & _ & Hne & _ & Hl)]; [apply errs_fail|].
          destruct bs; [congruence|cbn [length] in Hl; lia]. }
        destruct Hbad as [[_ [?|?]]|(-> & _ & bs & Hbs & _ & Hno & Hl)]; try lia.
        apply errs_off, errs_set, errs_first.
        assert (G : forall n bs q s, bytes_at img q bs -> ~ In x00 bs -> q + N.of_nat (length bs) = shi ->
          (length bs < n)%nat ->
          errs q en (while_nat n (fun s : str =>
             o <- get_offset ;;
             o1 <- lift (add_usize (cfg e) o 1) ;;
             if shi <? o1 then fail InvalidString else
             c <- inspect_err (read_u8 e) (with_offset p) ;;
             if bval c =? 0 then ret (inr s) else ret (inl (push_char s c))) s) InvalidString).
        { clear - H64 Hs C2. induction n as [|n IH]; intros bs q s Hb Hno Hl Hn; [lia|]. cbn [while_nat].
          destruct bs as [|b bs].
          - apply errs_first. apply errs_off. eapply errs_ok.
            { unfold add_usize. rewrite H64. apply wrap_small. cbn in Hl. lia. }
            cbn in Hl. destruct (N.ltb_spec shi (q + 1)); [apply errs_fail|lia].
          - cbn [length] in Hl, Hn. apply (bytes_at_app img q [b] bs) in Hb. destruct Hb as [Hb Hb'].
            cbn [length] in Hb'.
            eapply errs_then with (S := fun x p' => x = inl (push_char s b) /\ p' = q + 1)
              (a := inl (push_char s b)) (o' := q + 1); [|split; reflexivity|].
            + apply ex_bind_off. eapply ex_bind_ok.
              { unfold add_usize. rewrite H64. apply wrap_small. lia. }
              destruct (N.ltb_spec shi (q + 1)); [lia|].
              eapply ex_iff.
              * eapply ex_bindp; [apply ex_inspect_err; apply ex_u8 with (img := img); try assumption; lia|].
                intros c Hc. instantiate (1 := fun c x o' => x = inl (push_char s b) /\ o' = q + 1).
                assert (c = b) as ->. { eapply bytes_at_inj in Hc; [|exact Hb|reflexivity]. congruence. }
                destruct (N.eqb_spec (bval b) 0) as [Z|Z].
                { exfalso. apply Hno. left. apply bval_inj. rewrite Z. reflexivity. }
                apply ex_ret.
              * intros x o'. cbn beta. split; [intros (c & _ & H'); exact H'|]. intros H'. exists b. auto.
            + cbn iota. apply (IH bs); [exact Hb'|intros Hi; apply Hno; right; exact Hi|lia|lia]. }
        intros r Hr. rewrite while_M_nat. revert r Hr. apply (G _ bs); try assumption. lia.
      Qed.

      Lemma errs_name p k x : k <> 0 -> bad_string f k x -> errs p en (parse_name_opt e fh k) x.
      Proof.
        intros Hk Hb. unfold parse_name_opt. destruct (N.eqb_spec k 0); [contradiction|]. cbn [negb].
        apply errs_first. apply errs_string. exact Hb.
      Qed.

      Lemma errs_repeat {A} (m : M A) sz (item : N -> A -> Prop) l x : forall n q,
        (length l < n)%nat ->
        (forall j, (j < length l)%nat ->
           exactly (q + sz * N.of_nat j) en m (fun a o' => item (q + sz * N.of_nat j) a /\ o' = q + sz * N.of_nat j + sz)) ->
        (forall i a, nth_error l i = Some a -> item (q + sz * N.of_nat i) a) ->
        errs (q + sz * N.of_nat (length l)) en m x ->
        errs q en (repeat_M n m) x.
      Proof.
        induction l as [|a l IH]; intros n q Hn Hex Hit Hbad; (destruct n as [|n]; [cbn in Hn; lia|]); cbn [repeat_M].
        - apply errs_first. cbn [length] in Hbad. replace (q + sz * N.of_nat 0) with q in Hbad by lia. exact Hbad.
        - cbn [length] in *. eapply errs_then.
          + specialize (Hex O ltac:(lia)). replace (q + sz * N.of_nat 0) with q in Hex by lia. exact Hex.
          + split; [|reflexivity]. specialize (Hit O a eq_refl). replace (q + sz * N.of_nat 0) with q in Hit by lia. exact Hit.
          + apply errs_first. apply IH.
            * lia.
            * intros j Hj. specialize (Hex (S j) ltac:(lia)).
              replace (q + sz * N.of_nat (S j)) with (q + sz + sz * N.of_nat j) in Hex by lia. exact Hex.
            * intros i b Hi. specialize (Hit (S i) b Hi).
              replace (q + sz * N.of_nat (S i)) with (q + sz + sz * N.of_nat i) in Hit by lia. exact Hit.
            * replace (q + sz * N.of_nat (S (length l))) with (q + sz + sz * N.of_nat (length l)) in Hbad by lia. exact Hbad.
      Qed.
      Lemma errs_items {A} (m : M A) sz (item : N -> A -> Prop) l x n i q :
        items_at item q sz i l -> i < n ->
        (forall j, (j < length l)%nat ->
           exactly (q + sz * N.of_nat j) en m (fun a o' => item (q + sz * N.of_nat j) a /\ o' = q + sz * N.of_nat j + sz)) ->
        errs (q + sz * i) en m x ->
        errs q en (repeat_M (N.to_nat n) m) x.
      Proof.
        intros [Hl Hit] Hi Hex Hbad. apply errs_repeat with (sz := sz) (item := item) (l := l); try assumption.
        - lia.
        - rewrite Hl. exact Hbad.
      Qed.

      Lemma errs_define {D} K size (dn : env -> file_header -> header -> M D) h n x :
        size (cfg e) h = Ok n -> h_kind h = K -> n < 2 ^ 32 -> off <= types_hi f -> off + n <= types_hi f ->
        errs off en (dn e fh h) x -> errs off en (define_type_new K size dn e fh h) x.
      Proof.
        intros Hsize HK Hn Hhi Hbig Hd. pose proof (prefix_lo _ _ _ Hpre) as Hle. subst hf.
        cbn [layout_of types_lo types_hi fields hf_hdr_len hf_type_off hf_type_len] in *.
        unfold define_type_new.
        replace (kind_eqb (h_kind h) K) with true by (rewrite HK; destruct K; reflexivity). cbn [negb].
        eapply errs_ok; [exact Hsize|].
        eapply errs_then with (S := fun _ p => p = off) (a := tt) (o' := off); [|reflexivity|exact Hd].
        destruct (N.ltb_spec 0 n).
        - eapply ex_bind_ok; [apply wrap_small; lia|]. eapply ex_bind_ok; [apply wrap_small; lia|].
          apply ex_bind_off. destruct (N.ltb_spec off (hdr_len fh + type_off fh)); [lia|].
          eapply ex_bind_ok; [unfold add_usize; rewrite H64; apply wrap_small; lia|].
          destruct (N.ltb_spec (hdr_len fh + type_off fh + type_len fh) (off + n)); [lia|].
          eapply ex_iff; [apply ex_ret|]. intros [] p. tauto.
        - eapply ex_iff; [apply ex_ret|]. intros [] p. tauto.
      Qed.
    End Payload.

    Lemma errs_defect h x : header_at f o h -> o + 12 <= types_hi f -> o + 12 + checked_size h <= types_hi f ->
      defect_at f (o + 12) h x -> type_information_new e = Err x.
    Proof.
      intros Hh Hfit Hfit2 Hd. eapply errs_payload; try eassumption. intros fh E.
      assert (Hv : h_vlen h < 2 ^ 16).
      { destruct Hh as (_ & (info & _ & _ & -> & _) & _). apply N.mod_lt. discriminate. }
      assert (C12 : mul_usize (cfg e) (h_vlen h) 12 = @Ok error_kind _ (h_vlen h * 12))
        by (unfold mul_usize; rewrite H64; apply wrap_small; lia).
      assert (C8 : mul_usize (cfg e) (h_vlen h) 8 = @Ok error_kind _ (h_vlen h * 8))
        by (unfold mul_usize; rewrite H64; apply wrap_small; lia).
      assert (Hu : forall p, p <= types_hi f + 12 -> p + 12 < 2 ^ 64) by (intros; lia).
      assert (FE : f = layout_of img en (fields fh)) by (rewrite E; reflexivity).
      enough (G : forall K, h_kind h = K -> errs (o + 12) en (parse_type K e fh h) x) by (apply G; reflexivity).
      intros K HK. unfold checked_size, extra_size in Hfit2. rewrite HK in Hfit2.
      destruct Hd as [x t Hnm Hno Hp Hbad | x i ms no tid w HKs Hi Hit H1 H2 H3 Hno Hbad
                     | i ms no name tid w HKs Hi Hit H1 Hname H2 H3 Hkf Hw
                     | x n i vs no HKe Hi Hit H1 Hbad | x i ps no tid HKe Hi Hit H1 H2 Hno Hbad].
      - (* record name *)
        unfold payload_at in Hp. cbn [unnamed h_kind h_vlen h_kind_flag h_size_or_type] in Hp. rewrite HK in Hp, Hnm.
        assert (Hnn : forall p, errs p en (parse_name_opt e fh (h_name_offset h)) x)
          by (intros p; apply errs_name; assumption).
        unfold parse_type. destruct K; try discriminate Hnm; apply errs_first; cbn iota in *.
        + destruct Hp as (d & w & _ & _ & _ & Hw & _).
          eapply errs_define with (n := 4); try eassumption; try reflexivity; try lia.
          unfold int_data_new. eapply errs_then; [apply ex_u32 with (img := img); try assumption; lia|split; [exact Hw|reflexivity]|].
          cbn zeta. apply errs_first. apply Hnn.
        + destruct Hp as (d & _ & _ & _ & Hl).
          eapply errs_define with (n := h_vlen h * 12); try eassumption; try lia.
          unfold struct_data_new. eapply errs_then; [apply ex_repeat with (sz := 12) (item := (member_at f (h_kind_flag h))); intros j Hj; rewrite FE; apply ex_member; try assumption; try reflexivity; lia|split; [rewrite N2Nat.id; exact Hl|reflexivity]|apply errs_first, Hnn].
        + destruct Hp as (d & _ & _ & _ & Hl).
          eapply errs_define with (n := h_vlen h * 12); try eassumption; try lia.
          unfold struct_data_new. eapply errs_then; [apply ex_repeat with (sz := 12) (item := (member_at f (h_kind_flag h))); intros j Hj; rewrite FE; apply ex_member; try assumption; try reflexivity; lia|split; [rewrite N2Nat.id; exact Hl|reflexivity]|apply errs_first, Hnn].
        + destruct Hp as (d & _ & _ & _ & _ & Hl).
          eapply errs_define with (n := h_vlen h * 8); try eassumption; try lia.
          unfold enum_data_new. eapply errs_then; [apply ex_repeat with (sz := 8) (item := (enumerator_at f 4 (h_kind_flag h))); intros j Hj; rewrite FE; apply ex_value32; try assumption; try reflexivity; lia|split; [rewrite N2Nat.id; exact Hl|reflexivity]|apply errs_first, Hnn].
        + eapply errs_define with (n := 0); try eassumption; try reflexivity; try lia. apply errs_first, Hnn.
        + eapply errs_define with (n := 0); try eassumption; try reflexivity; try lia. apply errs_first, Hnn.
        + eapply errs_define with (n := 0); try eassumption; try reflexivity; try lia. apply errs_first, Hnn.
        + destruct Hp as (d & _ & _ & _ & Hw & _).
          eapply errs_define with (n := 4); try eassumption; try reflexivity; try lia.
          unfold var_data_new. eapply errs_then; [apply ex_u32 with (img := img); try assumption; lia|split; [exact Hw|reflexivity]|].
          apply errs_first. apply Hnn.
        + destruct Hp as (d & _ & _ & _ & Hl).
          eapply errs_define with (n := h_vlen h * 12); try eassumption; try lia.
          unfold data_sec_data_new. eapply errs_then; [apply ex_repeat with (sz := 12) (item := (variable_at f)); intros j Hj; rewrite FE; apply ex_variable; try assumption; try reflexivity; lia|split; [rewrite N2Nat.id; exact Hl|reflexivity]|apply errs_first, Hnn].
        + eapply errs_define with (n := 0); try eassumption; try reflexivity; try lia. apply errs_first, Hnn.
        + destruct Hp as (d & _ & _ & _ & Hw).
          eapply errs_define with (n := 4); try eassumption; try reflexivity; try lia.
          unfold decl_tag_data_new. eapply errs_then; [apply ex_u32 with (img := img); try assumption; lia|split; [exact Hw|reflexivity]|].
          apply errs_first. apply Hnn.
        + eapply errs_define with (n := 0); try eassumption; try reflexivity; try lia. apply errs_first, Hnn.
        + destruct Hp as (d & _ & _ & _ & _ & Hl).
          eapply errs_define with (n := h_vlen h * 12); try eassumption; try lia.
          unfold enum64_data_new. eapply errs_then; [apply ex_repeat with (sz := 12) (item := (enumerator_at f 8 (h_kind_flag h))); intros j Hj; rewrite FE; apply ex_value64; try assumption; try reflexivity; lia|split; [rewrite N2Nat.id; exact Hl|reflexivity]|apply errs_first, Hnn].
      - (* member name *)
        assert (G : errs (o + 12) en (struct_data_new e fh h) x).
        { unfold struct_data_new. apply errs_first.
          assert (Hli : N.of_nat (length ms) = i) by apply Hit.
          assert (Hend : o + 12 + 12 * h_vlen h <= types_hi f) by (rewrite HK in HKs; destruct HKs as [->| ->]; lia).
          eapply errs_items; [exact Hit|exact Hi| |].
          - intros j Hj. rewrite FE. apply ex_member; try assumption; try reflexivity. lia.
          - unfold parse_member. eapply errs_then; [apply ex_u32 with (img := img); try assumption; lia|split; [exact H1|reflexivity]|].
            eapply errs_then; [apply ex_u32 with (img := img); try assumption; lia|split; [exact H2|reflexivity]|].
            eapply errs_then; [apply ex_u32 with (img := img); try assumption; lia|split; [|reflexivity]|].
            { replace (o + 12 + 12 * i + 4 + 4) with (o + 12 + 12 * i + 8) by lia. exact H3. }
            apply errs_first. apply errs_name; assumption. }
        rewrite HK in HKs. destruct HKs as [->| ->]; apply errs_first;
          eapply errs_define with (n := h_vlen h * 12); try eassumption; lia.
      - (* member offset *)
        assert (G : errs (o + 12) en (struct_data_new e fh h) InvalidOffset).
        { unfold struct_data_new. apply errs_first.
          assert (Hli : N.of_nat (length ms) = i) by apply Hit.
          assert (Hend : o + 12 + 12 * h_vlen h <= types_hi f) by (rewrite HK in HKs; destruct HKs as [->| ->]; lia).
          eapply errs_items; [exact Hit|exact Hi| |].
          - intros j Hj. rewrite FE. apply ex_member; try assumption; try reflexivity. lia.
          - unfold parse_member. eapply errs_then; [apply ex_u32 with (img := img); try assumption; lia|split; [exact H1|reflexivity]|].
            eapply errs_then; [apply ex_u32 with (img := img); try assumption; lia|split; [exact H2|reflexivity]|].
            eapply errs_then; [apply ex_u32 with (img := img); try assumption; lia|split; [|reflexivity]|].
            { replace (o + 12 + 12 * i + 4 + 4) with (o + 12 + 12 * i + 8) by lia. exact H3. }
            eapply errs_then; [apply ex_name with (img := img); assumption|split; [|reflexivity]|].
            { rewrite FE in Hname. exact Hname. }
            rewrite Hkf. unfold decode_member_offset. destruct (N.eqb_spec (w mod 8) 0); [contradiction|].
            apply errs_first, errs_lift. }
        rewrite HK in HKs. destruct HKs as [->| ->]; apply errs_first;
          eapply errs_define with (n := h_vlen h * 12); try eassumption; lia.
      - (* enumerator *)
        assert (Hli : N.of_nat (length vs) = i) by apply Hit.
        rewrite HK in HKe. destruct HKe as [[-> ->]|[-> ->]]; apply errs_first.
        + eapply errs_define with (n := h_vlen h * 8); try eassumption; try lia.
          unfold enum_data_new. apply errs_first.
          eapply errs_items; [exact Hit|exact Hi| |].
          * intros j Hj. rewrite FE. apply ex_value32; try assumption; try reflexivity. lia.
          * unfold parse_named_value32. eapply errs_then; [apply ex_u32 with (img := img); try assumption; lia|split; [exact H1|reflexivity]|].
            apply errs_first. apply errs_string; assumption.
        + eapply errs_define with (n := h_vlen h * 12); try eassumption; try lia.
          unfold enum64_data_new. apply errs_first.
          eapply errs_items; [exact Hit|exact Hi| |].
          * intros j Hj. rewrite FE. apply ex_value64; try assumption; try reflexivity. lia.
          * unfold parse_named_value64. eapply errs_then; [apply ex_u32 with (img := img); try assumption; lia|split; [exact H1|reflexivity]|].
            apply errs_first. apply errs_string; assumption.
      - (* parameter *)
        assert (Hli : N.of_nat (length ps) = i) by apply Hit.
        rewrite HK in HKe. subst K. apply errs_first.
        eapply errs_define with (n := h_vlen h * 8); try eassumption; try lia.
        unfold func_proto_data_new. apply errs_first.
        eapply errs_items; [exact Hit|exact Hi| |].
        * intros j Hj. rewrite FE. apply ex_parameter; try assumption; try reflexivity. lia.
        * unfold parse_parameter. eapply errs_then; [apply ex_u32 with (img := img); try assumption; lia|split; [exact H1|reflexivity]|].
          eapply errs_then; [apply ex_u32 with (img := img); try assumption; lia|split; [exact H2|reflexivity]|].
          apply errs_first. apply errs_name; assumption.
    Qed.
  End Record.
End Image.
