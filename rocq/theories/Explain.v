(** * Explain: every error of a load has its reason in the file (C51). *)
From Coq Require Import Strings.Byte.
From Coq Require Import List NArith ZArith Bool Lia ZifyBool ZifyNat ZifyN.
From Verif Require Import TypeInfo Spec BaseFacts Bits Maps Exact Errors LoadProps LoadProps2 Transport Final BrokenSpec.
Import ListNotations.
Open Scope N_scope.

(** The last request failed, with [x]. *)
Definition unread (x : error_kind) (r : reader) : Prop := exists off n tr, r_trace r = (off, n, Fails x) :: tr.
Definition explains {A} (o : N) (en : endianness) (m : M A) (D : error_kind -> Prop) : Prop :=
  forall r x r', placed o en r -> m r = (Err x, r') -> unread x r' \/ D x.

Section Rules.
  Context (en : endianness) (D : error_kind -> Prop).
  Lemma xp_weaken {A} o (m : M A) (D' : error_kind -> Prop) : explains o en m D' -> (forall x, D' x -> D x) -> explains o en m D.
  Proof. intros H W r x r' P E. destruct (H r x r' P E); auto. Qed.
  Lemma xp_ext {A} o (m m' : M A) : (forall r, m r = m' r) -> explains o en m' D -> explains o en m D.
  Proof. intros E H r x r' P Er. rewrite E in Er. exact (H r x r' P Er). Qed.
  Lemma xp_ret {A} o (a : A) : explains o en (ret a) D.
  Proof. intros r x r' _ E. discriminate. Qed.
  Lemma xp_fail {A} o k : D k -> explains o en (@fail A k) D.
  Proof. intros H r x r' _ E. injection E as <- _. auto. Qed.
  Lemma xp_lift {A} o (y : outcome error_kind A) : (forall k, y = Err k -> D k) -> explains o en (lift y) D.
  Proof. intros H r x r' _ E. unfold lift in E. injection E as E _. auto. Qed.
  Lemma xp_bind {A B} o (m : M A) (k : A -> M B) S : exactly o en m S -> explains o en m D ->
    (forall a o', S a o' -> explains o' en (k a) D) -> explains o en (bind m k) D.
  Proof.
    intros Hm Xm Xk r x r' P E. unfold bind in E. destruct (m r) as [[a|k'|p|] r1] eqn:Em; try discriminate.
    - destruct (Hm r P) as [H1 _]. destruct (H1 a r1 Em) as [He Hs]. exact (Xk a (r_off r1) Hs r1 x r' (conj eq_refl He) E).
    - injection E as -> ->. exact (Xm r x r' P Em).
  Qed.
  (** only the first part can fail *)
  Lemma xp_first {A B} o (m : M A) (k : A -> M B) : explains o en m D -> (forall a r, match fst (k a r) with Err _ => False | _ => True end) -> explains o en (bind m k) D.
  Proof.
    intros Xm Xk r x r' P E. unfold bind in E. destruct (m r) as [[a|k'|p|] r1] eqn:Em; try discriminate.
    - specialize (Xk a r1). rewrite E in Xk. destruct Xk.
    - injection E as -> ->. exact (Xm r x r' P Em).
  Qed.
  Lemma xp_opt {A B} o k0 (y : option A) (k : A -> M B) : (y = None -> D k0) -> (forall a, y = Some a -> explains o en (k a) D) ->
    explains o en (bind (lift (ok_or k0 y)) k) D.
  Proof.
    intros HN HS. destruct y as [a|].
    - exact (HS a eq_refl).
    - intros r x r' _ E. unfold bind, lift in E. cbn in E. injection E as <- _. auto.
  Qed.
  Lemma xp_ok {A B} o (y : outcome error_kind A) a (k : A -> M B) : y = Ok a -> explains o en (k a) D -> explains o en (bind (lift y) k) D.
  Proof. intros -> H. exact H. Qed.
  Lemma xp_off {B} o (k : N -> M B) : explains o en (k o) D -> explains o en (bind get_offset k) D.
  Proof. intros H r x r' [Ho He] E. unfold bind, get_offset in E. rewrite Ho in E. exact (H r x r' (conj Ho He) E). Qed.
  Lemma xp_set {B} o p (k : unit -> M B) : explains p en (k tt) D -> explains o en (bind (set_offset p) k) D.
  Proof. intros H r x r' [Ho He] E. unfold bind, set_offset in E. refine (H _ x r' _ E). split; [reflexivity|exact He]. Qed.
  Lemma xp_repeat {A} (m : M A) sz (item : N -> A -> Prop) : forall n q,
    (forall j, (j < n)%nat -> exactly (q + sz * N.of_nat j) en m (fun a o' => item (q + sz * N.of_nat j) a /\ o' = q + sz * N.of_nat j + sz)) ->
    (forall l, (length l < n)%nat -> (forall i a, nth_error l i = Some a -> item (q + sz * N.of_nat i) a) -> explains (q + sz * N.of_nat (length l)) en m D) ->
    explains q en (repeat_M n m) D.
  Proof.
    induction n as [|n IH]; intros q Hex Hx; cbn [repeat_M]; [apply xp_ret|].
    eapply xp_bind.
    - specialize (Hex 0%nat ltac:(lia)). replace (q + sz * N.of_nat 0) with q in Hex by lia. exact Hex.
    - specialize (Hx [] ltac:(cbn; lia)). replace (q + sz * N.of_nat (@length A [])) with q in Hx by (cbn; lia). apply Hx. intros [|i] a E; discriminate.
    - intros a o' [Ha ->]. eapply xp_first; [|intros l r; exact I]. apply IH.
      + intros j Hj. specialize (Hex (S j) ltac:(lia)). replace (q + sz * N.of_nat (S j)) with (q + sz + sz * N.of_nat j) in Hex by lia. exact Hex.
      + intros l Hl Hit. specialize (Hx (a :: l) ltac:(cbn; lia)). replace (q + sz * N.of_nat (length (a :: l))) with (q + sz + sz * N.of_nat (length l)) in Hx by (cbn [length]; lia).
        apply Hx. intros [|i] b E; [injection E as <-; replace (q + sz * N.of_nat 0) with q by lia; exact Ha|].
        replace (q + sz * N.of_nat (S i)) with (q + sz + sz * N.of_nat i) by lia. exact (Hit i b E).
  Qed.
End Rules.

Section Image.
  Context (e : env) (img : list byte).
  Hypothesis H64 : usize_bits (cfg e) = 64.
  Hypothesis Hs : serves (rd e) img.

  Lemma xp_read en D o n : explains o en (read e n) D.
  Proof.
    intros r x r' _ E. unfold read in E. destruct (rd e (r_trace r) (r_off r) n) as [bs|k].
    - unfold add_usize, wrap_or_panic in E. destruct (r_off r + n <? two_pow (usize_bits (cfg e))), (overflow_checks (cfg e)); discriminate.
    - injection E as <- <-. left. do 3 eexists. reflexivity.
  Qed.
  Lemma xp_uint en D o n : explains o en (read_uint e n) D.
  Proof. unfold read_uint. apply xp_first; [apply xp_read|]. intros; exact I. Qed.
  Lemma xp_u8 en D o : explains o en (read_u8 e) D.
  Proof. unfold read_u8. apply xp_first; [apply xp_read|]. intros [|? ?] r; exact I. Qed.
  Lemma xp_inspect {A} en D o (m : M A) back : explains o en m D -> explains o en (inspect_err m (with_offset back)) D.
  Proof.
    intros H r x r' P E. unfold inspect_err in E. destruct (m r) as [[a|k|p|] r1] eqn:Em; try discriminate. injection E as -> <-.
    destruct (H r x r1 P Em) as [(off & n & tr & U)|U]; [left; exists off, n, tr; exact U|auto].
  Qed.

  Section File.
    Context (fh : file_header) (en : endianness).
    Notation f := (layout_of img en (fields fh)).
    Notation tlo := (hdr_len fh + type_off fh).
    Notation thi := (hdr_len fh + type_off fh + type_len fh).
    Notation slo := (hdr_len fh + str_off fh).
    Notation shi := (hdr_len fh + str_off fh + str_len fh).

    Lemma xp_string o k : explains o en (parse_string e fh k) (bad_string f k).
    Proof.
      unfold parse_string, bad_string. cbn [layout_of strings_lo strings_hi fields hf_hdr_len hf_str_off hf_str_len image].
      apply xp_opt; [intros C; apply checked_None in C; left; split; [reflexivity|lia]|]. intros a C1. apply checked_Some in C1. destruct C1 as [<- C1].
      apply xp_opt; [intros C; apply checked_None in C; left; split; [reflexivity|lia]|]. intros a C2. apply checked_Some in C2. destruct C2 as [<- C2].
      apply xp_opt; [intros C; apply checked_None in C; left; split; [reflexivity|lia]|]. intros a C3. apply checked_Some in C3. destruct C3 as [<- C3].
      destruct (N.leb_spec shi (slo + k)) as [Hge|Hlt]; [apply xp_fail; left; split; [reflexivity|lia]|].
      apply xp_off, xp_set. apply xp_first; [|intros s r; exact I].
      match goal with |- explains _ _ (while_M ?b ?body ?i) _ => apply xp_ext with (m' := while_nat (N.to_nat b) body i); [intros r0; apply while_M_nat|] end.
      match goal with |- explains _ _ (while_nat _ ?body _) ?D => enough (G : forall n bs s, (bs = [] \/ bytes_at img (slo + k) bs) -> ~ In x00 bs -> slo + k + N.of_nat (length bs) <= shi ->
        explains (slo + k + N.of_nat (length bs)) en (while_nat n body s) D) end.
      { specialize (G (N.to_nat (shi - (slo + k) + 1)) [] []). replace (slo + k + N.of_nat (@length byte [])) with (slo + k) in G by (cbn; lia). apply G; [left; reflexivity|intros []|lia]. }
      induction n as [|n IH]; intros bs s Hb Hno Hl; cbn [while_nat]; [apply xp_lift; discriminate|].
      eapply xp_bind with (S := fun x p => exists b, bytes_at img (slo + k + N.of_nat (length bs)) [b] /\ p = slo + k + N.of_nat (length bs) + 1 /\ slo + k + N.of_nat (length bs) + 1 <= shi /\
         if bval b =? 0 then x = inr s else x = inl (push_char s b)).
      - apply ex_bind_off. eapply ex_bind_ok; [unfold add_usize; rewrite H64; apply wrap_small; lia|].
        destruct (N.ltb_spec shi (slo + k + N.of_nat (length bs) + 1)) as [L|L].
        + eapply ex_iff; [apply ex_fail|]. intros x p. split; [intros []|]. intros (b & _ & _ & ? & _). lia.
        + eapply ex_iff.
          * eapply ex_bindp; [apply ex_inspect_err; apply ex_u8 with (img := img); try assumption; lia|]. intros c Hc.
            instantiate (1 := fun c x p => (if bval c =? 0 then x = inr s else x = inl (push_char s c)) /\ p = slo + k + N.of_nat (length bs) + 1).
            cbn beta. destruct (bval c =? 0); apply ex_ret.
          * intros x p. cbn beta. split; [intros (c & Hc & H1 & H2); exists c; repeat split; try assumption; lia|]. intros (c & Hc & H1 & _ & H2). exists c. auto.
      - apply xp_off. eapply xp_ok; [unfold add_usize; rewrite H64; apply wrap_small; lia|].
        destruct (N.ltb_spec shi (slo + k + N.of_nat (length bs) + 1)) as [L|L].
        + apply xp_fail. right. split; [reflexivity|]. split; [lia|]. exists bs. assert (NE : bs <> []) by (intros ->; cbn in *; lia). split; [destruct Hb as [?|Hb]; [contradiction|exact Hb]|]. split; [exact NE|]. split; [exact Hno|]. lia.
        + apply xp_first; [apply xp_inspect, xp_u8|]. intros c r. destruct (bval c =? 0); exact I.
      - intros x p (b & Hb1 & -> & Hl1 & Hx). destruct (N.eqb_spec (bval b) 0) as [Z|Z]; subst x; [apply xp_ret|].
        specialize (IH (bs ++ [b]) (push_char s b)). rewrite app_length in IH. cbn [length] in IH.
        replace (slo + k + N.of_nat (length bs + 1)) with (slo + k + N.of_nat (length bs) + 1) in IH by lia. apply IH; [|intros Hi|exact Hl1].
        + right. destruct Hb as [->|Hb]; [cbn [app length] in *; replace (slo + k + N.of_nat 0) with (slo + k) in Hb1 by lia; exact Hb1|]. apply bytes_at_app. auto.
        + apply in_app_or in Hi. destruct Hi as [Hi|[Hi|[]]]; [exact (Hno Hi)|]. apply Z. rewrite Hi. reflexivity.
    Qed.
    Lemma xp_name o k : explains o en (parse_name_opt e fh k) (fun x => k <> 0 /\ bad_string f k x).
    Proof.
      unfold parse_name_opt. destruct (N.eqb_spec k 0) as [E|E]; cbn [negb]; [apply xp_ret|].
      apply xp_first; [|intros; exact I]. eapply xp_weaken; [apply xp_string|]. auto.
    Qed.
    Lemma xp_header o : tlo < 2 ^ 32 -> o + 12 < 2 ^ 64 -> explains o en (header_new e fh) (bad_record f o).
    Proof.
      intros Hlo Hb. unfold header_new.
      apply xp_opt; [intros C; apply checked_None in C; lia|]. intros a C1. apply checked_Some in C1. destruct C1 as [<- C1].
      apply xp_opt; [intros C; apply checked_None in C; apply types_end_past_4G; exact C|]. intros a C2. apply checked_Some in C2. destruct C2 as [<- C2].
      apply xp_off. eapply xp_ok; [unfold add_usize, TYPE_HEADER_SIZE; rewrite H64; apply wrap_small; exact Hb|].
      destruct (N.ltb_spec thi (o + 12)) as [L|L]; [apply xp_fail, header_does_not_fit; assumption|].
      eapply xp_bind; [apply ex_u32 with (img := img); try assumption; lia|apply xp_uint|]. intros no o1 [Hno ->].
      eapply xp_bind; [apply ex_u32 with (img := img); try assumption; lia|apply xp_uint|]. intros info o1 [Hinfo ->].
      eapply xp_bind; [apply ex_lift|apply xp_lift|].
      - intros k Ek. destruct (kind_new_err (N.shiftr (N.land info 0x1F000000) 24)) as [[k' Hk']|[Hk' Bad]]; [congruence|].
        rewrite Hk' in Ek. injection Ek as <-. rewrite field_kind in Bad. eapply unknown_kind; try eassumption.
      - intros k o1 _. apply xp_first; [apply xp_uint|intros; exact I].
    Qed.
    Ltac u32_step := eapply xp_bind; [apply ex_u32 with (img := img); try assumption; lia|apply xp_uint|].
    Lemma xp_member h o : o + 12 < 2 ^ 64 -> explains o en (parse_member e fh h) (fun x => exists no tid w,
      u32_at img en o no /\ u32_at img en (o + 4) tid /\ u32_at img en (o + 8) w /\
      ((no <> 0 /\ bad_string f no x) \/ (exists name, name_at f no name) /\ h_kind_flag h = false /\ w mod 8 <> 0 /\ x = InvalidOffset)).
    Proof.
      intros Hb. unfold parse_member. u32_step. intros no o1 [Hno ->]. u32_step. intros tid o1 [Htid ->]. u32_step. intros w o1 [Hw ->].
      replace (o + 4 + 4) with (o + 8) in Hw by lia. eapply xp_bind; [apply ex_name with (img := img); assumption| |].
      - eapply xp_weaken; [apply xp_name|]. cbn beta. intros x Hx. exists no, tid, w. auto 6.
      - intros name o1 [Hn ->]. apply xp_first; [|intros; exact I]. apply xp_lift. intros k Ek. unfold decode_member_offset in Ek.
        destruct (h_kind_flag h) eqn:KF; [destruct (_ && _); discriminate|]. destruct (N.eqb_spec (w mod 8) 0) as [Z|Z]; [discriminate|]. injection Ek as <-.
        exists no, tid, w. do 3 (split; [assumption|]). right. split; [exists name; exact Hn|]. auto.
    Qed.
    Lemma xp_value32 o sg : o + 8 < 2 ^ 64 -> explains o en (parse_named_value32 e fh sg) (fun x => exists no, u32_at img en o no /\ bad_string f no x).
    Proof.
      intros Hb. unfold parse_named_value32. u32_step. intros no o1 [Hno ->]. eapply xp_bind; [apply ex_string with (img := img); assumption| |].
      - eapply xp_weaken; [apply xp_string|]. cbn beta. eauto.
      - intros name o1 [_ ->]. destruct sg; apply xp_first; try (intros; exact I); [unfold read_i32; apply xp_first; [apply xp_uint|intros; exact I]|apply xp_uint].
    Qed.
    Lemma xp_value64 o sg : o + 12 < 2 ^ 64 -> explains o en (parse_named_value64 e fh sg) (fun x => exists no, u32_at img en o no /\ bad_string f no x).
    Proof.
      intros Hb. unfold parse_named_value64. u32_step. intros no o1 [Hno ->]. eapply xp_bind; [apply ex_string with (img := img); assumption| |].
      - eapply xp_weaken; [apply xp_string|]. cbn beta. eauto.
      - intros name o1 [_ ->]. destruct sg; apply xp_first; try (intros; exact I); [unfold read_i64; apply xp_first; [apply xp_uint|intros; exact I]|apply xp_uint].
    Qed.
    Lemma xp_parameter o : o + 8 < 2 ^ 64 -> explains o en (parse_parameter e fh) (fun x => exists no tid, u32_at img en o no /\ u32_at img en (o + 4) tid /\ no <> 0 /\ bad_string f no x).
    Proof.
      intros Hb. unfold parse_parameter. u32_step. intros no o1 [Hno ->]. u32_step. intros tid o1 [Htid ->]. apply xp_first; [|intros; exact I].
      eapply xp_weaken; [apply xp_name|]. cbn beta. intros x [H1 H2]. exists no, tid. auto.
    Qed.
    Lemma xp_variable o (D : error_kind -> Prop) : o + 12 < 2 ^ 64 -> explains o en (parse_variable e) D.
    Proof. intros Hb. unfold parse_variable. u32_step. intros a o1 [_ ->]. u32_step. intros b o1 [_ ->]. apply xp_first; [apply xp_uint|intros; exact I]. Qed.

    Lemma xp_define {A} K (size : build -> header -> outcome error_kind N) (dn : env -> file_header -> header -> M A) h o n (D : error_kind -> Prop) :
      size (cfg e) h = Ok n -> h_kind h = K -> tlo <= o -> o <= thi -> thi < 2 ^ 32 -> n < 2 ^ 32 ->
      (thi < o + n -> D InvalidTypeSectionOffset) -> (o + n <= thi -> explains o en (dn e fh h) D) ->
      explains o en (define_type_new K size dn e fh h) D.
    Proof.
      intros Hsize HK Hlo Hhi Hb Hn Hbad Hd. unfold define_type_new.
      replace (kind_eqb (h_kind h) K) with true by (rewrite HK; destruct K; reflexivity). cbn [negb].
      eapply xp_ok; [exact Hsize|]. destruct (N.ltb_spec 0 n) as [Hp|Hz].
      - eapply xp_bind with (S := fun _ p => p = o /\ o + n <= thi).
        + eapply ex_bind_ok; [apply wrap_small; lia|]. eapply ex_bind_ok; [apply wrap_small; lia|]. apply ex_bind_off.
          destruct (N.ltb_spec o tlo); [lia|]. eapply ex_bind_ok; [unfold add_usize; rewrite H64; apply wrap_small; lia|].
          destruct (N.ltb_spec thi (o + n)); [eapply ex_iff; [apply ex_fail|]; intros a p; split; [intros []|lia]|].
          eapply ex_iff; [apply ex_ret|]. intros [] p. intuition lia.
        + eapply xp_ok; [apply wrap_small; lia|]. eapply xp_ok; [apply wrap_small; lia|]. apply xp_off.
          destruct (N.ltb_spec o tlo); [lia|]. eapply xp_ok; [unfold add_usize; rewrite H64; apply wrap_small; lia|].
          destruct (N.ltb_spec thi (o + n)); [apply xp_fail; auto|apply xp_ret].
        + intros [] p [-> L]. auto.
      - eapply xp_bind with (S := fun _ p => p = o); [eapply ex_iff; [apply ex_ret|]; intros [] p; tauto|apply xp_ret|]. intros [] p ->. apply Hd. lia.
    Qed.

    (** What can be wrong after the header [h]. *)
    Definition wrong_data (h : header) (o : N) (x : error_kind) : Prop :=
      (x = InvalidTypeSectionOffset /\ thi < o + checked_size h) \/ (o + checked_size h <= thi /\ defect_at f o h x).
    Lemma xp_parse_type h o : h_vlen h < 2 ^ 16 -> tlo <= o -> o <= thi -> thi < 2 ^ 32 ->
      explains o en (parse_type (h_kind h) e fh h) (wrong_data h o).
    Proof.
      intros Hv Hlo Hhi Hb.
      assert (C12 : mul_usize (cfg e) (h_vlen h) 12 = @Ok error_kind _ (h_vlen h * 12)) by (unfold mul_usize; rewrite H64; apply wrap_small; lia).
      assert (C8 : mul_usize (cfg e) (h_vlen h) 8 = @Ok error_kind _ (h_vlen h * 8)) by (unfold mul_usize; rewrite H64; apply wrap_small; lia).
      enough (G : forall K, h_kind h = K -> explains o en (parse_type K e fh h) (wrong_data h o)) by (apply G; reflexivity).
      intros K HK.
      (* a record: [n] is what the library wants to be inside the section *)
      assert (R : forall A size (dn : env -> file_header -> header -> M A) (mk : A -> type_variant) n, size (cfg e) h = Ok n -> n = checked_size h ->
        (o + n <= thi -> explains o en (dn e fh h) (defect_at f o h)) -> explains o en (d <- define_type_new K size dn e fh h ;; ret (mk d)) (wrong_data h o)).
      { intros A size dn mk n Hsz En Hx. apply xp_first; [|intros; exact I]. eapply xp_define with (n := n); try eassumption.
        - assert (extra_size h < 2 ^ 32) by (unfold extra_size; destruct (h_kind h); lia). subst n. unfold checked_size. destruct (h_kind h); lia.
        - intros L. left. split; [reflexivity|lia].
        - intros L. eapply xp_weaken; [exact (Hx L)|]. intros x Hd. right. split; [lia|exact Hd]. }
      (* the name, when the rest is fine *)
      assert (NM : forall p, kind_has_name K = true -> (exists t, payload_at f o (unnamed h) t) -> explains p en (parse_name_opt e fh (h_name_offset h)) (defect_at f o h)).
      { intros p Hn [t Ht]. eapply xp_weaken; [apply xp_name|]. cbn beta. intros x [N0 Bad]. eapply bad_record_name; try eassumption. rewrite HK. exact Hn. }
      unfold payload_at in NM. cbn [unnamed h_kind h_vlen h_kind_flag h_size_or_type h_name_offset] in NM. rewrite HK in NM.
      assert (N0 : h_name f (unnamed h) None) by reflexivity.
      assert (CS : checked_size h = match K with KArray => 12 * h_vlen h | KInt | KVar | KDeclTag => 4 | KStruct | KUnion | KDataSec | KEnum64 => 12 * h_vlen h | KEnum | KFuncProto => 8 * h_vlen h | _ => 0 end)
        by (unfold checked_size, extra_size; rewrite HK; destruct K; reflexivity).
      assert (ST : K = KStruct \/ K = KUnion -> o + h_vlen h * 12 <= thi -> explains o en (struct_data_new e fh h) (defect_at f o h)).
      { intros HS L. unfold struct_data_new. eapply xp_bind.
        - apply ex_repeat with (sz := 12) (item := member_at f (h_kind_flag h)). intros i Hi. apply ex_member; try assumption; try reflexivity. lia.
        - apply xp_repeat with (sz := 12) (item := member_at f (h_kind_flag h)); [intros j Hj; apply ex_member; try assumption; try reflexivity; lia|].
          intros l Hl Hit. eapply xp_weaken; [apply xp_member; lia|]. cbn beta. intros x (no & tid & w & H1 & H2 & H3 & Hx).
          assert (It : items_at (member_at f (h_kind_flag h)) o 12 (N.of_nat (length l)) l) by (split; [reflexivity|exact Hit]).
          destruct Hx as [[Hn0 Bad]|((name & Hn) & KF & Wm & ->)].
          + eapply (bad_member_name _ _ _ x (N.of_nat (length l)) l no tid w); try eassumption; [rewrite HK; exact HS|lia].
          + eapply (unaligned_member _ _ _ (N.of_nat (length l)) l no name tid w); try eassumption; [rewrite HK; exact HS|lia].
        - intros l o1 [Hl _]. apply xp_first; [|intros; exact I]. rewrite N2Nat.id in Hl.
          apply NM; [destruct HS as [->| ->]; reflexivity|].
          destruct HS as [->| ->]; (eexists; exists {| struct_name := None; struct_size := h_size_or_type h; member_list := l |}; split; [reflexivity|]; split; [exact N0|]; split; [reflexivity|exact Hl]). }
      assert (NL : kind_has_name K = true -> (exists t, payload_at f o (unnamed h) t) -> explains o en (named_link_data_new e fh h) (defect_at f o h)).
      { intros Hn Ht. unfold named_link_data_new. apply xp_first; [|intros; exact I]. eapply xp_weaken; [apply xp_name|]. cbn beta. intros x [Nz Bad]. destruct Ht as [t Pt].
        eapply bad_record_name; try eassumption. rewrite HK. exact Hn. }
      unfold payload_at in NL. cbn [unnamed h_kind h_vlen h_kind_flag h_size_or_type h_name_offset] in NL. rewrite HK in NL.
      unfold parse_type. destruct K.
      - apply R with (n := 4); [reflexivity|congruence|]. intros L. unfold int_data_new. u32_step. intros w o1 [Hw ->]. cbv zeta. apply xp_first; [|intros; exact I].
        apply NM; [reflexivity|]. eexists. exists {| int_name := None; int_size := h_size_or_type h; int_signed := N.testbit w 24; int_char := N.testbit w 25; int_boolean := N.testbit w 26; int_offset := w / 2 ^ 16 mod 256; int_bits := w mod 256 |}, w.
        split; [reflexivity|]. split; [exact N0|]. split; [reflexivity|]. split; [exact Hw|]. repeat split; reflexivity.
      - apply R with (n := 0); [reflexivity|congruence|]. intros L. apply xp_ret.
      - apply R with (n := h_vlen h * 12); [assumption|lia|]. intros L. unfold array_data_new. u32_step. intros a o1 [_ ->]. u32_step. intros b o1 [_ ->]. apply xp_first; [apply xp_uint|intros; exact I].
      - apply R with (n := h_vlen h * 12); [assumption|lia|]. intros L. apply ST; auto.
      - apply R with (n := h_vlen h * 12); [assumption|lia|]. intros L. apply ST; auto.
      - apply R with (n := h_vlen h * 8); [assumption|lia|]. intros L. unfold enum_data_new. cbv zeta. eapply xp_bind.
        + apply ex_repeat with (sz := 8) (item := enumerator_at f 4 (h_kind_flag h)). intros i Hi. apply ex_value32; try assumption. lia.
        + apply xp_repeat with (sz := 8) (item := enumerator_at f 4 (h_kind_flag h)); [intros j Hj; apply ex_value32; try assumption; lia|].
          intros l Hl Hit. eapply xp_weaken; [apply xp_value32; lia|]. cbn beta. intros x (no & H1 & Bad).
          apply (bad_enumerator_name _ _ _ x 4%nat (N.of_nat (length l)) l no); [left; auto|lia|split; [reflexivity|exact Hit]|exact H1|exact Bad].
        + intros l o1 [Hl _]. apply xp_first; [|intros; exact I]. rewrite N2Nat.id in Hl. apply NM; [reflexivity|].
          eexists. exists {| enum_name := None; enum_size := h_size_or_type h; named_value_list := l; enum_signed := h_kind_flag h |}. repeat (split; [reflexivity|]). exact Hl.
      - apply R with (n := 0); [reflexivity|congruence|]. intros L. apply NL; [reflexivity|]. eexists. exists None. split; [reflexivity|exact N0].
      - apply R with (n := 0); [reflexivity|congruence|]. intros L. apply NL; [reflexivity|]. eexists. exists None. split; [reflexivity|exact N0].
      - apply R with (n := 0); [reflexivity|congruence|]. intros L. apply xp_ret.
      - apply R with (n := 0); [reflexivity|congruence|]. intros L. apply xp_ret.
      - apply R with (n := 0); [reflexivity|congruence|]. intros L. apply xp_ret.
      - apply R with (n := 0); [reflexivity|congruence|]. intros L. apply NL; [reflexivity|]. eexists. exists None. split; [reflexivity|exact N0].
      - apply R with (n := h_vlen h * 8); [assumption|lia|]. intros L. unfold func_proto_data_new. apply xp_first; [|intros; exact I].
        apply xp_repeat with (sz := 8) (item := parameter_at f); [intros j Hj; apply ex_parameter; try assumption; lia|].
        intros l Hl Hit. eapply xp_weaken; [apply xp_parameter; lia|]. cbn beta. intros x (no & tid & H1 & H2 & Nz & Bad).
        apply (bad_parameter_name _ _ _ x (N.of_nat (length l)) l no tid); try assumption; [lia|split; [reflexivity|exact Hit]].
      - apply R with (n := 4); [reflexivity|congruence|]. intros L. unfold var_data_new. u32_step. intros w o1 [Hw ->]. apply xp_first; [|intros; exact I].
        apply NM; [reflexivity|]. eexists. exists {| var_name := None; var_tid := h_size_or_type h; linkage := w; var_linkage_type := if w =? 0 then LinkStatic else LinkGlobal |}.
        split; [reflexivity|]. split; [exact N0|]. split; [reflexivity|]. split; [exact Hw|reflexivity].
      - apply R with (n := h_vlen h * 12); [assumption|lia|]. intros L. unfold data_sec_data_new. eapply xp_bind.
        + apply ex_repeat with (sz := 12) (item := variable_at f). intros i Hi. apply ex_variable; try assumption. lia.
        + apply xp_repeat with (sz := 12) (item := variable_at f); [intros j Hj; apply ex_variable; try assumption; lia|]. intros l Hl Hit. apply xp_variable. lia.
        + intros l o1 [Hl _]. apply xp_first; [|intros; exact I]. rewrite N2Nat.id in Hl. apply NM; [reflexivity|].
          eexists. exists {| ds_name := None; ds_size := h_size_or_type h; variable_list := l |}. repeat (split; [reflexivity|]). exact Hl.
      - apply R with (n := 0); [reflexivity|congruence|]. intros L. unfold float_data_new. apply xp_first; [|intros; exact I]. apply NM; [reflexivity|]. eexists. exists None. split; [reflexivity|exact N0].
      - apply R with (n := 4); [reflexivity|congruence|]. intros L. unfold decl_tag_data_new. u32_step. intros w o1 [Hw ->]. apply xp_first; [|intros; exact I].
        apply NM; [reflexivity|]. eexists. exists {| dt_name := None; dt_tid := h_size_or_type h; component_index := w |}.
        split; [reflexivity|]. split; [exact N0|]. split; [reflexivity|]. exact Hw.
      - apply R with (n := 0); [reflexivity|congruence|]. intros L. apply NL; [reflexivity|]. eexists. exists None. split; [reflexivity|exact N0].
      - apply R with (n := h_vlen h * 12); [assumption|lia|]. intros L. unfold enum64_data_new. cbv zeta. eapply xp_bind.
        + apply ex_repeat with (sz := 12) (item := enumerator_at f 8 (h_kind_flag h)). intros i Hi. apply ex_value64; try assumption. lia.
        + apply xp_repeat with (sz := 12) (item := enumerator_at f 8 (h_kind_flag h)); [intros j Hj; apply ex_value64; try assumption; lia|].
          intros l Hl Hit. eapply xp_weaken; [apply xp_value64; lia|]. cbn beta. intros x (no & H1 & Bad).
          apply (bad_enumerator_name _ _ _ x 8%nat (N.of_nat (length l)) l no); [right; auto|lia|split; [reflexivity|exact Hit]|exact H1|exact Bad].
        + intros l o1 [Hl _]. apply xp_first; [|intros; exact I]. rewrite N2Nat.id in Hl. apply NM; [reflexivity|].
          eexists. exists {| enum_name := None; enum_size := h_size_or_type h; named_value_list := l; enum_signed := h_kind_flag h |}. repeat (split; [reflexivity|]). exact Hl.
    Qed.
    Lemma xp_record o : tlo < 2 ^ 32 -> tlo <= o -> o <= thi -> o + 12 < 2 ^ 64 -> explains o en (parse_record e fh) (bad_record f o).
    Proof.
      intros H32 Hlo Hhi Hb. unfold parse_record. eapply xp_bind; [apply ex_header with (img := img); assumption|apply xp_header; assumption|].
      intros h o1 (Hh & Hfit & Hb32 & ->). eapply xp_weaken; [apply xp_parse_type; try lia|].
      - destruct Hh as (_ & (info & _ & _ & -> & _) & _). apply N.mod_lt. discriminate.
      - intros x [[-> L]|[L Hd]]; [eapply data_does_not_fit; eassumption|eapply bad_data; eassumption].
    Qed.

    Lemma xp_loop n : forall (ts0 : list type_variant) st o,
      thi - o < N.of_nat n -> tlo <= o -> tlo < 2 ^ 32 -> thi < 2 ^ 33 -> records_at f tlo ts0 o ->
      tid_generator st = 1 + N.of_nat (length ts0) -> 12 * N.of_nat (length ts0) <= o - tlo ->
      explains o en (while_nat n (load_body e fh thi) st) (fun x => exists ts o', records_at f tlo ts o' /\ o' < thi /\ bad_record f o' x).
    Proof.
      induction n as [|n IH]; intros ts0 st o Hm Hlo H32 H33 Hpre Htid Hlen; [lia|]. cbn [while_nat].
      destruct (N.ltb_spec o thi) as [L|L].
      - eapply xp_bind with (S := fun x o' => exists t, record_at f o t o' /\
                  x = inl {| tid_generator := tid_generator st + 1; maps := add_type (maps st) (tid_generator st) t |}).
        + unfold load_body. apply ex_bind_off. destruct (N.ltb_spec o thi) as [_|]; [|lia].
          eapply ex_ext with (m' := t <- parse_record e fh ;;
              next <- lift (add_u32 (cfg e) (tid_generator st) 1) ;;
              ret (@inl load_state type_information {| tid_generator := next; maps := add_type (maps st) (tid_generator st) t |})).
          { intros r0. unfold parse_record, bind. destruct (header_new e fh r0) as [[h|k'|p|] r1]; reflexivity. }
          eapply ex_iff.
          * eapply ex_bind with (T := fun t o1 x o' => x = inl {| tid_generator := tid_generator st + 1; maps := add_type (maps st) (tid_generator st) t |} /\ o' = o1);
              [apply ex_record with (img := img); try assumption; lia|].
            intros t' o' _. eapply ex_bind_ok; [apply wrap_small; lia|]. apply ex_ret.
          * intros x o'. cbn beta. split.
            -- intros (t' & o2 & Hr & -> & ->). eauto.
            -- intros (t' & Hr & ->). eauto 6.
        + unfold load_body. apply xp_off. destruct (N.ltb_spec o thi) as [_|]; [|lia].
          eapply xp_ext with (m' := t <- parse_record e fh ;;
              next <- lift (add_u32 (cfg e) (tid_generator st) 1) ;;
              ret (@inl load_state type_information {| tid_generator := next; maps := add_type (maps st) (tid_generator st) t |})).
          { intros r0. unfold parse_record, bind. destruct (header_new e fh r0) as [[h|k'|p|] r1]; reflexivity. }
          apply xp_first.
          * eapply xp_weaken; [apply xp_record; lia|]. intros x Bad. exists ts0, o. auto.
          * intros t r. unfold bind, lift, add_u32. rewrite (wrap_small (cfg e) 32 (tid_generator st + 1)) by lia. exact I.
        + intros x o' (t & Hrec & ->). cbn iota. pose proof (record_stop e img H64 fh en _ _ _ Hrec) as Hst.
          apply IH with (ts0 := ts0 ++ [t]); cbn [tid_generator]; rewrite ?app_length; cbn [length]; try lia.
          eapply records_app; eassumption.
      - intros r x r' [Po Pe] E. exfalso. unfold load_body in E. unfold bind at 1 in E. unfold bind at 1 in E. unfold get_offset in E. cbn beta iota in E. rewrite Po in E.
        destruct (N.ltb_spec o thi); [lia|]. discriminate.
    Qed.
  End File.

  Lemma explained x : type_information_new e = Err x -> unread x (snd (load e reader_new)) \/ broken img x.
  Proof.
    unfold type_information_new. destruct (load e reader_new) as [out r'] eqn:E. cbn [fst snd]. intros ->.
    unfold load in E. unfold bind at 1 in E. destruct (file_header_new e reader_new) as [[fh|k|p|] r1] eqn:Eh; try discriminate.
    - destruct (header_sound e img H64 Hs fh r1 Eh) as (en & P & Hf).
      assert (X : explains 24 en (tss <- lift (ok_or InvalidTypeSectionOffset (checked 32 (hdr_len fh + type_off fh))) ;;
        tse <- lift (ok_or InvalidTypeSectionOffset (checked (usize_bits (cfg e)) (tss + type_len fh))) ;;
        set_offset tss ;;; load_types e fh tse) (broken img)); [|exact (X r1 x r' P E)].
      assert (TL : type_len fh < 2 ^ 32) by (destruct Hf as (_ & _ & _ & Hc & _); eapply u32_at_lt; exact Hc).
      rewrite H64.
      apply xp_opt; [intros C; apply checked_None in C; eapply types_start_past_4G; eassumption|]. intros a C1. apply checked_Some in C1. destruct C1 as [<- C1].
      apply xp_opt; [intros C; apply checked_None in C; lia|]. intros a C2. apply checked_Some in C2. destruct C2 as [<- C2].
      apply xp_set. unfold load_types. eapply xp_ext; [intros r0; apply while_M_nat|].
      eapply xp_weaken; [apply (xp_loop fh en (N.to_nat (type_len fh + 1)) [] load_init); cbn [length load_init tid_generator]; try lia; constructor|].
      cbn beta. intros k (ts & o & H1 & H2 & H3). eapply wrong_record; eassumption.
    - injection E as -> ->. unfold file_header_new in Eh. unfold bind at 1, set_offset at 1 in Eh. unfold bind at 1 in Eh.
      unfold detect_endianness in Eh. unfold bind at 1 in Eh.
      destruct (read_u16 e (with_offset 0 reader_new)) as [[m|k|p|] r2] eqn:Em; try discriminate.
      + destruct (ex_word e img H64 Hs 0 Little 2 ltac:(lia) ltac:(lia) (with_offset 0 reader_new) ltac:(split; reflexivity)) as [Hm _].
        destruct (Hm m r2 Em) as [He [(bs & Hl & Hb & Hv) Ho]]. cbn [value] in Hv. rewrite little_value_eq in Hv.
        destruct (magic_word e H64 bs Hl) as [ML MB].
        assert (Q : forall en r, placed 2 en r -> (v <- read_u8 e ;;
          f <- read_u8 e ;; hl <- read_u32 e ;; toff <- read_u32 e ;; tlen <- read_u32 e ;; soff <- read_u32 e ;; slen <- read_u32 e ;;
          ret {| version := bval v; flags := bval f; hdr_len := hl; type_off := toff; type_len := tlen; str_off := soff; str_len := slen |}) r = (Err x, r') -> unread x r').
        { intros en r P Er. assert (X : explains 2 en (v <- read_u8 e ;;
            f <- read_u8 e ;; hl <- read_u32 e ;; toff <- read_u32 e ;; tlen <- read_u32 e ;; soff <- read_u32 e ;; slen <- read_u32 e ;;
            ret {| version := bval v; flags := bval f; hdr_len := hl; type_off := toff; type_len := tlen; str_off := soff; str_len := slen |}) (fun _ => False)).
          { do 2 (eapply xp_bind; [apply ex_u8 with (img := img); try assumption; lia|apply xp_u8|intros ? ? [_ ->]]).
            do 4 (eapply xp_bind; [apply ex_u32 with (img := img); try assumption; lia|apply xp_uint|intros ? ? [_ ->]]).
            apply xp_first; [apply xp_uint|intros; exact I]. }
          destruct (X r x r' P Er) as [U|[]]. exact U. }
        destruct (N.eqb_spec m BTF_LITTLE_ENDIAN_MAGIC) as [C|C].
        * left. refine (Q Little _ _ Eh). split; [exact Ho|reflexivity].
        * destruct (N.eqb_spec m BTF_BIG_ENDIAN_MAGIC) as [C'|C'].
          -- left. refine (Q Big _ _ Eh). split; [exact Ho|reflexivity].
          -- injection Eh as <- <-. right. destruct bs as [|a [|b [|? ?]]]; try discriminate. apply (wrong_magic img a b Hb).
             ++ intros Eb. apply C. rewrite <- Hv. apply ML. exact Eb.
             ++ intros Eb. apply C'. rewrite <- Hv. apply MB. exact Eb.
      + injection Eh as -> ->. left. destruct (xp_uint Little (fun _ => False) 0 2 (with_offset 0 reader_new) x r' ltac:(split; reflexivity) Em) as [U|[]]. exact U.
  Qed.
  Lemma broken_fails x : broken img x -> type_information_new e = Err x.
  Proof.
    intros [a b Hb N1 N2|en hf Hf Hbig|en hf ts o k f Hf Hlo Hr Hin Bad].
    - pose proof (Hs [] 0 2 ltac:(lia) ltac:(lia)) as [A B0]. destruct Hb as (pre & post & Ei & Ep).
      assert (pre = []) by (destruct pre; [reflexivity|discriminate]). subst pre.
      destruct A as (bs & Er & (pre & post' & Ei' & Ep') & El); [rewrite Ei; cbn; lia|].
      assert (pre = []) by (destruct pre; [reflexivity|discriminate]). subst pre. destruct bs as [|a' [|b' [|? ?]]]; cbn in El; try lia.
      rewrite Ei in Ei'. cbn in Ei'. injection Ei' as <- <- _. apply bad_magic with (b1 := a) (b2 := b); try assumption. rewrite H64. lia.
    - eapply err_section_start; eassumption.
    - destruct Bad as [Hbig|H32 Hbig|name info H32 Hfit Hn Hi Hk|h H32 Hfit Hh Hbig|h k H32 Hh Hfit Hd].
      + apply (err_section_end e img H64 Hs en hf Hf Hlo); [|exact Hbig].
        assert (types_lo f <= o).
        { clear -Hr. induction Hr as [|a0 t n l b0 Hin' Hrec Hrest IH]; [lia|]. destruct Hrec as (h & _ & _ & -> & _). lia. }
        unfold f in *. cbn [layout_of types_lo types_hi] in *. lia.
      + eapply (err_header_fits e img H64 Hs en hf ts o); eassumption.
      + eapply (err_kind e img H64 Hs en hf ts o); eassumption.
      + eapply (err_extra_fits e img H64 Hs en hf ts o); eassumption.
      + eapply (errs_defect e img H64 Hs en hf ts o); try eassumption. unfold f in *. lia.
  Qed.
End Image.

Lemma load_explained e img x : usize_bits (cfg e) = 64 -> serves (rd e) img -> type_information_new e = Err x ->
  broken img x \/ exists off n asked, requests e = (off, n, Fails x) :: asked /\ N.of_nat (length img) < off + n.
Proof.
  intros H64 Hs E. destruct (explained e img H64 Hs x E) as [(off & n & tr & U)|Hb]; [|auto]. right. exists off, n, tr. split; [exact U|].
  destruct (request_range e img [] off n _ tr H64 Hs U) as [Hn Hb]. pose proof (requests_honest e [] off n _ tr U) as Hh.
  destruct (N.lt_ge_cases (N.of_nat (length img)) (off + n)) as [L|L]; [exact L|]. exfalso.
  destruct (Hs tr off n Hn Hb) as [A _]. destruct (A L) as (bs & Eb & _). congruence.
Qed.
(** A broken image fails the same way however it is read: no request goes past its end. *)
Lemma broken_answered e img x : usize_bits (cfg e) = 64 -> serves (rd e) img -> broken img x ->
  forall off n a, In (off, n, a) (requests e) -> exists bs, a = Bytes bs.
Proof.
  intros H64 Hs Hb off n a Hi. destruct a as [bs|k]; [eauto|]. exfalso.
  apply in_split in Hi. destruct Hi as (l1 & l2 & Er). destruct (load_failures e H64 l1 off n k l2 Er) as [-> Ek].
  (* the same image, with other errors *)
  set (k' := match k with IOError => InvalidMagic | _ => IOError end).
  set (e' := {| cfg := cfg e; rd := fun tr o m => if o + m <=? N.of_nat (length img) then Bytes (slice img o m) else Fails k' |}).
  assert (Hs' : serves (rd e') img).
  { intros tr o m Hm Hlt. cbn [rd e']. split; intros L; destruct (N.leb_spec (o + m) (N.of_nat (length img))); try lia; [|eauto].
    pose proof (served (rd e) img tr o m Hs Hm Hlt) as A. destruct (Hs tr o m Hm Hlt) as [A' _]. destruct (A' L) as (bs & Eb & R).
    destruct (N.leb_spec (o + m) (N.of_nat (length img))); [|lia]. exists bs. split; [congruence|exact R]. }
  destruct (same_image e e' img H64 H64 Hs Hs') as [[_ Eq]|(o & m & k1 & k2 & asked & L & E1 & R1 & E2 & R2)].
  - assert (Er' : requests e' = [] ++ (off, n, Fails k) :: l2) by (rewrite Eq; exact Er). pose proof (requests_honest e' [] _ _ _ _ Er') as Hh. cbn [rd e'] in Hh.
    destruct (off + n <=? _); [discriminate|]. injection Hh as Hk. unfold k' in Hk. destruct k; discriminate.
  - pose proof (broken_fails e img H64 Hs x Hb) as B1. pose proof (broken_fails e' img H64 Hs' x Hb) as B2.
    pose proof (requests_honest e' [] _ _ _ _ E2) as Hh. cbn [rd e'] in Hh. destruct (o + m <=? _); [discriminate|]. injection Hh as Hk.
    cbn [app] in Er. rewrite Er in E1. injection E1 as <- <- <- <-. unfold k' in Hk. assert (k = k2) by congruence. subst k2. destruct k; discriminate.
Qed.
