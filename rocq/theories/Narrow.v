(** * Narrow: when a 32-bit build with overflow checks panics (C02). *)
From Coq Require Import Strings.Byte.
From Coq Require Import List NArith ZArith Bool Lia ZifyBool ZifyNat ZifyN.
From Verif Require Import TypeInfo Spec BaseFacts Bits Maps Safety Exact Errors LoadProps LoadProps2 Transport Final BrokenSpec Explain Local NarrowSpec.
Import ListNotations.
Open Scope N_scope.

Section Twin.
  Context (shi : N) (en : endianness).
  (** the 64-bit run ends with a string that goes on to the last byte below 4 GiB *)
  Definition endless {A} (x : outcome error_kind A * reader) : Prop :=
    shi = 2 ^ 32 - 1 /\ fst x = Err InvalidString /\ ~ unread InvalidString (snd x).
  Definition panics {A} (x : outcome error_kind A * reader) : Prop := exists p, fst x = Panic p.
  (** the first does what the second does, unless it panics, and that exactly if [D] or the string is endless *)
  Definition twin {A} (o : N) (m32 m64 : M A) (D : Prop) : Prop := forall r, placed o en r ->
    (m32 r = m64 r /\ ~ D /\ ~ endless (m64 r)) \/ (panics (m32 r) /\ (D \/ endless (m64 r))).

  Lemma tw_iff {A} o (m32 m64 : M A) (D D' : Prop) : twin o m32 m64 D -> (D <-> D') -> twin o m32 m64 D'.
  Proof. intros H E r P. destruct (H r P) as [(H1 & H2 & H3)|(H1 & H2)]; [left|right]; tauto. Qed.
  Lemma tw_ext {A} o (m32 m32' m64 m64' : M A) D : (forall r, m32 r = m32' r) -> (forall r, m64 r = m64' r) -> twin o m32' m64' D -> twin o m32 m64 D.
  Proof. intros E1 E2 H r P. rewrite E1, E2. exact (H r P). Qed.
  (** the same in both builds, and not a bad string *)
  Lemma tw_same {A} o (m : M A) : (forall r, placed o en r -> fst (m r) <> Err InvalidString) -> twin o m m False.
  Proof. intros H r P. left. split; [reflexivity|]. split; [tauto|]. intros (_ & E & _). exact (H r P E). Qed.
  Lemma tw_ret {A} o (a : A) : twin o (ret a) (ret a) False.
  Proof. apply tw_same. discriminate. Qed.
  Lemma tw_fail {A} o k : k <> InvalidString -> twin o (@fail A k) (@fail A k) False.
  Proof. intros H. apply tw_same. intros r _ E. injection E as E. auto. Qed.
  Lemma tw_bind {A B} o (m32 m64 : M A) (k32 k64 : A -> M B) S (D : Prop) (Dk : A -> N -> Prop) :
    exactly o en m64 S -> twin o m32 m64 D -> (forall a o', S a o' -> twin o' (k32 a) (k64 a) (Dk a o')) ->
    twin o (bind m32 k32) (bind m64 k64) (D \/ exists a o', S a o' /\ Dk a o').
  Proof.
    intros X H K r P. destruct (X r P) as [X1 X2]. unfold bind. destruct (H r P) as [(E & ND & NE)|([p E] & DE)].
    - rewrite E. destruct (m64 r) as [[a|k|p|] r1] eqn:Em.
      + destruct (X1 a r1 eq_refl) as [He Hs]. destruct (K a _ Hs r1 (conj eq_refl He)) as [(E1 & ND1 & NE1)|(P1 & DE1)].
        * left. split; [exact E1|]. split; [|exact NE1]. intros [HD|(a' & o' & Hs' & HD)]; [tauto|].
          destruct (X2 a' o' Hs') as (r' & Er & Po & _). injection Er as <- <-. subst o'. tauto.
        * right. split; [exact P1|]. destruct DE1 as [HD|HE]; [left; right; eauto|right; exact HE].
      + left. split; [reflexivity|]. split.
        * intros [HD|(a' & o' & Hs' & _)]; [tauto|]. destruct (X2 a' o' Hs') as (r' & Er & _). discriminate.
        * intros (Z & E' & U). apply NE. split; [exact Z|]. split; [cbn [fst] in *; congruence|exact U].
      + left. split; [reflexivity|]. split; [|intros (_ & Q & _); discriminate].
        intros [HD|(a' & o' & Hs' & _)]; [tauto|]. destruct (X2 a' o' Hs') as (r' & Er & _). discriminate.
      + left. split; [reflexivity|]. split; [|intros (_ & Q & _); discriminate].
        intros [HD|(a' & o' & Hs' & _)]; [tauto|]. destruct (X2 a' o' Hs') as (r' & Er & _). discriminate.
    - right. destruct (m32 r) as [[a|k|q|] r1]; try discriminate. split; [exists q; reflexivity|]. destruct DE as [HD|(Z & E' & U)]; [left; left; exact HD|].
      right. destruct (m64 r) as [[a|k|q'|] r2]; try discriminate. split; [exact Z|]. split; [cbn [fst] in *; congruence|exact U].
  Qed.
  (** nothing can happen in either part *)
  Lemma tw_seq {A B} o (m32 m64 : M A) (k32 k64 : A -> M B) S :
    exactly o en m64 S -> twin o m32 m64 False -> (forall a o', S a o' -> twin o' (k32 a) (k64 a) False) -> twin o (bind m32 k32) (bind m64 k64) False.
  Proof. intros X H K. eapply tw_iff; [eapply tw_bind with (Dk := fun _ _ => False); eassumption|]. split; [intros [[]|(a & o' & _ & [])]|intros []]. Qed.
  (** only the first part *)
  Lemma tw_first {A B} o (m32 m64 : M A) (k32 k64 : A -> B) D :
    twin o m32 m64 D -> (forall a, k32 a = k64 a) -> twin o (bind m32 (fun a => ret (k32 a))) (bind m64 (fun a => ret (k64 a))) D.
  Proof.
    intros H K r P. unfold bind. destruct (H r P) as [(E & ND & NE)|([p E] & DE)].
    - rewrite E. left. destruct (m64 r) as [[a|k|p|] r1]; (split; [try reflexivity; rewrite K; reflexivity|]); (split; [exact ND|]); intros (Z & E' & U); try discriminate.
      apply NE. split; [exact Z|]. split; [cbn [fst] in *; congruence|exact U].
    - right. destruct (m32 r) as [[a|k|q|] r1]; try discriminate. split; [exists q; reflexivity|]. destruct DE as [HD|(Z & E' & U)]; [left; exact HD|].
      right. destruct (m64 r) as [[a|k|q'|] r2]; try discriminate. split; [exact Z|]. split; [cbn [fst] in *; congruence|exact U].
  Qed.
  (** then something that always works *)
  Lemma tw_then {A B} o (m32 m64 : M A) (k : A -> M B) D :
    twin o m32 m64 D -> (forall a r, match fst (k a r) with Ok _ => True | _ => False end) -> twin o (bind m32 k) (bind m64 k) D.
  Proof.
    intros H K r P. unfold bind. destruct (H r P) as [(E & ND & NE)|([p E] & DE)].
    - rewrite E. left. destruct (m64 r) as [[a|k'|p|] r1]; (split; [reflexivity|]); (split; [exact ND|]); intros (Z & E' & U); try discriminate.
      + specialize (K a r1). rewrite E' in K. exact K.
      + apply NE. split; [exact Z|]. split; [cbn [fst] in *; congruence|exact U].
    - right. destruct (m32 r) as [[a|k'|q|] r1]; try discriminate. split; [exists q; reflexivity|]. destruct DE as [HD|(Z & E' & U)]; [left; exact HD|].
      right. destruct (m64 r) as [[a|k'|q'|] r2]; try discriminate. split; [exact Z|]. split; [cbn [fst] in *; congruence|exact U].
  Qed.
  Lemma tw_ok {A B} o (y32 y64 : outcome error_kind A) a (k32 k64 : A -> M B) D : y32 = Ok a -> y64 = Ok a -> twin o (k32 a) (k64 a) D ->
    twin o (bind (lift y32) k32) (bind (lift y64) k64) D.
  Proof. intros -> -> H. exact H. Qed.
  Lemma tw_opt {A B} o k0 (y : option A) (k32 k64 : A -> M B) : k0 <> InvalidString -> (forall a, y = Some a -> twin o (k32 a) (k64 a) False) ->
    twin o (bind (lift (ok_or k0 y)) k32) (bind (lift (ok_or k0 y)) k64) False.
  Proof. intros N0 H. destruct y as [a|]; [exact (H a eq_refl)|]. exact (tw_fail o k0 N0). Qed.
  Lemma tw_off {B} o (k32 k64 : N -> M B) D : twin o (k32 o) (k64 o) D -> twin o (bind get_offset k32) (bind get_offset k64) D.
  Proof. intros H r P. pose proof (H r P) as G. destruct P as [Po _]. unfold bind, get_offset. rewrite Po. exact G. Qed.
  Lemma tw_set {B} o p (k32 k64 : unit -> M B) D : twin p (k32 tt) (k64 tt) D -> twin o (bind (set_offset p) k32) (bind (set_offset p) k64) D.
  Proof. intros H r [Po Pe]. apply (H (with_offset p r)). split; [reflexivity|exact Pe]. Qed.
  Lemma tw_repeat {A} (m32 m64 : M A) sz (item : N -> A -> Prop) : forall n q,
    (forall j, (j < n)%nat -> exactly (q + sz * N.of_nat j) en m64 (fun a o' => item (q + sz * N.of_nat j) a /\ o' = q + sz * N.of_nat j + sz)) ->
    (forall j, (j < n)%nat -> twin (q + sz * N.of_nat j) m32 m64 False) ->
    twin q (repeat_M n m32) (repeat_M n m64) False.
  Proof.
    induction n as [|n IH]; intros q Hex Ht; cbn [repeat_M]; [apply tw_ret|]. eapply tw_seq.
    - specialize (Hex 0%nat ltac:(lia)). replace (q + sz * N.of_nat 0) with q in Hex by lia. exact Hex.
    - specialize (Ht 0%nat ltac:(lia)). replace (q + sz * N.of_nat 0) with q in Ht by lia. exact Ht.
    - intros a o' [_ ->]. apply (tw_first _ _ _ (fun l => a :: l) (fun l => a :: l)); [|reflexivity]. apply IH; intros j Hj.
      + specialize (Hex (S j) ltac:(lia)). replace (q + sz * N.of_nat (S j)) with (q + sz + sz * N.of_nat j) in Hex by lia. exact Hex.
      + specialize (Ht (S j) ltac:(lia)). replace (q + sz * N.of_nat (S j)) with (q + sz + sz * N.of_nat j) in Ht by lia. exact Ht.
  Qed.
End Twin.

Section Image.
  Context (e32 e64 : env) (img : list byte).
  Hypothesis Hn : cfg e32 = build32 true.
  Hypothesis H64 : usize_bits (cfg e64) = 64.
  Hypothesis Hrd : rd e32 = rd e64.
  Hypothesis Hs : serves (rd e64) img.
  Notation L := (N.of_nat (length img)).

  Lemma sum64 x y : x + y < 2 ^ 64 -> @add_usize error_kind (cfg e64) x y = Ok (x + y).
  Proof. intros H. unfold add_usize. rewrite H64. apply wrap_small. exact H. Qed.
  Lemma sum32 x y : x + y < 2 ^ 32 -> @add_usize error_kind (cfg e32) x y = Ok (x + y).
  Proof. intros H. unfold add_usize. rewrite Hn. apply wrap_small. exact H. Qed.
  Lemma sum32_over x y : 2 ^ 32 <= x + y -> @add_usize error_kind (cfg e32) x y = Panic ArithmeticOverflow.
  Proof. intros H. unfold add_usize, wrap_or_panic. rewrite Hn. cbn [build32 usize_bits overflow_checks]. unfold two_pow. destruct (N.ltb_spec (x + y) (2 ^ 32)); [lia|reflexivity]. Qed.

  Section File.
    Context (fh : file_header) (en : endianness).
    Notation f := (layout_of img en (fields fh)).
    Notation tlo := (hdr_len fh + type_off fh).
    Notation thi := (hdr_len fh + type_off fh + type_len fh).
    Notation slo := (hdr_len fh + str_off fh).
    Notation shi := (hdr_len fh + str_off fh + str_len fh).
    Notation tw := (twin shi en).

    Lemma not_endless_read {A} k r off n tr : r_trace r = (off, n, Fails k) :: tr -> ~ endless shi (@Err error_kind A k, r).
    Proof. intros E (_ & X & U). cbn [fst snd] in *. injection X as ->. apply U. exists off, n, tr. exact E. Qed.

    Lemma tw_read o n : 0 < n -> o + n < 2 ^ 64 -> tw o (read e32 n) (read e64 n) (2 ^ 32 <= o + n /\ o + n <= L).
    Proof.
      intros Hp Hb r [Po Pe]. unfold read. rewrite Hrd, Po. destruct (Hs (r_trace r) o n Hp Hb) as [S1 S2].
      destruct (N.le_gt_cases (o + n) L) as [I|I].
      - destruct (S1 I) as (bs & E & _). rewrite E. rewrite (sum64 o n Hb). destruct (N.ltb_spec (o + n) (2 ^ 32)) as [B|B].
        + rewrite (sum32 o n B). left. split; [reflexivity|]. split; [lia|]. intros (_ & X & _). discriminate.
        + rewrite (sum32_over o n B). right. split; [eexists; reflexivity|]. left. lia.
      - destruct (S2 I) as [k E]. rewrite E. left. split; [reflexivity|]. split; [lia|]. eapply not_endless_read. reflexivity.
    Qed.
    Lemma tw_uint o n : 0 < n -> o + n < 2 ^ 64 -> tw o (read_uint e32 n) (read_uint e64 n) (2 ^ 32 <= o + n /\ o + n <= L).
    Proof.
      intros Hp Hb r P. unfold read_uint, bind. destruct (tw_read o n Hp Hb r P) as [(E & ND & NE)|([p E] & DE)].
      - rewrite E. left. destruct (read e64 n r) as [[a|k|p|] r1]; (split; [reflexivity|]); (split; [exact ND|]); intros (Z & E' & U); try discriminate.
        apply NE. split; [exact Z|]. split; [cbn [fst] in *; congruence|exact U].
      - right. destruct (read e32 n r) as [[a|k|q|] r1]; try discriminate. split; [exists q; reflexivity|]. destruct DE as [HD|(Z & E' & U)]; [left; exact HD|].
        right. destruct (read e64 n r) as [[a|k|q'|] r2]; try discriminate. split; [exact Z|]. split; [cbn [fst] in *; congruence|exact U].
    Qed.
    Lemma tw_low o n : 0 < n -> o + n < 2 ^ 32 -> tw o (read_uint e32 n) (read_uint e64 n) False.
    Proof. intros Hp Hb. eapply tw_iff; [apply tw_uint; lia|]. lia. Qed.

    Definition fresh (r : reader) : Prop := forall x, ~ unread x r.
    Definition string_body (e : env) (back : N) (s : str) : M (str + str) :=
      o <- get_offset ;;
      o1 <- lift (add_usize (cfg e) o 1) ;;
      if shi <? o1 then fail InvalidString else
      c <- inspect_err (read_u8 e) (with_offset back) ;;
      if bval c =? 0 then ret (inr s) else ret (inl (push_char s c)).
    Lemma string_round back p s r : shi < 2 ^ 32 -> r_off r = p -> p <= shi -> p < shi \/ fresh r ->
      (string_body e32 back s r = string_body e64 back s r /\ ~ endless shi (string_body e64 back s r) /\
         forall x r', string_body e64 back s r = (Ok (inl x), r') -> r_off r' = p + 1 /\ p + 1 <= shi /\ fresh r') \/
      (panics (string_body e32 back s r) /\ endless shi (string_body e64 back s r)).
    Proof.
      intros H32 Po Hp Hf. unfold string_body, bind, get_offset. rewrite Po. unfold lift. rewrite (sum64 p 1) by lia.
      destruct (N.ltb_spec (p + 1) (2 ^ 32)) as [B|B].
      - rewrite (sum32 p 1) by exact B. left. destruct (N.ltb_spec shi (p + 1)) as [X|X].
        + split; [reflexivity|]. split; [intros (Z & _); lia|discriminate].
        + unfold inspect_err, read_u8, bind, read. rewrite Hrd, Po. destruct (rd e64 (r_trace r) p 1) as [bs|k].
          * rewrite (sum64 p 1), (sum32 p 1) by lia. pose proof (length_fit (N.to_nat 1) bs) as Lf. destruct (fit (N.to_nat 1) bs) as [|c l]; [discriminate Lf|].
            split; [reflexivity|]. cbn [ret]. destruct (bval c =? 0); (split; [intros (_ & Z & _); discriminate|]).
            -- discriminate.
            -- intros x r' E. injection E as _ <-. cbn [with_offset r_off]. split; [reflexivity|]. split; [exact X|].
               intros y (off & n & tr & U). discriminate U.
          * split; [reflexivity|]. split; [|discriminate]. eapply not_endless_read. reflexivity.
      - rewrite (sum32_over p 1) by exact B. right. split; [eexists; reflexivity|]. assert (Z : shi = 2 ^ 32 - 1) by lia.
        destruct (N.ltb_spec shi (p + 1)) as [X|X]; [|lia]. split; [exact Z|]. split; [reflexivity|]. destruct Hf as [Hf|Hf]; [lia|]. exact (Hf _).
    Qed.
    Lemma string_loop back : shi < 2 ^ 32 -> forall n p s r, r_off r = p -> p <= shi -> p < shi \/ fresh r ->
      let x32 := while_nat n (string_body e32 back) s r in let x64 := while_nat n (string_body e64 back) s r in
      (x32 = x64 /\ ~ endless shi x64) \/ (panics x32 /\ endless shi x64).
    Proof.
      intros H32. induction n as [|n IH]; intros p s r Po Hp Hf; cbv zeta; cbn [while_nat].
      - left. split; [reflexivity|]. intros (_ & X & _). discriminate.
      - destruct (string_round back p s r H32 Po Hp Hf) as [(E & NE & K)|([q E] & HE)].
        + unfold bind. rewrite E. destruct (string_body e64 back s r) as [[[x|x]|k|q|] r1] eqn:E64.
          * destruct (K x r1 eq_refl) as (P1 & P2 & P3). apply (IH (p + 1)); auto.
          * left. split; [reflexivity|]. intros (_ & X & _). discriminate.
          * left. split; [reflexivity|]. intros (Z & X & U). apply NE. split; [exact Z|]. split; [cbn [fst] in *; congruence|exact U].
          * left. split; [reflexivity|]. intros (_ & X & _). discriminate.
          * left. split; [reflexivity|]. intros (_ & X & _). discriminate.
        + right. unfold bind. destruct (string_body e32 back s r) as [[a|k|q'|] r1]; try discriminate. split; [exists q'; reflexivity|].
          destruct HE as (Z & X & U). destruct (string_body e64 back s r) as [[a|k|q''|] r2]; try discriminate. split; [exact Z|]. split; [cbn [fst] in *; congruence|exact U].
    Qed.
    Lemma tw_string o k : tw o (parse_string e32 fh k) (parse_string e64 fh k) False.
    Proof.
      unfold parse_string.
      apply tw_opt; [discriminate|]. intros a C1. apply checked_Some in C1. destruct C1 as [<- C1].
      apply tw_opt; [discriminate|]. intros a C2. apply checked_Some in C2. destruct C2 as [<- C2].
      apply tw_opt; [discriminate|]. intros a C3. apply checked_Some in C3. destruct C3 as [<- C3].
      destruct (N.leb_spec shi (slo + k)) as [Hge|Hlt]; [apply tw_fail; discriminate|].
      apply tw_off, tw_set. apply tw_then; [|intros s r; exact I].
      eapply tw_ext; [intros r0; apply while_M_nat|intros r0; apply while_M_nat|].
      intros r [Po Pe]. destruct (string_loop o C2 (N.to_nat (shi - (slo + k) + 1)) (slo + k) [] r Po ltac:(lia) ltac:(lia)) as [[E NE]|[E HE]].
      - left. split; [exact E|]. split; [tauto|exact NE].
      - right. split; [exact E|]. right. exact HE.
    Qed.
    Lemma tw_name o k : tw o (parse_name_opt e32 fh k) (parse_name_opt e64 fh k) False.
    Proof. unfold parse_name_opt. destruct (negb (k =? 0)); [|apply tw_ret]. apply tw_then; [apply tw_string|]. intros; exact I. Qed.

    Ltac word := eapply tw_seq; [apply ex_u32 with (img := img); try assumption; lia|apply tw_low; lia|].
    Lemma tw_member h o : o + 12 < 2 ^ 32 -> tw o (parse_member e32 fh h) (parse_member e64 fh h) False.
    Proof.
      intros Hb. unfold parse_member. word. intros no o1 [_ ->]. word. intros tid o1 [_ ->]. word. intros w o1 [_ ->].
      eapply tw_seq; [apply ex_name with (img := img); assumption|apply tw_name|]. intros name o1 [_ ->].
      apply tw_then; [|intros; exact I]. apply tw_same. intros r _ E. unfold lift, decode_member_offset in E.
      destruct (h_kind_flag h); [destruct (_ && _)|destruct (_ =? _)]; discriminate E.
    Qed.
    Lemma tw_value32 o sg : o + 8 < 2 ^ 32 -> tw o (parse_named_value32 e32 fh sg) (parse_named_value32 e64 fh sg) False.
    Proof.
      intros Hb. unfold parse_named_value32. word. intros no o1 [_ ->]. eapply tw_seq; [apply ex_string with (img := img); assumption|apply tw_string|]. intros name o1 [_ ->].
      destruct sg; (apply tw_then; [|intros; exact I]); [unfold read_i32; apply tw_then; [|intros; exact I]|]; apply tw_low; lia.
    Qed.
    Lemma tw_value64 o sg : o + 12 < 2 ^ 32 -> tw o (parse_named_value64 e32 fh sg) (parse_named_value64 e64 fh sg) False.
    Proof.
      intros Hb. unfold parse_named_value64. word. intros no o1 [_ ->]. eapply tw_seq; [apply ex_string with (img := img); assumption|apply tw_string|]. intros name o1 [_ ->].
      destruct sg; (apply tw_then; [|intros; exact I]); [unfold read_i64; apply tw_then; [|intros; exact I]|]; apply tw_low; lia.
    Qed.
    Lemma tw_parameter o : o + 8 < 2 ^ 32 -> tw o (parse_parameter e32 fh) (parse_parameter e64 fh) False.
    Proof. intros Hb. unfold parse_parameter. word. intros no o1 [_ ->]. word. intros tid o1 [_ ->]. apply tw_then; [apply tw_name|intros; exact I]. Qed.
    Lemma tw_variable o : o + 12 < 2 ^ 32 -> tw o (parse_variable e32) (parse_variable e64) False.
    Proof. intros Hb. unfold parse_variable. word. intros a o1 [_ ->]. word. intros b o1 [_ ->]. apply tw_then; [apply tw_low; lia|intros; exact I]. Qed.

    Lemma tw_define {A} K (size : build -> header -> outcome error_kind N) (dn : env -> file_header -> header -> M A) h o n (D : Prop) :
      size (cfg e32) h = Ok n -> size (cfg e64) h = Ok n -> h_kind h = K -> tlo <= o -> o <= thi -> thi < 2 ^ 32 -> n < 2 ^ 32 ->
      (o + n <= thi -> tw o (dn e32 fh h) (dn e64 fh h) D) ->
      tw o (define_type_new K size dn e32 fh h) (define_type_new K size dn e64 fh h) (2 ^ 32 <= o + n \/ o + n <= thi /\ D).
    Proof.
      intros S32 S64 HK Hlo Hhi Hb Hsz Hd. unfold define_type_new.
      replace (kind_eqb (h_kind h) K) with true by (rewrite HK; destruct K; reflexivity). cbn [negb].
      eapply tw_ok; [exact S32|exact S64|]. destruct (N.ltb_spec 0 n) as [Hp|Hz].
      - eapply tw_iff.
        + eapply tw_bind with (S := fun _ p => p = o /\ o + n <= thi) (D := 2 ^ 32 <= o + n) (Dk := fun _ _ => D).
          * eapply ex_bind_ok; [apply wrap_small; lia|]. eapply ex_bind_ok; [apply wrap_small; lia|]. apply ex_bind_off.
            destruct (N.ltb_spec o tlo); [lia|]. eapply ex_bind_ok; [apply sum64; lia|].
            destruct (N.ltb_spec thi (o + n)); [eapply ex_iff; [apply ex_fail|]; intros a p; split; [intros []|lia]|].
            eapply ex_iff; [apply ex_ret|]. intros [] p. intuition lia.
          * eapply tw_ok; [apply wrap_small; lia|apply wrap_small; lia|]. eapply tw_ok; [apply wrap_small; lia|apply wrap_small; lia|]. apply tw_off.
            destruct (N.ltb_spec o tlo); [lia|]. destruct (N.ltb_spec (o + n) (2 ^ 32)) as [B|B].
            -- eapply tw_ok; [apply sum32; exact B|apply sum64; lia|]. destruct (N.ltb_spec thi (o + n)); (eapply tw_iff; [first [apply tw_ret|apply tw_fail; discriminate]|]); lia.
            -- intros r P. right. unfold bind, lift. rewrite (sum32_over o n B). split; [eexists; reflexivity|left; exact B].
          * intros [] p [-> Lp]. exact (Hd Lp).
        + split; [intros [X|(a & p & [_ X] & HD)]; auto|]. intros [X|[X HD]]; [auto|]. right. exists tt, o. auto.
      - eapply tw_iff; [exact (Hd ltac:(lia))|]. split; [intros HD; right; split; [lia|exact HD]|]. intros [X|[_ HD]]; [lia|exact HD].
    Qed.
    Lemma tw_array h o : o + 12 < 2 ^ 64 -> tw o (array_data_new e32 fh h) (array_data_new e64 fh h) (exists stop, In stop [o + 4; o + 8; o + 12] /\ 2 ^ 32 <= stop /\ stop <= L).
    Proof.
      intros Hb. unfold array_data_new, read_u32. eapply tw_iff.
      - eapply tw_bind with (Dk := fun _ _ => 2 ^ 32 <= o + 4 + 4 /\ o + 4 + 4 <= L \/ exists (v : N) o', (u32_at img en (o + 4) v /\ o' = o + 8) /\ 2 ^ 32 <= o + 8 + 4 /\ o + 8 + 4 <= L);
          [apply (ex_u32 e64 img) ; try assumption; lia|apply tw_uint; lia|]. intros a o1 [_ ->].
        eapply tw_iff; [eapply tw_bind with (S := fun v o' => u32_at img en (o + 4) v /\ o' = o + 8) (Dk := fun _ _ => 2 ^ 32 <= o + 8 + 4 /\ o + 8 + 4 <= L)|].
        + eapply ex_iff; [apply (ex_u32 e64 img); try assumption; lia|]. intros v o'. cbn beta. intuition lia.
        + apply tw_uint; lia.
        + intros b o1 [_ ->]. apply tw_then; [apply tw_uint; lia|intros; exact I].
        + reflexivity.
      - assert (W : forall q, q + 4 <= L -> exists v, u32_at img en q v).
        { intros q Hq. destruct (bytes_at_slice img q 4 Hq) as [B1 B2]. eexists. exists (slice img q 4). split; [lia|]. split; [exact B1|reflexivity]. }
        split.
        + intros [[X Y]|(a & o' & _ & [[X Y]|(b & o2 & _ & X & Y)])]; [exists (o + 4)|exists (o + 8)|exists (o + 12)]; cbn [In]; (split; [lia|]); lia.
        + intros (stop & Hin & X & Y). destruct (N.le_gt_cases (2 ^ 32) (o + 4)) as [Z|Z].
          * left. split; [exact Z|]. cbn [In] in Hin. lia.
          * right. destruct (W o ltac:(cbn [In] in Hin; lia)) as [a Ha]. exists a, (o + 4). split; [auto|].
            destruct (N.le_gt_cases (2 ^ 32) (o + 8)) as [Z'|Z']; [left; cbn [In] in Hin; lia|]. right.
            destruct (W (o + 4) ltac:(cbn [In] in Hin; lia)) as [b Hb']. exists b, (o + 8). split; [auto|]. cbn [In] in Hin. lia.
    Qed.

    (** the data of the record with header [h] at [o] *)
    Definition far_data (h : header) (o : N) : Prop :=
      2 ^ 32 <= o + checked_size h \/ o + checked_size h <= thi /\ h_kind h = KArray /\ exists stop, In stop [o + 4; o + 8; o + 12] /\ 2 ^ 32 <= stop /\ stop <= L.
    Lemma tw_parse_type h o : h_vlen h < 2 ^ 16 -> tlo <= o -> o <= thi -> thi < 2 ^ 32 ->
      tw o (parse_type (h_kind h) e32 fh h) (parse_type (h_kind h) e64 fh h) (far_data h o).
    Proof.
      intros Hv Hlo Hhi Hb.
      assert (C12 : forall e, e = e32 \/ e = e64 -> mul_usize (cfg e) (h_vlen h) 12 = @Ok error_kind _ (h_vlen h * 12))
        by (intros e [->| ->]; unfold mul_usize; rewrite ?H64, ?Hn; apply wrap_small; cbn [build32 usize_bits]; lia).
      assert (C8 : forall e, e = e32 \/ e = e64 -> mul_usize (cfg e) (h_vlen h) 8 = @Ok error_kind _ (h_vlen h * 8))
        by (intros e [->| ->]; unfold mul_usize; rewrite ?H64, ?Hn; apply wrap_small; cbn [build32 usize_bits]; lia).
      assert (C12a := C12 _ (or_introl eq_refl)). assert (C12b := C12 _ (or_intror eq_refl)). assert (C8a := C8 _ (or_introl eq_refl)). assert (C8b := C8 _ (or_intror eq_refl)). clear C12 C8.
      enough (G : forall K, h_kind h = K -> tw o (parse_type K e32 fh h) (parse_type K e64 fh h) (far_data h o)) by (apply G; reflexivity).
      intros K HK.
      assert (CS : checked_size h = match K with KArray => 12 * h_vlen h | KInt | KVar | KDeclTag => 4 | KStruct | KUnion | KDataSec | KEnum64 => 12 * h_vlen h | KEnum | KFuncProto => 8 * h_vlen h | _ => 0 end)
        by (unfold checked_size, extra_size; rewrite HK; destruct K; reflexivity).
      assert (R : forall A size (dn : env -> file_header -> header -> M A) (mk : A -> type_variant) n, size (cfg e32) h = Ok n -> size (cfg e64) h = Ok n -> n = checked_size h -> K <> KArray ->
        (o + n <= thi -> tw o (dn e32 fh h) (dn e64 fh h) False) ->
        tw o (d <- define_type_new K size dn e32 fh h ;; ret (mk d)) (d <- define_type_new K size dn e64 fh h ;; ret (mk d)) (far_data h o)).
      { intros A size dn mk n S32 S64 En Na Hx. apply tw_then; [|intros; exact I]. eapply tw_iff; [eapply tw_define with (n := n); try eassumption|].
        - rewrite En, CS. destruct K; lia.
        - unfold far_data. rewrite <- En. split; [intros [X|[_ []]]; left; exact X|]. intros [X|(_ & X & _)]; [left; exact X|congruence]. }
      assert (ST : o + h_vlen h * 12 <= thi -> tw o (struct_data_new e32 fh h) (struct_data_new e64 fh h) False).
      { intros Lp. unfold struct_data_new. eapply tw_seq.
        - apply ex_repeat with (sz := 12) (item := member_at f (h_kind_flag h)). intros i Hi. apply ex_member; try assumption; try reflexivity. lia.
        - apply tw_repeat with (sz := 12) (item := member_at f (h_kind_flag h)); [intros j Hj; apply ex_member; try assumption; try reflexivity; lia|]. intros j Hj. apply tw_member. lia.
        - intros l o1 _. apply tw_then; [apply tw_name|intros; exact I]. }
      unfold parse_type. destruct K.
      - apply R with (n := 4); try reflexivity; try congruence. intros Lp. unfold int_data_new. word. intros w o1 [_ ->]. cbv zeta. apply tw_then; [apply tw_name|intros; exact I].
      - apply R with (n := 0); try reflexivity; try congruence. intros Lp. apply tw_ret.
      - apply tw_then; [|intros; exact I]. eapply tw_iff; [eapply tw_define with (n := h_vlen h * 12); try eassumption; [lia|intros Lp; apply tw_array; lia]|].
        unfold far_data. rewrite CS, (N.mul_comm 12). intuition.
      - apply R with (n := h_vlen h * 12); try assumption; try congruence; lia.
      - apply R with (n := h_vlen h * 12); try assumption; try congruence; lia.
      - apply R with (n := h_vlen h * 8); try assumption; try congruence; try lia. intros Lp. unfold enum_data_new. cbv zeta. eapply tw_seq.
        + apply ex_repeat with (sz := 8) (item := enumerator_at f 4 (h_kind_flag h)). intros i Hi. apply ex_value32; try assumption. lia.
        + apply tw_repeat with (sz := 8) (item := enumerator_at f 4 (h_kind_flag h)); [intros j Hj; apply ex_value32; try assumption; lia|]. intros j Hj. apply tw_value32. lia.
        + intros l o1 _. apply tw_then; [apply tw_name|intros; exact I].
      - apply R with (n := 0); try reflexivity; try congruence. intros Lp. apply tw_then; [apply tw_name|intros; exact I].
      - apply R with (n := 0); try reflexivity; try congruence. intros Lp. apply tw_then; [apply tw_name|intros; exact I].
      - apply R with (n := 0); try reflexivity; try congruence. intros Lp. apply tw_ret.
      - apply R with (n := 0); try reflexivity; try congruence. intros Lp. apply tw_ret.
      - apply R with (n := 0); try reflexivity; try congruence. intros Lp. apply tw_ret.
      - apply R with (n := 0); try reflexivity; try congruence. intros Lp. apply tw_then; [apply tw_name|intros; exact I].
      - apply R with (n := h_vlen h * 8); try assumption; try congruence; try lia. intros Lp. unfold func_proto_data_new. apply tw_then; [|intros; exact I].
        apply tw_repeat with (sz := 8) (item := parameter_at f); [intros j Hj; apply ex_parameter; try assumption; lia|]. intros j Hj. apply tw_parameter. lia.
      - apply R with (n := 4); try reflexivity; try congruence. intros Lp. unfold var_data_new. word. intros w o1 [_ ->]. apply tw_then; [apply tw_name|intros; exact I].
      - apply R with (n := h_vlen h * 12); try assumption; try congruence; try lia. intros Lp. unfold data_sec_data_new. eapply tw_seq.
        + apply ex_repeat with (sz := 12) (item := variable_at f). intros i Hi. apply ex_variable; try assumption. lia.
        + apply tw_repeat with (sz := 12) (item := variable_at f); [intros j Hj; apply ex_variable; try assumption; lia|]. intros j Hj. apply tw_variable. lia.
        + intros l o1 _. apply tw_then; [apply tw_name|intros; exact I].
      - apply R with (n := 0); try reflexivity; try congruence. intros Lp. apply tw_then; [apply tw_name|intros; exact I].
      - apply R with (n := 4); try reflexivity; try congruence. intros Lp. unfold decl_tag_data_new. word. intros w o1 [_ ->]. apply tw_then; [apply tw_name|intros; exact I].
      - apply R with (n := 0); try reflexivity; try congruence. intros Lp. apply tw_then; [apply tw_name|intros; exact I].
      - apply R with (n := h_vlen h * 12); try assumption; try congruence; try lia. intros Lp. unfold enum64_data_new. cbv zeta. eapply tw_seq.
        + apply ex_repeat with (sz := 12) (item := enumerator_at f 8 (h_kind_flag h)). intros i Hi. apply ex_value64; try assumption. lia.
        + apply tw_repeat with (sz := 12) (item := enumerator_at f 8 (h_kind_flag h)); [intros j Hj; apply ex_value64; try assumption; lia|]. intros j Hj. apply tw_value64. lia.
        + intros l o1 _. apply tw_then; [apply tw_name|intros; exact I].
    Qed.
    Lemma tw_header o : tlo < 2 ^ 32 -> thi < 2 ^ 32 -> o + 12 < 2 ^ 64 -> tw o (header_new e32 fh) (header_new e64 fh) (2 ^ 32 <= o + 12).
    Proof.
      intros Hlo Hhi Hb. unfold header_new.
      eapply tw_ok; [rewrite (proj2 (checked_Some 32 tlo tlo)) by auto; reflexivity|rewrite (proj2 (checked_Some 32 tlo tlo)) by auto; reflexivity|].
      eapply tw_ok; [rewrite (proj2 (checked_Some 32 thi thi)) by auto; reflexivity|rewrite (proj2 (checked_Some 32 thi thi)) by auto; reflexivity|].
      apply tw_off. unfold TYPE_HEADER_SIZE. destruct (N.ltb_spec (o + 12) (2 ^ 32)) as [B|B].
      - eapply tw_ok; [apply sum32; exact B|apply sum64; exact Hb|]. eapply tw_iff with (D := False); [|lia].
        destruct (N.ltb_spec thi (o + 12)) as [X|X]; [apply tw_fail; discriminate|]. word. intros no o1 [_ ->]. word. intros info o1 [_ ->].
        eapply tw_seq; [apply ex_lift|apply tw_same|].
        + intros r _ E. unfold lift in E. destruct (kind_new_err (N.shiftr (N.land info 0x1F000000) 24)) as [[k' Hk']|[Hk' _]]; rewrite Hk' in E; discriminate E.
        + intros k o1 [_ ->]. apply tw_then; [apply tw_low; lia|intros; exact I].
      - intros r P. right. unfold bind, lift. rewrite (sum32_over o 12 B). split; [eexists; reflexivity|left; exact B].
    Qed.
    (** a record at [o] *)
    Definition far_record (o : N) : Prop := 2 ^ 32 <= o + 12 \/ exists h, o + 12 <= thi /\ header_at f o h /\ far_data h (o + 12).
    Lemma tw_record o : tlo <= o -> o <= thi -> thi < 2 ^ 32 -> tw o (parse_record e32 fh) (parse_record e64 fh) (far_record o).
    Proof.
      intros Hlo Hhi Hb. unfold parse_record. eapply tw_iff.
      - eapply tw_bind with (Dk := fun h _ => far_data h (o + 12)); [apply ex_header with (img := img); try assumption; lia|apply tw_header; lia|].
        intros h o1 (Hh & Hfit & _ & ->). apply tw_parse_type; try lia. destruct Hh as (_ & (info & _ & _ & -> & _) & _). apply N.mod_lt. discriminate.
      - unfold far_record. split.
        + intros [X|(h & o' & (H1 & H2 & _ & ->) & X)]; [left; exact X|right; exists h; auto].
        + intros [X|(h & H1 & H2 & X)]; [left; exact X|right; exists h, (o + 12); auto].
    Qed.

    Lemma tw_loop n : forall (len : N) st o,
      thi - o < N.of_nat n -> tlo <= o -> thi < 2 ^ 32 -> tid_generator st = 1 + len -> 12 * len <= o - tlo ->
      tw o (while_nat n (load_body e32 fh thi) st) (while_nat n (load_body e64 fh thi) st) (exists ts o', records_at f o ts o' /\ o' < thi /\ far_record o').
    Proof.
      induction n as [|n IH]; intros len st o Hm Hlo H32 Htid Hlen; [lia|]. cbn [while_nat].
      destruct (N.ltb_spec o thi) as [Lo|Lo].
      - set (S := fun (x : load_state + type_information) o' => exists t, record_at f o t o' /\
                  x = inl {| tid_generator := tid_generator st + 1; maps := add_type (maps st) (tid_generator st) t |}).
        assert (X : exactly o en (load_body e64 fh thi st) S).
        { unfold load_body. apply ex_bind_off. destruct (N.ltb_spec o thi) as [_|]; [|lia].
          eapply ex_ext with (m' := t <- parse_record e64 fh ;;
              next <- lift (add_u32 (cfg e64) (tid_generator st) 1) ;;
              ret (@inl load_state type_information {| tid_generator := next; maps := add_type (maps st) (tid_generator st) t |})).
          { intros r0. unfold parse_record, bind. destruct (header_new e64 fh r0) as [[h|k'|p|] r1]; reflexivity. }
          eapply ex_iff.
          * eapply ex_bind with (T := fun t o1 x o' => x = inl {| tid_generator := tid_generator st + 1; maps := add_type (maps st) (tid_generator st) t |} /\ o' = o1);
              [apply ex_record with (img := img); try assumption; lia|].
            intros t' o' _. eapply ex_bind_ok; [apply wrap_small; lia|]. apply ex_ret.
          * intros x o'. unfold S. cbn beta. split.
            -- intros (t' & o2 & Hr & -> & ->). eauto.
            -- intros (t' & Hr & ->). eauto 6. }
        eapply tw_iff.
        + eapply tw_bind with (D := far_record o) (Dk := fun _ o' => exists ts o'', records_at f o' ts o'' /\ o'' < thi /\ far_record o''); [exact X| |].
          * unfold load_body. apply tw_off. destruct (N.ltb_spec o thi) as [_|]; [|lia].
            eapply tw_ext with (m32' := t <- parse_record e32 fh ;;
              next <- lift (add_u32 (cfg e32) (tid_generator st) 1) ;;
              ret (@inl load_state type_information {| tid_generator := next; maps := add_type (maps st) (tid_generator st) t |}))
              (m64' := t <- parse_record e64 fh ;;
              next <- lift (add_u32 (cfg e64) (tid_generator st) 1) ;;
              ret (@inl load_state type_information {| tid_generator := next; maps := add_type (maps st) (tid_generator st) t |})).
            { intros r0. unfold parse_record, bind. destruct (header_new e32 fh r0) as [[h|k'|p|] r1]; reflexivity. }
            { intros r0. unfold parse_record, bind. destruct (header_new e64 fh r0) as [[h|k'|p|] r1]; reflexivity. }
            eapply tw_iff; [eapply tw_bind with (Dk := fun _ _ => False); [apply ex_record with (img := img); try assumption; lia|apply tw_record; lia|]|].
            -- intros t o' _. eapply tw_ok; [apply wrap_small; lia|apply wrap_small; lia|]. apply tw_ret.
            -- split; [intros [HD|(a & o' & _ & [])]; exact HD|auto].
          * intros x o' (t & Hrec & ->). cbn iota. pose proof (record_stop e64 img H64 fh en _ _ _ Hrec) as Hst.
            apply IH with (len := len + 1); cbn [tid_generator]; lia.
        + split.
          * intros [HD|(x & o' & (t & Hrec & _) & ts & o'' & H1 & H2 & H3)]; [exists [], o; split; [constructor|auto]|].
            exists (t :: ts), o''. split; [|auto]. econstructor; eassumption.
          * intros (ts & o' & H1 & H2 & H3). inversion H1 as [off|off t next ts' stop Hin Hrec Hrest]; subst; [left; exact H3|].
            right. eexists. exists next. split; [exists t; split; [exact Hrec|reflexivity]|]. exists ts', o'. auto.
      - eapply tw_iff with (D := False).
        + intros r [Po Pe]. left. assert (Q : forall e, (x <- load_body e fh thi st ;; match x with inl s' => while_nat n (load_body e fh thi) s' | inr a => ret a end) r = (Ok (maps st), r)).
          { intros e. unfold load_body at 1, bind, get_offset. rewrite Po. destruct (N.ltb_spec o thi); [lia|reflexivity]. }
          rewrite !Q. split; [reflexivity|]. split; [tauto|]. intros (_ & X & _). discriminate.
        + split; [intros []|]. intros (ts & o' & H1 & H2 & _).
          assert (o <= o'); [|lia]. clear -H1. induction H1 as [|a0 t n l b0 Hin' Hrec Hrest IH]; [lia|]. destruct Hrec as (h & _ & _ & -> & _). lia.
    Qed.
  End File.

  Lemma narrow_iff : (exists p, type_information_new e32 = Panic p) <-> reaches_4G img.
  Proof.
    assert (HE : file_header_new e32 reader_new = file_header_new e64 reader_new).
    { symmetry. apply header_same; [rewrite Hn; reflexivity|rewrite Hn, H64; cbn; lia|exact Hrd|].
      destruct (triple_file_header_new e32 ltac:(rewrite Hn; cbn; lia) reader_new eq_refl) as (new & _ & [_ Ho] & _).
      destruct (fst (file_header_new e32 reader_new)); try exact I; destruct Ho. }
    destruct (file_header_new e64 reader_new) as [[fh|k|p|] r1] eqn:Eh.
    2-4: split; [intros [q X]; exfalso|intros (en & hf & ts & o & Hf & _); destruct (header_complete e64 img H64 Hs en hf Hf) as (fh & r' & X & _); congruence].
    2:{ unfold type_information_new, load, bind in X. rewrite HE in X. discriminate. }
    2:{ pose proof (load_total e64 H64) as T. unfold type_information_new, load, bind in T. rewrite Eh in T. cbn [fst] in T. destruct T as [[a T]|[a T]]; discriminate. }
    2:{ pose proof (load_total e64 H64) as T. unfold type_information_new, load, bind in T. rewrite Eh in T. cbn [fst] in T. destruct T as [[a T]|[a T]]; discriminate. }
    destruct (header_sound e64 img H64 Hs fh r1 Eh) as (en & P & Hf).
    set (tlo := hdr_len fh + type_off fh). set (thi := hdr_len fh + type_off fh + type_len fh).
    assert (U : forall en' hf', file_header_at img en' hf' -> en' = en /\ hf' = fields fh) by (intros en' hf' H; exact (header_unique _ _ _ _ _ H Hf)).
    destruct (N.ltb_spec thi (2 ^ 32)) as [B|B].
    2:{ split.
        - intros [q X]. exfalso. unfold type_information_new, load in X. rewrite (bind_eq _ _ _ _ _ HE) in X. rewrite Hn in X. cbn [build32 usize_bits] in X. fold tlo in X.
          unfold bind, lift in X. destruct (checked 32 tlo) as [a|] eqn:C1; [|discriminate]. cbn [ok_or] in X. apply checked_Some in C1. destruct C1 as [<- _].
          rewrite (proj2 (checked_None 32 (tlo + type_len fh)) B) in X. discriminate.
        - intros (en' & hf' & ts & o & H & _ & _ & X & _). exfalso. destruct (U en' hf' H) as [-> ->]. unfold fields, layout_of in X. cbn [types_hi hf_hdr_len hf_type_off hf_type_len] in X. unfold thi in B. lia. }
    assert (Blo : tlo < 2 ^ 32) by (unfold tlo, thi in *; lia).
    set (n := N.to_nat (type_len fh + 1)).
    set (r2 := with_offset tlo r1).
    assert (F : forall e, (usize_bits (cfg e) = 32 \/ usize_bits (cfg e) = 64) -> file_header_new e reader_new = (Ok fh, r1) -> load e reader_new = while_nat n (load_body e fh thi) load_init r2).
    { intros e Hw E. unfold load. rewrite (bind_eq _ _ _ _ _ E). rewrite (proj2 (checked_Some 32 (hdr_len fh + type_off fh) _)) by (split; [reflexivity|exact Blo]).
      unfold bind at 1, lift at 1. cbn [ok_or].
      rewrite (proj2 (checked_Some (usize_bits (cfg e)) (hdr_len fh + type_off fh + type_len fh) _)) by (split; [reflexivity|unfold thi in B; destruct Hw as [->| ->]; lia]).
      unfold bind at 1, lift at 1. cbn [ok_or]. unfold bind at 1, set_offset at 1. unfold load_types. rewrite while_M_nat. reflexivity. }
    pose proof (F e32 ltac:(rewrite Hn; auto) HE) as F32. pose proof (F e64 ltac:(auto) Eh) as F64.
    assert (T : twin (hdr_len fh + str_off fh + str_len fh) en tlo (while_nat n (load_body e32 fh thi) load_init) (while_nat n (load_body e64 fh thi) load_init)
       (exists ts o', records_at (layout_of img en (fields fh)) tlo ts o' /\ o' < thi /\ far_record fh en o')).
    { apply (tw_loop fh en n 0); unfold n, tlo, thi in *; cbn [load_init tid_generator]; try lia. }
    specialize (T r2 (conj eq_refl (proj2 P))). rewrite <- F32, <- F64 in T.
    assert (FAR : forall o, o < thi -> far_record fh en o -> past_4G (layout_of img en (fields fh)) o).
    { intros o Ho [X|(h & H1 & H2 & [X|(X & K & stop & Hi & Y1 & Y2)])]; [apply header_past; exact X|eapply data_past; eassumption|].
      eapply array_past with (stop := stop); try eassumption. cbn [In] in *. lia. }
    split.
    - intros [q X]. unfold type_information_new in X. destruct T as [(E & _ & _)|(_ & [(ts & o & H1 & H2 & H3)|(Z & E & NU)])].
      + exfalso. rewrite E in X. destruct (load_total e64 H64) as [[a T]|[a T]]; unfold type_information_new in T; rewrite T in X; discriminate.
      + exists en, (fields fh), ts, o. cbv zeta. split; [exact Hf|]. split; [exact H1|]. split; [exact H2|]. split; [exact B|]. apply FAR; assumption.
      + destruct (explained e64 img H64 Hs InvalidString E) as [NU'|Hb]; [contradiction|].
        inversion Hb as [| |en' hf' ts o x f Hf' Hlo' Hr Ho Bad]; subst. destruct (U en' hf' Hf') as [-> ->]. unfold f in *.
        exists en, (fields fh), ts, o. cbv zeta. split; [exact Hf|]. split; [exact Hr|]. split; [exact Ho|]. split; [exact B|].
        inversion Bad as [| | | |h x Bh Hh Hfit Hd]; subst. eapply string_past; eassumption.
    - intros (en' & hf' & ts & o & Hf' & Hr & Ho & _ & Hp). destruct (U en' hf' Hf') as [-> ->].
      destruct T as [(E & ND & NE)|(X & _)]; [|exact X]. exfalso.
      assert (FAR' : far_record fh en o -> False) by (intros X; apply ND; exists ts, o; auto).
      destruct Hp as [X|h X1 X2 X3|h stop X1 X2 X3 X4 X5 X6|h X1 X2 X3 X4].
      + apply FAR'. left. exact X.
      + apply FAR'. right. exists h. split; [exact X1|]. split; [exact X2|]. left. exact X3.
      + apply FAR'. right. exists h. split; [unfold thi in *; cbn [layout_of types_hi fields hf_hdr_len hf_type_off hf_type_len] in X1; lia|]. split; [exact X2|]. right. split; [exact X1|].
        split; [exact X3|]. exists stop. cbn [In] in *. split; [lia|]. split; [exact X5|exact X6].
      + assert (Hb : broken img InvalidString).
        { eapply wrong_record; [exact Hf|exact Blo|exact Hr|exact Ho|]. eapply bad_data; try eassumption. }
        apply NE. split; [exact X3|]. split; [exact (broken_fails e64 img H64 Hs InvalidString Hb)|]. intros (off & m & tr & Q).
        destruct (broken_answered e64 img InvalidString H64 Hs Hb off m (Fails InvalidString)) as [bs C]; [unfold requests; rewrite Q; left; reflexivity|discriminate].
  Qed.
End Image.
