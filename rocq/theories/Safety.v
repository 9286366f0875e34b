(** * Safety: on a 64-bit target [load] never panics, always ends, confines its
    requests, and reports the error of a failing request - for every Readable. *)
From Coq Require Import Lia ZifyBool ZifyNat ZifyN.
From Verif Require Import TypeInfo BaseFacts Spec Bits Maps.

Definition answered (q : request) : Prop := match snd q with Bytes _ => True | Fails _ => False end.
Definition q_off (q : request) : N := fst (fst q).
Definition q_len (q : request) : N := snd (fst q).

(** The requests [new] made by a run with outcome [o]: all in [R]; if the run
    succeeded none failed; if it failed, either none failed or just the last
    one did, with the same error. *)
Definition requests_ok {A} (R : N -> N -> Prop) (new : list request) (o : outcome error_kind A) : Prop :=
  Forall (fun q => R (q_off q) (q_len q)) new /\
  match o with
  | Ok _ => Forall answered new
  | Err k => Forall answered new \/
             exists q rest, new = q :: rest /\ snd q = Fails k /\ Forall answered rest
  | _ => False
  end.

Definition triple {A} (R : N -> N -> Prop) (P : reader -> Prop) (m : M A) (Q : A -> reader -> Prop) : Prop :=
  forall r, P r ->
    exists new, r_trace (snd (m r)) = new ++ r_trace r /\ requests_ok R new (fst (m r)) /\
      match fst (m r) with Ok a => Q a (snd (m r)) | _ => True end.

Definition at_ (o : N) (en : endianness) (r : reader) : Prop := r_off r = o /\ r_end r = en.

Section Rules.
  Context (R : N -> N -> Prop).

  Lemma triple_ret {A} (a : A) (P : reader -> Prop) (Q : A -> reader -> Prop) :
    (forall r, P r -> Q a r) -> triple R P (ret a) Q.
  Proof. intros H r Hr. exists []. cbn. repeat split; auto. Qed.

  Lemma triple_fail {A} k (P : reader -> Prop) (Q : A -> reader -> Prop) : triple R P (fail k) Q.
  Proof. intros r Hr. exists []. cbn. repeat split; auto. Qed.

  Lemma triple_lift_Ok {A} (a : A) (P : reader -> Prop) (Q : A -> reader -> Prop) :
    (forall r, P r -> Q a r) -> triple R P (lift (Ok a)) Q.
  Proof. intros H r Hr. exists []. cbn. repeat split; auto. Qed.
  Lemma triple_lift_Err {A} k (P : reader -> Prop) (Q : A -> reader -> Prop) : triple R P (lift (Err k)) Q.
  Proof. intros r Hr. exists []. cbn. repeat split; auto. Qed.
  Lemma triple_ok_or {A} k (x : option A) (P : reader -> Prop) (Q : A -> reader -> Prop) :
    (forall a r, x = Some a -> P r -> Q a r) -> triple R P (lift (ok_or k x)) Q.
  Proof.
    intros H. destruct x as [a|]; cbn [ok_or].
    - apply triple_lift_Ok. intros r. apply H. reflexivity.
    - apply triple_lift_Err.
  Qed.

  Lemma triple_bind {A B} (m : M A) (k : A -> M B) (P : reader -> Prop) (Q : A -> reader -> Prop) (Q' : B -> reader -> Prop) :
    triple R P m Q -> (forall a, triple R (Q a) (k a) Q') -> triple R P (bind m k) Q'.
  Proof.
    intros Hm Hk r Hr. destruct (Hm r Hr) as (new & Ht & Hok & Hq).
    unfold bind. destruct (m r) as [o r1]. cbn [fst snd] in *.
    destruct o as [a|e|p|]; [| |destruct Hok as [_ []]|destruct Hok as [_ []]].
    - destruct (Hk a r1 Hq) as (new2 & Ht2 & Hok2 & Hq2).
      destruct (k a r1) as [o2 r2]. cbn [fst snd] in *.
      exists (new2 ++ new). rewrite Ht2, Ht, app_assoc. split; [reflexivity|]. split; [|exact Hq2].
      destruct Hok as [HR HA]. destruct Hok2 as [HR2 HA2]. split.
      + apply Forall_app; auto.
      + destruct o2; try exact HA2.
        * apply Forall_app; auto.
        * destruct HA2 as [HA2|(q & rest & -> & Hf & HA2)].
          -- left. apply Forall_app; auto.
          -- right. exists q, (rest ++ new). repeat split; auto. apply Forall_app; auto.
    - exists new. repeat split; auto; apply Hok.
  Qed.

  Lemma triple_conseq {A} (P P' : reader -> Prop) (m : M A) (Q Q' : A -> reader -> Prop) :
    triple R P' m Q' -> (forall r, P r -> P' r) -> (forall a r, Q' a r -> Q a r) -> triple R P m Q.
  Proof.
    intros H HP HQ r Hr. destruct (H r (HP r Hr)) as (new & Ht & Hok & Hq).
    exists new. repeat split; auto; try apply Hok. destruct (fst (m r)); auto.
  Qed.

  Lemma triple_pre {A} (P P' : reader -> Prop) (m : M A) Q :
    triple R P' m Q -> (forall r, P r -> P' r) -> triple R P m Q.
  Proof. intros H HP. eapply triple_conseq; eauto. Qed.

  Lemma triple_pull {A} (P : reader -> Prop) (phi : Prop) (m : M A) Q :
    (phi -> triple R P m Q) -> triple R (fun r => phi /\ P r) m Q.
  Proof. intros H r [Hp Hr]. apply H; assumption. Qed.

  Lemma triple_get_offset o en (Q : N -> reader -> Prop) :
    (forall r, at_ o en r -> Q o r) -> triple R (at_ o en) get_offset Q.
  Proof.
    intros H r Hr. exists []. cbn. repeat split; auto.
    destruct Hr as [Ho He]. rewrite Ho. apply H. split; auto.
  Qed.
  Lemma triple_set_offset o en o' :
    triple R (at_ o en) (set_offset o') (fun _ => at_ o' en).
  Proof. intros r [Ho He]. exists []. cbn. repeat split; auto. Qed.
  Lemma triple_set_endianness o en en' :
    triple R (at_ o en) (set_endianness en') (fun _ => at_ o en').
  Proof. intros r [Ho He]. exists []. cbn. repeat split; auto. Qed.

  Lemma triple_inspect_err {A} (m : M A) h (P : reader -> Prop) Q :
    (forall r, r_trace (h r) = r_trace r) -> triple R P m Q -> triple R P (inspect_err m h) Q.
  Proof.
    intros Hh H r Hr. destruct (H r Hr) as (new & Ht & Hok & Hq).
    unfold inspect_err. exists new. destruct (m r) as [[a|k|p|] r1]; cbn [fst snd] in *; auto.
    rewrite Hh. auto.
  Qed.

  Lemma triple_results {A} (m : M A) (P : reader -> Prop) Q (X : A -> reader -> Prop) :
    triple R P m Q -> (forall r a r', P r -> m r = (Ok a, r') -> X a r') -> triple R P m (fun a r => Q a r /\ X a r).
  Proof.
    intros H HX r Hr. destruct (H r Hr) as (new & E & Hok & Hq). exists new. split; [exact E|]. split; [exact Hok|].
    specialize (HX r). destruct (m r) as [[a|k|p|] r']; cbn [fst snd] in *; auto.
  Qed.
  Lemma triple_pull2 {A} (m : M A) (P X : reader -> Prop) Q :
    (forall r1, P r1 -> X r1 -> triple R (fun r => r = r1) m Q) -> triple R (fun r => P r /\ X r) m Q.
  Proof. intros H r [HP HX]. exact (H r HP HX r eq_refl). Qed.

  Lemma triple_repeat {A} (n : nat) (sz o : N) en (m : M A) (phi : A -> Prop) :
    (forall i, (i < n)%nat ->
       triple R (at_ (o + sz * N.of_nat i) en) m (fun a r => phi a /\ at_ (o + sz * (N.of_nat i + 1)) en r)) ->
    triple R (at_ o en) (repeat_M n m)
      (fun l r => (length l = n /\ Forall phi l) /\ at_ (o + sz * N.of_nat n) en r).
  Proof.
    revert o. induction n as [|n IH]; intros o H; cbn [repeat_M].
    - apply triple_ret. intros r Hr. replace (o + sz * N.of_nat 0) with o by lia. auto.
    - eapply triple_bind.
      + eapply triple_pre; [apply (H O); lia|].
        intros r Hr. replace (o + sz * N.of_nat 0) with o by lia. exact Hr.
      + intros a. apply triple_pull. intros Ha. eapply triple_bind.
        * eapply triple_pre; [apply (IH (o + sz))|].
          -- intros i Hi. specialize (H (S i) ltac:(lia)).
             replace (o + sz + sz * N.of_nat i) with (o + sz * N.of_nat (S i)) by lia.
             replace (o + sz + sz * (N.of_nat i + 1)) with (o + sz * (N.of_nat (S i) + 1)) by lia.
             exact H.
          -- intros r Hr. replace (o + sz) with (o + sz * (N.of_nat 0 + 1)) by lia. exact Hr.
        * intros l. apply triple_pull. intros [Hl HF]. apply triple_ret. intros r Hr.
          replace (o + sz * N.of_nat (S n)) with (o + sz + sz * N.of_nat n) by lia.
          repeat split; auto; try apply Hr. cbn. congruence.
  Qed.

  (** a loop with a decreasing measure *)
  Lemma triple_while {S A} (bound : N) (body : S -> M (S + A)) (I : N -> S -> reader -> Prop) (Q : A -> reader -> Prop) :
    (forall n s, triple R (I n s) (body s)
        (fun x r => match x with inl s' => exists n', n' < n /\ I n' s' r | inr a => Q a r end)) ->
    forall n s, n < bound -> triple R (I n s) (while_M bound body s) Q.
  Proof.
    intros Hb n0 s0 Hlt.
    assert (G : forall f n s, n < N.of_nat f -> triple R (I n s) (while_nat f body s) Q).
    { induction f as [|f IH]; intros n s Hn; [lia|]. cbn [while_nat].
      eapply triple_bind; [apply Hb|]. intros [s'|a]; cbn beta iota.
      - intros r (n' & Hn' & HI). apply (IH n' s'); [lia|exact HI].
      - apply triple_ret. auto. }
    intros r Hr. rewrite while_M_nat. apply (G _ n0 s0); [lia|exact Hr].
  Qed.
End Rules.

Section Parser.
  Context (R : N -> N -> Prop) (e : env).
  (** usize::MAX + 1 *)
  Notation top := (2 ^ usize_bits (cfg e)).

  Lemma triple_add_usize x y (P : reader -> Prop) (Q : N -> reader -> Prop) :
    x + y < top -> (forall r, P r -> Q (x + y) r) -> triple R P (lift (add_usize (cfg e) x y)) Q.
  Proof.
    intros Hlt HQ. unfold add_usize. rewrite wrap_small by assumption.
    apply triple_lift_Ok. exact HQ.
  Qed.
  Lemma triple_add_u32 x y (P : reader -> Prop) (Q : N -> reader -> Prop) :
    x + y < 2 ^ 32 -> (forall r, P r -> Q (x + y) r) -> triple R P (lift (add_u32 (cfg e) x y)) Q.
  Proof.
    intros Hlt HQ. unfold add_u32. rewrite wrap_small by assumption.
    apply triple_lift_Ok. exact HQ.
  Qed.

  Lemma triple_read o en n :
    R o n -> o + n < top ->
    triple R (at_ o en) (read e n) (fun bs r => length bs = N.to_nat n /\ at_ (o + n) en r).
  Proof.
    intros HR Hlt r [Ho He]. unfold read. rewrite Ho.
    destruct (rd e (r_trace r) o n) as [bs|k] eqn:Ha.
    - unfold add_usize. rewrite wrap_small by assumption. cbn [fst snd r_trace with_offset].
      exists [(o, n, Bytes bs)]. cbn. repeat split; auto; try (constructor; [exact HR|constructor]).
      + constructor; [exact I|constructor].
      + apply length_fit.
    - cbn. exists [(o, n, Fails k)]. repeat split; auto; try (constructor; [exact HR|constructor]).
      right. exists (o, n, Fails k), []. repeat split; auto.
  Qed.

  Lemma triple_read_u8 o en :
    R o 1 -> o + 1 < top -> triple R (at_ o en) (read_u8 e) (fun _ => at_ (o + 1) en).
  Proof.
    intros HR Hlt. unfold read_u8. eapply triple_bind; [apply triple_read; assumption|].
    intros [|b bs]; apply triple_pull; intros Hl.
    - cbn in Hl. lia.
    - apply triple_ret. auto.
  Qed.

  Lemma triple_read_uint o en n :
    R o n -> o + n < top ->
    triple R (at_ o en) (read_uint e n) (fun v r => v < 256 ^ n /\ at_ (o + n) en r).
  Proof.
    intros HR Hlt r Hr. unfold read_uint.
    assert (T : triple R (at_ o en)
       (x <- read e n ;; (fun r' => (Ok match r_end r' with Little => from_le_bytes x | Big => from_be_bytes x end, r')))
       (fun v r' => v < 256 ^ n /\ at_ (o + n) en r')).
    { eapply triple_bind; [apply triple_read; assumption|].
      intros bs r1 [Hl Hr1]. exists []. cbn. repeat split; auto; try apply Hr1.
      pose proof (from_le_bytes_lt bs) as Hle. pose proof (from_be_bytes_lt bs) as Hbe.
      rewrite Hl, N2Nat.id in *. destruct (r_end r1); assumption. }
    exact (T r Hr).
  Qed.

  Lemma triple_read_u32 o en :
    R o 4 -> o + 4 < top ->
    triple R (at_ o en) (read_u32 e) (fun v r => v < 2 ^ 32 /\ at_ (o + 4) en r).
  Proof. intros. apply triple_read_uint; assumption. Qed.

  (** strings *)
  Lemma triple_parse_string fh so o en :
    (forall x, hdr_len fh + str_off fh <= x -> x + 1 <= hdr_len fh + str_off fh + str_len fh -> R x 1) ->
    (hdr_len fh + str_off fh + str_len fh < 2 ^ 32 -> hdr_len fh + str_off fh + str_len fh + 1 < top) ->
    triple R (at_ o en) (parse_string e fh so) (fun _ => at_ o en).
  Proof.
    intros HR Hroom. unfold parse_string.
    eapply triple_bind with (Q := fun sss r => (sss = hdr_len fh + str_off fh) /\ at_ o en r).
    { apply triple_ok_or. intros a r Ha Hr. apply checked_Some in Ha. destruct Ha. auto. }
    intros sss. apply triple_pull. intros ->.
    eapply triple_bind with (Q := fun sse r => (sse = hdr_len fh + str_off fh + str_len fh /\ sse < 2 ^ 32) /\ at_ o en r).
    { apply triple_ok_or. intros a r Ha Hr. apply checked_Some in Ha. destruct Ha. subst. auto. }
    intros sse. apply triple_pull. intros [Hsse Hb]. assert (Hr1 : sse + 1 < top) by (rewrite Hsse in *; auto). clear Hroom.
    eapply triple_bind with (Q := fun s r => (s = hdr_len fh + str_off fh + so) /\ at_ o en r).
    { apply triple_ok_or. intros a r Ha Hr. apply checked_Some in Ha. destruct Ha. auto. }
    intros s. apply triple_pull. intros Hs.
    destruct (N.leb_spec sse s) as [Hge|Hlt]; [apply triple_fail|].
    eapply triple_bind; [apply triple_get_offset with (Q := fun x r => x = o /\ at_ o en r); auto|].
    intros x. apply triple_pull. intros ->.
    eapply triple_bind; [apply triple_set_offset|]. intros []. cbn beta.
    eapply triple_bind with (Q := fun _ r => exists y, at_ y en r).
    2:{ intros acc. eapply triple_bind with (Q := fun _ => at_ o en).
        - intros r [y Hr]. exact (triple_set_offset R y en o r Hr).
        - intros []. cbn beta. apply triple_ret. auto. }
    eapply triple_pre.
    - apply triple_while with
        (I := fun n _ r => exists y, n = sse - y /\ s <= y /\ y <= sse /\ at_ y en r) (n := sse - s); [|lia].
      intros n acc r (y & Hn & Hsy & Hy & Hr). revert r Hr.
      change (triple R (at_ y en)
       (o0 <- get_offset ;; o1 <- lift (add_usize (cfg e) o0 1) ;;
         (if sse <? o1 then fail InvalidString else
           c <- inspect_err (read_u8 e) (with_offset o) ;;
           (if bval c =? 0 then ret (inr acc) else ret (inl (push_char acc c)))))
       (fun x r => match x with inl s' => exists n', n' < n /\ exists y, n' = sse - y /\ s <= y /\ y <= sse /\ at_ y en r
                           | inr a => exists y, at_ y en r end)).
      eapply triple_bind; [apply triple_get_offset with (Q := fun x r => x = y /\ at_ y en r); auto|].
      intros x. apply triple_pull. intros ->.
      eapply triple_bind.
      { apply triple_add_usize with (Q := fun x r => x = y + 1 /\ at_ y en r); [lia|auto]. }
      intros x. apply triple_pull. intros ->.
      destruct (N.ltb_spec sse (y + 1)) as [Hend|Hin]; [apply triple_fail|].
      eapply triple_bind.
      { apply triple_inspect_err; [reflexivity|]. apply triple_read_u8; [apply HR; lia|lia]. }
      intros c. destruct (bval c =? 0); apply triple_ret; intros r Hr.
      + exists (y + 1). exact Hr.
      + exists (sse - (y + 1)). split; [lia|]. exists (y + 1). repeat split; try lia; apply Hr.
    - intros r Hr. exists s. repeat split; try lia; apply Hr.
  Qed.

  Lemma triple_parse_name_opt fh no o en :
    (forall x, hdr_len fh + str_off fh <= x -> x + 1 <= hdr_len fh + str_off fh + str_len fh -> R x 1) ->
    (hdr_len fh + str_off fh + str_len fh < 2 ^ 32 -> hdr_len fh + str_off fh + str_len fh + 1 < top) ->
    triple R (at_ o en) (parse_name_opt e fh no) (fun _ => at_ o en).
  Proof.
    intros HR Hroom. unfold parse_name_opt. destruct (negb (no =? 0)).
    - eapply triple_bind; [apply triple_parse_string; assumption|]. intros s. apply triple_ret. auto.
    - apply triple_ret. auto.
  Qed.
End Parser.


(** ** Where the requests go *)

(** Four or more bytes inside the type section; one byte inside the string section;
    or four or more among the 12 bytes from an offset [o] in the type section with [T o] (the data of an array). *)
Definition in_types (fh : file_header) (off n : N) : Prop :=
  hdr_len fh + type_off fh <= off /\ off + n <= hdr_len fh + type_off fh + type_len fh.
Definition in_strings (fh : file_header) (off n : N) : Prop :=
  hdr_len fh + str_off fh <= off /\ off + n <= hdr_len fh + str_off fh + str_len fh.
Definition in_sections (fh : file_header) (T : N -> Prop) (off n : N) : Prop :=
  0 < n /\ ((4 <= n /\ in_types fh off n) \/ (n = 1 /\ in_strings fh off n) \/
    4 <= n /\ exists o, T o /\ hdr_len fh + type_off fh <= o /\ o <= hdr_len fh + type_off fh + type_len fh /\ o <= off /\ off + n <= o + 12).

(** The sections end far enough below the largest usize. *)
Definition roomy (e : env) (fh : file_header) : Prop :=
  (hdr_len fh + type_off fh + type_len fh < 2 ^ 32 ->
   hdr_len fh + type_off fh + type_len fh + 2 ^ 20 <= 2 ^ usize_bits (cfg e)) /\
  (hdr_len fh + str_off fh + str_len fh < 2 ^ 32 ->
   hdr_len fh + str_off fh + str_len fh + 1 < 2 ^ usize_bits (cfg e)).

Section Records.
  Context (e : env) (fh : file_header) (T : N -> Prop).
  Hypothesis Hroom : roomy e fh.
  Notation top := (2 ^ usize_bits (cfg e)).
  Notation R := (in_sections fh T).
  Notation tlo := (hdr_len fh + type_off fh).
  Notation thi := (hdr_len fh + type_off fh + type_len fh).

  Lemma R_string x : hdr_len fh + str_off fh <= x -> x + 1 <= hdr_len fh + str_off fh + str_len fh -> R x 1.
  Proof. intros. split; [lia|]. right. left. split; [reflexivity|]. split; assumption. Qed.

  Ltac step L := eapply triple_bind; [eapply L|].
  Ltac pull := apply triple_pull; intros.
  Ltac at_eq := intros r Hr; eapply eq_ind with (P := fun x => at_ x _ r); [exact Hr|lia].

  Lemma t_u32 o en (P : reader -> Prop) : tlo <= o -> o + 4 <= thi -> thi < 2 ^ 32 ->
    (forall r, P r -> at_ o en r) ->
    triple R P (read_u32 e) (fun v r => u32 v /\ at_ (o + 4) en r).
  Proof.
    intros. eapply triple_pre; [|eassumption].
    apply triple_read_u32; [split; [lia|]; left; split; [lia|]; split; assumption|]. destruct Hroom. lia.
  Qed.
  Lemma t_name o en k :
    triple R (at_ o en) (parse_name_opt e fh k) (fun _ => at_ o en).
  Proof. apply triple_parse_name_opt; [apply R_string|apply Hroom]. Qed.
  Lemma t_string o en k :
    triple R (at_ o en) (parse_string e fh k) (fun _ => at_ o en).
  Proof. apply triple_parse_string; [apply R_string|apply Hroom]. Qed.

  Lemma triple_header_new o en :
    tlo <= o -> o <= thi ->
    triple R (at_ o en) (header_new e fh)
      (fun h r => (header_fits h (h_kind h) /\ o + 12 <= thi /\ thi < 2 ^ 32) /\ at_ (o + 12) en r).
  Proof.
    intros Hlo Hbig. unfold header_new.
    eapply triple_bind with (Q := fun x r => (x = tlo) /\ at_ o en r).
    { apply triple_ok_or. intros a r Ha Hr. apply checked_Some in Ha. destruct Ha. auto. }
    intros x. apply triple_pull. intros ->.
    eapply triple_bind with (Q := fun x r => (x = thi /\ x < 2 ^ 32) /\ at_ o en r).
    { apply triple_ok_or. intros a r Ha Hr. apply checked_Some in Ha. destruct Ha. subst. auto. }
    intros tse. apply triple_pull. intros [Htse Hb].
    eapply triple_bind; [apply triple_get_offset with (Q := fun x r => x = o /\ at_ o en r); auto|].
    intros x. apply triple_pull. intros ->.
    unfold TYPE_HEADER_SIZE. eapply triple_bind.
    { apply triple_add_usize with (Q := fun x r => x = o + 12 /\ at_ o en r); [destruct Hroom; lia|auto]. }
    intros x. apply triple_pull. intros ->.
    destruct (N.ltb_spec tse (o + 12)) as [Ht|Ht]; [apply triple_fail|].
    step (t_u32 o en); try (auto; lia). intros no. pull.
    step (t_u32 (o + 4) en); try (auto; lia). intros info. pull.
    destruct (kind_new_err (N.shiftr (N.land info 0x1F000000) 24)) as [[k Hk]|[Hk _]]; rewrite Hk.
    2:{ eapply triple_bind with (Q := fun _ _ => False); [apply triple_lift_Err|]. intros k r []. }
    eapply triple_bind; [apply triple_lift_Ok with (Q := fun x r => x = k /\ at_ (o + 8) en r)|].
    { intros r Hr. split; [reflexivity|]. replace (o + 8) with (o + 4 + 4) by lia. exact Hr. }
    intros k'. apply triple_pull. intros ->.
    step (t_u32 (o + 8) en); try (auto; lia). intros st. pull.
    apply triple_ret. intros r Hr. cbn [h_kind h_name_offset h_vlen h_size_or_type].
    replace (o + 8 + 4) with (o + 12) in Hr by lia.
    repeat split; auto; try lia; try apply Hr.
    cbn [h_vlen]. rewrite land_ffff. apply N.mod_lt. discriminate.
  Qed.

  (** The [new] generated by [define_type!] *)
  Lemma triple_define_type {D} (K : kind) size (dn : env -> file_header -> header -> M D) h o en n Q :
    size (cfg e) h = Ok n -> tlo <= o -> o <= thi -> thi < 2 ^ 32 -> n < 2 ^ 20 ->
    (o + n <= thi -> triple R (at_ o en) (dn e fh h) Q) ->
    triple R (at_ o en) (define_type_new K size dn e fh h) Q.
  Proof.
    intros Hsize Hlo Hhi Hb Hn Hd. unfold define_type_new.
    destruct (negb (kind_eqb (h_kind h) K)); [apply triple_fail|].
    rewrite Hsize. eapply triple_bind; [apply triple_lift_Ok with (Q := fun x r => x = n /\ at_ o en r); auto|].
    intros x. apply triple_pull. intros ->.
    destruct (N.ltb_spec 0 n) as [Hpos|Hz].
    - eapply triple_bind with (Q := fun _ r => o + n <= thi /\ at_ o en r).
      2:{ intros []. apply triple_pull. exact Hd. }
      eapply triple_bind; [apply triple_add_u32 with (Q := fun x r => x = tlo /\ at_ o en r); [lia|auto]|].
      intros x. apply triple_pull. intros ->.
      eapply triple_bind; [apply triple_add_u32 with (Q := fun x r => x = thi /\ at_ o en r); [lia|auto]|].
      intros tse. apply triple_pull. intros ->.
      eapply triple_bind; [apply triple_get_offset with (Q := fun x r => x = o /\ at_ o en r); auto|].
      intros x. apply triple_pull. intros ->.
      destruct (o <? tlo); [apply triple_fail|].
      eapply triple_bind; [apply triple_add_usize with (Q := fun x r => x = o + n /\ at_ o en r); [destruct Hroom; lia|auto]|].
      intros x. apply triple_pull. intros ->.
      destruct (N.ltb_spec thi (o + n)) as [Hx|Hx]; [apply triple_fail|].
      apply triple_ret. auto.
    - eapply triple_bind; [apply triple_ret with (Q := fun _ => at_ o en); auto|].
      intros []. cbn beta. apply Hd. lia.
  Qed.

  Lemma mul_fits v k : thi < 2 ^ 32 -> v < 2 ^ 16 -> k <= 12 -> @mul_usize error_kind (cfg e) v k = Ok (v * k).
  Proof. intros. unfold mul_usize. apply wrap_small. destruct Hroom. nia. Qed.

  Section One.
    Context (h : header) (o : N) (en : endianness).
    Hypothesis Hlo : tlo + 12 <= o.
    Hypothesis Hhi : o <= thi.
    Hypothesis Hb : thi < 2 ^ 32.
    Hypothesis Hh : forall k, h_kind h = k -> header_fits h k.
    Hypothesis HT : h_kind h = KArray -> h_vlen h = 0 -> T o.
    (** what every parser guarantees: at least as far as [o], no more than 12
        bytes past the end, and a value with sane widths *)
    Definition Post (t : type_variant) (r : reader) : Prop :=
      type_fits t /\ exists o', o <= o' /\ o' <= thi + 12 /\ at_ o' en r.

    Ltac hk H := match goal with
      | |- context [kind_eqb _ _] => idtac
      end.

    Lemma t_link (mk : header -> link_data -> type_variant) K :
      (h_kind h = K -> type_fits (mk h {| link_tid := h_size_or_type h |})) ->
      triple R (at_ o en)
        (d <- define_type_new K no_extra_size link_data_new e fh h ;; ret (mk h d)) Post.
    Proof.
      intros Hf. destruct (kind_eqb (h_kind h) K) eqn:EK.
      2:{ unfold define_type_new. rewrite EK. cbn [negb].
          eapply triple_bind with (Q := fun _ _ => False); [apply triple_fail|]. intros ? r []. }
      assert (HK : h_kind h = K) by (destruct (h_kind h), K; try reflexivity; discriminate EK).
      eapply triple_bind.
      - eapply triple_define_type with (n := 0); try reflexivity; try lia.
        intros _. unfold link_data_new. apply triple_ret with (Q := fun d r => d = {| link_tid := h_size_or_type h |} /\ at_ o en r). auto.
      - intros d. apply triple_pull. intros ->. apply triple_ret. intros r Hr. split; [auto|].
        exists o. repeat split; try lia; apply Hr.
    Qed.

    Lemma t_named_link (mk : header -> named_link_data -> type_variant) K :
      (forall n, h_kind h = K -> type_fits (mk h {| nl_name := n; nl_tid := h_size_or_type h |})) ->
      triple R (at_ o en)
        (d <- define_type_new K no_extra_size named_link_data_new e fh h ;; ret (mk h d)) Post.
    Proof.
      intros Hf. destruct (kind_eqb (h_kind h) K) eqn:EK.
      2:{ unfold define_type_new. rewrite EK. cbn [negb].
          eapply triple_bind with (Q := fun _ _ => False); [apply triple_fail|]. intros ? r []. }
      assert (HK : h_kind h = K) by (destruct (h_kind h), K; try reflexivity; discriminate EK).
      eapply triple_bind.
      - eapply triple_define_type with (n := 0); try reflexivity; try lia.
        intros _. unfold named_link_data_new. step t_name. intros n.
        apply triple_ret with (Q := fun d r => (exists n, d = {| nl_name := n; nl_tid := h_size_or_type h |}) /\ at_ o en r). eauto.
      - intros d. apply triple_pull. intros [n ->]. apply triple_ret. intros r Hr. split; [auto|].
        exists o. repeat split; try lia; apply Hr.
    Qed.

    (** a record whose data is [n] bytes long *)
    Lemma t_record {D} (mk : D -> type_variant) K size (dn : env -> file_header -> header -> M D) n (phi : D -> Prop) :
      size (cfg e) h = Ok n -> n < 2 ^ 20 ->
      (h_kind h = K -> forall d, phi d -> type_fits (mk d)) ->
      (o + n <= thi -> triple R (at_ o en) (dn e fh h) (fun d r => phi d /\ exists o', o <= o' /\ o' <= thi + 12 /\ at_ o' en r)) ->
      triple R (at_ o en) (d <- define_type_new K size dn e fh h ;; ret (mk d)) Post.
    Proof.
      intros Hs Hn Hf Hd. destruct (kind_eqb (h_kind h) K) eqn:EK.
      2:{ unfold define_type_new. rewrite EK. cbn [negb].
          eapply triple_bind with (Q := fun _ _ => False); [apply triple_fail|]. intros ? r []. }
      assert (HK : h_kind h = K) by (destruct (h_kind h), K; try reflexivity; discriminate EK).
      eapply triple_bind.
      - eapply triple_define_type; try eassumption; lia.
      - intros d. apply triple_pull. intros Hp. apply triple_ret. intros r Hr. split; auto.
    Qed.

    Lemma t_member i : o + 12 * (i + 1) <= thi ->
      triple R (at_ (o + 12 * i) en) (parse_member e fh h)
        (fun m r => member_fits (h_kind_flag h) m /\ at_ (o + 12 * (i + 1)) en r).
    Proof.
      intros Hi. unfold parse_member.
      step (t_u32 (o + 12 * i) en); try (auto; lia). intros no. pull.
      step (t_u32 (o + 12 * i + 4) en); try (auto; lia). intros tid. pull.
      step (t_u32 (o + 12 * i + 8) en); try lia.
      { at_eq. }
      intros raw. pull. step t_name. intros name. cbn beta.
      destruct (decode_member_offset_err (h_kind_flag h) raw ltac:(assumption)) as [[off Ho]|[Ho _]]; rewrite Ho.
      2:{ eapply triple_bind with (Q := fun _ _ => False); [apply triple_lift_Err|]. intros ? r []. }
      eapply triple_bind; [apply triple_lift_Ok with (Q := fun x r => x = off /\ at_ (o + 12 * i + 8 + 4) en r); auto|].
      intros x. apply triple_pull. intros ->. apply triple_ret. intros r Hr.
      repeat split; try assumption; cbn [m_offset]; try (apply Hr).
      - apply member_offset_fits with (kf := h_kind_flag h) (w := raw); [assumption|].
        apply decode_member_offset_spec; assumption.
      - destruct Hr as [Hr _]. lia.
    Qed.

    Lemma t_value32 i : o + 8 * (i + 1) <= thi ->
      triple R (at_ (o + 8 * i) en) (parse_named_value32 e fh (h_kind_flag h))
        (fun nv r => value_fits 32 (h_kind_flag h) (nv_value nv) /\ at_ (o + 8 * (i + 1)) en r).
    Proof.
      intros Hi. unfold parse_named_value32.
      step (t_u32 (o + 8 * i) en); try (auto; lia). intros no. pull.
      step t_string. intros name. cbn beta. destruct (h_kind_flag h).
      - unfold read_i32. eapply triple_bind.
        + step (t_u32 (o + 8 * i + 4) en); try (auto; lia). intros v. pull.
          apply triple_ret with (Q := fun z r => (exists v, z = as_signed 32 v /\ u32 v) /\ at_ (o + 8 * i + 4 + 4) en r). eauto.
        + intros z. apply triple_pull. intros (v & -> & Hv). apply triple_ret. intros r Hr.
          split; [|destruct Hr; split; [lia|assumption]].
          cbn [nv_value value_fits]. split; [reflexivity|].
          apply (as_signed_spec 32 v); [lia|assumption].
      - step (t_u32 (o + 8 * i + 4) en); try (auto; lia). intros v. pull. apply triple_ret. intros r Hr.
        split; [cbn; auto|]. destruct Hr; split; [lia|assumption].
    Qed.

    Lemma t_u64 p : tlo <= p -> p + 8 <= thi ->
      triple R (at_ p en) (read_u64 e) (fun v r => v < 2 ^ 64 /\ at_ (p + 8) en r).
    Proof.
      intros. apply triple_read_uint; [split; [lia|]; left; split; [lia|]; split; assumption|]. destruct Hroom. lia.
    Qed.

    Lemma t_value64 i : o + 12 * (i + 1) <= thi ->
      triple R (at_ (o + 12 * i) en) (parse_named_value64 e fh (h_kind_flag h))
        (fun nv r => value_fits 64 (h_kind_flag h) (nv_value nv) /\ at_ (o + 12 * (i + 1)) en r).
    Proof.
      intros Hi. unfold parse_named_value64.
      step (t_u32 (o + 12 * i) en); try (auto; lia). intros no. pull.
      step t_string. intros name. cbn beta. destruct (h_kind_flag h).
      - unfold read_i64. eapply triple_bind.
        + step (t_u64 (o + 12 * i + 4)); try lia. intros v. pull.
          apply triple_ret with (Q := fun z r => (exists v, z = as_signed 64 v /\ v < 2 ^ 64) /\ at_ (o + 12 * i + 4 + 8) en r). eauto.
        + intros z. apply triple_pull. intros (v & -> & Hv). apply triple_ret. intros r Hr.
          split; [|destruct Hr; split; [lia|assumption]].
          cbn [nv_value value_fits]. split; [reflexivity|].
          apply (as_signed_spec 64 v); [lia|assumption].
      - step (t_u64 (o + 12 * i + 4)); try lia. intros v. pull. apply triple_ret. intros r Hr.
        split; [cbn; auto|]. destruct Hr; split; [lia|assumption].
    Qed.

    Lemma t_parameter i : o + 8 * (i + 1) <= thi ->
      triple R (at_ (o + 8 * i) en) (parse_parameter e fh)
        (fun p r => (u32 (p_name_offset p) /\ u32 (p_tid p)) /\ at_ (o + 8 * (i + 1)) en r).
    Proof.
      intros Hi. unfold parse_parameter.
      step (t_u32 (o + 8 * i) en); try (auto; lia). intros no. pull.
      step (t_u32 (o + 8 * i + 4) en); try (auto; lia). intros tid. pull.
      step t_name. intros name. cbn beta. apply triple_ret. intros r Hr.
      repeat split; try assumption; destruct Hr; [lia|assumption].
    Qed.

    Lemma t_variable i : o + 12 * (i + 1) <= thi ->
      triple R (at_ (o + 12 * i) en) (parse_variable e)
        (fun v r => (u32 (var_decl_id v) /\ u32 (v_offset v) /\ u32 (var_size v)) /\ at_ (o + 12 * (i + 1)) en r).
    Proof.
      intros Hi. unfold parse_variable.
      step (t_u32 (o + 12 * i) en); try (auto; lia). intros a. pull.
      step (t_u32 (o + 12 * i + 4) en); try (auto; lia). intros b. pull.
      step (t_u32 (o + 12 * i + 8) en); try lia. { at_eq. }
      intros c. pull. apply triple_ret. intros r Hr.
      repeat split; try assumption; destruct Hr; [lia|assumption].
    Qed.

    Lemma t_struct : triple R (at_ o en) (struct_data_new e fh h)
        (fun d r => (u32 (struct_size d) /\ exactly_vlen h (member_list d) /\ Forall (member_fits (h_kind_flag h)) (member_list d)) /\
                    at_ (o + 12 * h_vlen h) en r) \/ thi < o + h_vlen h * 12.
    Proof.
      destruct (N.ltb_spec thi (o + h_vlen h * 12)) as [?|Hfit]; [right; assumption|left].
      unfold struct_data_new.
      step (triple_repeat R (N.to_nat (h_vlen h)) 12 o en (parse_member e fh h) (member_fits (h_kind_flag h))).
      { intros i Hi. apply t_member. lia. }
      intros l. apply triple_pull. intros [Hl HF]. step t_name. intros name. cbn beta.
      apply triple_ret. intros r Hr. cbn [struct_size member_list].
      destruct (Hh _ eq_refl) as (_ & _ & _ & Hst). destruct Hr.
      repeat split; auto; unfold exactly_vlen; lia.
    Qed.

    Lemma parse_type_ok : triple R (at_ o en) (parse_type (h_kind h) e fh h) Post.
    Proof.
      destruct (Hh _ eq_refl) as (_ & Hno & Hv & Hst).
      assert (C12 : mul_usize (cfg e) (h_vlen h) 12 = @Ok error_kind _ (h_vlen h * 12)) by (apply mul_fits; lia).
      assert (C8 : mul_usize (cfg e) (h_vlen h) 8 = @Ok error_kind _ (h_vlen h * 8)) by (apply mul_fits; lia).
      enough (G : forall K, h_kind h = K -> triple R (at_ o en) (parse_type K e fh h) Post) by (apply G; reflexivity).
      intros K EK. unfold parse_type. destruct K.
      - (* Int *)
        eapply t_record with (phi := fun d => u32 (int_size d) /\ int_offset d < 2 ^ 8 /\ int_bits d < 2 ^ 8);
          [reflexivity|lia| |].
        + intros _ d Hd. cbn. repeat split; try apply Hd; assumption.
        + intros Hfit. unfold int_data_new. step (t_u32 o en); try (auto; lia). intros w. pull.
          step t_name. intros name. cbn beta. apply triple_ret. intros r Hr.
          cbn [int_size int_offset int_bits]. rewrite land_ff, field_int_offset. repeat split; auto.
          * apply N.mod_lt; discriminate.
          * apply N.mod_lt; discriminate.
          * exists (o + 4). repeat split; try lia; apply Hr.
      - apply t_link. cbn. repeat split; assumption.
      - (* Array *)
        eapply t_record with (phi := fun d => u32 (element_tid d) /\ u32 (index_tid d) /\ u32 (element_count d));
          [exact C12|lia| |].
        + intros _ d Hd. cbn. repeat split; try apply Hd; assumption.
        + intros Hfit. unfold array_data_new.
          assert (A : forall k (P : reader -> Prop), k + 4 <= 12 -> (forall r, P r -> at_ (o + k) en r) ->
            triple R P (read_u32 e) (fun v r => u32 v /\ at_ (o + k + 4) en r)).
          { intros k P Hk HP. eapply triple_pre; [|exact HP]. apply triple_read_u32; [|destruct Hroom; lia].
            split; [lia|]. destruct (N.eq_dec (h_vlen h) 0) as [Ez|Ez].
            - right. right. split; [lia|]. exists o. split; [exact (HT EK Ez)|]. repeat split; lia.
            - left. split; [lia|]. split; lia. }
          step (A 0); try lia. { at_eq. } intros a. pull.
          step (A 4); try lia. { at_eq. } intros b. pull.
          step (A 8); try lia. { at_eq. }
          intros c. pull. apply triple_ret. intros r Hr. repeat split; try assumption.
          exists (o + 12). repeat split; try lia; destruct Hr; [lia|assumption].
      - (* Struct *)
        eapply t_record with (phi := fun d => u32 (struct_size d) /\ exactly_vlen h (member_list d) /\ Forall (member_fits (h_kind_flag h)) (member_list d));
          [exact C12|lia| |].
        + intros _ d Hd. cbn. repeat split; try apply Hd; assumption.
        + intros Hfit. destruct t_struct as [TS|?]; [|lia].
          eapply triple_conseq; [exact TS|auto|]. intros d r [Hp Hr]. split; [exact Hp|].
          exists (o + 12 * h_vlen h). repeat split; try lia; apply Hr.
      - (* Union *)
        eapply t_record with (phi := fun d => u32 (struct_size d) /\ exactly_vlen h (member_list d) /\ Forall (member_fits (h_kind_flag h)) (member_list d));
          [exact C12|lia| |].
        + intros _ d Hd. cbn. repeat split; try apply Hd; assumption.
        + intros Hfit. destruct t_struct as [TS|?]; [|lia].
          eapply triple_conseq; [exact TS|auto|]. intros d r [Hp Hr]. split; [exact Hp|].
          exists (o + 12 * h_vlen h). repeat split; try lia; apply Hr.
      - (* Enum *)
        eapply t_record with (phi := fun d => u32 (enum_size d) /\ exactly_vlen h (named_value_list d) /\
           enum_signed d = h_kind_flag h /\
           Forall (fun nv => value_fits 32 (h_kind_flag h) (nv_value nv)) (named_value_list d));
          [exact C8|lia| |].
        + intros _ d Hd. cbn. repeat split; try apply Hd; assumption.
        + intros Hfit. unfold enum_data_new.
          step (triple_repeat R (N.to_nat (h_vlen h)) 8 o en (parse_named_value32 e fh (h_kind_flag h))
                  (fun nv => value_fits 32 (h_kind_flag h) (nv_value nv))).
          { intros i Hi. apply t_value32. lia. }
          intros l. apply triple_pull. intros [Hl HF]. step t_name. intros name. cbn beta.
          apply triple_ret. intros r Hr. cbn [enum_size named_value_list enum_signed].
          repeat split; auto.
          * unfold exactly_vlen. lia.
          * exists (o + 8 * h_vlen h). repeat split; try lia; destruct Hr; [lia|assumption].
      - apply t_named_link. cbn. repeat split; assumption.
      - apply t_named_link. cbn. repeat split; assumption.
      - apply t_link. cbn. repeat split; assumption.
      - apply t_link. cbn. repeat split; assumption.
      - apply t_link. cbn. repeat split; assumption.
      - apply t_named_link. cbn. repeat split; assumption.
      - (* FuncProto *)
        eapply t_record with (phi := fun d => u32 (return_tid d) /\ exactly_vlen h (parameter_list d) /\
           Forall (fun p => u32 (p_name_offset p) /\ u32 (p_tid p)) (parameter_list d));
          [exact C8|lia| |].
        + intros _ d Hd. cbn. repeat split; try apply Hd; assumption.
        + intros Hfit. unfold func_proto_data_new.
          step (triple_repeat R (N.to_nat (h_vlen h)) 8 o en (parse_parameter e fh)
                  (fun p => u32 (p_name_offset p) /\ u32 (p_tid p))).
          { intros i Hi. apply t_parameter. lia. }
          intros l. apply triple_pull. intros [Hl HF].
          apply triple_ret. intros r Hr. cbn [return_tid parameter_list].
          repeat split; auto.
          * unfold exactly_vlen. lia.
          * exists (o + 8 * h_vlen h). repeat split; try lia; destruct Hr; [lia|assumption].
      - (* Var *)
        eapply t_record with (phi := fun d => u32 (var_tid d) /\ u32 (linkage d)); [reflexivity|lia| |].
        + intros _ d Hd. cbn. repeat split; try apply Hd; assumption.
        + intros Hfit. unfold var_data_new. step (t_u32 o en); try (auto; lia). intros w. pull.
          step t_name. intros name. cbn beta. apply triple_ret. intros r Hr.
          repeat split; auto. exists (o + 4). repeat split; try lia; apply Hr.
      - (* DataSec *)
        eapply t_record with (phi := fun d => u32 (ds_size d) /\ exactly_vlen h (variable_list d) /\
           Forall (fun v => u32 (var_decl_id v) /\ u32 (v_offset v) /\ u32 (var_size v)) (variable_list d));
          [exact C12|lia| |].
        + intros _ d Hd. cbn. repeat split; try apply Hd; assumption.
        + intros Hfit. unfold data_sec_data_new.
          step (triple_repeat R (N.to_nat (h_vlen h)) 12 o en (parse_variable e)
                  (fun v => u32 (var_decl_id v) /\ u32 (v_offset v) /\ u32 (var_size v))).
          { intros i Hi. apply t_variable. lia. }
          intros l. apply triple_pull. intros [Hl HF]. step t_name. intros name. cbn beta.
          apply triple_ret. intros r Hr. cbn [ds_size variable_list].
          repeat split; auto.
          * unfold exactly_vlen. lia.
          * exists (o + 12 * h_vlen h). repeat split; try lia; destruct Hr; [lia|assumption].
      - (* Float *)
        eapply t_record with (phi := fun d => u32 (float_size d)); [reflexivity|lia| |].
        + intros _ d Hd. cbn. repeat split; assumption.
        + intros _. unfold float_data_new. step t_name. intros name. cbn beta. apply triple_ret. intros r Hr.
          split; [assumption|]. exists o. repeat split; try lia; apply Hr.
      - (* DeclTag *)
        eapply t_record with (phi := fun d => u32 (dt_tid d) /\ u32 (component_index d)); [reflexivity|lia| |].
        + intros _ d Hd. cbn. repeat split; try apply Hd; assumption.
        + intros Hfit. unfold decl_tag_data_new. step (t_u32 o en); try (auto; lia). intros w. pull.
          step t_name. intros name. cbn beta. apply triple_ret. intros r Hr.
          repeat split; auto. exists (o + 4). repeat split; try lia; apply Hr.
      - apply t_named_link. cbn. repeat split; assumption.
      - (* Enum64 *)
        eapply t_record with (phi := fun d => u32 (enum_size d) /\ exactly_vlen h (named_value_list d) /\
           enum_signed d = h_kind_flag h /\
           Forall (fun nv => value_fits 64 (h_kind_flag h) (nv_value nv)) (named_value_list d));
          [exact C12|lia| |].
        + intros _ d Hd. cbn. repeat split; try apply Hd; assumption.
        + intros Hfit. unfold enum64_data_new.
          step (triple_repeat R (N.to_nat (h_vlen h)) 12 o en (parse_named_value64 e fh (h_kind_flag h))
                  (fun nv => value_fits 64 (h_kind_flag h) (nv_value nv))).
          { intros i Hi. apply t_value64. lia. }
          intros l. apply triple_pull. intros [Hl HF]. step t_name. intros name. cbn beta.
          apply triple_ret. intros r Hr. cbn [enum_size named_value_list enum_signed].
          repeat split; auto.
          * unfold exactly_vlen. lia.
          * exists (o + 12 * h_vlen h). repeat split; try lia; destruct Hr; [lia|assumption].
    Qed.
  End One.
End Records.

(** ** The whole load *)
Section Load.
  Context (e : env).
  Notation top := (2 ^ usize_bits (cfg e)).
  Hypothesis Htop : 24 < top.

  Definition in_header (off n : N) : Prop := 0 < n /\ off + n <= 24.
  Definition fh_fits (fh : file_header) : Prop :=
    u32 (hdr_len fh) /\ u32 (type_off fh) /\ u32 (type_len fh) /\ u32 (str_off fh) /\ u32 (str_len fh).

  Lemma triple_file_header_new :
    triple in_header (fun r => r_end r = Little) (file_header_new e)
      (fun fh r => fh_fits fh /\ exists en, at_ 24 en r).
  Proof.
    unfold file_header_new.
    eapply triple_bind with (Q := fun _ => at_ 0 Little).
    { intros r Hr. exists []. cbn. repeat split; auto. }
    intros []. cbn beta.
    eapply triple_bind with (Q := fun _ r => exists en, at_ 2 en r).
    { unfold detect_endianness. eapply triple_bind.
      - apply (triple_read_uint in_header e 0 Little 2); unfold in_header; lia.
      - intros m. apply triple_pull. intros Hm.
        destruct (m =? BTF_LITTLE_ENDIAN_MAGIC); [|destruct (m =? BTF_BIG_ENDIAN_MAGIC); [|apply triple_fail]];
        (eapply triple_conseq; [apply triple_set_endianness with (o := 0 + 2)|intros r Hr; exact Hr|]; intros [] r Hr; eexists; exact Hr). }
    intros []. intros r [en Hr]. revert r Hr.
    change (triple in_header (at_ 2 en)
      (v <- read_u8 e ;; f <- read_u8 e ;; hl <- read_u32 e ;; toff <- read_u32 e ;; tlen <- read_u32 e ;;
       soff <- read_u32 e ;; slen <- read_u32 e ;;
       ret {| version := bval v; flags := bval f; hdr_len := hl; type_off := toff;
              type_len := tlen; str_off := soff; str_len := slen |})
      (fun fh r => fh_fits fh /\ exists en, at_ 24 en r)).
    eapply triple_bind; [apply triple_read_u8; [unfold in_header; lia|lia]|]. intros v. cbn beta.
    eapply triple_bind; [apply triple_read_u8; [unfold in_header; lia|lia]|]. intros f. cbn beta.
    eapply triple_bind; [apply triple_read_u32; [unfold in_header; lia|lia]|]. intros a. apply triple_pull. intros Ha.
    eapply triple_bind; [apply triple_read_u32; [unfold in_header; lia|lia]|]. intros b. apply triple_pull. intros Hb.
    eapply triple_bind; [apply triple_read_u32; [unfold in_header; lia|lia]|]. intros c. apply triple_pull. intros Hc.
    eapply triple_bind; [apply triple_read_u32; [unfold in_header; lia|lia]|]. intros d. apply triple_pull. intros Hd.
    eapply triple_bind; [apply triple_read_u32; [unfold in_header; lia|lia]|]. intros g. apply triple_pull. intros Hg.
    apply triple_ret. intros r Hr. split; [repeat split; assumption|]. exists en. exact Hr.
  Qed.

  Definition loaded (ti : type_information) : Prop :=
    exists ts, ti = tables ts /\ Forall type_fits ts /\ N.of_nat (length ts) < 2 ^ 32.

  (** [J ts o]: known once the types [ts] have been read and the reader is at
      [o]; [T o]: known at the data of an array with vlen 0. *)
  Definition tracks (fh : file_header) (en : endianness) (J : list type_variant -> N -> Prop) (T : N -> Prop) : Prop :=
    let thi := hdr_len fh + type_off fh + type_len fh in
    J [] (hdr_len fh + type_off fh) /\
    forall ts o r h r1, J ts o -> hdr_len fh + type_off fh <= o -> o < thi -> at_ o en r -> header_new e fh r = (Ok h, r1) ->
      (h_kind h = KArray -> h_vlen h = 0 -> T (o + 12)) /\
      (forall t r2, parse_type (h_kind h) e fh h r1 = (Ok t, r2) -> J (ts ++ [t]) (r_off r2)).

  Lemma triple_load_types fh en J T :
    fh_fits fh -> roomy e fh -> hdr_len fh + type_off fh < 2 ^ 32 -> tracks fh en J T ->
    triple (in_sections fh T) (at_ (hdr_len fh + type_off fh) en)
      (load_types e fh (hdr_len fh + type_off fh + type_len fh)) (fun ti _ => loaded ti).
  Proof.
    intros (Hhl & Hto & Htl & Hso & Hsl) Hroom Hlo32 [HJ0 HJ]. unfold u32 in *. unfold load_types.
    set (tlo := hdr_len fh + type_off fh). set (thi := tlo + type_len fh).
    eapply triple_pre.
    - apply triple_while with (n := type_len fh)
        (I := fun n st r => exists o ts, n = thi - o /\ tlo <= o /\ o <= thi + 12 /\
                 tid_generator st = 1 + N.of_nat (length ts) /\ maps st = tables ts /\ Forall type_fits ts /\
                 12 * N.of_nat (length ts) <= o - tlo /\ J ts o /\ at_ o en r); [|lia].
      intros n st r (o & ts & Hn & Ho & Hi & Htid & Hm & Hfit & Hlen & HJo & Hr). revert r Hr.
      match goal with |- forall r, at_ o en r -> exists new, r_trace (snd (?m r)) = _ /\ _ => 
        change (triple (in_sections fh T) (at_ o en) m
          (fun x r => match x with
           | inl s' => exists n', n' < n /\ exists o ts, n' = thi - o /\ tlo <= o /\ o <= thi + 12 /\
                 tid_generator s' = 1 + N.of_nat (length ts) /\ maps s' = tables ts /\ Forall type_fits ts /\
                 12 * N.of_nat (length ts) <= o - tlo /\ J ts o /\ at_ o en r
           | inr a => loaded a end)) end.
      eapply triple_bind; [apply triple_get_offset with (Q := fun x r => x = o /\ at_ o en r); auto|].
      intros x. apply triple_pull. intros ->.
      destruct (N.ltb_spec o thi) as [Hin|Hout].
      + eapply triple_bind.
        { apply triple_results with (X := fun h r1 => exists r, at_ o en r /\ header_new e fh r = (Ok h, r1)); [|eauto].
          apply triple_header_new; [assumption|assumption|subst tlo thi; lia]. }
        intros h. cbn beta. apply triple_pull2. intros r1 [(Hh & Hend & H32) Hr1] (r0 & Hr0 & Eh).
        destruct (HJ ts o r0 h r1 HJo Ho Hin Hr0 Eh) as [HT Hnext].
        eapply triple_bind.
        { apply triple_results with (X := fun t r2 => J (ts ++ [t]) (r_off r2)).
          - eapply triple_pre; [apply (parse_type_ok e fh T Hroom h (o + 12) en); try assumption; try (subst tlo thi; lia); intros k <-; exact Hh|].
            intros r Hr. subst r. exact Hr1.
          - intros r t r2 -> E2. apply (Hnext t r2 E2). }
        intros t. intros r [(Hft & o' & Ho1 & Ho2 & Hr') HJ']. rewrite (proj1 Hr') in HJ'. revert r Hr'.
        match goal with |- forall r, at_ o' en r -> exists new, r_trace (snd (?m r)) = _ /\ _ => 
        change (triple (in_sections fh T) (at_ o' en) m
          (fun x r => match x with
           | inl s' => exists n', n' < n /\ exists o ts, n' = thi - o /\ tlo <= o /\ o <= thi + 12 /\
                 tid_generator s' = 1 + N.of_nat (length ts) /\ maps s' = tables ts /\ Forall type_fits ts /\
                 12 * N.of_nat (length ts) <= o - tlo /\ J ts o /\ at_ o en r
           | inr a => loaded a end)) end.
        eapply triple_bind.
        { apply triple_add_u32 with (Q := fun x r => x = tid_generator st + 1 /\ at_ o' en r); [|auto].
          subst tlo thi. lia. }
        intros nx. apply triple_pull. intros ->. apply triple_ret. intros r Hr'.
        exists (thi - o'). split; [lia|]. exists o', (ts ++ [t]).
        cbn [tid_generator maps]. rewrite tables_snoc, app_length, Htid, Hm. cbn [length].
        repeat split; try lia; try apply Hr'.
        * apply Forall_app. auto.
        * exact HJ'.
      + apply triple_ret. intros r Hr. exists ts. repeat split; try assumption. subst tlo thi. lia.
    - intros r Hr. exists tlo, []. cbn [length tid_generator maps load_init]. repeat split; try lia; try apply Hr.
      + constructor.
      + exact HJ0.
  Qed.

  (** The outcome of a load and the requests it made: those for the header, then
      those for the records of the file header that was read. *)
  Definition good_load (T : file_header -> N -> Prop) (o : outcome error_kind type_information) (trace : list request) : Prop :=
    match o with
    | Ok ti => loaded ti /\ Forall answered trace
    | Err k => Forall answered trace \/
               exists q rest, trace = q :: rest /\ snd q = Fails k /\ Forall answered rest
    | _ => False
    end /\
    exists t2 t1, trace = t2 ++ t1 /\ Forall (fun q => in_header (q_off q) (q_len q)) t1 /\
      t1 = r_trace (snd (file_header_new e reader_new)) /\
      (t2 = [] \/ exists fh r1, file_header_new e reader_new = (Ok fh, r1) /\ fh_fits fh /\
         Forall (fun q => in_sections fh (T fh) (q_off q) (q_len q)) t2).

  Hypothesis Hroom : forall fh r1, file_header_new e reader_new = (Ok fh, r1) -> roomy e fh.
  Context (J : file_header -> list type_variant -> N -> Prop) (T : file_header -> N -> Prop).
  Hypothesis HJ : forall fh r1, file_header_new e reader_new = (Ok fh, r1) -> hdr_len fh + type_off fh < 2 ^ 32 ->
    tracks fh (r_end r1) (J fh) (T fh).
  Theorem load_good_room : good_load T (fst (load e reader_new)) (r_trace (snd (load e reader_new))).
  Proof.
    unfold load. destruct (triple_file_header_new reader_new eq_refl) as (t1 & Ht1 & [HR1 Hok1] & Hq1).
    unfold bind at 1 5. cbn [reader_new r_trace] in Ht1. rewrite app_nil_r in Ht1.
    destruct (file_header_new e reader_new) as [o1 r1] eqn:EF. cbn [fst snd] in Ht1, Hok1, Hq1.
    destruct o1 as [fh|k|p|]; [| |destruct Hok1|destruct Hok1].
    2:{ cbn [fst snd]. split; [rewrite Ht1; exact Hok1|].
        exists [], t1. rewrite Ht1, EF. auto. }
    destruct Hq1 as (Hfit & en & Hr1).
    assert (TL : triple (in_sections fh (T fh)) (at_ 24 en)
      (tss <- lift (ok_or InvalidTypeSectionOffset (checked 32 (hdr_len fh + type_off fh))) ;;
       tse <- lift (ok_or InvalidTypeSectionOffset (checked (usize_bits (cfg e)) (tss + type_len fh))) ;;
       set_offset tss ;;; load_types e fh tse) (fun ti _ => loaded ti)).
    { eapply triple_bind with (Q := fun x r => (x = hdr_len fh + type_off fh /\ x < 2 ^ 32) /\ at_ 24 en r).
      { apply triple_ok_or. intros a r Ha Hr. apply checked_Some in Ha. destruct Ha. subst. auto. }
      intros x. apply triple_pull. intros [Hx Hx32].
      eapply triple_bind with (Q := fun y r => y = x + type_len fh /\ at_ 24 en r).
      { apply triple_ok_or. intros a r Ha Hr. apply checked_Some in Ha. destruct Ha. subst. auto. }
      intros y. apply triple_pull. intros ->.
      eapply triple_bind; [apply triple_set_offset|]. intros []. cbn beta. subst x.
      apply triple_load_types with (J := J fh); [assumption|exact (Hroom fh r1 eq_refl)|assumption|].
      specialize (HJ fh r1 eq_refl Hx32). rewrite (proj2 Hr1) in HJ. exact HJ. }
    destruct (TL r1 Hr1) as (t2 & Ht2 & [HR2 Hok2] & Hq2).
    match goal with |- good_load T (fst (?m r1)) _ => destruct (m r1) as [o2 r2] end.
    cbn [fst snd] in *.
    split.
    - rewrite Ht2, Ht1. destruct o2 as [ti|k|p|]; try exact Hok2.
      + split; [exact Hq2|]. apply Forall_app; auto.
      + destruct Hok2 as [HA|(q & rest & -> & Hf & HA)].
        * left. apply Forall_app; auto.
        * right. exists q, (rest ++ t1). repeat split; auto. apply Forall_app; auto.
    - exists t2, t1. rewrite Ht2, Ht1, EF. repeat split; auto. right. exists fh, r1. auto.
  Qed.
End Load.

Definition anywhere : file_header -> N -> Prop := fun _ _ => True.
Lemma load_good e : usize_bits (cfg e) = 64 -> good_load e anywhere (fst (load e reader_new)) (r_trace (snd (load e reader_new))).
Proof.
  intros H. apply (load_good_room e) with (J := fun _ _ _ => True); [rewrite H; lia| |].
  - intros fh r1 _. split; rewrite H; lia.
  - intros fh r1 _ _. split; [exact I|]. intros. split; [intros; exact I|]. intros; exact I.
Qed.
