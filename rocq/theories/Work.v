(** * Work: how many requests a load makes. *)
From Coq Require Import List NArith ZArith Bool Lia ZifyBool ZifyNat ZifyN Strings.Byte.
From Verif Require Import TypeInfo Spec BaseFacts Safety Exact LoadProps LoadProps2 Encode.
Import ListNotations.
Open Scope N_scope.

Definition got (q : request) : bool := match snd q with Bytes _ => true | Fails _ => false end.
Definition is_word (q : request) : bool := got q && (4 <=? q_len q).
Definition is_byte (q : request) : bool := got q && negb (4 <=? q_len q).
(** Answered requests for a word, and for one byte. *)
Definition words (l : list request) : N := N.of_nat (length (filter is_word l)).
Definition bytes (l : list request) : N := N.of_nat (length (filter is_byte l)).
Lemma words_app a b : words (a ++ b) = words a + words b.
Proof. unfold words. rewrite filter_app, app_length. lia. Qed.
Lemma bytes_app a b : bytes (a ++ b) = bytes a + bytes b.
Proof. unfold bytes. rewrite filter_app, app_length. lia. Qed.
Lemma counted l : Forall answered l -> N.of_nat (length l) = words l + bytes l.
Proof.
  unfold words, bytes. induction 1 as [|q l A _ IH]; [reflexivity|]. cbn [filter length]. unfold is_word at 1, is_byte at 1, got. unfold answered in A.
  destruct (snd q); [|destruct A]. cbn [andb]. destruct (4 <=? q_len q); cbn [negb length]; lia.
Qed.

Section Spend.
  Context (e : env) (fh : file_header) (top : N).
  Hypothesis H64 : usize_bits (cfg e) = 64.
  Notation S := (N.min (str_len fh) top).
  Definition near (q : request) : Prop := answered q -> q_off q + q_len q < 2 ^ 64 /\ q_off q + q_len q <= top.
  (** [m] may spend [a] and leaves [b]: a word earns [S], a name costs [2 * S]. *)
  Definition spends {A} (m : M A) (a b : N) : Prop := forall r, exists new,
    r_trace (snd (m r)) = new ++ r_trace r /\
    (Forall near new ->
     2 * bytes new <= S * words new + a /\
     (words new = 0 \/ exists q, In q new /\ is_word q = true /\ r_off r + 4 * (words new - 1) <= q_off q) /\
     match fst (m r) with
     | Ok _ => 2 * bytes new + b <= S * words new + a /\ r_off r + 4 * words new <= r_off (snd (m r))
     | _ => True
     end).

  Lemma sp_bind {A B} (m : M A) (k : A -> M B) a b c : spends m a b -> (forall x, spends (k x) b c) -> spends (bind m k) a c.
  Proof.
    intros Hm Hk r. destruct (Hm r) as (new & E & H). unfold bind. destruct (m r) as [[x|k'|p|] r1] eqn:Em; cbn [fst snd] in *;
      try (exists new; split; [exact E|]; intros F; destruct (H F) as (H1 & H2 & _); auto; fail).
    destruct (Hk x r1) as (new2 & E2 & H2). exists (new2 ++ new). rewrite E2, E, app_assoc. split; [reflexivity|]. intros F. apply Forall_app in F. destruct F as [F2 F].
    destruct (H F) as (H1 & Hq & H3 & H4). destruct (H2 F2) as (K1 & Kq & K3). rewrite words_app, bytes_app. split; [lia|]. split.
    - destruct Kq as [Z|(q & I & W & L)].
      + rewrite Z. destruct Hq as [Z'|(q & I & W & L)]; [left; lia|]. right. exists q. split; [apply in_or_app; auto|]. split; [exact W|]. lia.
      + right. exists q. split; [apply in_or_app; auto|]. split; [exact W|].
        assert (words new2 <> 0). { intros Z. unfold words in Z. assert (I' : In q (filter is_word new2)) by (apply filter_In; auto). destruct (filter is_word new2); [destruct I'|cbn in Z; lia]. }
        lia.
    - destruct (fst (k x r1)); auto. lia.
  Qed.
  Lemma sp_weaken {A} (m : M A) a b a' b' : spends m a b -> a <= a' -> b' + a <= b + a' -> spends m a' b'.
  Proof.
    intros Hm H1 H2 r. destruct (Hm r) as (new & E & H). exists new. split; [exact E|]. intros F. destruct (H F) as (K1 & K2 & K3). split; [lia|]. split; [exact K2|].
    destruct (fst (m r)); auto. lia.
  Qed.
  Lemma sp_quiet {A} (m : M A) a : (forall r, r_trace (snd (m r)) = r_trace r /\ match fst (m r) with Ok _ => r_off r <= r_off (snd (m r)) | _ => True end) -> spends m a a.
  Proof.
    intros H r. destruct (H r) as [E H']. exists []. split; [exact E|]. intros _. unfold bytes, words. cbn. split; [lia|]. split; [auto|].
    destruct (fst (m r)); auto. lia.
  Qed.
  Lemma sp_ret {A} (x : A) a : spends (ret x) a a.
  Proof. apply sp_quiet. intros r. cbn. split; [reflexivity|lia]. Qed.
  Lemma sp_fail {A} k a b : spends (@fail A k) a b.
  Proof. intros r. exists []. split; [reflexivity|]. intros _. unfold bytes, words. cbn. split; [lia|]. auto. Qed.
  Lemma sp_lift {A} (o : outcome error_kind A) a : spends (lift o) a a.
  Proof. apply sp_quiet. intros r. cbn. split; [reflexivity|]. destruct o; auto. lia. Qed.
  Lemma sp_get_offset a : spends get_offset a a.
  Proof. apply sp_quiet. intros r. cbn. split; [reflexivity|lia]. Qed.
  Lemma sp_word n a : 4 <= n -> spends (read_uint e n) a (a + S).
  Proof.
    intros Hn r. unfold read_uint, bind, read. destruct (rd e (r_trace r) (r_off r) n) as [bs|k].
    - exists [(r_off r, n, Bytes bs)]. assert (W : is_word (r_off r, n, Bytes bs) = true) by (unfold is_word; cbn; lia).
      assert (Hw : words [(r_off r, n, Bytes bs)] = 1) by (unfold words; cbn [filter]; rewrite W; reflexivity).
      assert (Wb : is_byte (r_off r, n, Bytes bs) = false) by (unfold is_byte; cbn; lia).
      assert (Hb : bytes [(r_off r, n, Bytes bs)] = 0) by (unfold bytes; cbn [filter]; rewrite Wb; reflexivity). rewrite Hw, Hb. split.
      + destruct (add_usize (cfg e) (r_off r) n); reflexivity.
      + intros F. inversion F as [|? ? Q _]. subst. destruct (Q I) as [Q' _]. cbn in Q'. unfold add_usize. rewrite H64, wrap_small by exact Q'. cbn [fst snd r_off with_offset].
        split; [lia|]. split; [|lia]. right. eexists. split; [left; reflexivity|]. split; [exact W|]. cbn. lia.
    - exists [(r_off r, n, Fails k)]. split; [reflexivity|]. intros _. unfold words, bytes, is_word, is_byte. cbn. split; [lia|]. auto.
  Qed.
  Lemma sp_u32 a : spends (read_u32 e) a (a + S). Proof. apply sp_word. lia. Qed.
  Lemma sp_u64 a : spends (read_u64 e) a (a + S). Proof. apply sp_word. lia. Qed.

  (** ** Names *)
  Definition scan (sse back : N) (acc : str) : M (str + str) :=
    o <- get_offset ;; o1 <- lift (add_usize (cfg e) o 1) ;;
    if sse <? o1 then fail InvalidString else
    c <- inspect_err (read_u8 e) (with_offset back) ;;
    if bval c =? 0 then ret (inr acc) else ret (inl (push_char acc c)).
  Lemma scan_step sse back acc r : sse < 2 ^ 32 -> r_off r <= sse ->
    exists new, r_trace (snd (scan sse back acc r)) = new ++ r_trace r /\
      match fst (scan sse back acc r) with
      | Ok _ => r_off r < sse /\ r_off (snd (scan sse back acc r)) = r_off r + 1 /\ exists bs, new = [(r_off r, 1, Bytes bs)]
      | Err _ => words new = 0 /\ bytes new = 0
      | _ => r_off r < sse /\ exists bs, new = [(r_off r, 1, Bytes bs)]
      end.
  Proof.
    intros Hb Ho.
    assert (E : scan sse back acc r = if sse <? r_off r + 1 then (Err InvalidString, r) else
      (c <- inspect_err (read_u8 e) (with_offset back) ;; if bval c =? 0 then ret (inr acc) else ret (inl (push_char acc c))) r).
    { unfold scan. unfold bind at 1. cbn [get_offset]. unfold bind at 1. unfold lift, add_usize. rewrite H64, wrap_small by lia. destruct (sse <? r_off r + 1); reflexivity. }
    rewrite E. clear E. destruct (N.ltb_spec sse (r_off r + 1)) as [L|L]; [exists []; repeat split; reflexivity|].
    unfold inspect_err, read_u8, bind, read. destruct (rd e (r_trace r) (r_off r) 1) as [bs|k].
    - unfold add_usize. rewrite H64, wrap_small by lia. exists [(r_off r, 1, Bytes bs)].
      destruct (fit (N.to_nat 1) bs) as [|x ?]; [split; [reflexivity|]; split; [lia|]; eexists; reflexivity|]. cbn [ret]. destruct (bval x =? 0); (split; [reflexivity|]; split; [lia|]; split; [reflexivity|]; eexists; reflexivity).
    - exists [(r_off r, 1, Fails k)]. repeat split; reflexivity.
  Qed.
  Lemma one_byte o bs : words [(o, 1, Bytes bs)] = 0 /\ bytes [(o, 1, Bytes bs)] = 1.
  Proof. split; reflexivity. Qed.
  Lemma scan_requests sse back : sse < 2 ^ 32 -> forall n acc r, r_off r <= sse ->
    exists new, r_trace (snd (while_nat n (scan sse back) acc r)) = new ++ r_trace r /\
      (Forall near new -> words new = 0 /\ (bytes new = 0 \/ bytes new + r_off r <= sse /\ bytes new + r_off r <= top)).
  Proof.
    intros Hb. induction n as [|n IH]; intros acc r Ho; [exists []; repeat split; auto|].
    cbn [while_nat]. unfold bind. destruct (scan_step sse back acc r Hb Ho) as (new1 & E & Q).
    destruct (scan sse back acc r) as [[[acc'|x]|k|p|] r']; cbn [fst snd ret] in *.
    1:{ destruct Q as (Q1 & Q2 & bs & ->). destruct (IH acc' r') as (new & E' & F); [lia|]. exists (new ++ [(r_off r, 1, Bytes bs)]). rewrite E', E, <- app_assoc. split; [reflexivity|].
        intros N. apply Forall_app in N. destruct N as [N1 N2]. destruct (F N1) as [F1 F2]. rewrite words_app, bytes_app. destruct (one_byte (r_off r) bs) as [-> ->].
        inversion N2 as [|? ? P _]. subst. destruct (P I) as [_ P']. cbn in P'. split; [lia|]. right. lia. }
    2:{ destruct Q as [Q1 Q2]. exists new1. split; [exact E|]. auto. }
    1: destruct Q as (Q1 & _ & bs & ->). 2,3: destruct Q as (Q1 & bs & ->).
    all: exists [(r_off r, 1, Bytes bs)]; split; [exact E|]; intros N; destruct (one_byte (r_off r) bs) as [-> ->];
        inversion N as [|? ? P _]; subst; destruct (P I) as [_ P']; cbn in P'; split; [reflexivity|]; right; lia.
  Qed.
  Lemma sp_lift_bind {A B} (o : outcome error_kind A) (k : A -> M B) a c : (forall x, o = Ok x -> spends (k x) a c) -> spends (bind (lift o) k) a c.
  Proof.
    intros H. destruct o as [x|k'|p|]; [exact (H x eq_refl)| | |]; intros r; (exists []; split; [reflexivity|]; intros _; unfold bytes, words; cbn; split; [lia|]; auto).
  Qed.
  Lemma sp_string k a : 2 * S <= a -> spends (parse_string e fh k) a (a - 2 * S).
  Proof.
    intros Ha. unfold parse_string. apply sp_lift_bind. intros sss E1. apply sp_lift_bind. intros sse E2. apply sp_lift_bind. intros so E3.
    destruct (checked 32 (hdr_len fh + str_off fh)) as [x1|] eqn:C1; [|discriminate]. injection E1 as ->. apply checked_Some in C1. destruct C1 as [C1 _].
    destruct (checked 32 (sss + str_len fh)) as [x2|] eqn:C2; [|discriminate]. injection E2 as ->. apply checked_Some in C2. destruct C2 as [C2 C2'].
    destruct (checked 32 (sss + k)) as [x3|] eqn:C3; [|discriminate]. injection E3 as ->. apply checked_Some in C3. destruct C3 as [C3 _].
    destruct (N.leb_spec sse so) as [L|L]; [apply sp_fail|]. intros r.
    match goal with |- exists new, r_trace (snd (?m r)) = _ /\ _ => assert (EQ : m r =
      match while_nat (N.to_nat (sse - so + 1)) (scan sse (r_off r)) [] (with_offset so r) with
      | (Ok x, r1) => (Ok x, with_offset (r_off r) r1) | (Err k, r1) => (Err k, r1) | (Panic p, r1) => (Panic p, r1) | (Diverge, r1) => (Diverge, r1) end) end.
    { unfold bind at 1. cbn [get_offset]. unfold bind at 1. cbn [set_offset]. unfold bind at 1. rewrite while_M_nat. unfold scan.
      destruct (while_nat _ _ _ _) as [[x|k'|p|] r1]; reflexivity. }
    rewrite EQ. clear EQ.
    destruct (scan_requests sse (r_off r) ltac:(lia) (N.to_nat (sse - so + 1)) [] (with_offset so r)) as (new & E & F); [cbn; lia|]. cbn [with_offset r_off] in F.
    destruct (while_nat _ _ _ _) as [o r1]. cbn [fst snd] in E. cbn [with_offset r_trace] in E.
    exists new. split; [destruct o; exact E|]. intros N. destruct (F N) as [Zw Zb]. rewrite Zw. split; [lia|]. split; [left; reflexivity|].
    destruct o; try exact I. cbn [fst snd with_offset r_off]. lia.
  Qed.
  Lemma sp_name k a : 2 * S <= a -> spends (parse_name_opt e fh k) a (a - 2 * S).
  Proof.
    intros Ha. unfold parse_name_opt. destruct (negb (k =? 0)).
    - eapply sp_bind; [apply sp_string; exact Ha|]. intros s. apply sp_ret.
    - eapply sp_weaken; [apply (sp_ret _ a)| |]; lia.
  Qed.
  Lemma sp_repeat {A} n (m : M A) a : spends m a a -> spends (repeat_M n m) a a.
  Proof.
    intros H. induction n as [|n IH]; cbn [repeat_M]; [apply sp_ret|]. eapply sp_bind; [exact H|]. intros x. eapply sp_bind; [exact IH|]. intros l. apply sp_ret.
  Qed.
  Lemma sp_while {St A} (body : St -> M (St + A)) a : (forall s, spends (body s) a a) -> forall n s, spends (while_nat n body s) a a.
  Proof.
    intros H. induction n as [|n IH]; intros s; cbn [while_nat]; [apply sp_lift|]. eapply sp_bind; [apply H|]. intros [s'|x]; [apply IH|apply sp_ret].
  Qed.
  Lemma sp_less {A} (m : M A) a b c : spends m a b -> c <= b -> spends m a c.
  Proof. intros H L. eapply sp_weaken; [exact H| |]; lia. Qed.

  Lemma sp_header a : spends (header_new e fh) a (a + 3 * S).
  Proof.
    unfold header_new. apply sp_lift_bind. intros tss _. apply sp_lift_bind. intros tse _. eapply sp_bind; [apply sp_get_offset|]. intros o. apply sp_lift_bind. intros stop _.
    destruct (tse <? stop); [apply sp_fail|]. eapply sp_bind; [apply sp_u32|]. intros no. eapply sp_bind; [apply sp_u32|]. intros info. apply sp_lift_bind. intros k _.
    eapply sp_bind; [apply sp_u32|]. intros st. eapply sp_less; [apply sp_ret|lia].
  Qed.
  Lemma sp_define {D} K size (dn : env -> file_header -> header -> M D) h a b : spends (dn e fh h) a b -> spends (define_type_new K size dn e fh h) a b.
  Proof.
    intros H. unfold define_type_new. destruct (negb _); [apply sp_fail|]. apply sp_lift_bind. intros n _. eapply sp_bind; [|intros []; exact H].
    destruct (0 <? n); [|apply sp_ret]. apply sp_lift_bind. intros x _. apply sp_lift_bind. intros y _. eapply sp_bind; [apply sp_get_offset|]. intros o.
    destruct (o <? x); [apply sp_fail|]. apply sp_lift_bind. intros z _. destruct (y <? z); [apply sp_fail|apply sp_ret].
  Qed.
  Ltac word := eapply sp_bind; [first [apply sp_u32|apply sp_u64]|intros ?].
  Ltac name := eapply sp_bind; [apply sp_name; lia|intros ?].
  Ltac done := eapply sp_less; [apply sp_ret|lia].
  Lemma sp_member h a : spends (parse_member e fh h) a a.
  Proof. unfold parse_member. do 3 word. name. apply sp_lift_bind. intros off _. done. Qed.
  Lemma sp_value32 sg a : S <= a -> spends (parse_named_value32 e fh sg) a a.
  Proof.
    intros Ha. unfold parse_named_value32. word. eapply sp_bind; [apply sp_string; lia|]. intros n. destruct sg; [unfold read_i32|word; done].
    eapply sp_bind; [word; apply sp_ret|]. intros v. done.
  Qed.
  Lemma sp_value64 sg a : S <= a -> spends (parse_named_value64 e fh sg) a a.
  Proof.
    intros Ha. unfold parse_named_value64. word. eapply sp_bind; [apply sp_string; lia|]. intros n. destruct sg; [unfold read_i64|word; done].
    eapply sp_bind; [word; apply sp_ret|]. intros v. done.
  Qed.
  Lemma sp_parameter a : spends (parse_parameter e fh) a a.
  Proof. unfold parse_parameter. do 2 word. name. done. Qed.
  Lemma sp_variable a : spends (parse_variable e) a a.
  Proof. unfold parse_variable. do 3 word. done. Qed.
  Lemma sp_type k h a : spends (parse_type k e fh h) (a + 3 * S) a.
  Proof.
    assert (T : forall D K size (dn : env -> file_header -> header -> M D) (mk : D -> type_variant), spends (dn e fh h) (a + 3 * S) a ->
      spends (d <- define_type_new K size dn e fh h ;; ret (mk d)) (a + 3 * S) a).
    { intros D K size dn mk H. eapply sp_bind; [apply sp_define; exact H|]. intros d. apply sp_ret. }
    assert (L : spends (link_data_new e fh h) (a + 3 * S) a) by (unfold link_data_new; done).
    assert (NL : spends (named_link_data_new e fh h) (a + 3 * S) a) by (unfold named_link_data_new; name; done).
    assert (ST : spends (struct_data_new e fh h) (a + 3 * S) a).
    { unfold struct_data_new. eapply sp_bind; [apply sp_repeat, sp_member|]. intros l. name. done. }
    destruct k; cbn [parse_type]; apply T; try assumption.
    - unfold int_data_new. word. name. done.
    - unfold array_data_new. do 3 word. done.
    - unfold enum_data_new. eapply sp_bind; [apply sp_repeat, sp_value32; lia|]. intros l. name. done.
    - unfold func_proto_data_new. eapply sp_bind; [apply sp_repeat, sp_parameter|]. intros l. done.
    - unfold var_data_new. word. name. done.
    - unfold data_sec_data_new. eapply sp_bind; [apply sp_repeat, sp_variable|]. intros l. name. done.
    - unfold float_data_new. name. done.
    - unfold decl_tag_data_new. word. name. done.
    - unfold enum64_data_new. eapply sp_bind; [apply sp_repeat, sp_value64; lia|]. intros l. name. done.
  Qed.
  Lemma sp_load_types tse : spends (load_types e fh tse) 0 0.
  Proof.
    unfold load_types. intros r. rewrite while_M_nat. revert r. match goal with |- forall r, exists new, r_trace (snd (?m r)) = _ /\ _ => change (spends m 0 0) end.
    apply sp_while. intros st. eapply sp_bind; [apply sp_get_offset|]. intros o. destruct (o <? tse); [|apply sp_ret].
    eapply sp_bind; [apply sp_header|]. intros h. eapply sp_bind; [apply (sp_type _ _ 0)|]. intros t. apply sp_lift_bind. intros nx _. apply sp_ret.
  Qed.
End Spend.

(** ** The header *)
Definition at3 (o : N) (en : endianness) (tr : list request) : reader := {| r_off := o; r_end := en; r_trace := tr |}.
Lemma read_uint_at e n o en tr : usize_bits (cfg e) = 64 -> o + n < 2 ^ 64 -> read_uint e n (at3 o en tr) =
  match rd e tr o n with
  | Bytes bs => (Ok (value en (fit (N.to_nat n) bs)), at3 (o + n) en ((o, n, Bytes bs) :: tr))
  | Fails k => (Err k, at3 o en ((o, n, Fails k) :: tr))
  end.
Proof.
  intros H L. unfold read_uint, bind, read. cbn [at3 r_trace r_off r_end]. destruct (rd e tr o n) as [bs|k]; [|reflexivity].
  unfold add_usize. rewrite H, wrap_small by exact L. rewrite value_eq. destruct en; reflexivity.
Qed.
Lemma read_u8_at e o en tr : usize_bits (cfg e) = 64 -> o + 1 < 2 ^ 64 -> exists b,
  read_u8 e (at3 o en tr) =
  match rd e tr o 1 with
  | Bytes bs => (Ok b, at3 (o + 1) en ((o, 1, Bytes bs) :: tr))
  | Fails k => (Err k, at3 o en ((o, 1, Fails k) :: tr))
  end.
Proof.
  intros H L. unfold read_u8, bind, read. cbn [at3 r_trace r_off r_end]. destruct (rd e tr o 1) as [bs|k]; [|exists x00; reflexivity].
  unfold add_usize. rewrite H, wrap_small by exact L. pose proof (length_fit (N.to_nat 1) bs) as F. destruct (fit (N.to_nat 1) bs) as [|b l]; [discriminate|]. exists b. reflexivity.
Qed.
(** What the Readable left in the [n]-byte buffer. *)
Definition buffer (n : nat) (bs : list byte) : list byte := firstn n (bs ++ repeat x00 n).
Lemma header_trace e : usize_bits (cfg e) = 64 ->
  match file_header_new e reader_new with
  | (Ok fh, r1) => exists b20 b16 b12 b8 b4 b3 b2 b0, let en := r_end r1 in
      r_trace r1 = [(20, 4, Bytes b20); (16, 4, Bytes b16); (12, 4, Bytes b12); (8, 4, Bytes b8); (4, 4, Bytes b4); (3, 1, Bytes b3); (2, 1, Bytes b2); (0, 2, Bytes b0)] /\
      buffer 2 b0 = magic en /\ hdr_len fh = value en (buffer 4 b4) /\ type_off fh = value en (buffer 4 b8) /\ type_len fh = value en (buffer 4 b12) /\
      str_off fh = value en (buffer 4 b16) /\ str_len fh = value en (buffer 4 b20)
  | (_, r1) => (length (r_trace r1) <= 8)%nat
  end.
Proof.
  intros H. unfold file_header_new. unfold bind at 1. cbn [set_offset]. unfold detect_endianness.
  change (with_offset 0 reader_new) with (at3 0 Little []).
  rewrite bind_assoc. unfold bind at 1. unfold read_u16. rewrite read_uint_at by (try exact H; lia).
  destruct (rd e [] 0 2) as [b0|k]; [|cbn; lia]. change (0 + 2) with 2. cbv beta iota.
  pose proof (length_fit (N.to_nat 2) b0) as L2. destruct (magic_word e H (fit (N.to_nat 2) b0) L2) as [ML MB].
  rewrite value_eq.
  match goal with |- match bind ?g ?k ?s with _ => _ end => assert (G : (exists en, buffer 2 b0 = magic en /\ bind g k s = k tt (at3 2 en (r_trace s))) \/ bind g k s = (Err InvalidMagic, s)) end.
  { destruct (N.eqb_spec (from_le_bytes (fit (N.to_nat 2) b0)) BTF_LITTLE_ENDIAN_MAGIC) as [C|_]; [left; exists Little; split; [apply ML, C|reflexivity]|].
    destruct (N.eqb_spec (from_le_bytes (fit (N.to_nat 2) b0)) BTF_BIG_ENDIAN_MAGIC) as [C|_]; [left; exists Big; split; [apply MB, C|reflexivity]|].
    right. reflexivity. }
  destruct G as [(en & MG & G)|G]; rewrite G; clear G; [|cbn; lia]. cbn [at3 r_trace].
  clear ML MB L2.
  Ltac byte_step H b := unfold bind at 1; match goal with |- context [read_u8 ?e (at3 ?o ?en ?tr)] => let v := fresh "v" in let E := fresh "E" in
    destruct (read_u8_at e o en tr H ltac:(lia)) as [v E]; rewrite E; clear E; destruct (rd e tr o 1) as [b|k]; [|cbn; lia] end; cbv beta iota.
  Ltac word_step H b := unfold bind at 1; unfold read_u32 at 1; rewrite read_uint_at by (try exact H; lia);
    match goal with |- context [match rd ?e ?tr ?o 4 with _ => _ end] => destruct (rd e tr o 4) as [b|k]; [|cbn; lia] end; cbv beta iota.
  byte_step H b2. change (2 + 1) with 3. byte_step H b3. change (3 + 1) with 4.
  word_step H b4. change (4 + 4) with 8. word_step H b8. change (8 + 4) with 12. word_step H b12. change (12 + 4) with 16.
  word_step H b16. change (16 + 4) with 20. word_step H b20.
  exists b20, b16, b12, b8, b4, b3, b2, b0. cbn [at3 r_end r_trace hdr_len type_off type_len str_off str_len ret].
  split; [reflexivity|]. split; [exact MG|]. repeat split; reflexivity.
Qed.

(** ** The whole load *)
Lemma load_work e top : usize_bits (cfg e) = 64 -> Forall (fun q => answered q -> q_off q + q_len q <= top) (requests e) ->
  (length (requests e) <= 8)%nat \/
  exists fh r1 newer, file_header_new e reader_new = (Ok fh, r1) /\ requests e = newer ++ r_trace r1 /\
    8 * N.of_nat (length newer) <= 8 + (N.min (type_len fh + 12) (top - (hdr_len fh + type_off fh))) * (2 + N.min (str_len fh) top).
Proof.
  intros H Htop. pose proof (header_trace e H) as HT. destruct (load_good e H) as [Hans (t2 & t1 & Et & _ & Et1 & Hsec)].
  unfold requests in *. destruct (file_header_new e reader_new) as [[fh|k|p|] r1] eqn:Eh.
  2-4: left; unfold load, bind; rewrite Eh; exact HT.
  destruct HT as (b20 & b16 & b12 & b8 & b4 & b3 & b2 & b0 & T & _).
  assert (L : exists newer, r_trace (snd (load e reader_new)) = newer ++ r_trace r1 /\
     (newer = [] \/ (Forall (near top) newer -> 2 * bytes newer <= N.min (str_len fh) top * words newer /\
        (words newer = 0 \/ exists q, In q newer /\ is_word q = true /\ hdr_len fh + type_off fh + 4 * (words newer - 1) <= q_off q)))).
  { unfold load, bind at 1. rewrite Eh.
    destruct (checked 32 (hdr_len fh + type_off fh)) as [tss|] eqn:C1; [|exists []; split; [reflexivity|auto]].
    destruct (checked (usize_bits (cfg e)) (tss + type_len fh)) as [tse|] eqn:C2; [|exists []; split; [|auto]; unfold bind; cbn [ok_or lift]; rewrite C2; reflexivity].
    unfold bind. cbn [ok_or lift]. rewrite C2. cbn [ok_or lift set_offset].
    destruct (sp_load_types e fh top H tse (with_offset tss r1)) as (new & E & F). exists new. split; [exact E|]. right. intros N. destruct (F N) as (F1 & F2 & _).
    rewrite N.add_0_r in F1. split; [exact F1|]. apply checked_Some in C1. destruct C1 as [-> _]. exact F2. }
  destruct L as (newer & EL & [->|L]); [right; exists fh, r1, []; split; [reflexivity|]; split; [exact EL|cbn; lia]|].
  right. exists fh, r1, newer. split; [reflexivity|]. split; [exact EL|].
  (* which requests lie where *)
  assert (R : Forall (fun q => near top q /\ (is_word q = true -> q_off q + 4 <= hdr_len fh + type_off fh + type_len fh + 12 /\ q_off q + 4 <= top)) newer).
  { rewrite EL, Et1 in Et. cbn [snd] in Et. apply Forall_forall. intros q Hq.
    assert (Tq : answered q -> q_off q + q_len q <= top) by (rewrite Forall_forall in Htop; apply Htop; rewrite EL; apply in_or_app; auto).
    apply app_inv_tail in Et. subst t2. destruct Hsec as [->|(fh' & r1' & E & Hfit & Hs)]; [destruct Hq|]. injection E as <- <-.
    rewrite Forall_forall in Hs. destruct (Hs q Hq) as [_ Hr]. destruct Hfit as (? & ? & ? & ? & ?). unfold u32 in *.
    assert (Nq : q_off q + q_len q < 2 ^ 64) by (destruct Hr as [(? & ? & ?)|[(? & ? & ?)|(? & o & _ & ? & ? & ? & ?)]]; lia).
    split; [intros A; auto|]. intros W. unfold is_word in W. apply andb_true_iff in W. destruct W as [G W].
    assert (A : answered q) by (unfold answered, got in *; destruct (snd q); [exact I|discriminate]). specialize (Tq A).
    destruct Hr as [(? & ? & ?)|[(? & ? & ?)|(? & o & _ & ? & ? & ? & ?)]]; lia. }
  assert (Nr : Forall (near top) newer) by (eapply Forall_impl; [|exact R]; intros q [? _]; assumption).
  destruct (L Nr) as [L1 L2].
  assert (C : N.of_nat (length newer) <= words newer + bytes newer + 1).
  { rewrite EL in Hans. destruct (fst (load e reader_new)) as [ti|k|p|]; try destruct Hans.
    - apply Forall_app in H1. destruct H1 as [A _]. rewrite (counted newer A). lia.
    - apply Forall_app in H0. destruct H0 as [A _]. rewrite (counted newer A). lia.
    - destruct H0 as (q & rest & E & _ & A). destruct newer as [|q' newer]; [cbn; lia|]. injection E as -> E.
      rewrite <- E in A. apply Forall_app in A. destruct A as [A _]. pose proof (counted newer A) as X.
      change (q :: newer) with ([q] ++ newer). rewrite words_app, bytes_app, app_length. cbn [length]. lia. }
  assert (W : 4 * words newer <= N.min (type_len fh + 12) (top - (hdr_len fh + type_off fh))).
  { destruct L2 as [Z|(q & I & W & Lq)]; [rewrite Z; lia|]. rewrite Forall_forall in R. destruct (R q I) as [_ R2]. specialize (R2 W). lia. }
  assert (8 * N.of_nat (length newer) <= 8 + (4 * words newer) * (2 + N.min (str_len fh) top)) by nia.
  etransitivity; [exact H0|]. apply N.add_le_mono_l. apply N.mul_le_mono_r. exact W.
Qed.

Lemma work_image e img : usize_bits (cfg e) = 64 -> serves (rd e) img ->
  Forall (fun q => answered q -> q_off q + q_len q <= N.of_nat (length img)) (requests e).
Proof.
  intros H Hs. apply Forall_forall. intros q Hq A. destruct (load_good e H) as [_ (t2 & t1 & Et & Hh & _ & Hsec)].
  assert (P : 0 < q_len q /\ q_off q + q_len q < 2 ^ 64).
  { unfold requests in Hq. rewrite Et in Hq. apply in_app_or in Hq. destruct Hq as [Hq|Hq].
    - destruct Hsec as [->|(fh & r1 & _ & (F1 & F2 & F3 & F4 & F5) & Hs2)]; [destruct Hq|]. rewrite Forall_forall in Hs2. destruct (Hs2 q Hq) as [P R]. split; [exact P|]. unfold u32 in *.
      destruct R as [(? & ? & ?)|[(? & ? & ?)|(? & o & _ & ? & ? & ? & ?)]]; lia.
    - rewrite Forall_forall in Hh. specialize (Hh q Hq). unfold in_header in Hh. lia. }
  destruct (in_split q (requests e) Hq) as (l1 & l2 & E). destruct q as [[off n] a]. cbn [q_off q_len fst snd] in *.
  pose proof (requests_honest e l1 off n a l2 E) as Hr. destruct (Hs l2 off n ltac:(lia) ltac:(lia)) as [_ K].
  destruct (N.le_gt_cases (off + n) (N.of_nat (length img))) as [L|L]; [exact L|]. destruct (K L) as [k Ek]. rewrite Ek in Hr. subst a. destruct A.
Qed.
Lemma work_anywhere e : usize_bits (cfg e) = 64 -> Forall (fun q => answered q -> q_off q + q_len q <= 2 ^ 64) (requests e).
Proof.
  intros H. apply Forall_forall. intros q Hq _. destruct (load_good e H) as [_ (t2 & t1 & Et & Hh & _ & Hsec)].
  unfold requests in Hq. rewrite Et in Hq. apply in_app_or in Hq. destruct Hq as [Hq|Hq].
  - destruct Hsec as [->|(fh & r1 & _ & (F1 & F2 & F3 & F4 & F5) & Hs2)]; [destruct Hq|]. rewrite Forall_forall in Hs2. destruct (Hs2 q Hq) as [P R]. unfold u32 in *.
    destruct R as [(? & ? & ?)|[(? & ? & ?)|(? & o & _ & ? & ? & ? & ?)]]; lia.
  - rewrite Forall_forall in Hh. specialize (Hh q Hq). unfold in_header in Hh. lia.
Qed.
