(** Loading on a 32-bit target when the file is shorter than 4 GiB - 1 MiB: the only sum that can overflow is the end of
    the first record (C02, C59). *)
From Coq Require Import List NArith Lia ZifyBool.
From Verif Require Import Base BaseFacts Bits Reader Format TypeInfo Spec Safety Local LoadProps LoadProps2 Exact Release32.
Import ListNotations.
Open Scope N_scope.

(** From a reader with [P]: no panic, and [Q] when there is a result. *)
Definition low {A} (P : reader -> Prop) (m : M A) (Q : A -> reader -> Prop) : Prop :=
  forall r, P r -> (forall p, fst (m r) <> Panic p) /\ forall a r', m r = (Ok a, r') -> Q a r'.

Lemma low_ret {A} (a : A) (P : reader -> Prop) (Q : A -> reader -> Prop) : (forall r, P r -> Q a r) -> low P (ret a) Q.
Proof. intros H r Hr. split; [discriminate|]. intros a' r' E. injection E as <- <-. auto. Qed.
Lemma low_fail {A} k P (Q : A -> reader -> Prop) : low P (fail k) Q.
Proof. intros r Hr. split; discriminate. Qed.
Lemma low_lift {A} (o : outcome error_kind A) (P : reader -> Prop) (Q : A -> reader -> Prop) :
  (forall p, o <> Panic p) -> (forall a r, o = Ok a -> P r -> Q a r) -> low P (lift o) Q.
Proof. intros H1 H2 r Hr. split; [exact H1|]. intros a r' E. injection E as E <-. auto. Qed.
Lemma low_ok_or {A} k (x : option A) (P : reader -> Prop) (Q : A -> reader -> Prop) :
  (forall a r, x = Some a -> P r -> Q a r) -> low P (lift (ok_or k x)) Q.
Proof. intros H. apply low_lift; destruct x as [a|]; cbn; try discriminate. intros a' r E. injection E as <-. auto. Qed.
Lemma low_bind {A B} (m : M A) (k : A -> M B) P (Q : A -> reader -> Prop) Q' :
  low P m Q -> (forall a, low (Q a) (k a) Q') -> low P (bind m k) Q'.
Proof.
  intros Hm Hk r Hr. destruct (Hm r Hr) as [N1 S1]. unfold bind. destruct (m r) as [[a|x|p|] r1] eqn:E; cbn [fst] in *.
  - apply Hk. apply S1. reflexivity.
  - split; discriminate.
  - exfalso. exact (N1 p eq_refl).
  - split; discriminate.
Qed.
Lemma low_conseq {A} (P P' : reader -> Prop) (m : M A) (Q Q' : A -> reader -> Prop) :
  low P' m Q' -> (forall r, P r -> P' r) -> (forall a r, Q' a r -> Q a r) -> low P m Q.
Proof. intros H HP HQ r Hr. destruct (H r (HP r Hr)) as [A1 A2]. split; auto. Qed.
Lemma low_pull {A} (P : reader -> Prop) (phi : Prop) (m : M A) Q : (phi -> low P m Q) -> low (fun r => phi /\ P r) m Q.
Proof. intros H r [Hp Hr]. exact (H Hp r Hr). Qed.
Lemma low_get (P : reader -> Prop) (Q : N -> reader -> Prop) : (forall r, P r -> Q (r_off r) r) -> low P get_offset Q.
Proof. intros H r Hr. split; [discriminate|]. intros a r' E. injection E as <- <-. auto. Qed.
Lemma low_set o (P : reader -> Prop) (Q : unit -> reader -> Prop) : (forall r, P r -> Q tt (with_offset o r)) -> low P (set_offset o) Q.
Proof. intros H r Hr. split; [discriminate|]. intros [] r' E. injection E as <-. auto. Qed.
Lemma low_inspect {A} (m : M A) h P Q : low P m Q -> low P (inspect_err m h) Q.
Proof.
  intros H r Hr. destruct (H r Hr) as [N1 S1]. unfold inspect_err. destruct (m r) as [[a|k|p|] r1]; cbn [fst] in *; split; auto; discriminate.
Qed.
Lemma low_repeat {A} n (m : M A) P : low P m (fun _ => P) -> low P (repeat_M n m) (fun _ => P).
Proof.
  intros H. induction n as [|n IH]; cbn [repeat_M]; [apply low_ret; auto|].
  eapply low_bind; [exact H|]. intros a. eapply low_bind; [exact IH|]. intros l. apply low_ret. auto.
Qed.
Lemma low_while {S A} n (body : S -> M (S + A)) (I : S -> reader -> Prop) (Q : A -> reader -> Prop) :
  (forall s, low (I s) (body s) (fun x r => match x with inl s' => I s' r | inr a => Q a r end)) -> forall s, low (I s) (while_M n body s) Q.
Proof.
  intros Hb s0. assert (G : forall f s, low (I s) (while_nat f body s) Q).
  { induction f as [|f IH]; intros s; cbn [while_nat]; [intros r Hr; split; discriminate|].
    eapply low_bind; [apply Hb|]. intros [s'|a]; cbn beta iota; [apply IH|apply low_ret; auto]. }
  intros r Hr. rewrite while_M_nat. exact (G _ s0 r Hr).
Qed.

Section Small.
  Context (e : env) (L : N).
  Hypothesis Hbits : usize_bits (cfg e) = 32.
  Hypothesis HL : L + 2 ^ 20 <= 2 ^ 32.
  Hypothesis Hrd : forall tr o n bs, 0 < n -> o + n < 2 ^ 64 -> rd e tr o n = Bytes bs -> o + n <= L.

  (** at [b] or behind it, inside the file *)
  Definition within (b : N) (r : reader) : Prop := b <= r_off r /\ r_off r <= L.

  Lemma sum_ok x y : x + y < 2 ^ 32 -> @add_usize error_kind (cfg e) x y = Ok (x + y).
  Proof. intros H. unfold add_usize. rewrite Hbits. apply wrap_small. exact H. Qed.
  Lemma low_sum x y (P : reader -> Prop) (Q : N -> reader -> Prop) : x + y < 2 ^ 32 -> (forall r, P r -> Q (x + y) r) -> low P (lift (add_usize (cfg e) x y)) Q.
  Proof. intros H HQ. rewrite (sum_ok x y H). apply low_lift; [discriminate|]. intros a r E. injection E as <-. auto. Qed.
  Lemma low_u32 x y (P : reader -> Prop) (Q : N -> reader -> Prop) : x + y < 2 ^ 32 -> (forall r, P r -> Q (x + y) r) -> low P (lift (add_u32 (cfg e) x y)) Q.
  Proof. intros H HQ. unfold add_u32. rewrite wrap_small by exact H. apply low_lift; [discriminate|]. intros a r E. injection E as <-. auto. Qed.

  Lemma low_read b n : 0 < n <= 8 -> low (fun r => b <= r_off r /\ r_off r < 2 ^ 32) (read e n) (fun bs r => length bs = N.to_nat n /\ within (b + n) r).
  Proof.
    intros Hn r [Hb Hr]. unfold read. destruct (rd e (r_trace r) (r_off r) n) as [bs|k] eqn:E; [|split; discriminate].
    assert (Hin : r_off r + n <= L) by (eapply Hrd; [| |exact E]; lia). rewrite sum_ok by lia. cbn [fst].
    split; [discriminate|]. intros a r' X. injection X as <- <-. split; [apply length_fit|]. unfold within. cbn [with_offset r_off]. lia.
  Qed.
  Lemma low_uint b n : 0 < n <= 8 -> low (fun r => b <= r_off r /\ r_off r < 2 ^ 32) (read_uint e n) (fun _ => within (b + n)).
  Proof.
    intros Hn r Hr. unfold read_uint. revert r Hr. change (low (fun r => b <= r_off r /\ r_off r < 2 ^ 32)
      (bind (read e n) (fun bs r' => (Ok (match r_end r' with Little => from_le_bytes bs | Big => from_be_bytes bs end), r'))) (fun _ => within (b + n))).
    eapply low_bind; [apply low_read; exact Hn|]. intros bs r [_ Hr]. split; [discriminate|]. intros a r' E. injection E as _ <-. exact Hr.
  Qed.
  Lemma low_u8 b : low (fun r => b <= r_off r /\ r_off r < 2 ^ 32) (read_u8 e) (fun _ => within (b + 1)).
  Proof.
    unfold read_u8. eapply low_bind; [apply (low_read b 1); lia|]. intros bs. apply low_pull. intros Hl. destruct bs as [|c bs]; [discriminate Hl|].
    apply low_ret. auto.
  Qed.
  (** the same from inside the file, forgetting how far it went *)
  Lemma in_uint b n : 0 < n <= 8 -> low (within b) (read_uint e n) (fun _ => within b).
  Proof. intros Hn. eapply low_conseq; [apply (low_uint b n Hn)| |]; unfold within; intros; lia. Qed.

  Lemma in_string b fh o : low (within b) (parse_string e fh o) (fun _ => within b).
  Proof.
    unfold parse_string. eapply low_bind with (Q := fun sss r => within b r); [apply low_ok_or; auto|]. intros sss.
    eapply low_bind with (Q := fun sse r => sse < 2 ^ 32 /\ within b r).
    { apply low_ok_or. intros a r E Hr. apply checked_Some in E. destruct E as [<- E]. auto. }
    intros sse. apply low_pull. intros Hsse. eapply low_bind with (Q := fun so r => within b r); [apply low_ok_or; auto|]. intros so.
    destruct (N.leb_spec sse so) as [H1|H1]; [apply low_fail|].
    eapply low_bind with (Q := fun x r => b <= x <= L /\ within b r); [apply low_get; unfold within; auto|]. intros x. apply low_pull. intros Hx.
    eapply low_bind with (Q := fun _ r => r_off r <= 2 ^ 32 - 2); [apply low_set; intros r Hr; cbn [with_offset r_off]; lia|]. intros [].
    eapply low_bind with (Q := fun _ r => True).
    2:{ intros s. eapply low_bind with (Q := fun _ => within b); [apply low_set; intros r _; unfold within; cbn [with_offset r_off]; lia|]. intros []. apply low_ret. auto. }
    apply low_while with (I := fun _ r => r_off r <= 2 ^ 32 - 2). intros s.
    eapply low_bind with (Q := fun y r => y <= 2 ^ 32 - 2 /\ r_off r <= 2 ^ 32 - 2); [apply low_get; auto|]. intros y. apply low_pull. intros Hy.
    eapply low_bind with (Q := fun _ r => r_off r <= 2 ^ 32 - 2); [apply low_sum; [lia|auto]|]. intros y1.
    destruct (sse <? y1); [apply low_fail|]. eapply low_bind with (Q := fun _ r => r_off r <= 2 ^ 32 - 2).
    { apply low_inspect. eapply low_conseq; [apply (low_u8 0)| |]; unfold within; intros; lia. }
    intros c. destruct (bval c =? 0); apply low_ret; auto.
  Qed.
  Lemma in_name b fh o : low (within b) (parse_name_opt e fh o) (fun _ => within b).
  Proof. unfold parse_name_opt. destruct (negb (o =? 0)); [|apply low_ret; auto]. eapply low_bind; [apply in_string|]. intros s. apply low_ret. auto. Qed.
  Lemma in_decode b kf raw : low (within b) (lift (decode_member_offset kf raw)) (fun _ => within b).
  Proof. apply low_lift; [|auto]. intros p. unfold decode_member_offset. destruct kf; [destruct (_ && _)|destruct (_ =? _)]; discriminate. Qed.

  Ltac go := cbv beta; lazymatch goal with
    | |- low ?P (bind _ _) _ => eapply low_bind with (Q := fun _ => P); [go|intros; go]
    | |- low _ (ret _) _ => apply low_ret; intros; assumption
    | |- low _ (repeat_M _ _) _ => apply low_repeat; go
    | |- low _ (parse_name_opt _ _ _) _ => apply in_name
    | |- low _ (parse_string _ _ _) _ => apply in_string
    | |- low _ (read_uint _ _) _ => apply in_uint; lia
    | |- low _ (lift (decode_member_offset _ _)) _ => apply in_decode
    | |- low _ (if ?c then _ else _) _ => destruct c; go
    end.

  Lemma in_data b fh h : low (within b) (int_data_new e fh h) (fun _ => within b) /\
    low (within b) (link_data_new e fh h) (fun _ => within b) /\ low (within b) (named_link_data_new e fh h) (fun _ => within b) /\
    low (within b) (float_data_new e fh h) (fun _ => within b) /\ low (within b) (array_data_new e fh h) (fun _ => within b) /\
    low (within b) (struct_data_new e fh h) (fun _ => within b) /\ low (within b) (enum_data_new e fh h) (fun _ => within b) /\
    low (within b) (enum64_data_new e fh h) (fun _ => within b) /\ low (within b) (func_proto_data_new e fh h) (fun _ => within b) /\
    low (within b) (var_data_new e fh h) (fun _ => within b) /\ low (within b) (data_sec_data_new e fh h) (fun _ => within b) /\
    low (within b) (decl_tag_data_new e fh h) (fun _ => within b).
  Proof.
    unfold int_data_new, link_data_new, named_link_data_new, float_data_new, array_data_new, struct_data_new, enum_data_new, enum64_data_new,
      func_proto_data_new, var_data_new, data_sec_data_new, decl_tag_data_new, parse_member, parse_named_value32, parse_named_value64, parse_parameter,
      parse_variable, read_i32, read_i64, read_u32, read_u64; cbv zeta.
    repeat match goal with |- _ /\ _ => apply conj end; go.
  Qed.

  Lemma in_define {D} b k (size : build -> header -> outcome error_kind N) (new : env -> file_header -> header -> M D) fh h :
    hdr_len fh + type_off fh + type_len fh < 2 ^ 32 -> (exists n, size (cfg e) h = Ok n /\ n < 2 ^ 20) ->
    low (within b) (new e fh h) (fun _ => within b) -> low (within b) (define_type_new k size new e fh h) (fun _ => within b).
  Proof.
    intros Hend (n & Hs & Hn) Hnew. unfold define_type_new. destruct (negb _); [apply low_fail|]. rewrite Hs.
    eapply low_bind with (Q := fun x r => x = n /\ within b r); [apply low_lift; [discriminate|]; intros a r E; injection E as <-; auto|].
    intros x. apply low_pull. intros ->. eapply low_bind with (Q := fun _ => within b); [|intros _; exact Hnew].
    destruct (0 <? n); [|apply low_ret; auto].
    eapply low_bind with (Q := fun x r => x = hdr_len fh + type_off fh /\ within b r); [apply low_u32; [lia|auto]|]. intros tss. apply low_pull. intros ->.
    eapply low_bind with (Q := fun _ r => within b r); [apply low_u32; [lia|auto]|]. intros tse.
    eapply low_bind with (Q := fun y r => y <= L /\ within b r); [apply low_get; unfold within; intros r Hr; lia|]. intros y. apply low_pull. intros Hy.
    destruct (y <? _); [apply low_fail|]. eapply low_bind with (Q := fun _ r => within b r); [apply low_sum; [lia|auto]|]. intros stop.
    destruct (tse <? stop); [apply low_fail|apply low_ret; auto].
  Qed.
  Lemma size_mul k n : n <= 0xFFFF -> k <= 12 -> exists x, @mul_usize error_kind (cfg e) n k = Ok x /\ x < 2 ^ 20.
  Proof. intros Hn Hk. exists (n * k). unfold mul_usize. rewrite Hbits. assert (n * k <= 0xFFFF * 12) by (apply N.mul_le_mono; assumption). rewrite wrap_small by lia. split; [reflexivity|lia]. Qed.
  Lemma in_parse_type b k fh h : hdr_len fh + type_off fh + type_len fh < 2 ^ 32 -> h_vlen h <= 0xFFFF ->
    low (within b) (parse_type k e fh h) (fun _ => within b).
  Proof.
    intros Hend Hv. destruct (in_data b fh h) as (H1 & H2 & H3 & H4 & H5 & H6 & H7 & H8 & H9 & H10 & H11 & H12).
    destruct k; unfold parse_type; (eapply low_bind; [|intros d; apply low_ret; intros r Hr; exact Hr]); (apply in_define; [exact Hend| |assumption]);
      first [exists 4; split; [reflexivity|lia] | exists 0; split; [reflexivity|lia] | apply size_mul; lia].
  Qed.
  Lemma in_header_new b fh : b + 12 < 2 ^ 32 -> low (fun r => b <= r_off r /\ r_off r + 12 < 2 ^ 32) (header_new e fh)
    (fun h r => (hdr_len fh + type_off fh + type_len fh < 2 ^ 32 /\ h_vlen h <= 0xFFFF) /\ within (b + 12) r).
  Proof.
    intros Hb. set (P := fun r => b <= r_off r /\ r_off r + 12 < 2 ^ 32). unfold header_new.
    eapply low_bind with (Q := fun x r => x = hdr_len fh + type_off fh /\ P r); [apply low_ok_or; intros a r E Hr; apply checked_Some in E; destruct E as [<- _]; auto|].
    intros tss. apply low_pull. intros ->.
    eapply low_bind with (Q := fun x r => hdr_len fh + type_off fh + type_len fh < 2 ^ 32 /\ P r); [apply low_ok_or; intros a r E Hr; apply checked_Some in E; destruct E as [_ E]; auto|].
    intros tse. apply low_pull. intros Hend.
    eapply low_bind with (Q := fun y r => y + 12 < 2 ^ 32 /\ P r); [apply low_get; unfold P; intros r Hr; lia|]. intros y. apply low_pull. intros Hy.
    eapply low_bind with (Q := fun _ => P); [apply low_sum; [exact Hy|auto]|]. intros stop. destruct (tse <? stop); [apply low_fail|].
    eapply low_bind; [eapply low_conseq; [apply (low_uint b 4); lia| |intros a r Hr; exact Hr]; unfold P; intros r Hr; lia|]. intros no. cbv beta.
    eapply low_bind; [eapply low_conseq; [apply (low_uint (b + 4) 4); lia| |intros a r Hr; exact Hr]; unfold within; intros r Hr; lia|]. intros info. cbv beta.
    eapply low_bind with (Q := fun _ => within (b + 4 + 4)).
    { apply low_lift; [|auto]. intros p. unfold kind_new. repeat (match goal with |- context [match ?x with _ => _ end] => destruct x end; try discriminate). }
    intros k. eapply low_bind; [eapply low_conseq; [apply (low_uint (b + 4 + 4) 4); lia| |intros a r Hr; exact Hr]; unfold within; intros r Hr; lia|]. intros st. cbv beta.
    apply low_ret. intros r Hr. split; [split; [exact Hend|]|unfold within in *; lia]. cbn [h_vlen]. rewrite land_ffff. pose proof (N.mod_lt info (2 ^ 16)). lia.
  Qed.

  Lemma low_load_types fh tse : low (fun r => r_off r + 12 < 2 ^ 32 \/ tse <= r_off r) (load_types e fh tse) (fun _ _ => True).
  Proof.
    unfold load_types. eapply low_conseq with (Q' := fun _ _ => True) (P' := fun r => (r_off r + 12 < 2 ^ 32 \/ tse <= r_off r) /\ tid_generator load_init <= 1 + r_off r);
      [|intros r Hr; split; [exact Hr|cbn; lia]|auto].
    apply low_while with (I := fun st r => (r_off r + 12 < 2 ^ 32 \/ tse <= r_off r) /\ tid_generator st <= 1 + r_off r). intros st.
    intros r [Hr Ht]. set (o := r_off r) in *.
    assert (G : low (fun r => r_off r = o) (o0 <- get_offset ;; if o0 <? tse then h <- header_new e fh ;; t <- parse_type (h_kind h) e fh h ;;
       next <- lift (add_u32 (cfg e) (tid_generator st) 1) ;; ret (inl {| tid_generator := next; maps := add_type (maps st) (tid_generator st) t |})
       else ret (inr (maps st)))
       (fun x r => match x with inl st' => (r_off r + 12 < 2 ^ 32 \/ tse <= r_off r) /\ tid_generator st' <= 1 + r_off r | inr _ => True end)).
    2:{ exact (G r eq_refl). }
    eapply low_bind with (Q := fun x r => x = o /\ r_off r = o); [apply low_get; auto|]. intros x. apply low_pull. intros ->.
    destruct (N.ltb_spec o tse) as [Hlt|Hge]; [|apply low_ret; auto]. destruct Hr as [Hr|Hr]; [|lia].
    eapply low_bind; [eapply low_conseq; [apply (in_header_new o); exact Hr| |intros a q Hq; exact Hq]; intros q Hq; cbv beta in *; clearbody o; lia|].
    intros h. apply low_pull. intros [Hend Hv]. eapply low_bind; [apply in_parse_type; assumption|]. intros t. cbv beta.
    eapply low_bind with (Q := fun x r => x = tid_generator st + 1 /\ within (o + 12) r).
    { intros q Hq. unfold within in Hq. assert (tid_generator st + 1 < 2 ^ 32) by lia. unfold add_u32. rewrite wrap_small by assumption. split; [discriminate|].
      intros a r' E. injection E as <- <-. split; [reflexivity|exact Hq]. }
    intros nx. apply low_pull. intros ->. apply low_ret. intros q Hq. unfold within in Hq. cbn [tid_generator]. split; [left|]; lia.
  Qed.
End Small.

(** The header announces a first record that reaches up to 4 GiB or beyond. *)
Definition brim (fh : file_header) : Prop :=
  0 < type_len fh /\ hdr_len fh + type_off fh + type_len fh < 2 ^ 32 /\ 2 ^ 32 <= hdr_len fh + type_off fh + 12.

Lemma header_calm rd c : not_panic (fst (file_header_new {| cfg := build32 c; rd := rd |} reader_new)).
Proof.
  destruct (triple_file_header_new {| cfg := build32 c; rd := rd |} ltac:(cbn; lia) reader_new eq_refl) as (new & _ & [_ Ho] & _).
  destruct (fst (file_header_new _ reader_new)); try exact I; destruct Ho.
Qed.

Lemma small_calm rd L : L + 2 ^ 20 <= 2 ^ 32 -> (forall tr o n bs, 0 < n -> o + n < 2 ^ 64 -> rd tr o n = Bytes bs -> o + n <= L) ->
  (forall fh r1, file_header_new {| cfg := build32 true; rd := rd |} reader_new = (Ok fh, r1) -> ~ brim fh) ->
  not_panic (type_information_new {| cfg := build32 true; rd := rd |}).
Proof.
  intros HL Hrd Hb. set (e := {| cfg := build32 true; rd := rd |}) in *. unfold type_information_new, load.
  pose proof (header_calm rd true) as Hc. fold e in Hc. destruct (file_header_new e reader_new) as [[fh|k|p|] r1] eqn:Eh; cbn [fst] in Hc.
  2-4: unfold bind; rewrite Eh; first [exact I|destruct Hc].
  rewrite (bind_eq _ _ _ _ _ Eh). specialize (Hb fh r1 eq_refl). unfold brim in Hb.
  destruct (checked 32 (hdr_len fh + type_off fh)) as [tss|] eqn:C1; [|exact I]. apply checked_Some in C1. destruct C1 as [<- C1].
  rewrite (bind_eq (lift (ok_or _ (Some _))) _ r1 (hdr_len fh + type_off fh) r1) by reflexivity. change (usize_bits (cfg e)) with 32.
  destruct (checked 32 (hdr_len fh + type_off fh + type_len fh)) as [tse|] eqn:C2; [|exact I]. apply checked_Some in C2. destruct C2 as [<- C2].
  rewrite (bind_eq (lift (ok_or _ (Some _))) _ r1 (hdr_len fh + type_off fh + type_len fh) r1) by reflexivity.
  rewrite (bind_eq (set_offset _) _ r1 tt (with_offset (hdr_len fh + type_off fh) r1)) by reflexivity.
  pose proof (low_load_types e L eq_refl HL Hrd fh (hdr_len fh + type_off fh + type_len fh) (with_offset (hdr_len fh + type_off fh) r1)) as T.
  cbn [with_offset r_off] in T. destruct T as [T _]; [lia|]. unfold with_offset in *.
  destruct (fst (load_types _ _ _ _)) as [ti|k|p|]; try exact I. exact (T p eq_refl).
Qed.

(** What the three builds do when the first record reaches 4 GiB. *)
Lemma brim_load rd fh r1 : (forall tr k, 2 ^ 32 <= k + 12 -> k < 2 ^ 32 -> exists x, rd tr k 4 = Fails x) ->
  file_header_new {| cfg := build32 true; rd := rd |} reader_new = (Ok fh, r1) -> brim fh ->
  type_information_new {| cfg := build32 true; rd := rd |} = Panic ArithmeticOverflow /\
  (forall c, type_information_new {| cfg := build64 c; rd := rd |} = Err InvalidTypeSectionOffset /\ requests {| cfg := build64 c; rd := rd |} = requests {| cfg := build32 true; rd := rd |}) /\
  exists x, let q := (hdr_len fh + type_off fh, 4, Fails x) in
    type_information_new {| cfg := build32 false; rd := rd |} = Err x /\ requests {| cfg := build32 false; rd := rd |} = q :: requests {| cfg := build32 true; rd := rd |}.
Proof.
  intros Hrd Eh (H0 & H1 & H2). set (lo := hdr_len fh + type_off fh) in *. set (hi := lo + type_len fh) in *.
  assert (Go : forall e : env, usize_bits (cfg e) = 32 \/ usize_bits (cfg e) = 64 -> file_header_new e reader_new = (Ok fh, r1) ->
    load e reader_new = load_types e fh hi (with_offset lo r1)).
  { intros e Hw E. unfold load. rewrite (bind_eq _ _ _ _ _ E). fold lo.
    rewrite (proj2 (checked_Some 32 lo lo)) by (split; [reflexivity|lia]).
    rewrite (bind_eq (lift (ok_or _ (Some _))) _ r1 lo r1) by reflexivity. fold hi.
    rewrite (proj2 (checked_Some (usize_bits (cfg e)) hi hi)) by (split; [reflexivity|destruct Hw as [-> | ->]; lia]).
    rewrite (bind_eq (lift (ok_or _ (Some _))) _ r1 hi r1) by reflexivity. reflexivity. }
  assert (St : forall (e : env), load_types e fh hi (with_offset lo r1) =
     match header_new e fh (with_offset lo r1) with (Ok h, r) => load_types e fh hi (with_offset lo r1) | (Err k, r) => (Err k, r) | (Panic p, r) => (Panic p, r) | (Diverge, r) => (Diverge, r) end).
  { intros e. unfold load_types at 1. rewrite while_M_nat. replace (N.to_nat (type_len fh + 1)) with (S (N.to_nat (type_len fh))) by lia. cbn [while_nat].
    destruct (header_new e fh (with_offset lo r1)) as [[h|k|p|] r] eqn:Eh2.
    - unfold load_types. rewrite while_M_nat. replace (N.to_nat (type_len fh + 1)) with (S (N.to_nat (type_len fh))) by lia. reflexivity.
    - apply bind_err. rewrite (bind_eq get_offset _ _ lo (with_offset lo r1)) by reflexivity. replace (lo <? hi) with true by lia. apply bind_err. exact Eh2.
    - unfold bind. cbn [get_offset with_offset r_off]. replace (lo <? hi) with true by lia. rewrite Eh2. reflexivity.
    - unfold bind. cbn [get_offset with_offset r_off]. replace (lo <? hi) with true by lia. rewrite Eh2. reflexivity. }
  assert (Hn : forall e : env, header_new e fh (with_offset lo r1) =
     bind (lift (add_usize (cfg e) lo 12)) (fun stop => if hi <? stop then fail InvalidTypeSectionOffset else
       name_offset <- read_u32 e ;; info_flags <- read_u32 e ;; k <- lift (kind_new (N.shiftr (N.land info_flags 0x1F000000) 24)) ;; size_or_type <- read_u32 e ;;
       ret {| h_kind := k; h_name_offset := name_offset; h_vlen := N.land info_flags 0xFFFF; h_kind_flag := negb (N.land info_flags 0x80000000 =? 0); h_size_or_type := size_or_type |}) (with_offset lo r1)).
  { intros e. unfold header_new. fold lo. rewrite (proj2 (checked_Some 32 lo lo)) by (split; [reflexivity|lia]).
    rewrite (bind_eq (lift (ok_or _ (Some _))) _ _ lo (with_offset lo r1)) by reflexivity. fold hi.
    rewrite (proj2 (checked_Some 32 hi hi)) by (split; [reflexivity|lia]).
    rewrite (bind_eq (lift (ok_or _ (Some _))) _ _ hi (with_offset lo r1)) by reflexivity.
    rewrite (bind_eq get_offset _ _ lo (with_offset lo r1)) by reflexivity. reflexivity. }
  assert (A : load {| cfg := build32 true; rd := rd |} reader_new = (Panic ArithmeticOverflow, with_offset lo r1)).
  { rewrite (Go {| cfg := build32 true; rd := rd |} (or_introl eq_refl) Eh), St, Hn. unfold bind at 1, lift, add_usize, wrap_or_panic. cbn [cfg build32 usize_bits overflow_checks].
    replace (lo + 12 <? two_pow 32) with false by (unfold two_pow; lia). reflexivity. }
  assert (B : forall c, load {| cfg := build64 c; rd := rd |} reader_new = (Err InvalidTypeSectionOffset, with_offset lo r1)).
  { intros c. rewrite (Go {| cfg := build64 c; rd := rd |} (or_intror eq_refl)) by (rewrite header_32_64; exact Eh). rewrite St, Hn.
    unfold bind at 1, lift, add_usize. cbn [cfg build64 usize_bits]. rewrite wrap_small by lia. replace (hi <? lo + 12) with true by lia. reflexivity. }
  assert (Eh3 : file_header_new {| cfg := build32 false; rd := rd |} reader_new = (Ok fh, r1)).
  { rewrite <- Eh. apply header_same; try reflexivity; try (cbn; lia). apply header_calm. }
  destruct (Hrd (r_trace r1) lo ltac:(lia) ltac:(lia)) as [x Hx].
  assert (C : load {| cfg := build32 false; rd := rd |} reader_new = (Err x, {| r_off := lo; r_end := r_end r1; r_trace := (lo, 4, Fails x) :: r_trace r1 |})).
  { rewrite (Go {| cfg := build32 false; rd := rd |} (or_introl eq_refl) Eh3). rewrite St, Hn.
    unfold bind at 1, lift, add_usize, wrap_or_panic. cbn [cfg build32 usize_bits overflow_checks].
    replace (lo + 12 <? two_pow 32) with false by (unfold two_pow; lia). cbn beta iota.
    replace (hi <? (lo + 12) mod two_pow 32) with false.
    2:{ unfold two_pow. pose proof (N.mod_lt (lo + 12) (2 ^ 32)). assert ((lo + 12) mod 2 ^ 32 = lo + 12 - 2 ^ 32); [|lia].
        replace (lo + 12) with (lo + 12 - 2 ^ 32 + 1 * 2 ^ 32) at 1 by lia. rewrite N.mod_add by lia. apply N.mod_small. lia. }
    unfold read_u32 at 1, read_uint, bind, read. cbn [with_offset r_off r_trace r_end Reader.rd]. rewrite Hx. reflexivity. }
  unfold type_information_new, requests. rewrite A, C. cbn [fst snd with_offset r_trace]. split; [reflexivity|]. split.
  - intros c. rewrite B. split; reflexivity.
  - exists x. split; reflexivity.
Qed.

(** For an image. *)
Definition brim_image (img : list byte) : Prop := exists en hf, file_header_at img en hf /\
  let f := layout_of img en hf in types_lo f < types_hi f /\ types_hi f < 2 ^ 32 /\ 2 ^ 32 <= types_lo f + 12.

Lemma brim_header rd img c fh r1 : serves rd img -> file_header_new {| cfg := build32 c; rd := rd |} reader_new = (Ok fh, r1) -> brim fh -> brim_image img.
Proof.
  intros Hs E (B0 & B1 & B2). assert (E' : file_header_new {| cfg := build64 true; rd := rd |} reader_new = (Ok fh, r1)).
  { rewrite header_32_64, <- E. symmetry. apply header_same; try reflexivity; try (cbn; lia). apply header_calm. }
  destruct (header_sound {| cfg := build64 true; rd := rd |} img eq_refl Hs fh r1 E') as (en & _ & Hf).
  exists en, (fields fh). split; [exact Hf|]. cbn. lia.
Qed.
Lemma small_answers rd img : serves rd img -> forall tr o n bs, 0 < n -> o + n < 2 ^ 64 -> rd tr o n = Bytes bs -> o + n <= N.of_nat (length img).
Proof.
  intros Hs tr o n bs Hn Ho E. destruct (N.le_gt_cases (o + n) (N.of_nat (length img))) as [H|H]; [exact H|].
  destruct (proj2 (Hs tr o n Hn Ho) H) as [k X]. congruence.
Qed.
Lemma small_same rd img checks checks' : serves rd img -> N.of_nat (length img) <= 2 ^ 32 - 2 ^ 20 -> ~ brim_image img ->
  type_information_new {| cfg := build32 checks'; rd := rd |} = type_information_new {| cfg := build64 checks; rd := rd |} /\
  requests {| cfg := build32 checks'; rd := rd |} = requests {| cfg := build64 checks; rd := rd |}.
Proof.
  intros Hs HL Hb. apply load_checked_32. apply small_calm with (L := N.of_nat (length img)); [lia|apply small_answers; exact Hs|].
  intros fh r1 E B. apply Hb. eapply brim_header; eassumption.
Qed.
Lemma small_brim rd img : serves rd img -> N.of_nat (length img) <= 2 ^ 32 - 2 ^ 20 -> brim_image img ->
  type_information_new {| cfg := build32 true; rd := rd |} = Panic ArithmeticOverflow /\
  forall checks, type_information_new {| cfg := build64 checks; rd := rd |} = Err InvalidTypeSectionOffset /\
  exists off x, N.of_nat (length img) < off + 4 /\ type_information_new {| cfg := build32 false; rd := rd |} = Err x /\
    requests {| cfg := build32 false; rd := rd |} = (off, 4, Fails x) :: requests {| cfg := build64 checks; rd := rd |}.
Proof.
  intros Hs HL (en & hf & Hf & B). destruct (header_complete {| cfg := build64 true; rd := rd |} img eq_refl Hs en hf Hf) as (fh & r1 & E & <- & _).
  rewrite header_32_64 in E. destruct (brim_load rd fh r1) as (P1 & P2 & x & P3 & P4); [|exact E| |].
  - intros tr k K1 K2. apply (proj2 (Hs tr k 4 ltac:(lia) ltac:(lia))). lia.
  - cbn in B. unfold brim. lia.
  - split; [exact P1|]. intros checks. destruct (P2 checks) as [P5 P6]. split; [exact P5|]. exists (hdr_len fh + type_off fh), x. cbn in B.
    split; [lia|]. split; [exact P3|]. rewrite P6. exact P4.
Qed.
