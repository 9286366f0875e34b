(** * LoadMessageLocal: a build with overflow checks that does not panic gives the same messages as wider builds and as builds without checks. *)
From Coq Require Import List NArith Bool Lia Strings.Byte.
From Verif Require Import TypeInfo Spec BaseFacts Safety Local LoadMessage LoadMessageFacts LoadMessagePass.
Import ListNotations.
Open Scope N_scope.

Section Agree.
  Context (e1 e2 : env).
  Hypothesis same_rd : rd e2 = rd e1.
  Hypothesis checks : overflow_checks (cfg e1) = true.
  Hypothesis narrow : usize_bits (cfg e1) <= usize_bits (cfg e2).
  Definition agree {A} (m1 m2 : LM A) : Prop := forall r, not_panic (fst (m1 r)) -> m2 r = m1 r.

  Lemma ag_refl {A} (m : LM A) : agree m m.
  Proof. intros r _. reflexivity. Qed.
  Lemma ag_bind {A B} (m1 m2 : LM A) (k1 k2 : A -> LM B) : agree m1 m2 -> (forall a, agree (k1 a) (k2 a)) -> agree (lbind m1 k1) (lbind m2 k2).
  Proof.
    intros H K r. unfold lbind. specialize (H r). destruct (m1 r) as [[a|x|p|] r1]; cbn [fst] in *; intros NP; try (rewrite (H I); reflexivity).
    - rewrite (H I). exact (K a r1 NP).
    - destruct NP.
  Qed.
  Lemma ag_inspect {A} (m1 m2 : LM A) back : agree m1 m2 -> agree (linspect_err m1 back) (linspect_err m2 back).
  Proof. intros H r. unfold linspect_err. specialize (H r). destruct (m1 r) as [[a|x|p|] r1]; cbn [fst] in *; intros NP; try (rewrite (H I); reflexivity). destruct NP. Qed.
  Lemma ag_repeat {A} n (m1 m2 : LM A) : agree m1 m2 -> agree (repeat_LM n m1) (repeat_LM n m2).
  Proof. intros H. induction n as [|n IH]; [apply ag_refl|]. apply ag_bind; [exact H|]. intros a. apply ag_bind; [exact IH|]. intros l. apply ag_refl. Qed.
  Lemma ag_while {S A} n (b1 b2 : S -> LM (S + A)) s : (forall s, agree (b1 s) (b2 s)) -> agree (while_LM n b1 s) (while_LM n b2 s).
  Proof.
    intros H r. rewrite !while_LM_nat. revert s r. generalize (N.to_nat n). clear n. intros n. change (forall s, agree (while_lnat n b1 s) (while_lnat n b2 s)).
    induction n as [|n IH]; intros s; [apply ag_refl|]. cbn [while_lnat]. apply ag_bind; [apply H|]. intros [s'|a]; [exact (IH s')|apply ag_refl].
  Qed.
  Lemma ag_wrap (E : Type) b1 b2 v : b1 <= b2 -> not_panic (@wrap_or_panic E (cfg e1) b1 v) -> @wrap_or_panic E (cfg e2) b2 v = wrap_or_panic (cfg e1) b1 v.
  Proof.
    unfold wrap_or_panic, two_pow. intros Hb. rewrite checks. destruct (N.ltb_spec v (2 ^ b1)) as [L|L]; [|intros []]. intros _.
    pose proof (N.pow_le_mono_r 2 b1 b2 ltac:(lia) Hb). destruct (N.ltb_spec v (2 ^ b2)); [reflexivity|lia].
  Qed.
  Lemma ag_lift {A} (o1 o2 : outcome lmessage A) : (not_panic o1 -> o2 = o1) -> agree (llift o1) (llift o2).
  Proof. intros H r NP. unfold llift in *. cbn [fst] in NP. rewrite (H NP). reflexivity. Qed.
  Lemma ag_add_u32 x y : agree (llift (add_u32 (cfg e1) x y)) (llift (add_u32 (cfg e2) x y)).
  Proof. apply ag_lift. intros NP. apply ag_wrap; [lia|exact NP]. Qed.
  Lemma ag_add_usize x y : agree (llift (add_usize (cfg e1) x y)) (llift (add_usize (cfg e2) x y)).
  Proof. apply ag_lift. intros NP. apply ag_wrap; [exact narrow|exact NP]. Qed.
  Lemma ag_size (f : build -> header -> outcome error_kind N) h : (not_panic (f (cfg e1) h) -> f (cfg e2) h = f (cfg e1) h) ->
    agree (from (lift (f (cfg e1) h))) (from (lift (f (cfg e2) h))).
  Proof. intros H r NP. unfold from, lift in *. cbn [fst snd] in *. rewrite H; [reflexivity|]. destruct (f (cfg e1) h); try exact I. destruct NP. Qed.
  Lemma ag_ext {A} (m1 m1' m2 m2' : LM A) : (forall r, m1 r = m1' r) -> (forall r, m2 r = m2' r) -> agree m1' m2' -> agree m1 m2.
  Proof. intros H1 H2 H r. rewrite H1, H2. apply H. Qed.
  Lemma ag_from_bind {A B} (m1 m2 : M A) (k1 k2 : A -> M B) : agree (from m1) (from m2) -> (forall a, agree (from (k1 a)) (from (k2 a))) -> agree (from (bind m1 k1)) (from (bind m2 k2)).
  Proof. intros H K. eapply ag_ext; [apply from_bind|apply from_bind|]. apply ag_bind; assumption. Qed.
  Lemma ag_read n : agree (from (read e1 n)) (from (read e2 n)).
  Proof.
    intros r. unfold from, read. rewrite same_rd. cbv zeta. destruct (rd e1 (r_trace r) (r_off r) n) as [bs|k]; [|reflexivity].
    pose proof (ag_wrap error_kind (usize_bits (cfg e1)) (usize_bits (cfg e2)) (r_off r + n) narrow) as W. unfold add_usize.
    destruct (wrap_or_panic (cfg e1) (usize_bits (cfg e1)) (r_off r + n)) as [v|k|p|]; cbn [fst snd renamed not_panic]; intros NP; try (rewrite (W I); reflexivity). destruct NP.
  Qed.
  Lemma ag_uint n : agree (from (read_uint e1 n)) (from (read_uint e2 n)).
  Proof. unfold read_uint. apply ag_from_bind; [apply ag_read|]. intros bs. apply ag_refl. Qed.
  Lemma ag_u8 : agree (from (read_u8 e1)) (from (read_u8 e2)).
  Proof. unfold read_u8. apply ag_from_bind; [apply ag_read|]. intros bs. apply ag_refl. Qed.
  Lemma ag_i32 : agree (from (read_i32 e1)) (from (read_i32 e2)).
  Proof. unfold read_i32. apply ag_from_bind; [apply ag_uint|]. intros bs. apply ag_refl. Qed.
  Lemma ag_i64 : agree (from (read_i64 e1)) (from (read_i64 e2)).
  Proof. unfold read_i64. apply ag_from_bind; [apply ag_uint|]. intros bs. apply ag_refl. Qed.
  Lemma ag_variable : agree (from (parse_variable e1)) (from (parse_variable e2)).
  Proof. unfold parse_variable. do 3 (apply ag_from_bind; [apply ag_uint|intros ?]). apply ag_refl. Qed.

  Ltac ag := repeat first
    [ apply ag_add_u32 | apply ag_add_usize | apply ag_uint | apply ag_u8 | apply ag_i32 | apply ag_i64 | apply ag_variable | apply ag_refl
    | apply ag_bind; [|intros ?] | apply ag_inspect | apply ag_repeat | apply ag_while; intros ?
    | match goal with |- agree (if ?b then _ else _) _ => destruct b end | match goal with |- agree (let _ := _ in _) _ => cbv zeta end ].
  Lemma ag_file_header : agree (file_header_msg e1) (file_header_msg e2).
  Proof. unfold file_header_msg, detect_endianness_msg. ag. Qed.
  Lemma ag_header fh : agree (header_msg e1 fh) (header_msg e2 fh).
  Proof. unfold header_msg. ag. Qed.
  Lemma ag_string fh k : agree (parse_string_msg e1 fh k) (parse_string_msg e2 fh k).
  Proof. unfold parse_string_msg. ag. Qed.
  Lemma ag_name fh k : agree (parse_name_msg_opt e1 fh k) (parse_name_msg_opt e2 fh k).
  Proof. unfold parse_name_msg_opt. destruct (negb (k =? 0)); [|apply ag_refl]. apply ag_bind; [apply ag_string|]. intros. apply ag_refl. Qed.
  Ltac ag' := repeat first
    [ apply ag_name | apply ag_string | apply ag_uint | apply ag_i32 | apply ag_i64 | apply ag_variable | apply ag_refl
    | apply ag_bind; [|intros ?] | apply ag_repeat | match goal with |- agree (if ?b then _ else _) _ => destruct b end ].
  Lemma ag_define {D} K size (dn : env -> file_header -> header -> LM D) fh h : (not_panic (size (cfg e1) h) -> size (cfg e2) h = size (cfg e1) h) -> agree (dn e1 fh h) (dn e2 fh h) ->
    agree (define_type_msg K size dn e1 fh h) (define_type_msg K size dn e2 fh h).
  Proof.
    intros Hsz H. unfold define_type_msg. destruct (negb (kind_eqb (h_kind h) K)); [apply ag_refl|]. apply ag_bind; [apply ag_size; exact Hsz|]. intros n. apply ag_bind; [|intros ?; exact H]. ag.
  Qed.
  Lemma ag_parse_type k fh h : agree (parse_type_msg k e1 fh h) (parse_type_msg k e2 fh h).
  Proof.
    destruct k; cbn [parse_type_msg]; (apply ag_bind; [apply ag_define; [first [reflexivity|apply ag_wrap; exact narrow]|]|intros; apply ag_refl]).
    all: unfold link_data_msg, named_link_data_msg, int_data_msg, array_data_msg, struct_data_msg, enum_data_msg, func_proto_data_msg, var_data_msg, data_sec_data_msg, float_data_msg, decl_tag_data_msg, enum64_data_msg,
      parse_member_msg, parse_named_value32_msg, parse_named_value64_msg, parse_parameter_msg; cbv zeta; ag'.
  Qed.
  Lemma ag_load_types fh tse : agree (load_types_msg e1 fh tse) (load_types_msg e2 fh tse).
  Proof.
    unfold load_types_msg. apply ag_while. intros st. apply ag_bind; [apply ag_refl|]. intros o. destruct (o <? tse); [|apply ag_refl].
    apply ag_bind; [apply ag_header|]. intros h. apply ag_bind; [apply ag_parse_type|]. intros t. cbv zeta. ag.
  Qed.
End Agree.

Lemma header_ends e fh r tss : checked 32 (hdr_len fh + type_off fh) = Some tss -> checked 32 (tss + type_len fh) = None -> header_msg e fh r = (Err LTypesEnd, r).
Proof. intros Es Ee. unfold header_msg, lbind, llift. rewrite Es. cbn [ok_or]. rewrite Ee. reflexivity. Qed.
Lemma while_fails {S A} n (b : S -> LM (S + A)) s r m r' : b s r = (Err m, r') -> while_lnat (Datatypes.S n) b s r = (Err m, r').
Proof. intros H. cbn [while_lnat]. unfold lbind. rewrite H. reflexivity. Qed.
Lemma types_end e fh r tss tse : checked 32 (hdr_len fh + type_off fh) = Some tss -> checked 32 (tss + type_len fh) = None -> r_off r < tse ->
  load_types_msg e fh tse r = (Err LTypesEnd, r).
Proof.
  intros Es Ee L. unfold load_types_msg. rewrite while_LM_nat. rewrite N.add_1_r, N2Nat.inj_succ. apply while_fails. unfold lbind at 1, from at 1, get_offset.
  cbn [fst snd renamed]. rewrite (proj2 (N.ltb_lt _ _) L). unfold lbind at 1. rewrite (header_ends e fh r tss Es Ee). reflexivity.
Qed.
Definition load_rest (e : env) (x : outcome lmessage file_header * reader) : outcome lmessage type_information * reader :=
  match x with
  | (Ok fh, r) =>
      match checked 32 (hdr_len fh + type_off fh) with
      | None => (Err LTypesStart, r)
      | Some tss => match checked (usize_bits (cfg e)) (tss + type_len fh) with None => (Err LTypesEnd, r) | Some tse => load_types_msg e fh tse (with_offset tss r) end
      end
  | (Err m, r) => (Err m, r) | (Panic p, r) => (Panic p, r) | (Diverge, r) => (Diverge, r)
  end.
Lemma load_msg_eq e r : load_msg e r = load_rest e (file_header_msg e r).
Proof.
  unfold load_msg, load_rest, lbind. destruct (file_header_msg e r) as [[fh|x|p|] r1]; [|reflexivity..]. unfold llift.
  destruct (checked 32 (hdr_len fh + type_off fh)) as [tss|]; cbn [ok_or]; [|reflexivity]. destruct (checked (usize_bits (cfg e)) (tss + type_len fh)) as [tse|]; reflexivity.
Qed.
Lemma if_lt_mono (a u v b : N) : u <= v -> (if a <? u then Some a else None) = Some b -> (if a <? v then Some a else None) = Some b.
Proof. destruct (N.ltb_spec a u), (N.ltb_spec a v); intros; try discriminate; try assumption; lia. Qed.
Lemma if_lt_past (a u v b t : N) : t < u -> (if a <? u then Some a else None) = None -> (if a <? v then Some a else None) = Some b -> t < b.
Proof. destruct (N.ltb_spec a u), (N.ltb_spec a v); intros; try discriminate. match goal with H : Some _ = Some _ |- _ => injection H as <- end. lia. Qed.
Lemma if_lt_some (a u b : N) : (if a <? u then Some a else None) = Some b -> b < u.
Proof. destruct (N.ltb_spec a u); intros E; [injection E as <-; assumption|discriminate]. Qed.
Lemma wide_end a n b : n = 32 \/ n = 64 -> checked 32 a = Some b -> checked n a = Some b.
Proof.
  intros B. apply (if_lt_mono a (two_pow 32) (two_pow n)). destruct B as [->| ->]; vm_compute; discriminate.
Qed.
Lemma past_end a n b t : t < two_pow 32 -> checked 32 a = None -> checked n a = Some b -> t < b.
Proof. intros L. exact (if_lt_past a (two_pow 32) (two_pow n) b t L). Qed.
Lemma checked_lt n a b : checked n a = Some b -> b < two_pow n.
Proof. exact (if_lt_some a (two_pow n) b). Qed.
Lemma load_msg_agree e1 e2 : rd e2 = rd e1 -> overflow_checks (cfg e1) = true -> usize_bits (cfg e1) = 32 -> usize_bits (cfg e2) = 32 \/ usize_bits (cfg e2) = 64 ->
  not_panic (type_information_new_msg e1) -> type_information_new_msg e2 = type_information_new_msg e1.
Proof.
  intros R C B1 B2. assert (W : usize_bits (cfg e1) <= usize_bits (cfg e2)) by lia.
  unfold type_information_new_msg. rewrite !load_msg_eq. intros NP.
  assert (H : file_header_msg e2 reader_new = file_header_msg e1 reader_new).
  { apply (ag_file_header e1 e2 R C W). destruct (file_header_msg e1 reader_new) as [[fh|x|p|] r]; try exact I. exact NP. }
  rewrite H. clear H. destruct (file_header_msg e1 reader_new) as [[fh|x|p|] r]; [|reflexivity..]. unfold load_rest in *. rewrite B1 in NP |- *.
  destruct (checked 32 (hdr_len fh + type_off fh)) as [tss|] eqn:Es; [|reflexivity].
  destruct (checked 32 (tss + type_len fh)) as [tse|] eqn:Ee.
  - rewrite (wide_end _ _ _ B2 Ee). f_equal. apply (ag_load_types e1 e2 R C W). exact NP.
  - destruct (checked (usize_bits (cfg e2)) (tss + type_len fh)) as [tse|] eqn:E2; [|reflexivity].
    rewrite (types_end e2 fh (with_offset tss r) tss tse Es Ee (past_end _ _ _ _ (checked_lt _ _ _ Es) Ee E2)). reflexivity.
Qed.
