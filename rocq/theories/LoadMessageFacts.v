(** * LoadMessageFacts: forgetting the messages gives [load]; the messages are true (C61). *)
From Coq Require Import Strings.Byte.
From Coq Require Import List NArith ZArith Bool Lia ZifyBool ZifyNat ZifyN.
From Verif Require Import TypeInfo Spec BaseFacts Bits Maps Exact Errors LoadProps LoadProps2 Transport Final BrokenSpec Explain LoadMessage LoadMessageSpec.
Import ListNotations.
Open Scope N_scope.

(** ** Forgetting the messages *)
Definition forget {A} (x : outcome lmessage A * reader) : outcome error_kind A * reader :=
  (match fst x with Ok a => Ok a | Err m => Err (lmessage_kind m) | Panic p => Panic p | Diverge => Diverge end, snd x).
Definition erases {A} (lm : LM A) (m : M A) : Prop := forall r, m r = forget (lm r).

Lemma er_from {A} (m : M A) : erases (from m) m.
Proof. intros r. unfold from, forget. destruct (m r) as [[a|k|p|] r']; reflexivity. Qed.
Lemma er_ret {A} (a : A) : erases (lret a) (ret a).
Proof. intros r. reflexivity. Qed.
Lemma er_fail {A} x k : lmessage_kind x = k -> erases (@lfail A x) (fail k).
Proof. intros <- r. reflexivity. Qed.
Lemma er_opt {A} x k (y : option A) : lmessage_kind x = k -> erases (llift (ok_or x y)) (lift (ok_or k y)).
Proof. intros <- r. destruct y; reflexivity. Qed.
Lemma er_wrap c b v : erases (llift (wrap_or_panic c b v)) (lift (wrap_or_panic c b v)).
Proof. intros r. unfold wrap_or_panic, forget, llift, lift. destruct (v <? two_pow b), (overflow_checks c); reflexivity. Qed.
Lemma er_add_u32 c x y : erases (llift (add_u32 c x y)) (lift (add_u32 c x y)).
Proof. apply er_wrap. Qed.
Lemma er_add_usize c x y : erases (llift (add_usize c x y)) (lift (add_usize c x y)).
Proof. apply er_wrap. Qed.
Lemma er_renamed {A} x (y : outcome error_kind A) : (forall k, y = Err k -> lmessage_kind x = k) -> erases (llift (renamed (fun _ => x) y)) (lift y).
Proof. intros H r. unfold llift, lift, forget. destruct y as [a|k|p|]; cbn; try reflexivity. rewrite (H k eq_refl). reflexivity. Qed.
Lemma er_kind v : erases (llift (kind_msg v)) (lift (kind_new v)).
Proof. apply er_renamed. intros k E. destruct (kind_new_err v) as [[k' E']|[E' _]]; rewrite E' in E; [discriminate|]. injection E as <-. reflexivity. Qed.
Lemma er_offset kf w : erases (llift (renamed (fun _ => LUnaligned) (decode_member_offset kf w))) (lift (decode_member_offset kf w)).
Proof. apply er_renamed. intros k E. unfold decode_member_offset in E. destruct kf; [destruct (_ && _); discriminate|]. destruct (w mod 8 =? 0); [discriminate|]. injection E as <-. reflexivity. Qed.
Lemma er_bind {A B} (lm : LM A) (m : M A) (lk : A -> LM B) (k : A -> M B) : erases lm m -> (forall a, erases (lk a) (k a)) -> erases (lbind lm lk) (bind m k).
Proof.
  intros H K r. unfold bind, lbind. rewrite (H r). destruct (lm r) as [[a|x|p|] r']; cbn [forget fst snd]; try reflexivity. apply K.
Qed.
Lemma er_inspect {A} (lm : LM A) m h : erases lm m -> erases (linspect_err lm h) (inspect_err m h).
Proof. intros H r. unfold inspect_err, linspect_err. rewrite (H r). destruct (lm r) as [[a|x|p|] r']; reflexivity. Qed.
Lemma er_repeat {A} n (lm : LM A) m : erases lm m -> erases (repeat_LM n lm) (repeat_M n m).
Proof. intros H. induction n as [|n IH]; [apply er_ret|]. apply er_bind; [exact H|]. intros a. apply er_bind; [exact IH|]. intros l. apply er_ret. Qed.

Fixpoint while_lnat {S A} (n : nat) (body : S -> LM (S + A)) (s : S) : LM A :=
  match n with
  | O => llift Diverge
  | Datatypes.S n' => lbind (body s) (fun x => match x with inl s' => while_lnat n' body s' | inr a => lret a end)
  end.
Lemma while_LM_nat {S A} bound (body : S -> LM (S + A)) s r : while_LM bound body s r = while_lnat (N.to_nat bound) body s r.
Proof.
  unfold while_LM. rewrite loop_N_nat. generalize (N.to_nat bound). intros n. revert s r.
  induction n as [|n IH]; intros s r; cbn [loop_nat while_lnat]; [reflexivity|].
  unfold lbind. cbn [fst snd]. destruct (body s r) as [[[s'|a]|k|p|] r']; try reflexivity. apply IH.
Qed.
Lemma er_while {S A} n (lb : S -> LM (S + A)) (b : S -> M (S + A)) s : (forall s, erases (lb s) (b s)) -> erases (while_LM n lb s) (while_M n b s).
Proof.
  intros H r. rewrite while_M_nat, while_LM_nat. revert s r. generalize (N.to_nat n). clear n. intros n.
  induction n as [|n IH]; intros s; [intros r; reflexivity|]. cbn [while_nat while_lnat]. apply er_bind; [apply H|]. intros [s'|a]; [exact (IH s')|apply er_ret].
Qed.

Ltac er := repeat first
  [ apply er_bind; [|intros ?] | apply er_from | apply er_ret | apply er_opt; reflexivity | apply er_fail; reflexivity | apply er_add_u32 | apply er_add_usize
  | apply er_kind | apply er_offset | apply er_inspect | apply er_repeat | apply er_while; intros ?
  | match goal with |- erases (if ?b then _ else _) _ => destruct b end | match goal with |- erases (let _ := _ in _) _ => cbv zeta end ].
Lemma er_file_header e : erases (file_header_msg e) (file_header_new e).
Proof. unfold file_header_msg, file_header_new, detect_endianness_msg, detect_endianness. er. Qed.
Lemma er_header e fh : erases (header_msg e fh) (header_new e fh).
Proof. unfold header_msg, header_new. er. Qed.
Lemma er_string e fh k : erases (parse_string_msg e fh k) (parse_string e fh k).
Proof. unfold parse_string_msg, parse_string. er. Qed.
Lemma er_name e fh k : erases (parse_name_msg_opt e fh k) (parse_name_opt e fh k).
Proof. unfold parse_name_msg_opt, parse_name_opt. destruct (negb (k =? 0)); er; try apply er_string. Qed.
Lemma er_member e fh h : erases (parse_member_msg e fh h) (parse_member e fh h).
Proof. unfold parse_member_msg, parse_member. er; try apply er_name. Qed.
Lemma er_value32 e fh sg : erases (parse_named_value32_msg e fh sg) (parse_named_value32 e fh sg).
Proof. unfold parse_named_value32_msg, parse_named_value32. er; try apply er_string. Qed.
Lemma er_value64 e fh sg : erases (parse_named_value64_msg e fh sg) (parse_named_value64 e fh sg).
Proof. unfold parse_named_value64_msg, parse_named_value64. er; try apply er_string. Qed.
Lemma er_parameter e fh : erases (parse_parameter_msg e fh) (parse_parameter e fh).
Proof. unfold parse_parameter_msg, parse_parameter. er; try apply er_name. Qed.
Lemma er_define {D} K size (ldn : env -> file_header -> header -> LM D) dn e fh h : erases (ldn e fh h) (dn e fh h) -> erases (define_type_msg K size ldn e fh h) (define_type_new K size dn e fh h).
Proof. intros H. unfold define_type_msg, define_type_new. er; exact H. Qed.
Lemma er_parse_type k e fh h : erases (parse_type_msg k e fh h) (parse_type k e fh h).
Proof.
  destruct k; cbn [parse_type_msg parse_type]; (apply er_bind; [apply er_define|intros; apply er_ret]).
  all: unfold link_data_msg, link_data_new, named_link_data_msg, named_link_data_new, int_data_msg, int_data_new, array_data_msg, array_data_new, struct_data_msg, struct_data_new,
    enum_data_msg, enum_data_new, func_proto_data_msg, func_proto_data_new, var_data_msg, var_data_new, data_sec_data_msg, data_sec_data_new, float_data_msg, float_data_new,
    decl_tag_data_msg, decl_tag_data_new, enum64_data_msg, enum64_data_new; er; try apply er_name.
Qed.
Lemma er_load e : erases (load_msg e) (load e).
Proof. unfold load_msg, load, load_types_msg, load_types. er; try apply er_file_header; try apply er_header; try apply er_parse_type. Qed.
