(** * LoadMessagePass: the Readable's own error is passed on as it is, and no other error is taken for it (C61). *)
From Coq Require Import Strings.Byte.
From Coq Require Import List NArith Bool Lia.
From Verif Require Import TypeInfo BaseFacts LoadMessage LoadMessageFacts.
Import ListNotations.
Open Scope N_scope.

Definition answered (q : request) : Prop := exists bs, snd q = Bytes bs.
(** What the answers to the new requests say about the outcome. *)
Definition verdict {A} (new : list request) (o : outcome lmessage A) : Prop :=
  match o with
  | Err (LReadable k) => exists off n old, new = (off, n, Fails k) :: old /\ Forall answered old
  | _ => Forall answered new
  end.
Definition passes {A} (m : LM A) : Prop := forall r, exists new, r_trace (snd (m r)) = new ++ r_trace r /\ verdict new (fst (m r)).

Lemma ps_quiet {A} (m : LM A) : (forall r, r_trace (snd (m r)) = r_trace r /\ forall k, fst (m r) <> Err (LReadable k)) -> passes m.
Proof.
  intros H r. destruct (H r) as [E N]. exists []. split; [exact E|]. unfold verdict. destruct (fst (m r)) as [a|[k| | | | | | | | | | | |]|p|]; try constructor. destruct (N k eq_refl).
Qed.
Lemma ps_ret {A} (a : A) : passes (lret a).
Proof. apply ps_quiet. intros r. split; [reflexivity|discriminate]. Qed.
Lemma ps_fail {A} x : (forall k, x <> LReadable k) -> passes (@lfail A x).
Proof. intros H. apply ps_quiet. intros r. split; [reflexivity|]. intros k E. injection E as E. exact (H k E). Qed.
Lemma ps_lift {A} (o : outcome lmessage A) : (forall k, o <> Err (LReadable k)) -> passes (llift o).
Proof. intros H. apply ps_quiet. intros r. split; [reflexivity|]. exact H. Qed.
Lemma ps_opt {A} x (y : option A) : (forall k, x <> LReadable k) -> passes (llift (ok_or x y)).
Proof. intros H. apply ps_lift. intros k E. destruct y; [discriminate|]. injection E as E. exact (H k E). Qed.
Lemma ps_wrap c b v : passes (llift (wrap_or_panic c b v)).
Proof. apply ps_lift. intros k. unfold wrap_or_panic. destruct (v <? two_pow b), (overflow_checks c); discriminate. Qed.
Lemma ps_add_u32 c x y : passes (llift (add_u32 c x y)).
Proof. apply ps_wrap. Qed.
Lemma ps_add_usize c x y : passes (llift (add_usize c x y)).
Proof. apply ps_wrap. Qed.
Lemma ps_renamed {A} x (y : outcome error_kind A) : (forall k, x <> LReadable k) -> passes (llift (renamed (fun _ => x) y)).
Proof. intros H. apply ps_lift. intros k E. destruct y; try discriminate. injection E as E. exact (H k E). Qed.
Lemma ps_kind v : passes (llift (kind_msg v)).
Proof. apply ps_renamed. discriminate. Qed.
Lemma ps_bind {A B} (m : LM A) (k : A -> LM B) : passes m -> (forall a, passes (k a)) -> passes (lbind m k).
Proof.
  intros H K r. destruct (H r) as (new & E & V). unfold lbind. destruct (m r) as [[a|x|p|] r1]; cbn [fst snd] in *; try (exists new; auto; fail).
  destruct (K a r1) as (new' & E' & V'). exists (new' ++ new). split; [rewrite E', E, app_assoc; reflexivity|]. cbn [verdict] in V.
  unfold verdict in *. destruct (fst (k a r1)) as [b|[j| | | | | | | | | | | |]|p|]; try (apply Forall_app; auto; fail).
  destruct V' as (off & n & old & -> & Ha). exists off, n, (old ++ new). split; [reflexivity|]. apply Forall_app. auto.
Qed.
Lemma ps_inspect {A} (m : LM A) back : passes m -> passes (linspect_err m (with_offset back)).
Proof.
  intros H r. destruct (H r) as (new & E & V). unfold linspect_err. destruct (m r) as [[a|x|p|] r1]; cbn [fst snd] in *; exists new; auto.
Qed.
Lemma ps_repeat {A} n (m : LM A) : passes m -> passes (repeat_LM n m).
Proof. intros H. induction n as [|n IH]; [apply ps_ret|]. apply ps_bind; [exact H|]. intros a. apply ps_bind; [exact IH|]. intros l. apply ps_ret. Qed.
Lemma ps_while {S A} n (b : S -> LM (S + A)) s : (forall s, passes (b s)) -> passes (while_LM n b s).
Proof.
  intros H r. rewrite while_LM_nat. revert s r. generalize (N.to_nat n). clear n. intros n.
  induction n as [|n IH]; intros s; [exact (ps_lift Diverge ltac:(discriminate))|]. cbn [while_lnat]. apply ps_bind; [apply H|]. intros [s'|a]; [exact (IH s')|apply ps_ret].
Qed.
(** The parts taken from Reader.v *)
Lemma ps_quiet_from {A} (m : M A) : (forall r, r_trace (snd (m r)) = r_trace r /\ forall k, fst (m r) <> Err k) -> passes (from m).
Proof.
  intros H. apply ps_quiet. intros r. destruct (H r) as [E N]. unfold from. cbn [fst snd]. split; [exact E|]. intros k C. destruct (fst (m r)) as [a|j|p|]; try discriminate C. exact (N j eq_refl).
Qed.
Lemma ps_get : passes (from get_offset).
Proof. apply ps_quiet_from. intros r. split; [reflexivity|discriminate]. Qed.
Lemma ps_set o : passes (from (set_offset o)).
Proof. apply ps_quiet_from. intros r. split; [reflexivity|discriminate]. Qed.
Lemma ps_order o : passes (from (set_endianness o)).
Proof. apply ps_quiet_from. intros r. split; [reflexivity|discriminate]. Qed.
Lemma ps_ext {A} (m m' : LM A) : (forall r, m r = m' r) -> passes m' -> passes m.
Proof. intros E H r. rewrite E. apply H. Qed.
Lemma from_bind {A B} (m : M A) (k : A -> M B) r : from (bind m k) r = lbind (from m) (fun a => from (k a)) r.
Proof. unfold from, bind, lbind. destruct (m r) as [[a|j|p|] r1]; reflexivity. Qed.
Lemma ps_from_bind {A B} (m : M A) (k : A -> M B) : passes (from m) -> (forall a, passes (from (k a))) -> passes (from (bind m k)).
Proof. intros H K. eapply ps_ext; [apply from_bind|]. apply ps_bind; assumption. Qed.
Lemma ps_from_ret {A} (a : A) : passes (from (ret a)).
Proof. apply ps_quiet_from. intros r. split; [reflexivity|discriminate]. Qed.
Lemma ps_read e n : passes (from (read e n)).
Proof.
  intros r. unfold from, read. cbv zeta. destruct (rd e (r_trace r) (r_off r) n) as [bs|k] eqn:E.
  - exists [(r_off r, n, Bytes bs)]. unfold add_usize, wrap_or_panic. destruct (r_off r + n <? two_pow (usize_bits (cfg e))), (overflow_checks (cfg e)); (split; [reflexivity|]); repeat constructor; exists bs; reflexivity.
  - exists [(r_off r, n, Fails k)]. split; [reflexivity|]. exists (r_off r), n, []. split; [reflexivity|constructor].
Qed.
Lemma ps_uint e n : passes (from (read_uint e n)).
Proof. unfold read_uint. apply ps_from_bind; [apply ps_read|]. intros bs. apply ps_quiet_from. intros r. split; [reflexivity|discriminate]. Qed.
Lemma ps_u8 e : passes (from (read_u8 e)).
Proof. unfold read_u8. apply ps_from_bind; [apply ps_read|]. intros [|b bs]; [|apply ps_from_ret]. apply ps_quiet_from. intros r. split; [reflexivity|discriminate]. Qed.
Lemma ps_i32 e : passes (from (read_i32 e)).
Proof. unfold read_i32. apply ps_from_bind; [apply ps_uint|]. intros. apply ps_from_ret. Qed.
Lemma ps_i64 e : passes (from (read_i64 e)).
Proof. unfold read_i64. apply ps_from_bind; [apply ps_uint|]. intros. apply ps_from_ret. Qed.
Lemma ps_variable e : passes (from (parse_variable e)).
Proof. unfold parse_variable. do 3 (apply ps_from_bind; [apply ps_uint|intros ?]). apply ps_from_ret. Qed.

Ltac ps := repeat first
  [ apply ps_ret | apply ps_opt; discriminate | apply ps_fail; discriminate | apply ps_add_u32 | apply ps_add_usize | apply ps_kind | apply ps_renamed; discriminate
  | apply ps_get | apply ps_set | apply ps_order | apply ps_uint | apply ps_u8 | apply ps_i32 | apply ps_i64 | apply ps_variable
  | apply ps_bind; [|intros ?] | apply ps_inspect | apply ps_repeat | apply ps_while; intros ?
  | match goal with |- passes (if ?b then _ else _) => destruct b end | match goal with |- passes (let _ := _ in _) => cbv zeta end ].
Lemma ps_file_header e : passes (file_header_msg e).
Proof. unfold file_header_msg, detect_endianness_msg. ps. Qed.
Lemma ps_header e fh : passes (header_msg e fh).
Proof. unfold header_msg. ps. Qed.
Lemma ps_string e fh k : passes (parse_string_msg e fh k).
Proof. unfold parse_string_msg. ps. Qed.
Lemma ps_name e fh k : passes (parse_name_msg_opt e fh k).
Proof. unfold parse_name_msg_opt. destruct (negb (k =? 0)); [|apply ps_ret]. apply ps_bind; [apply ps_string|]. intros. apply ps_ret. Qed.
Lemma ps_member e fh h : passes (parse_member_msg e fh h).
Proof. unfold parse_member_msg. do 3 (apply ps_bind; [apply ps_uint|intros ?]). apply ps_bind; [apply ps_name|]. intros. ps. Qed.
Lemma ps_value32 e fh sg : passes (parse_named_value32_msg e fh sg).
Proof. unfold parse_named_value32_msg. apply ps_bind; [apply ps_uint|intros ?]. apply ps_bind; [apply ps_string|]. intros. ps. Qed.
Lemma ps_value64 e fh sg : passes (parse_named_value64_msg e fh sg).
Proof. unfold parse_named_value64_msg. apply ps_bind; [apply ps_uint|intros ?]. apply ps_bind; [apply ps_string|]. intros. ps. Qed.
Lemma ps_parameter e fh : passes (parse_parameter_msg e fh).
Proof. unfold parse_parameter_msg. do 2 (apply ps_bind; [apply ps_uint|intros ?]). apply ps_bind; [apply ps_name|]. intros. ps. Qed.
Lemma ps_define {D} K size (dn : env -> file_header -> header -> LM D) e fh h : (forall k, size (cfg e) h <> Err k) -> passes (dn e fh h) -> passes (define_type_msg K size dn e fh h).
Proof.
  intros Hsz H. unfold define_type_msg. destruct (negb (kind_eqb (h_kind h) K)); [apply ps_fail; discriminate|].
  apply ps_bind; [apply ps_quiet_from; intros r; split; [reflexivity|exact Hsz]|]. intros n. apply ps_bind; [|intros ?; exact H]. ps.
Qed.
Lemma ps_parse_type k e fh h : passes (parse_type_msg k e fh h).
Proof.
  assert (M : forall x y j, @mul_usize error_kind (cfg e) x y <> Err j) by (intros x y j; unfold mul_usize, wrap_or_panic; destruct (x * y <? two_pow (usize_bits (cfg e))), (overflow_checks (cfg e)); discriminate).
  destruct k; cbn [parse_type_msg]; (apply ps_bind; [apply ps_define; [first [discriminate|intros j; apply M]|]|intros; apply ps_ret]).
  all: unfold link_data_msg, named_link_data_msg, int_data_msg, array_data_msg, struct_data_msg, enum_data_msg, func_proto_data_msg, var_data_msg, data_sec_data_msg, float_data_msg, decl_tag_data_msg, enum64_data_msg; cbv zeta.
  all: repeat first [apply ps_ret | apply ps_name | apply ps_uint | apply ps_repeat; first [apply ps_member|apply ps_value32|apply ps_value64|apply ps_parameter|apply ps_variable] | apply ps_bind; [|intros ?]].
Qed.
Lemma ps_load e : passes (load_msg e).
Proof.
  unfold load_msg. apply ps_bind; [apply ps_file_header|]. intros fh. do 2 (apply ps_bind; [apply ps_opt; discriminate|intros ?]). apply ps_bind; [apply ps_set|]. intros _.
  unfold load_types_msg. apply ps_while. intros st. apply ps_bind; [apply ps_get|]. intros o. destruct (o <? _); [|apply ps_ret].
  apply ps_bind; [apply ps_header|]. intros h. apply ps_bind; [apply ps_parse_type|]. intros t. cbv zeta. ps.
Qed.
