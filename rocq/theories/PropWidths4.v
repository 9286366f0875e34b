(** * PropWidths4: the messages of failed loads on 32-bit targets (C61). [reaches_4G]: NarrowSpec.v, C02. *)
From Coq Require Import Strings.String.
From Coq Require Import List NArith Bool Lia Strings.Byte.
From Verif Require Import TypeInfo Spec Exact Local LoadProps LoadMessage LoadMessageFacts LoadMessagePass LoadMessageSpec LoadMessageLocal Final Witness NarrowSpec Sample PropLoad PropLoadMessage PropNarrow PropWidths PropWidths2 PropWidths3.
Import ListNotations.
Open Scope N_scope.

Lemma msg_panics e : not_panic (type_information_new e) -> not_panic (type_information_new_msg e).
Proof.
  unfold type_information_new, type_information_new_msg. rewrite (er_load e reader_new). unfold forget. cbn [fst].
  destruct (fst (load_msg e reader_new)) as [a|m|p|]; intros H; exact H.
Qed.
Lemma msg_alike e img : width_ok (cfg e) img -> serves (rd e) img -> usize_bits (cfg e) = 64 \/
  type_information_new_msg e = type_information_new_msg {| cfg := build64 true; rd := rd e |}.
Proof.
  intros [H|[H NR]] SV; [left; exact H|right]. set (c := {| cfg := build32 true; rd := rd e |}).
  assert (NP : not_panic (type_information_new_msg c)).
  { apply msg_panics. destruct (type_information_new c) as [ti|k|p|] eqn:E; try exact I. apply NR. apply (C02_panics_iff_partial (rd e) img SV). eauto. }
  rewrite (load_msg_agree c e); [rewrite (load_msg_agree c {| cfg := build64 true; rd := rd e |}); auto| | |auto|auto|exact NP]; reflexivity.
Qed.
Theorem C61_any_width : forall e img m, width_ok (cfg e) img -> serves (rd e) img ->
  (type_information_new_msg e = Err m <->
   broken_says img m \/ exists k off n asked, m = LReadable k /\ requests e = (off, n, Fails k) :: asked /\ N.of_nat (length img) < off + n).
Proof.
  intros e img m W SV. destruct (msg_alike e img W SV) as [H|H]; [exact (C61_message_iff e img m H SV)|].
  rewrite H, (proj2 (alike e img W SV)). exact (C61_message_iff {| cfg := build64 true; rd := rd e |} img m eq_refl SV).
Qed.
Print Assumptions C61_any_width.
(** A 32-bit build with overflow checks, whatever the Readable: unless it panics, the message is that of a 64-bit build. *)
Theorem C61_checked_32 : forall rd checks,
  type_information_new_msg {| cfg := build32 true; rd := rd |} = type_information_new_msg {| cfg := build64 checks; rd := rd |} \/
  exists p, type_information_new {| cfg := build32 true; rd := rd |} = Panic p.
Proof.
  intros rd checks. destruct (type_information_new {| cfg := build32 true; rd := rd |}) as [ti|k|p|] eqn:E; [left|left|right; eauto|left];
    symmetry; apply load_msg_agree; try reflexivity; auto; apply msg_panics; rewrite E; exact I.
Qed.
Print Assumptions C61_checked_32.
(** The end of the type section lies at 4 GiB, which no 32-bit usize holds: refused by every build with the same message. *)
Definition ends_at_4G : list byte := raw_header Little 24 0 0xFFFFFFE8 0 0.
Example C61_any_width_met : let e := {| cfg := build32 false; rd := readable_file ends_at_4G |} in
  width_ok (cfg e) ends_at_4G /\ serves (rd e) ends_at_4G /\ type_information_new_msg e = Err LTypesEnd.
Proof.
  cbv zeta. split; [right; split; [reflexivity|]|split; [apply readable_file_serves|vm_compute; reflexivity]].
  intros (en & hf & ts & o & FH & R & O & T & _). assert (X : file_header_at ends_at_4G Little {| hf_hdr_len := 24; hf_type_off := 0; hf_type_len := 0xFFFFFFE8; hf_str_off := 0; hf_str_len := 0 |}) by check.
  destruct (header_unique _ _ _ _ _ FH X) as [-> ->]. exact (N.lt_irrefl _ T).
Qed.
