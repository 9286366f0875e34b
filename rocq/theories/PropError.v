(** * PropError: why a load fails (C51). *)
From Coq Require Import Strings.String.
From Coq Require Import List NArith ZArith Bool Lia Strings.Byte.
From Verif Require Import TypeInfo Spec Exact Encode LoadProps BrokenSpec Explain Sample Witness PropLoad PropLoad2.
Import ListNotations.
Open Scope N_scope.

(** ** C51 *)
(** [broken img x] (BrokenSpec.v): what is wrong with the bytes of [img], and the error telling it: not the magic; a
    type section that starts or ends past 4 GiB; or, after records that are well formed, a record that does not fit the
    section, has an unknown kind, refers to a bad name or has an unaligned member. *)
Theorem C51_failure_explained : forall e img x, usize_bits (cfg e) = 64 -> serves (rd e) img -> type_information_new e = Err x ->
  broken img x \/ exists off n asked, requests e = (off, n, Fails x) :: asked /\ N.of_nat (length img) < off + n.
Proof. exact load_explained. Qed.
Print Assumptions C51_failure_explained.
(** and the other way: such a file is refused for that reason, by every Readable that serves it, which is not asked
    for anything outside of it. *)
Theorem C51_broken_iff : forall e img x, usize_bits (cfg e) = 64 -> serves (rd e) img ->
  (broken img x <-> type_information_new e = Err x /\ forall off n a, In (off, n, a) (requests e) -> exists bs, a = Bytes bs).
Proof.
  intros e img x H Hs. split.
  - intros Hb. split; [exact (broken_fails e img H Hs x Hb)|exact (broken_answered e img x H Hs Hb)].
  - intros [E Ha]. destruct (load_explained e img x H Hs E) as [Hb|(off & n & asked & Er & _)]; [exact Hb|].
    destruct (Ha off n (Fails x)) as [bs C]; [rewrite Er; left; reflexivity|discriminate].
Qed.
Print Assumptions C51_broken_iff.
(** The reason is unique, and an accepted file has none. *)
Theorem C51_one_reason : forall img x, broken img x ->
  (forall y, broken img y -> y = x) /\
  forall e, usize_bits (cfg e) = 64 -> serves (rd e) img -> forall ti, type_information_new e <> Ok ti.
Proof.
  intros img x Hb. split.
  - intros y Hy. assert (H : usize_bits (cfg (file_env img)) = 64) by reflexivity.
    pose proof (broken_fails (file_env img) img H (readable_file_serves img) x Hb) as E.
    pose proof (broken_fails (file_env img) img H (readable_file_serves img) y Hy) as E'. congruence.
  - intros e H Hs ti E. pose proof (broken_fails e img H Hs x Hb). congruence.
Qed.
Print Assumptions C51_one_reason.
(** A struct whose second member has a bad name; a file that is not BTF; the sample cut after 200 bytes, which is not
    broken but ends too early. *)
Example C51_met : broken bad_member_file InvalidStringOffset /\ broken (s "ELF or so") InvalidMagic /\
  (let cut := file_env (firstn 200 sample_img) in type_information_new cut = Err IOError /\
   exists off n asked, requests cut = (off, n, Fails IOError) :: asked /\ 200 < off + n).
Proof.
  split; [|split].
  - destruct C13_met as (H1 & H2 & H3 & H4 & H5 & H6 & H7). apply (wrong_record _ Little bad_member_fields [] 24); [exact H1|exact H2|exact H3|vm_compute; reflexivity|].
    exact (bad_data _ _ _ _ H6 H4 H5 H7).
  - apply (wrong_magic _ x45 x4c); [check|discriminate|discriminate].
  - cbv zeta. split; [vm_compute; reflexivity|]. do 3 eexists. split; [vm_compute; reflexivity|vm_compute; reflexivity].
Qed.
