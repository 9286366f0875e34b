(** * PropRelease: loading in 32-bit builds without overflow checks (C59). *)
From Coq Require Import List NArith Bool Lia Strings.Byte.
From Verif Require Import TypeInfo Spec LoadProps LoadProps2 Final Sample Witness PropLoad Release32 Small32 Local.
Import ListNotations.
Open Scope N_scope.

(** ** C59 *)
(** A file of 4 GiB on which the loader never returns, however many rounds it is given: behind the last record the offset
    wraps to the beginning of the file.  [load_with] is [load] with another bound on its main loop (on 64-bit targets, and
    in builds with overflow checks, the bound does not matter: C01, C02). *)
Theorem C59_release_returns_refuted : exists img : list byte, N.of_nat (length img) = 2 ^ 32 /\
  let e := {| cfg := build32 false; rd := readable_file img |} in
  type_information_new e = Diverge /\ load e = load_with (fun fh => type_len fh + 1) e /\ forall bound, fst (load_with bound e reader_new) = Diverge.
Proof. exists giant. split; [exact giant_len|]. intros e. apply giant_all. reflexivity. Qed.
Print Assumptions C59_release_returns_refuted.
(** 24 bytes with which it returns another error than a 64-bit build: the end of the record wraps, passes the check,
    and a read outside of the file is tried. *)
Definition wrapping : list byte := raw_header Little 0xFFFFFFF8 0 4 0 0.
Theorem C59_release_same_refuted : exists img : list byte,
  type_information_new {| cfg := build32 false; rd := readable_file img |} = Err IOError /\
  type_information_new {| cfg := build64 false; rd := readable_file img |} = Err InvalidTypeSectionOffset.
Proof. exists wrapping. split; vm_compute; reflexivity. Qed.
Print Assumptions C59_release_same_refuted.
(** What remains: without overflow checks loading never panics, whatever the Readable and the width; and when no section
    ends in the last MiB below 4 GiB, the 32-bit build returns, with the result of the 64-bit build. *)
Theorem C59_release_partial : forall rd,
  (forall bits p, type_information_new {| cfg := {| usize_bits := bits; overflow_checks := false |}; rd := rd |} <> Panic p) /\
  forall img, serves rd img ->
    (forall en hf, file_header_at img en hf -> let f := layout_of img en hf in
       (types_hi f < 2 ^ 32 -> types_hi f <= 2 ^ 32 - 2 ^ 20) /\ (strings_hi f < 2 ^ 32 -> strings_hi f <= 2 ^ 32 - 2 ^ 20)) ->
    type_information_new {| cfg := build32 false; rd := rd |} = type_information_new {| cfg := build64 false; rd := rd |} /\
    ((exists ti, type_information_new {| cfg := build32 false; rd := rd |} = Ok ti) \/ exists k, type_information_new {| cfg := build32 false; rd := rd |} = Err k).
Proof.
  intros rd. split; [intros bits p; exact (calm_load {| cfg := {| usize_bits := bits; overflow_checks := false |}; rd := rd |} eq_refl reader_new p)|].
  intros img Hs Hb. destruct (C02_load_32_partial rd img false false Hs Hb) as [E _]. split; [exact E|]. rewrite E. exact (C01_load_never_panics false rd).
Qed.
Print Assumptions C59_release_partial.
(** A file shorter than 4 GiB - 1 MiB, wherever its header says that the sections are: with overflow checks a 32-bit build
    panics exactly if the type section starts in the last 12 bytes below 4 GiB and ends below 4 GiB, which no part of the
    file does; otherwise both 32-bit builds do what a 64-bit build does. *)
Theorem C02_small_files_partial : forall rd img checks checks', serves rd img -> N.of_nat (length img) <= 2 ^ 32 - 2 ^ 20 ->
  (forall en hf, file_header_at img en hf -> let f := layout_of img en hf in ~ (types_lo f < types_hi f /\ types_hi f < 2 ^ 32 /\ 2 ^ 32 <= types_lo f + 12)) ->
  type_information_new {| cfg := build32 checks'; rd := rd |} = type_information_new {| cfg := build64 checks; rd := rd |} /\
  requests {| cfg := build32 checks'; rd := rd |} = requests {| cfg := build64 checks; rd := rd |}.
Proof.
  intros rd img checks checks' Hs HL H. apply (small_same rd img); [exact Hs|exact HL|]. intros (en & hf & Hf & B). exact (H en hf Hf B).
Qed.
Print Assumptions C02_small_files_partial.
Theorem C02_small_files_panic_partial : forall rd img, serves rd img -> N.of_nat (length img) <= 2 ^ 32 - 2 ^ 20 ->
  (exists p, type_information_new {| cfg := build32 true; rd := rd |} = Panic p) <->
  exists en hf, file_header_at img en hf /\ let f := layout_of img en hf in types_lo f < types_hi f /\ types_hi f < 2 ^ 32 /\ 2 ^ 32 <= types_lo f + 12.
Proof.
  intros rd img Hs HL. split.
  - intros [p E]. assert (P : ~ not_panic (type_information_new {| cfg := build32 true; rd := rd |})) by (rewrite E; intros X; exact X). clear E.
    destruct (file_header_new {| cfg := build32 true; rd := rd |} reader_new) as [[fh|k|q|] r1] eqn:Eh.
    1:{ destruct (N.ltb_spec 0 (type_len fh)) as [H0|H0]; [destruct (N.ltb_spec (hdr_len fh + type_off fh + type_len fh) (2 ^ 32)) as [H1|H1]; [destruct (N.leb_spec (2 ^ 32) (hdr_len fh + type_off fh + 12)) as [H2|H2]|]|].
        1: exact (brim_header rd img true fh r1 Hs Eh (conj H0 (conj H1 H2))).
        all: exfalso; apply P; apply small_calm with (L := N.of_nat (length img)); [lia|apply small_answers; exact Hs|];
          rewrite Eh; intros fh' r' X (B0 & B1 & B2); injection X as <- <-; lia. }
    all: exfalso; apply P; apply small_calm with (L := N.of_nat (length img)); [lia|apply small_answers; exact Hs|]; rewrite Eh; discriminate.
  - intros B. destruct (small_brim rd img Hs HL B) as [E _]. eexists. exact E.
Qed.
Print Assumptions C02_small_files_panic_partial.
(** Without overflow checks it returns for all of them, with the table of the 64-bit build or with an error when that one
    gives an error; the error differs only if the 64-bit build says InvalidTypeSectionOffset, and then it is what the
    Readable said to one further request that ends outside of the file. *)
Theorem C59_small_files_partial : forall rd img checks, serves rd img -> N.of_nat (length img) <= 2 ^ 32 - 2 ^ 20 ->
  let e32 := {| cfg := build32 false; rd := rd |} in let e64 := {| cfg := build64 checks; rd := rd |} in
  (forall ti, type_information_new e32 = Ok ti <-> type_information_new e64 = Ok ti) /\
  ((type_information_new e32 = type_information_new e64 /\ requests e32 = requests e64) \/
   exists off x, N.of_nat (length img) < off + 4 /\ type_information_new e64 = Err InvalidTypeSectionOffset /\
     type_information_new e32 = Err x /\ requests e32 = (off, 4, Fails x) :: requests e64).
Proof.
  intros rd img checks Hs HL e32 e64.
  assert (D : (type_information_new e32 = type_information_new e64 /\ requests e32 = requests e64) \/
   exists off x, N.of_nat (length img) < off + 4 /\ type_information_new e64 = Err InvalidTypeSectionOffset /\
     type_information_new e32 = Err x /\ requests e32 = (off, 4, Fails x) :: requests e64).
  { destruct (type_information_new {| cfg := build32 true; rd := rd |}) as [ti|k|p|] eqn:E.
    3:{ right. destruct (small_brim rd img Hs HL (proj1 (C02_small_files_panic_partial rd img Hs HL) (ex_intro _ p E))) as [_ B].
        destruct (B checks) as (B1 & off & x & B2 & B3 & B4). exists off, x. repeat split; assumption. }
    all: left; apply load_checked_32; rewrite E; exact I. }
  split; [|exact D]. intros ti. destruct D as [[D _]|(off & x & _ & D1 & D2 & _)]; [rewrite D; tauto|]. rewrite D1, D2. split; discriminate.
Qed.
Print Assumptions C59_small_files_partial.
(** So every build, 32 or 64 bits wide, with or without overflow checks, accepts the same of these files, with the same table. *)
Theorem C02_same_accepted_partial : forall rd img checks checks' ti, serves rd img -> N.of_nat (length img) <= 2 ^ 32 - 2 ^ 20 ->
  (type_information_new {| cfg := build32 checks'; rd := rd |} = Ok ti <-> type_information_new {| cfg := build64 checks; rd := rd |} = Ok ti).
Proof.
  intros rd img checks checks' ti Hs HL. destruct checks'; [|exact (proj1 (C59_small_files_partial rd img checks Hs HL) ti)].
  destruct (C02_checked_32_partial rd checks) as [[E _]|[p E]]; [rewrite E; tauto|]. rewrite E. split; [discriminate|]. intro X. exfalso.
  destruct (small_brim rd img Hs HL (proj1 (C02_small_files_panic_partial rd img Hs HL) (ex_intro _ p E))) as [_ B]. destruct (B checks) as (B1 & off & x & B2 & B3 & B4). congruence.
Qed.
Print Assumptions C02_same_accepted_partial.
(** A header on the brim, one that names sections up to 4 GiB that the file does not have, and the sample. *)
Example C02_small_met : N.of_nat (length wrapping) = 24 /\
  type_information_new {| cfg := build32 true; rd := readable_file wrapping |} = Panic ArithmeticOverflow /\
  (let far := raw_header Little 0xFFFFFF00 0 0xF0 0 0xFF in type_information_new {| cfg := build32 true; rd := readable_file far |} = Err IOError /\
     forall en hf, file_header_at far en hf -> let f := layout_of far en hf in
       ~ (types_lo f < types_hi f /\ types_hi f < 2 ^ 32 /\ 2 ^ 32 <= types_lo f + 12)) /\
  N.of_nat (length sample_img) <= 2 ^ 32 - 2 ^ 20.
Proof.
  split; [reflexivity|]. split; [vm_compute; reflexivity|]. split; [|vm_compute; discriminate]. cbv zeta. split; [vm_compute; reflexivity|].
  intros en hf H. assert (X : file_header_at (raw_header Little 0xFFFFFF00 0 0xF0 0 0xFF) Little {| hf_hdr_len := 0xFFFFFF00; hf_type_off := 0; hf_type_len := 0xF0; hf_str_off := 0; hf_str_len := 0xFF |}) by check.
  destruct (header_unique _ _ _ _ _ H X) as [-> ->]. cbn. lia.
Qed.
Example C59_met : serves (readable_file sample_img) sample_img /\ type_information_new {| cfg := build32 false; rd := readable_file sample_img |} = Ok sample_ti.
Proof. split; [apply C03_buffers_and_files|vm_compute; reflexivity]. Qed.
