(** * PropWidths3: what the loader reads and how much, on targets of both widths (C14, C15, C47, C50, C67). [reaches_4G]: NarrowSpec.v, C02. *)
From Coq Require Import List NArith Bool Lia Strings.Byte.
From Verif Require Import Safety TypeInfo Spec MemorySpec Final Exact LoadProps LoadProps2 Witness Sample PropLoad PropLoad2 PropMore PropWork PropMemory NarrowSpec PropNarrow PropWidths PropWidths2.
Import ListNotations.
Open Scope N_scope.

(** 64-bit builds, and 32-bit builds for a file with which the loader does not come to 4 GiB. *)
Definition width_ok (c : build) (img : list byte) : Prop := usize_bits c = 64 \/ usize_bits c = 32 /\ ~ reaches_4G img.

Theorem C14_any_width_partial : forall e img, width_ok (cfg e) img -> serves (rd e) img ->
  forall off n answer, In (off, n, answer) (requests e) -> 0 < n /\
    (off + n <= 24 \/
     exists en hf, let f := layout_of img en hf in file_header_at img en hf /\
       (types_lo f <= off /\ off + n <= types_hi f \/ strings_lo f <= off /\ off + n <= strings_hi f \/
        exists ts o h, records_at f (types_lo f) ts o /\ header_at f o h /\ h_kind h = KArray /\ h_vlen h = 0 /\
          o + 12 <= types_hi f /\ o + 12 <= off /\ off + n <= o + 24)).
Proof. intros e img W SV. rewrite (proj2 (alike e img W SV)). exact (C14_reads_in_sections_partial {| cfg := build64 true; rd := rd e |} img eq_refl SV). Qed.
Print Assumptions C14_any_width_partial.
Theorem C15_any_width_partial : forall e img en hf ts o, let f := layout_of img en hf in
  width_ok (cfg e) img -> serves (rd e) img ->
  file_header_at img en hf -> types_lo f < 2 ^ 32 -> records_at f (types_lo f) ts o -> o < types_hi f -> types_hi f < 2 ^ 32 ->
  (types_hi f < o + 12 -> type_information_new e = Err InvalidTypeSectionOffset) /\
  (forall h, o + 12 <= types_hi f -> header_at f o h -> h_kind h <> KArray -> types_hi f < o + 12 + extra_size h ->
     type_information_new e = Err InvalidTypeSectionOffset) /\
  (forall h, o + 12 <= types_hi f -> header_at f o h -> h_kind h = KArray -> types_hi f < o + 12 + 12 * h_vlen h ->
     type_information_new e = Err InvalidTypeSectionOffset).
Proof. intros e img en hf ts o f W SV. rewrite (proj1 (alike e img W SV)). exact (C15_too_long_partial {| cfg := build64 true; rd := rd e |} img en hf ts o eq_refl SV). Qed.
Print Assumptions C15_any_width_partial.
Theorem C47_any_width : forall e1 e2 img, width_ok (cfg e1) img -> width_ok (cfg e2) img -> serves (rd e1) img -> serves (rd e2) img ->
  (type_information_new e2 = type_information_new e1 /\ requests e2 = requests e1) \/
  exists off n k1 k2 asked, N.of_nat (length img) < off + n /\
    requests e1 = (off, n, Fails k1) :: asked /\ type_information_new e1 = Err k1 /\
    requests e2 = (off, n, Fails k2) :: asked /\ type_information_new e2 = Err k2.
Proof.
  intros e1 e2 img W1 W2 S1 S2. destruct (alike e1 img W1 S1) as [-> ->]. destruct (alike e2 img W2 S2) as [-> ->].
  exact (C47_same_bytes_same_result {| cfg := build64 true; rd := rd e1 |} {| cfg := build64 true; rd := rd e2 |} img eq_refl eq_refl S1 S2).
Qed.
Print Assumptions C47_any_width.
Theorem C50_any_width : forall e img, width_ok (cfg e) img -> serves (rd e) img ->
  8 * N.of_nat (length (requests e)) <= 72 + N.of_nat (length img) * (N.of_nat (length img) + 2) /\
  (forall en hf, file_header_at img en hf ->
    8 * N.of_nat (length (requests e)) <= 72 + (hf_type_len hf + 12) * (hf_str_len hf + 2)) /\
  (forall ti, type_information_new e = Ok ti -> length (requests e) = (8 + sum type_cost (map snd (get ti)))%nat).
Proof.
  intros e img W SV. destruct (alike e img W SV) as [-> ->]. destruct (C50_bounded_work {| cfg := build64 true; rd := rd e |} img eq_refl SV) as [P1 P2].
  split; [exact P1|]. split; [exact P2|]. intros ti. exact (C50_exact {| cfg := build64 true; rd := rd e |} ti eq_refl).
Qed.
Print Assumptions C50_any_width.
Theorem C67_any_width : forall e img ti, dependable (cfg e) -> serves (rd e) img -> type_information_new e = Ok ti ->
  let L := N.of_nat (length img) in let ts := map snd (get ti) in let names := flat_map held_names ts in
  exists en hf, file_header_at img en hf /\
  12 * N.of_nat (length ts) + 8 * total item_count ts <= N.min (hf_type_len hf) L /\
  (forall n, In n names -> N.of_nat (length n) <= 2 * (N.min (hf_str_len hf) L - 1)) /\
  4 * text names <= N.min (hf_type_len hf) L * (N.min (hf_str_len hf) L - 1) /\
  text (map fst (name_to_id_map ti)) <= text names /\ text (map snd (id_to_name_map ti)) <= text names.
Proof. intros e img ti D SV E. exact (C67_bounded_memory {| cfg := build64 true; rd := rd e |} img ti eq_refl SV (carried e ti D E)). Qed.
Print Assumptions C67_any_width.
Example any_width3_met : width_ok (build32 false) sample_img /\ width_ok (build32 true) sample_img /\ dependable (build32 true) /\
  type_information_new {| cfg := build32 false; rd := readable_file sample_img |} = Ok sample_ti.
Proof.
  destruct any_width_met as (D & _ & NR & SV & E). split; [right; split; [reflexivity|exact NR]|]. split; [right; split; [reflexivity|exact NR]|]. split; [exact D|vm_compute; reflexivity].
Qed.
