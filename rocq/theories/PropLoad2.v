(** * PropLoad2: the properties of loading, continued (C08-C23, C42, C44). *)
From Coq Require Import Strings.String.
From Coq Require Import List NArith ZArith Bool Lia Strings.Byte.
From Verif Require Import TypeInfo Spec Safety Exact Errors Encode EncodeProof LoadProps LoadProps2 Grow Final Sample Witness PropLoad.
Import ListNotations.
Open Scope N_scope.

(** ** C08 *)
Theorem C08_names_ids_agree : forall e ti, usize_bits (cfg e) = 64 -> type_information_new e = Ok ti ->
  (forall n t, id_of ti n = Some t -> name_of ti t = Some n) /\
  (forall n t, name_of ti t = Some n -> n <> s "void" -> exists t', id_of ti n = Some t' /\ t <= t' /\ name_of ti t' = Some n) /\
  id_of ti (s "void") = Some 0 /\ name_of ti 0 = Some (s "void").
Proof. exact loaded_names_ids. Qed.
Print Assumptions C08_names_ids_agree.
(** The name "int" belongs to ids 1 and 23. *)
Example C08_met : type_information_new (file_env sample_img) = Ok sample_ti /\
  name_of sample_ti 1 = Some (s "int") /\ name_of sample_ti 23 = Some (s "int") /\ id_of sample_ti (s "int") = Some 23.
Proof. split; [exact sample_loads|]. vm_compute. auto. Qed.

(** ** C09 *)
Theorem C09_last_definition_wins : forall e ti, usize_bits (cfg e) = 64 -> type_information_new e = Ok ti -> forall n, n <> s "void" ->
  (forall i, id_of ti n = Some i <->
     (carries (map snd (get ti)) i n /\ forall j, carries (map snd (get ti)) j n -> j <= i)) /\
  (id_of ti n = None <-> forall i, ~ carries (map snd (get ti)) i n).
Proof.
  intros e ti H E n Hn. split.
  - intros i. rewrite (loaded_id_of e ti H E n i). split; [intros [[? _]|(_ & Hc)]; [contradiction|exact Hc]|]. intros Hc. right. auto.
  - rewrite (loaded_id_none e ti H E n). split; [intros [_ Hc]; exact Hc|]. auto.
Qed.
Print Assumptions C09_last_definition_wins.
Example C09_met : type_information_new (file_env sample_img) = Ok sample_ti /\
  carries (map snd (get sample_ti)) 1 (s "int") /\ carries (map snd (get sample_ti)) 23 (s "int").
Proof.
  split; [exact sample_loads|].
  split; (eexists; split; [split; [vm_compute; discriminate|vm_compute; reflexivity]|vm_compute; reflexivity]).
Qed.
(** Pointers, qualifiers, arrays, prototypes and types whose name offset is zero
    carry no name. *)
Theorem C09_unnamed : forall e img ti, usize_bits (cfg e) = 64 -> serves (rd e) img -> type_information_new e = Ok ti ->
  forall i t h, type_at (map snd (get ti)) i t -> type_header t = Some h ->
    kind_has_name (h_kind h) = false \/ h_name_offset h = 0 -> declared_name t = None /\ name_of ti i = None /\ forall n, id_of ti n <> Some i.
Proof. exact loaded_unnamed. Qed.
Print Assumptions C09_unnamed.
Example C09_unnamed_met : exists t h, type_at (map snd (get sample_ti)) 3 t /\ type_header t = Some h /\ kind_has_name (h_kind h) = false /\
  exists t h, type_at (map snd (get sample_ti)) 6 t /\ type_header t = Some h /\ kind_has_name (h_kind h) = true /\ h_name_offset h = 0.
Proof.
  do 2 eexists. split; [split; [discriminate|vm_compute; reflexivity]|]. split; [vm_compute; reflexivity|]. split; [vm_compute; reflexivity|].
  do 2 eexists. split; [split; [discriminate|vm_compute; reflexivity]|]. split; [vm_compute; reflexivity|]. split; vm_compute; reflexivity.
Qed.

(** ** C10 *)
(** [declared_name] (Spec.v) is the name field of the type, for the kinds that have one. *)
Theorem C10_name_of_record : forall e ti, usize_bits (cfg e) = 64 -> type_information_new e = Ok ti -> forall i t,
  i <> 0 -> from_id ti i = Some t -> name_of ti i = declared_name t.
Proof. exact loaded_name_field. Qed.
Print Assumptions C10_name_of_record.
(** and it is absent exactly when the kind has no name or the stored name offset is zero *)
Theorem C10_named_iff : forall e img ti, usize_bits (cfg e) = 64 -> serves (rd e) img -> type_information_new e = Ok ti ->
  forall i t h, i <> 0 -> from_id ti i = Some t -> type_header t = Some h ->
    ((exists n, name_of ti i = Some n) <-> kind_has_name (h_kind h) = true /\ h_name_offset h <> 0).
Proof. exact loaded_named_iff. Qed.
Print Assumptions C10_named_iff.
Example C10_met : type_information_new (file_env sample_img) = Ok sample_ti /\ name_of sample_ti 7 = Some (s "task") /\ name_of sample_ti 6 = None.
Proof. split; [exact sample_loads|]. vm_compute. auto. Qed.

(** ** C11 *)
(** [name_in t k s]: the name [s] occurs in [t] (its own, or a member's, parameter's or
    enumerator's) and was loaded from name offset [k]. *)
Theorem C11_string_decoding : forall e img ti, usize_bits (cfg e) = 64 -> serves (rd e) img -> type_information_new e = Ok ti ->
  exists en hf, file_header_at img en hf /\ forall i t k s, type_at (map snd (get ti)) i t -> name_in t k s ->
    exists k' bs, (forall x, k = Some x -> k' = x) /\ raw_string (layout_of img en hf) k' bs /\ latin1 bs s /\
      valid_utf8 s /\ ~ In x00 s /\ (ascii bs -> s = bs).
Proof. exact loaded_names. Qed.
Print Assumptions C11_string_decoding.
Example C11_met : exists t, type_at (map snd (get sample_ti)) 7 t /\ name_in t (Some 39) (s "pid") /\
  exists h, type_header t = Some h /\ name_in t (Some (h_name_offset h)) (s "task").
Proof.
  eexists. split; [split; [discriminate|vm_compute; reflexivity]|]. split.
  - match goal with |- name_in ?t _ _ => let m := eval vm_compute in (hd_error (members t)) in match m with Some ?m => change 39 with (m_name_offset m); apply (member_name t m) end end; [left; reflexivity|vm_compute; reflexivity].
  - eexists. split; [vm_compute; reflexivity|]. apply own_name; vm_compute; reflexivity.
Qed.

(** ** C12 *)
(** "é" stored as UTF-8 (C3 A9) loads as "Ã©" (C3 83 C2 A9). *)
Definition e_acute : list byte := [xc3; xa9].
Definition utf8_file : list byte := raw_file Little [1; 0x08000000; 0] ([x00] ++ e_acute ++ [x00]).
Theorem C12_non_ascii_refuted : valid_utf8 e_acute /\
  raw_string (layout_of utf8_file Little {| hf_hdr_len := 24; hf_type_off := 0; hf_type_len := 12; hf_str_off := 12; hf_str_len := 4 |}) 1 e_acute /\
  exists ti, type_information_new (file_env utf8_file) = Ok ti /\ name_of ti 1 = Some [xc3; x83; xc2; xa9] /\ id_of ti e_acute = None.
Proof.
  split; [|split].
  - exists [e_acute]. split; [|reflexivity]. constructor; [|constructor]. apply utf8_2; split; discriminate.
  - split; [check|]. split; [intros [H|[H|[]]]; discriminate|]. split; vm_compute; discriminate || reflexivity.
  - eexists. split; [vm_compute; reflexivity|]. split; vm_compute; reflexivity.
Qed.
Print Assumptions C12_non_ascii_refuted.
(** A name is returned as stored exactly when it is ASCII. *)
Theorem C12_names_partial : forall e img ti, usize_bits (cfg e) = 64 -> serves (rd e) img -> type_information_new e = Ok ti ->
  forall en hf, file_header_at img en hf -> forall i t k s bs, type_at (map snd (get ti)) i t -> name_in t (Some k) s ->
    raw_string (layout_of img en hf) k bs -> (s = bs <-> ascii bs).
Proof. exact loaded_ascii_iff. Qed.
Print Assumptions C12_names_partial.
Example C12_met : type_information_new (file_env sample_img) = Ok sample_ti /\ exists en hf, file_header_at sample_img en hf /\
  raw_string (layout_of sample_img en hf) 39 (s "pid").
Proof.
  split; [exact sample_loads|]. do 2 eexists. split; [exact sample_header|].
  split; [check|]. split; [|split; vm_compute; discriminate || reflexivity].
  intros H. repeat (destruct H as [H|H]; [discriminate|]). exact H.
Qed.

(** ** C13 *)
(** A bad reference met by the loader (everything before it is fine) is reported.
    [defect_at f o h x]: reading the data at [o] of the record with header [h] meets a
    first defect, reported as [x] (Spec.v: bad name of the record, of a member, of an
    enumerator, of a parameter, or an unaligned member). *)
Theorem C13_bad_reference_fails : forall e img en hf ts o h x, let f := layout_of img en hf in
  usize_bits (cfg e) = 64 -> serves (rd e) img ->
  file_header_at img en hf -> types_lo f < 2 ^ 32 -> records_at f (types_lo f) ts o ->
  header_at f o h -> o + 12 + checked_size h <= types_hi f -> types_hi f < 2 ^ 32 ->
  defect_at f (o + 12) h x -> type_information_new e = Err x.
Proof.
  intros e img en hf ts o h x f H Hs Hfh Hlo Hrec Hh Hc Hhi Hd.
  apply (bad_reference_fails e img en hf ts o h x H Hs); try assumption; try (subst f; lia). split; [exact Hfh|]. split; [exact Hlo|exact Hrec].
Qed.
Print Assumptions C13_bad_reference_fails.
(** A successful load has no bad reference: no name holds a byte from outside the section. *)
Theorem C13_loaded_no_bad : forall e img ti, usize_bits (cfg e) = 64 -> serves (rd e) img -> type_information_new e = Ok ti ->
  forall en hf, file_header_at img en hf -> forall i t k s, type_at (map snd (get ti)) i t -> name_in t (Some k) s ->
    forall x, ~ bad_string (layout_of img en hf) k x.
Proof. exact loaded_no_bad. Qed.
Print Assumptions C13_loaded_no_bad.
(** A struct whose second member has name offset 100 in a 3-byte string section. *)
Definition bad_member_file : list byte :=
  raw_file Little [1; 0x04000002; 8; 1; 0; 0; 100; 0; 32] [x00; x61; x00].
Definition bad_member_header : header := {| h_kind := KStruct; h_name_offset := 1; h_vlen := 2; h_kind_flag := false; h_size_or_type := 8 |}.
Definition bad_member_fields : header_fields := {| hf_hdr_len := 24; hf_type_off := 0; hf_type_len := 36; hf_str_off := 36; hf_str_len := 3 |}.
Example C13_met : let f := layout_of bad_member_file Little bad_member_fields in
  file_header_at bad_member_file Little bad_member_fields /\ types_lo f < 2 ^ 32 /\
  records_at f (types_lo f) [] 24 /\ header_at f 24 bad_member_header /\ 24 + 12 + checked_size bad_member_header <= types_hi f /\
  types_hi f < 2 ^ 32 /\ defect_at f (24 + 12) bad_member_header InvalidStringOffset.
Proof.
  cbn zeta. split; [check|]. split; [vm_compute; reflexivity|]. split; [apply records_nil|].
  split; [apply (type_header_check _ _ 0x04000002); vm_compute; reflexivity|]. split; [vm_compute; discriminate|]. split; [vm_compute; reflexivity|].
  eapply (bad_member_name _ _ _ _ 1 [{| m_name_offset := 1; m_name := Some [x61]; m_tid := 0; m_offset := ByteOffset 0 |}] 100 0 32).
  - left. reflexivity.
  - vm_compute. reflexivity.
  - split; [reflexivity|]. intros [|[|i]] m Hm; try discriminate. injection Hm as <-. split; [check|]. split.
    + split; [discriminate|]. exists [x61]. split.
      * split; [check|]. split; [intros [C|[]]; discriminate|]. split; [vm_compute; discriminate|vm_compute; reflexivity].
      * exists [[x61]]. split; [|reflexivity]. constructor; [|constructor]. left. split; reflexivity.
    + split; [check|]. exists 0. split; [check|]. split; reflexivity.
  - check.
  - check.
  - check.
  - discriminate.
  - left. split; [reflexivity|]. right. vm_compute. discriminate.
Qed.
(** Both results of a bad reference: [InvalidStringOffset], and [InvalidString] for a
    string that is not terminated. *)
Example C13_results : type_information_new (file_env bad_member_file) = Err InvalidStringOffset /\
  type_information_new (file_env (raw_file Little [1; 0x08000000; 0] [x00; x61; x62])) = Err InvalidString.
Proof. split; vm_compute; reflexivity. Qed.

(** ** C14 *)
(** An array header ending the type section makes the loader read the 12 bytes after it. *)
Definition array_file (tail : list byte) : list byte := raw_file Little [0; 0x03000000; 0] [] ++ tail.
Definition twelve (b : byte) : list byte := repeat b 12.
Definition array_fields : header_fields := {| hf_hdr_len := 24; hf_type_off := 0; hf_type_len := 12; hf_str_off := 12; hf_str_len := 0 |}.
Theorem C14_reads_in_sections_refuted : let img := array_file (twelve x01) in let f := layout_of img Little array_fields in
  file_header_at img Little array_fields /\ types_hi f = 36 /\ strings_hi f = 36 /\
  exists bs, In (44, 4, Bytes bs) (requests (file_env img)).
Proof.
  cbn zeta. split; [check|]. split; [reflexivity|]. split; [reflexivity|]. eexists. vm_compute. left. reflexivity.
Qed.
Print Assumptions C14_reads_in_sections_refuted.
(** That is the only way out of the sections: the 12 data bytes of an array whose header
    is the last thing in the type section. *)
Theorem C14_reads_in_sections_partial : forall e img, usize_bits (cfg e) = 64 -> serves (rd e) img ->
  forall off n answer, In (off, n, answer) (requests e) -> 0 < n /\
    (off + n <= 24 \/
     exists en hf, let f := layout_of img en hf in file_header_at img en hf /\
       (types_lo f <= off /\ off + n <= types_hi f \/ strings_lo f <= off /\ off + n <= strings_hi f \/
        exists ts o h, records_at f (types_lo f) ts o /\ header_at f o h /\ h_kind h = KArray /\ h_vlen h = 0 /\
          o + 12 <= types_hi f /\ o + 12 <= off /\ off + n <= o + 24)).
Proof.
  intros e img H Hs off n answer Hq. destruct (image_requests e img H Hs _ Hq) as [[Hn Hr]|(en & hf & Hfh & Hn & Hr)]; unfold q_off, q_len in *; cbn [fst snd] in *.
  - auto.
  - split; [exact Hn|]. right. exists en, hf. split; [exact Hfh|]. destruct Hr as [Hr|[Hr|(ts & o & (Hrec & h & Hh & HK & Hv & He) & Ha & Hb)]]; [auto|auto|].
    right. right. exists ts, o, h. split; [exact Hrec|]. split; [exact Hh|]. repeat split; assumption.
Qed.
Print Assumptions C14_reads_in_sections_partial.
Example C14_met : serves (rd (file_env sample_img)) sample_img /\ length (requests (file_env sample_img)) = 313%nat.
Proof. split; [apply file_serves|vm_compute; reflexivity]. Qed.

(** ** C15 *)
Theorem C15_too_long_refuted : exists img en hf h, let f := layout_of img en hf in
  file_header_at img en hf /\ records_at f (types_lo f) [] 24 /\ header_at f 24 h /\
  types_hi f < 24 + 12 + extra_size h /\ exists ti, type_information_new (file_env img) = Ok ti.
Proof.
  exists (array_file (twelve x01)), Little, array_fields, {| h_kind := KArray; h_name_offset := 0; h_vlen := 0; h_kind_flag := false; h_size_or_type := 0 |}.
  cbn zeta. split; [check|]. split; [apply records_nil|]. split; [apply (type_header_check _ _ 0x03000000); vm_compute; reflexivity|].
  split; [reflexivity|]. eexists. vm_compute. reflexivity.
Qed.
Print Assumptions C15_too_long_refuted.
(** It holds for every kind but arrays, and for arrays up to [checked_size]
    (12 bytes per unit of vlen, see Spec.v). *)
Theorem C15_too_long_partial : forall e img en hf ts o, let f := layout_of img en hf in
  usize_bits (cfg e) = 64 -> serves (rd e) img ->
  file_header_at img en hf -> types_lo f < 2 ^ 32 -> records_at f (types_lo f) ts o -> o < types_hi f -> types_hi f < 2 ^ 32 ->
  (types_hi f < o + 12 -> type_information_new e = Err InvalidTypeSectionOffset) /\
  (forall h, o + 12 <= types_hi f -> header_at f o h -> h_kind h <> KArray -> types_hi f < o + 12 + extra_size h ->
     type_information_new e = Err InvalidTypeSectionOffset) /\
  (forall h, o + 12 <= types_hi f -> header_at f o h -> h_kind h = KArray -> types_hi f < o + 12 + 12 * h_vlen h ->
     type_information_new e = Err InvalidTypeSectionOffset).
Proof.
  intros e img en hf ts o f H Hs Hfh Hlo Hrec Ho Hhi.
  assert (D : describes_up_to img en hf ts o) by (split; [exact Hfh|]; split; [exact Hlo|exact Hrec]).
  split; [|split].
  - intros Hs1. exact (header_past_end e img en hf ts o H Hs D Ho Hhi Hs1).
  - intros h Hf Hh HK Hs1. exact (extra_past_end_not_array e img en hf ts o h H Hs D Hf Hhi Hh HK Hs1).
  - intros h Hf Hh HK Hs1. apply (extra_past_end e img en hf ts o h H Hs D Hf Hhi Hh). unfold checked_size. rewrite HK. exact Hs1.
Qed.
Print Assumptions C15_too_long_partial.
(** A struct announcing two members with room for one, and half a header. *)
Definition short_struct : list byte := raw_file Little [0; 0x04000002; 8; 0; 0; 0] [].
Example C15_met : let f := layout_of short_struct Little {| hf_hdr_len := 24; hf_type_off := 0; hf_type_len := 24; hf_str_off := 24; hf_str_len := 0 |} in
  file_header_at short_struct Little {| hf_hdr_len := 24; hf_type_off := 0; hf_type_len := 24; hf_str_off := 24; hf_str_len := 0 |} /\
  exists h, header_at f 24 h /\ h_kind h <> KArray /\ types_hi f < 24 + 12 + extra_size h.
Proof.
  cbn zeta. split; [check|]. exists {| h_kind := KStruct; h_name_offset := 0; h_vlen := 2; h_kind_flag := false; h_size_or_type := 8 |}.
  split; [apply (type_header_check _ _ 0x04000002); vm_compute; reflexivity|]. split; [discriminate|reflexivity].
Qed.
Example C15_half_header : type_information_new (file_env (raw_file Little [0; 0x04000002] [])) = Err InvalidTypeSectionOffset.
Proof. vm_compute. reflexivity. Qed.

(** ** C16 *)
(** [requests e] lists the requests of the load with their answers, most recent first. *)
Theorem C16_failures_reported : forall e, usize_bits (cfg e) = 64 ->
  (forall newer off n k older, requests e = newer ++ (off, n, Fails k) :: older ->
     newer = [] /\ type_information_new e = Err k) /\
  (forall ti, type_information_new e = Ok ti -> Forall (fun q => exists bs, snd q = Bytes bs) (requests e)).
Proof. intros e H. split; [exact (load_failures e H)|]. intros ti. exact (load_ok_answered e ti H). Qed.
Print Assumptions C16_failures_reported.
(** The recorded answers are those of the Readable. *)
Theorem C16_requests_honest : forall e newer off n a older,
  requests e = newer ++ (off, n, a) :: older -> rd e older off n = a.
Proof. exact requests_honest. Qed.
Print Assumptions C16_requests_honest.
(** A Readable that serves the sample and then fails its tenth request. *)
Definition failing : readable := fun tr off n => if (length tr =? 9)%nat then Fails IOError else readable_file sample_img tr off n.
Example C16_met : exists off n older, requests {| cfg := build64 true; rd := failing |} = [] ++ (off, n, Fails IOError) :: older /\ length older = 9%nat.
Proof. do 3 eexists. split; vm_compute; reflexivity. Qed.

(** ** C17 *)
Theorem C17_consulted_only : forall e1 e2, usize_bits (cfg e1) = 64 -> usize_bits (cfg e2) = 64 ->
  (forall newer off n a older, requests e1 = newer ++ (off, n, a) :: older -> rd e2 older off n = a) ->
  type_information_new e2 = type_information_new e1 /\ requests e2 = requests e1.
Proof. exact load_local. Qed.
Print Assumptions C17_consulted_only.
(** The second sentence fails for an array at the end of the type section ... *)
Theorem C17_outside_sections_refuted : exists i1 i2, let f := layout_of i1 Little array_fields in
  file_header_at i1 Little array_fields /\ file_header_at i2 Little array_fields /\ length i1 = length i2 /\
  (forall k, k < 24 \/ types_lo f <= k < types_hi f \/ strings_lo f <= k < strings_hi f ->
     nth_error i1 (N.to_nat k) = nth_error i2 (N.to_nat k)) /\
  type_information_new (file_env i1) <> type_information_new (file_env i2).
Proof.
  exists (array_file (twelve x01)), (array_file (twelve x02)). cbn zeta. split; [check|]. split; [check|]. split; [reflexivity|]. split.
  - intros k Hk. assert (B : (N.to_nat k < 36)%nat) by (cbn [layout_of types_lo types_hi strings_lo strings_hi array_fields hf_hdr_len hf_type_off hf_type_len hf_str_off hf_str_len] in Hk; lia).
    unfold array_file. rewrite !nth_error_app1 by (change (length (raw_file Little [0; 50331648; 0] [])) with 36%nat; exact B). reflexivity.
  - vm_compute. discriminate.
Qed.
Print Assumptions C17_outside_sections_refuted.
(** ... and holds otherwise: the bytes of the header and of the two sections, and the data
    of an array whose header ends the type section, determine the result. *)
Theorem C17_sections_partial : forall c i1 i2, usize_bits c = 64 ->
  same_bytes i1 i2 0 24 ->
  (forall en hf, file_header_at i1 en hf -> let f := layout_of i1 en hf in
     same_bytes i1 i2 (types_lo f) (types_hi f) /\ same_bytes i1 i2 (strings_lo f) (strings_hi f) /\
     forall ts o h, records_at f (types_lo f) ts o -> header_at f o h -> h_kind h = KArray -> h_vlen h = 0 -> o + 12 <= types_hi f ->
       same_bytes i1 i2 (types_hi f) (o + 24)) ->
  type_information_new {| cfg := c; rd := readable_file i2 |} = type_information_new {| cfg := c; rd := readable_file i1 |} /\
  requests {| cfg := c; rd := readable_file i2 |} = requests {| cfg := c; rd := readable_file i1 |}.
Proof.
  intros c i1 i2 Hc Hh H. apply image_local; [exact Hc|exact Hh|]. intros en hf Hfh. destruct (H en hf Hfh) as (A & B & C).
  split; [exact A|]. split; [exact B|]. intros ts o (Hrec & h & Hhd & HK & Hv & He). exact (C ts o h Hrec Hhd HK Hv He).
Qed.
Print Assumptions C17_sections_partial.
(** Appending bytes to the sample changes nothing. *)
Example C17_met : forall more, type_information_new (file_env (sample_img ++ more)) = Ok sample_ti.
Proof.
  intros more. rewrite <- sample_loads. apply (image_local (build64 true) sample_img (sample_img ++ more) eq_refl).
  - intros k _ Hk. rewrite nth_error_app1; [reflexivity|]. change (length sample_img) with 781%nat. lia.
  - intros en hf Hfh. destruct (header_unique _ _ _ _ _ Hfh sample_header) as [-> ->].
    assert (L : forall k, k < 781 -> nth_error sample_img (N.to_nat k) = nth_error (sample_img ++ more) (N.to_nat k)).
    { intros k Hk. rewrite nth_error_app1; [reflexivity|]. change (length sample_img) with 781%nat. lia. }
    cbn [layout_of types_lo types_hi strings_lo strings_hi hf_hdr_len hf_type_off hf_type_len hf_str_off hf_str_len].
    split; [intros k _ Hk; apply L; lia|]. split; [intros k _ Hk; apply L; lia|].
    intros ts o (_ & h & _ & _ & _ & Ho) k _ Hk. apply L. cbn in Ho. lia.
Qed.

(** ** C18 *)
Theorem C18_magic_first : forall e, 2 < 2 ^ usize_bits (cfg e) ->
  (exists newer, requests e = newer ++ [(0, 2, rd e [] 0 2)]) /\
  (forall b1 b2, rd e [] 0 2 = Bytes [b1; b2] -> [b1; b2] <> [x9f; xeb] -> [b1; b2] <> [xeb; x9f] ->
     type_information_new e = Err InvalidMagic /\ requests e = [(0, 2, Bytes [b1; b2])]).
Proof. intros e H. split; [exact (first_request e H)|]. intros b1 b2. exact (bad_magic e b1 b2 H). Qed.
Print Assumptions C18_magic_first.
(** All later integers use the order selected by the magic: see Spec.v, where every
    [u32_at] and [u64_at] of a layout uses its [order]. *)
Theorem C18_order : forall e img ti, usize_bits (cfg e) = 64 -> serves (rd e) img -> type_information_new e = Ok ti ->
  (bytes_at img 0 [x9f; xeb] \/ bytes_at img 0 [xeb; x9f]) /\
  forall en, bytes_at img 0 (match en with Little => [x9f; xeb] | Big => [xeb; x9f] end) ->
    exists hf stop, let f := layout_of img en hf in
      file_header_at img en hf /\ records_at f (types_lo f) (map snd (get ti)) stop /\ types_hi f <= stop.
Proof.
  intros e img ti H Hs E. split; [exact (loaded_magic e img ti H Hs E)|]. intros en Hm.
  destruct (loaded_order e img ti en H Hs E Hm) as (hf & stop & (Hfh & _ & Hr) & Hst). exists hf, stop. split; [exact Hfh|]. split; [exact Hr|exact Hst].
Qed.
Print Assumptions C18_order.
Example C18_met : (exists ti, type_information_new (file_env sample_big) = Ok ti) /\ bytes_at sample_big 0 [xeb; x9f] /\
  type_information_new (file_env (x00 :: sample_img)) = Err InvalidMagic.
Proof. split; [eexists; vm_compute; reflexivity|]. split; [check|vm_compute; reflexivity]. Qed.

(** ** C19 *)
Theorem C19_unknown_kind : forall e img en hf ts o no info, let f := layout_of img en hf in
  usize_bits (cfg e) = 64 -> serves (rd e) img ->
  file_header_at img en hf -> types_lo f < 2 ^ 32 -> records_at f (types_lo f) ts o ->
  o + 12 <= types_hi f -> types_hi f < 2 ^ 32 -> u32_at img en o no -> u32_at img en (o + 4) info ->
  info / 2 ^ 24 mod 32 = 0 \/ 19 < info / 2 ^ 24 mod 32 -> type_information_new e = Err InvalidBTFKind.
Proof.
  intros e img en hf ts o no info f H Hs Hfh Hlo Hrec. apply (unknown_kind e img en hf ts o no info H Hs).
  split; [exact Hfh|]. split; [exact Hlo|exact Hrec].
Qed.
Print Assumptions C19_unknown_kind.
(** An accepted record: its kind is the field in bits 24-28; only that field, vlen (bits
    0-15) and the kind flag (bit 31) of the info word are used. *)
Theorem C19_info_word : forall e img ti, usize_bits (cfg e) = 64 -> serves (rd e) img -> type_information_new e = Ok ti ->
  exists en hf, file_header_at img en hf /\ forall i t, type_at (map snd (get ti)) i t ->
    exists o h info, record_of img en hf (map snd (get ti)) i t o /\ type_header t = Some h /\ u32_at img en (o + 4) info /\
      1 <= info / 2 ^ 24 mod 32 <= 19 /\ kind_code (h_kind h) = info / 2 ^ 24 mod 32 /\
      h_vlen h = info mod 2 ^ 16 /\ h_kind_flag h = (2 ^ 31 <=? info).
Proof. exact loaded_info. Qed.
Print Assumptions C19_info_word.
(** The round trip C04/C06 sets the reserved bits to anything and gives the same types. *)
Theorem C19_reserved_ignored : forall version flags r1 r2 en ds e1 e2,
  let i1 := encode_with version flags r1 en ds in let i2 := encode_with version flags r2 en ds in
  usize_bits (cfg e1) = 64 -> usize_bits (cfg e2) = 64 -> serves (rd e1) i1 -> serves (rd e2) i2 ->
  Forall decl_ok ds -> Forall (fun d => reserved_ok (r1 d)) ds -> Forall (fun d => reserved_ok (r2 d)) ds ->
  len i1 < 2 ^ 32 -> len i2 < 2 ^ 32 ->
  exists t1 t2, type_information_new e1 = Ok t1 /\ type_information_new e2 = Ok t2 /\ map view (map snd (get t1)) = map view (map snd (get t2)).
Proof.
  intros version flags r1 r2 en ds e1 e2 i1 i2 H1 H2 S1 S2 Hd R1 R2 L1 L2.
  destruct (load_encoded version flags r1 en ds e1 H1 S1 Hd R1 L1) as (t1 & E1 & _ & V1).
  destruct (load_encoded version flags r2 en ds e2 H2 S2 Hd R2 L2) as (t2 & E2 & _ & V2).
  exists t1, t2. split; [exact E1|]. split; [exact E2|]. unfold types in V1, V2. rewrite V1, V2. reflexivity.
Qed.
Print Assumptions C19_reserved_ignored.
Example C19_met : type_information_new (file_env (raw_file Little [0; 0x14000000; 0] [])) = Err InvalidBTFKind /\
  type_information_new (file_env (raw_file Little [0; 0; 0] [])) = Err InvalidBTFKind /\
  u32_at (raw_file Little [0; 0x14000000; 0] []) Little 28 0x14000000 /\ 19 < 0x14000000 / 2 ^ 24 mod 32 /\
  reserved_ok (2 ^ 16 * 0xAB + 2 ^ 29 * 3).
Proof. split; [vm_compute; reflexivity|]. split; [vm_compute; reflexivity|]. split; [check|]. split; [reflexivity|]. exists 0xAB, 3. repeat split; reflexivity. Qed.

(** ** C20 *)
Theorem C20_section_bounds : forall e img en hf, usize_bits (cfg e) = 64 -> serves (rd e) img -> file_header_at img en hf ->
  (2 ^ 32 <= hf_hdr_len hf + hf_type_off hf -> type_information_new e = Err InvalidTypeSectionOffset) /\
  (hf_hdr_len hf + hf_type_off hf < 2 ^ 32 -> 0 < hf_type_len hf -> 2 ^ 32 <= hf_hdr_len hf + hf_type_off hf + hf_type_len hf ->
     type_information_new e = Err InvalidTypeSectionOffset) /\
  (hf_hdr_len hf + hf_type_off hf < 2 ^ 32 -> hf_type_len hf = 0 ->
     exists ti, type_information_new e = Ok ti /\ get ti = [] /\ Forall (fun q => q_off q + q_len q <= 24) (requests e)).
Proof.
  intros e img en hf H Hs Hfh. split; [exact (err_section_start e img H Hs en hf Hfh)|]. split; [exact (err_section_end e img H Hs en hf Hfh)|].
  intros Hlo Hz. destruct (empty_section e img en hf H Hs Hfh Hlo Hz) as (ti & E & G & F). exists ti. split; [exact E|]. split; [exact G|].
  eapply Forall_impl; [|exact F]. intros q [_ Hq]. exact Hq.
Qed.
Print Assumptions C20_section_bounds.
Example C20_met :
  type_information_new (file_env (raw_header Little 24 0xFFFFFFF0 0 0 0)) = Err InvalidTypeSectionOffset /\
  type_information_new (file_env (raw_header Little 24 0 0xFFFFFFF0 0 0)) = Err InvalidTypeSectionOffset /\
  file_header_at (raw_header Big 24 0xFFFFFF00 0 5 6) Big {| hf_hdr_len := 24; hf_type_off := 0xFFFFFF00; hf_type_len := 0; hf_str_off := 5; hf_str_len := 6 |}.
Proof. split; [vm_compute; reflexivity|]. split; [vm_compute; reflexivity|]. check. Qed.

(** ** C21 *)
(** [record_of img en hf ts i t o]: the record of the [i]-th type [t] starts at offset [o]. *)
Theorem C21_member_offsets : forall e img ti, usize_bits (cfg e) = 64 -> serves (rd e) img -> type_information_new e = Ok ti ->
  exists en hf, file_header_at img en hf /\ forall i t, type_at (map snd (get ti)) i t ->
    exists o h, record_of img en hf (map snd (get ti)) i t o /\ type_header t = Some h /\
      forall j m, nth_error (members t) j = Some m ->
        exists w, u32_at img en (o + 12 + 12 * N.of_nat j + 8) w /\
          (h_kind_flag h = false -> w mod 8 = 0 /\ m_offset m = ByteOffset (w / 8)) /\
          (h_kind_flag h = true -> w < 2 ^ 24 -> w mod 8 = 0 -> m_offset m = ByteOffset (w / 8)) /\
          (h_kind_flag h = true -> 2 ^ 24 <= w \/ w mod 8 <> 0 -> m_offset m = BitOffsetAndSize (w mod 2 ^ 24) (w / 2 ^ 24)).
Proof. exact loaded_members. Qed.
Print Assumptions C21_member_offsets.
(** With the kind flag clear, an offset that is not a whole number of bytes fails the load:
    the case [unaligned_member] of [defect_at]. *)
Theorem C21_unaligned_fails : forall e img en hf ts o h i ms no name tid w, let f := layout_of img en hf in
  usize_bits (cfg e) = 64 -> serves (rd e) img ->
  file_header_at img en hf -> types_lo f < 2 ^ 32 -> records_at f (types_lo f) ts o ->
  header_at f o h -> o + 12 + checked_size h <= types_hi f -> types_hi f < 2 ^ 32 ->
  h_kind h = KStruct \/ h_kind h = KUnion -> i < h_vlen h -> items_at (member_at f (h_kind_flag h)) (o + 12) 12 i ms ->
  u32_at img en (o + 12 + 12 * i) no -> name_at f no name ->
  u32_at img en (o + 12 + 12 * i + 4) tid -> u32_at img en (o + 12 + 12 * i + 8) w ->
  h_kind_flag h = false -> w mod 8 <> 0 -> type_information_new e = Err InvalidOffset.
Proof.
  intros e img en hf ts o h i ms no name tid w f H Hs Hfh Hlo Hrec Hh Hc Hhi HK Hi Hms Hno Hname Htid Hw Hflag Hmod.
  apply (C13_bad_reference_fails e img en hf ts o h InvalidOffset H Hs Hfh Hlo Hrec Hh Hc Hhi).
  exact (unaligned_member _ _ _ i ms no name tid w HK Hi Hms Hno Hname Htid Hw Hflag Hmod).
Qed.
Print Assumptions C21_unaligned_fails.
Example C21_met : (exists t h m, type_at (map snd (get sample_ti)) 7 t /\ type_header t = Some h /\ h_kind_flag h = true /\
    nth_error (members t) 4 = Some m /\ m_offset m = BitOffsetAndSize 384 3) /\
  type_information_new (file_env (raw_file Little [0; 0x04000001; 8; 0; 0; 3] [])) = Err InvalidOffset.
Proof.
  split; [|vm_compute; reflexivity].
  do 3 eexists. split; [split; [discriminate|vm_compute; reflexivity]|]. split; [vm_compute; reflexivity|]. split; [vm_compute; reflexivity|].
  split; vm_compute; reflexivity.
Qed.

(** ** C22 *)
Theorem C22_int_encoding : forall e img ti, usize_bits (cfg e) = 64 -> serves (rd e) img -> type_information_new e = Ok ti ->
  exists en hf, file_header_at img en hf /\ forall i h d, type_at (map snd (get ti)) i (TInt h d) ->
    exists o w, record_of img en hf (map snd (get ti)) i (TInt h d) o /\
      u32_at img en (o + 8) (int_size d) /\ u32_at img en (o + 12) w /\
      int_signed d = N.testbit w 24 /\ int_char d = N.testbit w 25 /\ int_boolean d = N.testbit w 26 /\
      int_offset d = w / 2 ^ 16 mod 256 /\ int_bits d = w mod 256.
Proof. exact loaded_ints. Qed.
Print Assumptions C22_int_encoding.
Example C22_met : exists h d, type_at (map snd (get sample_ti)) 4 (TInt h d) /\ int_char d = true /\ int_bits d = 8.
Proof. do 2 eexists. split; [split; [discriminate|vm_compute; reflexivity]|]. split; vm_compute; reflexivity. Qed.

(** ** C23 *)
(** [n] is the width in bytes: 4 for Enum, 8 for Enum64. *)
Theorem C23_enumerators : forall e img ti, usize_bits (cfg e) = 64 -> serves (rd e) img -> type_information_new e = Ok ti ->
  exists en hf, file_header_at img en hf /\ forall i t n, type_at (map snd (get ti)) i t -> enumerator_width t = Some n ->
    exists o h, record_of img en hf (map snd (get ti)) i t o /\ type_header t = Some h /\
      forall j v, nth_error (enumerators t) j = Some v ->
        exists w, word_at img en n (o + 12 + (4 + N.of_nat n) * N.of_nat j + 4) w /\
          (h_kind_flag h = false -> nv_value v = Unsigned w) /\
          (h_kind_flag h = true -> exists z, nv_value v = Signed z /\ signed_value (8 * N.of_nat n) w z).
Proof. exact loaded_enumerators. Qed.
Print Assumptions C23_enumerators.
(** A signed value determines its word: [z mod 2 ^ bits = w]. *)
Theorem C23_injective : forall bits w1 w2 z, signed_value bits w1 z -> signed_value bits w2 z -> w1 = w2.
Proof. intros bits w1 w2 z (_ & _ & E1) (_ & _ & E2). rewrite E1 in E2. apply N2Z.inj. exact E2. Qed.
Print Assumptions C23_injective.
Example C23_met : exists t v, type_at (map snd (get sample_ti)) 11 t /\ enumerator_width t = Some 4%nat /\
  nth_error (enumerators t) 0 = Some v /\ nv_value v = Signed (-1)%Z /\ signed_value 32 0xFFFFFFFF (-1)%Z.
Proof.
  do 2 eexists. split; [split; [discriminate|vm_compute; reflexivity]|]. split; [vm_compute; reflexivity|]. split; [vm_compute; reflexivity|].
  split; [vm_compute; reflexivity|]. split; [reflexivity|]. split; [split; [discriminate|reflexivity]|reflexivity].
Qed.

(** ** C42 *)
(** [extends i1 i2] (Grow.v): the type section of [i2] starts with that of [i1], whose
    records fill it, and likewise the string section. *)
Theorem C42_growth : forall e1 e2 i1 i2 t1 t2, usize_bits (cfg e1) = 64 -> usize_bits (cfg e2) = 64 ->
  serves (rd e1) i1 -> serves (rd e2) i2 -> extends i1 i2 ->
  type_information_new e1 = Ok t1 -> type_information_new e2 = Ok t2 ->
  exists more, map snd (get t2) = map snd (get t1) ++ more /\
  (forall i t, from_id t1 i = Some t -> from_id t2 i = Some t) /\
  (forall i n, name_of t1 i = Some n -> name_of t2 i = Some n) /\
  (forall n, (forall t, In t more -> declared_name t <> Some n) -> id_of t2 n = id_of t1 n) /\
  (forall n t, In t more -> declared_name t = Some n -> n <> s "void" ->
     exists i, id_of t2 n = Some i /\ N.of_nat (length (get t1)) < i).
Proof. exact loaded_growth. Qed.
Print Assumptions C42_growth.
(** A typedef with the same name is appended. *)
Definition grow1 : list byte := raw_file Little [1; 0x01000000; 4; 32] (x00 :: s "int" ++ [x00]).
Definition grow2 : list byte := raw_file Little [1; 0x01000000; 4; 32; 1; 0x08000000; 1; 5; 0x08000000; 1] (x00 :: s "int" ++ [x00] ++ s "new" ++ [x00]).
Example C42_met : extends grow1 grow2 /\
  exists t1 t2, type_information_new (file_env grow1) = Ok t1 /\ type_information_new (file_env grow2) = Ok t2 /\
    id_of t1 (s "int") = Some 1 /\ id_of t2 (s "int") = Some 2.
Proof.
  split.
  - exists Little, {| hf_hdr_len := 24; hf_type_off := 0; hf_type_len := 16; hf_str_off := 16; hf_str_len := 5 |},
      {| hf_hdr_len := 24; hf_type_off := 0; hf_type_len := 40; hf_str_off := 40; hf_str_len := 9 |},
      (words_bytes Little [1; 0x01000000; 4; 32]), (words_bytes Little [1; 0x08000000; 1; 5; 0x08000000; 1]),
      (x00 :: s "int" ++ [x00]), (s "new" ++ [x00]). cbn zeta.
    split; [check|]. split; [check|]. split; [check|]. split; [reflexivity|]. split; [check|]. split; [reflexivity|].
    split; [check|]. split; [reflexivity|]. split; [check|]. split; [reflexivity|]. split; [reflexivity|].
    assert (D : exists ti, type_information_new (file_env grow1) = Ok ti /\ map snd (get ti) = map snd (get ti)) by (eexists; split; [vm_compute; reflexivity|reflexivity]).
    destruct D as (ti & E & _).
    destruct (loaded_order (file_env grow1) grow1 ti Little eq_refl (file_serves _) E) as (hf & stop & (Hfh & _ & Hr) & Hst); [check|].
    assert (F : file_header_at grow1 Little {| hf_hdr_len := 24; hf_type_off := 0; hf_type_len := 16; hf_str_off := 16; hf_str_len := 5 |}) by check.
    destruct (header_unique _ _ _ _ _ Hfh F) as [_ ->]. exists (types ti).
    replace (types_hi _) with stop; [exact Hr|].
    assert (T : map snd (get ti) = [TInt {| h_kind := KInt; h_name_offset := 1; h_vlen := 0; h_kind_flag := false; h_size_or_type := 4 |}
       {| int_name := nm "int"; int_size := 4; int_signed := false; int_char := false; int_boolean := false; int_offset := 0; int_bits := 32 |}]).
    { vm_compute in E. injection E as <-. reflexivity. }
    unfold types in Hr. rewrite T in Hr. inversion Hr as [|? ? nx ? ? _ Hrec Hrest]. subst. inversion Hrest. subst.
    destruct Hrec as (h & Hh & Hp & -> & _). unfold payload_at in Hp. unfold extra_size. destruct (h_kind h) eqn:EK; try reflexivity;
      repeat match goal with H : exists _, _ |- _ => destruct H | H : _ /\ _ |- _ => destruct H end; discriminate.
  - do 2 eexists. split; [vm_compute; reflexivity|]. split; [vm_compute; reflexivity|]. split; vm_compute; reflexivity.
Qed.

(** ** C44 *)
(** [type_fits] is in Spec.v. *)
Theorem C44_widths : forall e ti, usize_bits (cfg e) = 64 -> type_information_new e = Ok ti ->
  Forall type_fits (map snd (get ti)) /\ N.of_nat (length (get ti)) < 2 ^ 32.
Proof.
  intros e ti H E. destruct (loaded_types e ti H E) as (_ & F & L). split; [exact F|].
  unfold types in L. rewrite map_length in L. exact L.
Qed.
Print Assumptions C44_widths.
Example C44_met : type_information_new (file_env sample_img) = Ok sample_ti. Proof. exact sample_loads. Qed.
