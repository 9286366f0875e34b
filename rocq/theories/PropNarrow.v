(** * PropNarrow: exactly when a 32-bit build differs from a 64-bit build (C02, C59). *)
From Coq Require Import List NArith Bool Lia Strings.Byte.
From Verif Require Import TypeInfo Spec Encode LoadProps LoadProps2 Exact Local Witness Sample PropLoad PropRelease NarrowSpec Narrow.
Import ListNotations.
Open Scope N_scope.

(** ** C02 *)
(** [reaches_4G img] (NarrowSpec.v): after well-formed records the loader comes to one that ends, or for which something
    has to be read that ends, at 4 GiB or behind, though the type section ends before.  With overflow checks a 32-bit build
    panics for these files and no others, whatever their length. *)
Theorem C02_panics_iff_partial : forall rd img, serves rd img ->
  ((exists p, type_information_new {| cfg := build32 true; rd := rd |} = Panic p) <-> reaches_4G img).
Proof. intros rd img Hs. exact (narrow_iff {| cfg := build32 true; rd := rd |} {| cfg := build64 true; rd := rd |} img eq_refl eq_refl eq_refl Hs). Qed.
Print Assumptions C02_panics_iff_partial.
(** For all other files every 32-bit build does what every 64-bit build does. *)
Theorem C02_otherwise_same_partial : forall rd img checks checks', serves rd img -> ~ reaches_4G img ->
  type_information_new {| cfg := build32 checks'; rd := rd |} = type_information_new {| cfg := build64 checks; rd := rd |} /\
  requests {| cfg := build32 checks'; rd := rd |} = requests {| cfg := build64 checks; rd := rd |}.
Proof.
  intros rd img checks checks' Hs Hr. apply load_checked_32. destruct (type_information_new {| cfg := build32 true; rd := rd |}) as [ti|k|p|] eqn:E; try exact I.
  apply Hr. apply (C02_panics_iff_partial rd img Hs). eauto.
Qed.
Print Assumptions C02_otherwise_same_partial.

(** ** C59 *)
(** So does the one without overflow checks: it returns. *)
Theorem C59_otherwise_returns_partial : forall rd img, serves rd img -> ~ reaches_4G img ->
  let r := type_information_new {| cfg := build32 false; rd := rd |} in
  r = type_information_new {| cfg := build64 false; rd := rd |} /\ ((exists ti, r = Ok ti) \/ exists k, r = Err k).
Proof.
  intros rd img Hs Hr r. destruct (C02_otherwise_same_partial rd img false false Hs Hr) as [E _]. split; [exact E|]. unfold r. rewrite E. exact (C01_load_never_panics false rd).
Qed.
Print Assumptions C59_otherwise_returns_partial.

(** The sample does not get there.  These do: the 24 bytes of C02; and, with files of about 4 GiB (filled with zeros, or with
    the letter a), an Int whose last word lies behind 4 GiB, an array whose first word does, and a typedef whose name goes
    on to the last byte below 4 GiB. *)
Lemma bytes_in pre post img o bs : bytes_at img o bs -> bytes_at (pre ++ img ++ post) (N.of_nat (length pre) + o) bs.
Proof.
  intros (a & b & -> & Ho). exists (pre ++ a), (b ++ post). split; [rewrite <- !app_assoc; reflexivity|]. rewrite app_length. lia.
Qed.
Lemma word_in pre post img en n o v : word_at img en n o v -> word_at (pre ++ img ++ post) en n (N.of_nat (length pre) + o) v.
Proof. intros (bs & H1 & H2 & H3). exists bs. split; [exact H1|]. split; [apply bytes_in; exact H2|exact H3]. Qed.
Lemma header_in post img en hf : file_header_at img en hf -> file_header_at (img ++ post) en hf.
Proof.
  intros (H1 & H2 & H3 & H4 & H5 & H6). split; [exact (bytes_in [] post img 0 _ H1)|]. unfold u32_at in *.
  split; [exact (word_in [] post _ _ _ _ _ H2)|]. split; [exact (word_in [] post _ _ _ _ _ H3)|]. split; [exact (word_in [] post _ _ _ _ _ H4)|].
  split; [exact (word_in [] post _ _ _ _ _ H5)|exact (word_in [] post _ _ _ _ _ H6)].
Qed.
Definition far_fields (hl tl so sl : N) : header_fields := {| hf_hdr_len := hl; hf_type_off := 0; hf_type_len := tl; hf_str_off := so; hf_str_len := sl |}.
Definition record_head (info : N) : list byte := words_bytes Little [0; info; 0].
(** header, [n] bytes, then [tail] *)
Definition far_file (hl tl : N) (n : nat) (tail : list byte) : list byte := raw_header Little hl 0 tl 0 0 ++ repeat x00 n ++ tail.
Definition far_int (n : nat) : list byte := far_file (2 ^ 32 - 14) 13 n (record_head 0x01000000).
Definition far_array (n : nat) : list byte := far_file (2 ^ 32 - 13) 12 n (record_head 0x03000000 ++ [x00; x00; x00; x00]).
Definition far_name (n : nat) : list byte := (raw_header Little 24 0 12 12 (2 ^ 32 - 37) ++ words_bytes Little [2 ^ 32 - 38; 0x08000000; 0]) ++ repeat x61 n.
Lemma far_head k sz n tail hl (f := layout_of (raw_header Little hl 0 sz 0 0 ++ repeat x00 n ++ (record_head (kind_code k * 2 ^ 24) ++ tail)) Little (far_fields hl sz 0 0)) :
  N.of_nat n + 24 = hl -> header_at f hl {| h_kind := k; h_name_offset := 0; h_vlen := 0; h_kind_flag := false; h_size_or_type := 0 |}.
Proof.
  intros Hn. set (pre := raw_header Little hl 0 sz 0 0 ++ repeat x00 n).
  assert (Lp : N.of_nat (length pre) = hl).
  { unfold pre. rewrite app_length, repeat_length. change (length (raw_header Little hl 0 sz 0 0)) with 24%nat. lia. }
  assert (Ei : image f = pre ++ record_head (kind_code k * 2 ^ 24) ++ tail) by (unfold f, pre; cbn [layout_of image]; rewrite <- app_assoc; reflexivity).
  assert (W : forall o v, u32_at (record_head (kind_code k * 2 ^ 24)) Little o v -> u32_at (image f) (order f) (hl + o) v).
  { intros o v H. rewrite Ei, <- Lp. exact (word_in pre tail _ _ _ _ _ H). }
  unfold header_at. cbn [h_kind h_name_offset h_vlen h_kind_flag h_size_or_type].
  split; [replace hl with (hl + 0) by lia; apply W; destruct k; check|]. split; [|apply W; destruct k; check].
  exists (kind_code k * 2 ^ 24). split; [apply W; destruct k; check|]. destruct k; vm_compute; auto.
Qed.
Example C02_iff_met : reaches_4G wrapping /\ ~ reaches_4G sample_img /\
  (forall n, N.of_nat n = 2 ^ 32 - 38 -> reaches_4G (far_int n)) /\
  (forall n, N.of_nat n = 2 ^ 32 - 37 -> reaches_4G (far_array n)) /\
  (forall n, N.of_nat n = 2 ^ 32 - 37 -> reaches_4G (far_name n)).
Proof.
  split; [|split; [|split; [|split]]].
  - apply (C02_panics_iff_partial (readable_file wrapping) wrapping (readable_file_serves _)). exists ArithmeticOverflow. vm_compute. reflexivity.
  - intros H. apply (C02_panics_iff_partial (readable_file sample_img) sample_img (readable_file_serves _)) in H. destruct H as [p H].
    assert (X : type_information_new {| cfg := build32 true; rd := readable_file sample_img |} = Ok sample_ti) by (vm_compute; reflexivity). rewrite X in H. clear X. discriminate H.
  - intros n Hn. exists Little, (far_fields (2 ^ 32 - 14) 13 0 0), [], (2 ^ 32 - 14). cbv zeta.
    split; [apply header_in; check|]. split; [constructor|]. split; [vm_compute; reflexivity|]. split; [vm_compute; reflexivity|].
    eapply data_past; [vm_compute; discriminate|unfold far_int, far_file; rewrite <- (app_nil_r (record_head _)); apply (far_head KInt); lia|]. vm_compute. discriminate.
  - intros n Hn. exists Little, (far_fields (2 ^ 32 - 13) 12 0 0), [], (2 ^ 32 - 13). cbv zeta.
    split; [apply header_in; check|]. split; [constructor|]. split; [vm_compute; reflexivity|]. split; [vm_compute; reflexivity|].
    eapply array_past with (stop := 2 ^ 32 - 13 + 16); [|apply (far_head KArray); lia| | | |]; [vm_compute; discriminate|reflexivity|left; reflexivity|vm_compute; discriminate|].
    unfold far_array, far_file. cbn [layout_of image]. rewrite !app_length, repeat_length.
    change (length (raw_header Little (2 ^ 32 - 13) 0 12 0 0)) with 24%nat. change (length (record_head 0x03000000)) with 12%nat. cbn [length]. lia.
  - intros n Hn. set (hf := {| hf_hdr_len := 24; hf_type_off := 0; hf_type_len := 12; hf_str_off := 12; hf_str_len := 2 ^ 32 - 37 |}).
    set (h := {| h_kind := KTypedef; h_name_offset := 2 ^ 32 - 38; h_vlen := 0; h_kind_flag := false; h_size_or_type := 0 |}).
    exists Little, hf, [], 24. cbv zeta. unfold far_name. set (head := raw_header Little 24 0 12 12 (2 ^ 32 - 37) ++ words_bytes Little [2 ^ 32 - 38; 0x08000000; 0]).
    split; [apply header_in; check|]. split; [constructor|]. split; [vm_compute; reflexivity|]. split; [vm_compute; reflexivity|].
    assert (W : forall o v, u32_at head Little o v -> u32_at (head ++ repeat x61 n) Little o v) by (intros o v H; exact (word_in [] _ _ _ _ _ _ H)).
    eapply string_past with (h := h); [vm_compute; discriminate| |vm_compute; reflexivity|].
    + unfold header_at. cbn [layout_of image order h_kind h_name_offset h_vlen h_kind_flag h_size_or_type h].
      split; [apply W; check|]. split; [exists 0x08000000; split; [apply W; check|vm_compute; auto]|apply W; check].
    + eapply bad_record_name with (t := TTypedef (unnamed h) {| nl_name := None; nl_tid := 0 |}); [reflexivity|vm_compute; discriminate|exists None; split; reflexivity|].
      right. split; [reflexivity|]. split; [vm_compute; reflexivity|]. exists [x61]. split; [|split; [discriminate|split; [intros [H|[]]; discriminate|vm_compute; reflexivity]]].
      cbn [layout_of image]. exists (head ++ repeat x61 (n - 1)), []. split.
      * rewrite app_nil_r, <- app_assoc. f_equal. replace n with (n - 1 + 1)%nat at 1 by lia. rewrite repeat_app. reflexivity.
      * rewrite app_length, repeat_length. change (length head) with 36%nat. unfold strings_lo, layout_of, hf. cbn [hf_hdr_len hf_str_off h_name_offset h]. lia.
Qed.
