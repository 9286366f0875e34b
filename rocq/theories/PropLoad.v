(** * PropLoad: the properties of loading (C01-C23, C42, C44).

    Each theorem is closed by lemmas proved elsewhere; the Examples show that
    its hypotheses are met.  [file_env img] is a 64-bit debug build reading the
    file [img]; [sample_img] is a file with all nineteen kinds (Sample.v). *)
From Coq Require Import Strings.String.
From Coq Require Import List NArith ZArith Bool Lia Strings.Byte.
From Verif Require Import TypeInfo Spec Safety Exact Errors Encode EncodeProof LoadProps LoadProps2 Grow Final Sample Witness.
Import ListNotations.
Open Scope N_scope.

(** ** C01 *)
(** For any Readable whatsoever ([readable] is any function of the history of requests). *)
Theorem C01_load_never_panics : forall (checks : bool) (rd : readable),
  let r := type_information_new {| cfg := build64 checks; rd := rd |} in
  (exists ti, r = Ok ti) \/ (exists k, r = Err k).
Proof. exact (fun checks rd => load_total {| cfg := build64 checks; rd := rd |} eq_refl). Qed.
Print Assumptions C01_load_never_panics.
Theorem C01_debug_release_agree : forall rd : readable,
  type_information_new {| cfg := build64 true; rd := rd |} = type_information_new {| cfg := build64 false; rd := rd |}.
Proof. exact load_profile. Qed.
Print Assumptions C01_debug_release_agree.
(** There is nothing to assume.  Three Readables: one that serves the sample, one that fails with an error of its own at the
    fourth request, and one whose bytes depend on how often it was asked. *)
Example C01_met :
  type_information_new {| cfg := build64 true; rd := readable_file sample_img |} = Ok sample_ti /\
  type_information_new {| cfg := build64 true; rd := fun tr off n => if (length tr =? 3)%nat then Fails UnsupportedType else readable_file sample_img tr off n |} = Err UnsupportedType /\
  type_information_new {| cfg := build64 true; rd := fun tr off n => if (length tr <=? 3)%nat then readable_file sample_img tr off n else Bytes [byte_of (N.of_nat (length tr))] |} = Err InvalidTypeSectionOffset.
Proof. split; [|split]; vm_compute; reflexivity. Qed.

(** ** C02 *)
(** 24 bytes that make a 32-bit debug build panic. *)
Definition panic_32 : list byte := raw_header Little 0xFFFFFFF8 0 4 0 0.
Theorem C02_load_never_panics_32_refuted :
  exists img : list byte, type_information_new {| cfg := build32 true; rd := readable_file img |} = Panic ArithmeticOverflow.
Proof. exists panic_32. vm_compute. reflexivity. Qed.
Print Assumptions C02_load_never_panics_32_refuted.
(** It never happens when no section ends in the last MiB of the 4 GiB address
    space: then the 32-bit build does exactly what the 64-bit build does. *)
Theorem C02_load_32_partial : forall rd img checks checks', serves rd img ->
  (forall en hf, file_header_at img en hf -> let f := layout_of img en hf in
     (types_hi f < 2 ^ 32 -> types_hi f <= 2 ^ 32 - 2 ^ 20) /\ (strings_hi f < 2 ^ 32 -> strings_hi f <= 2 ^ 32 - 2 ^ 20)) ->
  type_information_new {| cfg := build32 checks'; rd := rd |} = type_information_new {| cfg := build64 checks; rd := rd |} /\
  requests {| cfg := build32 checks'; rd := rd |} = requests {| cfg := build64 checks; rd := rd |}.
Proof. exact load_32_64_image. Qed.
Print Assumptions C02_load_32_partial.
(** And whatever the file and the Readable, a 32-bit build with overflow checks gives the same result as a 64-bit
    build, after the same requests, unless it panics. *)
Theorem C02_checked_32_partial : forall rd checks,
  (type_information_new {| cfg := build32 true; rd := rd |} = type_information_new {| cfg := build64 checks; rd := rd |} /\
   requests {| cfg := build32 true; rd := rd |} = requests {| cfg := build64 checks; rd := rd |}) \/
  exists p, type_information_new {| cfg := build32 true; rd := rd |} = Panic p.
Proof.
  intros rd checks. pose proof (load_checked_32 rd checks true) as H. destruct (type_information_new {| cfg := build32 true; rd := rd |}) as [ti|k|p|]; eauto; left; apply H; exact I.
Qed.
Print Assumptions C02_checked_32_partial.
Lemma sample_header : file_header_at sample_img Little {| hf_hdr_len := 24; hf_type_off := 0; hf_type_len := 600; hf_str_off := 600; hf_str_len := 157 |}.
Proof. check. Qed.
Example C02_met : forall en hf, file_header_at sample_img en hf -> let f := layout_of sample_img en hf in
     (types_hi f < 2 ^ 32 -> types_hi f <= 2 ^ 32 - 2 ^ 20) /\ (strings_hi f < 2 ^ 32 -> strings_hi f <= 2 ^ 32 - 2 ^ 20).
Proof.
  intros en hf H. destruct (header_unique _ _ _ _ _ H sample_header) as [-> ->]. cbn. split; intros _; discriminate.
Qed.

(** ** C03 *)
Theorem C03_loader_exact : forall e img, usize_bits (cfg e) = 64 -> serves (rd e) img -> forall ts,
  (exists ti, type_information_new e = Ok ti /\ map snd (get ti) = ts) <-> describes_exactly img ts \/ describes_but_tail img ts.
Proof. exact (fun e img H Hs ts => iff_trans (load_iff e img H Hs ts) (describes_cases img ts)). Qed.
Print Assumptions C03_loader_exact.
Example C03_met : serves (rd (file_env sample_img)) sample_img /\ type_information_new (file_env sample_img) = Ok sample_ti.
Proof. exact (conj (file_serves _) sample_loads). Qed.
(** The two Readables shipped with the library are of this kind. *)
Theorem C03_buffers_and_files : forall img, serves (readable_buffer img) img /\ serves (readable_file img) img.
Proof. exact (fun img => conj (readable_buffer_serves img) (readable_file_serves img)). Qed.
Print Assumptions C03_buffers_and_files.

(** ** C04 *)
Theorem C04_round_trip : forall version flags reserved ds e,
  let img := encode_with version flags reserved Little ds in
  usize_bits (cfg e) = 64 -> serves (rd e) img ->
  Forall decl_ok ds -> Forall (fun d => reserved_ok (reserved d)) ds -> len img < 2 ^ 32 ->
  exists ti, type_information_new e = Ok ti /\
    map fst (get ti) = map N.of_nat (seq 1 (length ds)) /\ map view (map snd (get ti)) = map Some ds.
Proof. exact (fun v f r ds e H Hs Hd Hr Hl => load_encoded_same v f r Little ds e H Hs Hd Hr Hl (or_introl eq_refl)). Qed.
Print Assumptions C04_round_trip.
(** Non-zero reserved bits and another version and flags byte. *)
Example C04_met : Forall decl_ok sample /\ Forall (fun d => reserved_ok ((fun _ => 2 ^ 16 * 0xAB + 2 ^ 29 * 3) d)) sample /\
  len (encode_with x07 xff (fun _ => 2 ^ 16 * 0xAB + 2 ^ 29 * 3) Little sample) < 2 ^ 32.
Proof.
  split; [exact sample_ok|]. split; [|vm_compute; reflexivity].
  apply Forall_forall. intros d _. exists 0xAB, 3. repeat split; reflexivity.
Qed.

(** ** C05 *)
Theorem C05_endianness_independent : forall v1 f1 r1 v2 f2 r2 ds e1 e2,
  let little := encode_with v1 f1 r1 Little ds in let big := encode_with v2 f2 r2 Big ds in
  usize_bits (cfg e1) = 64 -> usize_bits (cfg e2) = 64 -> serves (rd e1) little -> serves (rd e2) big ->
  Forall decl_ok ds -> Forall no_enum64 ds -> Forall (fun d => reserved_ok (r1 d) /\ reserved_ok (r2 d)) ds ->
  len little < 2 ^ 32 -> len big < 2 ^ 32 ->
  exists t1 t2, type_information_new e1 = Ok t1 /\ type_information_new e2 = Ok t2 /\
    map fst (get t1) = map fst (get t2) /\ map view (map snd (get t1)) = map view (map snd (get t2)) /\
    map view (map snd (get t1)) = map Some ds.
Proof. exact load_both_orders. Qed.
Print Assumptions C05_endianness_independent.
Definition sample_no64 : list decl := filter (fun d => match d with DEnum64 _ _ _ _ => false | _ => true end) sample.
Example C05_met : Forall decl_ok sample_no64 /\ Forall no_enum64 sample_no64 /\ len (encode Little sample_no64) < 2 ^ 32 /\ len (encode Big sample_no64) < 2 ^ 32 /\
  length sample_no64 = 26%nat.
Proof.
  split; [apply decls_ok; vm_compute; reflexivity|]. split.
  - apply Forall_forall. intros d Hd. apply filter_In in Hd. destruct Hd as [_ Hd]. destruct d; try exact I. discriminate.
  - split; [vm_compute; reflexivity|]. split; vm_compute; reflexivity.
Qed.

(** ** C06 *)
(** Loading a big-endian Enum64 exchanges the two words of every value. *)
Definition enum64_big : list decl := [DEnum64 (nm "e") 8 false [(s "ONE", Unsigned 1)]].
Theorem C06_enum64_big_refuted : exists ds, Forall decl_ok ds /\ len (encode Big ds) < 2 ^ 32 /\
  exists ti, type_information_new (file_env (encode Big ds)) = Ok ti /\ map view (map snd (get ti)) <> map Some ds.
Proof.
  exists enum64_big. split; [apply decls_ok; vm_compute; reflexivity|]. split; [vm_compute; reflexivity|].
  eexists. split; [vm_compute; reflexivity|]. vm_compute. discriminate.
Qed.
Print Assumptions C06_enum64_big_refuted.
(** What is loaded, in both orders: [as_loaded Little d = d], and
    [as_loaded Big] exchanges the words of Enum64 values. *)
Theorem C06_enum64_partial : forall version flags reserved en ds e,
  let img := encode_with version flags reserved en ds in
  usize_bits (cfg e) = 64 -> serves (rd e) img ->
  Forall decl_ok ds -> Forall (fun d => reserved_ok (reserved d)) ds -> len img < 2 ^ 32 ->
  exists ti, type_information_new e = Ok ti /\
    map fst (get ti) = map N.of_nat (seq 1 (length ds)) /\ map view (map snd (get ti)) = map (fun d => Some (as_loaded en d)) ds.
Proof. exact load_encoded. Qed.
Print Assumptions C06_enum64_partial.
Example C06_met : Forall decl_ok sample /\ len (encode Big sample) < 2 ^ 32 /\
  nth_error (map (as_loaded Big) sample) 11 = Some (DEnum64 (nm "big") 8 false [(s "B", Unsigned (5 * 2 ^ 32 + 2 ^ 8))]).
Proof. split; [exact sample_ok|]. split; vm_compute; reflexivity. Qed.

(** ** C07 *)
Theorem C07_ids_consecutive : forall e ti, usize_bits (cfg e) = 64 -> type_information_new e = Ok ti ->
  map fst (get ti) = map N.of_nat (seq 1 (length (get ti))) /\
  (forall i t, i <> 0 -> (from_id ti i = Some t <-> In (i, t) (get ti))) /\
  (forall i t, i <> 0 -> (from_id ti i = Some t <-> type_at (map snd (get ti)) i t)) /\
  from_id ti 0 = Some TVoid.
Proof. exact loaded_ids. Qed.
Print Assumptions C07_ids_consecutive.
Example C07_met : type_information_new (file_env sample_img) = Ok sample_ti /\ length (get sample_ti) = 27%nat.
Proof. exact (conj sample_loads eq_refl). Qed.
