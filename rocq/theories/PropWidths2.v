(** * PropWidths2: more of the loader's guarantees, for builds of other widths (C11-C13, C16, C18-C23, C51). *)
From Coq Require Import Strings.String.
From Coq Require Import List NArith Bool Lia Strings.Byte.
From Verif Require Import Safety TypeInfo Spec Final Exact LoadProps LoadProps2 Witness Sample BrokenSpec LoadMessage LoadMessageFacts LoadMessagePass LoadMessageSpec PropLoad PropLoad2 PropError PropLoadMessage PropTruncate NarrowSpec PropNarrow PropWidths.
Import ListNotations.
Open Scope N_scope.

Theorem C11_any_width : forall e img ti, dependable (cfg e) -> serves (rd e) img -> type_information_new e = Ok ti ->
  exists en hf, file_header_at img en hf /\ forall i t k s, type_at (map snd (get ti)) i t -> name_in t k s ->
    exists k' bs, (forall x, k = Some x -> k' = x) /\ raw_string (layout_of img en hf) k' bs /\ latin1 bs s /\
      valid_utf8 s /\ ~ In x00 s /\ (ascii bs -> s = bs).
Proof. intros e img ti D SV E. exact (C11_string_decoding {| cfg := build64 true; rd := rd e |} img ti eq_refl SV (carried e ti D E)). Qed.
Print Assumptions C11_any_width.
Theorem C12_any_width_partial : forall e img ti, dependable (cfg e) -> serves (rd e) img -> type_information_new e = Ok ti ->
  forall en hf, file_header_at img en hf -> forall i t k s bs, type_at (map snd (get ti)) i t -> name_in t (Some k) s ->
    raw_string (layout_of img en hf) k bs -> (s = bs <-> ascii bs).
Proof. intros e img ti D SV E. exact (C12_names_partial {| cfg := build64 true; rd := rd e |} img ti eq_refl SV (carried e ti D E)). Qed.
Print Assumptions C12_any_width_partial.
Theorem C13_any_width : forall e img ti, dependable (cfg e) -> serves (rd e) img -> type_information_new e = Ok ti ->
  forall en hf, file_header_at img en hf -> forall i t k s, type_at (map snd (get ti)) i t -> name_in t (Some k) s ->
    forall x, ~ bad_string (layout_of img en hf) k x.
Proof. intros e img ti D SV E. exact (C13_loaded_no_bad {| cfg := build64 true; rd := rd e |} img ti eq_refl SV (carried e ti D E)). Qed.
Print Assumptions C13_any_width.

(** Every build whatever, also one that panics or wraps around: a failed request is the last one, and its error is what the load returns. *)
Theorem C16_any_width : forall e,
  (forall newer off n k older, requests e = newer ++ (off, n, Fails k) :: older ->
     newer = [] /\ type_information_new e = Err k) /\
  (forall ti, type_information_new e = Ok ti -> Forall (fun q => exists bs, snd q = Bytes bs) (requests e)).
Proof.
  intros e. unfold requests, type_information_new. rewrite (er_load e reader_new). unfold forget. cbn [fst snd].
  destruct (ps_load e reader_new) as (new & E & V). cbn in E. rewrite app_nil_r in E. rewrite E. clear E.
  assert (NF : forall newer off n k older, ~ Forall answered (newer ++ (off, n, Fails k) :: older)).
  { intros newer off n k older F. apply Forall_app in F. destruct F as [_ F]. apply Forall_inv in F. destruct F as [bs F]. discriminate F. }
  split.
  - intros newer off n k older ->. unfold verdict in V. destruct (fst (load_msg e reader_new)) as [a|[j| | | | | | | | | | | |]|p|]; try (destruct (NF _ _ _ _ _ V)).
    destruct V as (off' & n' & old & E & F). destruct newer as [|q newer]; [injection E as _ _ <- _; auto|]. injection E as _ <-. destruct (NF _ _ _ _ _ F).
  - intros ti E. unfold verdict in V. destruct (fst (load_msg e reader_new)) as [a|m|p|]; try discriminate E. exact V.
Qed.
Print Assumptions C16_any_width.
Theorem C18_any_width : forall e img ti, dependable (cfg e) -> serves (rd e) img -> type_information_new e = Ok ti ->
  (bytes_at img 0 [x9f; xeb] \/ bytes_at img 0 [xeb; x9f]) /\
  forall en, bytes_at img 0 (match en with Little => [x9f; xeb] | Big => [xeb; x9f] end) ->
    exists hf stop, let f := layout_of img en hf in
      file_header_at img en hf /\ records_at f (types_lo f) (map snd (get ti)) stop /\ types_hi f <= stop.
Proof. intros e img ti D SV E. exact (C18_order {| cfg := build64 true; rd := rd e |} img ti eq_refl SV (carried e ti D E)). Qed.
Print Assumptions C18_any_width.
Theorem C19_any_width : forall e img ti, dependable (cfg e) -> serves (rd e) img -> type_information_new e = Ok ti ->
  exists en hf, file_header_at img en hf /\ forall i t, type_at (map snd (get ti)) i t ->
    exists o h info, record_of img en hf (map snd (get ti)) i t o /\ type_header t = Some h /\ u32_at img en (o + 4) info /\
      1 <= info / 2 ^ 24 mod 32 <= 19 /\ kind_code (h_kind h) = info / 2 ^ 24 mod 32 /\
      h_vlen h = info mod 2 ^ 16 /\ h_kind_flag h = (2 ^ 31 <=? info).
Proof. intros e img ti D SV E. exact (C19_info_word {| cfg := build64 true; rd := rd e |} img ti eq_refl SV (carried e ti D E)). Qed.
Print Assumptions C19_any_width.

(** On 32-bit targets with and without overflow checks, for every file. *)
Theorem C20_any_width : forall e img en hf, usize_bits (cfg e) = 64 \/ usize_bits (cfg e) = 32 -> serves (rd e) img -> file_header_at img en hf ->
  (2 ^ 32 <= hf_hdr_len hf + hf_type_off hf -> type_information_new e = Err InvalidTypeSectionOffset) /\
  (hf_hdr_len hf + hf_type_off hf < 2 ^ 32 -> 0 < hf_type_len hf -> 2 ^ 32 <= hf_hdr_len hf + hf_type_off hf + hf_type_len hf ->
     type_information_new e = Err InvalidTypeSectionOffset) /\
  (hf_hdr_len hf + hf_type_off hf < 2 ^ 32 -> hf_type_len hf = 0 ->
     exists ti, type_information_new e = Ok ti /\ get ti = [] /\ Forall (fun q => q_off q + q_len q <= 24) (requests e)).
Proof.
  intros e img en hf [H|H] SV FH; [exact (C20_section_bounds e img en hf H SV FH)|]. destruct e as [[bits ck] rd]; cbn [cfg usize_bits Reader.rd] in *; subst.
  destruct (C20_section_bounds {| cfg := build64 true; rd := rd |} img en hf eq_refl SV FH) as (P1 & P2 & P3).
  assert (NR : hf_hdr_len hf + hf_type_off hf + hf_type_len hf <= hf_hdr_len hf + hf_type_off hf \/ 2 ^ 32 <= hf_hdr_len hf + hf_type_off hf + hf_type_len hf -> ~ reaches_4G img).
  { intros B (en' & hf' & ts & o & FH' & R & O & T & _). destruct (header_unique _ _ _ _ _ FH FH') as [<- <-].
    pose proof (records_from _ _ _ _ R) as G. cbn [layout_of types_lo types_hi] in *. lia. }
  assert (Q : ~ reaches_4G img -> type_information_new {| cfg := build32 ck; rd := rd |} = type_information_new {| cfg := build64 true; rd := rd |} /\
    requests {| cfg := build32 ck; rd := rd |} = requests {| cfg := build64 true; rd := rd |}) by exact (C02_otherwise_same_partial rd img true ck SV).
  unfold build32 in Q. split; [|split].
  - intros A1. destruct Q as [-> _]; [apply NR; lia|]. exact (P1 A1).
  - intros A1 A2 A3. destruct Q as [-> _]; [apply NR; lia|]. exact (P2 A1 A2 A3).
  - intros A1 A2. destruct Q as [-> ->]; [apply NR; lia|]. exact (P3 A1 A2).
Qed.
Print Assumptions C20_any_width.
Theorem C21_any_width : forall e img ti, dependable (cfg e) -> serves (rd e) img -> type_information_new e = Ok ti ->
  exists en hf, file_header_at img en hf /\ forall i t, type_at (map snd (get ti)) i t ->
    exists o h, record_of img en hf (map snd (get ti)) i t o /\ type_header t = Some h /\
      forall j m, nth_error (members t) j = Some m ->
        exists w, u32_at img en (o + 12 + 12 * N.of_nat j + 8) w /\
          (h_kind_flag h = false -> w mod 8 = 0 /\ m_offset m = ByteOffset (w / 8)) /\
          (h_kind_flag h = true -> w < 2 ^ 24 -> w mod 8 = 0 -> m_offset m = ByteOffset (w / 8)) /\
          (h_kind_flag h = true -> 2 ^ 24 <= w \/ w mod 8 <> 0 -> m_offset m = BitOffsetAndSize (w mod 2 ^ 24) (w / 2 ^ 24)).
Proof. intros e img ti D SV E. exact (C21_member_offsets {| cfg := build64 true; rd := rd e |} img ti eq_refl SV (carried e ti D E)). Qed.
Print Assumptions C21_any_width.
Theorem C22_any_width : forall e img ti, dependable (cfg e) -> serves (rd e) img -> type_information_new e = Ok ti ->
  exists en hf, file_header_at img en hf /\ forall i h d, type_at (map snd (get ti)) i (TInt h d) ->
    exists o w, record_of img en hf (map snd (get ti)) i (TInt h d) o /\
      u32_at img en (o + 8) (int_size d) /\ u32_at img en (o + 12) w /\
      int_signed d = N.testbit w 24 /\ int_char d = N.testbit w 25 /\ int_boolean d = N.testbit w 26 /\
      int_offset d = w / 2 ^ 16 mod 256 /\ int_bits d = w mod 256.
Proof. intros e img ti D SV E. exact (C22_int_encoding {| cfg := build64 true; rd := rd e |} img ti eq_refl SV (carried e ti D E)). Qed.
Print Assumptions C22_any_width.
Theorem C23_any_width : forall e img ti, dependable (cfg e) -> serves (rd e) img -> type_information_new e = Ok ti ->
  exists en hf, file_header_at img en hf /\ forall i t n, type_at (map snd (get ti)) i t -> enumerator_width t = Some n ->
    exists o h, record_of img en hf (map snd (get ti)) i t o /\ type_header t = Some h /\
      forall j v, nth_error (enumerators t) j = Some v ->
        exists w, word_at img en n (o + 12 + (4 + N.of_nat n) * N.of_nat j + 4) w /\
          (h_kind_flag h = false -> nv_value v = Unsigned w) /\
          (h_kind_flag h = true -> exists z, nv_value v = Signed z /\ signed_value (8 * N.of_nat n) w z).
Proof. intros e img ti D SV E. exact (C23_enumerators {| cfg := build64 true; rd := rd e |} img ti eq_refl SV (carried e ti D E)). Qed.
Print Assumptions C23_any_width.

(** Builds of both widths, with and without checks, unless the loader comes to 4 GiB. *)
Lemma alike e img : usize_bits (cfg e) = 64 \/ usize_bits (cfg e) = 32 /\ ~ reaches_4G img -> serves (rd e) img ->
  type_information_new e = type_information_new {| cfg := build64 true; rd := rd e |} /\ requests e = requests {| cfg := build64 true; rd := rd e |}.
Proof.
  destruct e as [[bits ck] rd]. cbn [cfg usize_bits Reader.rd]. intros [->|[-> NR]] SV.
  - destruct (C17_consulted_only {| cfg := {| usize_bits := 64; overflow_checks := ck |}; rd := rd |} {| cfg := build64 true; rd := rd |} eq_refl eq_refl) as [-> ->]; [|auto].
    intros newer off n a older E. exact (C16_requests_honest _ _ _ _ _ _ E).
  - exact (C02_otherwise_same_partial rd img true ck SV NR).
Qed.
Theorem C51_any_width : forall e img, usize_bits (cfg e) = 64 \/ usize_bits (cfg e) = 32 /\ ~ reaches_4G img -> serves (rd e) img -> forall x,
  (type_information_new e = Err x -> broken img x \/ exists off n asked, requests e = (off, n, Fails x) :: asked /\ N.of_nat (length img) < off + n) /\
  (broken img x <-> type_information_new e = Err x /\ forall off n a, In (off, n, a) (requests e) -> exists bs, a = Bytes bs).
Proof.
  intros e img W SV x. destruct (alike e img W SV) as [-> ->]. split; [exact (C51_failure_explained {| cfg := build64 true; rd := rd e |} img x eq_refl SV)|].
  exact (C51_broken_iff {| cfg := build64 true; rd := rd e |} img x eq_refl SV).
Qed.
Print Assumptions C51_any_width.
Example any_width2_met : let e := {| cfg := build32 true; rd := readable_file sample_img |} in
  dependable (cfg e) /\ ~ reaches_4G sample_img /\ serves (rd e) sample_img /\ type_information_new e = Ok sample_ti /\ (forall p, type_information_new e <> Panic p).
Proof.
  cbv zeta. destruct any_width_met as (D & _ & NR & SV & E). split; [exact D|]. split; [exact NR|]. split; [exact SV|]. split; [exact E|]. intros p X. cbv zeta in E. rewrite E in X. discriminate X.
Qed.
