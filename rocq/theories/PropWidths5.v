(** * PropWidths5: theorems about loaded files, for targets of both widths (C04-C06, C42, C48, C49, C60, C63, C69, C71, C73, C80-C82).
    [dependable]: PropWidths.v; [width_ok]: PropWidths3.v; [reaches_4G]: NarrowSpec.v, C02. *)
From Coq Require Import Strings.String.
From Coq Require Import List NArith ZArith Bool Lia Strings.Byte.
From Verif Require Import TypeInfo Spec BaseFacts Maps QuerySpec Outcome OutcomeSpec Encode EncodeProof Exact LoadProps LoadProps2 Grow Rewrite Final Witness Sample Debug DebugSpec Message Pretty PrettySpec RenumberSpec Renumber BlindSpec Cost CostSpec Copies CopySpec BrokenSpec RelocateSpec MirrorSpec MergeSpec
  PropLoad PropLoad2 PropSame PropMirror PropDebug PropPretty PropMerge PropCopy PropRelocate PropFetch PropBlind NarrowSpec PropNarrow PropWidths PropWidths2 PropWidths3 FetchSpec.
Import ListNotations.
Open Scope N_scope.

Local Notation on64 e := ({| cfg := build64 true; rd := rd e |}) (only parsing).
Local Notation alike := PropWidths2.alike (only parsing).
Lemma load_of_64 b img : width_ok b img -> load_of b img = load_of (build64 true) img.
Proof. intros W. exact (proj1 (alike {| cfg := b; rd := readable_file img |} img W (readable_file_serves img))). Qed.
Lemma carried_all e : dependable (cfg e) -> (forall p, type_information_new e <> Panic p) ->
  type_information_new e = type_information_new (on64 e) /\ requests e = requests (on64 e).
Proof.
  destruct e as [[bits ck] rd]. intros [H|[H1 H2]] NP; cbn [cfg usize_bits overflow_checks Reader.rd] in *; subst.
  - destruct (C17_consulted_only {| cfg := {| usize_bits := 64; overflow_checks := ck |}; rd := rd |} {| cfg := build64 true; rd := rd |} eq_refl eq_refl) as [-> ->]; [|auto].
    intros newer off n a older E. exact (C16_requests_honest _ _ _ _ _ _ E).
  - destruct (C02_checked_32_partial rd true) as [[X Y]|[p X]]; [exact (conj X Y)|destruct (NP p X)].
Qed.
(** A file that a 32-bit build with overflow checks loads is [width_ok] for every 32-bit build. *)
Lemma loads_so_ok ck img ti : type_information_new {| cfg := build32 true; rd := readable_file img |} = Ok ti -> width_ok (build32 ck) img.
Proof.
  intros E. right. split; [reflexivity|]. intros R. apply (C02_panics_iff_partial _ _ (readable_file_serves img)) in R. destruct R as [p R]. rewrite R in E. discriminate E.
Qed.

Theorem C42_growth_any_width : forall e1 e2 i1 i2 t1 t2, dependable (cfg e1) -> dependable (cfg e2) ->
  serves (rd e1) i1 -> serves (rd e2) i2 -> extends i1 i2 ->
  type_information_new e1 = Ok t1 -> type_information_new e2 = Ok t2 ->
  exists more, map snd (get t2) = map snd (get t1) ++ more /\
  (forall i t, from_id t1 i = Some t -> from_id t2 i = Some t) /\
  (forall i n, name_of t1 i = Some n -> name_of t2 i = Some n) /\
  (forall n, (forall t, In t more -> declared_name t <> Some n) -> id_of t2 n = id_of t1 n) /\
  (forall n t, In t more -> declared_name t = Some n -> n <> s "void" ->
     exists i, id_of t2 n = Some i /\ N.of_nat (length (get t1)) < i).
Proof.
  intros e1 e2 i1 i2 t1 t2 D1 D2 S1 S2 X E1 E2. exact (C42_growth (on64 e1) (on64 e2) i1 i2 t1 t2 eq_refl eq_refl S1 S2 X (carried e1 t1 D1 E1) (carried e2 t2 D2 E2)).
Qed.
Print Assumptions C42_growth_any_width.

Theorem C48_growth_any_width : forall e1 e2 i1 i2 t1 t2 more (D : N -> Prop) c, dependable (cfg e1) -> dependable (cfg e2) ->
  serves (rd e1) i1 -> serves (rd e2) i2 -> extends i1 i2 ->
  type_information_new e1 = Ok t1 -> type_information_new e2 = Ok t2 -> map snd (get t2) = map snd (get t1) ++ more ->
  (forall t, In t more -> declared_name t <> Some (s "list_head")) ->
  (forall t, D t -> exists ty, from_id t1 t = Some ty /\ forall d, view ty = Some d -> Forall D (mentions d)) ->
  forall t, D t -> size_of c t2 t = size_of c t1 t /\ pointee_tid t2 t = pointee_tid t1 t /\
    forall p r, offset_of_returns c t2 t p r <-> offset_of_returns c t1 t p r.
Proof.
  intros e1 e2 i1 i2 t1 t2 more D c D1 D2 S1 S2 X E1 E2. exact (C48_growth (on64 e1) (on64 e2) i1 i2 t1 t2 more D c eq_refl eq_refl S1 S2 X (carried e1 t1 D1 E1) (carried e2 t2 D2 E2)).
Qed.
Print Assumptions C48_growth_any_width.

Theorem C49_shown_decides_any_width : forall e1 e2 ti1 ti2 c, dependable (cfg e1) -> dependable (cfg e2) ->
  type_information_new e1 = Ok ti1 -> type_information_new e2 = Ok ti2 ->
  map view (map snd (get ti1)) = map view (map snd (get ti2)) -> answer_alike c ti1 ti2.
Proof.
  intros e1 e2 t1 t2 c D1 D2 E1 E2. exact (C49_shown_decides (on64 e1) (on64 e2) t1 t2 c eq_refl eq_refl (carried e1 t1 D1 E1) (carried e2 t2 D2 E2)).
Qed.
Print Assumptions C49_shown_decides_any_width.

Theorem C49_written_back_any_width : forall e1 ti1, dependable (cfg e1) -> type_information_new e1 = Ok ti1 ->
  exists ds, map view (map snd (get ti1)) = map Some ds /\
  (Forall ascii_name (flat_map names ds) -> forall version flags reserved en e2, let img := encode_with version flags reserved en ds in
   len img < 2 ^ 32 -> Forall (fun d => reserved_ok (reserved d)) ds -> en = Little \/ Forall no_enum64 ds ->
   width_ok (cfg e2) img -> serves (rd e2) img ->
   exists ti2, type_information_new e2 = Ok ti2 /\ forall c, answer_alike c ti1 ti2).
Proof.
  intros e1 ti1 D E. destruct (C49_written_back (on64 e1) ti1 eq_refl (carried e1 ti1 D E)) as (ds & V & H). exists ds. split; [exact V|].
  intros A v f r en e2 img L R O W SV. rewrite (proj1 (alike e2 img W SV)). exact (H A v f r en (on64 e2) L R O eq_refl SV).
Qed.
Print Assumptions C49_written_back_any_width.

Theorem C63_clean_any_width : forall e img ti, dependable (cfg e) -> serves (rd e) img -> type_information_new e = Ok ti ->
  one_clean_line (debug_table (get ti)) /\
  forall i t, from_id ti i = Some t -> one_clean_line (debug_type t) /\ one_clean_line (message_text (MNoSize t)).
Proof.
  intros e img ti D SV E. exact (C63_clean (on64 e) img ti eq_refl SV (carried e ti D E)).
Qed.
Print Assumptions C63_clean_any_width.

Theorem C63_same_text_same_object_any_width : forall e e' ti ti', dependable (cfg e) -> dependable (cfg e') ->
  type_information_new e = Ok ti -> type_information_new e' = Ok ti' -> debug_table (get ti) = debug_table (get ti') -> ti = ti'.
Proof.
  intros e e' ti ti' D D' E E'. exact (C63_same_text_same_object (on64 e) (on64 e') ti ti' eq_refl eq_refl (carried e ti D E) (carried e' ti' D' E')).
Qed.
Print Assumptions C63_same_text_same_object_any_width.

Theorem C82_clean_any_width : forall e img ti, dependable (cfg e) -> serves (rd e) img -> type_information_new e = Ok ti ->
  Forall one_clean_line (lines (pretty_table (get ti))) /\
  forall i t, from_id ti i = Some t -> Forall one_clean_line (lines (pretty_type t)).
Proof.
  intros e img ti D SV E. exact (C82_clean (on64 e) img ti eq_refl SV (carried e ti D E)).
Qed.
Print Assumptions C82_clean_any_width.

Theorem C81_largest_any_width : forall e img ti, dependable (cfg e) -> serves (rd e) img -> type_information_new e = Ok ti ->
  exists en hf, file_header_at img en hf /\
  let T := N.min (hf_type_len hf) (N.of_nat (length img)) in let S := N.min (hf_str_len hf) (N.of_nat (length img)) in
  none_larger ti (T / 8 + T * (S - 1) / 4).
Proof.
  intros e img ti D SV E. exact (C81_largest (on64 e) img ti eq_refl SV (carried e ti D E)).
Qed.
Print Assumptions C81_largest_any_width.

Theorem C71_renamed_file_any_width : forall g h e1 e2 ti1 ti2, dependable (cfg e1) -> dependable (cfg e2) ->
  type_information_new e1 = Ok ti1 -> type_information_new e2 = Ok ti2 ->
  one_to_one h -> h (s "void") = s "void" -> h (s "list_head") = s "list_head" ->
  Forall2 (renamed g h) (map snd (get ti1)) (map snd (get ti2)) ->
  (forall i, name_of ti2 i = option_map h (name_of ti1 i)) /\
  (forall n, id_of ti2 (h n) = id_of ti1 n) /\
  relabelled g ti1 ti2 /\ (forall s, pointer_sized ti1 s <-> pointer_sized ti2 s).
Proof.
  intros g h e1 e2 t1 t2 D1 D2 E1 E2. exact (C71_renamed_file g h (on64 e1) (on64 e2) t1 t2 eq_refl eq_refl (carried e1 t1 D1 E1) (carried e2 t2 D2 E2)).
Qed.
Print Assumptions C71_renamed_file_any_width.

Theorem C80_answers_any_width : forall e1 e2 ti1 ti2 f ds1 ds2 c, dependable (cfg e1) -> dependable (cfg e2) ->
  type_information_new e1 = Ok ti1 -> type_information_new e2 = Ok ti2 -> map view (map snd (get ti1)) = map Some ds1 -> map view (map snd (get ti2)) = map Some ds2 ->
  merged f ds1 ds2 -> becomes_one f ds1 (s "list_head") ->
  forall t p, size_of c ti2 (f t) = size_of c ti1 t /\ pointee_tid ti2 (f t) = map_ok f (pointee_tid ti1 t) /\
  (forall u o, offset_of_returns c ti1 t p (Ok (u, o)) -> offset_of_returns c ti2 (f t) p (Ok (f u, o))) /\
  (forall v o, offset_of_returns c ti2 (f t) p (Ok (v, o)) -> exists u, v = f u /\ offset_of_returns c ti1 t p (Ok (u, o))) /\
  (forall k, offset_of_returns c ti2 (f t) p (Err k) <-> offset_of_returns c ti1 t p (Err k)) /\
  (forall k, offset_of_returns c ti2 (f t) p (Panic k) <-> offset_of_returns c ti1 t p (Panic k)) /\
  (offset_of_never_returns c ti2 (f t) p <-> offset_of_never_returns c ti1 t p).
Proof.
  intros e1 e2 t1 t2 f ds1 ds2 c D1 D2 E1 E2. exact (C80_answers (on64 e1) (on64 e2) t1 t2 f ds1 ds2 c eq_refl eq_refl (carried e1 t1 D1 E1) (carried e2 t2 D2 E2)).
Qed.
Print Assumptions C80_answers_any_width.

Theorem C80_names_any_width : forall e1 e2 ti1 ti2 f ds1 ds2, dependable (cfg e1) -> dependable (cfg e2) ->
  type_information_new e1 = Ok ti1 -> type_information_new e2 = Ok ti2 -> map view (map snd (get ti1)) = map Some ds1 -> map view (map snd (get ti2)) = map Some ds2 ->
  merged f ds1 ds2 ->
  (forall t, name_of ti2 (f t) = name_of ti1 t) /\ (forall n, id_of ti2 n = None <-> id_of ti1 n = None) /\
  forall n, becomes_one f ds1 n -> id_of ti2 n = option_map f (id_of ti1 n).
Proof.
  intros e1 e2 t1 t2 f ds1 ds2 D1 D2 E1 E2. exact (C80_names (on64 e1) (on64 e2) t1 t2 f ds1 ds2 eq_refl eq_refl (carried e1 t1 D1 E1) (carried e2 t2 D2 E2)).
Qed.
Print Assumptions C80_names_any_width.

Theorem C04_round_trip_any_width : forall version flags reserved ds e,
  let img := encode_with version flags reserved Little ds in
  width_ok (cfg e) img -> serves (rd e) img ->
  Forall decl_ok ds -> Forall (fun d => reserved_ok (reserved d)) ds -> len img < 2 ^ 32 ->
  exists ti, type_information_new e = Ok ti /\
    map fst (get ti) = map N.of_nat (seq 1 (length ds)) /\ map view (map snd (get ti)) = map Some ds.
Proof.
  intros v f r ds e img W SV. rewrite (proj1 (alike e img W SV)). exact (C04_round_trip v f r ds (on64 e) eq_refl SV).
Qed.
Print Assumptions C04_round_trip_any_width.

Theorem C05_endianness_independent_any_width : forall v1 f1 r1 v2 f2 r2 ds e1 e2,
  let little := encode_with v1 f1 r1 Little ds in let big := encode_with v2 f2 r2 Big ds in
  width_ok (cfg e1) little -> width_ok (cfg e2) big -> serves (rd e1) little -> serves (rd e2) big ->
  Forall decl_ok ds -> Forall no_enum64 ds -> Forall (fun d => reserved_ok (r1 d) /\ reserved_ok (r2 d)) ds ->
  len little < 2 ^ 32 -> len big < 2 ^ 32 ->
  exists t1 t2, type_information_new e1 = Ok t1 /\ type_information_new e2 = Ok t2 /\
    map fst (get t1) = map fst (get t2) /\ map view (map snd (get t1)) = map view (map snd (get t2)) /\
    map view (map snd (get t1)) = map Some ds.
Proof.
  intros v1 f1 r1 v2 f2 r2 ds e1 e2 little big W1 W2 S1 S2. rewrite (proj1 (alike e1 little W1 S1)), (proj1 (alike e2 big W2 S2)).
  exact (C05_endianness_independent v1 f1 r1 v2 f2 r2 ds (on64 e1) (on64 e2) eq_refl eq_refl S1 S2).
Qed.
Print Assumptions C05_endianness_independent_any_width.

Theorem C06_enum64_any_width_partial : forall version flags reserved en ds e,
  let img := encode_with version flags reserved en ds in
  width_ok (cfg e) img -> serves (rd e) img ->
  Forall decl_ok ds -> Forall (fun d => reserved_ok (reserved d)) ds -> len img < 2 ^ 32 ->
  exists ti, type_information_new e = Ok ti /\
    map fst (get ti) = map N.of_nat (seq 1 (length ds)) /\ map view (map snd (get ti)) = map (fun d => Some (as_loaded en d)) ds.
Proof.
  intros v f r en ds e img W SV. rewrite (proj1 (alike e img W SV)). exact (C06_enum64_partial v f r en ds (on64 e) eq_refl SV).
Qed.
Print Assumptions C06_enum64_any_width_partial.

Theorem C60_other_byte_order_any_width : forall b img img', width_ok b img -> width_ok b img' -> mirrored img img' ->
  (exists k, load_of b img = Err k /\ load_of b img' = Err k) \/
  exists ti ti', load_of b img = Ok ti /\ load_of b img' = Ok ti' /\
    (same_table ti ti' /\ (forall c, same_answers c ti ti') \/ describes_but_tail img (map snd (get ti)) /\ same_but_last ti ti').
Proof.
  intros b img img' W W' M. rewrite (load_of_64 b img W), (load_of_64 b img' W'). exact (C60_other_byte_order (build64 true) img img' eq_refl M).
Qed.
Print Assumptions C60_other_byte_order_any_width.

Theorem C60_equal_tables_any_width : forall b img img' ti, width_ok b img -> width_ok b img' -> mirrored img img' -> load_of b img = Ok ti -> describes_exactly img (map snd (get ti)) ->
  (forall h d, ~ In (TEnum64 h d) (map snd (get ti))) -> load_of b img' = Ok ti.
Proof.
  intros b img img' ti W W' M. rewrite (load_of_64 b img W), (load_of_64 b img' W'). exact (C60_equal_tables (build64 true) img img' ti eq_refl M).
Qed.
Print Assumptions C60_equal_tables_any_width.

Theorem C69_same_file_any_width : forall b img img' en hf hf', width_ok b img -> width_ok b img' -> relocated img img' en hf hf' ->
  type_information_new {| cfg := b; rd := readable_file img |} = type_information_new {| cfg := b; rd := readable_file img' |} \/
  (cut_array img en hf /\ cut_array img' en hf').
Proof.
  intros b img img' en hf hf' W W' M. change (load_of b img = load_of b img' \/ cut_array img en hf /\ cut_array img' en hf'). rewrite (load_of_64 b img W), (load_of_64 b img' W'). exact (C69_same_file (build64 true) img img' en hf hf' eq_refl M).
Qed.
Print Assumptions C69_same_file_any_width.

Theorem C69_same_result_any_width : forall e e' img img' en hf hf', width_ok (cfg e) img -> width_ok (cfg e') img' -> serves (rd e) img -> serves (rd e') img' ->
  relocated img img' en hf hf' ->
  (forall ti, type_information_new e = Ok ti -> type_information_new e' = Ok ti \/ cut_array img en hf) /\
  (forall x, broken img x -> type_information_new e = Err x /\ type_information_new e' = Err x).
Proof.
  intros e e' img img' en hf hf' W W' SV SV'. rewrite (proj1 (alike e img W SV)), (proj1 (alike e' img' W' SV')). exact (C69_same_result (on64 e) (on64 e') img img' en hf hf' eq_refl eq_refl SV SV').
Qed.
Print Assumptions C69_same_result_any_width.

Theorem C73_changing_file_any_width : forall e img en hf ti, let f := layout_of img en hf in
  dependable (cfg e) -> file_header_at img en hf -> 24 <= types_lo f -> strings_hi f <= types_lo f \/ types_hi f + 12 <= strings_lo f ->
  (forall tr off n bs, rd e tr off n = Bytes bs -> N.of_nat (length bs) = n) ->
  serves_outside (types_lo f) (types_hi f + 12) (rd e) img -> type_information_new e = Ok ti ->
  exists img', (forall i, i < N.of_nat (length img) -> i < types_lo f \/ types_hi f + 12 <= i -> nth_error img' (N.to_nat i) = nth_error img (N.to_nat i)) /\
    forall e', width_ok (cfg e') img' -> serves (rd e') img' -> type_information_new e' = Ok ti.
Proof.
  intros e img en hf ti f D FH B G F SO E. destruct (C73_changing_file (on64 e) img en hf ti eq_refl FH B G F SO (carried e ti D E)) as (img' & A & H).
  exists img'. split; [exact A|]. intros e' W SV. rewrite (proj1 (alike e' img' W SV)). exact (H (on64 e') eq_refl SV).
Qed.
Print Assumptions C73_changing_file_any_width.

Theorem C73_fetched_once_any_width : forall e, dependable (cfg e) -> (forall p, type_information_new e <> Panic p) ->
  (exists n, map place (fields (requests e)) = firstn n header_places) \/
  exists newer b20 b16 b12 b8 b4 b3 b2 b0 start rest,
    requests e = newer ++ [(20, 4, Bytes b20); (16, 4, Bytes b16); (12, 4, Bytes b12); (8, 4, Bytes b8); (4, 4, Bytes b4); (3, 1, Bytes b3); (2, 1, Bytes b2); (0, 2, Bytes b0)] /\
    map place (fields (requests e)) = header_places ++ rest /\ rest = map place (fields newer) /\ consecutive start rest /\
    (Forall fills (requests e) -> exists en, b0 = magic en /\ start = Spec.value en b4 + Spec.value en b8).
Proof.
  intros e D NP. rewrite (proj2 (carried_all e D NP)). exact (C73_fetched_once (on64 e) eq_refl).
Qed.
Print Assumptions C73_fetched_once_any_width.

Theorem C73_no_byte_twice_any_width : forall e, dependable (cfg e) -> (forall p, type_information_new e <> Panic p) -> forall l1 q1 l2 q2 l3, fields (requests e) = l1 ++ q1 :: l2 ++ q2 :: l3 ->
  first_byte q1 + byte_count q1 <= first_byte q2 \/ (first_byte q1 + byte_count q1 <= 24 /\ first_byte q2 < 24).
Proof.
  intros e D NP. rewrite (proj2 (carried_all e D NP)). exact (C73_no_byte_twice (on64 e) eq_refl).
Qed.
Print Assumptions C73_no_byte_twice_any_width.

Theorem C73_fixed_file_any_width : forall e, dependable (cfg e) -> (forall p, type_information_new e <> Panic p) -> Forall fills (requests e) -> (forall off n k, ~ In (off, n, Fails k) (requests e)) -> agree (requests e) ->
  exists img, forall e', width_ok (cfg e') img -> serves (rd e') img ->
    type_information_new e' = type_information_new e /\ requests e' = requests e.
Proof.
  intros e D NP. rewrite (proj1 (carried_all e D NP)), (proj2 (carried_all e D NP)). intros F NF A. destruct (C73_fixed_file (on64 e) eq_refl F NF A) as (img & H).
  exists img. intros e' W SV. rewrite (proj1 (alike e' img W SV)), (proj2 (alike e' img W SV)). exact (H (on64 e') eq_refl SV).
Qed.
Print Assumptions C73_fixed_file_any_width.
(** The files of the examples of these properties, on 32-bit builds. *)
Example any_width5_met : let c := build32 true in dependable c /\
  (forall ck, width_ok (build32 ck) (encode_with x07 xff (fun _ => 2 ^ 16 * 0xAB + 2 ^ 29 * 3) Little sample)) /\
  (forall ck, width_ok (build32 ck) (encode Little sample) /\ width_ok (build32 ck) (encode Big sample)) /\
  (forall ck, width_ok (build32 ck) sample_img /\ width_ok (build32 ck) moved_img) /\
  load_of c (encode Little sample) = Ok sample_ti /\ load_of c moved_img = Ok sample_ti /\ extends grow1 grow2 /\
  (exists t1 t2, load_of c grow1 = Ok t1 /\ load_of c grow2 = Ok t2 /\ id_of t1 (s "int") = Some 1 /\ id_of t2 (s "int") = Some 2) /\
  type_information_new {| cfg := c; rd := rd torn |} = type_information_new (file_env (strings_first 4 64)).
Proof.
  cbv zeta. split; [right; split; reflexivity|].
  split; [intros ck; eapply loads_so_ok; vm_compute; reflexivity|].
  split; [intros ck; split; (eapply loads_so_ok; vm_compute; reflexivity)|].
  split; [intros ck; split; (eapply loads_so_ok; vm_compute; reflexivity)|].
  split; [vm_compute; reflexivity|]. split; [vm_compute; reflexivity|]. split; [exact (proj1 C42_met)|].
  split; [|vm_compute; reflexivity].
  eexists. eexists. split; [vm_compute; reflexivity|]. split; [vm_compute; reflexivity|]. split; vm_compute; reflexivity.
Qed.
