(** * LoadMessageSpec: what the messages of a failed load say about the file (C61). *)
From Coq Require Import Strings.Byte.
From Coq Require Import List NArith.
From Verif Require Import TypeInfo Spec LoadMessage.
Import ListNotations.
Open Scope N_scope.

(** What is said about a bad reference [k] into the string section.  The two offsets that are printed count from the
    beginning of the file. *)
Inductive bad_string_says (f : layout) (k : N) : lmessage -> Prop :=
| says_strings_start : 2 ^ 32 <= strings_lo f -> bad_string_says f k LStringsStart
| says_strings_end : strings_lo f < 2 ^ 32 -> 2 ^ 32 <= strings_hi f -> bad_string_says f k LStringsEnd
| says_overflow : strings_hi f < 2 ^ 32 -> 2 ^ 32 <= strings_lo f + k -> bad_string_says f k LStringOverflow
| says_offset : strings_hi f < 2 ^ 32 -> strings_lo f + k < 2 ^ 32 -> strings_hi f <= strings_lo f + k ->
    bad_string_says f k (LStringOffset (strings_lo f + k))
| says_not_terminated bs : strings_hi f < 2 ^ 32 -> bytes_at (image f) (strings_lo f + k) bs -> bs <> [] -> ~ In x00 bs ->
    strings_lo f + k + N.of_nat (length bs) = strings_hi f -> bad_string_says f k (LNotTerminated (strings_lo f + k)).

(** The data following header [h] is fine up to the reference [k] into the string section. *)
Inductive reaches (f : layout) (off : N) (h : header) (k : N) : Prop :=
| reaches_record_name t : kind_has_name (h_kind h) = true -> h_name_offset h = k -> k <> 0 ->
    payload_at f off (unnamed h) t -> reaches f off h k
| reaches_member_name i ms tid w : h_kind h = KStruct \/ h_kind h = KUnion -> i < h_vlen h ->
    items_at (member_at f (h_kind_flag h)) off 12 i ms ->
    u32_at (image f) (order f) (off + 12 * i) k ->
    u32_at (image f) (order f) (off + 12 * i + 4) tid ->
    u32_at (image f) (order f) (off + 12 * i + 8) w -> k <> 0 -> reaches f off h k
| reaches_enumerator_name n i vs :
    (h_kind h = KEnum /\ n = 4%nat) \/ (h_kind h = KEnum64 /\ n = 8%nat) -> i < h_vlen h ->
    items_at (enumerator_at f n (h_kind_flag h)) off (4 + N.of_nat n) i vs ->
    u32_at (image f) (order f) (off + (4 + N.of_nat n) * i) k -> reaches f off h k
| reaches_parameter_name i ps tid : h_kind h = KFuncProto -> i < h_vlen h ->
    items_at (parameter_at f) off 8 i ps ->
    u32_at (image f) (order f) (off + 8 * i) k ->
    u32_at (image f) (order f) (off + 8 * i + 4) tid -> k <> 0 -> reaches f off h k.

(** What is said about the record at [o]. *)
Inductive bad_record_says (f : layout) (o : N) : lmessage -> Prop :=
| says_types_end : 2 ^ 32 <= types_hi f -> bad_record_says f o LTypesEnd
| says_header_past_end : types_hi f < 2 ^ 32 -> types_hi f < o + 12 -> bad_record_says f o LTypesOffset
| says_kind name info : types_hi f < 2 ^ 32 -> o + 12 <= types_hi f ->
    u32_at (image f) (order f) o name -> u32_at (image f) (order f) (o + 4) info ->
    info / 2 ^ 24 mod 32 = 0 \/ 19 < info / 2 ^ 24 mod 32 -> bad_record_says f o (LKind (info / 2 ^ 24 mod 32))
| says_data_past_end h : types_hi f < 2 ^ 32 -> o + 12 <= types_hi f -> header_at f o h ->
    types_hi f < o + 12 + checked_size h -> bad_record_says f o LTypesOffset
| says_string h k m : types_hi f < 2 ^ 32 -> header_at f o h -> o + 12 + checked_size h <= types_hi f ->
    reaches f (o + 12) h k -> bad_string_says f k m -> bad_record_says f o m
| says_unaligned h i ms no name tid w : types_hi f < 2 ^ 32 -> header_at f o h -> o + 12 + checked_size h <= types_hi f ->
    h_kind h = KStruct \/ h_kind h = KUnion -> i < h_vlen h ->
    items_at (member_at f (h_kind_flag h)) (o + 12) 12 i ms ->
    u32_at (image f) (order f) (o + 12 + 12 * i) no -> name_at f no name ->
    u32_at (image f) (order f) (o + 12 + 12 * i + 4) tid ->
    u32_at (image f) (order f) (o + 12 + 12 * i + 8) w ->
    h_kind_flag h = false -> w mod 8 <> 0 -> bad_record_says f o LUnaligned.

(** What is said about the file [img]: the first thing that is wrong with it.  The records before the bad one are [ts]. *)
Inductive broken_says (img : list byte) : lmessage -> Prop :=
| says_magic a b : bytes_at img 0 [a; b] -> [a; b] <> [x9f; xeb] -> [a; b] <> [xeb; x9f] ->
    broken_says img (LMagic (Byte.to_N a + 256 * Byte.to_N b))
| says_types_start en hf : file_header_at img en hf -> 2 ^ 32 <= types_lo (layout_of img en hf) -> broken_says img LTypesStart
| says_record en hf ts o m : let f := layout_of img en hf in
    file_header_at img en hf -> types_lo f < 2 ^ 32 -> records_at f (types_lo f) ts o -> o < types_hi f ->
    bad_record_says f o m -> broken_says img m.

(** The number written by hexadecimal digits. *)
Definition hex_digit_value (b : byte) (d : N) : Prop :=
  (Byte.to_N b = 0x30 + d /\ d < 10) \/ (Byte.to_N b = 0x37 + d /\ 10 <= d < 16).
Inductive hex_value : str -> N -> Prop :=
| hex_nil : hex_value [] 0
| hex_snoc s n b d : hex_value s n -> hex_digit_value b d -> hex_value (s ++ [b]) (16 * n + d).
