(** * BrokenSpec: what is wrong with a file that is not accepted (C51). *)
From Coq Require Import Strings.Byte.
From Coq Require Import List NArith.
From Verif Require Import TypeInfo Spec.
Import ListNotations.
Open Scope N_scope.

(** Something is wrong with the record at [o]: the error [x] tells what. *)
Inductive bad_record (f : layout) (o : N) : error_kind -> Prop :=
| types_end_past_4G : 2 ^ 32 <= types_hi f -> bad_record f o InvalidTypeSectionOffset
| header_does_not_fit : types_hi f < 2 ^ 32 -> types_hi f < o + 12 -> bad_record f o InvalidTypeSectionOffset
| unknown_kind name info : types_hi f < 2 ^ 32 -> o + 12 <= types_hi f ->
    u32_at (image f) (order f) o name -> u32_at (image f) (order f) (o + 4) info ->
    info / 2 ^ 24 mod 32 = 0 \/ 19 < info / 2 ^ 24 mod 32 -> bad_record f o InvalidBTFKind
| data_does_not_fit h : types_hi f < 2 ^ 32 -> o + 12 <= types_hi f -> header_at f o h ->
    types_hi f < o + 12 + checked_size h -> bad_record f o InvalidTypeSectionOffset
| bad_data h x : types_hi f < 2 ^ 32 -> header_at f o h -> o + 12 + checked_size h <= types_hi f ->
    defect_at f (o + 12) h x -> bad_record f o x.

(** [img] is not a BTF file this library accepts, because of [x]. *)
Inductive broken (img : list byte) : error_kind -> Prop :=
| wrong_magic a b : bytes_at img 0 [a; b] -> [a; b] <> [x9f; xeb] -> [a; b] <> [xeb; x9f] -> broken img InvalidMagic
| types_start_past_4G en hf : file_header_at img en hf -> 2 ^ 32 <= types_lo (layout_of img en hf) ->
    broken img InvalidTypeSectionOffset
| wrong_record en hf ts o x : let f := layout_of img en hf in
    file_header_at img en hf -> types_lo f < 2 ^ 32 -> records_at f (types_lo f) ts o -> o < types_hi f ->
    bad_record f o x -> broken img x.
