(** * NarrowSpec: files that make a 32-bit build compute an address of 4 GiB or more (C02). *)
From Coq Require Import Strings.Byte.
From Coq Require Import List NArith.
From Verif Require Import TypeInfo Spec.
Import ListNotations.
Open Scope N_scope.

(** The record at [o], or something that has to be read for it, ends at 4 GiB or behind. *)
Inductive past_4G (f : layout) (o : N) : Prop :=
| header_past : 2 ^ 32 <= o + 12 -> past_4G f o
| data_past h : o + 12 <= types_hi f -> header_at f o h -> 2 ^ 32 <= o + 12 + checked_size h -> past_4G f o
| array_past h stop :   (* one of the three words of an array, if the file has it *)
    o + 12 + checked_size h <= types_hi f -> header_at f o h -> h_kind h = KArray -> In stop [o + 16; o + 20; o + 24] ->
    2 ^ 32 <= stop -> stop <= N.of_nat (length (image f)) -> past_4G f o
| string_past h :       (* a name that goes on to the end of the string section, which is the last byte below 4 GiB *)
    o + 12 + checked_size h <= types_hi f -> header_at f o h -> strings_hi f = 2 ^ 32 - 1 ->
    defect_at f (o + 12) h InvalidString -> past_4G f o.

(** After well-formed records the loader comes to such a record, inside a type section that ends below 4 GiB. *)
Definition reaches_4G (img : list byte) : Prop :=
  exists en hf ts o, let f := layout_of img en hf in
    file_header_at img en hf /\ records_at f (types_lo f) ts o /\ o < types_hi f /\ types_hi f < 2 ^ 32 /\ past_4G f o.
