(** * RelocateSpec: the same sections at other places of the file (C69). *)
From Coq Require Import List NArith Strings.Byte.
From Verif Require Import TypeInfo Spec.
Import ListNotations.
Open Scope N_scope.

(** The byte of the file at [o], if it has one. *)
Definition byte_of (img : list byte) (o : N) : option byte := nth_error img (N.to_nat o).
(** The [n] bytes from [o] are those of the other file from [o'] (or missing in both). *)
Definition same_bytes (img img' : list byte) (o o' n : N) : Prop := forall k, k < n -> byte_of img (o + k) = byte_of img' (o' + k).

(** Two files with the same type section and the same string section.  Where the sections lie, whether they overlap each
    other or the header, how long the header says it is, and all other bytes are free; only the sections end below 4 GiB. *)
Definition relocated (img img' : list byte) (en : endianness) (hf hf' : header_fields) : Prop :=
  let f := layout_of img en hf in let f' := layout_of img' en hf' in
  file_header_at img en hf /\ file_header_at img' en hf' /\
  hf_type_len hf = hf_type_len hf' /\ hf_str_len hf = hf_str_len hf' /\
  types_hi f < 2 ^ 32 /\ types_hi f' < 2 ^ 32 /\ strings_hi f < 2 ^ 32 /\ strings_hi f' < 2 ^ 32 /\
  same_bytes img img' (types_lo f) (types_lo f') (hf_type_len hf) /\
  same_bytes img img' (strings_lo f) (strings_lo f') (hf_str_len hf).

(** The type section ends inside an array: behind the header of a record, but before its data ends (C14).  Such a file can
    load, with the words of the array taken from behind the section, so what lies there matters. *)
Definition cut_array (img : list byte) (en : endianness) (hf : header_fields) : Prop :=
  let f := layout_of img en hf in
  exists ts o h, records_at f (types_lo f) ts o /\ header_at f o h /\ h_kind h = KArray /\ h_vlen h = 0 /\ o + 12 <= types_hi f /\ types_hi f < o + 24.
