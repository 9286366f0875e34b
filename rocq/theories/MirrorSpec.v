(** * MirrorSpec: a file and the same file in the other byte order (C60). *)
From Coq Require Import List NArith Bool Strings.Byte.
From Verif Require Import TypeInfo Spec.
Import ListNotations.
Open Scope N_scope.

(** The [n] bytes of the file at [o], if it has them. *)
Definition bytes_of (img : list byte) (o n : N) : option (list byte) :=
  if o + n <=? N.of_nat (length img) then Some (slice img o n) else None.
(** The 32-bit word at [o] is stored in the other order (or both files end before it does). *)
Definition reversed (img img' : list byte) (o : N) : Prop := bytes_of img' o 4 = option_map (@rev byte) (bytes_of img o 4).

(** [img'] is the little-endian file [img] in big-endian order: the magic number and the words of the header, and those of the type section
    are reversed; single bytes, and the string section, are not.  Nothing is said about other bytes, or about what the words mean. *)
Record mirrored (img img' : list byte) : Prop := {
  same_length : length img = length img';
  magic_little : bytes_at img 0 [x9f; xeb];
  magic_big : bytes_at img' 0 [xeb; x9f];
  same_version : bytes_of img 2 1 = bytes_of img' 2 1;
  same_flags : bytes_of img 3 1 = bytes_of img' 3 1;
  header_words : forall o, In o [4; 8; 12; 16; 20] -> reversed img img' o;
  type_words : forall hf, file_header_at img Little hf -> let f := layout_of img Little hf in
    forall k, types_lo f + 4 * k + 4 <= types_hi f -> reversed img img' (types_lo f + 4 * k);
  string_bytes : forall hf, file_header_at img Little hf -> let f := layout_of img Little hf in
    forall o, strings_lo f <= o < strings_hi f -> bytes_of img o 1 = bytes_of img' o 1 }.

(** The same type, except that each 64-bit enumerator value has its halves exchanged (the reader takes the first word of a big-endian file to be
    the high one, C06). *)
Definition value64 (signed : bool) (v : N) : integer_value -> Prop := fun x =>
  match x with Signed z => signed = true /\ signed_value 64 v z | Unsigned n => signed = false /\ n = v end.
Definition halves_exchanged (signed : bool) (v v' : named_value) : Prop :=
  nv_name v = nv_name v' /\ exists a b, a < 2 ^ 32 /\ b < 2 ^ 32 /\
    value64 signed (a + 2 ^ 32 * b) (nv_value v) /\ value64 signed (b + 2 ^ 32 * a) (nv_value v').
Definition same_but_halves (d d' : enum_data) : Prop :=
  enum_name d = enum_name d' /\ enum_size d = enum_size d' /\ enum_signed d = enum_signed d' /\
  Forall2 (halves_exchanged (enum_signed d)) (named_value_list d) (named_value_list d').
Definition same_type (t t' : type_variant) : Prop :=
  match t, t' with
  | TEnum64 h d, TEnum64 h' d' => h = h' /\ same_but_halves d d'
  | _, _ => t = t'
  end.
Definition same_table (ti ti' : type_information) : Prop :=
  map fst (get ti) = map fst (get ti') /\ Forall2 same_type (map snd (get ti)) (map snd (get ti')) /\
  (forall n, id_of ti n = id_of ti' n) /\ (forall t, name_of ti t = name_of ti' t).
(** The same but for the last type, an array. *)
Definition same_but_last (ti ti' : type_information) : Prop := exists l l' n h d d',
  get ti = l ++ [(n, TArray h d)] /\ get ti' = l' ++ [(n, TArray h d')] /\ map fst l = map fst l' /\ Forall2 same_type (map snd l) (map snd l') /\
  (forall n, id_of ti n = id_of ti' n) /\ (forall t, name_of ti t = name_of ti' t).
