(** * KernelSpec: what the Linux kernel checks before it accepts a BTF file (C85, C86).

    From kernel/bpf/btf.c.  Only checks that matter here are stated; the kernel's own are stricter, so every file it accepts
    meets these.  [u32_at], [header_at], [extra_size] (Spec.v): the format. *)
From Coq Require Import Strings.Byte.
From Coq Require Import List NArith.
From Verif Require Import TypeInfo Spec QuerySpec.
Import ListNotations.
Open Scope N_scope.

(** ** The file: btf_parse_hdr, btf_check_sec_info, btf_parse_str_sec, btf_check_all_metas *)

(** Where the record at [o] with header [h] stores the offsets of names. *)
Inductive name_place (o : N) (h : header) : N -> Prop :=
| place_record : name_place o h o
| place_member i : h_kind h = KStruct \/ h_kind h = KUnion -> i < h_vlen h -> name_place o h (o + 12 + 12 * i)
| place_enumerator i : h_kind h = KEnum -> i < h_vlen h -> name_place o h (o + 12 + 8 * i)
| place_enumerator64 i : h_kind h = KEnum64 -> i < h_vlen h -> name_place o h (o + 12 + 12 * i)
| place_parameter i : h_kind h = KFuncProto -> i < h_vlen h -> name_place o h (o + 12 + 8 * i).

(** btf_check_meta and the check_meta of each kind: a known kind, all of the record inside the type section, arrays without
    vlen; btf_name_offset_valid: names inside the string section. *)
Record checked_record (f : layout) (o : N) (h : header) : Prop := {
  checked_header : header_at f o h;
  checked_fits : o + 12 + extra_size h <= types_hi f;
  checked_array : h_kind h = KArray -> h_vlen h = 0;
  checked_names : forall q k, name_place o h q -> u32_at (image f) (order f) q k -> strings_lo f + k < strings_hi f }.

(** btf_check_all_metas: one record follows the other up to the end of the section. *)
Inductive checked_records (f : layout) : N -> list header -> Prop :=
| checked_end : checked_records f (types_hi f) []
| checked_next o h hs : checked_record f o h -> checked_records f (o + 12 + extra_size h) hs -> checked_records f o (h :: hs).

(** The sections lie in the file, the string section at its end; the last byte is zero.  The size is limited (by 16 MiB). *)
Definition kernel_checked (img : list byte) (en : endianness) (hf : header_fields) (hs : list header) : Prop :=
  let f := layout_of img en hf in let length := N.of_nat (length img) in
  file_header_at img en hf /\ length <= 2 ^ 32 - 2 ^ 20 /\
  types_hi f <= length /\ strings_hi f = length /\ strings_lo f < strings_hi f /\ bytes_at img (length - 1) [x00] /\
  checked_records f (types_lo f) hs.

(** A bitfield as old compilers described it: the struct has no kind flag, and the member's bit offset is no whole number of bytes. *)
Inductive old_bitfield (f : layout) : N -> list header -> Prop :=
| old_here o h hs i w : h_kind h = KStruct \/ h_kind h = KUnion -> h_kind_flag h = false -> i < h_vlen h ->
    u32_at (image f) (order f) (o + 12 + 12 * i + 8) w -> w mod 8 <> 0 -> old_bitfield f o (h :: hs)
| old_later o h hs : old_bitfield f (o + 12 + extra_size h) hs -> old_bitfield f o (h :: hs).

(** ** The types: btf_check_all_types, btf_resolve *)

(** What has to be known to know the type [ty]: what a typedef, qualifier, tag or variable is of, array elements, members.
    Pointers, functions and prototypes are not followed. *)
Definition contains (ty : type_variant) (u : N) : Prop :=
  match ty with
  | TTypedef _ d | TTypeTag _ d => nl_tid d = u
  | TConst _ d | TVolatile _ d | TRestrict _ d => link_tid d = u
  | TVar _ d => var_tid d = u
  | TArray _ d => element_tid d = u
  | TStruct _ d | TUnion _ d => exists m, In m (member_list d) /\ m_tid m = u
  | _ => False
  end.
(** btf_type_id_size, in a kernel whose pointers have [ptr] bytes. *)
Inductive kernel_size (ti : type_information) (ptr : N) : N -> N -> Prop :=
| kernel_stored t ty s : from_id ti t = Some ty -> stored_size ty s -> kernel_size ti ptr t s
| kernel_pointer t h d : from_id ti t = Some (TPtr h d) -> kernel_size ti ptr t ptr
| kernel_array t h d s : from_id ti t = Some (TArray h d) -> kernel_size ti ptr (element_tid d) s -> s * element_count d < 2 ^ 32 ->
    kernel_size ti ptr t (s * element_count d)
| kernel_same t u s : size_alias ti t u -> kernel_size ti ptr u s -> kernel_size ti ptr t s.
(** Numbers of whole bytes (btf_type_int_is_regular), enums of up to four bytes: for others the kernel reserves less than
    their size in a struct. *)
Definition regular (ti : type_information) (t : N) : Prop :=
  forall r, chain (size_alias ti) t r -> match from_id ti r with
    | Some (TInt _ d) => int_bits d = 8 * int_size d
    | Some (TEnum _ d) | Some (TEnum64 _ d) => enum_size d <= 4
    | _ => True end.

Record kernel_resolved (ti : type_information) (ptr : N) : Prop := {
  (* no type contains itself *)
  no_loops : exists rank : N -> nat, forall t ty u, from_id ti t = Some ty -> contains ty u -> (rank u < rank t)%nat;
  (* btf_fwd_check_meta *)
  no_target : forall t h d, from_id ti t = Some (TFwd h d) -> nl_tid d = 0;
  (* btf_array_resolve: elements have a size, and the array's size fits 32 bits *)
  arrays_sized : forall t h d, from_id ti t = Some (TArray h d) -> exists s, kernel_size ti ptr t s;
  (* btf_struct_resolve, check_member and check_kflag_member of each kind: members have a size and lie in the struct *)
  members_inside : forall t ty ms m st, from_id ti t = Some ty -> members_of ty ms -> In m ms -> stored_size ty st ->
    match m_offset m with
    | ByteOffset b => exists s, kernel_size ti ptr (m_tid m) s /\ (regular ti (m_tid m) -> b + s <= st)
    | BitOffsetAndSize b z => b + z <= 8 * st
    end }.
