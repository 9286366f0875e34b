(** * Debug: the [{:?}] text of types and of the type table.  Model file.
    [#[derive(Debug)]] writes through the builders of [core::fmt]: [debug_struct], [debug_tuple], [debug_list], [debug_map],
    in the one-line form ([{:?}], not [{:#?}]).
    Simplification: names are text decoded byte by byte (src/btf/string.rs:62-71), so their characters are U+0000..U+00FF
    and only for those does [escape] follow [<str as Debug>::fmt]; other bytes are copied. *)
From Coq Require Import List NArith ZArith Bool Strings.Byte Strings.String Decimal DecimalString.
From Verif Require Export TypeInfo.
Import ListNotations.
Open Scope N_scope.

Definition txt (x : String.string) : str := String.list_byte_of_string x.
Arguments txt x%string.
(** [Display] and [Debug] of unsigned and signed integers *)
Definition digits_of_N (n : N) : str := list_byte_of_string (NilEmpty.string_of_uint (N.to_uint n)).
Definition digits_of_Z (z : Z) : str := match z with Zneg _ => txt "-" ++ digits_of_N (Z.abs_N z) | _ => digits_of_N (Z.abs_N z) end.

(** ** The builders *)
Fixpoint joined (l : list str) : str :=
  match l with
  | [] => []
  | [x] => x
  | x :: l' => x ++ txt ", " ++ joined l'
  end.
Definition field (f : String.string) (v : str) : str := txt f ++ txt ": " ++ v.
Arguments field f%string.
Definition debug_struct (name : String.string) (fields : list str) : str := txt name ++ txt " { " ++ joined fields ++ txt " }".
Arguments debug_struct name%string.
Definition debug_tuple (name : String.string) (values : list str) : str := txt name ++ txt "(" ++ joined values ++ txt ")".
Arguments debug_tuple name%string.
Definition debug_list (values : list str) : str := txt "[" ++ joined values ++ txt "]".
Definition debug_map (entries : list (str * str)) : str :=
  txt "{" ++ joined (map (fun kv => fst kv ++ txt ": " ++ snd kv) entries) ++ txt "}".

(** ** Strings *)
(** Characters up to U+00FF that [str]'s [Debug] writes as they are ([core::unicode::printable]), leaving aside the
    quote and the backslash *)
Definition printable (n : N) : bool := in_range 0x20 0x7E n || (in_range 0xA1 0xFF n && negb (n =? 0xAD)).
Definition low_hex_digit (d : N) : byte := byte_of (if d <? 10 then 0x30 + d else 0x57 + d).
(** [char::escape_debug] with single quotes left alone; [raw]: the character itself in UTF-8 *)
Definition escape_char (n : N) (raw : str) : str :=
  if n =? 0 then txt "\0" else if n =? 9 then txt "\t" else if n =? 13 then txt "\r" else if n =? 10 then txt "\n"
  else if n =? 34 then [x5c; x22] else if n =? 92 then txt "\\"
  else if printable n then raw
  else txt "\u{" ++ (if n <? 16 then [low_hex_digit n] else [low_hex_digit (n / 16); low_hex_digit (n mod 16)]) ++ txt "}".
(** The character U+0080..U+00FF written in UTF-8 as [b c] *)
Definition two_bytes (b c : byte) : option N :=
  if in_range 0xC2 0xC3 (bval b) && in_range 0x80 0xBF (bval c) then Some (64 * (bval b - 0xC0) + (bval c - 0x80)) else None.
Fixpoint escape (s : str) : str :=
  match s with
  | [] => []
  | b :: s' =>
      if bval b <? 0x80 then escape_char (bval b) [b] ++ escape s'
      else match s' with
           | c :: s'' => match two_bytes b c with
                         | Some n => escape_char n [b; c] ++ escape s''
                         | None => b :: escape s'
                         end
           | [] => [b]
           end
  end.
Definition debug_str (s : str) : str := [x22] ++ escape s ++ [x22].
(** [Option<String>] *)
Definition debug_name (o : option str) : str := match o with None => txt "None" | Some s => debug_tuple "Some" [debug_str s] end.
Definition debug_bool (b : bool) : str := if b then txt "true" else txt "false".

(** ** The types of the library *)
(** src/btf/kind.rs:11-70 *)
Definition kind_debug (k : kind) : str :=
  match k with
  | KInt => txt "Int" | KPtr => txt "Ptr" | KArray => txt "Array" | KStruct => txt "Struct" | KUnion => txt "Union"
  | KEnum => txt "Enum" | KFwd => txt "Fwd" | KTypedef => txt "Typedef" | KVolatile => txt "Volatile" | KConst => txt "Const"
  | KRestrict => txt "Restrict" | KFunc => txt "Func" | KFuncProto => txt "FuncProto" | KVar => txt "Var" | KDataSec => txt "DataSec"
  | KFloat => txt "Float" | KDeclTag => txt "DeclTag" | KTypeTag => txt "TypeTag" | KEnum64 => txt "Enum64"
  end.
(** src/btf/header.rs:18-34 *)
Definition debug_header (h : header) : str :=
  debug_struct "Header" [field "kind" (kind_debug (h_kind h)); field "name_offset" (digits_of_N (h_name_offset h));
    field "vlen" (digits_of_N (h_vlen h)); field "kind_flag" (debug_bool (h_kind_flag h)); field "size_or_type" (digits_of_N (h_size_or_type h))].
(** src/btf/offset.rs:14-21 *)
Definition debug_offset (o : offset) : str :=
  match o with
  | ByteOffset b => debug_tuple "ByteOffset" [digits_of_N b]
  | BitOffsetAndSize b z => debug_tuple "BitOffsetAndSize" [digits_of_N b; digits_of_N z]
  end.
(** src/btf/int.rs:19-41 *)
Definition debug_int (d : int_data) : list str :=
  [field "name" (debug_name (int_name d)); field "size" (digits_of_N (int_size d)); field "signed" (debug_bool (int_signed d));
   field "char" (debug_bool (int_char d)); field "boolean" (debug_bool (int_boolean d)); field "offset" (digits_of_N (int_offset d));
   field "bits" (digits_of_N (int_bits d))].
(** src/btf/ptr.rs, const.rs, volatile.rs, restrict.rs:19-23 *)
Definition debug_link (d : link_data) : list str := [field "tid" (digits_of_N (link_tid d))].
(** src/btf/typedef.rs, fwd.rs, type_tag.rs, func.rs:19-26; [tid]: the name of the second field *)
Definition debug_named_link (tid : String.string) (d : named_link_data) : list str :=
  [field "name" (debug_name (nl_name d)); field tid (digits_of_N (nl_tid d))].
Arguments debug_named_link tid%string.
(** src/btf/float.rs:19-26 *)
Definition debug_float (d : float_data) : list str := [field "name" (debug_name (float_name d)); field "size" (digits_of_N (float_size d))].
(** src/btf/array.rs:22-32 *)
Definition debug_array (d : array_data) : list str :=
  [field "element_tid" (digits_of_N (element_tid d)); field "index_tid" (digits_of_N (index_tid d)); field "element_count" (digits_of_N (element_count d))].
(** src/btf/struct_union.rs:22-35 *)
Definition debug_member (m : member) : str :=
  debug_struct "Member" [field "name_offset" (digits_of_N (m_name_offset m)); field "name" (debug_name (m_name m));
    field "tid" (digits_of_N (m_tid m)); field "offset" (debug_offset (m_offset m))].
(** src/btf/struct_union.rs:74-84 *)
Definition debug_members (d : struct_data) : list str :=
  [field "name" (debug_name (struct_name d)); field "size" (digits_of_N (struct_size d));
   field "member_list" (debug_list (map debug_member (member_list d)))].
(** src/btf/enum.rs:22-29, enum64.rs:22-29 *)
Definition debug_integer (v : integer_value) : str :=
  match v with Signed z => debug_tuple "Signed" [digits_of_Z z] | Unsigned n => debug_tuple "Unsigned" [digits_of_N n] end.
(** src/btf/enum.rs:32-39, enum64.rs:32-39; [struct]: [NamedValue32] or [NamedValue64] *)
Definition debug_value (struct : String.string) (v : named_value) : str :=
  debug_struct struct [field "name" (debug_str (nv_name v)); field "value" (debug_integer (nv_value v))].
Arguments debug_value struct%string.
(** src/btf/enum.rs:45-58, enum64.rs:45-58 *)
Definition debug_enum (struct : String.string) (d : enum_data) : list str :=
  [field "name" (debug_name (enum_name d)); field "size" (digits_of_N (enum_size d));
   field "named_value_list" (debug_list (map (debug_value struct) (named_value_list d))); field "signed" (debug_bool (enum_signed d))].
Arguments debug_enum struct%string.
(** src/btf/func_proto.rs:22-32 *)
Definition debug_parameter (p : parameter) : str :=
  debug_struct "Parameter" [field "name_offset" (digits_of_N (p_name_offset p)); field "name" (debug_name (p_name p)); field "tid" (digits_of_N (p_tid p))].
(** src/btf/func_proto.rs:55-62 *)
Definition debug_func_proto (d : func_proto_data) : list str :=
  [field "parameter_list" (debug_list (map debug_parameter (parameter_list d))); field "return_tid" (digits_of_N (return_tid d))].
(** src/btf/var.rs:19-39 *)
Definition debug_linkage (l : linkage_type) : str := match l with LinkStatic => txt "Static" | LinkGlobal => txt "Global" end.
Definition debug_var (d : var_data) : list str :=
  [field "name" (debug_name (var_name d)); field "tid" (digits_of_N (var_tid d)); field "linkage" (digits_of_N (linkage d));
   field "linkage_type" (debug_linkage (var_linkage_type d))].
(** src/btf/data_sec.rs:22-48 *)
Definition debug_variable (v : variable) : str :=
  debug_struct "Variable" [field "var_decl_id" (digits_of_N (var_decl_id v)); field "offset" (digits_of_N (v_offset v)); field "var_size" (digits_of_N (var_size v))].
Definition debug_data_sec (d : data_sec_data) : list str :=
  [field "name" (debug_name (ds_name d)); field "size" (digits_of_N (ds_size d)); field "variable_list" (debug_list (map debug_variable (variable_list d)))].
(** src/btf/decl_tag.rs:19-29 *)
Definition debug_decl_tag (d : decl_tag_data) : list str :=
  [field "name" (debug_name (dt_name d)); field "tid" (digits_of_N (dt_tid d)); field "component_index" (digits_of_N (component_index d))].

(** src/btf/define_type.rs:13-19 inside src/btf/type_information.rs:25-86: the variant and the struct in it have the same name *)
Definition debug_variant (name : String.string) (h : header) (data : list str) : str :=
  debug_tuple name [debug_struct name [field "type_header" (debug_header h); field "data" (debug_struct "Data" data)]].
Arguments debug_variant name%string.
Definition debug_type (t : type_variant) : str :=
  match t with
  | TVoid => txt "Void"
  | TInt h d => debug_variant "Int" h (debug_int d)
  | TTypedef h d => debug_variant "Typedef" h (debug_named_link "tid" d)
  | TEnum h d => debug_variant "Enum" h (debug_enum "NamedValue32" d)
  | TPtr h d => debug_variant "Ptr" h (debug_link d)
  | TConst h d => debug_variant "Const" h (debug_link d)
  | TVolatile h d => debug_variant "Volatile" h (debug_link d)
  | TArray h d => debug_variant "Array" h (debug_array d)
  | TFuncProto h d => debug_variant "FuncProto" h (debug_func_proto d)
  | TStruct h d => debug_variant "Struct" h (debug_members d)
  | TUnion h d => debug_variant "Union" h (debug_members d)
  | TFwd h d => debug_variant "Fwd" h (debug_named_link "tid" d)
  | TVar h d => debug_variant "Var" h (debug_var d)
  | TEnum64 h d => debug_variant "Enum64" h (debug_enum "NamedValue64" d)
  | TFunc h d => debug_variant "Func" h (debug_named_link "prototype_tid" d)
  | TFloat h d => debug_variant "Float" h (debug_float d)
  | TRestrict h d => debug_variant "Restrict" h (debug_link d)
  | TDataSec h d => debug_variant "DataSec" h (debug_data_sec d)
  | TTypeTag h d => debug_variant "TypeTag" h (debug_named_link "tid" d)
  | TDeclTag h d => debug_variant "DeclTag" h (debug_decl_tag d)
  end.
(** [BTreeMap<u32, TypeVariant>], what [TypeInformation::get] returns (src/btf/type_information.rs:491-493) *)
Definition debug_table (l : list (N * type_variant)) : str := debug_map (map (fun e => (digits_of_N (fst e), debug_type (snd e))) l).
