(** * Pretty: the [{:#?}] text of types and of the type table.  Model file.
    The same [#[derive(Debug)]] as in Debug.v, in the form of several lines: what the builders of [core::fmt] write when the alternate flag is set.
    The calls of the builders are a tree ([shape]), printed in one line ([one_line], shown to be the text of Debug.v) or in several ([pretty]). *)
From Coq Require Import List NArith ZArith Bool Strings.Byte Strings.String.
From Verif Require Export Debug.
Import ListNotations.
Open Scope N_scope.

(** [debug_struct], [debug_tuple], [debug_list], [debug_map], and values that are written as they are *)
Inductive shape :=
| PAtom (x : str)
| PStruct (name : str) (fields : list (str * shape))
| PTuple (name : str) (values : list shape)
| PList (values : list shape)
| PMap (entries : list (str * shape)).

(** [{:?}] *)
Fixpoint one_line (d : shape) : str :=
  match d with
  | PAtom x => x
  | PStruct n fs => match fs with [] => n | _ => n ++ txt " { " ++ joined (map (fun f => fst f ++ txt ": " ++ one_line (snd f)) fs) ++ txt " }" end
  | PTuple n vs => match vs with [] => n | _ => n ++ txt "(" ++ joined (map one_line vs) ++ txt ")" end
  | PList vs => txt "[" ++ joined (map one_line vs) ++ txt "]"
  | PMap es => txt "{" ++ joined (map (fun e => fst e ++ txt ": " ++ one_line (snd e)) es) ++ txt "}"
  end.

Definition newline : byte := x0a.
(** [PadAdapter]: four spaces at the start of each line; [start]: [PadAdapterState::on_newline] *)
Fixpoint pad (start : bool) (t : str) : str :=
  match t with
  | [] => []
  | b :: t' => (if start then txt "    " else []) ++ b :: pad (Byte.eqb b newline) t'
  end.
(** [{:#?}]: each entry is written through a [PadAdapter] of its own and ends in [",\n"] *)
Definition entry (t : str) : str := pad true (t ++ txt "," ++ [newline]).
Fixpoint pretty (d : shape) : str :=
  match d with
  | PAtom x => x
  | PStruct n fs => match fs with [] => n | _ => n ++ txt " {" ++ [newline] ++ flat_map (fun f => entry (fst f ++ txt ": " ++ pretty (snd f))) fs ++ txt "}" end
  | PTuple n vs => match vs with [] => n | _ => n ++ txt "(" ++ [newline] ++ flat_map (fun v => entry (pretty v)) vs ++ txt ")" end
  | PList vs => txt "[" ++ match vs with [] => [] | _ => [newline] ++ flat_map (fun v => entry (pretty v)) vs end ++ txt "]"
  | PMap es => txt "{" ++ match es with [] => [] | _ => [newline] ++ flat_map (fun e => entry (fst e ++ txt ": " ++ pretty (snd e))) es end ++ txt "}"
  end.

(** ** The types of the library: lines as in Debug.v *)
Definition number (n : N) : shape := PAtom (digits_of_N n).
Definition truth (b : bool) : shape := PAtom (debug_bool b).
Definition name_shape (o : option str) : shape := match o with None => PAtom (txt "None") | Some s => PTuple (txt "Some") [PAtom (debug_str s)] end.
(** src/btf/header.rs:18-34 *)
Definition header_shape (h : header) : shape :=
  PStruct (txt "Header") [(txt "kind", PAtom (kind_debug (h_kind h))); (txt "name_offset", number (h_name_offset h)); (txt "vlen", number (h_vlen h));
    (txt "kind_flag", truth (h_kind_flag h)); (txt "size_or_type", number (h_size_or_type h))].
(** src/btf/offset.rs:14-21 *)
Definition offset_shape (o : offset) : shape :=
  match o with
  | ByteOffset b => PTuple (txt "ByteOffset") [number b]
  | BitOffsetAndSize b z => PTuple (txt "BitOffsetAndSize") [number b; number z]
  end.
(** src/btf/struct_union.rs:22-35 *)
Definition member_shape (m : member) : shape :=
  PStruct (txt "Member") [(txt "name_offset", number (m_name_offset m)); (txt "name", name_shape (m_name m)); (txt "tid", number (m_tid m)); (txt "offset", offset_shape (m_offset m))].
(** src/btf/enum.rs:22-29, enum64.rs:22-29 *)
Definition integer_shape (v : integer_value) : shape :=
  match v with Signed z => PTuple (txt "Signed") [PAtom (digits_of_Z z)] | Unsigned n => PTuple (txt "Unsigned") [number n] end.
(** src/btf/enum.rs:32-39, enum64.rs:32-39 *)
Definition value_shape (struct : String.string) (v : named_value) : shape :=
  PStruct (txt struct) [(txt "name", PAtom (debug_str (nv_name v))); (txt "value", integer_shape (nv_value v))].
Arguments value_shape struct%string.
(** src/btf/func_proto.rs:22-32 *)
Definition parameter_shape (p : parameter) : shape :=
  PStruct (txt "Parameter") [(txt "name_offset", number (p_name_offset p)); (txt "name", name_shape (p_name p)); (txt "tid", number (p_tid p))].
(** src/btf/data_sec.rs:22-34 *)
Definition variable_shape (v : variable) : shape :=
  PStruct (txt "Variable") [(txt "var_decl_id", number (var_decl_id v)); (txt "offset", number (v_offset v)); (txt "var_size", number (var_size v))].
(** src/btf/int.rs:19-41; ptr.rs, const.rs, volatile.rs, restrict.rs:19-23; typedef.rs, fwd.rs, type_tag.rs, func.rs:19-26; float.rs:19-26; array.rs:22-32;
    struct_union.rs:74-84; enum.rs, enum64.rs:45-58; func_proto.rs:55-62; var.rs:19-39; data_sec.rs:38-48; decl_tag.rs:19-29 *)
Definition link_fields (d : link_data) : list (str * shape) := [(txt "tid", number (link_tid d))].
Definition named_link_fields (tid : String.string) (d : named_link_data) : list (str * shape) := [(txt "name", name_shape (nl_name d)); (txt tid, number (nl_tid d))].
Arguments named_link_fields tid%string.
Definition members_fields (d : struct_data) : list (str * shape) :=
  [(txt "name", name_shape (struct_name d)); (txt "size", number (struct_size d)); (txt "member_list", PList (map member_shape (member_list d)))].
Definition enum_fields (struct : String.string) (d : enum_data) : list (str * shape) :=
  [(txt "name", name_shape (enum_name d)); (txt "size", number (enum_size d));
   (txt "named_value_list", PList (map (value_shape struct) (named_value_list d))); (txt "signed", truth (enum_signed d))].
Arguments enum_fields struct%string.
Definition data_fields (t : type_variant) : list (str * shape) :=
  match t with
  | TVoid => []
  | TInt _ d => [(txt "name", name_shape (int_name d)); (txt "size", number (int_size d)); (txt "signed", truth (int_signed d)); (txt "char", truth (int_char d));
      (txt "boolean", truth (int_boolean d)); (txt "offset", number (int_offset d)); (txt "bits", number (int_bits d))]
  | TTypedef _ d | TFwd _ d | TTypeTag _ d => named_link_fields "tid" d
  | TFunc _ d => named_link_fields "prototype_tid" d
  | TEnum _ d => enum_fields "NamedValue32" d
  | TEnum64 _ d => enum_fields "NamedValue64" d
  | TPtr _ d | TConst _ d | TVolatile _ d | TRestrict _ d => link_fields d
  | TArray _ d => [(txt "element_tid", number (element_tid d)); (txt "index_tid", number (index_tid d)); (txt "element_count", number (element_count d))]
  | TFuncProto _ d => [(txt "parameter_list", PList (map parameter_shape (parameter_list d))); (txt "return_tid", number (return_tid d))]
  | TStruct _ d | TUnion _ d => members_fields d
  | TVar _ d => [(txt "name", name_shape (var_name d)); (txt "tid", number (var_tid d)); (txt "linkage", number (linkage d)); (txt "linkage_type", PAtom (debug_linkage (var_linkage_type d)))]
  | TFloat _ d => [(txt "name", name_shape (float_name d)); (txt "size", number (float_size d))]
  | TDataSec _ d => [(txt "name", name_shape (ds_name d)); (txt "size", number (ds_size d)); (txt "variable_list", PList (map variable_shape (variable_list d)))]
  | TDeclTag _ d => [(txt "name", name_shape (dt_name d)); (txt "tid", number (dt_tid d)); (txt "component_index", number (component_index d))]
  end.
(** src/btf/define_type.rs:13-19 inside src/btf/type_information.rs:25-86 *)
Definition variant_shape (name : String.string) (h : header) (data : list (str * shape)) : shape :=
  PTuple (txt name) [PStruct (txt name) [(txt "type_header", header_shape h); (txt "data", PStruct (txt "Data") data)]].
Arguments variant_shape name%string.
Definition type_shape (t : type_variant) : shape :=
  match t with
  | TVoid => PAtom (txt "Void")
  | TInt h _ => variant_shape "Int" h (data_fields t)
  | TTypedef h _ => variant_shape "Typedef" h (data_fields t)
  | TEnum h _ => variant_shape "Enum" h (data_fields t)
  | TPtr h _ => variant_shape "Ptr" h (data_fields t)
  | TConst h _ => variant_shape "Const" h (data_fields t)
  | TVolatile h _ => variant_shape "Volatile" h (data_fields t)
  | TArray h _ => variant_shape "Array" h (data_fields t)
  | TFuncProto h _ => variant_shape "FuncProto" h (data_fields t)
  | TStruct h _ => variant_shape "Struct" h (data_fields t)
  | TUnion h _ => variant_shape "Union" h (data_fields t)
  | TFwd h _ => variant_shape "Fwd" h (data_fields t)
  | TVar h _ => variant_shape "Var" h (data_fields t)
  | TEnum64 h _ => variant_shape "Enum64" h (data_fields t)
  | TFunc h _ => variant_shape "Func" h (data_fields t)
  | TFloat h _ => variant_shape "Float" h (data_fields t)
  | TRestrict h _ => variant_shape "Restrict" h (data_fields t)
  | TDataSec h _ => variant_shape "DataSec" h (data_fields t)
  | TTypeTag h _ => variant_shape "TypeTag" h (data_fields t)
  | TDeclTag h _ => variant_shape "DeclTag" h (data_fields t)
  end.
(** src/btf/type_information.rs:491-493, the table *)
Definition table_shape (l : list (N * type_variant)) : shape := PMap (map (fun e => (digits_of_N (fst e), type_shape (snd e))) l).
Definition pretty_type (t : type_variant) : str := pretty (type_shape t).
Definition pretty_table (l : list (N * type_variant)) : str := pretty (table_shape l).
