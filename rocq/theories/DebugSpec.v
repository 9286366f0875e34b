(** * DebugSpec: what the text of a type shows (C63). *)
From Coq Require Import Strings.String.
From Coq Require Import List NArith ZArith Strings.Byte.
From Verif Require Import TypeInfo Spec PathSpec.
Import ListNotations.
Open Scope N_scope.

Definition words (x : String.string) : str := String.list_byte_of_string x.
Arguments words x%string.

(** ** Rust string literals, as far as they matter here: [literal w s] - between quotes, [w] denotes the text [s]. *)
Definition hex_value (d : byte) (v : N) : Prop :=
  let n := Byte.to_N d in (0x30 <= n <= 0x39 /\ v = n - 0x30) \/ (0x61 <= n <= 0x66 /\ v = n - 0x61 + 10).
Inductive literal : str -> str -> Prop :=
| literal_end : literal [] []
| literal_plain b w s : b <> x22 -> b <> x5c -> literal w s -> literal (b :: w) (b :: s)
| literal_nul w s : literal w s -> literal (words "\0" ++ w) (x00 :: s)
| literal_tab w s : literal w s -> literal (words "\t" ++ w) (x09 :: s)
| literal_newline w s : literal w s -> literal (words "\n" ++ w) (x0a :: s)
| literal_return w s : literal w s -> literal (words "\r" ++ w) (x0d :: s)
| literal_quote w s : literal w s -> literal ([x5c; x22] ++ w) (x22 :: s)
| literal_backslash w s : literal w s -> literal (words "\\" ++ w) (x5c :: s)
| literal_u1 d v b c w s : hex_value d v -> Byte.to_N b = v -> latin1_char b c -> literal w s -> literal (words "\u{" ++ [d] ++ words "}" ++ w) (c ++ s)
| literal_u2 d1 v1 d2 v2 b c w s : hex_value d1 v1 -> hex_value d2 v2 -> Byte.to_N b = 16 * v1 + v2 -> latin1_char b c -> literal w s ->
    literal (words "\u{" ++ [d1; d2] ++ words "}" ++ w) (c ++ s).

(** ** Characters that a terminal shows as themselves: no control character, no invisible one. *)
Definition visible (c : str) : Prop :=
  exists b, latin1_char b c /\ let n := Byte.to_N b in (0x20 <= n <= 0x7E) \/ (0xA1 <= n /\ n <> 0xAD).
Definition one_clean_line (t : str) : Prop := exists chars, Forall visible chars /\ t = concat chars.

(** ** Text inside text; behind it there is no letter or digit, so a number or word is shown in full. *)
Definition wordlike (b : byte) : Prop :=
  let n := Byte.to_N b in (0x30 <= n <= 0x39) \/ (0x41 <= n <= 0x5A) \/ (0x61 <= n <= 0x7A) \/ n = 0x5F.
Definition ends_word (r : str) : Prop := match r with [] => True | b :: _ => ~ wordlike b end.
Definition occurs (x t : str) : Prop := exists before after, t = before ++ x ++ after /\ ends_word after.

(** ** Values and how they are written. *)
Inductive value := Number (z : Z) | Flag (b : bool) | Word (w : str) | Quoted (s : str) | Named (o : option str) | Place (o : offset).
Definition integer_text (z : Z) : str := if (z <? 0)%Z then words "-" ++ decimal (Z.abs_N z) else decimal (Z.abs_N z).
Definition quoted (s x : str) : Prop := exists w, literal w s /\ x = [x22] ++ w ++ [x22].
Definition written (v : value) (x : str) : Prop :=
  match v with
  | Number z => x = integer_text z
  | Flag b => x = if b then words "true" else words "false"
  | Word w => x = w
  | Quoted s => quoted s x
  | Named None => x = words "None"
  | Named (Some s) => exists q, quoted s q /\ x = words "Some(" ++ q ++ words ")"
  | Place (ByteOffset b) => x = words "ByteOffset(" ++ decimal b ++ words ")"
  | Place (BitOffsetAndSize b z) => x = words "BitOffsetAndSize(" ++ decimal b ++ words ", " ++ decimal z ++ words ")"
  end.
Definition Count (n : N) : value := Number (Z.of_N n).

(** The variant's name. *)
Definition variant_name (t : type_variant) : str :=
  match t with
  | TVoid => words "Void" | TInt _ _ => words "Int" | TTypedef _ _ => words "Typedef" | TEnum _ _ => words "Enum" | TPtr _ _ => words "Ptr"
  | TConst _ _ => words "Const" | TVolatile _ _ => words "Volatile" | TArray _ _ => words "Array" | TFuncProto _ _ => words "FuncProto"
  | TStruct _ _ => words "Struct" | TUnion _ _ => words "Union" | TFwd _ _ => words "Fwd" | TVar _ _ => words "Var"
  | TEnum64 _ _ => words "Enum64" | TFunc _ _ => words "Func" | TFloat _ _ => words "Float" | TRestrict _ _ => words "Restrict"
  | TDataSec _ _ => words "DataSec" | TTypeTag _ _ => words "TypeTag" | TDeclTag _ _ => words "DeclTag"
  end.
Definition kind_of (t : type_variant) : kind :=
  match t with
  | TVoid | TInt _ _ => KInt | TTypedef _ _ => KTypedef | TEnum _ _ => KEnum | TPtr _ _ => KPtr
  | TConst _ _ => KConst | TVolatile _ _ => KVolatile | TArray _ _ => KArray | TFuncProto _ _ => KFuncProto
  | TStruct _ _ => KStruct | TUnion _ _ => KUnion | TFwd _ _ => KFwd | TVar _ _ => KVar
  | TEnum64 _ _ => KEnum64 | TFunc _ _ => KFunc | TFloat _ _ => KFloat | TRestrict _ _ => KRestrict
  | TDataSec _ _ => KDataSec | TTypeTag _ _ => KTypeTag | TDeclTag _ _ => KDeclTag
  end.
(** [shows t label v]: the type [t] has the value [v] under this label. *)
Inductive shows (t : type_variant) : String.string -> value -> Prop :=
| shows_kind h : type_header t = Some h -> h_kind h = kind_of t -> shows t "kind" (Word (variant_name t))
| shows_name_offset h : type_header t = Some h -> shows t "name_offset" (Count (h_name_offset h))
| shows_vlen h : type_header t = Some h -> shows t "vlen" (Count (h_vlen h))
| shows_kind_flag h : type_header t = Some h -> shows t "kind_flag" (Flag (h_kind_flag h))
| shows_size_or_type h : type_header t = Some h -> shows t "size_or_type" (Count (h_size_or_type h))
| shows_name s : declared_name t = Some s -> shows t "name" (Named (Some s))
| shows_1 h d : t = TInt h d -> shows t "size" (Count (int_size d))
| shows_2 h d : t = TFloat h d -> shows t "size" (Count (float_size d))
| shows_3 h d : t = TStruct h d \/ t = TUnion h d -> shows t "size" (Count (struct_size d))
| shows_4 h d : t = TEnum h d \/ t = TEnum64 h d -> shows t "size" (Count (enum_size d))
| shows_5 h d : t = TDataSec h d -> shows t "size" (Count (ds_size d))
| shows_6 h d : t = TInt h d -> shows t "signed" (Flag (int_signed d))
| shows_7 h d : t = TInt h d -> shows t "char" (Flag (int_char d))
| shows_8 h d : t = TInt h d -> shows t "boolean" (Flag (int_boolean d))
| shows_9 h d : t = TInt h d -> shows t "offset" (Count (int_offset d))
| shows_10 h d : t = TInt h d -> shows t "bits" (Count (int_bits d))
| shows_11 h d : t = TEnum h d \/ t = TEnum64 h d -> shows t "signed" (Flag (enum_signed d))
| shows_12 h d : t = TPtr h d \/ t = TConst h d \/ t = TVolatile h d \/ t = TRestrict h d -> shows t "tid" (Count (link_tid d))
| shows_13 h d : t = TTypedef h d \/ t = TFwd h d \/ t = TTypeTag h d -> shows t "tid" (Count (nl_tid d))
| shows_14 h d : t = TFunc h d -> shows t "prototype_tid" (Count (nl_tid d))
| shows_15 h d : t = TVar h d -> shows t "tid" (Count (var_tid d))
| shows_16 h d : t = TVar h d -> shows t "linkage" (Count (linkage d))
| shows_17 h d : t = TVar h d -> shows t "linkage_type" (Word (match var_linkage_type d with LinkStatic => words "Static" | LinkGlobal => words "Global" end))
| shows_18 h d : t = TDeclTag h d -> shows t "tid" (Count (dt_tid d))
| shows_19 h d : t = TDeclTag h d -> shows t "component_index" (Count (component_index d))
| shows_20 h d : t = TArray h d -> shows t "element_tid" (Count (element_tid d))
| shows_21 h d : t = TArray h d -> shows t "index_tid" (Count (index_tid d))
| shows_22 h d : t = TArray h d -> shows t "element_count" (Count (element_count d))
| shows_23 h d : t = TFuncProto h d -> shows t "return_tid" (Count (return_tid d)).
(** [has_entry t name fields]: a member, parameter, enumerator or section variable of [t]. *)
Definition variables (t : type_variant) : list variable := match t with TDataSec _ d => variable_list d | _ => [] end.
Inductive has_entry (t : type_variant) : String.string -> list (String.string * value) -> Prop :=
| entry_member m : In m (members t) -> has_entry t "Member"
    [("name_offset"%string, Count (m_name_offset m)); ("name"%string, Named (m_name m)); ("tid"%string, Count (m_tid m)); ("offset"%string, Place (m_offset m))]
| entry_parameter p : In p (parameters t) -> has_entry t "Parameter"
    [("name_offset"%string, Count (p_name_offset p)); ("name"%string, Named (p_name p)); ("tid"%string, Count (p_tid p))]
| entry_variable v : In v (variables t) -> has_entry t "Variable"
    [("var_decl_id"%string, Count (var_decl_id v)); ("offset"%string, Count (v_offset v)); ("var_size"%string, Count (var_size v))].
(** An enumerator: its name, and its value with or without sign. *)
Definition enumerator_text (v : named_value) (x : str) : Prop :=
  exists q, quoted (nv_name v) q /\
  x = words "{ name: " ++ q ++ words ", value: " ++
      (match nv_value v with Signed z => words "Signed(" ++ integer_text z | Unsigned n => words "Unsigned(" ++ decimal n end) ++ words ") }".
(** [name { label: value, ... }] *)
Inductive fields_text : list (String.string * value) -> str -> Prop :=
| fields_one l v x : written v x -> fields_text [(l, v)] (words l ++ words ": " ++ x)
| fields_more l v x rest r : written v x -> fields_text rest r -> fields_text ((l, v) :: rest) (words l ++ words ": " ++ x ++ words ", " ++ r).
Definition struct_text (name : String.string) (fields : list (String.string * value)) (x : str) : Prop :=
  exists r, fields_text fields r /\ x = words name ++ words " { " ++ r ++ words " }".
