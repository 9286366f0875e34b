(** * Format: file header, kinds, type headers, strings, and the 19 record
    parsers.  Model file: definitions only. *)
From Verif Require Export Reader.

(** src/btf/file_header.rs:14-18 *)
Definition BTF_LITTLE_ENDIAN_MAGIC : N := 0xEB9F.
Definition BTF_BIG_ENDIAN_MAGIC : N := 0x9FEB.

(** src/btf/file_header.rs:20-42 *)
Record file_header := {
  version : N; flags : N; hdr_len : N;
  type_off : N; type_len : N; str_off : N; str_len : N }.

(** src/btf/file_header.rs:96-114 *)
Definition detect_endianness (e : env) : M unit :=
  m <- read_u16 e ;;
  if m =? BTF_LITTLE_ENDIAN_MAGIC then set_endianness Little
  else if m =? BTF_BIG_ENDIAN_MAGIC then set_endianness Big
  else fail InvalidMagic.

(** src/btf/file_header.rs:45-59, [FileHeader::new] *)
Definition file_header_new (e : env) : M file_header :=
  set_offset 0 ;;;
  detect_endianness e ;;;
  v <- read_u8 e ;;
  f <- read_u8 e ;;
  hl <- read_u32 e ;;
  toff <- read_u32 e ;;
  tlen <- read_u32 e ;;
  soff <- read_u32 e ;;
  slen <- read_u32 e ;;
  ret {| version := bval v; flags := bval f; hdr_len := hl; type_off := toff;
         type_len := tlen; str_off := soff; str_len := slen |}.

(** src/btf/kind.rs:11-70 *)
Inductive kind :=
| KInt | KPtr | KArray | KStruct | KUnion | KEnum | KFwd | KTypedef | KVolatile
| KConst | KRestrict | KFunc | KFuncProto | KVar | KDataSec | KFloat | KDeclTag
| KTypeTag | KEnum64.

(** src/btf/kind.rs:72-101, [Kind::new] *)
Definition kind_new (value : N) : outcome error_kind kind :=
  match value with
  | 1 => Ok KInt | 2 => Ok KPtr | 3 => Ok KArray | 4 => Ok KStruct | 5 => Ok KUnion
  | 6 => Ok KEnum | 7 => Ok KFwd | 8 => Ok KTypedef | 9 => Ok KVolatile
  | 10 => Ok KConst | 11 => Ok KRestrict | 12 => Ok KFunc | 13 => Ok KFuncProto
  | 14 => Ok KVar | 15 => Ok KDataSec | 16 => Ok KFloat | 17 => Ok KDeclTag
  | 18 => Ok KTypeTag | 19 => Ok KEnum64
  | _ => Err InvalidBTFKind
  end.

(** [matches!(type_header.kind(), Kind::$name)] *)
Definition kind_eqb (a b : kind) : bool :=
  match a, b with
  | KInt, KInt | KPtr, KPtr | KArray, KArray | KStruct, KStruct | KUnion, KUnion
  | KEnum, KEnum | KFwd, KFwd | KTypedef, KTypedef | KVolatile, KVolatile
  | KConst, KConst | KRestrict, KRestrict | KFunc, KFunc | KFuncProto, KFuncProto
  | KVar, KVar | KDataSec, KDataSec | KFloat, KFloat | KDeclTag, KDeclTag
  | KTypeTag, KTypeTag | KEnum64, KEnum64 => true
  | _, _ => false
  end.

(** src/btf/header.rs:14-34 *)
Definition TYPE_HEADER_SIZE : N := 12.
Record header := {
  h_kind : kind; h_name_offset : N; h_vlen : N; h_kind_flag : bool; h_size_or_type : N }.

(** src/btf/header.rs:37-80, [Header::new] *)
Definition header_new (e : env) (fh : file_header) : M header :=
  tss <- lift (ok_or InvalidTypeSectionOffset (checked 32 (hdr_len fh + type_off fh))) ;;
  tse <- lift (ok_or InvalidTypeSectionOffset (checked 32 (tss + type_len fh))) ;;
  o <- get_offset ;;
  stop <- lift (add_usize (cfg e) o TYPE_HEADER_SIZE) ;;
  if tse <? stop then fail InvalidTypeSectionOffset else
  name_offset <- read_u32 e ;;
  info_flags <- read_u32 e ;;
  k <- lift (kind_new (N.shiftr (N.land info_flags 0x1F000000) 24)) ;;
  size_or_type <- read_u32 e ;;
  ret {| h_kind := k; h_name_offset := name_offset;
         h_vlen := N.land info_flags 0xFFFF;
         h_kind_flag := negb (N.land info_flags 0x80000000 =? 0);
         h_size_or_type := size_or_type |}.

(** src/btf/string.rs:14-76, [parse_string].  The loop reads one byte per round
    and leaves when it reaches the section end, so the bound is never the
    reason it stops (proved: Safety.v). *)
Definition parse_string (e : env) (fh : file_header) (string_offset : N) : M str :=
  sss <- lift (ok_or InvalidStringOffset (checked 32 (hdr_len fh + str_off fh))) ;;
  sse <- lift (ok_or InvalidStringOffset (checked 32 (sss + str_len fh))) ;;
  so <- lift (ok_or InvalidStringOffset (checked 32 (sss + string_offset))) ;;
  if sse <=? so then fail InvalidStringOffset else
  original_offset <- get_offset ;;
  set_offset so ;;;
  s <- while_M (sse - so + 1) (fun s : str =>
         o <- get_offset ;;
         o1 <- lift (add_usize (cfg e) o 1) ;;
         if sse <? o1 then fail InvalidString else
         c <- inspect_err (read_u8 e) (with_offset original_offset) ;;
         if bval c =? 0 then ret (inr s) else ret (inl (push_char s c))) [] ;;
  set_offset original_offset ;;;
  ret s.

(** The name of a record, member or parameter, e.g. src/btf/int.rs:60-68:
    [None] when the name offset is zero. *)
Definition parse_name_opt (e : env) (fh : file_header) (name_offset : N) : M (option str) :=
  if negb (name_offset =? 0) then
    s <- parse_string e fh name_offset ;; ret (Some s)
  else ret None.

(** src/btf/offset.rs:13-21 *)
Inductive offset := ByteOffset (o : N) | BitOffsetAndSize (o size : N).

(** ** Record payloads, one [Data] struct per source file *)

(** src/btf/int.rs:18-41 *)
Record int_data := { int_name : option str; int_size : N; int_signed : bool;
  int_char : bool; int_boolean : bool; int_offset : N; int_bits : N }.
(** src/btf/int.rs:45-47 *)
Definition int_data_size (c : build) (_ : header) : outcome error_kind N := Ok 4.
(** src/btf/int.rs:50-79 *)
Definition int_data_new (e : env) (fh : file_header) (h : header) : M int_data :=
  extra_info <- read_u32 e ;;
  let encoding := N.shiftr (N.land extra_info 0x0F000000) 24 in
  name <- parse_name_opt e fh (h_name_offset h) ;;
  ret {| int_name := name; int_size := h_size_or_type h;
         int_signed := negb (N.land encoding 1 =? 0);
         int_char := negb (N.land encoding 2 =? 0);
         int_boolean := negb (N.land encoding 4 =? 0);
         int_offset := N.shiftr (N.land extra_info 0x00FF0000) 16;
         int_bits := N.land extra_info 0x000000FF |}.

(** src/btf/ptr.rs:18-41, const.rs:18-41, volatile.rs:18-41, restrict.rs:18-41:
    four identical [Data] structs holding a type id; no extra data. *)
Record link_data := { link_tid : N }.
Definition no_extra_size (c : build) (_ : header) : outcome error_kind N := Ok 0.
Definition link_data_new (e : env) (fh : file_header) (h : header) : M link_data :=
  ret {| link_tid := h_size_or_type h |}.

(** src/btf/typedef.rs:18-55, func.rs:18-55 ([prototype_tid]), fwd.rs:18-55,
    type_tag.rs:18-55: four identical [Data] structs with a name and a type
    id; no extra data. *)
Record named_link_data := { nl_name : option str; nl_tid : N }.
Definition named_link_data_new (e : env) (fh : file_header) (h : header) : M named_link_data :=
  name <- parse_name_opt e fh (h_name_offset h) ;;
  ret {| nl_name := name; nl_tid := h_size_or_type h |}.

(** src/btf/float.rs:18-53 *)
Record float_data := { float_name : option str; float_size : N }.
Definition float_data_new (e : env) (fh : file_header) (h : header) : M float_data :=
  name <- parse_name_opt e fh (h_name_offset h) ;;
  ret {| float_name := name; float_size := h_size_or_type h |}.

(** src/btf/array.rs:18-56.  [Data::size] is [vlen * 12] although an array
    always has 12 extra bytes and its vlen is normally 0. *)
Record array_data := { element_tid : N; index_tid : N; element_count : N }.
Definition array_data_size (c : build) (h : header) : outcome error_kind N :=
  mul_usize c (h_vlen h) 12.
Definition array_data_new (e : env) (fh : file_header) (h : header) : M array_data :=
  et <- read_u32 e ;;
  it <- read_u32 e ;;
  ec <- read_u32 e ;;
  ret {| element_tid := et; index_tid := it; element_count := ec |}.

(** src/btf/struct_union.rs:18-84 *)
Record member := { m_name_offset : N; m_name : option str; m_tid : N; m_offset : offset }.
Record struct_data := { struct_name : option str; struct_size : N; member_list : list member }.
(** src/btf/struct_union.rs:88-90 *)
Definition struct_data_size (c : build) (h : header) : outcome error_kind N :=
  mul_usize c (h_vlen h) 12.
(** src/btf/struct_union.rs:111-134 *)
Definition decode_member_offset (kind_flag : bool) (raw : N) : outcome error_kind offset :=
  if kind_flag then
    let bit_offset := N.land raw 0xFFFFFF in
    let bit_size := N.land (N.shiftr raw 24) 0xFF in
    if (bit_size =? 0) && (bit_offset mod 8 =? 0) then Ok (ByteOffset (bit_offset / 8))
    else Ok (BitOffsetAndSize bit_offset bit_size)
  else if raw mod 8 =? 0 then Ok (ByteOffset (raw / 8))
  else Err InvalidOffset.
(** src/btf/struct_union.rs:100-142, one round of the member loop *)
Definition parse_member (e : env) (fh : file_header) (h : header) : M member :=
  name_offset <- read_u32 e ;;
  tid <- read_u32 e ;;
  raw_offset <- read_u32 e ;;
  name <- parse_name_opt e fh name_offset ;;
  off <- lift (decode_member_offset (h_kind_flag h) raw_offset) ;;
  ret {| m_name_offset := name_offset; m_name := name; m_tid := tid; m_offset := off |}.
(** src/btf/struct_union.rs:92-159 *)
Definition struct_data_new (e : env) (fh : file_header) (h : header) : M struct_data :=
  members <- repeat_M (N.to_nat (h_vlen h)) (parse_member e fh h) ;;
  name <- parse_name_opt e fh (h_name_offset h) ;;
  ret {| struct_name := name; struct_size := h_size_or_type h; member_list := members |}.

(** src/btf/enum.rs:18-58 and enum64.rs:18-58: the two files differ in the
    value width only. *)
Inductive integer_value := Signed (z : Z) | Unsigned (n : N).
Record named_value := { nv_name : str; nv_value : integer_value }.
Record enum_data := { enum_name : option str; enum_size : N;
  named_value_list : list named_value; enum_signed : bool }.
(** src/btf/enum.rs:62-64 (ENUM_VALUE_SIZE = 8) *)
Definition enum_data_size (c : build) (h : header) : outcome error_kind N :=
  mul_usize c (h_vlen h) 8.
(** src/btf/enum64.rs:62-64 (ENUM64_VALUE_SIZE = 12) *)
Definition enum64_data_size (c : build) (h : header) : outcome error_kind N :=
  mul_usize c (h_vlen h) 12.
(** src/btf/enum.rs:75-88, one round of the loop *)
Definition parse_named_value32 (e : env) (fh : file_header) (signed : bool) : M named_value :=
  name_offset <- read_u32 e ;;
  name <- parse_string e fh name_offset ;;
  if signed then v <- read_i32 e ;; ret {| nv_name := name; nv_value := Signed v |}
  else v <- read_u32 e ;; ret {| nv_name := name; nv_value := Unsigned v |}.
(** src/btf/enum64.rs:75-88, one round of the loop *)
Definition parse_named_value64 (e : env) (fh : file_header) (signed : bool) : M named_value :=
  name_offset <- read_u32 e ;;
  name <- parse_string e fh name_offset ;;
  if signed then v <- read_i64 e ;; ret {| nv_name := name; nv_value := Signed v |}
  else v <- read_u64 e ;; ret {| nv_name := name; nv_value := Unsigned v |}.
(** src/btf/enum.rs:66-106 *)
Definition enum_data_new (e : env) (fh : file_header) (h : header) : M enum_data :=
  let signed := h_kind_flag h in
  values <- repeat_M (N.to_nat (h_vlen h)) (parse_named_value32 e fh signed) ;;
  name <- parse_name_opt e fh (h_name_offset h) ;;
  ret {| enum_name := name; enum_size := h_size_or_type h;
         named_value_list := values; enum_signed := signed |}.
(** src/btf/enum64.rs:66-106 *)
Definition enum64_data_new (e : env) (fh : file_header) (h : header) : M enum_data :=
  let signed := h_kind_flag h in
  values <- repeat_M (N.to_nat (h_vlen h)) (parse_named_value64 e fh signed) ;;
  name <- parse_name_opt e fh (h_name_offset h) ;;
  ret {| enum_name := name; enum_size := h_size_or_type h;
         named_value_list := values; enum_signed := signed |}.

(** src/btf/func_proto.rs:18-100 *)
Record parameter := { p_name_offset : N; p_name : option str; p_tid : N }.
Record func_proto_data := { parameter_list : list parameter; return_tid : N }.
Definition func_proto_data_size (c : build) (h : header) : outcome error_kind N :=
  mul_usize c (h_vlen h) 8.
(** src/btf/func_proto.rs:78-93, one round of the loop *)
Definition parse_parameter (e : env) (fh : file_header) : M parameter :=
  name_offset <- read_u32 e ;;
  tid <- read_u32 e ;;
  name <- parse_name_opt e fh name_offset ;;
  ret {| p_name_offset := name_offset; p_name := name; p_tid := tid |}.
Definition func_proto_data_new (e : env) (fh : file_header) (h : header) : M func_proto_data :=
  ps <- repeat_M (N.to_nat (h_vlen h)) (parse_parameter e fh) ;;
  ret {| parameter_list := ps; return_tid := h_size_or_type h |}.

(** src/btf/var.rs:18-76 *)
Inductive linkage_type := LinkStatic | LinkGlobal.
Record var_data := { var_name : option str; var_tid : N; linkage : N;
  var_linkage_type : linkage_type }.
Definition var_data_size (c : build) (_ : header) : outcome error_kind N := Ok 4.
Definition var_data_new (e : env) (fh : file_header) (h : header) : M var_data :=
  l <- read_u32 e ;;
  name <- parse_name_opt e fh (h_name_offset h) ;;
  ret {| var_name := name; var_tid := h_size_or_type h; linkage := l;
         var_linkage_type := if l =? 0 then LinkStatic else LinkGlobal |}.

(** src/btf/data_sec.rs:18-90 *)
Record variable := { var_decl_id : N; v_offset : N; var_size : N }.
Record data_sec_data := { ds_name : option str; ds_size : N; variable_list : list variable }.
Definition data_sec_data_size (c : build) (h : header) : outcome error_kind N :=
  mul_usize c (h_vlen h) 12.
(** src/btf/data_sec.rs:64-72, one round of the loop *)
Definition parse_variable (e : env) : M variable :=
  i <- read_u32 e ;;
  o <- read_u32 e ;;
  s <- read_u32 e ;;
  ret {| var_decl_id := i; v_offset := o; var_size := s |}.
Definition data_sec_data_new (e : env) (fh : file_header) (h : header) : M data_sec_data :=
  vs <- repeat_M (N.to_nat (h_vlen h)) (parse_variable e) ;;
  name <- parse_name_opt e fh (h_name_offset h) ;;
  ret {| ds_name := name; ds_size := h_size_or_type h; variable_list := vs |}.

(** src/btf/decl_tag.rs:18-61 *)
Record decl_tag_data := { dt_name : option str; dt_tid : N; component_index : N }.
Definition decl_tag_data_size (c : build) (_ : header) : outcome error_kind N := Ok 4.
Definition decl_tag_data_new (e : env) (fh : file_header) (h : header) : M decl_tag_data :=
  ci <- read_u32 e ;;
  name <- parse_name_opt e fh (h_name_offset h) ;;
  ret {| dt_name := name; dt_tid := h_size_or_type h; component_index := ci |}.

(** src/btf/type_information.rs:24-86, [enum TypeVariant]; each variant is the
    struct generated by [define_type!] (define_type.rs:13-19): header + data. *)
Inductive type_variant :=
| TVoid
| TInt (h : header) (d : int_data)
| TTypedef (h : header) (d : named_link_data)
| TEnum (h : header) (d : enum_data)
| TPtr (h : header) (d : link_data)
| TConst (h : header) (d : link_data)
| TVolatile (h : header) (d : link_data)
| TArray (h : header) (d : array_data)
| TFuncProto (h : header) (d : func_proto_data)
| TStruct (h : header) (d : struct_data)
| TUnion (h : header) (d : struct_data)
| TFwd (h : header) (d : named_link_data)
| TVar (h : header) (d : var_data)
| TEnum64 (h : header) (d : enum_data)
| TFunc (h : header) (d : named_link_data)
| TFloat (h : header) (d : float_data)
| TRestrict (h : header) (d : link_data)
| TDataSec (h : header) (d : data_sec_data)
| TTypeTag (h : header) (d : named_link_data)
| TDeclTag (h : header) (d : decl_tag_data).

(** src/btf/define_type.rs:48-92, the [new] generated by [define_type!]. *)
Definition define_type_new {D} (expected : kind)
    (size : build -> header -> outcome error_kind N)
    (data_new : env -> file_header -> header -> M D)
    (e : env) (fh : file_header) (h : header) : M D :=
  if negb (kind_eqb (h_kind h) expected) then fail InvalidBTFKind else
  required <- lift (size (cfg e) h) ;;
  (if 0 <? required then
     tss <- lift (add_u32 (cfg e) (hdr_len fh) (type_off fh)) ;;
     tse <- lift (add_u32 (cfg e) tss (type_len fh)) ;;
     o <- get_offset ;;
     if o <? tss then fail InvalidTypeSectionOffset else
     stop <- lift (add_usize (cfg e) o required) ;;
     if tse <? stop then fail InvalidTypeSectionOffset else ret tt
   else ret tt) ;;;
  data_new e fh h.

(** src/btf/define_type.rs:103-115 (generate_constructor_dispatcher!) as
    instantiated at src/btf/type_information.rs:362-366, and the
    [define_type!] instances at the end of each type's file. *)
Definition parse_type (k : kind) (e : env) (fh : file_header) (h : header) : M type_variant :=
  match k with
  | KInt => d <- define_type_new KInt int_data_size int_data_new e fh h ;; ret (TInt h d)
  | KTypedef => d <- define_type_new KTypedef no_extra_size named_link_data_new e fh h ;; ret (TTypedef h d)
  | KEnum => d <- define_type_new KEnum enum_data_size enum_data_new e fh h ;; ret (TEnum h d)
  | KPtr => d <- define_type_new KPtr no_extra_size link_data_new e fh h ;; ret (TPtr h d)
  | KConst => d <- define_type_new KConst no_extra_size link_data_new e fh h ;; ret (TConst h d)
  | KVolatile => d <- define_type_new KVolatile no_extra_size link_data_new e fh h ;; ret (TVolatile h d)
  | KArray => d <- define_type_new KArray array_data_size array_data_new e fh h ;; ret (TArray h d)
  | KFuncProto => d <- define_type_new KFuncProto func_proto_data_size func_proto_data_new e fh h ;; ret (TFuncProto h d)
  | KStruct => d <- define_type_new KStruct struct_data_size struct_data_new e fh h ;; ret (TStruct h d)
  | KUnion => d <- define_type_new KUnion struct_data_size struct_data_new e fh h ;; ret (TUnion h d)
  | KFwd => d <- define_type_new KFwd no_extra_size named_link_data_new e fh h ;; ret (TFwd h d)
  | KVar => d <- define_type_new KVar var_data_size var_data_new e fh h ;; ret (TVar h d)
  | KEnum64 => d <- define_type_new KEnum64 enum64_data_size enum64_data_new e fh h ;; ret (TEnum64 h d)
  | KFunc => d <- define_type_new KFunc no_extra_size named_link_data_new e fh h ;; ret (TFunc h d)
  | KFloat => d <- define_type_new KFloat no_extra_size float_data_new e fh h ;; ret (TFloat h d)
  | KRestrict => d <- define_type_new KRestrict no_extra_size link_data_new e fh h ;; ret (TRestrict h d)
  | KDataSec => d <- define_type_new KDataSec data_sec_data_size data_sec_data_new e fh h ;; ret (TDataSec h d)
  | KTypeTag => d <- define_type_new KTypeTag no_extra_size named_link_data_new e fh h ;; ret (TTypeTag h d)
  | KDeclTag => d <- define_type_new KDeclTag decl_tag_data_size decl_tag_data_new e fh h ;; ret (TDeclTag h d)
  end.
