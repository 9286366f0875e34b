(** * LoadMessage: [TypeInformation::new] again, with the messages of its errors ([Error::message], src/btf/error.rs:62,
    84-87).  Model file.  Same control flow as Format.v and TypeInfo.v (LoadMessageFacts.v proves that forgetting the
    messages gives [load]). *)
From Coq Require Import List NArith Bool Strings.Byte Strings.String.
From Verif Require Export TypeInfo.
From Verif Require Import Message.
Import ListNotations.
Open Scope N_scope.

Inductive lmessage :=
| LReadable (k : error_kind)       (* the error the Readable returned, passed on unchanged by [?] *)
| LMagic (v : N)                   (* src/btf/file_header.rs:109 *)
| LTypesStart | LTypesEnd          (* src/btf/header.rs:43, 52; src/btf/type_information.rs:442, 452 *)
| LTypesOffset                     (* src/btf/header.rs:59; src/btf/define_type.rs:71, 78 *)
| LKind (v : N)                    (* src/btf/kind.rs:96 *)
| LWrongKind (got expected : kind) (* src/btf/define_type.rs:55 *)
| LStringsStart | LStringsEnd      (* src/btf/string.rs:24, 33 *)
| LStringOverflow                  (* src/btf/string.rs:42 *)
| LStringOffset (o : N)            (* src/btf/string.rs:46 *)
| LNotTerminated (o : N)           (* src/btf/string.rs:58 *)
| LUnaligned.                      (* src/btf/struct_union.rs:116 *)

(** [{:0wX}]: upper-case hexadecimal, at least [w] digits *)
Definition hex_digit (d : N) : byte := byte_of (if d <? 10 then 0x30 + d else 0x37 + d).
Fixpoint hex_digits (fuel : nat) (n : N) : str :=
  match fuel with
  | O => []
  | S fuel' => (if n <? 16 then [] else hex_digits fuel' (n / 16)) ++ [hex_digit (n mod 16)]
  end.
Definition hex (w : nat) (n : N) : str :=
  let ds := hex_digits (S (N.to_nat (N.log2 n))) n in repeat x30 (w - List.length ds) ++ ds.

(** The text; [None]: chosen by the Readable. *)
Definition lmessage_text (m : lmessage) : option str :=
  match m with
  | LReadable _ => None
  | LMagic v => Some (txt "Invalid magic number: 0x" ++ hex 4 v)
  | LTypesStart => Some (txt "Type section start offset overflow")
  | LTypesEnd => Some (txt "Type section end offset overflow")
  | LTypesOffset => Some (txt "Invalid type section offset")
  | LKind v => Some (txt "Invalid BTF kind value: 0x" ++ hex 4 v)
  | LWrongKind g x => Some (txt "Invalid type kind: " ++ kind_debug g ++ txt " (expected " ++ kind_debug x ++ txt ")")
  | LStringsStart => Some (txt "String section start offset overflow")
  | LStringsEnd => Some (txt "String section end offset overflow")
  | LStringOverflow => Some (txt "String offset overflow")
  | LStringOffset o => Some (txt "Invalid string offset 0x" ++ hex 8 o)
  | LNotTerminated o => Some (txt "String at offset 0x" ++ hex 8 o ++ txt " is not correctly null terminated")
  | LUnaligned => Some (txt "Unaligned bit offset for struct/union member with kind_flag=false")
  end.
(** The [ErrorKind] given next to each message. *)
Definition lmessage_kind (m : lmessage) : error_kind :=
  match m with
  | LReadable k => k
  | LMagic _ => InvalidMagic
  | LTypesStart | LTypesEnd | LTypesOffset => InvalidTypeSectionOffset
  | LKind _ | LWrongKind _ _ => InvalidBTFKind
  | LStringsStart | LStringsEnd | LStringOverflow | LStringOffset _ => InvalidStringOffset
  | LNotTerminated _ => InvalidString
  | LUnaligned => InvalidOffset
  end.

(** The monad of Reader.v with messages for errors *)
Definition LM (A : Type) := reader -> outcome lmessage A * reader.
Definition lret {A} (a : A) : LM A := fun r => (Ok a, r).
Definition lfail {A} (m : lmessage) : LM A := fun r => (Err m, r).
Definition llift {A} (o : outcome lmessage A) : LM A := fun r => (o, r).
Definition lbind {A B} (m : LM A) (k : A -> LM B) : LM B := fun r =>
  match m r with
  | (Ok a, r') => k a r'
  | (Err e, r') => (Err e, r')
  | (Panic p, r') => (Panic p, r')
  | (Diverge, r') => (Diverge, r')
  end.
Definition renamed {E A} (say : error_kind -> E) (o : outcome error_kind A) : outcome E A :=
  match o with Ok a => Ok a | Err k => Err (say k) | Panic p => Panic p | Diverge => Diverge end.
(** A part of Reader.v, whose only errors are those of the Readable *)
Definition from {A} (m : M A) : LM A := fun r => (renamed LReadable (fst (m r)), snd (m r)).
Definition linspect_err {A} (m : LM A) (h : reader -> reader) : LM A := fun r =>
  match m r with
  | (Err e, r') => (Err e, h r')
  | x => x
  end.
Definition while_LM {S A} (bound : N) (body : S -> LM (S + A)) (s0 : S) : LM A := fun r0 =>
  match loop_N (fun sr : S * reader =>
                  match body (fst sr) (snd sr) with
                  | (Ok (inl s), r) => inl (s, r)
                  | (Ok (inr a), r) => inr (Ok a, r)
                  | (Err k, r) => inr (Err k, r)
                  | (Panic p, r) => inr (Panic p, r)
                  | (Diverge, r) => inr (Diverge, r)
                  end) bound (s0, r0) with
  | inr x => x
  | inl (_, r) => (Diverge, r)
  end.
Fixpoint repeat_LM {A} (n : nat) (m : LM A) : LM (list A) :=
  match n with
  | O => lret []
  | S n' => lbind m (fun a => lbind (repeat_LM n' m) (fun l => lret (a :: l)))
  end.
Declare Scope lm_scope.
Notation "x <- m ;; k" := (lbind m (fun x => k)) (at level 61, m at next level, right associativity) : lm_scope.
Notation "m ;;; k" := (lbind m (fun _ => k)) (at level 61, right associativity) : lm_scope.
Local Close Scope m_scope.
Local Open Scope lm_scope.

(** src/btf/file_header.rs:96-114 *)
Definition detect_endianness_msg (e : env) : LM unit :=
  m <- from (read_u16 e) ;;
  if m =? BTF_LITTLE_ENDIAN_MAGIC then from (set_endianness Little)
  else if m =? BTF_BIG_ENDIAN_MAGIC then from (set_endianness Big)
  else lfail (LMagic m).
(** src/btf/file_header.rs:45-59 *)
Definition file_header_msg (e : env) : LM file_header :=
  from (set_offset 0) ;;;
  detect_endianness_msg e ;;;
  v <- from (read_u8 e) ;;
  f <- from (read_u8 e) ;;
  hl <- from (read_u32 e) ;;
  toff <- from (read_u32 e) ;;
  tlen <- from (read_u32 e) ;;
  soff <- from (read_u32 e) ;;
  slen <- from (read_u32 e) ;;
  lret {| version := bval v; flags := bval f; hdr_len := hl; type_off := toff;
          type_len := tlen; str_off := soff; str_len := slen |}.

(** src/btf/kind.rs:72-101; the table of [kind_new] *)
Definition kind_msg (value : N) : outcome lmessage kind := renamed (fun _ => LKind value) (kind_new value).
(** src/btf/header.rs:37-80 *)
Definition header_msg (e : env) (fh : file_header) : LM header :=
  tss <- llift (ok_or LTypesStart (checked 32 (hdr_len fh + type_off fh))) ;;
  tse <- llift (ok_or LTypesEnd (checked 32 (tss + type_len fh))) ;;
  o <- from get_offset ;;
  stop <- llift (add_usize (cfg e) o TYPE_HEADER_SIZE) ;;
  if tse <? stop then lfail LTypesOffset else
  name_offset <- from (read_u32 e) ;;
  info_flags <- from (read_u32 e) ;;
  k <- llift (kind_msg (N.shiftr (N.land info_flags 0x1F000000) 24)) ;;
  size_or_type <- from (read_u32 e) ;;
  lret {| h_kind := k; h_name_offset := name_offset;
          h_vlen := N.land info_flags 0xFFFF;
          h_kind_flag := negb (N.land info_flags 0x80000000 =? 0);
          h_size_or_type := size_or_type |}.

(** src/btf/string.rs:14-76; the two offsets in messages are that of line 39, relative to the file: it shadows the argument *)
Definition parse_string_msg (e : env) (fh : file_header) (string_offset : N) : LM str :=
  sss <- llift (ok_or LStringsStart (checked 32 (hdr_len fh + str_off fh))) ;;
  sse <- llift (ok_or LStringsEnd (checked 32 (sss + str_len fh))) ;;
  so <- llift (ok_or LStringOverflow (checked 32 (sss + string_offset))) ;;
  if sse <=? so then lfail (LStringOffset so) else
  original_offset <- from get_offset ;;
  from (set_offset so) ;;;
  s <- while_LM (sse - so + 1) (fun s : str =>
         o <- from get_offset ;;
         o1 <- llift (add_usize (cfg e) o 1) ;;
         if sse <? o1 then lfail (LNotTerminated so) else
         c <- linspect_err (from (read_u8 e)) (with_offset original_offset) ;;
         if bval c =? 0 then lret (inr s) else lret (inl (push_char s c))) [] ;;
  from (set_offset original_offset) ;;;
  lret s.
(** e.g. src/btf/int.rs:60-68 *)
Definition parse_name_msg_opt (e : env) (fh : file_header) (name_offset : N) : LM (option str) :=
  if negb (name_offset =? 0) then
    s <- parse_string_msg e fh name_offset ;; lret (Some s)
  else lret None.

(** ** Record payloads *)
(** src/btf/int.rs:50-79 *)
Definition int_data_msg (e : env) (fh : file_header) (h : header) : LM int_data :=
  extra_info <- from (read_u32 e) ;;
  let encoding := N.shiftr (N.land extra_info 0x0F000000) 24 in
  name <- parse_name_msg_opt e fh (h_name_offset h) ;;
  lret {| int_name := name; int_size := h_size_or_type h;
          int_signed := negb (N.land encoding 1 =? 0);
          int_char := negb (N.land encoding 2 =? 0);
          int_boolean := negb (N.land encoding 4 =? 0);
          int_offset := N.shiftr (N.land extra_info 0x00FF0000) 16;
          int_bits := N.land extra_info 0x000000FF |}.
(** src/btf/ptr.rs:18-41, const.rs, volatile.rs, restrict.rs *)
Definition link_data_msg (e : env) (fh : file_header) (h : header) : LM link_data :=
  lret {| link_tid := h_size_or_type h |}.
(** src/btf/typedef.rs:18-55, func.rs, fwd.rs, type_tag.rs *)
Definition named_link_data_msg (e : env) (fh : file_header) (h : header) : LM named_link_data :=
  name <- parse_name_msg_opt e fh (h_name_offset h) ;;
  lret {| nl_name := name; nl_tid := h_size_or_type h |}.
(** src/btf/float.rs:18-53 *)
Definition float_data_msg (e : env) (fh : file_header) (h : header) : LM float_data :=
  name <- parse_name_msg_opt e fh (h_name_offset h) ;;
  lret {| float_name := name; float_size := h_size_or_type h |}.
(** src/btf/array.rs:18-56 *)
Definition array_data_msg (e : env) (fh : file_header) (h : header) : LM array_data :=
  et <- from (read_u32 e) ;;
  it <- from (read_u32 e) ;;
  ec <- from (read_u32 e) ;;
  lret {| element_tid := et; index_tid := it; element_count := ec |}.
(** src/btf/struct_union.rs:100-142 *)
Definition parse_member_msg (e : env) (fh : file_header) (h : header) : LM member :=
  name_offset <- from (read_u32 e) ;;
  tid <- from (read_u32 e) ;;
  raw_offset <- from (read_u32 e) ;;
  name <- parse_name_msg_opt e fh name_offset ;;
  off <- llift (renamed (fun _ => LUnaligned) (decode_member_offset (h_kind_flag h) raw_offset)) ;;
  lret {| m_name_offset := name_offset; m_name := name; m_tid := tid; m_offset := off |}.
(** src/btf/struct_union.rs:92-159 *)
Definition struct_data_msg (e : env) (fh : file_header) (h : header) : LM struct_data :=
  members <- repeat_LM (N.to_nat (h_vlen h)) (parse_member_msg e fh h) ;;
  name <- parse_name_msg_opt e fh (h_name_offset h) ;;
  lret {| struct_name := name; struct_size := h_size_or_type h; member_list := members |}.
(** src/btf/enum.rs:75-88 *)
Definition parse_named_value32_msg (e : env) (fh : file_header) (signed : bool) : LM named_value :=
  name_offset <- from (read_u32 e) ;;
  name <- parse_string_msg e fh name_offset ;;
  if signed then v <- from (read_i32 e) ;; lret {| nv_name := name; nv_value := Signed v |}
  else v <- from (read_u32 e) ;; lret {| nv_name := name; nv_value := Unsigned v |}.
(** src/btf/enum64.rs:75-88 *)
Definition parse_named_value64_msg (e : env) (fh : file_header) (signed : bool) : LM named_value :=
  name_offset <- from (read_u32 e) ;;
  name <- parse_string_msg e fh name_offset ;;
  if signed then v <- from (read_i64 e) ;; lret {| nv_name := name; nv_value := Signed v |}
  else v <- from (read_u64 e) ;; lret {| nv_name := name; nv_value := Unsigned v |}.
(** src/btf/enum.rs:66-106 *)
Definition enum_data_msg (e : env) (fh : file_header) (h : header) : LM enum_data :=
  let signed := h_kind_flag h in
  values <- repeat_LM (N.to_nat (h_vlen h)) (parse_named_value32_msg e fh signed) ;;
  name <- parse_name_msg_opt e fh (h_name_offset h) ;;
  lret {| enum_name := name; enum_size := h_size_or_type h;
          named_value_list := values; enum_signed := signed |}.
(** src/btf/enum64.rs:66-106 *)
Definition enum64_data_msg (e : env) (fh : file_header) (h : header) : LM enum_data :=
  let signed := h_kind_flag h in
  values <- repeat_LM (N.to_nat (h_vlen h)) (parse_named_value64_msg e fh signed) ;;
  name <- parse_name_msg_opt e fh (h_name_offset h) ;;
  lret {| enum_name := name; enum_size := h_size_or_type h;
          named_value_list := values; enum_signed := signed |}.
(** src/btf/func_proto.rs:78-93 *)
Definition parse_parameter_msg (e : env) (fh : file_header) : LM parameter :=
  name_offset <- from (read_u32 e) ;;
  tid <- from (read_u32 e) ;;
  name <- parse_name_msg_opt e fh name_offset ;;
  lret {| p_name_offset := name_offset; p_name := name; p_tid := tid |}.
Definition func_proto_data_msg (e : env) (fh : file_header) (h : header) : LM func_proto_data :=
  ps <- repeat_LM (N.to_nat (h_vlen h)) (parse_parameter_msg e fh) ;;
  lret {| parameter_list := ps; return_tid := h_size_or_type h |}.
(** src/btf/var.rs:18-76 *)
Definition var_data_msg (e : env) (fh : file_header) (h : header) : LM var_data :=
  l <- from (read_u32 e) ;;
  name <- parse_name_msg_opt e fh (h_name_offset h) ;;
  lret {| var_name := name; var_tid := h_size_or_type h; linkage := l;
          var_linkage_type := if l =? 0 then LinkStatic else LinkGlobal |}.
(** src/btf/data_sec.rs:18-90 *)
Definition data_sec_data_msg (e : env) (fh : file_header) (h : header) : LM data_sec_data :=
  vs <- repeat_LM (N.to_nat (h_vlen h)) (from (parse_variable e)) ;;
  name <- parse_name_msg_opt e fh (h_name_offset h) ;;
  lret {| ds_name := name; ds_size := h_size_or_type h; variable_list := vs |}.
(** src/btf/decl_tag.rs:18-61 *)
Definition decl_tag_data_msg (e : env) (fh : file_header) (h : header) : LM decl_tag_data :=
  ci <- from (read_u32 e) ;;
  name <- parse_name_msg_opt e fh (h_name_offset h) ;;
  lret {| dt_name := name; dt_tid := h_size_or_type h; component_index := ci |}.

(** src/btf/define_type.rs:48-92.  [size] returns no error. *)
Definition define_type_msg {D} (expected : kind)
    (size : build -> header -> outcome error_kind N)
    (data_new : env -> file_header -> header -> LM D)
    (e : env) (fh : file_header) (h : header) : LM D :=
  if negb (kind_eqb (h_kind h) expected) then lfail (LWrongKind (h_kind h) expected) else
  required <- from (lift (size (cfg e) h)) ;;
  (if 0 <? required then
     tss <- llift (add_u32 (cfg e) (hdr_len fh) (type_off fh)) ;;
     tse <- llift (add_u32 (cfg e) tss (type_len fh)) ;;
     o <- from get_offset ;;
     if o <? tss then lfail LTypesOffset else
     stop <- llift (add_usize (cfg e) o required) ;;
     if tse <? stop then lfail LTypesOffset else lret tt
   else lret tt) ;;;
  data_new e fh h.
(** src/btf/define_type.rs:103-115 and src/btf/type_information.rs:362-366 *)
Definition parse_type_msg (k : kind) (e : env) (fh : file_header) (h : header) : LM type_variant :=
  match k with
  | KInt => d <- define_type_msg KInt int_data_size int_data_msg e fh h ;; lret (TInt h d)
  | KTypedef => d <- define_type_msg KTypedef no_extra_size named_link_data_msg e fh h ;; lret (TTypedef h d)
  | KEnum => d <- define_type_msg KEnum enum_data_size enum_data_msg e fh h ;; lret (TEnum h d)
  | KPtr => d <- define_type_msg KPtr no_extra_size link_data_msg e fh h ;; lret (TPtr h d)
  | KConst => d <- define_type_msg KConst no_extra_size link_data_msg e fh h ;; lret (TConst h d)
  | KVolatile => d <- define_type_msg KVolatile no_extra_size link_data_msg e fh h ;; lret (TVolatile h d)
  | KArray => d <- define_type_msg KArray array_data_size array_data_msg e fh h ;; lret (TArray h d)
  | KFuncProto => d <- define_type_msg KFuncProto func_proto_data_size func_proto_data_msg e fh h ;; lret (TFuncProto h d)
  | KStruct => d <- define_type_msg KStruct struct_data_size struct_data_msg e fh h ;; lret (TStruct h d)
  | KUnion => d <- define_type_msg KUnion struct_data_size struct_data_msg e fh h ;; lret (TUnion h d)
  | KFwd => d <- define_type_msg KFwd no_extra_size named_link_data_msg e fh h ;; lret (TFwd h d)
  | KVar => d <- define_type_msg KVar var_data_size var_data_msg e fh h ;; lret (TVar h d)
  | KEnum64 => d <- define_type_msg KEnum64 enum64_data_size enum64_data_msg e fh h ;; lret (TEnum64 h d)
  | KFunc => d <- define_type_msg KFunc no_extra_size named_link_data_msg e fh h ;; lret (TFunc h d)
  | KFloat => d <- define_type_msg KFloat no_extra_size float_data_msg e fh h ;; lret (TFloat h d)
  | KRestrict => d <- define_type_msg KRestrict no_extra_size link_data_msg e fh h ;; lret (TRestrict h d)
  | KDataSec => d <- define_type_msg KDataSec data_sec_data_size data_sec_data_msg e fh h ;; lret (TDataSec h d)
  | KTypeTag => d <- define_type_msg KTypeTag no_extra_size named_link_data_msg e fh h ;; lret (TTypeTag h d)
  | KDeclTag => d <- define_type_msg KDeclTag decl_tag_data_size decl_tag_data_msg e fh h ;; lret (TDeclTag h d)
  end.

(** src/btf/type_information.rs:466-479 *)
Definition load_types_msg (e : env) (fh : file_header) (type_section_end : N) : LM type_information :=
  while_LM (type_len fh + 1) (fun st =>
    o <- from get_offset ;;
    if o <? type_section_end then
      h <- header_msg e fh ;;
      t <- parse_type_msg (h_kind h) e fh h ;;
      let tid := tid_generator st in
      next <- llift (add_u32 (cfg e) tid 1) ;;
      lret (inl {| tid_generator := next; maps := add_type (maps st) tid t |})
    else lret (inr (maps st))) load_init.
(** src/btf/type_information.rs:434-488 *)
Definition load_msg (e : env) : LM type_information :=
  fh <- file_header_msg e ;;
  tss <- llift (ok_or LTypesStart (checked 32 (hdr_len fh + type_off fh))) ;;
  tse <- llift (ok_or LTypesEnd (checked (usize_bits (cfg e)) (tss + type_len fh))) ;;
  from (set_offset tss) ;;;
  load_types_msg e fh tse.
Definition type_information_new_msg (e : env) : outcome lmessage type_information := fst (load_msg e reader_new).
