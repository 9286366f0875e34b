(** * TypeInfo: [TypeInformation] - loading, lookups, sizes, paths, offsets,
    cache.  Model file: definitions only.  All line numbers refer to
    src/btf/type_information.rs unless another file is named. *)
From Verif Require Export Format.
From Coq Require Strings.String.
Import Strings.String.StringSyntax.
Local Open Scope string_scope.

Definition void_str : str := String.list_byte_of_string "void".
Definition list_head_str : str := String.list_byte_of_string "list_head".

(** 88-113, [get_type_enum_value_name] *)
Definition type_name (t : type_variant) : option str :=
  match t with
  | TVoid => Some void_str
  | TInt _ d => int_name d
  | TTypedef _ d => nl_name d
  | TEnum _ d => enum_name d
  | TStruct _ d => struct_name d
  | TUnion _ d => struct_name d
  | TFwd _ d => nl_name d
  | TVar _ d => var_name d
  | TEnum64 _ d => enum_name d
  | TFunc _ d => nl_name d
  | TFloat _ d => float_name d
  | TDataSec _ d => ds_name d
  | TTypeTag _ d => nl_name d
  | TDeclTag _ d => dt_name d
  | TPtr _ _ | TConst _ _ | TVolatile _ _ | TArray _ _ | TFuncProto _ _ | TRestrict _ _ => None
  end.

(** 346-360, [struct TypeInformation]; the offset cache is modelled apart
    (Cache.v). *)
Record type_information := {
  id_to_type_map : list (N * type_variant);
  name_to_id_map : list (str * N);
  id_to_name_map : list (N * str) }.

(** 460-464 *)
Record load_state := { tid_generator : N; maps : type_information }.
Definition load_init : load_state :=
  {| tid_generator := 1;
     maps := {| id_to_type_map := []; name_to_id_map := []; id_to_name_map := [] |} |}.

(** 473-478 *)
Definition add_type (m : type_information) (tid : N) (t : type_variant) : type_information :=
  match type_name t with
  | Some name =>
      {| id_to_type_map := bt_insert N.compare tid t (id_to_type_map m);
         name_to_id_map := bt_insert str_compare name tid (name_to_id_map m);
         id_to_name_map := bt_insert N.compare tid name (id_to_name_map m) |}
  | None =>
      {| id_to_type_map := bt_insert N.compare tid t (id_to_type_map m);
         name_to_id_map := name_to_id_map m;
         id_to_name_map := id_to_name_map m |}
  end.

(** 466-479, the [while] loop.  Every round consumes at least the 12 bytes of a
    type header, so (on 64-bit targets) the bound is never reached; proved in
    Safety.v. *)
Definition load_types (e : env) (fh : file_header) (type_section_end : N) : M type_information :=
  while_M (type_len fh + 1) (fun st =>
    o <- get_offset ;;
    if o <? type_section_end then
      h <- header_new e fh ;;
      t <- parse_type (h_kind h) e fh h ;;
      let tid := tid_generator st in
      next <- lift (add_u32 (cfg e) tid 1) ;;
      ret (inl {| tid_generator := next; maps := add_type (maps st) tid t |})
    else ret (inr (maps st))) load_init.

(** 434-488, [TypeInformation::new] on a fresh [Reader] (436) *)
Definition load (e : env) : M type_information :=
  fh <- file_header_new e ;;
  tss <- lift (ok_or InvalidTypeSectionOffset (checked 32 (hdr_len fh + type_off fh))) ;;
  tse <- lift (ok_or InvalidTypeSectionOffset
                 (checked (usize_bits (cfg e)) (tss + type_len fh))) ;;
  set_offset tss ;;;
  load_types e fh tse.
Definition type_information_new (e : env) : outcome error_kind type_information :=
  fst (load e reader_new).

(** 490-493, [get] *)
Definition get (ti : type_information) : list (N * type_variant) := id_to_type_map ti.
(** 495-502, [id_of] *)
Definition id_of (ti : type_information) (name : str) : option N :=
  if str_eqb name void_str then Some 0 else bt_get str_compare name (name_to_id_map ti).
(** 504-511, [from_id] *)
Definition from_id (ti : type_information) (tid : N) : option type_variant :=
  if tid =? 0 then Some TVoid else bt_get N.compare tid (id_to_type_map ti).
(** 513-520, [name_of] *)
Definition name_of (ti : type_information) (tid : N) : option str :=
  if tid =? 0 then Some void_str else bt_get N.compare tid (id_to_name_map ti).

(** 522-544, [pointee_tid].  The recursion follows one link per call; with
    more calls than there are types it has entered a cycle and never returns
    (proved: Chains.v, Sizes.v), so running out of [fuel] is [Diverge]. *)
Fixpoint pointee_tid_fuel (fuel : nat) (ti : type_information) (tid : N) : outcome error_kind N :=
  match fuel with
  | O => Diverge
  | S fuel' =>
      match from_id ti tid with
      | None => Err InvalidTypeID
      | Some (TTypedef _ d) => pointee_tid_fuel fuel' ti (nl_tid d)
      | Some (TConst _ d) => pointee_tid_fuel fuel' ti (link_tid d)
      | Some (TVolatile _ d) => pointee_tid_fuel fuel' ti (link_tid d)
      | Some (TRestrict _ d) => pointee_tid_fuel fuel' ti (link_tid d)
      | Some (TPtr _ d) => Ok (link_tid d)
      | Some _ => Err InvalidTypeID
      end
  end.
(** One call per type, plus one for an id outside the table. *)
Definition chain_fuel (ti : type_information) : nat := S (length (id_to_type_map ti)).
Definition pointee_tid (ti : type_information) (tid : N) : outcome error_kind N :=
  pointee_tid_fuel (chain_fuel ti) ti tid.

(** 554-574, the pointer case of [size_of] *)
Definition pointer_size (ti : type_information) : outcome error_kind N :=
  match id_of ti list_head_str with
  | None => Err InvalidTypeID
  | Some lh =>
      match from_id ti lh with
      | None => Err InvalidTypeID
      | Some (TStruct _ d) => Ok (struct_size d / 2)
      | Some _ => Err InvalidTypeID
      end
  end.

(** 546-604, [size_of]; [element_size * element_count] (581) is a plain usize
    multiplication.  Fuel as for [pointee_tid_fuel]. *)
Fixpoint size_of_fuel (fuel : nat) (c : build) (ti : type_information) (tid : N)
  : outcome error_kind N :=
  match fuel with
  | O => Diverge
  | S fuel' =>
      match from_id ti tid with
      | None => Err InvalidTypeID
      | Some t =>
          match t with
          | TPtr _ _ => pointer_size ti
          | TArray _ d =>
              obind (size_of_fuel fuel' c ti (element_tid d))
                    (fun element_size => mul_usize c element_size (element_count d))
          | TFloat _ d => Ok (float_size d)
          | TInt _ d => Ok (int_size d)
          | TEnum _ d => Ok (enum_size d)
          | TEnum64 _ d => Ok (enum_size d)
          | TStruct _ d => Ok (struct_size d)
          | TUnion _ d => Ok (struct_size d)
          | TDataSec _ d => Ok (ds_size d)
          | TVar _ d => size_of_fuel fuel' c ti (var_tid d)
          | TTypedef _ d => size_of_fuel fuel' c ti (nl_tid d)
          | TConst _ d => size_of_fuel fuel' c ti (link_tid d)
          | TVolatile _ d => size_of_fuel fuel' c ti (link_tid d)
          | TRestrict _ d => size_of_fuel fuel' c ti (link_tid d)
          | TTypeTag _ d => size_of_fuel fuel' c ti (nl_tid d)
          | _ => Err NotSized
          end
      end
  end.
Definition size_of (c : build) (ti : type_information) (tid : N) : outcome error_kind N :=
  size_of_fuel (chain_fuel ti) c ti tid.

(** ** Offsets: src/btf/offset.rs *)

(** src/btf/offset.rs:24-43, [Offset + u32] *)
Definition offset_add_u32 (o : offset) (rhs : N) : outcome error_kind offset :=
  match o with
  | ByteOffset b => obind (ok_or InvalidOffset (checked 32 (b + rhs))) (fun v => Ok (ByteOffset v))
  | BitOffsetAndSize _ _ => Err UnexpectedBitfield
  end.
(** src/btf/offset.rs:46-86, [Offset + Offset] *)
Definition offset_add (lhs rhs : offset) : outcome error_kind offset :=
  match lhs, rhs with
  | ByteOffset a, ByteOffset b =>
      obind (ok_or InvalidOffset (checked 32 (a + b))) (fun v => Ok (ByteOffset v))
  | ByteOffset a, BitOffsetAndSize b s =>
      obind (ok_or InvalidOffset (checked 32 (a * 8))) (fun a8 =>
      obind (ok_or InvalidOffset (checked 32 (a8 + b))) (fun v => Ok (BitOffsetAndSize v s)))
  | BitOffsetAndSize _ _, _ => Err UnexpectedBitfield
  end.

(** ** The type path parser *)

(** 115-123, [TypePathComponent] *)
Inductive component := Index (i : N) | Name (n : str).
(** 125-148, [TypePathParserState] *)
Inductive pstate := PStart | PInsideName | PInsideIndex | PAfterIndex | PExpectingName | PError | PDone.
(** 150-156, [TypePathComponentIter], without the path itself *)
Record piter := { position : nat; pst : pstate }.
(** 159-165 *)
Definition piter_new : piter := {| position := 0; pst := PStart |}.

(** [char::is_alphabetic], [char::is_numeric], [char::is_alphanumeric]
    restricted to the characters U+0000..U+00FF that [u8 as char] yields. *)
Definition in_range (lo hi n : N) : bool := (lo <=? n) && (n <=? hi).
Definition is_alphabetic (b : byte) : bool :=
  let n := bval b in
  in_range 0x41 0x5A n || in_range 0x61 0x7A n || (n =? 0xAA) || (n =? 0xB5) || (n =? 0xBA)
  || in_range 0xC0 0xD6 n || in_range 0xD8 0xF6 n || in_range 0xF8 0xFF n.
Definition is_numeric (b : byte) : bool :=
  let n := bval b in
  in_range 0x30 0x39 n || (n =? 0xB2) || (n =? 0xB3) || (n =? 0xB9)
  || in_range 0xBC 0xBE n.
Definition is_alphanumeric (b : byte) : bool := is_alphabetic b || is_numeric b.
Definition is_char (c : byte) (b : byte) : bool := bval b =? bval c.
Definition is_lbracket := is_char x5b.
Definition is_rbracket := is_char x5d.
Definition is_dot := is_char x2e.
Definition is_underscore := is_char x5f.

(** [str::is_char_boundary] and [&path[start..stop]] *)
Definition is_char_boundary (path : str) (i : nat) : bool :=
  match nth_error path i with
  | Some b => (bval b <? 0x80) || (0xC0 <=? bval b)
  | None => Nat.eqb i (length path)
  end.
Definition str_slice {E} (path : str) (start stop : nat) : outcome E str :=
  if (Nat.leb start stop && is_char_boundary path start && is_char_boundary path stop)%bool
  then Ok (firstn (stop - start) (skipn start path))
  else Panic SliceNotOnCharBoundary.

(** [str::parse::<usize>] on a string that does not start with a sign *)
Definition is_digit (b : byte) : bool := in_range 0x30 0x39 (bval b).
Definition digits_value (s : str) : N :=
  fold_left (fun acc b => 10 * acc + (bval b - 0x30)) s 0.
Definition parse_usize (c : build) (s : str) : option N :=
  if (negb (Nat.eqb (length s) 0) && forallb is_digit s)%bool
  then checked (usize_bits c) (digits_value s) else None.

(** An item of the iterator: [Ok None] is Rust's [None], [Ok (Some x)] is
    [Some(Ok(x))] and [Err k] is [Some(Err(k))]. *)
Definition pitem := outcome error_kind (option component).

(** 257-270, the loop of [parse_name]: where it stops, and whether on a bad
    character *)
Fixpoint name_scan (l : str) (pos : nat) : nat * bool :=
  match l with
  | [] => (pos, true)
  | c :: l' =>
      if is_alphanumeric c || is_underscore c then name_scan l' (S pos)
      else if is_lbracket c || is_dot c then (pos, true)
      else (pos, false)
  end.
(** 253-289, [parse_name] *)
Definition parse_name (path : str) (it : piter) : pitem * piter :=
  let start := position it in
  match name_scan (skipn start path) start with
  | (pos, false) => (Err InvalidTypePath, {| position := pos; pst := PError |})
  | (pos, true) =>
      match str_slice path start pos with
      | Ok name =>
          let it' :=
            match nth_error path pos with
            | None => {| position := pos; pst := PDone |}
            | Some c =>
                if is_lbracket c then {| position := S pos; pst := PInsideIndex |}
                else if is_dot c then {| position := S pos; pst := PExpectingName |}
                else {| position := pos; pst := pst it |}
            end in
          (Ok (Some (Name name)), it')
      | Err k => (Err k, it)
      | Panic p => (Panic p, it)
      | Diverge => (Diverge, it)
      end
  end.

(** 295-308, the loop of [parse_index] *)
Fixpoint index_scan (l : str) (pos : nat) : nat * bool :=
  match l with
  | [] => (pos, true)
  | c :: l' =>
      if is_numeric c then index_scan l' (S pos)
      else if is_rbracket c then (pos, true)
      else (pos, false)
  end.
(** 291-343, [parse_index] *)
Definition parse_index (c : build) (path : str) (it : piter) : pitem * piter :=
  let start := position it in
  match index_scan (skipn start path) start with
  | (pos, false) => (Err InvalidTypePath, {| position := pos; pst := PError |})
  | (pos, true) =>
      let at_bracket := match nth_error path pos with Some b => is_rbracket b | None => false end in
      if negb at_bracket then (Err InvalidTypePath, {| position := pos; pst := PError |})
      else match str_slice path start pos with
           | Ok s =>
               if Nat.eqb (length s) 0 then (Err InvalidTypePath, {| position := pos; pst := PError |})
               else match parse_usize c s with
                    | None => (Err InvalidTypePath, {| position := pos; pst := PError |})
                    | Some i => (Ok (Some (Index i)), {| position := S pos; pst := PAfterIndex |})
                    end
           | Err k => (Err k, it)
           | Panic p => (Panic p, it)
           | Diverge => (Diverge, it)
           end
  end.

(** 171-249, [next].  [bytes[self.position]] is guarded by the length test at
    179.  The only self call (216) is made in state [PExpectingName], from
    which none follows; hence fuel 2 in [next]. *)
Fixpoint next_fuel (fuel : nat) (c : build) (path : str) (it : piter) : pitem * piter :=
  match fuel with
  | O => (Diverge, it)
  | S fuel' =>
      match pst it with
      | PDone | PError => (Ok None, it)
      | _ =>
          match nth_error path (position it) with
          | None => (Ok None, {| position := position it; pst := PDone |})
          | Some b =>
              match pst it with
              | PStart =>
                  if is_lbracket b then
                    parse_index c path {| position := S (position it); pst := PInsideIndex |}
                  else if is_alphabetic b || is_underscore b then
                    parse_name path {| position := position it; pst := PInsideName |}
                  else (Err InvalidTypePath, {| position := position it; pst := PError |})
              | PInsideName => parse_name path it
              | PInsideIndex => parse_index c path it
              | PAfterIndex =>
                  if is_lbracket b then
                    parse_index c path {| position := S (position it); pst := PInsideIndex |}
                  else if is_dot b then
                    next_fuel fuel' c path {| position := S (position it); pst := PExpectingName |}
                  else (Err InvalidTypePath, {| position := position it; pst := PError |})
              | PExpectingName =>
                  if is_alphabetic b || is_underscore b then
                    parse_name path {| position := position it; pst := PInsideName |}
                  else (Err InvalidTypePath, {| position := position it; pst := PError |})
              | PDone | PError => (Ok None, it)
              end
          end
      end
  end.
Definition next (c : build) (path : str) (it : piter) : pitem * piter := next_fuel 2 c path it.

(** ** offset_of *)

(** 368-387, [OffsetError], without payloads *)
Inductive offset_error :=
| OEInvalidTypeId | OEVoidDereference | OEIndexOutOfBounds | OEArrayOffsetOverflow
| OEPtrNotIndexable | OETypeNotIndexable | OENotStructOrUnion | OEMemberNotFound
| OEBtf (k : error_kind).
(** 395-430, [From<OffsetError> for BTFError] *)
Definition offset_error_kind (e : offset_error) : error_kind :=
  match e with
  | OEInvalidTypeId => InvalidTypeID
  | OEBtf k => k
  | _ => InvalidTypePath
  end.
(** [?] at a different error type: 389-393 *)
Definition btf_err {A} (o : outcome error_kind A) : outcome offset_error A :=
  match o with
  | Ok a => Ok a
  | Err k => Err (OEBtf k)
  | Panic p => Panic p
  | Diverge => Diverge
  end.

(** 661-682, resolving indirections; returns the final id and type.  Fuel as
    for [pointee_tid_fuel]. *)
Fixpoint resolve_fuel (fuel : nat) (ti : type_information) (tid : N)
  : outcome offset_error (N * type_variant) :=
  match fuel with
  | O => Diverge
  | S fuel' =>
      match from_id ti tid with
      | None => Err OEInvalidTypeId
      | Some (TFwd _ d) => resolve_fuel fuel' ti (nl_tid d)
      | Some (TTypedef _ d) => resolve_fuel fuel' ti (nl_tid d)
      | Some (TConst _ d) => resolve_fuel fuel' ti (link_tid d)
      | Some (TVolatile _ d) => resolve_fuel fuel' ti (link_tid d)
      | Some (TRestrict _ d) => resolve_fuel fuel' ti (link_tid d)
      | Some t => Ok (tid, t)
      end
  end.
Definition resolve (ti : type_information) (tid : N) := resolve_fuel (chain_fuel ti) ti tid.

(** 703-706: [(index as u64).checked_mul(size as u64)] then [u32::try_from] *)
Definition index_size (index size : N) : option N :=
  match checked 64 (index * size) with
  | Some v => checked 32 v
  | None => None
  end.

(** 692-709, an index component on an array: new offset *)
Definition array_step (c : build) (ti : type_information) (d : array_data) (off : offset) (i : N)
  : outcome offset_error offset :=
  if element_count d <=? i then Err OEIndexOutOfBounds
  else
    obind (btf_err (size_of c ti (element_tid d))) (fun size =>
    obind (ok_or OEArrayOffsetOverflow (index_size i size)) (fun isz =>
    btf_err (offset_add_u32 off isz))).

Definition is_anonymous (m : member) : bool :=
  match m_name m with None => true | Some _ => false end.
Definition has_name (name : str) (m : member) : bool :=
  match m_name m with Some n => str_eqb n name | None => false end.

(** 730-743, probing the anonymous members in order: [Some] result to return,
    or [None] to go on with the named members.  [probe] is the recursive call
    (733-737).  Note [member.offset().add(offset)?] (734): an error here is
    returned, not skipped. *)
Fixpoint probe_anonymous (probe : offset -> N -> outcome offset_error (N * offset))
    (off : offset) (ms : list member) : outcome offset_error (option (N * offset)) :=
  match ms with
  | [] => Ok None
  | m :: ms' =>
      if is_anonymous m then
        obind (btf_err (offset_add (m_offset m) off)) (fun o =>
        match probe o (m_tid m) with
        | Ok r => Ok (Some r)
        | Err _ => probe_anonymous probe off ms'
        | Panic p => Panic p
        | Diverge => Diverge
        end)
      else probe_anonymous probe off ms'
  end.

(** 640-761, [offset_of_impl].  [fuel] bounds the number of nested rounds
    (loop iterations and recursive calls on one branch). *)
Fixpoint offset_of_impl (fuel : nat) (c : build) (ti : type_information) (path : str)
    (off : offset) (tid : N) (it : piter) : outcome offset_error (N * offset) :=
  match fuel with
  | O => Diverge
  | S fuel' =>
      match next c path it with
      | (Ok None, _) => Ok (tid, off)
      | (Err k, _) => Err (OEBtf k)
      | (Panic p, _) => Panic p
      | (Diverge, _) => Diverge
      | (Ok (Some comp), it') =>
          match resolve ti tid with
          | Err k => Err k
          | Panic p => Panic p
          | Diverge => Diverge
          | Ok (_, TVoid) => Err OEVoidDereference
          | Ok (_, t) =>
              match comp with
              | Index i =>
                  match t with
                  | TArray _ d =>
                      obind (array_step c ti d off i) (fun off' =>
                      offset_of_impl fuel' c ti path off' (element_tid d) it')
                  | TPtr _ _ => Err OEPtrNotIndexable
                  | _ => Err OETypeNotIndexable
                  end
              | Name name =>
                  match (match t with
                         | TStruct _ d => Some (member_list d)
                         | TUnion _ d => Some (member_list d)
                         | _ => None
                         end) with
                  | None => Err OENotStructOrUnion
                  | Some ms =>
                      obind (probe_anonymous
                               (fun o mt => offset_of_impl fuel' c ti path o mt it) off ms)
                        (fun found =>
                         match found with
                         | Some r => Ok r
                         | None =>
                             match find (has_name name) ms with
                             | Some m =>
                                 obind (btf_err (offset_add off (m_offset m))) (fun off' =>
                                 offset_of_impl fuel' c ti path off' (m_tid m) it')
                             | None => Err OEMemberNotFound
                             end
                         end)
                  end
              end
          end
      end
  end.

(** 634-638, [offset_of_uncached] *)
Definition offset_of_uncached (fuel : nat) (c : build) (ti : type_information) (tid : N) (path : str)
  : outcome error_kind (N * offset) :=
  match offset_of_impl fuel c ti path (ByteOffset 0) tid piter_new with
  | Ok r => Ok r
  | Err e => Err (offset_error_kind e)
  | Panic p => Panic p
  | Diverge => Diverge
  end.
