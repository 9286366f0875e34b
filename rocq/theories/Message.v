(** * Message: the queries again, with the messages of their errors ([Error::message], src/btf/error.rs:62, 84-87).
    Model file.  Same control flow as TypeInfo.v (MessageFacts.v proves that forgetting the messages gives the functions
    there). *)
From Coq Require Import List NArith Bool Strings.Byte Strings.String Decimal DecimalString.
From Verif Require Export TypeInfo Debug.
Import ListNotations.
Open Scope N_scope.

Inductive message :=
(* the path iterator, src/btf/type_information.rs:194-196 and alike *)
| MInvalidCharacter (index : nat)
| MUnclosedIndex                            (* 313 *)
| MEmptyIndex                               (* 322 *)
| MIndexTooBig | MIndexNotANumber           (* 332: [ParseIntError] *)
(* [OffsetError], 395-430 *)
| MInvalidTypeId | MVoidDereference
| MIndexOutOfBounds (index array_size : N)
| MArrayOffsetOverflow | MPtrNotIndexable | MTypeNotIndexable | MNotStructOrUnion
| MMemberNotFound (name : str)
(* src/btf/offset.rs *)
| MByteAddOverflow | MBitMulOverflow | MBitAddOverflow | MBitfield
(* [pointee_tid], [size_of]; an id outside the table is [MInvalidTypeId] as well *)
| MNotAPointer | MNoListHead | MListHeadInvalid | MListHeadNotStruct
| MNoSize (t : type_variant).

(** The text *)
Definition message_text (m : message) : str :=
  match m with
  | MInvalidCharacter k => txt "Invalid character at index " ++ digits_of_N (N.of_nat k)
  | MUnclosedIndex => txt "Unclosed index bracket"
  | MEmptyIndex => txt "Empty index"
  | MIndexTooBig => txt "Invalid index value: ParseIntError { kind: PosOverflow }"
  | MIndexNotANumber => txt "Invalid index value: ParseIntError { kind: InvalidDigit }"
  | MInvalidTypeId => txt "Invalid type id"
  | MVoidDereference => txt "The void type can't be dereferenced with a path"
  | MIndexOutOfBounds i n => txt "Index " ++ digits_of_N i ++ txt " is out of bounds for array of size " ++ digits_of_N n
  | MArrayOffsetOverflow => txt "Array element offset overflow"
  | MPtrNotIndexable => txt "Type is a ptr, and dereferencing it would require a read operation"
  | MTypeNotIndexable => txt "Type is not indexable"
  | MNotStructOrUnion => txt "Type is not a struct or union"
  | MMemberNotFound n => txt "Member '" ++ n ++ txt "' not found"
  | MByteAddOverflow => txt "Byte offset addition overflow"
  | MBitMulOverflow => txt "Bit offset multiplication overflow"
  | MBitAddOverflow => txt "Bit offset addition overflow"
  | MBitfield => txt "Attempted to add a byte offset to a bitfield"
  | MNotAPointer => txt "Type is not a pointer"
  | MNoListHead => txt "The `struct list_head` type, used to extract the pointer size, was not found"
  | MListHeadInvalid => txt "The extracted `struct list_head` type ID, used to extract the pointer size, was invalid"
  | MListHeadNotStruct => txt "The extracted `struct list_head` type ID, used to extract the pointer size, is not a struct type"
  | MNoSize t => txt "Type " ++ debug_type t ++ txt " has no size"      (* 601 *)
  end.
(** The [ErrorKind] given next to each message. *)
Definition message_kind (m : message) : error_kind :=
  match m with
  | MInvalidTypeId | MNotAPointer | MNoListHead | MListHeadInvalid | MListHeadNotStruct => InvalidTypeID
  | MByteAddOverflow | MBitMulOverflow | MBitAddOverflow => InvalidOffset
  | MBitfield => UnexpectedBitfield
  | MNoSize _ => NotSized
  | _ => InvalidTypePath
  end.

(** ** [pointee_tid], 522-544 *)
Fixpoint pointee_msg_fuel (fuel : nat) (ti : type_information) (tid : N) : outcome message N :=
  match fuel with
  | O => Diverge
  | S fuel' =>
      match from_id ti tid with
      | None => Err MInvalidTypeId
      | Some (TTypedef _ d) => pointee_msg_fuel fuel' ti (nl_tid d)
      | Some (TConst _ d) => pointee_msg_fuel fuel' ti (link_tid d)
      | Some (TVolatile _ d) => pointee_msg_fuel fuel' ti (link_tid d)
      | Some (TRestrict _ d) => pointee_msg_fuel fuel' ti (link_tid d)
      | Some (TPtr _ d) => Ok (link_tid d)
      | Some _ => Err MNotAPointer
      end
  end.
Definition pointee_msg (ti : type_information) (tid : N) := pointee_msg_fuel (chain_fuel ti) ti tid.

(** ** [size_of], 546-604 *)
Definition pointer_size_msg (ti : type_information) : outcome message N :=
  match id_of ti list_head_str with
  | None => Err MNoListHead
  | Some lh =>
      match from_id ti lh with
      | None => Err MListHeadInvalid
      | Some (TStruct _ d) => Ok (struct_size d / 2)
      | Some _ => Err MListHeadNotStruct
      end
  end.
Fixpoint size_msg_fuel (fuel : nat) (c : build) (ti : type_information) (tid : N) : outcome message N :=
  match fuel with
  | O => Diverge
  | S fuel' =>
      match from_id ti tid with
      | None => Err MInvalidTypeId
      | Some t =>
          match t with
          | TPtr _ _ => pointer_size_msg ti
          | TArray _ d => obind (size_msg_fuel fuel' c ti (element_tid d)) (fun element_size => mul_usize c element_size (element_count d))
          | TFloat _ d => Ok (float_size d)
          | TInt _ d => Ok (int_size d)
          | TEnum _ d => Ok (enum_size d)
          | TEnum64 _ d => Ok (enum_size d)
          | TStruct _ d => Ok (struct_size d)
          | TUnion _ d => Ok (struct_size d)
          | TDataSec _ d => Ok (ds_size d)
          | TVar _ d => size_msg_fuel fuel' c ti (var_tid d)
          | TTypedef _ d => size_msg_fuel fuel' c ti (nl_tid d)
          | TConst _ d => size_msg_fuel fuel' c ti (link_tid d)
          | TVolatile _ d => size_msg_fuel fuel' c ti (link_tid d)
          | TRestrict _ d => size_msg_fuel fuel' c ti (link_tid d)
          | TTypeTag _ d => size_msg_fuel fuel' c ti (nl_tid d)
          | t => Err (MNoSize t)
          end
      end
  end.
Definition size_msg (c : build) (ti : type_information) (tid : N) := size_msg_fuel (chain_fuel ti) c ti tid.

(** ** Offsets: src/btf/offset.rs:24-43 and 46-86 *)
Definition add_u32_msg (o : offset) (rhs : N) : outcome message offset :=
  match o with
  | ByteOffset b => obind (ok_or MByteAddOverflow (checked 32 (b + rhs))) (fun v => Ok (ByteOffset v))
  | BitOffsetAndSize _ _ => Err MBitfield
  end.
Definition add_msg (lhs rhs : offset) : outcome message offset :=
  match lhs, rhs with
  | ByteOffset a, ByteOffset b => obind (ok_or MByteAddOverflow (checked 32 (a + b))) (fun v => Ok (ByteOffset v))
  | ByteOffset a, BitOffsetAndSize b s =>
      obind (ok_or MBitMulOverflow (checked 32 (a * 8))) (fun a8 =>
      obind (ok_or MBitAddOverflow (checked 32 (a8 + b))) (fun v => Ok (BitOffsetAndSize v s)))
  | BitOffsetAndSize _ _, _ => Err MBitfield
  end.

(** ** The path iterator *)
Definition mitem := outcome message (option component).
(** 253-289 *)
Definition parse_name_msg (path : str) (it : piter) : mitem * piter :=
  let start := position it in
  match name_scan (skipn start path) start with
  | (pos, false) => (Err (MInvalidCharacter pos), {| position := pos; pst := PError |})
  | (pos, true) =>
      match str_slice path start pos with
      | Ok name =>
          let it' :=
            match nth_error path pos with
            | None => {| position := pos; pst := PDone |}
            | Some c =>
                if is_lbracket c then {| position := S pos; pst := PInsideIndex |}
                else if is_dot c then {| position := S pos; pst := PExpectingName |}
                else {| position := pos; pst := pst it |}
            end in
          (Ok (Some (Name name)), it')
      | Err k => (Err k, it)
      | Panic p => (Panic p, it)
      | Diverge => (Diverge, it)
      end
  end.
(** 291-343 *)
Definition parse_index_msg (c : build) (path : str) (it : piter) : mitem * piter :=
  let start := position it in
  match index_scan (skipn start path) start with
  | (pos, false) => (Err (MInvalidCharacter pos), {| position := pos; pst := PError |})
  | (pos, true) =>
      let at_bracket := match nth_error path pos with Some b => is_rbracket b | None => false end in
      if negb at_bracket then (Err MUnclosedIndex, {| position := pos; pst := PError |})
      else match str_slice path start pos with
           | Ok s =>
               if Nat.eqb (length s) 0 then (Err MEmptyIndex, {| position := pos; pst := PError |})
               else match parse_usize c s with
                    | None => (Err (if forallb is_digit s then MIndexTooBig else MIndexNotANumber), {| position := pos; pst := PError |})
                    | Some i => (Ok (Some (Index i)), {| position := S pos; pst := PAfterIndex |})
                    end
           | Err k => (Err k, it)
           | Panic p => (Panic p, it)
           | Diverge => (Diverge, it)
           end
  end.
(** 171-249; the message of 229 ("Expected name after '.'") is unreachable: 179 has returned before *)
Fixpoint next_msg_fuel (fuel : nat) (c : build) (path : str) (it : piter) : mitem * piter :=
  match fuel with
  | O => (Diverge, it)
  | S fuel' =>
      match pst it with
      | PDone | PError => (Ok None, it)
      | _ =>
          match nth_error path (position it) with
          | None => (Ok None, {| position := position it; pst := PDone |})
          | Some b =>
              match pst it with
              | PStart =>
                  if is_lbracket b then parse_index_msg c path {| position := S (position it); pst := PInsideIndex |}
                  else if is_alphabetic b || is_underscore b then parse_name_msg path {| position := position it; pst := PInsideName |}
                  else (Err (MInvalidCharacter (position it)), {| position := position it; pst := PError |})
              | PInsideName => parse_name_msg path it
              | PInsideIndex => parse_index_msg c path it
              | PAfterIndex =>
                  if is_lbracket b then parse_index_msg c path {| position := S (position it); pst := PInsideIndex |}
                  else if is_dot b then next_msg_fuel fuel' c path {| position := S (position it); pst := PExpectingName |}
                  else (Err (MInvalidCharacter (position it)), {| position := position it; pst := PError |})
              | PExpectingName =>
                  if is_alphabetic b || is_underscore b then parse_name_msg path {| position := position it; pst := PInsideName |}
                  else (Err (MInvalidCharacter (position it)), {| position := position it; pst := PError |})
              | PDone | PError => (Ok None, it)
              end
          end
      end
  end.
Definition next_msg (c : build) (path : str) (it : piter) : mitem * piter := next_msg_fuel 2 c path it.

(** ** [offset_of_impl], 640-761, and [From<OffsetError> for BTFError], 395-430 *)
Fixpoint resolve_msg_fuel (fuel : nat) (ti : type_information) (tid : N) : outcome message (N * type_variant) :=
  match fuel with
  | O => Diverge
  | S fuel' =>
      match from_id ti tid with
      | None => Err MInvalidTypeId
      | Some (TFwd _ d) => resolve_msg_fuel fuel' ti (nl_tid d)
      | Some (TTypedef _ d) => resolve_msg_fuel fuel' ti (nl_tid d)
      | Some (TConst _ d) => resolve_msg_fuel fuel' ti (link_tid d)
      | Some (TVolatile _ d) => resolve_msg_fuel fuel' ti (link_tid d)
      | Some (TRestrict _ d) => resolve_msg_fuel fuel' ti (link_tid d)
      | Some t => Ok (tid, t)
      end
  end.
Definition resolve_msg (ti : type_information) (tid : N) := resolve_msg_fuel (chain_fuel ti) ti tid.
Definition array_step_msg (c : build) (ti : type_information) (d : array_data) (off : offset) (i : N) : outcome message offset :=
  if element_count d <=? i then Err (MIndexOutOfBounds i (element_count d))
  else
    obind (size_msg c ti (element_tid d)) (fun size =>
    obind (ok_or MArrayOffsetOverflow (index_size i size)) (fun isz => add_u32_msg off isz)).
Fixpoint probe_msg (probe : offset -> N -> outcome message (N * offset)) (off : offset) (ms : list member) : outcome message (option (N * offset)) :=
  match ms with
  | [] => Ok None
  | m :: ms' =>
      if is_anonymous m then
        obind (add_msg (m_offset m) off) (fun o =>
        match probe o (m_tid m) with
        | Ok r => Ok (Some r)
        | Err _ => probe_msg probe off ms'
        | Panic p => Panic p
        | Diverge => Diverge
        end)
      else probe_msg probe off ms'
  end.
Fixpoint offset_of_msg_impl (fuel : nat) (c : build) (ti : type_information) (path : str)
    (off : offset) (tid : N) (it : piter) : outcome message (N * offset) :=
  match fuel with
  | O => Diverge
  | S fuel' =>
      match next_msg c path it with
      | (Ok None, _) => Ok (tid, off)
      | (Err k, _) => Err k
      | (Panic p, _) => Panic p
      | (Diverge, _) => Diverge
      | (Ok (Some comp), it') =>
          match resolve_msg ti tid with
          | Err k => Err k
          | Panic p => Panic p
          | Diverge => Diverge
          | Ok (_, TVoid) => Err MVoidDereference
          | Ok (_, t) =>
              match comp with
              | Index i =>
                  match t with
                  | TArray _ d =>
                      obind (array_step_msg c ti d off i) (fun off' =>
                      offset_of_msg_impl fuel' c ti path off' (element_tid d) it')
                  | TPtr _ _ => Err MPtrNotIndexable
                  | _ => Err MTypeNotIndexable
                  end
              | Name name =>
                  match (match t with
                         | TStruct _ d => Some (member_list d)
                         | TUnion _ d => Some (member_list d)
                         | _ => None
                         end) with
                  | None => Err MNotStructOrUnion
                  | Some ms =>
                      obind (probe_msg (fun o mt => offset_of_msg_impl fuel' c ti path o mt it) off ms)
                        (fun found =>
                         match found with
                         | Some r => Ok r
                         | None =>
                             match find (has_name name) ms with
                             | Some m =>
                                 obind (add_msg off (m_offset m)) (fun off' =>
                                 offset_of_msg_impl fuel' c ti path off' (m_tid m) it')
                             | None => Err (MMemberNotFound name)
                             end
                         end)
                  end
              end
          end
      end
  end.
(** 634-638 *)
Definition offset_of_msg (fuel : nat) (c : build) (ti : type_information) (tid : N) (path : str) : outcome message (N * offset) :=
  offset_of_msg_impl fuel c ti path (ByteOffset 0) tid piter_new.
