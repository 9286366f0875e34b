(** * MessageSpec: what the messages of errors say (C57, C58). *)
From Coq Require Import List NArith Bool Strings.Byte.
From Verif Require Import TypeInfo PathSpec QuerySpec OutcomeSpec Message.
Import ListNotations.
Open Scope N_scope.

(** A beginning of some path. *)
Definition viable (s : str) : Prop := exists max cs suffix, path max cs (s ++ suffix).

(** [complains c p cs m]: the text [p] begins with the components [cs], and [m] says what is wrong behind them. *)
Definition complains (c : build) (p : str) (cs : list component) (m : message) : Prop :=
  exists q, path (usize_max c) cs q /\
  match m with
  (** [k] is the index of the first byte that no path has there *)
  | MInvalidCharacter k => exists w b post, p = q ++ w ++ b :: post /\ length (q ++ w) = k /\ viable (q ++ w) /\ ~ viable (q ++ w ++ [b])
  | MUnclosedIndex => exists ds, p = q ++ lbracket ++ ds /\ Forall ascii_digit ds
  | MEmptyIndex => exists post, p = q ++ lbracket ++ rbracket ++ post
  | MIndexTooBig => exists ds post, p = q ++ lbracket ++ ds ++ rbracket ++ post /\ Forall ascii_digit ds /\ usize_max c < decimal_value ds
  | _ => False
  end.

Section Table.
  Context (ti : type_information).
  (** ** pointee_tid *)
  Definition pointee_reason (t : N) (m : message) : Prop :=
    exists r, chain (alias ti) t r /\
    match m with
    | MInvalidTypeId => from_id ti r = None
    | MNotAPointer => exists ty, from_id ti r = Some ty /\ (forall u, ~ qualified ty u) /\ match ty with TPtr _ _ => False | _ => True end
    | _ => False
    end.
  (** ** size_of *)
  Definition size_reason (t : N) (m : message) : Prop :=
    exists r, chain (size_link ti) t r /\
    match m with
    | MInvalidTypeId => from_id ti r = None
    | MNoListHead => (exists h d, from_id ti r = Some (TPtr h d)) /\ id_of ti list_head_str = None
    | MListHeadInvalid => (exists h d, from_id ti r = Some (TPtr h d)) /\ exists lh, id_of ti list_head_str = Some lh /\ from_id ti lh = None
    | MListHeadNotStruct => (exists h d, from_id ti r = Some (TPtr h d)) /\
        exists lh ty, id_of ti list_head_str = Some lh /\ from_id ti lh = Some ty /\ match ty with TStruct _ _ => False | _ => True end
    | MNoSize ty => from_id ti r = Some ty /\ unsized ty
    | _ => False
    end.
  (** ** offset_of: at the place [o], of type [u], with [rest] of the path to go *)
  Definition holds_at (sz : N -> N -> Prop) (c : build) (p : str) (cs : list component) (o : offset) (u : N) (rest : list component) (m : message) : Prop :=
    match m with
    | MInvalidCharacter _ | MUnclosedIndex | MEmptyIndex | MIndexTooBig | MIndexNotANumber => rest = [] /\ complains c p cs m
    | MInvalidTypeId => exists x rest', rest = x :: rest' /\
        ((exists r, chain (transparent ti) u r /\ from_id ti r = None) \/
         exists i h d, x = Index i /\ is ti u (TArray h d) /\ i < element_count d /\ size_reason (element_tid d) m)
    | MVoidDereference => exists x rest', rest = x :: rest' /\ is ti u TVoid
    | MIndexOutOfBounds i n => exists rest' h d, rest = Index i :: rest' /\ is ti u (TArray h d) /\ element_count d = n /\ n <= i
    | MArrayOffsetOverflow => exists i rest' h d s, rest = Index i :: rest' /\ is ti u (TArray h d) /\ i < element_count d /\ sz (element_tid d) s /\ 2 ^ 32 <= i * s
    | MPtrNotIndexable => exists i rest' h d, rest = Index i :: rest' /\ is ti u (TPtr h d)
    | MTypeNotIndexable => exists i rest' ty, rest = Index i :: rest' /\ is ti u ty /\ match ty with TVoid | TArray _ _ | TPtr _ _ => False | _ => True end
    | MNotStructOrUnion => exists n rest' ty, rest = Name n :: rest' /\ is ti u ty /\ ty <> TVoid /\ ~ has_members ty
    | MMemberNotFound n => exists rest' ty ms, rest = Name n :: rest' /\ is ti u ty /\ members_of ty ms /\ forall m, In m ms -> m_name m <> Some n
    | MByteAddOverflow => exists b, o = ByteOffset b /\ 2 ^ 32 <= b
    | MBitMulOverflow | MBitAddOverflow => exists b z, o = BitOffsetAndSize b z /\ 2 ^ 32 <= b
    | MBitfield => exists x rest', rest = x :: rest' /\
        ((exists b z, o = BitOffsetAndSize b z) \/
         exists n ty ms m b z, x = Name n /\ is ti u ty /\ members_of ty ms /\ In m ms /\ m_name m = None /\ m_offset m = BitOffsetAndSize b z)
    | MNoListHead | MListHeadInvalid | MListHeadNotStruct | MNoSize _ =>
        exists i rest' h d, rest = Index i :: rest' /\ is ti u (TArray h d) /\ i < element_count d /\ size_reason (element_tid d) m
    | MNotAPointer => False
    end.
End Table.

(** Forgetting the messages. *)
Definition kind_only {A} (r : outcome message A) : outcome error_kind A :=
  match r with Ok a => Ok a | Err m => Err (message_kind m) | Panic p => Panic p | Diverge => Diverge end.
(** offset_of returns the error with this message. *)
Definition offset_of_says (c : build) (ti : type_information) (t : N) (p : str) (m : message) : Prop :=
  exists fuel, offset_of_msg fuel c ti t p = Err m.
