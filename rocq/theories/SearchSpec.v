(** * SearchSpec: offset_of as a search that takes the first match (C70), and when the search has no end (C30). *)
From Coq Require Import List NArith Bool.
From Verif Require Import TypeInfo PathSpec QuerySpec OutcomeSpec Message MessageSpec.
Import ListNotations.
Open Scope N_scope.

(** [adds a o r]: the place that lies at [o], seen from [a].  Only a place that starts at a whole byte contains others, and
    places end at 4 GiB (for a bitfield, 512 MiB). *)
Inductive adds : offset -> offset -> outcome message offset -> Prop :=
| adds_fits a o : fits32 (QuerySpec.shift a o) -> adds (ByteOffset a) o (Ok (QuerySpec.shift a o))
| adds_far a b : 2 ^ 32 <= a + b -> adds (ByteOffset a) (ByteOffset b) (Err MByteAddOverflow)
| adds_far_bits a b z : 2 ^ 32 <= 8 * a -> adds (ByteOffset a) (BitOffsetAndSize b z) (Err MBitMulOverflow)
| adds_far_bit a b z : 8 * a < 2 ^ 32 -> 2 ^ 32 <= 8 * a + b -> adds (ByteOffset a) (BitOffsetAndSize b z) (Err MBitAddOverflow)
| adds_bitfield b z o : adds (BitOffsetAndSize b z) o (Err MBitfield).

(** Looking for [n :: cs] in each anonymous member of the list, of a struct or union that lies at [o], fails. *)
Definition all_fail (finds : offset -> N -> list component -> outcome message (N * offset) -> Prop) (o : offset) (n : str) (cs : list component) (ms : list member) : Prop :=
  forall b, In b ms -> m_name b = None -> exists o' k, adds (m_offset b) o (Ok o') /\ finds o' (m_tid b) (Name n :: cs) (Err k).

Section Search.
  (** The size of a type is what size_of returns (C28, C29, C57); [ending]: what is wrong behind the last component of the path. *)
  Context (c : build) (ti : type_information) (ending : option message).

  (** [finds o t cs r]: looking for [cs] in the type [t], which lies at [o], yields [r].  Anonymous members come first, in
      their order, then the (first) member of that name. *)
  Inductive finds : offset -> N -> list component -> outcome message (N * offset) -> Prop :=
  | finds_end o t : finds o t [] (match ending with None => Ok (t, o) | Some m => Err m end)
  | finds_unknown o t x cs r : chain (transparent ti) t r -> from_id ti r = None -> finds o t (x :: cs) (Err MInvalidTypeId)
  | finds_void o t x cs : is ti t TVoid -> finds o t (x :: cs) (Err MVoidDereference)
  (** an element *)
  | finds_pointer o t i cs h d : is ti t (TPtr h d) -> finds o t (Index i :: cs) (Err MPtrNotIndexable)
  | finds_no_array o t i cs ty : is ti t ty -> match ty with TVoid | TArray _ _ | TPtr _ _ => False | _ => True end ->
      finds o t (Index i :: cs) (Err MTypeNotIndexable)
  | finds_outside o t i cs h d : is ti t (TArray h d) -> element_count d <= i ->
      finds o t (Index i :: cs) (Err (MIndexOutOfBounds i (element_count d)))
  | finds_unsized o t i cs h d m : is ti t (TArray h d) -> i < element_count d -> size_msg c ti (element_tid d) = Err m ->
      finds o t (Index i :: cs) (Err m)
  | finds_panic o t i cs h d q : is ti t (TArray h d) -> i < element_count d -> size_msg c ti (element_tid d) = Panic q ->
      finds o t (Index i :: cs) (Panic q)
  | finds_far o t i cs h d s : is ti t (TArray h d) -> i < element_count d -> size_msg c ti (element_tid d) = Ok s -> 2 ^ 32 <= i * s ->
      finds o t (Index i :: cs) (Err MArrayOffsetOverflow)
  | finds_stray_element o t i cs h d s m : is ti t (TArray h d) -> i < element_count d -> size_msg c ti (element_tid d) = Ok s -> i * s < 2 ^ 32 ->
      adds o (ByteOffset (i * s)) (Err m) -> finds o t (Index i :: cs) (Err m)
  | finds_element o t i cs h d s o' r : is ti t (TArray h d) -> i < element_count d -> size_msg c ti (element_tid d) = Ok s -> i * s < 2 ^ 32 ->
      adds o (ByteOffset (i * s)) (Ok o') -> finds o' (element_tid d) cs r -> finds o t (Index i :: cs) r
  (** a member *)
  | finds_no_members o t n cs ty : is ti t ty -> ty <> TVoid -> ~ has_members ty -> finds o t (Name n :: cs) (Err MNotStructOrUnion)
  | finds_stray_anonymous o t n cs ty before a after m : is ti t ty -> members_of ty (before ++ a :: after) -> m_name a = None ->
      all_fail finds o n cs before ->
      adds (m_offset a) o (Err m) -> finds o t (Name n :: cs) (Err m)
  | finds_in_anonymous o t n cs ty before a after o' r : is ti t ty -> members_of ty (before ++ a :: after) -> m_name a = None ->
      all_fail finds o n cs before ->
      adds (m_offset a) o (Ok o') -> finds o' (m_tid a) (Name n :: cs) r -> (forall k, r <> Err k) -> finds o t (Name n :: cs) r
  | finds_no_member o t n cs ty ms : is ti t ty -> members_of ty ms ->
      all_fail finds o n cs ms ->
      (forall b, In b ms -> m_name b <> Some n) -> finds o t (Name n :: cs) (Err (MMemberNotFound n))
  | finds_stray_member o t n cs ty ms a m : is ti t ty -> members_of ty ms ->
      all_fail finds o n cs ms ->
      named ms n a -> adds o (m_offset a) (Err m) -> finds o t (Name n :: cs) (Err m)
  | finds_member o t n cs ty ms a o' r : is ti t ty -> members_of ty ms ->
      all_fail finds o n cs ms ->
      named ms n a -> adds o (m_offset a) (Ok o') -> finds o' (m_tid a) cs r -> finds o t (Name n :: cs) r.

  (** [busy n o t cs]: looking for [cs] in [t] at [o] is not over after [n] nested steps: it has come to an endless chain of
      typedefs, qualifiers or forwards, or to an element whose size takes forever, or is [n] steps deep. *)
  Inductive busy : nat -> offset -> N -> list component -> Prop :=
  | busy_0 o t cs : busy 0 o t cs
  | busy_chain n o t x cs : endless (transparent ti) t -> busy n o t (x :: cs)
  | busy_size n o t i cs h d : is ti t (TArray h d) -> i < element_count d -> endless (size_link ti) (element_tid d) -> busy n o t (Index i :: cs)
  | busy_element n o t i cs h d s o' : is ti t (TArray h d) -> i < element_count d -> size_msg c ti (element_tid d) = Ok s -> i * s < 2 ^ 32 ->
      adds o (ByteOffset (i * s)) (Ok o') -> busy n o' (element_tid d) cs -> busy (S n) o t (Index i :: cs)
  | busy_anonymous n o t x cs ty before a after o' : is ti t ty -> members_of ty (before ++ a :: after) -> m_name a = None ->
      all_fail finds o x cs before ->
      adds (m_offset a) o (Ok o') -> busy n o' (m_tid a) (Name x :: cs) -> busy (S n) o t (Name x :: cs)
  | busy_member n o t x cs ty ms a o' : is ti t ty -> members_of ty ms ->
      all_fail finds o x cs ms ->
      named ms x a -> adds o (m_offset a) (Ok o') -> busy n o' (m_tid a) cs -> busy (S n) o t (Name x :: cs).
End Search.

(** offset_of returns [r], with the message of the error (the result is given by C57 if only its kind is looked at). *)
Definition offset_of_yields (c : build) (ti : type_information) (t : N) (p : str) (r : outcome message (N * offset)) : Prop :=
  r <> Diverge /\ exists fuel, offset_of_msg fuel c ti t p = r.
(** What the text of a path consists of, and what is wrong behind it. *)
Definition text_ends (c : build) (p : str) (cs : list component) (ending : option message) : Prop :=
  match ending with
  | None => text_is c p cs False
  | Some m => text_is c p cs True /\ complains c p cs m
  end.
