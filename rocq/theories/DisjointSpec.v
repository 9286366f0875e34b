(** * DisjointSpec: which bits a place takes up, and where two paths part (C64). *)
From Coq Require Import List NArith.
From Verif Require Import TypeInfo QuerySpec.
Import ListNotations.
Open Scope N_scope.

Section Table.
  Context (ti : type_information).
  (** Something of type [u] at [o] takes up the bit [k]. *)
  Definition takes (u : N) (o : offset) (k : N) : Prop :=
    match o with
    | ByteOffset b => exists s, size ti u s /\ 8 * b <= k < 8 * (b + s)
    | BitOffsetAndSize b z => b <= k < b + z
    end.
  (** No two members of a struct share a bit. *)
  Definition members_apart : Prop :=
    forall t h d i j m m', from_id ti t = Some (TStruct h d) ->
      nth_error (member_list d) i = Some m -> nth_error (member_list d) j = Some m' -> i <> j ->
      forall k, takes (m_tid m) (m_offset m) k -> takes (m_tid m') (m_offset m') k -> False.
  (** [parts t cs cs']: seen from the type [t], the paths [cs] and [cs'] go together up to some place and part there, into
      two elements of an array, or into two members of a struct (each having the name itself, or being anonymous and
      offering it). They may go together through unions, but not part in one. *)
  Inductive parts : N -> list component -> list component -> Prop :=
  | parts_elements t h d i j cs cs' : is ti t (TArray h d) -> i <> j -> parts t (Index i :: cs) (Index j :: cs')
  | parts_members t h d i j m m' n n' cs cs' : is ti t (TStruct h d) ->
      nth_error (member_list d) i = Some m -> nth_error (member_list d) j = Some m' -> i <> j ->
      accounts ti n m -> accounts ti n' m' -> parts t (Name n :: cs) (Name n' :: cs')
  | parts_after_index t h d i cs cs' : is ti t (TArray h d) -> parts (element_tid d) cs cs' -> parts t (Index i :: cs) (Index i :: cs')
  | parts_after_name t ty ms m n cs cs' : is ti t ty -> members_of ty ms -> In m ms -> m_name m = Some n ->
      parts (m_tid m) cs cs' -> parts t (Name n :: cs) (Name n :: cs')
  | parts_in_anonymous t ty ms m n n' cs cs' : is ti t ty -> members_of ty ms -> In m ms -> m_name m = None ->
      parts (m_tid m) (Name n :: cs) (Name n' :: cs') -> parts t (Name n :: cs) (Name n' :: cs').
End Table.
