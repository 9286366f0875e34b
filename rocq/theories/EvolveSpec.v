(** * EvolveSpec: one kernel's types and the next one's (C87). *)
From Coq Require Import List NArith.
From Verif Require Import TypeInfo QuerySpec.
Import ListNotations.
Open Scope N_scope.

(** [field ti n t u o]: the struct or union [t], or an anonymous member of it, has a member [n], of type [u], at [o]. *)
Inductive field (ti : type_information) (n : str) : N -> N -> offset -> Prop :=
| own_field t ty ms m : is ti t ty -> members_of ty ms -> named ms n m -> field ti n t (m_tid m) (m_offset m)
| inner_field t ty ms m b u o : is ti t ty -> members_of ty ms -> In m ms -> m_name m = None -> m_offset m = ByteOffset b ->
    field ti n (m_tid m) u o -> field ti n t u (shift b o).
(** Nothing can be asked of [t] by a path: it has neither members nor elements. *)
Definition plain (ti : type_information) (t : N) : Prop := (forall n u o, ~ field ti n t u o) /\ forall h d, ~ is ti t (TArray h d).

(** [evolved ti ti' R]: where [R t t'], the type [t'] of the new table [ti'] has all that [t] has in the old table: members may
    be added, moved, reordered, put into or taken out of anonymous structs, become bitfields if there is nothing in them, and
    change to a type that again has all that the old one has; arrays may grow. *)
Record evolved (ti ti' : type_information) (R : N -> N -> Prop) : Prop := {
  fields_kept : forall t t' n u o, R t t' -> field ti n t u o -> exists u' o', field ti' n t' u' o' /\ R u u' /\
    (forall b, o = ByteOffset b -> (exists b', o' = ByteOffset b') \/ plain ti u);
  elements_kept : forall t t' h d, R t t' -> is ti t (TArray h d) ->
    exists h' d', is ti' t' (TArray h' d') /\ element_count d <= element_count d' /\ R (element_tid d) (element_tid d') }.

(** What is expected of the new table: chains of links end, sizes fit usize, arrays are of types with a size, members lie in
    their structs, anonymous members start at whole bytes, and names are unambiguous, as in C. *)
Record orderly (c : build) (ti : type_information) : Prop := {
  links_end : acyclic ti;
  sizes_in_usize : sizes_fit c ti;
  elements_sized : forall t h d, is ti t (TArray h d) -> exists s, size ti (element_tid d) s;
  members_in_structs : consistent ti;
  anonymous_whole : anonymous_in_bytes ti;
  names_unambiguous : unambiguous ti }.
