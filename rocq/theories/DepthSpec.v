(** * DepthSpec: what contains what (C62). *)
From Coq Require Import List NArith.
From Verif Require Import TypeInfo QuerySpec.
Open Scope N_scope.

(** Everything that a path or a size moves on to: the [link]s of QuerySpec.v (targets of typedefs, qualifiers, forwards, tags
    and variables, array elements, anonymous members), and the types of named members.  Pointers are not followed. *)
Definition inside (ti : type_information) (t u : N) : Prop :=
  link ti t u \/ exists ty ms m, from_id ti t = Some ty /\ members_of ty ms /\ In m ms /\ m_tid m = u.
(** As in every C program: no type contains itself. *)
Definition well_founded_types (ti : type_information) : Prop := forall t, ~ endless (inside ti) t.
