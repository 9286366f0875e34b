(** * CopySpec: the size of a type, and of the largest (C81). *)
From Coq Require Import List NArith.
From Verif Require Import TypeInfo MemorySpec.
Import ListNotations.
Open Scope N_scope.

(** One for the type, one for each member, parameter, enumerator and section variable, one for each byte of the names. *)
Definition held (t : type_variant) : N := 1 + item_count t + text (held_names t).
(** No type of the table is larger than [w]. *)
Definition none_larger (ti : type_information) (w : N) : Prop := forall e, In e (get ti) -> held (snd e) <= w.
