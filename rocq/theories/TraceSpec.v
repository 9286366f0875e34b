(** * TraceSpec: what a list of type lookups means (C83). *)
From Coq Require Import List NArith.
From Verif Require Import TypeInfo RenumberSpec MemorySpec CopySpec.
Import ListNotations.
Open Scope N_scope.

(** The size of what is copied when the ids of the list are looked up; an id not in the table copies nothing. *)
Definition sum_held (ti : type_information) (l : list N) : N := total (fun t => match from_id ti t with Some ty => held ty | None => 0 end) l.
(** Two tables have the same under the ids of the list, and the same struct list_head. *)
Definition agree (ti ti' : type_information) (l : list N) : Prop :=
  id_of ti list_head_str = id_of ti' list_head_str /\ forall t, In t l -> from_id ti t = from_id ti' t.
(** The type [v] mentions [u]: as member, element, pointee, ... *)
Definition refers (ti : type_information) (v u : N) : Prop := exists d, shows ti v = Shown d /\ In u (mentions d).
(** Everything looked up is the type asked about, list_head, or mentioned by a type looked up before. *)
Definition step_by_step (ti : type_information) (t : N) (l : list N) : Prop :=
  forall a u b, l = a ++ u :: b -> u = t \/ id_of ti list_head_str = Some u \/ exists v, In v a /\ refers ti v u.
