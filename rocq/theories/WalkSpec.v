(** * WalkSpec: following pointers through memory, in C and with btfparse (C89). *)
From Coq Require Import List NArith.
From Verif Require Import TypeInfo Spec PathSpec QuerySpec CSpec.
Import ListNotations.
Open Scope N_scope.

(** An object: its type, and where it is in memory (an address, or bits counted from address 0).
    [stored a]: the pointer that memory holds at the address [a]. *)
Definition object := (N * offset)%type.

(** ** In C *)
(** [x.cs], [*x], and [*container_of(&x, t, cs)] *)
Inductive c_operation := CMember (cs : list component) | CDeref | CContainer (t : N) (cs : list component).
Inductive c_does (m : machine) (P : program) (L : N -> option (N * N)) (stored : N -> N) : object -> c_operation -> object -> Prop :=
| c_member t a cs u o : designates m P L t cs u o -> c_does m P L stored (t, ByteOffset a) (CMember cs) (u, shift a o)
| c_deref t a w : c_is true P t (CPointer w) -> c_does m P L stored (t, ByteOffset a) CDeref (w, ByteOffset (stored a))
| c_container t a t' cs u b : designates m P L t' cs u (ByteOffset b) -> b <= a ->
    c_does m P L stored (t, ByteOffset a) (CContainer t' cs) (t', ByteOffset (a - b)).

(** ** With btfparse *)
Inductive operation := Member (p : str) | Deref | Container (t : N) (p : str).
(** The caller takes type tags off before asking (C77): while from_id gives a type tag, go on to its type. *)
Definition tag_of (ti : type_information) (t u : N) : Prop := exists h d, from_id ti t = Some (TTypeTag h d) /\ nl_tid d = u.
Definition strip (ti : type_information) (t r : N) : Prop := chain (tag_of ti) t r /\ forall u, ~ tag_of ti r u.
(** Then offset_of tells where members are, and pointee_tid what a pointer points to. *)
Inductive does (c : build) (ti : type_information) (stored : N -> N) : object -> operation -> object -> Prop :=
| does_member t r a p u o : strip ti t r -> offset_of_returns c ti r p (Ok (u, o)) -> does c ti stored (t, ByteOffset a) (Member p) (u, shift a o)
| does_deref t r a w : strip ti t r -> pointee_tid ti r = Ok w -> does c ti stored (t, ByteOffset a) Deref (w, ByteOffset (stored a))
| does_container t a t' r p u b : strip ti t' r -> offset_of_returns c ti r p (Ok (u, ByteOffset b)) -> b <= a ->
    does c ti stored (t, ByteOffset a) (Container t' p) (t', ByteOffset (a - b)).

(** One operation after the other. *)
Inductive walks {op : Type} (R : object -> op -> object -> Prop) : object -> list op -> object -> Prop :=
| walk_here x : walks R x [] x
| walk_on x s y ss z : R x s y -> walks R y ss z -> walks R x (s :: ss) z.

(** The operation with path texts, and what they say. *)
Definition says (c : build) (s : operation) (k : c_operation) : Prop :=
  match s, k with
  | Member p, CMember cs => reads_as (usize_max c) p cs
  | Deref, CDeref => True
  | Container t p, CContainer t' cs => t = t' /\ reads_as (usize_max c) p cs
  | _, _ => False
  end.
Definition text_ok (s : operation) : Prop := match s with Member p | Container _ p => valid_utf8 p | Deref => True end.
(** The same type up to type tags. *)
Definition c_tag (P : program) (t u : N) : Prop := exists n, declared P t (CTag n u).
Definition same_type (P : program) (t u : N) : Prop := exists r, chain (c_tag P) t r /\ chain (c_tag P) u r.
