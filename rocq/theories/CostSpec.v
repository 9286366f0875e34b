(** * CostSpec: tables in which looking for a member is cheap (C53). *)
From Coq Require Import List NArith.
From Verif Require Import TypeInfo QuerySpec.
Import ListNotations.
Open Scope N_scope.

(** The number of anonymous members of a type, and of all types of a table. *)
Definition unnamed (ty : type_variant) : nat :=
  match ty with
  | TStruct _ d | TUnion _ d => length (filter (fun m => match m_name m with None => true | Some _ => false end) (member_list d))
  | _ => O
  end.
Definition anonymous_members (ti : type_information) : nat := list_sum (map (fun e => unnamed (snd e)) (get ti)).

(** [enters ti r i r']: the [i]-th member of [r] is anonymous, and its type is, behind typedefs and qualifiers, the struct or union [r']. *)
Definition enters (ti : type_information) (r : N) (i : nat) (r' : N) : Prop :=
  exists ty ms m ty', from_id ti r = Some ty /\ members_of ty ms /\ nth_error ms i = Some m /\ m_name m = None /\
    chain (transparent ti) (m_tid m) r' /\ from_id ti r' = Some ty' /\ has_members ty'.
(** No struct or union is the type of two anonymous members (each is written where it is used, as in C). *)
Definition written_in_place (ti : type_information) : Prop :=
  forall r1 i1 r2 i2 r', enters ti r1 i1 r' -> enters ti r2 i2 r' -> r1 = r2 /\ i1 = i2.
(** [r'] is the type of an anonymous member of [r]. *)
Definition entered_from (ti : type_information) (r r' : N) : Prop := exists i, enters ti r i r'.
(** From no struct or union one gets into the same struct or union in two ways, by entering anonymous members. *)
Definition entered_once (ti : type_information) : Prop :=
  forall r i j a b x, enters ti r i a -> enters ti r j b -> chain (entered_from ti) a x -> chain (entered_from ti) b x -> i = j.
(** No two anonymous members of one struct or union have the same type. *)
Definition entered_alone (ti : type_information) : Prop := forall r i j r', enters ti r i r' -> enters ti r j r' -> i = j.
(** In each anonymous struct or union something has a name. *)
Definition something_named (ti : type_information) : Prop := forall r i r', enters ti r i r' -> exists n, offers ti n r'.
