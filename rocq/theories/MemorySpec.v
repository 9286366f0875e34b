(** * MemorySpec: what a loaded table holds, and how many requests it takes to
    load it.  Uses the data types of the model and none of its functions. *)
From Coq Require Import List NArith Bool Strings.Byte.
From Verif Require Import Format Spec.
Import ListNotations.
Open Scope N_scope.

(** ** What a table holds *)
Definition opt_list {A} (o : option A) : list A := match o with Some a => [a] | None => [] end.
(** All the names a type holds: its own, and those of its members, parameters and enumerators. *)
Definition held_names (t : type_variant) : list str :=
  opt_list (declared_name t) ++ flat_map (fun m => opt_list (m_name m)) (members t) ++
  flat_map (fun p => opt_list (p_name p)) (parameters t) ++ map nv_name (enumerators t).
Definition variables (t : type_variant) : list variable := match t with TDataSec _ d => variable_list d | _ => [] end.
(** Members, parameters, enumerators and section variables. *)
Definition item_count (t : type_variant) : N :=
  N.of_nat (length (members t) + length (parameters t) + length (enumerators t) + length (variables t)).
(** Bytes of text. *)
Fixpoint text (l : list str) : N := match l with [] => 0 | s :: l' => N.of_nat (length s) + text l' end.
Fixpoint total {A} (f : A -> N) (l : list A) : N := match l with [] => 0 | a :: l' => f a + total f l' end.

(** ** Requests *)
Open Scope nat_scope.
(** The characters of UTF-8 text: the bytes that do not continue one. *)
Definition starts_char (b : byte) : bool := negb ((128 <=? Byte.to_N b)%N && (Byte.to_N b <? 192)%N).
Definition characters (s : str) : nat := length (filter starts_char s).
(** One request for each character and one for the zero byte. *)
Definition name_cost (s : str) : nat := S (characters s).
Definition opt_cost (o : option str) : nat := match o with Some s => name_cost s | None => 0 end.
Fixpoint sum {A} (f : A -> nat) (l : list A) : nat := match l with [] => 0 | a :: l' => f a + sum f l' end.
(** Three words of header and the words behind it, and the names. *)
Definition type_cost (t : type_variant) : nat :=
  3 + opt_cost (declared_name t) +
  match t with
  | TInt _ _ | TVar _ _ | TDeclTag _ _ => 1
  | TArray _ _ => 3
  | TStruct _ d | TUnion _ d => sum (fun m => 3 + opt_cost (m_name m)) (member_list d)
  | TEnum _ d | TEnum64 _ d => sum (fun v => 2 + name_cost (nv_name v)) (named_value_list d)
  | TFuncProto _ d => sum (fun p => 2 + opt_cost (p_name p)) (parameter_list d)
  | TDataSec _ d => sum (fun _ => 3) (variable_list d)
  | _ => 0
  end.
