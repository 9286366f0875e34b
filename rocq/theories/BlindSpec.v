(** * BlindSpec: what size_of, pointee_tid and offset_of look at (C71). *)
From Coq Require Import List NArith.
From Verif Require Import TypeInfo Spec.
Import ListNotations.
Open Scope N_scope.

(** All that these queries know of a type. *)
Inductive shape :=
| Nothing                                                   (** void *)
| Value (size : N)                                          (** an integer, enumeration, float or data section *)
| Pointer (t : N)
| Elements (t count : N)                                    (** an array *)
| Fields (size : N) (fields : list (option str * N * offset)) (** a struct or a union *)
| Alias (t : N)                                             (** a typedef, const, volatile or restrict *)
| Forward (t : N)
| Holder (t : N)                                            (** a variable or type tag *)
| Opaque.                                                   (** a function, a prototype or a declaration tag *)
Definition shape_of (ty : type_variant) : shape :=
  match ty with
  | TVoid => Nothing
  | TInt _ d => Value (int_size d)
  | TEnum _ d | TEnum64 _ d => Value (enum_size d)
  | TFloat _ d => Value (float_size d)
  | TDataSec _ d => Value (ds_size d)
  | TPtr _ d => Pointer (link_tid d)
  | TArray _ d => Elements (element_tid d) (element_count d)
  | TStruct _ d | TUnion _ d => Fields (struct_size d) (map (fun m => (m_name m, m_tid m, m_offset m)) (member_list d))
  | TTypedef _ d => Alias (nl_tid d)
  | TConst _ d | TVolatile _ d | TRestrict _ d => Alias (link_tid d)
  | TFwd _ d => Forward (nl_tid d)
  | TVar _ d => Holder (var_tid d)
  | TTypeTag _ d => Holder (nl_tid d)
  | TFunc _ _ | TFuncProto _ _ | TDeclTag _ _ => Opaque
  end.

(** Members called [g n] instead of [n]. *)
Definition relabel (g : str -> str) (s : shape) : shape :=
  match s with
  | Fields z ms => Fields z (map (fun m => (option_map g (fst (fst m)), snd (fst m), snd m)) ms)
  | _ => s
  end.
Definition relabel_component (g : str -> str) (x : component) : component :=
  match x with Name n => Name (g n) | Index i => Index i end.
(** The table [ti2] is [ti1] with the members renamed; nothing is said of all that [shape_of] leaves out. *)
Definition relabelled (g : str -> str) (ti1 ti2 : type_information) : Prop :=
  forall t, option_map shape_of (from_id ti2 t) = option_map (relabel g) (option_map shape_of (from_id ti1 t)).
Definition one_to_one (g : str -> str) : Prop := forall a b, g a = g b -> a = b.

(** [b] is [a] with its members renamed by [g] and itself renamed by [h]; if it is the struct list_head (whose size tells
    that of a pointer) it does not become a union or the other way round. *)
Definition renamed (g h : str -> str) (a b : type_variant) : Prop :=
  shape_of b = relabel g (shape_of a) /\ declared_name b = option_map h (declared_name a) /\
  (declared_name a = Some list_head_str -> match a, b with TStruct _ _, TUnion _ _ | TUnion _ _, TStruct _ _ => False | _, _ => True end).
