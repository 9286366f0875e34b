(** * LookSpec: which types of the table a query looks at, and what it looks for there (C75). *)
From Coq Require Import List NArith.
From Verif Require Import TypeInfo PathSpec QuerySpec.
Import ListNotations.
Open Scope N_scope.

(** What pointee_tid wants to know of a type ... *)
Inductive pointer_view := PointsTo (t : N) | PointsLike (t : N) | NoPointer.
Definition view_pointer (ty : type_variant) : pointer_view :=
  match ty with
  | TPtr _ d => PointsTo (link_tid d)
  | TTypedef _ d => PointsLike (nl_tid d)
  | TConst _ d | TVolatile _ d | TRestrict _ d => PointsLike (link_tid d)
  | _ => NoPointer
  end.
(** ... what size_of wants to know: not where a pointer points to, nor what the members of a struct are ... *)
Inductive size_view := HasSize (s : N) | SizeOfPointer | SizeOfElements (t n : N) | SizeOf (t : N) | HasNoSize.
Definition view_size (ty : type_variant) : size_view :=
  match ty with
  | TInt _ d => HasSize (int_size d)
  | TFloat _ d => HasSize (float_size d)
  | TEnum _ d | TEnum64 _ d => HasSize (enum_size d)
  | TStruct _ d | TUnion _ d => HasSize (struct_size d)
  | TDataSec _ d => HasSize (ds_size d)
  | TPtr _ _ => SizeOfPointer
  | TArray _ d => SizeOfElements (element_tid d) (element_count d)
  | TTypedef _ d | TTypeTag _ d => SizeOf (nl_tid d)
  | TConst _ d | TVolatile _ d | TRestrict _ d => SizeOf (link_tid d)
  | TVar _ d => SizeOf (var_tid d)
  | TVoid | TFwd _ _ | TFunc _ _ | TFuncProto _ _ | TDeclTag _ _ => HasNoSize
  end.
(** ... and what offset_of wants to know of the types it goes through: not how big they are. *)
Inductive path_view := Through (t : N) | Elements (t n : N) | Members (ms : list (option str * N * offset)) | Nothing | APointer | Something.
Definition view_path (ty : type_variant) : path_view :=
  match ty with
  | TTypedef _ d | TFwd _ d => Through (nl_tid d)
  | TConst _ d | TVolatile _ d | TRestrict _ d => Through (link_tid d)
  | TArray _ d => Elements (element_tid d) (element_count d)
  | TStruct _ d | TUnion _ d => Members (map (fun m => (m_name m, m_tid m, m_offset m)) (member_list d))
  | TVoid => Nothing
  | TPtr _ _ => APointer
  | _ => Something
  end.

(** What can be looked at. The size of pointers is taken from the struct list_head. *)
Inductive item := Followed (t : N) | Measured (t : N) | Passed (t : N) | PointerSize.

Section Look.
  Context (ti : type_information).
  (** pointee_tid: the type and those behind it, up to the first that is not a typedef or qualifier. *)
  Inductive follows : N -> item -> Prop :=
  | follows_type t u : chain (alias ti) t u -> follows t (Followed u).
  (** size_of: the type, the types behind typedefs, qualifiers, type tags and variables, the elements of arrays; and the size of
      pointers if that is where it gets. *)
  Inductive measures : N -> item -> Prop :=
  | measures_type t u : chain (size_link ti) t u -> measures t (Measured u)
  | measures_pointer t u h d : chain (size_link ti) t u -> from_id ti u = Some (TPtr h d) -> measures t PointerSize.
  (** offset_of, looking for [cs] in [t]; with no component left, nothing. *)
  Inductive sees : N -> list component -> item -> Prop :=
  | sees_type t x cs u : chain (transparent ti) t u -> sees t (x :: cs) (Passed u)
  (** an index inside of an array: the elements, and their size *)
  | sees_size t h d i cs v : is ti t (TArray h d) -> i < element_count d -> measures (element_tid d) v -> sees t (Index i :: cs) v
  | sees_element t h d i cs v : is ti t (TArray h d) -> i < element_count d -> sees (element_tid d) cs v -> sees t (Index i :: cs) v
  (** a name: the anonymous members, and the (first) member of that name *)
  | sees_anonymous t ty ms n m cs v : is ti t ty -> members_of ty ms -> In m ms -> m_name m = None -> sees (m_tid m) (Name n :: cs) v -> sees t (Name n :: cs) v
  | sees_member t ty ms n m cs v : is ti t ty -> members_of ty ms -> named ms n m -> sees (m_tid m) cs v -> sees t (Name n :: cs) v.
End Look.

(** Two tables do not differ there. *)
Definition same_item (ti1 ti2 : type_information) (x : item) : Prop :=
  match x with
  | Followed t => option_map view_pointer (from_id ti2 t) = option_map view_pointer (from_id ti1 t)
  | Measured t => option_map view_size (from_id ti2 t) = option_map view_size (from_id ti1 t)
  | Passed t => option_map view_path (from_id ti2 t) = option_map view_path (from_id ti1 t)
  | PointerSize => forall s, pointer_sized ti1 s <-> pointer_sized ti2 s
  end.
