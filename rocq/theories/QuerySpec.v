(** * QuerySpec: what the queries on a loaded table mean.

    The table is seen only through the lookups [from_id] and [id_of] of the
    API; none of the functions computing sizes and offsets is used. *)
From Coq Require Import List NArith Bool.
From Verif Require Import TypeInfo.
Import ListNotations.
Open Scope N_scope.

(** ** Chains of links *)
Section Chains.
  Context (R : N -> N -> Prop).
  (** [chain t u]: [u] is reached from [t] by following links. *)
  Inductive chain : N -> N -> Prop :=
  | chain_here t : chain t t
  | chain_step t u v : R t u -> chain u v -> chain t v.
  (** Following links from [t] never ends. *)
  Definition endless (t : N) : Prop := exists f : nat -> N, f 0%nat = t /\ forall n, R (f n) (f (S n)).
End Chains.

(** [t] is a typedef, const, volatile or restrict of [u]. *)
Definition qualified (ty : type_variant) (u : N) : Prop :=
  match ty with
  | TTypedef _ d => nl_tid d = u
  | TConst _ d | TVolatile _ d | TRestrict _ d => link_tid d = u
  | _ => False
  end.

Section Table.
  Context (ti : type_information).

  (** ** pointee_tid *)
  Definition alias (t u : N) : Prop := exists ty, from_id ti t = Some ty /\ qualified ty u.
  Definition points_to (t u : N) : Prop :=
    exists p h d, chain alias t p /\ from_id ti p = Some (TPtr h d) /\ link_tid d = u.

  (** ** Sizes *)
  (** Types whose size is the size of another type. *)
  Definition size_alias (t u : N) : Prop :=
    exists ty, from_id ti t = Some ty /\
      (qualified ty u \/ (exists h d, ty = TTypeTag h d /\ nl_tid d = u) \/ (exists h d, ty = TVar h d /\ var_tid d = u)).
  Definition array_of (t e n : N) : Prop :=
    exists h d, from_id ti t = Some (TArray h d) /\ element_tid d = e /\ element_count d = n.
  Definition stored_size (ty : type_variant) (s : N) : Prop :=
    match ty with
    | TInt _ d => int_size d = s
    | TFloat _ d => float_size d = s
    | TEnum _ d | TEnum64 _ d => enum_size d = s
    | TStruct _ d | TUnion _ d => struct_size d = s
    | TDataSec _ d => ds_size d = s
    | _ => False
    end.
  (** A pointer is half as big as struct list_head (two pointers). *)
  Definition pointer_sized (s : N) : Prop :=
    exists lh h d, id_of ti list_head_str = Some lh /\ from_id ti lh = Some (TStruct h d) /\ s = struct_size d / 2.

  (** [has_size P t s]: [t] is [s] bytes big, and every array size that enters
      into it satisfies [P]. *)
  Inductive has_size (P : N -> Prop) : N -> N -> Prop :=
  | size_stored t ty s : from_id ti t = Some ty -> stored_size ty s -> has_size P t s
  | size_pointer t h d s : from_id ti t = Some (TPtr h d) -> pointer_sized s -> has_size P t s
  | size_array t e n s : array_of t e n -> has_size P e s -> P (s * n) -> has_size P t (s * n)
  | size_same t u s : size_alias t u -> has_size P u s -> has_size P t s.
  (** the mathematical size *)
  Definition size (t s : N) : Prop := has_size (fun _ => True) t s.

  (** Types that have no size. *)
  Definition unsized (ty : type_variant) : Prop :=
    match ty with TVoid | TFwd _ _ | TFunc _ _ | TFuncProto _ _ | TDeclTag _ _ => True | _ => False end.
  (** Computing the size follows these links. *)
  Definition size_link (t u : N) : Prop := size_alias t u \/ exists n, array_of t u n.
  Inductive no_size : N -> error_kind -> Prop :=
  | no_unknown t u : chain size_link t u -> from_id ti u = None -> no_size t InvalidTypeID
  | no_pointer t u h d : chain size_link t u -> from_id ti u = Some (TPtr h d) -> (forall s, ~ pointer_sized s) -> no_size t InvalidTypeID
  | no_unsized t u ty : chain size_link t u -> from_id ti u = Some ty -> unsized ty -> no_size t NotSized.

  (** ** Offsets *)
  (** Types that a path sees through. *)
  Definition transparent (t u : N) : Prop :=
    exists ty, from_id ti t = Some ty /\ (qualified ty u \/ exists h d, ty = TFwd h d /\ nl_tid d = u).
  Definition opaque (t : N) (ty : type_variant) : Prop := from_id ti t = Some ty /\ forall u, ~ transparent t u.
  (** [is t ty]: behind typedefs, qualifiers and forwards, [t] is [ty]. *)
  Definition is (t : N) (ty : type_variant) : Prop := exists r, chain transparent t r /\ opaque r ty.

  (** The place [o] seen from [n] bytes earlier. *)
  Definition shift (n : N) (o : offset) : offset :=
    match o with ByteOffset b => ByteOffset (n + b) | BitOffsetAndSize b s => BitOffsetAndSize (8 * n + b) s end.
  Definition fits32 (o : offset) : Prop :=
    match o with ByteOffset b => b < 2 ^ 32 | BitOffsetAndSize b _ => b < 2 ^ 32 end.
  Definition members_of (ty : type_variant) (ms : list member) : Prop :=
    match ty with TStruct _ d | TUnion _ d => member_list d = ms | _ => False end.
  (** [m] is the (first) member named [n]. *)
  Definition named (ms : list member) (n : str) (m : member) : Prop :=
    exists ms1 ms2, ms = ms1 ++ m :: ms2 /\ m_name m = Some n /\ forall m', In m' ms1 -> m_name m' <> Some n.

  (** [leads sz t cs u o]: the path [cs] leads from [t] to [u], which lies at [o]
      from the start of [t]; [sz] gives sizes. *)
  Inductive leads (sz : N -> N -> Prop) : N -> list component -> N -> offset -> Prop :=
  | leads_here t : leads sz t [] t (ByteOffset 0)
  | leads_index t h d i s cs u o :
      is t (TArray h d) -> i < element_count d -> sz (element_tid d) s ->
      leads sz (element_tid d) cs u o -> leads sz t (Index i :: cs) u (shift (i * s) o)
  | leads_member t ty ms n m b cs u o :
      is t ty -> members_of ty ms -> named ms n m -> m_offset m = ByteOffset b ->
      leads sz (m_tid m) cs u o -> leads sz t (Name n :: cs) u (shift b o)
  | leads_bitfield t ty ms n m b s :
      is t ty -> members_of ty ms -> named ms n m -> m_offset m = BitOffsetAndSize b s ->
      leads sz t [Name n] (m_tid m) (BitOffsetAndSize b s)
  | leads_anonymous t ty ms n m b cs u o :
      is t ty -> members_of ty ms -> In m ms -> m_name m = None -> m_offset m = ByteOffset b ->
      leads sz (m_tid m) (Name n :: cs) u o -> leads sz t (Name n :: cs) u (shift b o).

  (** [visits sz t cs u a]: following a beginning of the path, and entering
      anonymous members on the way, one can get to [u] at byte [a]. *)
  Inductive visits (sz : N -> N -> Prop) : N -> list component -> N -> N -> Prop :=
  | visits_here t cs : visits sz t cs t 0
  | visits_index t h d i s cs u a :
      is t (TArray h d) -> i < element_count d -> sz (element_tid d) s ->
      visits sz (element_tid d) cs u a -> visits sz t (Index i :: cs) u (i * s + a)
  | visits_member t ty ms n m b cs u a :
      is t ty -> members_of ty ms -> named ms n m -> m_offset m = ByteOffset b ->
      visits sz (m_tid m) cs u a -> visits sz t (Name n :: cs) u (b + a)
  | visits_anonymous t ty ms n m b cs u a :
      is t ty -> members_of ty ms -> In m ms -> m_name m = None -> m_offset m = ByteOffset b ->
      visits sz (m_tid m) (Name n :: cs) u a -> visits sz t (Name n :: cs) u (b + a).

  (** A path component on a type moves to: the array element, or a member. *)
  Definition anonymous_link (t u : N) : Prop :=
    exists ty ms m, from_id ti t = Some ty /\ members_of ty ms /\ In m ms /\ m_name m = None /\ m_tid m = u.
End Table.

(** ** Results of offset_of: what it returns, if it returns *)
Definition offset_of_returns (c : build) (ti : type_information) (t : N) (p : str) (r : outcome error_kind (N * offset)) : Prop :=
  r <> Diverge /\ exists fuel, offset_of_uncached fuel c ti t p = r.
Definition offset_of_never_returns (c : build) (ti : type_information) (t : N) (p : str) : Prop :=
  forall fuel, offset_of_uncached fuel c ti t p = Diverge.

(** ** Well-behaved tables *)
(** Any link the queries follow: to the target of a typedef, qualifier,
    forward, tag or variable, to an array's element, into an anonymous member. *)
Definition link (ti : type_information) (t u : N) : Prop :=
  transparent ti t u \/ size_link ti t u \/ anonymous_link ti t u.
(** No chain of links goes on forever. *)
Definition acyclic (ti : type_information) : Prop := forall t, ~ endless (link ti) t.
(** No array size overflows usize. *)
Definition sizes_fit (c : build) (ti : type_information) : Prop :=
  forall t s, size ti t s -> has_size ti (fun n => n < 2 ^ usize_bits c) t s.
(** Anonymous members are not bitfields. *)
Definition anonymous_in_bytes (ti : type_information) : Prop :=
  forall t ty ms m, from_id ti t = Some ty -> members_of ty ms -> In m ms -> m_name m = None -> exists b, m_offset m = ByteOffset b.
(** A type offers the name [n]: a member has it, or an anonymous member offers it. *)
Inductive offers (ti : type_information) (n : str) : N -> Prop :=
| offers_member t ty ms m : is ti t ty -> members_of ty ms -> In m ms -> m_name m = Some n -> offers ti n t
| offers_anonymous t ty ms m : is ti t ty -> members_of ty ms -> In m ms -> m_name m = None -> offers ti n (m_tid m) -> offers ti n t.
(** The member [m] accounts for the name [n]. *)
Definition accounts (ti : type_information) (n : str) (m : member) : Prop :=
  m_name m = Some n \/ (m_name m = None /\ offers ti n (m_tid m)).
(** As in C, no name is offered by two members of the same struct or union. *)
Definition unambiguous (ti : type_information) : Prop :=
  forall t ty ms n m1 m2, is ti t ty -> members_of ty ms -> In m1 ms -> In m2 ms ->
    accounts ti n m1 -> accounts ti n m2 -> m1 = m2.
(** A path component that leads nowhere from [u]: an index on something that is
    not an array or has not as many elements, a name on something that is
    neither struct nor union, or that offers no such name. *)
Definition has_members (ty : type_variant) : Prop := exists ms, members_of ty ms.
Definition refused (ti : type_information) (u : N) (x : component) : Prop :=
  match x with
  | Index i => exists ty, is ti u ty /\ match ty with TArray _ d => element_count d <= i | _ => True end
  | Name n => exists ty, is ti u ty /\ (~ has_members ty \/ (has_members ty /\ ~ offers ti n u))
  end.
(** Structs and unions contain their members. *)
Definition consistent (ti : type_information) : Prop :=
  forall t ty ms m st, from_id ti t = Some ty -> members_of ty ms -> In m ms -> stored_size ty st ->
    match m_offset m with
    | ByteOffset b => exists s, size ti (m_tid m) s /\ b + s <= st
    | BitOffsetAndSize b z => b + z <= 8 * st
    end.
(** Bitfields are numbers, not structs or unions. *)
Definition plain_bitfields (ti : type_information) : Prop :=
  forall t ty ms m b z, from_id ti t = Some ty -> members_of ty ms -> In m ms -> m_offset m = BitOffsetAndSize b z ->
    forall ty', is ti (m_tid m) ty' -> ~ has_members ty'.
(** The same result, [a] bytes further on. *)
Definition moved (a : N) {E} (r : outcome E (N * offset)) : outcome E (N * offset) :=
  match r with Ok (u, o) => Ok (u, shift a o) | r => r end.
