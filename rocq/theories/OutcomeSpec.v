(** * OutcomeSpec: where a path gets to, and why it goes no further (C52). *)
From Coq Require Import List NArith Bool.
From Verif Require Import TypeInfo PathSpec QuerySpec.
Import ListNotations.
Open Scope N_scope.

Section Table.
  Context (ti : type_information) (sz : N -> N -> Prop).
  (** [gets o t cs o' u rest]: standing at the place [o], of type [t], with the path [cs] to go, one can get to the
      place [o'], of type [u], with [rest] to go: by taking components, and by entering anonymous members. *)
  Inductive gets : offset -> N -> list component -> offset -> N -> list component -> Prop :=
  | gets_here o t cs : gets o t cs o t cs
  | gets_index a t h d i s cs o' u rest :
      is ti t (TArray h d) -> i < element_count d -> sz (element_tid d) s ->
      gets (ByteOffset (a + i * s)) (element_tid d) cs o' u rest -> gets (ByteOffset a) t (Index i :: cs) o' u rest
  | gets_member a t ty ms n m cs o' u rest :
      is ti t ty -> members_of ty ms -> named ms n m ->
      gets (shift a (m_offset m)) (m_tid m) cs o' u rest -> gets (ByteOffset a) t (Name n :: cs) o' u rest
  | gets_anonymous o t ty ms n m b cs o' u rest :
      is ti t ty -> members_of ty ms -> In m ms -> m_name m = None -> m_offset m = ByteOffset b ->
      gets (shift b o) (m_tid m) (Name n :: cs) o' u rest -> gets o t (Name n :: cs) o' u rest.

  (** [blocked bad o u rest k]: at the place [o], of type [u], the rest of the path fails, and [k] says why. [bad]: the
      text of the path is malformed after its last component. *)
  Inductive blocked (bad : Prop) : offset -> N -> list component -> error_kind -> Prop :=
  | malformed o u : bad -> blocked bad o u [] InvalidTypePath
  (** the type is not in the table *)
  | unknown o u x rest r : chain (transparent ti) u r -> from_id ti r = None -> blocked bad o u (x :: rest) InvalidTypeID
  (** the place is beyond 4 GiB (for a bitfield, 512 MiB) *)
  | beyond o u rest : ~ fits32 o -> blocked bad o u rest InvalidOffset
  (** not an array, or no such element *)
  | no_element o u i rest ty : is ti u ty -> match ty with TArray _ d => element_count d <= i | _ => True end ->
      blocked bad o u (Index i :: rest) InvalidTypePath
  (** the elements have no size *)
  | no_element_size o u i rest h d k : is ti u (TArray h d) -> i < element_count d -> no_size ti (element_tid d) k ->
      blocked bad o u (Index i :: rest) k
  | element_too_far o u i rest h d s : is ti u (TArray h d) -> i < element_count d -> sz (element_tid d) s -> 2 ^ 32 <= i * s ->
      blocked bad o u (Index i :: rest) InvalidTypePath
  (** the path goes on inside a bitfield *)
  | element_of_bitfield b z u i rest h d : is ti u (TArray h d) -> i < element_count d ->
      blocked bad (BitOffsetAndSize b z) u (Index i :: rest) UnexpectedBitfield
  | member_of_bitfield b z u n rest ty ms m : is ti u ty -> members_of ty ms -> named ms n m ->
      blocked bad (BitOffsetAndSize b z) u (Name n :: rest) UnexpectedBitfield
  (** neither struct nor union *)
  | no_members o u n rest ty : is ti u ty -> ~ has_members ty -> blocked bad o u (Name n :: rest) InvalidTypePath
  (** an unnamed bitfield *)
  | unnamed_bitfield o u n rest ty ms m b z : is ti u ty -> members_of ty ms -> In m ms -> m_name m = None ->
      m_offset m = BitOffsetAndSize b z -> blocked bad o u (Name n :: rest) UnexpectedBitfield
  (** no member of that name, and every anonymous member is a dead end *)
  | no_member o u n rest ty ms : is ti u ty -> members_of ty ms -> (forall m, In m ms -> m_name m <> Some n) ->
      (forall m, In m ms -> m_name m = None -> exists b o' v rest' k,
         m_offset m = ByteOffset b /\ gets (shift b o) (m_tid m) (Name n :: rest) o' v rest' /\ blocked bad o' v rest' k) ->
      blocked bad o u (Name n :: rest) InvalidTypePath.
End Table.

(** What can go wrong although the path leads somewhere, and does not at the place [o], of type [u], with [rest] to go:
    an endless chain, a place beyond 4 GiB, a size beyond usize, an unnamed bitfield, an ambiguous name. *)
Definition fine (c : build) (ti : type_information) (o : offset) (u : N) (rest : list component) : Prop :=
  ~ endless (link ti) u /\ fits32 o /\
  match rest with
  | [] => True
  | Index i :: _ => forall h d s, is ti u (TArray h d) -> i < element_count d -> size ti (element_tid d) s ->
      has_size ti (fun n => n < 2 ^ usize_bits c) (element_tid d) s
  | Name n :: _ => forall ty ms, is ti u ty -> members_of ty ms ->
      (forall m, In m ms -> m_name m = None -> exists b, m_offset m = ByteOffset b) /\
      (forall m1 m2, In m1 ms -> In m2 ms -> accounts ti n m1 -> accounts ti n m2 -> m1 = m2)
  end.

(** The text [p] consists of the components [cs], followed by something malformed if [bad]. *)
Definition text_is (c : build) (p : str) (cs : list component) (bad : Prop) : Prop :=
  (reads_as (usize_max c) p cs /\ ~ bad) \/ (malformed_after c p cs /\ bad).
