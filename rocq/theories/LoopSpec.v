(** * LoopSpec: queries that come back to where they were (C72). *)
From Coq Require Import List NArith.
From Verif Require Import TypeInfo QuerySpec Message MessageSpec SearchSpec.
Import ListNotations.
Open Scope N_scope.

(** Following [R] from [t] one comes to some [u], and from there back to [u]. *)
Definition comes_back (R : N -> N -> Prop) (t : N) : Prop := exists u v, chain R t u /\ R u v /\ chain R v u.

(** A question: what is to be found at this place, in this type, under these components? *)
Definition question := (offset * N * list component)%type.

Section Loop.
  Context (c : build) (ti : type_information) (ending : option message).
  (** [asks q q']: to answer [q], the search (SearchSpec.v) has to answer [q']. *)
  Inductive asks : question -> question -> Prop :=
  | asks_element o t i cs h d s o' : is ti t (TArray h d) -> i < element_count d -> size_msg c ti (element_tid d) = Ok s -> i * s < 2 ^ 32 ->
      adds o (ByteOffset (i * s)) (Ok o') -> asks (o, t, Index i :: cs) (o', element_tid d, cs)
  | asks_anonymous o t n cs ty before a after o' : is ti t ty -> members_of ty (before ++ a :: after) -> m_name a = None ->
      all_fail (finds c ti ending) o n cs before -> adds (m_offset a) o (Ok o') -> asks (o, t, Name n :: cs) (o', m_tid a, Name n :: cs)
  | asks_member o t n cs ty ms a o' : is ti t ty -> members_of ty ms -> all_fail (finds c ti ending) o n cs ms ->
      named ms n a -> adds o (m_offset a) (Ok o') -> asks (o, t, Name n :: cs) (o', m_tid a, cs).
  (** in any number of steps *)
  Inductive comes_to : question -> question -> Prop :=
  | comes_here q : comes_to q q
  | comes_on q q' q'' : asks q q' -> comes_to q' q'' -> comes_to q q''.

  (** What keeps the search from ending: typedefs, qualifiers and forwards that go round, an element whose size goes
      round, or a question that has to be answered first to answer it. *)
  Definition hangs (q : question) : Prop :=
    let '(o, t, cs) := q in
    (cs <> [] /\ comes_back (transparent ti) t) \/
    (exists i cs' h d, cs = Index i :: cs' /\ is ti t (TArray h d) /\ i < element_count d /\ comes_back (size_link ti) (element_tid d)) \/
    (exists q', asks q q' /\ comes_to q' q).
End Loop.
