(** * MergeSpec: merging equal declarations, as `pahole` and the linker do before a BTF file is written (C80).
    Specification, written without the model's functions. *)
From Coq Require Import List NArith.
From Verif Require Import TypeInfo Encode QuerySpec RenumberSpec.
Import ListNotations.
Open Scope N_scope.

(** The declaration with the id [t]. *)
Definition at_id (ds : list decl) (t : N) (d : decl) : Prop := 1 <= t /\ nth_error ds (N.to_nat (t - 1)) = Some d.
(** The name a declaration gives to its type. *)
Definition called (d : decl) : option str :=
  match d with
  | DInt n _ _ _ _ _ _ | DStruct n _ _ _ | DUnion n _ _ _ | DEnum n _ _ _ | DEnum64 n _ _ _ | DFwd n _ _ | DTypedef n _ | DFunc n _ _
  | DTypeTag n _ | DVar n _ _ | DDataSec n _ _ | DFloat n _ | DDeclTag n _ _ => n
  | DPtr _ | DArray _ _ _ | DVolatile _ | DConst _ | DRestrict _ | DFuncProto _ _ => None
  end.

(** [merged f ds1 ds2]: [ds2] has the declarations of [ds1], the one with the id [t] under the id [f t]. Two may have got the same id
    if they say the same (in the new ids). Nothing else is in [ds2], void is void, and ids of nothing are ids of nothing. *)
Record merged (f : N -> N) (ds1 ds2 : list decl) : Prop := {
  m_void : f 0 = 0;
  m_kept : forall t d, at_id ds1 t d -> at_id ds2 (f t) (rename f d);
  m_nothing_added : forall u d, at_id ds2 u d -> exists t d0, at_id ds1 t d0 /\ u = f t;
  m_unknown : forall t, t <> 0 -> (forall d, ~ at_id ds1 t d) -> f t <> 0 /\ forall d, ~ at_id ds2 (f t) d }.
(** All declarations called [n] are merged into one. *)
Definition becomes_one (f : N -> N) (ds : list decl) (n : str) : Prop :=
  forall t t' d d', at_id ds t d -> at_id ds t' d' -> called d = Some n -> called d' = Some n -> f t = f t'.

(** [rep t]: the declaration that stands for [t] after the merge. It says the same, if each id is replaced by that which stands for it (so
    declarations that mention each other in circles can be merged as well). *)
Record represents (rep : N -> N) (ds : list decl) : Prop := {
  r_same : forall t d, at_id ds t d -> rep (rep t) = rep t /\ exists d', at_id ds (rep t) d' /\ rename rep d = rename rep d';
  r_other : forall t, (forall d, ~ at_id ds t d) -> rep t = t }.
(** Only those are kept that stand for themselves (the first of [ds] has the id [t]) ... *)
Fixpoint keep (rep : N -> N) (t : N) (ds : list decl) : list decl :=
  match ds with
  | [] => []
  | d :: ds' => if rep t =? t then d :: keep rep (t + 1) ds' else keep rep (t + 1) ds'
  end.
(** ... and are numbered anew. *)
Definition new_id (rep : N -> N) (ds : list decl) (t : N) : N :=
  if rep t <=? len ds then len (keep rep 1 (firstn (N.to_nat (rep t)) ds)) else rep t.
Definition merge (rep : N -> N) (ds : list decl) : list decl := map (rename (new_id rep ds)) (keep rep 1 ds).
