(** * RenumberSpec: the type ids a declaration mentions, and changing them.
    Specification, written without the model's functions. *)
From Coq Require Import List NArith.
From Verif Require Import TypeInfo Encode QuerySpec.
Import ListNotations.
Open Scope N_scope.

(** The declaration with every type id [t] replaced by [f t]. *)
Definition rename (f : N -> N) (d : decl) : decl :=
  match d with
  | DPtr t => DPtr (f t)
  | DArray e i c => DArray (f e) (f i) c
  | DStruct n sz fl ms => DStruct n sz fl (map (fun m => (fst (fst m), f (snd (fst m)), snd m)) ms)
  | DUnion n sz fl ms => DUnion n sz fl (map (fun m => (fst (fst m), f (snd (fst m)), snd m)) ms)
  | DFwd n u t => DFwd n u (f t)
  | DTypedef n t => DTypedef n (f t)
  | DVolatile t => DVolatile (f t)
  | DConst t => DConst (f t)
  | DRestrict t => DRestrict (f t)
  | DFunc n l t => DFunc n l (f t)
  | DFuncProto ps r => DFuncProto (map (fun p => (fst p, f (snd p))) ps) (f r)
  | DVar n t l => DVar n (f t) l
  | DDataSec n sz vs => DDataSec n sz (map (fun v => (f (fst (fst v)), snd (fst v), snd v)) vs)
  | DDeclTag n t c => DDeclTag n (f t) c
  | DTypeTag n t => DTypeTag n (f t)
  | DInt _ _ _ _ _ _ _ | DEnum _ _ _ _ | DFloat _ _ | DEnum64 _ _ _ _ => d
  end.
(** The type ids it mentions. *)
Definition mentions (d : decl) : list N :=
  match d with
  | DPtr t | DFwd _ _ t | DTypedef _ t | DVolatile t | DConst t | DRestrict t | DFunc _ _ t
  | DVar _ t _ | DDeclTag _ t _ | DTypeTag _ t => [t]
  | DArray e i _ => [e; i]
  | DStruct _ _ _ ms | DUnion _ _ _ ms => map (fun m => snd (fst m)) ms
  | DFuncProto ps r => r :: map snd ps
  | DDataSec _ _ vs => map (fun v => fst (fst v)) vs
  | DInt _ _ _ _ _ _ _ | DEnum _ _ _ _ | DFloat _ _ | DEnum64 _ _ _ _ => []
  end.

(** What the table shows under an id: nothing, void, or a declaration. *)
Inductive shown := Unknown | Void | Shown (d : decl).
Definition shows (ti : type_information) (t : N) : shown :=
  match from_id ti t with
  | None => Unknown
  | Some ty => match view ty with None => Void | Some d => Shown d end
  end.

(** The types [D] of the table [ti1] - with any type, [D] has all those it mentions - are in [ti2] under the
    ids given by [f]. *)
Definition renumbered (D : N -> Prop) (f : N -> N) (ti1 ti2 : type_information) : Prop :=
  forall t, D t ->
    match shows ti1 t with
    | Unknown => shows ti2 (f t) = Unknown
    | Void => shows ti2 (f t) = Void
    | Shown d => shows ti2 (f t) = Shown (rename f d) /\ Forall D (mentions d)
    end.

Definition map_ok {E A B} (g : A -> B) (o : outcome E A) : outcome E B :=
  match o with Ok a => Ok (g a) | Err k => Err k | Panic p => Panic p | Diverge => Diverge end.

(** The two tables answer every query alike. *)
Definition answer_alike (c : build) (ti1 ti2 : type_information) : Prop :=
  map fst (get ti2) = map fst (get ti1) /\ map view (map snd (get ti2)) = map view (map snd (get ti1)) /\
  (forall i, option_map view (from_id ti2 i) = option_map view (from_id ti1 i)) /\
  (forall i, name_of ti2 i = name_of ti1 i) /\ (forall n, id_of ti2 n = id_of ti1 n) /\
  (forall t, size_of c ti2 t = size_of c ti1 t) /\ (forall t, pointee_tid ti2 t = pointee_tid ti1 t) /\
  (forall t p r, offset_of_returns c ti2 t p r <-> offset_of_returns c ti1 t p r).
