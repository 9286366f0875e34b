(** * ToolsSpec: what the command line tools are asked, and how they answer (C54). *)
From Coq Require Import Strings.String.
From Coq Require Import List NArith Strings.Byte.
From Verif Require Import TypeInfo Spec PathSpec QuerySpec Final.
Import ListNotations.
Open Scope N_scope.

(** The file describes the types [ts] (C03). *)
Definition contents (img : list byte) (ts : list type_variant) : Prop := describes_exactly img ts \/ describes_but_tail img ts.
Definition text_of (x : String.string) : str := String.list_byte_of_string x.
Arguments text_of x%string.
(** [name] means the type [i]: void is 0, otherwise it is the last type of that name. *)
Definition meaning (ts : list type_variant) (name : str) (i : N) : Prop :=
  (name = text_of "void" /\ i = 0) \/
  (name <> text_of "void" /\ carries ts i name /\ forall j, carries ts j name -> j <= i).
(** [ti] is the table of the types [ts]. *)
Definition table (ts : list type_variant) (ti : type_information) : Prop :=
  (forall i t, from_id ti i = Some t <-> (i = 0 /\ t = TVoid) \/ type_at ts i t) /\
  forall n i, id_of ti n = Some i <-> meaning ts n i.
(** The file at [path] is a BTF file, [ti] is the table of its types, in which [name] means [i]. *)
Definition asked (fs : str -> option (list byte)) (path name : str) (ti : type_information) (i : N) : Prop :=
  exists img ts, fs path = Some img /\ contents img ts /\ table ts ti /\ meaning ts name i.

(** The answers, as text. *)
Definition size_text (name : str) (i z : N) : str :=
  text_of "Type " ++ name ++ text_of " has ID " ++ decimal i ++ text_of " and requires " ++ decimal z ++ text_of " bytes in total".
Definition place_text (u : N) (o : offset) : str :=
  match o with
  | ByteOffset b => text_of "(" ++ decimal u ++ text_of ", ByteOffset(" ++ decimal b ++ text_of "))"
  | BitOffsetAndSize b z => text_of "(" ++ decimal u ++ text_of ", BitOffsetAndSize(" ++ decimal b ++ text_of ", " ++ decimal z ++ text_of "))"
  end.
Definition offset_text (name p : str) (u : N) (o : offset) : str := name ++ text_of " => " ++ p ++ text_of ": " ++ place_text u o.
