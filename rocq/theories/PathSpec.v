(** * PathSpec: the type path language, as documented by the library: names
    separated by dots, array indices in brackets ("a.b[3].c", "[0][1].x").
    Specification, written without the model's functions. *)
From Coq Require Import List NArith Bool Strings.Byte Strings.String Decimal DecimalString.
From Verif Require Import TypeInfo.
Import ListNotations.
Open Scope N_scope.

Definition between (lo hi : N) (b : byte) : Prop := lo <= Byte.to_N b <= hi.
(** A byte read as the Latin-1 character of that number: letters, digits (the
    superscripts and fractions of Latin-1 count as numeric), underscore. *)
Definition letter (b : byte) : Prop :=
  between 0x41 0x5A b \/ between 0x61 0x7A b \/ b = xaa \/ b = xb5 \/ b = xba \/
  between 0xC0 0xD6 b \/ between 0xD8 0xF6 b \/ between 0xF8 0xFF b.
Definition ascii_digit (b : byte) : Prop := between 0x30 0x39 b.
Definition numeric (b : byte) : Prop :=
  ascii_digit b \/ b = xb2 \/ b = xb3 \/ b = xb9 \/ between 0xBC 0xBE b.
Definition underscore : byte := x5f.
Definition name_start (b : byte) : Prop := letter b \/ b = underscore.
Definition name_byte (b : byte) : Prop := letter b \/ numeric b \/ b = underscore.
Definition name_text (s : str) : Prop :=
  match s with [] => False | b :: s' => name_start b /\ Forall name_byte s' end.
(** C identifiers *)
Definition ascii_letter (b : byte) : Prop := between 0x41 0x5A b \/ between 0x61 0x7A b.
Definition identifier (s : str) : Prop :=
  match s with
  | [] => False
  | b :: s' => (ascii_letter b \/ b = underscore) /\ Forall (fun b => ascii_letter b \/ ascii_digit b \/ b = underscore) s'
  end.

(** The number written by decimal digits. *)
Definition decimal_value (s : str) : N := fold_left (fun v b => 10 * v + (Byte.to_N b - 0x30)) s 0.
Definition dot : str := [x2e].
Definition lbracket : str := [x5b].
Definition rbracket : str := [x5d].

(** [index_text max i s]: [s] is "[digits]" writing [i]; leading zeros are fine. *)
Definition index_text (max i : N) (s : str) : Prop :=
  exists ds, s = lbracket ++ ds ++ rbracket /\ ds <> [] /\ Forall ascii_digit ds /\ decimal_value ds = i /\ i <= max.

(** A path after its first component, and a whole path. [max] is usize::MAX. *)
Inductive path_rest (max : N) : list component -> str -> Prop :=
| rest_nil : path_rest max [] []
| rest_name n cs s : name_text n -> path_rest max cs s -> path_rest max (Name n :: cs) (dot ++ n ++ s)
| rest_index i t cs s : index_text max i t -> path_rest max cs s -> path_rest max (Index i :: cs) (t ++ s).
Inductive path (max : N) : list component -> str -> Prop :=
| path_nil : path max [] []
| path_name n cs s : name_text n -> path_rest max cs s -> path max (Name n :: cs) (n ++ s)
| path_index i t cs s : index_text max i t -> path_rest max cs s -> path max (Index i :: cs) (t ++ s).

(** What the parser understands: a path, possibly followed by one "." (if it is
    not empty), or by one "[" (if it ends with a name). *)
Definition last_is_name (cs : list component) : Prop := exists cs' n, cs = cs' ++ [Name n].
Definition reads_as (max : N) (p : str) (cs : list component) : Prop :=
  exists p0, path max cs p0 /\
    (p = p0 \/ (p = p0 ++ dot /\ cs <> []) \/ (p = p0 ++ lbracket /\ last_is_name cs)).

(** Continuing the path [p] with the path [q]. *)
Definition join (p q : str) : str :=
  match p, q with
  | [], _ => q
  | _, [] => p
  | _, b :: _ => if byte_eq_dec b x5b then p ++ q else p ++ dot ++ q
  end.

(** ** Printing *)
Definition decimal (i : N) : str := list_byte_of_string (NilEmpty.string_of_uint (N.to_uint i)).
Definition print_index (i : N) : str := lbracket ++ decimal i ++ rbracket.
Fixpoint print_rest (cs : list component) : str :=
  match cs with
  | [] => []
  | Name n :: cs' => dot ++ n ++ print_rest cs'
  | Index i :: cs' => print_index i ++ print_rest cs'
  end.
Definition print (cs : list component) : str :=
  match cs with
  | Name n :: cs' => n ++ print_rest cs'
  | _ => print_rest cs
  end.
Definition component_ok (max : N) (c : component) : Prop :=
  match c with Name n => identifier n | Index i => i <= max end.

(** ** Iterating: the results of the first [n] calls of the iterator *)
Fixpoint calls (n : nat) (c : build) (p : str) (it : piter) : list pitem :=
  match n with
  | O => []
  | S n' => let r := next c p it in fst r :: calls n' c p (snd r)
  end.
Definition yields (n : nat) (c : build) (p : str) : list pitem := calls n c p piter_new.
Definition usize_max (c : build) : N := 2 ^ usize_bits c - 1.

(** The path is accepted and means [cs]: the iterator yields [cs] and stops. *)
Definition accepted (c : build) (p : str) (cs : list component) : Prop :=
  yields (S (length cs)) c p = map (fun x => Ok (Some x)) cs ++ [Ok None].

(** The path begins with the components [cs], whatever follows. *)
Definition begins (c : build) (p : str) (cs : list component) : Prop :=
  yields (length cs) c p = map (fun x => Ok (Some x)) cs.
(** The path begins with [cs], and what follows is malformed. *)
Definition malformed_after (c : build) (p : str) (cs : list component) : Prop :=
  yields (S (length cs)) c p = map (fun x => Ok (Some x)) cs ++ [Err InvalidTypePath].
