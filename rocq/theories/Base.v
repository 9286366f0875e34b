(** * Base: outcomes, machine integers, strings, ordered maps and loops.

    Model file: definitions only, no proofs.  Paths are relative to /repo. *)
From Coq Require Export List NArith ZArith Bool.
From Coq Require Export Init.Byte.
From Coq Require Import Strings.Byte.
Export ListNotations.
Open Scope N_scope.

(** src/btf/error.rs:12-55, [enum ErrorKind].  Simplification: only the kind of
    an error is modelled, not its message (error.rs:59-66). *)
Inductive error_kind :=
| IOError | EOF | InvalidOffset | InvalidMagic | InvalidBTFKind
| InvalidStringOffset | InvalidString | UnsupportedType
| InvalidTypeHeaderAttribute | InvalidTypeSectionOffset | InvalidTypePath
| InvalidTypeID | NotSized | UnexpectedBitfield.

(** Why a Rust program would panic here: arithmetic overflow with overflow
    checks on, a [str] slice off a character boundary, an index out of range. *)
Inductive panic := ArithmeticOverflow | SliceNotOnCharBoundary | IndexOutOfRange.

(** What a call can do: src/btf/error.rs:68, [type Result<T>], plus the two
    outcomes Rust's [Result] does not show: a panic, and not returning at all
    (an endless loop, or a recursion that exhausts the stack). *)
Inductive outcome (E A : Type) :=
| Ok (a : A)
| Err (e : E)
| Panic (p : panic)
| Diverge.
Arguments Ok {E A} a.
Arguments Err {E A} e.
Arguments Panic {E A} p.
Arguments Diverge {E A}.

Definition obind {E A B} (m : outcome E A) (k : A -> outcome E B) : outcome E B :=
  match m with
  | Ok a => k a
  | Err e => Err e
  | Panic p => Panic p
  | Diverge => Diverge
  end.

(** Build configuration: Cargo.toml fixes neither the target nor the profile.
    [overflow_checks] is on in debug builds (overflow panics) and off in
    release builds (overflow wraps). *)
Record build := { usize_bits : N; overflow_checks : bool }.

Definition two_pow (bits : N) : N := 2 ^ bits.

(** Rust's [+] and [*] on an unsigned integer of the given width. *)
Definition wrap_or_panic {E} (c : build) (bits v : N) : outcome E N :=
  if v <? two_pow bits then Ok v
  else if overflow_checks c then Panic ArithmeticOverflow
  else Ok (v mod two_pow bits).
Definition add_u32 {E} (c : build) (x y : N) : outcome E N := wrap_or_panic c 32 (x + y).
Definition add_usize {E} (c : build) (x y : N) : outcome E N :=
  wrap_or_panic c (usize_bits c) (x + y).
Definition mul_usize {E} (c : build) (x y : N) : outcome E N :=
  wrap_or_panic c (usize_bits c) (x * y).

(** Rust's [checked_add]/[checked_mul] at a given width. *)
Definition checked (bits v : N) : option N := if v <? two_pow bits then Some v else None.
(** [.ok_or_else(..)?] *)
Definition ok_or {E A} (e : E) (o : option A) : outcome E A :=
  match o with Some a => Ok a | None => Err e end.

(** A Rust [String]/[str] is its list of UTF-8 bytes. *)
Definition str := list byte.

Definition bval (b : byte) : N := Byte.to_N b.
Definition byte_of (n : N) : byte :=
  match Byte.of_N (n mod 256) with Some b => b | None => x00 end.

(** [String::push(u8 as char)] (src/btf/string.rs:62-71): the byte is read as
    the Unicode scalar of the same number (Latin-1) and appended in UTF-8. *)
Definition utf8_of_latin1 (b : byte) : str :=
  if bval b <? 128 then [b]
  else [byte_of (0xC0 + bval b / 64); byte_of (0x80 + bval b mod 64)].
Definition push_char (s : str) (b : byte) : str := s ++ utf8_of_latin1 b.

Fixpoint str_compare (a b : str) : comparison :=
  match a, b with
  | [], [] => Eq
  | [], _ :: _ => Lt
  | _ :: _, [] => Gt
  | x :: a', y :: b' =>
      match N.compare (bval x) (bval y) with Eq => str_compare a' b' | c => c end
  end.
Definition str_eqb (a b : str) : bool :=
  match str_compare a b with Eq => true | _ => false end.

(** [std::collections::BTreeMap] as the list of its entries in key order
    (the order in which it iterates). *)
Section BTreeMap.
  Context {K V : Type} (cmp : K -> K -> comparison).
  Fixpoint bt_insert (k : K) (v : V) (m : list (K * V)) : list (K * V) :=
    match m with
    | [] => [(k, v)]
    | (k', v') :: m' =>
        match cmp k k' with
        | Lt => (k, v) :: m
        | Eq => (k, v) :: m'
        | Gt => (k', v') :: bt_insert k v m'
        end
    end.
  Fixpoint bt_get (k : K) (m : list (K * V)) : option V :=
    match m with
    | [] => None
    | (k', v') :: m' => match cmp k k' with Eq => Some v' | _ => bt_get k m' end
    end.
End BTreeMap.

(** Running a loop body at most [n] times ([n] binary, so that a large bound
    costs nothing when the body stops early). *)
Section Loop.
  Context {S R : Type} (step : S -> S + R).
  Fixpoint loop_pos (p : positive) (s : S) : S + R :=
    match p with
    | xH => step s
    | xO q => match loop_pos q s with inl s' => loop_pos q s' | inr r => inr r end
    | xI q =>
        match step s with
        | inl s1 => match loop_pos q s1 with inl s2 => loop_pos q s2 | inr r => inr r end
        | inr r => inr r
        end
    end.
  Definition loop_N (n : N) (s : S) : S + R :=
    match n with N0 => inl s | Npos p => loop_pos p s end.
End Loop.
