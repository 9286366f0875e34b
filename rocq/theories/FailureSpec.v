(** * FailureSpec: why a command line tool fails, and how it says so (C68). *)
From Coq Require Import Strings.String.
From Coq Require Import List NArith Strings.Byte.
From Verif Require Import TypeInfo Spec PathSpec QuerySpec Message LoadMessage LoadMessageSpec MessageSpec DebugSpec Tools ToolsSpec Failure.
Import ListNotations.
Open Scope N_scope.

Definition kind_word (k : error_kind) : str :=
  match k with
  | IOError => words "IOError" | EOF => words "EOF" | InvalidOffset => words "InvalidOffset" | InvalidMagic => words "InvalidMagic"
  | InvalidBTFKind => words "InvalidBTFKind" | InvalidStringOffset => words "InvalidStringOffset" | InvalidString => words "InvalidString"
  | UnsupportedType => words "UnsupportedType" | InvalidTypeHeaderAttribute => words "InvalidTypeHeaderAttribute"
  | InvalidTypeSectionOffset => words "InvalidTypeSectionOffset" | InvalidTypePath => words "InvalidTypePath"
  | InvalidTypeID => words "InvalidTypeID" | NotSized => words "NotSized" | UnexpectedBitfield => words "UnexpectedBitfield"
  end.
(** [t] shows an error of kind [k] with the message [m], quoted as in Rust source. *)
Definition shows_error (k : error_kind) (m t : str) : Prop :=
  exists q, quoted m q /\ t = words "Error { kind: " ++ kind_word k ++ words ", message: " ++ q ++ words " }".

(** Why a tool can fail. *)
Inductive cause :=
| CannotOpen              (* there is no such file *)
| Broken (m : lmessage)   (* its bytes are wrong *)
| TooShort                (* it ends too early *)
| NoSuchName              (* no type has the name *)
| Query (m : message)     (* the size or the offset cannot be told *)
| TooBig.                 (* an array size does not fit usize, in a build that checks for overflow *)

(** The text [t] tells the cause. *)
Definition tells (sys : system) (path : str) (c : cause) (t : str) : Prop :=
  let unwrapped x := words "called `Result::unwrap()` on an `Err` value: " ++ x in
  match c with
  | CannotOpen => t = unwrapped (open_error sys path)
  | Broken m => exists x e, lmessage_text m = Some x /\ shows_error (lmessage_kind m) x e /\ t = unwrapped e
  | TooShort => exists e, shows_error IOError (short_read sys) e /\ t = unwrapped e
  | NoSuchName => t = words "called `Option::unwrap()` on a `None` value"
  | Query m => exists e, shows_error (message_kind m) (message_text m) e /\ t = unwrapped e
  | TooBig => t = words "attempt to multiply with overflow"
  end.

(** The file is not opened, or it is no BTF file. *)
Definition file_cause (sys : system) (path : str) (c : cause) : Prop :=
  match c with
  | CannotOpen => sys_files sys path = None
  | Broken m => exists img, sys_files sys path = Some img /\ broken_says img m
  | TooShort => exists img, sys_files sys path = Some img /\ (forall ts, ~ contents img ts) /\ forall m, ~ broken_says img m
  | _ => False
  end.
(** The file at [path] is a BTF file and [ti] is its table. *)
Definition loaded_from (b : build) (sys : system) (path : str) (ti : type_information) : Prop :=
  exists img, sys_files sys path = Some img /\ type_information_new {| cfg := b; rd := readable_file img |} = Ok ti.
Definition size_cause (b : build) (sys : system) (path name : str) (c : cause) : Prop :=
  file_cause sys path c \/ exists ti, loaded_from b sys path ti /\
  match c with
  | NoSuchName => id_of ti name = None
  | Query m => exists i, id_of ti name = Some i /\ size_reason ti i m
  | TooBig => exists i z, id_of ti name = Some i /\ overflow_checks b = true /\ size ti i z /\ ~ has_size ti (fun n => n < 2 ^ usize_bits b) i z
  | _ => False
  end.
Definition offset_cause (b : build) (sys : system) (path name p : str) (c : cause) : Prop :=
  file_cause sys path c \/ exists ti, loaded_from b sys path ti /\
  match c with
  | NoSuchName => id_of ti name = None
  | Query m => exists i, id_of ti name = Some i /\ offset_of_says b ti i p m
  | TooBig => exists i, id_of ti name = Some i /\ offset_of_returns b ti i p (Panic ArithmeticOverflow)
  | _ => False
  end.

(** A run without what is said on the standard error. *)
Definition silent (r : frun) : run :=
  {| printed := fprinted r; ended := match fended r with FReturned => Returned | FPanicked _ => Panicked | FNoReturn => NoReturn end |}.
