(** * Tools: the three command line tools of the examples directory.  Model file.
    Simplifications: the arguments are Unicode ([env::args] panics otherwise); a file is regular and does not change
    while a tool runs; [println!] does not fail; how [{:?}] writes a file path is not modelled
    ([Opening]), how it writes the type table is in Debug.v ([Types]: [debug_table]); what a panic message says is in Failure.v. *)
From Coq Require Import List NArith Strings.Byte Strings.String Decimal DecimalString.
From Verif Require Export TypeInfo.
Import ListNotations.
Open Scope N_scope.

(** One [println!] to the standard output. *)
Inductive line :=
| Text (t : str)
| Opening (path : str)                            (* "Opening BTF file: {path:?}" *)
| Types (l : list (N * type_variant)).            (* "{:?}" of [TypeInformation::get] *)
(** [main] returns, it panics, or it does neither. *)
Inductive ending := Returned | Panicked | NoReturn.
Record run := { printed : list line; ended : ending }.

Definition says (x : String.string) : str := String.list_byte_of_string x.
Arguments says x%string.
(** [Display] and [Debug] of [u32] and [usize]. *)
Definition show (n : N) : str := list_byte_of_string (NilEmpty.string_of_uint (N.to_uint n)).
(** [#[derive(Debug)]] of [Offset] (src/btf/offset.rs:14-21). *)
Definition show_offset (o : offset) : str :=
  match o with
  | ByteOffset b => says "ByteOffset(" ++ show b ++ says ")"
  | BitOffsetAndSize b z => says "BitOffsetAndSize(" ++ show b ++ says ", " ++ show z ++ says ")"
  end.
(** [Debug] of the pair returned by [offset_of]. *)
Definition show_place (v : N * offset) : str := says "(" ++ show (fst v) ++ says ", " ++ show_offset (snd v) ++ says ")".

(** The files that can be opened, by path. *)
Definition files := str -> option (list byte).

(** [.unwrap()]: the rest of [main] runs with the value, or [main] panics; [before] has been printed. *)
Definition unwrap {E A} (before : list line) (o : outcome E A) (rest : A -> run) : run :=
  match o with
  | Ok a => rest a
  | Err _ | Panic _ => {| printed := before; ended := Panicked |}
  | Diverge => {| printed := before; ended := NoReturn |}
  end.
Definition some {A} (o : option A) : outcome unit A := match o with Some a => Ok a | None => Err tt end.

(** examples/dump-btf.rs:17-23 and 40-44, the same lines in the two others: [ReadableFile::new] opens the file or panics
    (19), and [TypeInformation::new] is unwrapped. *)
Definition open_btf (b : build) (fs : files) (path : str) (rest : type_information -> run) : run :=
  unwrap [Opening path] (some (fs path)) (fun img =>
    unwrap [Opening path] (type_information_new {| cfg := b; rd := readable_file img |}) rest).

(** examples/dump-btf.rs:33-46 *)
Definition dump_btf (b : build) (fs : files) (args : list str) : run :=
  match args with
  | [_; path] => open_btf b fs path (fun ti => {| printed := [Opening path; Types (get ti)]; ended := Returned |})
  | _ => {| printed := [Text (says "Usage:
	dump-btf /path/to/btf/file
")]; ended := Returned |}
  end.

(** examples/get-type-size.rs:33-50 *)
Definition get_type_size (b : build) (fs : files) (args : list str) : run :=
  match args with
  | [_; path; name] =>
      open_btf b fs path (fun ti =>
        unwrap [Opening path] (some (id_of ti name)) (fun tid =>
          unwrap [Opening path] (size_of b ti tid) (fun size =>
            {| printed := [Opening path;
                 Text (says "Type " ++ name ++ says " has ID " ++ show tid ++ says " and requires " ++ show size ++ says " bytes in total")];
               ended := Returned |})))
  | _ => {| printed := [Text (says "Usage:
	get-type-size /path/to/btf/file <type_name>
")]; ended := Returned |}
  end.

(** examples/get-type-offset.rs:33-53; the object is fresh, so its cache is empty and the first call computes (Cache.v).
    [fuel]: how long to wait for [offset_of]. *)
Definition get_type_offset (fuel : nat) (b : build) (fs : files) (args : list str) : run :=
  match args with
  | [_; path; name; tpath] =>
      open_btf b fs path (fun ti =>
        unwrap [Opening path] (some (id_of ti name)) (fun tid =>
          unwrap [Opening path] (offset_of_uncached fuel b ti tid tpath) (fun v =>
            {| printed := [Opening path; Text (name ++ says " => " ++ tpath ++ says ": " ++ show_place v)];
               ended := Returned |})))
  | _ => {| printed := [Text (says "Usage:
	get-type-offset /path/to/btf/file <type_name> <path>
")]; ended := Returned |}
  end.
