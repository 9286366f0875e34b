(** * Failure: the three command line tools again, with what they say when they panic.  Model file.
    Same control flow as Tools.v (FailureFacts.v proves that forgetting the messages gives the runs there).
    The message is that of the panic; the hook of the standard library writes it to the standard error, behind the
    thread's name and the place in the source, which are not modelled.
    Simplification: as in Debug.v, [{:?}] of a text is modelled for characters up to U+00FF. *)
From Coq Require Import List NArith Strings.Byte Strings.String.
From Verif Require Export TypeInfo.
From Verif Require Import Debug Message LoadMessage Tools.
Import ListNotations.
Open Scope N_scope.

(** What the operating system contributes: the files, the [{:?}] text of the [io::Error] when a file cannot be opened, and
    the text of the [io::Error] when a file ends before the bytes asked for. *)
Record system := { sys_files : files; open_error : str -> str; short_read : str }.

Inductive fending := FReturned | FPanicked (message : str) | FNoReturn.
Record frun := { fprinted : list line; fended : fending }.

(** src/btf/error.rs:12-54, [#[derive(Debug)]] *)
Definition error_kind_debug (k : error_kind) : str :=
  match k with
  | IOError => txt "IOError" | EOF => txt "EOF" | InvalidOffset => txt "InvalidOffset" | InvalidMagic => txt "InvalidMagic"
  | InvalidBTFKind => txt "InvalidBTFKind" | InvalidStringOffset => txt "InvalidStringOffset" | InvalidString => txt "InvalidString"
  | UnsupportedType => txt "UnsupportedType" | InvalidTypeHeaderAttribute => txt "InvalidTypeHeaderAttribute"
  | InvalidTypeSectionOffset => txt "InvalidTypeSectionOffset" | InvalidTypePath => txt "InvalidTypePath"
  | InvalidTypeID => txt "InvalidTypeID" | NotSized => txt "NotSized" | UnexpectedBitfield => txt "UnexpectedBitfield"
  end.
(** src/btf/error.rs:57-64, [#[derive(Debug)]] *)
Definition debug_error (k : error_kind) (message : str) : str :=
  debug_struct "Error" [field "kind" (error_kind_debug k); field "message" (debug_str message)].

(** The messages of [Result::unwrap], [Option::unwrap] and of the arithmetic operators *)
Definition result_unwrap (error : str) : str := txt "called `Result::unwrap()` on an `Err` value: " ++ error.
Definition option_unwrap : str := txt "called `Option::unwrap()` on a `None` value".
Definition add_overflow : str := txt "attempt to add with overflow".
Definition multiply_overflow : str := txt "attempt to multiply with overflow".

(** [.unwrap()] on the result of a call: [say] is the message for its error, [crash] that of a panic inside of it. *)
Definition funwrap {E A} (before : list line) (say : E -> str) (crash : str) (o : outcome E A) (rest : A -> frun) : frun :=
  match o with
  | Ok a => rest a
  | Err e => {| fprinted := before; fended := FPanicked (say e) |}
  | Panic _ => {| fprinted := before; fended := FPanicked crash |}
  | Diverge => {| fprinted := before; fended := FNoReturn |}
  end.

(** The error of a failed load; a Readable that reads a file (examples/dump-btf.rs:25-31) turns the [io::Error] into an
    [Error] of kind IOError with its text (src/btf/error.rs:90-98). *)
Definition say_load (sys : system) (m : lmessage) : str :=
  result_unwrap (debug_error (lmessage_kind m) (match lmessage_text m with Some t => t | None => short_read sys end)).
Definition say_query (m : message) : str := result_unwrap (debug_error (message_kind m) (message_text m)).

(** examples/dump-btf.rs:17-23 and 40-44, the same lines in the two others *)
Definition open_btf_msg (b : build) (sys : system) (path : str) (rest : type_information -> frun) : frun :=
  funwrap [Opening path] (fun _ => result_unwrap (open_error sys path)) [] (some (sys_files sys path)) (fun img =>
    funwrap [Opening path] (say_load sys) add_overflow (type_information_new_msg {| cfg := b; rd := readable_file img |}) rest).

(** examples/dump-btf.rs:33-46 *)
Definition dump_btf_msg (b : build) (sys : system) (args : list str) : frun :=
  match args with
  | [_; path] => open_btf_msg b sys path (fun ti => {| fprinted := [Opening path; Types (get ti)]; fended := FReturned |})
  | _ => {| fprinted := printed (dump_btf b (sys_files sys) args); fended := FReturned |}
  end.

(** examples/get-type-size.rs:33-50 *)
Definition get_type_size_msg (b : build) (sys : system) (args : list str) : frun :=
  match args with
  | [_; path; name] =>
      open_btf_msg b sys path (fun ti =>
        funwrap [Opening path] (fun _ => option_unwrap) [] (some (id_of ti name)) (fun tid =>
          funwrap [Opening path] say_query multiply_overflow (size_msg b ti tid) (fun size =>
            {| fprinted := [Opening path;
                 Text (says "Type " ++ name ++ says " has ID " ++ show tid ++ says " and requires " ++ show size ++ says " bytes in total")];
               fended := FReturned |})))
  | _ => {| fprinted := printed (get_type_size b (sys_files sys) args); fended := FReturned |}
  end.

(** examples/get-type-offset.rs:33-53 *)
Definition get_type_offset_msg (fuel : nat) (b : build) (sys : system) (args : list str) : frun :=
  match args with
  | [_; path; name; tpath] =>
      open_btf_msg b sys path (fun ti =>
        funwrap [Opening path] (fun _ => option_unwrap) [] (some (id_of ti name)) (fun tid =>
          funwrap [Opening path] say_query multiply_overflow (offset_of_msg fuel b ti tid tpath) (fun v =>
            {| fprinted := [Opening path; Text (name ++ says " => " ++ tpath ++ says ": " ++ show_place v)];
               fended := FReturned |})))
  | _ => {| fprinted := printed (get_type_offset fuel b (sys_files sys) args); fended := FReturned |}
  end.
