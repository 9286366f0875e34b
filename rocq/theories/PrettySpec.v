(** * PrettySpec: texts of several lines, and how values stand in them (C82).  [written], [quoted], [shows], [has_entry]: DebugSpec.v. *)
From Coq Require Import Strings.String.
From Coq Require Import List NArith ZArith Strings.Byte.
From Verif Require Import TypeInfo Spec PathSpec DebugSpec.
Import ListNotations.

Open Scope nat_scope.

(** The lines of a text. *)
Fixpoint lines (t : str) : list str :=
  match t with
  | [] => [[]]
  | x0a :: t' => [] :: lines t'
  | b :: t' => match lines t' with l :: ls => (b :: l) :: ls | [] => [[b]] end
  end.
(** [n] levels of four spaces. *)
Definition at_level (n : nat) (x : str) : str := repeat x20 (4 * n) ++ x.
(** These lines stand in the text, in this order and with nothing between them. *)
Definition has_lines (ls : list str) (t : str) : Prop := exists before after, lines t = before ++ ls ++ after.

(** [stands n v pre ls]: the lines [ls] are the value [v] behind [pre] at level [n]: in one line, or opened, its parts one level further in, and closed. *)
Inductive stands (n : nat) (pre : str) : value -> list str -> Prop :=
| stands_number z : stands n pre (Number z) [at_level n (pre ++ integer_text z ++ words ",")]
| stands_flag b : stands n pre (Flag b) [at_level n (pre ++ (if b then words "true" else words "false") ++ words ",")]
| stands_word w : stands n pre (Word w) [at_level n (pre ++ w ++ words ",")]
| stands_quoted s q : quoted s q -> stands n pre (Quoted s) [at_level n (pre ++ q ++ words ",")]
| stands_none : stands n pre (Named None) [at_level n (pre ++ words "None,")]
| stands_some s q : quoted s q -> stands n pre (Named (Some s)) [at_level n (pre ++ words "Some("); at_level (S n) (q ++ words ","); at_level n (words "),")]
| stands_byte b : stands n pre (Place (ByteOffset b)) [at_level n (pre ++ words "ByteOffset("); at_level (S n) (decimal b ++ words ","); at_level n (words "),")]
| stands_bits b z : stands n pre (Place (BitOffsetAndSize b z))
    [at_level n (pre ++ words "BitOffsetAndSize("); at_level (S n) (decimal b ++ words ","); at_level (S n) (decimal z ++ words ","); at_level n (words "),")].
(** Labelled values one after the other. *)
Inductive stand (n : nat) : list (String.string * value) -> list str -> Prop :=
| stand_end : stand n [] []
| stand_more l v rest ls ls' : stands n (words l ++ words ": ") v ls -> stand n rest ls' -> stand n ((l, v) :: rest) (ls ++ ls').
(** An enumerator. *)
Definition enumerator_lines (n : nat) (name : String.string) (v : named_value) (ls : list str) : Prop :=
  exists q, quoted (nv_name v) q /\
  ls = [at_level n (words name ++ words " {"); at_level (S n) (words "name: " ++ q ++ words ",");
        at_level (S n) (words "value: " ++ match nv_value v with Signed _ => words "Signed(" | Unsigned _ => words "Unsigned(" end);
        at_level (S (S n)) (match nv_value v with Signed z => integer_text z | Unsigned u => decimal u end ++ words ",");
        at_level (S n) (words "),"); at_level n (words "},")].

(** How many lines a type takes: what its names are does not matter. *)
Definition name_lines (o : option str) : nat := match o with None => 1 | Some _ => 3 end.
Definition sum_lines {A} (f : A -> nat) (l : list A) : nat := match l with [] => 1 | _ => 2 + fold_right (fun a n => f a + n) 0 l end.
Definition member_lines (m : member) : nat := 4 + name_lines (m_name m) + match m_offset m with ByteOffset _ => 3 | BitOffsetAndSize _ _ => 4 end.
Definition type_lines (t : type_variant) : nat :=
  match t with
  | TVoid => 1
  | TInt _ d => 19 + name_lines (int_name d)
  | TTypedef _ d | TFwd _ d | TTypeTag _ d | TFunc _ d => 14 + name_lines (nl_name d)
  | TEnum _ d | TEnum64 _ d => 15 + name_lines (enum_name d) + sum_lines (fun _ => 6) (named_value_list d)
  | TPtr _ _ | TConst _ _ | TVolatile _ _ | TRestrict _ _ => 14
  | TArray _ _ => 16
  | TFuncProto _ d => 14 + sum_lines (fun p => 4 + name_lines (p_name p)) (parameter_list d)
  | TStruct _ d | TUnion _ d => 14 + name_lines (struct_name d) + sum_lines member_lines (member_list d)
  | TVar _ d => 16 + name_lines (var_name d)
  | TFloat _ d => 14 + name_lines (float_name d)
  | TDataSec _ d => 14 + name_lines (ds_name d) + sum_lines (fun _ => 5) (variable_list d)
  | TDeclTag _ d => 15 + name_lines (dt_name d)
  end.
(** Text in front of the first line, and behind the last. *)
Definition with_front (x : str) (ls : list str) : list str := match ls with [] => [] | l :: ls' => (x ++ l) :: ls' end.
Definition with_end (x : str) (ls : list str) : list str := removelast ls ++ [last ls [] ++ x].
(** The table: each type behind its id, one level in, with a comma. *)
Definition table_lines (text_of : type_variant -> str) (l : list (N * type_variant)) : list str :=
  match l with
  | [] => [words "{}"]
  | _ => [words "{"] ++ flat_map (fun e => map (at_level 1) (with_front (decimal (fst e) ++ words ": ") (with_end (words ",") (lines (text_of (snd e)))))) l ++ [words "}"]
  end.
(** The name of the struct of an enumerator. *)
Definition value_struct (t : type_variant) : String.string := match t with TEnum64 _ _ => "NamedValue64" | _ => "NamedValue32" end.
