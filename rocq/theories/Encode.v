(** * Encode: declarations and how the BTF documentation writes them in a file
    (https://docs.kernel.org/bpf/btf.html).  Specification, written without the
    model's functions.  A file is the 24-byte header, the type section - every
    record being a sequence of 32-bit words - and the string section. *)
From Coq Require Import List NArith ZArith Bool Strings.Byte.
From Verif Require Import Format Spec.
Import ListNotations.
Open Scope N_scope.

(** What a record says, without string-table offsets. *)
Inductive decl :=
| DInt (name : option str) (size : N) (signed char boolean : bool) (offset bits : N)
| DPtr (tid : N)
| DArray (element index count : N)
| DStruct (name : option str) (size : N) (flag : bool) (members : list (option str * N * offset))
| DUnion (name : option str) (size : N) (flag : bool) (members : list (option str * N * offset))
| DEnum (name : option str) (size : N) (signed : bool) (values : list (str * integer_value))
| DFwd (name : option str) (is_union : bool) (tid : N)
| DTypedef (name : option str) (tid : N)
| DVolatile (tid : N)
| DConst (tid : N)
| DRestrict (tid : N)
| DFunc (name : option str) (linkage : N) (tid : N)
| DFuncProto (parameters : list (option str * N)) (returns : N)
| DVar (name : option str) (tid linkage : N)
| DDataSec (name : option str) (size : N) (variables : list (N * N * N))
| DFloat (name : option str) (size : N)
| DDeclTag (name : option str) (tid component : N)
| DTypeTag (name : option str) (tid : N)
| DEnum64 (name : option str) (size : N) (signed : bool) (values : list (str * integer_value)).

(** ** Names used by a declaration *)
Definition opt_name (o : option str) : list str := match o with Some s => [s] | None => [] end.
Definition names (d : decl) : list str :=
  match d with
  | DInt n _ _ _ _ _ _ | DFwd n _ _ | DTypedef n _ | DFunc n _ _ | DVar n _ _ | DDataSec n _ _ | DFloat n _
  | DDeclTag n _ _ | DTypeTag n _ => opt_name n
  | DPtr _ | DArray _ _ _ | DVolatile _ | DConst _ | DRestrict _ => []
  | DStruct n _ _ ms | DUnion n _ _ ms => opt_name n ++ flat_map (fun m => opt_name (fst (fst m))) ms
  | DEnum n _ _ vs | DEnum64 n _ _ vs => opt_name n ++ map fst vs
  | DFuncProto ps _ => flat_map (fun p => opt_name (fst p)) ps
  end.

(** ** The string section: a zero byte, then every name with its terminator *)
Definition string_table (ns : list str) : list byte := x00 :: flat_map (fun s => s ++ [x00]) ns.
(** A string's offset: the first place, after the initial zero byte, that holds it. *)
Fixpoint starts_with (p l : list byte) : bool :=
  match p, l with
  | [], _ => true
  | x :: p', y :: l' => (Byte.to_N x =? Byte.to_N y) && starts_with p' l'
  | _ :: _, [] => false
  end.
Fixpoint find_from (k : N) (p l : list byte) : N :=
  match l with
  | [] => k
  | _ :: l' => if starts_with p l then k else find_from (k + 1) p l'
  end.
Definition string_offset (table : list byte) (s : str) : N := find_from 1 (s ++ [x00]) (tl table).

(** ** Words *)
Definition info_word (kind vlen : N) (flag : bool) : N := vlen + 2 ^ 24 * kind + (if flag then 2 ^ 31 else 0).
Definition bit (b : bool) (k : N) : N := if b then 2 ^ k else 0.
(** two's complement *)
Definition value_word (bits : N) (v : integer_value) : N :=
  match v with Signed z => Z.to_N (z mod 2 ^ Z.of_N bits) | Unsigned n => n end.
Definition member_word (flag : bool) (o : offset) : N :=
  match o with
  | ByteOffset b => 8 * b
  | BitOffsetAndSize b s => if flag then b + 2 ^ 24 * s else b
  end.
Definition len {A} (l : list A) : N := N.of_nat (length l).

Section Words.
  (** [reserved d]: what bits 16-23 and 29-30 of the info word hold. *)
  Context (reserved : decl -> N) (table : list byte).
  Definition ref (o : option str) : N := match o with Some s => string_offset table s | None => 0 end.
  Definition member_words (flag : bool) (m : option str * N * offset) : list N :=
    [ref (fst (fst m)); snd (fst m); member_word flag (snd m)].
  Definition words (d : decl) : list N :=
    let info k v fl := info_word k v fl + reserved d in
    match d with
    | DInt n sz sg ch bo off bits => [ref n; info 1 0 false; sz; bits + 2 ^ 16 * off + bit sg 24 + bit ch 25 + bit bo 26]
    | DPtr t => [0; info 2 0 false; t]
    | DArray e i c => [0; info 3 0 false; 0; e; i; c]
    | DStruct n sz flag ms => [ref n; info 4 (len ms) flag; sz] ++ flat_map (member_words flag) ms
    | DUnion n sz flag ms => [ref n; info 5 (len ms) flag; sz] ++ flat_map (member_words flag) ms
    | DEnum n sz sg vs => [ref n; info 6 (len vs) sg; sz] ++
        flat_map (fun v => [ref (Some (fst v)); value_word 32 (snd v)]) vs
    | DFwd n u t => [ref n; info 7 0 u; t]
    | DTypedef n t => [ref n; info 8 0 false; t]
    | DVolatile t => [0; info 9 0 false; t]
    | DConst t => [0; info 10 0 false; t]
    | DRestrict t => [0; info 11 0 false; t]
    | DFunc n l t => [ref n; info 12 l false; t]
    | DFuncProto ps r => [0; info 13 (len ps) false; r] ++ flat_map (fun p => [ref (fst p); snd p]) ps
    | DVar n t l => [ref n; info 14 0 false; t; l]
    | DDataSec n sz vs => [ref n; info 15 (len vs) false; sz] ++
        flat_map (fun v => [fst (fst v); snd (fst v); snd v]) vs
    | DFloat n sz => [ref n; info 16 0 false; sz]
    | DDeclTag n t c => [ref n; info 17 0 false; t; c]
    | DTypeTag n t => [ref n; info 18 0 false; t]
    | DEnum64 n sz sg vs => [ref n; info 19 (len vs) sg; sz] ++
        flat_map (fun v => let w := value_word 64 (snd v) in [ref (Some (fst v)); w mod 2 ^ 32; w / 2 ^ 32]) vs
    end.
End Words.

(** ** Bytes *)
Definition to_byte (n : N) : byte := match Byte.of_N (n mod 256) with Some b => b | None => x00 end.
Definition word_bytes (en : endianness) (w : N) : list byte :=
  let l := [to_byte w; to_byte (w / 2 ^ 8); to_byte (w / 2 ^ 16); to_byte (w / 2 ^ 24)] in
  match en with Little => l | Big => rev l end.
Definition words_bytes (en : endianness) (ws : list N) : list byte := flat_map (word_bytes en) ws.
Definition magic (en : endianness) : list byte := match en with Little => [x9f; xeb] | Big => [xeb; x9f] end.

(** The version byte, flags byte and reserved bits may hold anything. *)
Definition encode_with (version flags : byte) (reserved : decl -> N) (en : endianness) (ds : list decl) : list byte :=
  let table := string_table (flat_map names ds) in
  let types := words_bytes en (flat_map (words reserved table) ds) in
  magic en ++ [version; flags] ++
  words_bytes en [24; 0; len types; len types; len table] ++ types ++ table.
Definition reserved_ok (r : N) : Prop := exists a b, a < 2 ^ 8 /\ b < 2 ^ 2 /\ r = 2 ^ 16 * a + 2 ^ 29 * b.
Definition encode : endianness -> list decl -> list byte := encode_with x01 x00 (fun _ => 0).

(** ** Well-formed declarations *)
Definition ascii_name (s : str) : Prop := Forall (fun b => 0 < Byte.to_N b < 128) s.
Definition offset_ok (flag : bool) (o : offset) : Prop :=
  match o with
  | ByteOffset b => if flag then 8 * b < 2 ^ 24 else 8 * b < 2 ^ 32
  | BitOffsetAndSize b s => flag = true /\ b < 2 ^ 24 /\ s < 2 ^ 8 /\ ~ (s = 0 /\ b mod 8 = 0)
  end.
Definition member_ok (flag : bool) (m : option str * N * offset) : Prop :=
  snd (fst m) < 2 ^ 32 /\ offset_ok flag (snd m).
Definition decl_ok (d : decl) : Prop :=
  Forall ascii_name (names d) /\
  match d with
  | DInt _ sz _ _ _ off bits => sz < 2 ^ 32 /\ off < 256 /\ bits < 256
  | DPtr t | DFwd _ _ t | DTypedef _ t | DVolatile t | DConst t | DRestrict t | DTypeTag _ t => t < 2 ^ 32
  | DArray e i c => e < 2 ^ 32 /\ i < 2 ^ 32 /\ c < 2 ^ 32
  | DStruct _ sz flag ms | DUnion _ sz flag ms => sz < 2 ^ 32 /\ len ms < 2 ^ 16 /\ Forall (member_ok flag) ms
  | DEnum _ sz sg vs => sz < 2 ^ 32 /\ len vs < 2 ^ 16 /\ Forall (fun v => value_fits 32 sg (snd v)) vs
  | DFunc _ l t => t < 2 ^ 32 /\ l < 2 ^ 16
  | DFuncProto ps r => r < 2 ^ 32 /\ len ps < 2 ^ 16 /\ Forall (fun p => snd p < 2 ^ 32) ps
  | DVar _ t l => t < 2 ^ 32 /\ l < 2 ^ 32
  | DDataSec _ sz vs => sz < 2 ^ 32 /\ len vs < 2 ^ 16 /\
      Forall (fun v => fst (fst v) < 2 ^ 32 /\ snd (fst v) < 2 ^ 32 /\ snd v < 2 ^ 32) vs
  | DFloat _ sz => sz < 2 ^ 32
  | DDeclTag _ t c => t < 2 ^ 32 /\ c < 2 ^ 32
  | DEnum64 _ sz sg vs => sz < 2 ^ 32 /\ len vs < 2 ^ 16 /\ Forall (fun v => value_fits 64 sg (snd v)) vs
  end.
(** No enumerator of an Enum64. *)
Definition no_enum64 (d : decl) : Prop := match d with DEnum64 _ _ _ (_ :: _) => False | _ => True end.

(** ** What the API shows of a loaded type *)
Definition view (t : type_variant) : option decl :=
  match t with
  | TVoid => None
  | TInt _ d => Some (DInt (int_name d) (int_size d) (int_signed d) (int_char d) (int_boolean d) (int_offset d) (int_bits d))
  | TPtr _ d => Some (DPtr (link_tid d))
  | TArray _ d => Some (DArray (element_tid d) (index_tid d) (element_count d))
  | TStruct h d => Some (DStruct (struct_name d) (struct_size d) (h_kind_flag h)
                           (map (fun m => (m_name m, m_tid m, m_offset m)) (member_list d)))
  | TUnion h d => Some (DUnion (struct_name d) (struct_size d) (h_kind_flag h)
                          (map (fun m => (m_name m, m_tid m, m_offset m)) (member_list d)))
  | TEnum _ d => Some (DEnum (enum_name d) (enum_size d) (enum_signed d)
                         (map (fun v => (nv_name v, nv_value v)) (named_value_list d)))
  | TFwd h d => Some (DFwd (nl_name d) (h_kind_flag h) (nl_tid d))
  | TTypedef _ d => Some (DTypedef (nl_name d) (nl_tid d))
  | TVolatile _ d => Some (DVolatile (link_tid d))
  | TConst _ d => Some (DConst (link_tid d))
  | TRestrict _ d => Some (DRestrict (link_tid d))
  | TFunc h d => Some (DFunc (nl_name d) (h_vlen h) (nl_tid d))
  | TFuncProto _ d => Some (DFuncProto (map (fun p => (p_name p, p_tid p)) (parameter_list d)) (return_tid d))
  | TVar _ d => Some (DVar (var_name d) (var_tid d) (linkage d))
  | TDataSec _ d => Some (DDataSec (ds_name d) (ds_size d)
                            (map (fun v => (var_decl_id v, v_offset v, var_size v)) (variable_list d)))
  | TFloat _ d => Some (DFloat (float_name d) (float_size d))
  | TDeclTag _ d => Some (DDeclTag (dt_name d) (dt_tid d) (component_index d))
  | TTypeTag _ d => Some (DTypeTag (nl_name d) (nl_tid d))
  | TEnum64 _ d => Some (DEnum64 (enum_name d) (enum_size d) (enum_signed d)
                           (map (fun v => (nv_name v, nv_value v)) (named_value_list d)))
  end.

(** ** What a big-endian Enum64 is loaded as (C06)

    The two 32-bit words of a value come back exchanged. *)
Definition exchange (w : N) : N := (w mod 2 ^ 32) * 2 ^ 32 + w / 2 ^ 32.
Definition exchanged_value (signed : bool) (v : integer_value) : integer_value :=
  let w := exchange (value_word 64 v) in
  if signed then Signed (if w <? 2 ^ 63 then Z.of_N w else (Z.of_N w - 2 ^ 64)%Z) else Unsigned w.
Definition exchanged (d : decl) : decl :=
  match d with
  | DEnum64 n sz sg vs => DEnum64 n sz sg (map (fun v => (fst v, exchanged_value sg (snd v))) vs)
  | _ => d
  end.
Definition as_loaded (en : endianness) (d : decl) : decl := match en with Little => d | Big => exchanged d end.
