(** * Spec: what a BTF file says, written from the BTF documentation
    (https://docs.kernel.org/bpf/btf.html) and from the English properties.

    Uses the data types of the model ([type_variant], [header], [offset], ...)
    and none of its functions. *)
From Coq Require Import List NArith ZArith Bool Strings.Byte.
From Verif Require Import Format.
Import ListNotations.
Open Scope N_scope.

(** ** Bytes and integers in a file image *)

(** [img] holds the bytes [bs] at offset [off]. *)
Definition bytes_at (img : list byte) (off : N) (bs : list byte) : Prop :=
  exists pre post, img = pre ++ bs ++ post /\ N.of_nat (length pre) = off.

(** The number written by [bs], least significant byte first / last. *)
Fixpoint little_value (bs : list byte) : N :=
  match bs with [] => 0 | b :: bs' => Byte.to_N b + 256 * little_value bs' end.
Definition big_value (bs : list byte) : N := fold_left (fun acc b => 256 * acc + Byte.to_N b) bs 0.
Definition value (en : endianness) (bs : list byte) : N :=
  match en with Little => little_value bs | Big => big_value bs end.

(** [img] holds the [n]-byte integer [v] at [off]. *)
Definition word_at (img : list byte) (en : endianness) (n : nat) (off v : N) : Prop :=
  exists bs, length bs = n /\ bytes_at img off bs /\ value en bs = v.
Definition u32_at img en off v := word_at img en 4 off v.
Definition u64_at img en off v := word_at img en 8 off v.

(** Two's complement: the signed number written by the [bits]-bit word [v]. *)
Definition signed_value (bits : N) (v : N) (z : Z) : Prop :=
  v < 2 ^ bits /\
  (- 2 ^ Z.of_N (bits - 1) <= z < 2 ^ Z.of_N (bits - 1))%Z /\
  (z mod 2 ^ Z.of_N bits = Z.of_N v)%Z.

(** ** Where things are: the header's view of the file *)
Record layout := {
  image : list byte; order : endianness;
  types_lo : N; types_hi : N;           (* type section: [types_lo, types_hi) *)
  strings_lo : N; strings_hi : N }.     (* string section *)

(** ** Strings *)

(** UTF-8 of the character whose code point is the byte's value. *)
Definition latin1_char (b : byte) (out : list byte) : Prop :=
  let n := Byte.to_N b in
  (n < 128 /\ out = [b]) \/
  (128 <= n /\ exists b1 b2, out = [b1; b2] /\ Byte.to_N b1 = 192 + n / 64 /\ Byte.to_N b2 = 128 + n mod 64).
Definition latin1 (bs : list byte) (s : str) : Prop :=
  exists parts, Forall2 latin1_char bs parts /\ s = concat parts.

(** Well-formed UTF-8 (RFC 3629, section 4): what a Rust [str] holds. *)
Definition in_bytes (lo hi : N) (b : byte) : Prop := lo <= Byte.to_N b <= hi.
Inductive utf8_char : list byte -> Prop :=
| utf8_1 a : in_bytes 0x00 0x7F a -> utf8_char [a]
| utf8_2 a b : in_bytes 0xC2 0xDF a -> in_bytes 0x80 0xBF b -> utf8_char [a; b]
| utf8_3 a b c : in_bytes 0xE0 0xE0 a /\ in_bytes 0xA0 0xBF b \/ in_bytes 0xE1 0xEC a /\ in_bytes 0x80 0xBF b \/
    in_bytes 0xED 0xED a /\ in_bytes 0x80 0x9F b \/ in_bytes 0xEE 0xEF a /\ in_bytes 0x80 0xBF b ->
    in_bytes 0x80 0xBF c -> utf8_char [a; b; c]
| utf8_4 a b c d : in_bytes 0xF0 0xF0 a /\ in_bytes 0x90 0xBF b \/ in_bytes 0xF1 0xF3 a /\ in_bytes 0x80 0xBF b \/
    in_bytes 0xF4 0xF4 a /\ in_bytes 0x80 0x8F b ->
    in_bytes 0x80 0xBF c -> in_bytes 0x80 0xBF d -> utf8_char [a; b; c; d].
Definition valid_utf8 (s : str) : Prop := exists chars, Forall utf8_char chars /\ s = concat chars.
Definition ascii (s : list byte) : Prop := Forall (fun b => Byte.to_N b < 128) s.

(** The raw bytes of the NUL-terminated string at offset [k] of the string section. *)
Definition raw_string (f : layout) (k : N) (bs : list byte) : Prop :=
  bytes_at (image f) (strings_lo f + k) (bs ++ [x00]) /\ ~ In x00 bs /\
  strings_lo f + k + N.of_nat (length bs) + 1 <= strings_hi f /\ strings_hi f < 2 ^ 32.
Definition string_at (f : layout) (k : N) (s : str) : Prop :=
  exists bs, raw_string f k bs /\ latin1 bs s.
(** Name offset 0 means "no name". *)
Definition name_at (f : layout) (k : N) (name : option str) : Prop :=
  match name with
  | None => k = 0
  | Some s => k <> 0 /\ string_at f k s
  end.

(** ** Records *)
Definition kind_code (k : kind) : N :=
  match k with
  | KInt => 1 | KPtr => 2 | KArray => 3 | KStruct => 4 | KUnion => 5 | KEnum => 6
  | KFwd => 7 | KTypedef => 8 | KVolatile => 9 | KConst => 10 | KRestrict => 11
  | KFunc => 12 | KFuncProto => 13 | KVar => 14 | KDataSec => 15 | KFloat => 16
  | KDeclTag => 17 | KTypeTag => 18 | KEnum64 => 19
  end.

(** struct btf_type: name_off, info, size/type.
    info: bits 0-15 vlen, bits 24-28 kind, bit 31 kind_flag. *)
Definition header_at (f : layout) (off : N) (h : header) : Prop :=
  u32_at (image f) (order f) off (h_name_offset h) /\
  (exists info, u32_at (image f) (order f) (off + 4) info /\
     kind_code (h_kind h) = info / 2 ^ 24 mod 32 /\
     h_vlen h = info mod 2 ^ 16 /\
     h_kind_flag h = (2 ^ 31 <=? info)) /\
  u32_at (image f) (order f) (off + 8) (h_size_or_type h).

(** [n] consecutive items of [sz] bytes, the first at [off]. *)
Definition items_at {A} (item : N -> A -> Prop) (off sz n : N) (l : list A) : Prop :=
  N.of_nat (length l) = n /\
  forall i a, nth_error l i = Some a -> item (off + sz * N.of_nat i) a.

(** struct btf_member's offset word. *)
Definition member_offset (kind_flag : bool) (w : N) (o : offset) : Prop :=
  if kind_flag then
    if (w / 2 ^ 24 =? 0) && (w mod 8 =? 0) then o = ByteOffset (w / 8)
    else o = BitOffsetAndSize (w mod 2 ^ 24) (w / 2 ^ 24)
  else w mod 8 = 0 /\ o = ByteOffset (w / 8).

Definition member_at (f : layout) (kind_flag : bool) (off : N) (m : member) : Prop :=
  u32_at (image f) (order f) off (m_name_offset m) /\
  name_at f (m_name_offset m) (m_name m) /\
  u32_at (image f) (order f) (off + 4) (m_tid m) /\
  exists w, u32_at (image f) (order f) (off + 8) w /\ member_offset kind_flag w (m_offset m).

(** An enumerator whose value is a [8 * n]-bit integer stored in the file's
    byte order; [signed] comes from the kind flag. *)
Definition enumerator_at (f : layout) (n : nat) (signed : bool) (off : N) (nv : named_value) : Prop :=
  (exists k, u32_at (image f) (order f) off k /\ string_at f k (nv_name nv)) /\
  exists w, word_at (image f) (order f) n (off + 4) w /\
    if signed then exists z, nv_value nv = Signed z /\ signed_value (8 * N.of_nat n) w z
    else nv_value nv = Unsigned w.

Definition parameter_at (f : layout) (off : N) (p : parameter) : Prop :=
  u32_at (image f) (order f) off (p_name_offset p) /\
  name_at f (p_name_offset p) (p_name p) /\
  u32_at (image f) (order f) (off + 4) (p_tid p).

Definition variable_at (f : layout) (off : N) (v : variable) : Prop :=
  u32_at (image f) (order f) off (var_decl_id v) /\
  u32_at (image f) (order f) (off + 4) (v_offset v) /\
  u32_at (image f) (order f) (off + 8) (var_size v).

(** The word describing an Int: bits 0-7 nr_bits, 16-23 offset, 24-27 encoding
    (24 signed, 25 char, 26 bool). *)
Definition int_encoding (w : N) (d : int_data) : Prop :=
  int_signed d = N.testbit w 24 /\ int_char d = N.testbit w 25 /\ int_boolean d = N.testbit w 26 /\
  int_offset d = w / 2 ^ 16 mod 256 /\ int_bits d = w mod 256.

(** Number of bytes following the header. *)
Definition extra_size (h : header) : N :=
  match h_kind h with
  | KInt | KVar | KDeclTag => 4
  | KArray => 12
  | KStruct | KUnion | KDataSec | KEnum64 => 12 * h_vlen h
  | KEnum | KFuncProto => 8 * h_vlen h
  | _ => 0
  end.
(** Number of bytes after the header that must lie in the type section for the
    record to be accepted.  It is [extra_size] but for arrays, where the library
    demands 12 bytes per unit of vlen - none for a normal array (vlen = 0). *)
Definition checked_size (h : header) : N :=
  match h_kind h with KArray => 12 * h_vlen h | _ => extra_size h end.

Definition h_name (f : layout) (h : header) (name : option str) : Prop := name_at f (h_name_offset h) name.

(** The data following header [h]; [off] is where it starts. *)
Definition payload_at (f : layout) (off : N) (h : header) (t : type_variant) : Prop :=
  match h_kind h with
  | KInt => exists d w, t = TInt h d /\ h_name f h (int_name d) /\ int_size d = h_size_or_type h /\
      u32_at (image f) (order f) off w /\ int_encoding w d
  | KPtr => t = TPtr h {| link_tid := h_size_or_type h |}
  | KConst => t = TConst h {| link_tid := h_size_or_type h |}
  | KVolatile => t = TVolatile h {| link_tid := h_size_or_type h |}
  | KRestrict => t = TRestrict h {| link_tid := h_size_or_type h |}
  | KTypedef => exists n, t = TTypedef h {| nl_name := n; nl_tid := h_size_or_type h |} /\ h_name f h n
  | KFwd => exists n, t = TFwd h {| nl_name := n; nl_tid := h_size_or_type h |} /\ h_name f h n
  | KFunc => exists n, t = TFunc h {| nl_name := n; nl_tid := h_size_or_type h |} /\ h_name f h n
  | KTypeTag => exists n, t = TTypeTag h {| nl_name := n; nl_tid := h_size_or_type h |} /\ h_name f h n
  | KFloat => exists n, t = TFloat h {| float_name := n; float_size := h_size_or_type h |} /\ h_name f h n
  | KArray => exists d, t = TArray h d /\
      u32_at (image f) (order f) off (element_tid d) /\
      u32_at (image f) (order f) (off + 4) (index_tid d) /\
      u32_at (image f) (order f) (off + 8) (element_count d)
  | KStruct | KUnion => exists d,
      t = (match h_kind h with KStruct => TStruct h d | _ => TUnion h d end) /\
      h_name f h (struct_name d) /\ struct_size d = h_size_or_type h /\
      items_at (member_at f (h_kind_flag h)) off 12 (h_vlen h) (member_list d)
  | KEnum => exists d, t = TEnum h d /\ h_name f h (enum_name d) /\ enum_size d = h_size_or_type h /\
      enum_signed d = h_kind_flag h /\
      items_at (enumerator_at f 4 (h_kind_flag h)) off 8 (h_vlen h) (named_value_list d)
  | KEnum64 => exists d, t = TEnum64 h d /\ h_name f h (enum_name d) /\ enum_size d = h_size_or_type h /\
      enum_signed d = h_kind_flag h /\
      items_at (enumerator_at f 8 (h_kind_flag h)) off 12 (h_vlen h) (named_value_list d)
  | KFuncProto => exists d, t = TFuncProto h d /\ return_tid d = h_size_or_type h /\
      items_at (parameter_at f) off 8 (h_vlen h) (parameter_list d)
  | KVar => exists d, t = TVar h d /\ h_name f h (var_name d) /\ var_tid d = h_size_or_type h /\
      u32_at (image f) (order f) off (linkage d) /\
      var_linkage_type d = (if linkage d =? 0 then LinkStatic else LinkGlobal)
  | KDataSec => exists d, t = TDataSec h d /\ h_name f h (ds_name d) /\ ds_size d = h_size_or_type h /\
      items_at (variable_at f) off 12 (h_vlen h) (variable_list d)
  | KDeclTag => exists d, t = TDeclTag h d /\ h_name f h (dt_name d) /\ dt_tid d = h_size_or_type h /\
      u32_at (image f) (order f) off (component_index d)
  end.

(** The record of type [t] occupies the bytes from [off] up to [stop]. *)
Definition record_at (f : layout) (off : N) (t : type_variant) (stop : N) : Prop :=
  exists h, header_at f off h /\ payload_at f (off + 12) h t /\
    stop = off + 12 + extra_size h /\
    off + 12 <= types_hi f /\ off + 12 + checked_size h <= types_hi f /\ types_hi f < 2 ^ 32.

(** The records of [ts] follow one another from [off] to [stop]. *)
Inductive records_at (f : layout) : N -> list type_variant -> N -> Prop :=
| records_nil off : records_at f off [] off
| records_cons off t next ts stop :
    off < types_hi f -> record_at f off t next -> records_at f next ts stop ->
    records_at f off (t :: ts) stop.

(** The name carried by a type: the kinds below have one, the others do not. *)
Definition declared_name (t : type_variant) : option str :=
  match t with
  | TInt _ d => int_name d
  | TStruct _ d | TUnion _ d => struct_name d
  | TEnum _ d | TEnum64 _ d => enum_name d
  | TFwd _ d | TTypedef _ d | TFunc _ d | TTypeTag _ d => nl_name d
  | TVar _ d => var_name d
  | TDataSec _ d => ds_name d
  | TFloat _ d => float_name d
  | TDeclTag _ d => dt_name d
  | TPtr _ _ | TArray _ _ | TVolatile _ _ | TConst _ _ | TRestrict _ _ | TFuncProto _ _ | TVoid => None
  end.

(** The names occurring in a type, and the string offset stored with each
    (enumerators keep only the name). *)
Definition type_header (t : type_variant) : option header :=
  match t with
  | TVoid => None
  | TInt h _ | TPtr h _ | TArray h _ | TStruct h _ | TUnion h _ | TEnum h _ | TFwd h _ | TTypedef h _
  | TVolatile h _ | TConst h _ | TRestrict h _ | TFunc h _ | TFuncProto h _ | TVar h _ | TDataSec h _
  | TFloat h _ | TDeclTag h _ | TTypeTag h _ | TEnum64 h _ => Some h
  end.
Definition members (t : type_variant) : list member :=
  match t with TStruct _ d | TUnion _ d => member_list d | _ => [] end.
Definition enumerators (t : type_variant) : list named_value :=
  match t with TEnum _ d | TEnum64 _ d => named_value_list d | _ => [] end.
Definition parameters (t : type_variant) : list parameter :=
  match t with TFuncProto _ d => parameter_list d | _ => [] end.
Inductive name_in (t : type_variant) : option N -> str -> Prop :=
| own_name h s : type_header t = Some h -> declared_name t = Some s -> name_in t (Some (h_name_offset h)) s
| member_name m s : In m (members t) -> m_name m = Some s -> name_in t (Some (m_name_offset m)) s
| parameter_name p s : In p (parameters t) -> p_name p = Some s -> name_in t (Some (p_name_offset p)) s
| enumerator_name v : In v (enumerators t) -> name_in t None (nv_name v).

(** Type ids: [type_at ts i t] - the [i]-th declaration (counting from 1) is [t]. *)
Definition type_at (ts : list type_variant) (i : N) (t : type_variant) : Prop :=
  1 <= i /\ nth_error ts (N.to_nat i - 1) = Some t.
(** Id [i] carries the name [n]. *)
Definition carries (ts : list type_variant) (i : N) (n : str) : Prop :=
  exists t, type_at ts i t /\ declared_name t = Some n.

(** struct btf_header *)
Record header_fields := { hf_hdr_len : N; hf_type_off : N; hf_type_len : N; hf_str_off : N; hf_str_len : N }.
Definition file_header_at (img : list byte) (en : endianness) (hf : header_fields) : Prop :=
  bytes_at img 0 (match en with Little => [x9f; xeb] | Big => [xeb; x9f] end) /\
  u32_at img en 4 (hf_hdr_len hf) /\
  u32_at img en 8 (hf_type_off hf) /\ u32_at img en 12 (hf_type_len hf) /\
  u32_at img en 16 (hf_str_off hf) /\ u32_at img en 20 (hf_str_len hf).
Definition layout_of (img : list byte) (en : endianness) (hf : header_fields) : layout :=
  {| image := img; order := en;
     types_lo := hf_hdr_len hf + hf_type_off hf;
     types_hi := hf_hdr_len hf + hf_type_off hf + hf_type_len hf;
     strings_lo := hf_hdr_len hf + hf_str_off hf;
     strings_hi := hf_hdr_len hf + hf_str_off hf + hf_str_len hf |}.

(** The file [img] describes the types [ts]. *)
Definition file_describes (img : list byte) (ts : list type_variant) : Prop :=
  exists en hf, let f := layout_of img en hf in
    file_header_at img en hf /\ types_lo f < 2 ^ 32 /\
    exists stop, records_at f (types_lo f) ts stop /\ types_hi f <= stop.

(** A Readable that serves the unchanging bytes [img]: a request inside them is
    answered with exactly those bytes, any other one fails. *)
Definition serves (rd : readable) (img : list byte) : Prop :=
  forall tr off n, 0 < n -> off + n < 2 ^ 64 ->
    (off + n <= N.of_nat (length img) ->
       exists bs, rd tr off n = Bytes bs /\ bytes_at img off bs /\ N.of_nat (length bs) = n) /\
    (N.of_nat (length img) < off + n -> exists k, rd tr off n = Fails k).

(** ** What can be wrong with a record (C13, C21) *)

(** The reference [k] into the string section is bad: it is not inside the
    section (or the section itself does not fit 32 bits), or no zero byte
    follows inside the section. *)
Definition bad_string (f : layout) (k : N) (x : error_kind) : Prop :=
  (x = InvalidStringOffset /\ (2 ^ 32 <= strings_hi f \/ strings_hi f <= strings_lo f + k)) \/
  (x = InvalidString /\ strings_hi f < 2 ^ 32 /\
   exists bs, bytes_at (image f) (strings_lo f + k) bs /\ bs <> [] /\ ~ In x00 bs /\
     strings_lo f + k + N.of_nat (length bs) = strings_hi f).

(** Pointers, the three qualifiers, arrays and prototypes have no name. *)
Definition kind_has_name (k : kind) : bool :=
  match k with KPtr | KConst | KVolatile | KRestrict | KArray | KFuncProto => false | _ => true end.
Definition unnamed (h : header) : header :=
  {| h_kind := h_kind h; h_name_offset := 0; h_vlen := h_vlen h;
     h_kind_flag := h_kind_flag h; h_size_or_type := h_size_or_type h |}.

(** The data following header [h] is fine up to a first defect, reported as [x]. *)
Inductive defect_at (f : layout) (off : N) (h : header) : error_kind -> Prop :=
| bad_record_name x t :   (* only the record's own name is bad *)
    kind_has_name (h_kind h) = true -> h_name_offset h <> 0 ->
    payload_at f off (unnamed h) t -> bad_string f (h_name_offset h) x ->
    defect_at f off h x
| bad_member_name x i ms no tid w :
    h_kind h = KStruct \/ h_kind h = KUnion -> i < h_vlen h ->
    items_at (member_at f (h_kind_flag h)) off 12 i ms ->
    u32_at (image f) (order f) (off + 12 * i) no ->
    u32_at (image f) (order f) (off + 12 * i + 4) tid ->
    u32_at (image f) (order f) (off + 12 * i + 8) w ->
    no <> 0 -> bad_string f no x -> defect_at f off h x
| unaligned_member i ms no name tid w :
    h_kind h = KStruct \/ h_kind h = KUnion -> i < h_vlen h ->
    items_at (member_at f (h_kind_flag h)) off 12 i ms ->
    u32_at (image f) (order f) (off + 12 * i) no -> name_at f no name ->
    u32_at (image f) (order f) (off + 12 * i + 4) tid ->
    u32_at (image f) (order f) (off + 12 * i + 8) w ->
    h_kind_flag h = false -> w mod 8 <> 0 -> defect_at f off h InvalidOffset
| bad_enumerator_name x n i vs no :
    (h_kind h = KEnum /\ n = 4%nat) \/ (h_kind h = KEnum64 /\ n = 8%nat) -> i < h_vlen h ->
    items_at (enumerator_at f n (h_kind_flag h)) off (4 + N.of_nat n) i vs ->
    u32_at (image f) (order f) (off + (4 + N.of_nat n) * i) no ->
    bad_string f no x -> defect_at f off h x
| bad_parameter_name x i ps no tid :
    h_kind h = KFuncProto -> i < h_vlen h ->
    items_at (parameter_at f) off 8 i ps ->
    u32_at (image f) (order f) (off + 8 * i) no ->
    u32_at (image f) (order f) (off + 8 * i + 4) tid ->
    no <> 0 -> bad_string f no x -> defect_at f off h x.

(** ** Widths (C44) *)
Definition u32 (n : N) : Prop := n < 2 ^ 32.
Definition offset_fits (kind_flag : bool) (o : offset) : Prop :=
  match o with
  | ByteOffset b => if kind_flag then b < 2 ^ 21 else b < 2 ^ 29
  | BitOffsetAndSize b s => kind_flag = true /\ b < 2 ^ 24 /\ s < 2 ^ 8 /\ ~ (s = 0 /\ b mod 8 = 0)
  end.
Definition member_fits (kind_flag : bool) (m : member) : Prop :=
  u32 (m_name_offset m) /\ u32 (m_tid m) /\ offset_fits kind_flag (m_offset m).
Definition value_fits (bits : N) (signed : bool) (v : integer_value) : Prop :=
  match v with
  | Signed z => signed = true /\ (- 2 ^ Z.of_N (bits - 1) <= z < 2 ^ Z.of_N (bits - 1))%Z
  | Unsigned n => signed = false /\ n < 2 ^ bits
  end.
Definition header_fits (h : header) (k : kind) : Prop :=
  h_kind h = k /\ u32 (h_name_offset h) /\ h_vlen h < 2 ^ 16 /\ u32 (h_size_or_type h).
Definition exactly_vlen {A} (h : header) (l : list A) : Prop := N.of_nat (length l) = h_vlen h.
Definition type_fits (t : type_variant) : Prop :=
  match t with
  | TVoid => False
  | TInt h d => header_fits h KInt /\ u32 (int_size d) /\ int_offset d < 2 ^ 8 /\ int_bits d < 2 ^ 8
  | TPtr h d => header_fits h KPtr /\ u32 (link_tid d)
  | TConst h d => header_fits h KConst /\ u32 (link_tid d)
  | TVolatile h d => header_fits h KVolatile /\ u32 (link_tid d)
  | TRestrict h d => header_fits h KRestrict /\ u32 (link_tid d)
  | TTypedef h d => header_fits h KTypedef /\ u32 (nl_tid d)
  | TFwd h d => header_fits h KFwd /\ u32 (nl_tid d)
  | TFunc h d => header_fits h KFunc /\ u32 (nl_tid d)
  | TTypeTag h d => header_fits h KTypeTag /\ u32 (nl_tid d)
  | TFloat h d => header_fits h KFloat /\ u32 (float_size d)
  | TArray h d => header_fits h KArray /\ u32 (element_tid d) /\ u32 (index_tid d) /\ u32 (element_count d)
  | TStruct h d => header_fits h KStruct /\ u32 (struct_size d) /\
      exactly_vlen h (member_list d) /\ Forall (member_fits (h_kind_flag h)) (member_list d)
  | TUnion h d => header_fits h KUnion /\ u32 (struct_size d) /\
      exactly_vlen h (member_list d) /\ Forall (member_fits (h_kind_flag h)) (member_list d)
  | TEnum h d => header_fits h KEnum /\ u32 (enum_size d) /\ exactly_vlen h (named_value_list d) /\
      enum_signed d = h_kind_flag h /\
      Forall (fun nv => value_fits 32 (h_kind_flag h) (nv_value nv)) (named_value_list d)
  | TEnum64 h d => header_fits h KEnum64 /\ u32 (enum_size d) /\ exactly_vlen h (named_value_list d) /\
      enum_signed d = h_kind_flag h /\
      Forall (fun nv => value_fits 64 (h_kind_flag h) (nv_value nv)) (named_value_list d)
  | TFuncProto h d => header_fits h KFuncProto /\ u32 (return_tid d) /\ exactly_vlen h (parameter_list d) /\
      Forall (fun p => u32 (p_name_offset p) /\ u32 (p_tid p)) (parameter_list d)
  | TVar h d => header_fits h KVar /\ u32 (var_tid d) /\ u32 (linkage d)
  | TDataSec h d => header_fits h KDataSec /\ u32 (ds_size d) /\ exactly_vlen h (variable_list d) /\
      Forall (fun v => u32 (var_decl_id v) /\ u32 (v_offset v) /\ u32 (var_size v)) (variable_list d)
  | TDeclTag h d => header_fits h KDeclTag /\ u32 (dt_tid d) /\ u32 (component_index d)
  end.
