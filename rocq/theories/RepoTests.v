(** * RepoTests: the 56 unit tests of /repo, as Examples about the model (the
    model against the project's own expectations; no property rests on them).
    Written by tools/repo_tests.py, which reads the byte images and the table
    of [get_test_type_info] from the Rust sources. *)
From Coq Require Import Strings.String.
From Coq Require Import List NArith ZArith Bool.
From Verif Require Import Cache Spec LoadProps Witness Sample.
Import ListNotations.
Open Scope N_scope.

(** src/utils/readable_buffer.rs under a 64-bit build with overflow checks (as [cargo test] has them) *)
Definition buf (img : list byte) : env := {| cfg := build64 true; rd := readable_buffer img |}.
(** [FileHeader::new], [Header::new], then the record's own [new] *)
Definition record (img : list byte) : outcome error_kind type_variant :=
  fst ((fh <- file_header_new (buf img) ;; h <- header_new (buf img) fh ;; parse_type (h_kind h) (buf img) fh h) reader_new).
(** [is_err] *)
Definition fails {E A} (o : outcome E A) : bool := match o with Err _ => true | _ => false end.
(** a call whose error is looked at and not passed on *)
Definition attempt {A} (m : M A) : M (option A) := fun r =>
  match m r with (Ok a, r') => (Ok (Some a), r') | (Err _, r') => (Ok None, r') | (Panic p, r') => (Panic p, r') | (Diverge, r') => (Diverge, r') end.
(** [collect_path_components] *)
Fixpoint collect (fuel : nat) (path : str) (it : piter) : option (list component) :=
  match fuel with
  | O => None
  | S f => match next (build64 true) path it with
           | (Ok None, _) => Some []
           | (Ok (Some x), it') => match collect f path it' with Some l => Some (x :: l) | None => None end
           | _ => None
           end
  end.
Definition components (path : str) : option (list component) := collect 20 path piter_new.
(** [Header::create] *)
Definition mk_header (k : kind) (n v : N) (f : bool) (z : N) : header :=
  {| h_kind := k; h_name_offset := n; h_vlen := v; h_kind_flag := f; h_size_or_type := z |}.
(** [insert] one after the other *)
Definition inserted {K V} (cmp : K -> K -> comparison) (l : list (K * V)) : list (K * V) :=
  fold_left (fun m kv => bt_insert cmp (fst kv) (snd kv) m) l [].

(** src/btf/typedef.rs:66 *)
Definition typedef_test_typedef_image : list byte :=
  [x9f; xeb; x01; x00; x18; x00; x00; x00; x00; x00; x00; x00; x0c; x00; x00; x00; x0c; x00; x00; x00; x07; x00; x00; x00; x01; x00; x00; x00; x00; x00; x00; x08; x00; x00; x00; x00; x00; x76; x6f; x69; x64; x2a; x00].
Example typedef_test_typedef : match record typedef_test_typedef_image with Ok (TTypedef h d) => nl_name d = nm "void*" /\ nl_tid d = 0 | _ => False end.
Proof. vm_compute. repeat split. Qed.
(** src/btf/enum.rs:123 *)
Definition enum_test_unsigned_enum_image : list byte :=
  [x9f; xeb; x01; x00; x18; x00; x00; x00; x00; x00; x00; x00; x1c; x00; x00; x00; x1c; x00; x00; x00; x16; x00; x00; x00; x01; x00; x00; x00; x02; x00; x00; x06; x04; x00; x00; x00; x07; x00; x00; x00; xfe; x00; x00; x00; x0e; x00; x00; x00; xfe; x00; x00; x00; x00; x53; x74; x61; x74; x65; x00; x50; x61; x75; x73; x65; x64; x00; x52; x75; x6e; x6e; x69; x6e; x67; x00].
Example enum_test_unsigned_enum : match record enum_test_unsigned_enum_image with Ok (TEnum h d) => enum_size d = 4 /\ enum_signed d = false /\ h_kind_flag h = false /\ enum_name d = nm "State" /\ named_value_list d = [{| nv_name := s "Paused"; nv_value := Unsigned 254 |}; {| nv_name := s "Running"; nv_value := Unsigned 254 |}] | _ => False end.
Proof. vm_compute. repeat split. Qed.
(** src/btf/enum.rs:180 *)
Definition enum_test_signed_enum_image : list byte :=
  [x9f; xeb; x01; x00; x18; x00; x00; x00; x00; x00; x00; x00; x1c; x00; x00; x00; x1c; x00; x00; x00; x16; x00; x00; x00; x01; x00; x00; x00; x02; x00; x00; x86; x04; x00; x00; x00; x07; x00; x00; x00; xfe; x00; x00; x00; x0e; x00; x00; x00; xfe; x00; x00; x00; x00; x53; x74; x61; x74; x65; x00; x50; x61; x75; x73; x65; x64; x00; x52; x75; x6e; x6e; x69; x6e; x67; x00].
Example enum_test_signed_enum : match record enum_test_signed_enum_image with Ok (TEnum h d) => enum_size d = 4 /\ enum_signed d = true /\ h_kind_flag h = true /\ enum_name d = nm "State" /\ named_value_list d = [{| nv_name := s "Paused"; nv_value := Signed 254 |}; {| nv_name := s "Running"; nv_value := Signed 254 |}] | _ => False end.
Proof. vm_compute. repeat split. Qed.
(** src/btf/enum64.rs:123 *)
Definition enum64_test_unsigned_enum64_image : list byte :=
  [x9f; xeb; x01; x00; x18; x00; x00; x00; x00; x00; x00; x00; x24; x00; x00; x00; x24; x00; x00; x00; x16; x00; x00; x00; x01; x00; x00; x00; x02; x00; x00; x13; x08; x00; x00; x00; x07; x00; x00; x00; xfe; x00; x00; x00; x00; x00; x00; x00; x0e; x00; x00; x00; xfe; x00; x00; x00; x00; x00; x00; x00; x00; x53; x74; x61; x74; x65; x00; x50; x61; x75; x73; x65; x64; x00; x52; x75; x6e; x6e; x69; x6e; x67; x00].
Example enum64_test_unsigned_enum64 : match record enum64_test_unsigned_enum64_image with Ok (TEnum64 h d) => enum_size d = 8 /\ enum_signed d = false /\ h_kind_flag h = false /\ enum_name d = nm "State" /\ named_value_list d = [{| nv_name := s "Paused"; nv_value := Unsigned 254 |}; {| nv_name := s "Running"; nv_value := Unsigned 254 |}] | _ => False end.
Proof. vm_compute. repeat split. Qed.
(** src/btf/enum64.rs:180 *)
Definition enum64_test_signed_enum64_image : list byte :=
  [x9f; xeb; x01; x00; x18; x00; x00; x00; x00; x00; x00; x00; x24; x00; x00; x00; x24; x00; x00; x00; x16; x00; x00; x00; x01; x00; x00; x00; x02; x00; x00; x93; x08; x00; x00; x00; x07; x00; x00; x00; xfe; x00; x00; x00; x00; x00; x00; x00; x0e; x00; x00; x00; xfe; x00; x00; x00; x00; x00; x00; x00; x00; x53; x74; x61; x74; x65; x00; x50; x61; x75; x73; x65; x64; x00; x52; x75; x6e; x6e; x69; x6e; x67; x00].
Example enum64_test_signed_enum64 : match record enum64_test_signed_enum64_image with Ok (TEnum64 h d) => enum_size d = 8 /\ enum_signed d = true /\ h_kind_flag h = true /\ enum_name d = nm "State" /\ named_value_list d = [{| nv_name := s "Paused"; nv_value := Signed 254 |}; {| nv_name := s "Running"; nv_value := Signed 254 |}] | _ => False end.
Proof. vm_compute. repeat split. Qed.
(** src/btf/func.rs:66 *)
Definition func_test_fwd_image : list byte :=
  [x9f; xeb; x01; x00; x18; x00; x00; x00; x00; x00; x00; x00; x0c; x00; x00; x00; x0c; x00; x00; x00; x06; x00; x00; x00; x01; x00; x00; x00; x00; x00; x00; x0c; x03; x00; x00; x00; x00; x65; x78; x69; x74; x00].
Example func_test_fwd : match record func_test_fwd_image with Ok (TFunc h d) => nl_name d = nm "exit" /\ nl_tid d = 3 | _ => False end.
Proof. vm_compute. repeat split. Qed.
(** src/btf/fwd.rs:68 *)
Definition fwd_test_fwd_image : list byte :=
  [x9f; xeb; x01; x00; x18; x00; x00; x00; x00; x00; x00; x00; x0c; x00; x00; x00; x0c; x00; x00; x00; x06; x00; x00; x00; x01; x00; x00; x00; x00; x00; x00; x07; x03; x00; x00; x00; x00; x65; x78; x69; x74; x00].
Example fwd_test_fwd : match record fwd_test_fwd_image with Ok (TFwd h d) => nl_name d = nm "exit" | _ => False end.
Proof. vm_compute. repeat split. Qed.
(** src/btf/type_tag.rs:66 *)
Definition type_tag_test_type_tag_image : list byte :=
  [x9f; xeb; x01; x00; x18; x00; x00; x00; x00; x00; x00; x00; x0c; x00; x00; x00; x0c; x00; x00; x00; x06; x00; x00; x00; x01; x00; x00; x00; x00; x00; x00; x12; x03; x00; x00; x00; x00; x69; x6e; x74; x00].
Example type_tag_test_type_tag : match record type_tag_test_type_tag_image with Ok (TTypeTag h d) => nl_name d = nm "int" /\ nl_tid d = 3 | _ => False end.
Proof. vm_compute. repeat split. Qed.
(** src/btf/float.rs:64 *)
Definition float_test_float_image : list byte :=
  [x9f; xeb; x01; x00; x18; x00; x00; x00; x00; x00; x00; x00; x0c; x00; x00; x00; x0c; x00; x00; x00; x07; x00; x00; x00; x01; x00; x00; x00; x00; x00; x00; x10; x03; x00; x00; x00; x00; x66; x6c; x6f; x61; x74; x00].
Example float_test_float : match record float_test_float_image with Ok (TFloat h d) => float_name d = nm "float" | _ => False end.
Proof. vm_compute. repeat split. Qed.
(** src/btf/restrict.rs:52 *)
Definition restrict_test_restrict_image : list byte :=
  [x9f; xeb; x01; x00; x18; x00; x00; x00; x00; x00; x00; x00; x0c; x00; x00; x00; x0c; x00; x00; x00; x01; x00; x00; x00; x00; x00; x00; x00; x00; x00; x00; x0b; x03; x00; x00; x00; x00].
Example restrict_test_restrict : match record restrict_test_restrict_image with Ok (TRestrict h d) => link_tid d = 3 | _ => False end.
Proof. vm_compute. repeat split. Qed.
(** src/btf/ptr.rs:52 *)
Definition ptr_test_ptr_image : list byte :=
  [x9f; xeb; x01; x00; x18; x00; x00; x00; x00; x00; x00; x00; x0c; x00; x00; x00; x0c; x00; x00; x00; x01; x00; x00; x00; x00; x00; x00; x00; x00; x00; x00; x02; x03; x00; x00; x00; x00].
Example ptr_test_ptr : match record ptr_test_ptr_image with Ok (TPtr h d) => link_tid d = 3 | _ => False end.
Proof. vm_compute. repeat split. Qed.
(** src/btf/volatile.rs:52 *)
Definition volatile_test_volatile_image : list byte :=
  [x9f; xeb; x01; x00; x18; x00; x00; x00; x00; x00; x00; x00; x0c; x00; x00; x00; x0c; x00; x00; x00; x01; x00; x00; x00; x00; x00; x00; x00; x00; x00; x00; x09; x03; x00; x00; x00; x00].
Example volatile_test_volatile : match record volatile_test_volatile_image with Ok (TVolatile h d) => link_tid d = 3 | _ => False end.
Proof. vm_compute. repeat split. Qed.
(** src/btf/const.rs:52 *)
Definition const_test_const_image : list byte :=
  [x9f; xeb; x01; x00; x18; x00; x00; x00; x00; x00; x00; x00; x0c; x00; x00; x00; x0c; x00; x00; x00; x01; x00; x00; x00; x00; x00; x00; x00; x00; x00; x00; x0a; x03; x00; x00; x00; x00].
Example const_test_const : match record const_test_const_image with Ok (TConst h d) => link_tid d = 3 | _ => False end.
Proof. vm_compute. repeat split. Qed.
(** src/btf/decl_tag.rs:76 *)
Definition decl_tag_test_decl_tag_image : list byte :=
  [x9f; xeb; x01; x00; x18; x00; x00; x00; x00; x00; x00; x00; x10; x00; x00; x00; x10; x00; x00; x00; x0a; x00; x00; x00; x01; x00; x00; x00; x00; x00; x00; x11; x04; x00; x00; x00; x10; x00; x00; x00; x00; x64; x65; x63; x6c; x5f; x74; x61; x67; x00].
Example decl_tag_test_decl_tag : match record decl_tag_test_decl_tag_image with Ok (TDeclTag h d) => component_index d = 16 /\ dt_name d = nm "decl_tag" | _ => False end.
Proof. vm_compute. repeat split. Qed.
(** src/btf/array.rs:71 *)
Definition array_test_array_image : list byte :=
  [x9f; xeb; x01; x00; x18; x00; x00; x00; x00; x00; x00; x00; x18; x00; x00; x00; x18; x00; x00; x00; x01; x00; x00; x00; x00; x00; x00; x00; x00; x00; x00; x03; x00; x00; x00; x00; x05; x00; x00; x00; x06; x00; x00; x00; x07; x00; x00; x00; x00].
Example array_test_array : match record array_test_array_image with Ok (TArray h d) => element_tid d = 5 /\ index_tid d = 6 /\ element_count d = 7 | _ => False end.
Proof. vm_compute. repeat split. Qed.
(** src/btf/var.rs:92 *)
Definition var_test_var_image : list byte :=
  [x9f; xeb; x01; x00; x18; x00; x00; x00; x00; x00; x00; x00; x10; x00; x00; x00; x10; x00; x00; x00; x0c; x00; x00; x00; x01; x00; x00; x00; x00; x00; x00; x0e; x05; x00; x00; x00; x01; x00; x00; x00; x00; x73; x74; x61; x74; x69; x63; x5f; x76; x61; x72; x00].
Example var_test_var : match record var_test_var_image with Ok (TVar h d) => var_name d = nm "static_var" /\ var_tid d = 5 /\ var_linkage_type d = LinkGlobal /\ linkage d = 1 | _ => False end.
Proof. vm_compute. repeat split. Qed.
(** src/btf/int.rs:99 *)
Definition int_test_int_no_encoding_options_image : list byte :=
  [x9f; xeb; x01; x00; x18; x00; x00; x00; x00; x00; x00; x00; x10; x00; x00; x00; x10; x00; x00; x00; x0e; x00; x00; x00; x01; x00; x00; x00; x00; x00; x00; x01; x04; x00; x00; x00; x10; x00; x08; x00; x00; x75; x6e; x73; x69; x67; x6e; x65; x64; x20; x69; x6e; x74; x00].
Example int_test_int_no_encoding_options : match record int_test_int_no_encoding_options_image with Ok (TInt h d) => int_name d = nm "unsigned int" /\ int_size d = 4 /\ int_signed d = false /\ int_boolean d = false /\ int_char d = false /\ int_offset d = 8 /\ int_bits d = 16 | _ => False end.
Proof. vm_compute. repeat split. Qed.
(** src/btf/int.rs:142 *)
Definition int_test_int_with_char_encoding_option_image : list byte :=
  [x9f; xeb; x01; x00; x18; x00; x00; x00; x00; x00; x00; x00; x10; x00; x00; x00; x10; x00; x00; x00; x06; x00; x00; x00; x01; x00; x00; x00; x00; x00; x00; x01; x01; x00; x00; x00; x08; x00; x00; x02; x00; x63; x68; x61; x72; x00].
Example int_test_int_with_char_encoding_option : match record int_test_int_with_char_encoding_option_image with Ok (TInt h d) => int_name d = nm "char" /\ int_size d = 1 /\ int_signed d = false /\ int_boolean d = false /\ int_char d = true /\ int_offset d = 0 /\ int_bits d = 8 | _ => False end.
Proof. vm_compute. repeat split. Qed.
(** src/btf/int.rs:184 *)
Definition int_test_int_with_signed_encoding_option_image : list byte :=
  [x9f; xeb; x01; x00; x18; x00; x00; x00; x00; x00; x00; x00; x10; x00; x00; x00; x10; x00; x00; x00; x05; x00; x00; x00; x01; x00; x00; x00; x00; x00; x00; x01; x01; x00; x00; x00; x08; x00; x00; x01; x00; x69; x6e; x74; x00].
Example int_test_int_with_signed_encoding_option : match record int_test_int_with_signed_encoding_option_image with Ok (TInt h d) => int_name d = nm "int" /\ int_size d = 1 /\ int_signed d = true /\ int_boolean d = false /\ int_char d = false /\ int_offset d = 0 /\ int_bits d = 8 | _ => False end.
Proof. vm_compute. repeat split. Qed.
(** src/btf/int.rs:226 *)
Definition int_test_int_with_bool_encoding_option_image : list byte :=
  [x9f; xeb; x01; x00; x18; x00; x00; x00; x00; x00; x00; x00; x10; x00; x00; x00; x10; x00; x00; x00; x06; x00; x00; x00; x01; x00; x00; x00; x00; x00; x00; x01; x01; x00; x00; x00; x08; x00; x00; x04; x00; x62; x6f; x6f; x6c; x00].
Example int_test_int_with_bool_encoding_option : match record int_test_int_with_bool_encoding_option_image with Ok (TInt h d) => int_name d = nm "bool" /\ int_size d = 1 /\ int_signed d = false /\ int_boolean d = true /\ int_char d = false /\ int_offset d = 0 /\ int_bits d = 8 | _ => False end.
Proof. vm_compute. repeat split. Qed.
(** src/btf/func_proto.rs:111 *)
Definition func_proto_test_func_proto_image : list byte :=
  [x9f; xeb; x01; x00; x18; x00; x00; x00; x00; x00; x00; x00; x1c; x00; x00; x00; x1c; x00; x00; x00; x0f; x00; x00; x00; x00; x00; x00; x00; x02; x00; x00; x0d; x05; x00; x00; x00; x01; x00; x00; x00; x02; x00; x00; x00; x08; x00; x00; x00; x03; x00; x00; x00; x00; x70; x61; x72; x61; x6d; x31; x00; x70; x61; x72; x61; x6d; x32; x00].
Example func_proto_test_func_proto : match record func_proto_test_func_proto_image with Ok (TFuncProto h d) => return_tid d = 5 /\ map (fun p => (p_tid p, p_name p)) (parameter_list d) = [(2, nm "param1"); (3, nm "param2")] | _ => False end.
Proof. vm_compute. repeat split. Qed.
(** src/btf/data_sec.rs:105 *)
Definition data_sec_test_data_sec_image : list byte :=
  [x9f; xeb; x01; x00; x18; x00; x00; x00; x00; x00; x00; x00; x24; x00; x00; x00; x24; x00; x00; x00; x0a; x00; x00; x00; x01; x00; x00; x00; x02; x00; x00; x0f; x04; x00; x00; x00; x05; x00; x00; x00; x04; x00; x00; x00; x08; x00; x00; x00; x05; x00; x00; x00; x08; x00; x00; x00; x08; x00; x00; x00; x00; x76; x61; x72; x5f; x6e; x61; x6d; x65; x00].
Example data_sec_test_data_sec : match record data_sec_test_data_sec_image with Ok (TDataSec h d) => ds_name d = nm "var_name" /\ ds_size d = 4 /\ map (fun v => (var_decl_id v, v_offset v, var_size v)) (variable_list d) = [(5, 4, 8); (5, 8, 8)] | _ => False end.
Proof. vm_compute. repeat split. Qed.
(** src/btf/struct_union.rs:172 *)
Definition struct_union_test_standard_struct_union_image : list byte :=
  [x9f; xeb; x01; x00; x18; x00; x00; x00; x00; x00; x00; x00; x24; x00; x00; x00; x24; x00; x00; x00; x0f; x00; x00; x00; x00; x00; x00; x00; x02; x00; x00; x04; x02; x00; x00; x00; x01; x00; x00; x00; x02; x00; x00; x00; x08; x00; x00; x00; x08; x00; x00; x00; x03; x00; x00; x00; x08; x00; x00; x00; x00; x76; x61; x6c; x75; x65; x31; x00; x76; x61; x6c; x75; x65; x32; x00].
Example struct_union_test_standard_struct_union : match record struct_union_test_standard_struct_union_image with Ok (TStruct h d) => struct_size d = 2 /\ h_kind_flag h = false /\ map (fun m => (m_tid m, m_offset m, m_name m)) (member_list d) = [(2, ByteOffset 1, nm "value1"); (3, ByteOffset 1, nm "value2")] | _ => False end.
Proof. vm_compute. repeat split. Qed.
(** src/btf/struct_union.rs:233 *)
Definition struct_union_test_bitfield_struct_union_image : list byte :=
  [x9f; xeb; x01; x00; x18; x00; x00; x00; x00; x00; x00; x00; x24; x00; x00; x00; x24; x00; x00; x00; x0f; x00; x00; x00; x00; x00; x00; x00; x02; x00; x00; x84; x02; x00; x00; x00; x01; x00; x00; x00; x02; x00; x00; x00; x08; x00; x00; x00; x08; x00; x00; x00; x03; x00; x00; x00; x0a; x00; x00; x0b; x00; x76; x61; x6c; x75; x65; x31; x00; x76; x61; x6c; x75; x65; x32; x00].
Example struct_union_test_bitfield_struct_union : match record struct_union_test_bitfield_struct_union_image with Ok (TStruct h d) => struct_size d = 2 /\ h_kind_flag h = true /\ map (fun m => (m_tid m, m_offset m, m_name m)) (member_list d) = [(2, ByteOffset 1, nm "value1"); (3, BitOffsetAndSize 10 11, nm "value2")] | _ => False end.
Proof. vm_compute. repeat split. Qed.
(** src/btf/header.rs:132 *)
Definition header_test_type_header_image : list byte :=
  [x9f; xeb; x01; x00; x18; x00; x00; x00; x00; x00; x00; x00; x0c; x00; x00; x00; x00; x00; x00; x00; x00; x00; x00; x00; x01; x00; x00; x00; xff; x00; x00; x81; x03; x00; x00; x00].
Example header_test_type_header : fst ((fh <- file_header_new (buf header_test_type_header_image) ;; header_new (buf header_test_type_header_image) fh) reader_new) =
  Ok {| h_kind := KInt; h_name_offset := 1; h_vlen := 255; h_kind_flag := true; h_size_or_type := 3 |}.
Proof. vm_compute. repeat split. Qed.
(** src/btf/header.rs:165 *)
Definition header_test_type_section_start_overflow_image : list byte :=
  [x9f; xeb; x01; x00; xff; xff; xff; x7f; xff; xff; xff; x7f; x0c; x00; x00; x00; x00; x00; x00; x00; x00; x00; x00; x00].
Example header_test_type_section_start_overflow : fst ((fh <- file_header_new (buf header_test_type_section_start_overflow_image) ;; header_new (buf header_test_type_section_start_overflow_image) fh) reader_new) = Err InvalidTypeSectionOffset.
Proof. vm_compute. repeat split. Qed.
(** src/btf/header.rs:193 *)
Definition header_test_type_section_end_overflow_image : list byte :=
  [x9f; xeb; x01; x00; x18; x00; x00; x00; x00; x00; x00; xff; xff; xff; xff; x01; x00; x00; x00; x00; x00; x00; x00; x00].
Example header_test_type_section_end_overflow : fst ((fh <- file_header_new (buf header_test_type_section_end_overflow_image) ;; header_new (buf header_test_type_section_end_overflow_image) fh) reader_new) = Err InvalidTypeSectionOffset.
Proof. vm_compute. repeat split. Qed.
(** src/btf/file_header.rs:123 *)
Definition file_header_test_little_endian_btf_header_image : list byte :=
  [x9f; xeb; x01; x02; x03; x00; x00; x00; x04; x00; x00; x00; x05; x00; x00; x00; x06; x00; x00; x00; x07; x00; x00; x00].
Example file_header_test_little_endian_btf_header : match file_header_new (buf file_header_test_little_endian_btf_header_image) reader_new with
  | (Ok fh, r) => r_end r = Little /\ fh = {| version := 1; flags := 2; hdr_len := 3; type_off := 4; type_len := 5; str_off := 6; str_len := 7 |}
  | _ => False end.
Proof. vm_compute. repeat split. Qed.
(** src/btf/file_header.rs:149 *)
Definition file_header_test_big_endian_btf_header_image : list byte :=
  [xeb; x9f; x01; x02; x00; x00; x00; x03; x00; x00; x00; x04; x00; x00; x00; x05; x00; x00; x00; x06; x00; x00; x00; x07].
Example file_header_test_big_endian_btf_header : match file_header_new (buf file_header_test_big_endian_btf_header_image) reader_new with
  | (Ok fh, r) => r_end r = Big /\ fh = {| version := 1; flags := 2; hdr_len := 3; type_off := 4; type_len := 5; str_off := 6; str_len := 7 |}
  | _ => False end.
Proof. vm_compute. repeat split. Qed.
(** src/btf/string.rs:86 *)
Definition string_test_parse_string_image : list byte :=
  [x9f; xeb; x01; x00; x18; x00; x00; x00; x00; x00; x00; x00; x01; x00; x00; x00; x01; x00; x00; x00; x0b; x00; x00; x00; x00; x00; x41; x42; x43; x44; x00; x45; x46; x47; x48; x00].
Example string_test_parse_string : fst ((fh <- file_header_new (buf string_test_parse_string_image) ;; a <- parse_string (buf string_test_parse_string_image) fh 0 ;; b <- parse_string (buf string_test_parse_string_image) fh 1 ;;
  c <- parse_string (buf string_test_parse_string_image) fh 6 ;; d <- attempt (parse_string (buf string_test_parse_string_image) fh 11) ;; ret (a, b, c, d)) reader_new) =
  Ok ([], s "ABCD", s "EFGH", None).
Proof. vm_compute. repeat split. Qed.
(** src/btf/string.rs:127 *)
Definition string_test_string_section_start_overflow_image : list byte :=
  [x9f; xeb; x01; x00; x18; x00; x00; x00; x00; x00; x00; x00; x01; x00; x00; x00; xff; xff; xff; xff; x01; x00; x00; x00].
Example string_test_string_section_start_overflow : fst ((fh <- file_header_new (buf string_test_string_section_start_overflow_image) ;; parse_string (buf string_test_string_section_start_overflow_image) fh 0) reader_new) = Err InvalidStringOffset.
Proof. vm_compute. repeat split. Qed.
(** src/btf/string.rs:155 *)
Definition string_test_string_section_end_overflow_image : list byte :=
  [x9f; xeb; x01; x00; x18; x00; x00; x00; x00; x00; x00; x00; x01; x00; x00; x00; x00; x00; x00; xff; xff; xff; xff; x01].
Example string_test_string_section_end_overflow : fst ((fh <- file_header_new (buf string_test_string_section_end_overflow_image) ;; parse_string (buf string_test_string_section_end_overflow_image) fh 0) reader_new) = Err InvalidStringOffset.
Proof. vm_compute. repeat split. Qed.
(** src/btf/string.rs:183 *)
Definition string_test_string_offset_overflow_image : list byte :=
  [x9f; xeb; x01; x00; x18; x00; x00; x00; x00; x00; x00; x00; x01; x00; x00; x00; x00; x00; x00; x80; x01; x00; x00; x00].
Example string_test_string_offset_overflow : fst ((fh <- file_header_new (buf string_test_string_offset_overflow_image) ;; parse_string (buf string_test_string_offset_overflow_image) fh 0x80000000) reader_new) = Err InvalidStringOffset.
Proof. vm_compute. repeat split. Qed.
(** src/btf/kind.rs:109 *)
Example kind_test_type_kind : map (fun i => match kind_new i with Err _ => true | _ => false end) (map N.of_nat (seq 0 21)) =
  map (fun i => (i =? 0) || (i =? 20)) (map N.of_nat (seq 0 21)).
Proof. vm_compute. repeat split. Qed.
(** src/btf/offset.rs:92 *)
Example offset_test_u32_addition : offset_add_u32 (ByteOffset 0) 1 = Ok (ByteOffset 1) /\ fails (offset_add_u32 (BitOffsetAndSize 0 0) 1) = true.
Proof. vm_compute. repeat split. Qed.
(** src/btf/offset.rs:98 *)
Example offset_test_offset_addition : offset_add (ByteOffset 0) (ByteOffset 1) = Ok (ByteOffset 1) /\ offset_add (ByteOffset 0) (BitOffsetAndSize 1 1) = Ok (BitOffsetAndSize 1 1) /\
  fails (offset_add (BitOffsetAndSize 0 0) (ByteOffset 1)) = true /\ fails (offset_add (BitOffsetAndSize 0 0) (BitOffsetAndSize 1 1)) = true.
Proof. vm_compute. repeat split. Qed.
(** src/btf/offset.rs:125 *)
Example offset_test_u32_addition_overflow : offset_add_u32 (ByteOffset 0xFFFFFFFF) 1 = Err InvalidOffset /\ offset_add_u32 (ByteOffset (0xFFFFFFFF - 1)) 2 = Err InvalidOffset /\
  offset_add_u32 (ByteOffset 0xFFFFFFFF) 0 = Ok (ByteOffset 0xFFFFFFFF).
Proof. vm_compute. repeat split. Qed.
(** src/btf/offset.rs:140 *)
Example offset_test_byte_offset_addition_overflow : offset_add (ByteOffset 0xFFFFFFFF) (ByteOffset 1) = Err InvalidOffset /\ offset_add (ByteOffset 0x80000000) (ByteOffset 0x80000000) = Err InvalidOffset /\
  offset_add (ByteOffset 0x7FFFFFFF) (ByteOffset 0x7FFFFFFF) = Ok (ByteOffset 0xFFFFFFFE).
Proof. vm_compute. repeat split. Qed.
(** src/btf/offset.rs:155 *)
Example offset_test_bit_offset_multiplication_overflow : offset_add (ByteOffset 0x20000000) (BitOffsetAndSize 0 1) = Err InvalidOffset /\ offset_add (ByteOffset (0xFFFFFFFF / 8 + 1)) (BitOffsetAndSize 0 1) = Err InvalidOffset /\
  fails (offset_add (ByteOffset 0x1FFFFFFF) (BitOffsetAndSize 0 1)) = false.
Proof. vm_compute. repeat split. Qed.
(** src/btf/offset.rs:178 *)
Example offset_test_bit_offset_addition_overflow : offset_add (ByteOffset 0x1FFFFFFF) (BitOffsetAndSize 0xFFFFFFFF 1) = Err InvalidOffset /\ offset_add (ByteOffset 1) (BitOffsetAndSize 7 1) = Ok (BitOffsetAndSize 15 1).
Proof. vm_compute. repeat split. Qed.
(** src/utils/readable_buffer.rs:61 *)
Example readable_buffer_test_buffer_offset_overflow : readable_buffer (repeat x00 100) [] (2 ^ 64 - 1 - 50) 100 = Fails InvalidOffset.
Proof. vm_compute. repeat split. Qed.
(** src/utils/readable_buffer.rs:73 *)
Example readable_buffer_test_valid_read_at_boundary : readable_buffer [x41; x42; x43; x44] [] 0 4 = Bytes [x41; x42; x43; x44] /\ readable_buffer [x41; x42; x43; x44] [] 3 1 = Bytes [x44].
Proof. vm_compute. repeat split. Qed.
(** src/utils/readable_buffer.rs:89 *)
Example readable_buffer_test_eof_error : readable_buffer [x41; x42; x43; x44] [] 4 1 = Fails EOF.
Proof. vm_compute. repeat split. Qed.
(** src/utils/readable_buffer.rs:100 *)
Example readable_buffer_test_invalid_offset_beyond_buffer : readable_buffer [x41; x42; x43; x44] [] 3 2 = Fails InvalidOffset.
Proof. vm_compute. repeat split. Qed.
(** src/utils/reader.rs:164 *)
Example reader_signed_values : fst ((set_endianness Little ;;; set_offset 0 ;;; read_i8 (buf [xf8; xf9; xfa; xfb; xfc; xfd; xfe; xff])) reader_new) = Ok (-8)%Z /\
  fst ((set_endianness Little ;;; set_offset 0 ;;; read_i16 (buf [xf8; xf9; xfa; xfb; xfc; xfd; xfe; xff])) reader_new) = Ok (-1544)%Z /\
  fst ((set_endianness Little ;;; set_offset 0 ;;; read_i32 (buf [xf8; xf9; xfa; xfb; xfc; xfd; xfe; xff])) reader_new) = Ok (-67438088)%Z /\
  fst ((set_endianness Little ;;; set_offset 0 ;;; read_i64 (buf [xf8; xf9; xfa; xfb; xfc; xfd; xfe; xff])) reader_new) = Ok (-283686952306184)%Z /\
  fst ((set_endianness Big ;;; set_offset 0 ;;; read_i8 (buf [xf8; xf9; xfa; xfb; xfc; xfd; xfe; xff])) reader_new) = Ok (-8)%Z /\
  fst ((set_endianness Big ;;; set_offset 0 ;;; read_i16 (buf [xf8; xf9; xfa; xfb; xfc; xfd; xfe; xff])) reader_new) = Ok (-1799)%Z /\
  fst ((set_endianness Big ;;; set_offset 0 ;;; read_i32 (buf [xf8; xf9; xfa; xfb; xfc; xfd; xfe; xff])) reader_new) = Ok (-117835013)%Z /\
  fst ((set_endianness Big ;;; set_offset 0 ;;; read_i64 (buf [xf8; xf9; xfa; xfb; xfc; xfd; xfe; xff])) reader_new) = Ok (-506097522914230529)%Z.
Proof. vm_compute. repeat split. Qed.
(** src/utils/reader.rs:200 *)
Example reader_endianness : fst ((set_endianness Little ;;; set_offset 0 ;;; read_u8 (buf [x01; x02; x03; x04; x05; x06; x07; x08])) reader_new) = Ok x01 /\
  fst ((set_endianness Little ;;; set_offset 0 ;;; read_u16 (buf [x01; x02; x03; x04; x05; x06; x07; x08])) reader_new) = Ok 0x0201 /\
  fst ((set_endianness Little ;;; set_offset 0 ;;; read_u32 (buf [x01; x02; x03; x04; x05; x06; x07; x08])) reader_new) = Ok 0x04030201 /\
  fst ((set_endianness Little ;;; set_offset 0 ;;; read_u64 (buf [x01; x02; x03; x04; x05; x06; x07; x08])) reader_new) = Ok 0x0807060504030201 /\
  fst ((set_endianness Big ;;; set_offset 0 ;;; read_u8 (buf [x01; x02; x03; x04; x05; x06; x07; x08])) reader_new) = Ok x01 /\
  fst ((set_endianness Big ;;; set_offset 0 ;;; read_u16 (buf [x01; x02; x03; x04; x05; x06; x07; x08])) reader_new) = Ok 0x0102 /\
  fst ((set_endianness Big ;;; set_offset 0 ;;; read_u32 (buf [x01; x02; x03; x04; x05; x06; x07; x08])) reader_new) = Ok 0x01020304 /\
  fst ((set_endianness Big ;;; set_offset 0 ;;; read_u64 (buf [x01; x02; x03; x04; x05; x06; x07; x08])) reader_new) = Ok 0x0102030405060708.
Proof. vm_compute. repeat split. Qed.
(** src/utils/reader.rs:236 *)
Example reader_eof : (let (a, r) := read_u8 (buf []) reader_new in a = Err EOF /\ r_off r = 0) /\
  (let (a, r) := read_u16 (buf []) reader_new in a = Err EOF /\ r_off r = 0) /\
  (let (a, r) := read_u32 (buf []) reader_new in a = Err EOF /\ r_off r = 0) /\
  (let (a, r) := read_u64 (buf []) reader_new in a = Err EOF /\ r_off r = 0) /\
  (let (a, r) := read_i8 (buf []) reader_new in a = Err EOF /\ r_off r = 0) /\
  (let (a, r) := read_i16 (buf []) reader_new in a = Err EOF /\ r_off r = 0) /\
  (let (a, r) := read_i32 (buf []) reader_new in a = Err EOF /\ r_off r = 0) /\
  (let (a, r) := read_i64 (buf []) reader_new in a = Err EOF /\ r_off r = 0).
Proof. vm_compute. repeat split. Qed.
(** src/utils/reader.rs:253 *)
Example reader_invalid_offset : (let (a, r) := read_u16 (buf [x01]) reader_new in a = Err InvalidOffset /\ r_off r = 0) /\
  (let (a, r) := read_u32 (buf [x01]) reader_new in a = Err InvalidOffset /\ r_off r = 0) /\
  (let (a, r) := read_u64 (buf [x01]) reader_new in a = Err InvalidOffset /\ r_off r = 0) /\
  (let (a, r) := read_i16 (buf [x01]) reader_new in a = Err InvalidOffset /\ r_off r = 0) /\
  (let (a, r) := read_i32 (buf [x01]) reader_new in a = Err InvalidOffset /\ r_off r = 0) /\
  (let (a, r) := read_i64 (buf [x01]) reader_new in a = Err InvalidOffset /\ r_off r = 0).
Proof. vm_compute. repeat split. Qed.
(** src/utils/reader.rs:268 *)
Example reader_offset_increment : (let (a, r) := read_u8 (buf [x01; x02; x03; x04; x05; x06; x07; x08]) reader_new in fails a = false /\ r_off r = 1) /\
  (let (a, r) := read_u16 (buf [x01; x02; x03; x04; x05; x06; x07; x08]) reader_new in fails a = false /\ r_off r = 2) /\
  (let (a, r) := read_u32 (buf [x01; x02; x03; x04; x05; x06; x07; x08]) reader_new in fails a = false /\ r_off r = 4) /\
  (let (a, r) := read_u64 (buf [x01; x02; x03; x04; x05; x06; x07; x08]) reader_new in fails a = false /\ r_off r = 8) /\
  (let (a, r) := read_i8 (buf [x01; x02; x03; x04; x05; x06; x07; x08]) reader_new in fails a = false /\ r_off r = 1) /\
  (let (a, r) := read_i16 (buf [x01; x02; x03; x04; x05; x06; x07; x08]) reader_new in fails a = false /\ r_off r = 2) /\
  (let (a, r) := read_i32 (buf [x01; x02; x03; x04; x05; x06; x07; x08]) reader_new in fails a = false /\ r_off r = 4) /\
  (let (a, r) := read_i64 (buf [x01; x02; x03; x04; x05; x06; x07; x08]) reader_new in fails a = false /\ r_off r = 8) /\
  (let (a, r) := read (buf [x01; x02; x03; x04; x05; x06; x07; x08]) 1 reader_new in fails a = false /\ r_off r = 1).
Proof. vm_compute. repeat split. Qed.
(** src/btf/type_information.rs:787 *)
Example type_information_test_path_component_iter : components (s "") = Some [] /\
  components (s "[1]") = Some [Index 1] /\
  components (s "[1][2]") = Some [Index 1; Index 2] /\
  components (s "test") = Some [Name (s "test")] /\
  components (s "array[10]") = Some [Name (s "array"); Index 10] /\
  components (s "array[10].array2[11]") = Some [Name (s "array"); Index 10; Name (s "array2"); Index 11] /\
  components (s "_test") = Some [Name (s "_test")] /\
  components (s "test_field") = Some [Name (s "test_field")] /\
  components (s ".value") = None /\
  components (s ".[10]") = None /\
  components (s "[value") = None /\
  components (s "]value") = None /\
  components (s "1") = None /\
  components (s "array[10]value") = None /\
  components (s "array[]") = None /\
  components (s "[]") = None.
Proof. vm_compute. repeat split. Qed.
(** src/btf/type_information.rs:835, [get_test_type_info] *)
Definition test_types : list (N * type_variant) :=
  [(1, TInt (mk_header KInt 1 0 false 4) {| int_name := Some (s "unsigned int"); int_size := 4; int_signed := false; int_char := false; int_boolean := false; int_offset := 0; int_bits := 32 |});
   (2, TPtr (mk_header KPtr 0 0 false 6) {| link_tid := 6 |});
   (3, TArray (mk_header KArray 0 0 false 0) {| element_tid := 1; index_tid := 1; element_count := 10 |});
   (4, TStruct (mk_header KStruct 0 2 false 8) {| struct_name := None; struct_size := 8; member_list :=
      [{| m_name_offset := 1; m_name := Some (s "anon_struct_value1"); m_tid := 1; m_offset := (ByteOffset 0) |}; {| m_name_offset := 1; m_name := Some (s "anon_struct_value2"); m_tid := 1; m_offset := (ByteOffset 32) |}] |});
   (5, TUnion (mk_header KUnion 0 2 true 8) {| struct_name := None; struct_size := 8; member_list :=
      [{| m_name_offset := 1; m_name := Some (s "anon_union_value1"); m_tid := 1; m_offset := (ByteOffset 0) |}; {| m_name_offset := 1; m_name := Some (s "anon_union_value2"); m_tid := 2; m_offset := (ByteOffset 0) |}] |});
   (6, TStruct (mk_header KStruct 1 4 false 28) {| struct_name := Some (s "Struct"); struct_size := 28; member_list :=
      [{| m_name_offset := 0; m_name := None; m_tid := 4; m_offset := (ByteOffset 0) |}; {| m_name_offset := 0; m_name := None; m_tid := 5; m_offset := (ByteOffset 64) |}; {| m_name_offset := 1; m_name := Some (s "int_value"); m_tid := 1; m_offset := (ByteOffset 128) |}; {| m_name_offset := 1; m_name := Some (s "ptr_value"); m_tid := 2; m_offset := (ByteOffset 160) |}] |});
   (7, TStruct (mk_header KStruct 1 2 false 16) {| struct_name := Some (s "list_head"); struct_size := 16; member_list :=
      [{| m_name_offset := 1; m_name := Some (s "next"); m_tid := 2; m_offset := (ByteOffset 0) |}; {| m_name_offset := 1; m_name := Some (s "prev"); m_tid := 2; m_offset := (ByteOffset 64) |}] |});
   (8, TEnum (mk_header KEnum 1 2 false 4) {| enum_name := Some (s "Enum32"); enum_size := 4; named_value_list := [{| nv_name := s "Enum32Value1"; nv_value := Unsigned 0 |}]; enum_signed := false |});
   (9, TEnum64 (mk_header KEnum64 1 2 false 8) {| enum_name := Some (s "Enum64"); enum_size := 8; named_value_list := [{| nv_name := s "Enum64Value1"; nv_value := Unsigned 0 |}]; enum_signed := false |});
   (10, TFwd (mk_header KFwd 1 0 false 6) {| nl_name := Some (s "Fwd"); nl_tid := 6 |});
   (11, TTypedef (mk_header KTypedef 1 2 false 6) {| nl_name := Some (s "StructAlias"); nl_tid := 6 |});
   (12, TVolatile (mk_header KVolatile 0 0 false 6) {| link_tid := 6 |});
   (13, TConst (mk_header KConst 0 0 false 6) {| link_tid := 6 |});
   (14, TRestrict (mk_header KRestrict 0 0 false 6) {| link_tid := 6 |});
   (15, TFunc (mk_header KFunc 1 0 false 16) {| nl_name := Some (s "func"); nl_tid := 16 |});
   (16, TFuncProto (mk_header KFuncProto 0 0 false 1) {| parameter_list := []; return_tid := 1 |});
   (17, TVar (mk_header KVar 1 0 false 1) {| var_name := Some (s "var"); var_tid := 1; linkage := 0; var_linkage_type := LinkGlobal |});
   (18, TDataSec (mk_header KDataSec 1 3 false 12) {| ds_name := Some (s ".data"); ds_size := 12; variable_list := [{| var_decl_id := 17; v_offset := 0; var_size := 4 |}; {| var_decl_id := 17; v_offset := 4; var_size := 4 |}; {| var_decl_id := 17; v_offset := 8; var_size := 4 |}] |});
   (19, TFloat (mk_header KFloat 1 0 false 8) {| float_name := Some (s "double"); float_size := 8 |});
   (20, TDeclTag (mk_header KDeclTag 1 0 false 6) {| dt_name := Some (s "decl_tag"); dt_tid := 6; component_index := 0 |});
   (21, TTypeTag (mk_header KTypeTag 1 0 false 11) {| nl_name := Some (s "type_tag"); nl_tid := 11 |});
   (100, TInt (mk_header KInt 1 0 false 8) {| int_name := Some (s "unsigned long int"); int_size := 8; int_signed := false; int_char := false; int_boolean := false; int_offset := 0; int_bits := 64 |});
   (101, TStruct (mk_header KStruct 0 2 false 8) {| struct_name := None; struct_size := 8; member_list :=
      [{| m_name_offset := 1; m_name := Some (s "hash"); m_tid := 1; m_offset := (ByteOffset 0) |}; {| m_name_offset := 1; m_name := Some (s "len"); m_tid := 1; m_offset := (ByteOffset 4) |}] |});
   (102, TUnion (mk_header KUnion 0 2 false 8) {| struct_name := None; struct_size := 8; member_list :=
      [{| m_name_offset := 0; m_name := None; m_tid := 101; m_offset := (ByteOffset 0) |}; {| m_name_offset := 1; m_name := Some (s "hash_len"); m_tid := 100; m_offset := (ByteOffset 0) |}] |});
   (103, TStruct (mk_header KStruct 1 2 false 8) {| struct_name := Some (s "qstr"); struct_size := 8; member_list :=
      [{| m_name_offset := 0; m_name := None; m_tid := 102; m_offset := (ByteOffset 0) |}; {| m_name_offset := 1; m_name := Some (s "name"); m_tid := 100; m_offset := (ByteOffset 8) |}] |});
   (104, TStruct (mk_header KStruct 1 3 false 16) {| struct_name := Some (s "dentry"); struct_size := 8; member_list :=
      [{| m_name_offset := 1; m_name := Some (s "test1"); m_tid := 1; m_offset := (ByteOffset 0) |}; {| m_name_offset := 1; m_name := Some (s "d_name"); m_tid := 103; m_offset := (ByteOffset 32) |}; {| m_name_offset := 1; m_name := Some (s "test2"); m_tid := 1; m_offset := (ByteOffset 256) |}] |})].
Definition test_type_info : type_information := {|
  id_to_type_map := inserted N.compare test_types;
  name_to_id_map := inserted str_compare [(s "unsigned int", 1); (s "Struct", 6); (s "list_head", 7); (s "Enum32", 8); (s "Enum64", 9); (s "StructForwardDecl", 10); (s "StructAlias", 11); (s "func", 15); (s "var", 17); (s ".data", 18); (s "double", 19); (s "decl_tag", 20); (s "type_tag", 21)];
  id_to_name_map := inserted N.compare [(1, s "unsigned int"); (6, s "Struct"); (7, s "list_head"); (8, s "Enum32"); (9, s "Enum64"); (10, s "StructForwardDecl"); (11, s "StructAlias"); (15, s "func"); (17, s "var"); (18, s ".data"); (19, s "double"); (20, s "decl_tag"); (21, s "type_tag")] |}.
(** src/btf/type_information.rs:1311 *)
Example type_information_test_size_of : size_of (build64 true) test_type_info 1 = Ok 4 /\
  size_of (build64 true) test_type_info 2 = Ok 8 /\
  size_of (build64 true) test_type_info 3 = Ok 40 /\
  size_of (build64 true) test_type_info 4 = Ok 8 /\
  size_of (build64 true) test_type_info 5 = Ok 8 /\
  size_of (build64 true) test_type_info 6 = Ok 28 /\
  size_of (build64 true) test_type_info 7 = Ok 16 /\
  size_of (build64 true) test_type_info 8 = Ok 4 /\
  size_of (build64 true) test_type_info 9 = Ok 8 /\
  size_of (build64 true) test_type_info 11 = Ok 28 /\
  size_of (build64 true) test_type_info 12 = Ok 28 /\
  size_of (build64 true) test_type_info 13 = Ok 28 /\
  size_of (build64 true) test_type_info 14 = Ok 28 /\
  size_of (build64 true) test_type_info 17 = Ok 4 /\
  size_of (build64 true) test_type_info 18 = Ok 12 /\
  size_of (build64 true) test_type_info 19 = Ok 8 /\
  size_of (build64 true) test_type_info 21 = Ok 28 /\
  size_of (build64 true) test_type_info 0 = Err NotSized /\
  size_of (build64 true) test_type_info 10 = Err NotSized /\
  size_of (build64 true) test_type_info 15 = Err NotSized /\
  size_of (build64 true) test_type_info 16 = Err NotSized /\
  size_of (build64 true) test_type_info 20 = Err NotSized /\
  name_of test_type_info 0 = Some (s "void") /\
  name_of test_type_info 10 = Some (s "StructForwardDecl") /\
  name_of test_type_info 15 = Some (s "func").
Proof. vm_compute. repeat split. Qed.
(** src/btf/type_information.rs:1385 *)
Example type_information_pointee_tid : pointee_tid test_type_info 2 = Ok 6.
Proof. vm_compute. repeat split. Qed.
(** src/btf/type_information.rs:1391 *)
Example type_information_test_offset_of : offset_of_uncached 20 (build64 true) test_type_info 0 (s "test") = Err InvalidTypePath /\
  offset_of_uncached 20 (build64 true) test_type_info 0 (s "[0]") = Err InvalidTypePath /\
  offset_of_uncached 20 (build64 true) test_type_info 1 (s "test") = Err InvalidTypePath /\
  offset_of_uncached 20 (build64 true) test_type_info 1 (s "[0]") = Err InvalidTypePath /\
  offset_of_uncached 20 (build64 true) test_type_info 2 (s "test") = Err InvalidTypePath /\
  offset_of_uncached 20 (build64 true) test_type_info 2 (s "[0]") = Err InvalidTypePath /\
  offset_of_uncached 20 (build64 true) test_type_info 8 (s "test") = Err InvalidTypePath /\
  offset_of_uncached 20 (build64 true) test_type_info 8 (s "[0]") = Err InvalidTypePath /\
  offset_of_uncached 20 (build64 true) test_type_info 9 (s "test") = Err InvalidTypePath /\
  offset_of_uncached 20 (build64 true) test_type_info 9 (s "[0]") = Err InvalidTypePath /\
  offset_of_uncached 20 (build64 true) test_type_info 10 (s "test") = Err InvalidTypePath /\
  offset_of_uncached 20 (build64 true) test_type_info 10 (s "[0]") = Err InvalidTypePath /\
  offset_of_uncached 20 (build64 true) test_type_info 19 (s "test") = Err InvalidTypePath /\
  offset_of_uncached 20 (build64 true) test_type_info 19 (s "[0]") = Err InvalidTypePath /\
  offset_of_uncached 20 (build64 true) test_type_info 15 (s "test") = Err InvalidTypePath /\
  offset_of_uncached 20 (build64 true) test_type_info 15 (s "[0]") = Err InvalidTypePath /\
  offset_of_uncached 20 (build64 true) test_type_info 16 (s "test") = Err InvalidTypePath /\
  offset_of_uncached 20 (build64 true) test_type_info 16 (s "[0]") = Err InvalidTypePath /\
  offset_of_uncached 20 (build64 true) test_type_info 17 (s "test") = Err InvalidTypePath /\
  offset_of_uncached 20 (build64 true) test_type_info 17 (s "[0]") = Err InvalidTypePath /\
  offset_of_uncached 20 (build64 true) test_type_info 18 (s "test") = Err InvalidTypePath /\
  offset_of_uncached 20 (build64 true) test_type_info 18 (s "[0]") = Err InvalidTypePath /\
  offset_of_uncached 20 (build64 true) test_type_info 20 (s "test") = Err InvalidTypePath /\
  offset_of_uncached 20 (build64 true) test_type_info 20 (s "[0]") = Err InvalidTypePath /\
  offset_of_uncached 20 (build64 true) test_type_info 21 (s "test") = Err InvalidTypePath /\
  offset_of_uncached 20 (build64 true) test_type_info 21 (s "[0]") = Err InvalidTypePath /\
  offset_of_uncached 20 (build64 true) test_type_info 3 (s "[10000000000000000000000000000]") = Err InvalidTypePath /\
  offset_of_uncached 20 (build64 true) test_type_info 3 (s "[test]") = Err InvalidTypePath /\
  offset_of_uncached 20 (build64 true) test_type_info 3 (s "test") = Err InvalidTypePath /\
  offset_of_uncached 20 (build64 true) test_type_info 3 (s "[10]") = Err InvalidTypePath /\
  offset_of_uncached 20 (build64 true) test_type_info 3 (s "[0]") = Ok (1, ByteOffset 0) /\
  offset_of_uncached 20 (build64 true) test_type_info 3 (s "[1]") = Ok (1, ByteOffset 4) /\
  offset_of_uncached 20 (build64 true) test_type_info 3 (s "[2]") = Ok (1, ByteOffset 8) /\
  offset_of_uncached 20 (build64 true) test_type_info 3 (s "[3]") = Ok (1, ByteOffset 12) /\
  offset_of_uncached 20 (build64 true) test_type_info 3 (s "[4]") = Ok (1, ByteOffset 16) /\
  offset_of_uncached 20 (build64 true) test_type_info 3 (s "[5]") = Ok (1, ByteOffset 20) /\
  offset_of_uncached 20 (build64 true) test_type_info 3 (s "[6]") = Ok (1, ByteOffset 24) /\
  offset_of_uncached 20 (build64 true) test_type_info 3 (s "[7]") = Ok (1, ByteOffset 28) /\
  offset_of_uncached 20 (build64 true) test_type_info 3 (s "[8]") = Ok (1, ByteOffset 32) /\
  offset_of_uncached 20 (build64 true) test_type_info 3 (s "[9]") = Ok (1, ByteOffset 36) /\
  offset_of_uncached 20 (build64 true) test_type_info 104 (s "test1") = Ok (1, ByteOffset 0) /\
  offset_of_uncached 20 (build64 true) test_type_info 104 (s "d_name") = Ok (103, ByteOffset 32) /\
  offset_of_uncached 20 (build64 true) test_type_info 104 (s "test2") = Ok (1, ByteOffset 256) /\
  offset_of_uncached 20 (build64 true) test_type_info 104 (s "d_name.hash") = Ok (1, ByteOffset 32) /\
  offset_of_uncached 20 (build64 true) test_type_info 104 (s "d_name.len") = Ok (1, ByteOffset 36) /\
  offset_of_uncached 20 (build64 true) test_type_info 104 (s "d_name.hash_len") = Ok (100, ByteOffset 32) /\
  offset_of_uncached 20 (build64 true) test_type_info 104 (s "d_name.name") = Ok (100, ByteOffset 40) /\
  offset_of_uncached 20 (build64 true) test_type_info 6 (s "int_value") = Ok (1, ByteOffset 128) /\
  offset_of_uncached 20 (build64 true) test_type_info 6 (s "ptr_value") = Ok (2, ByteOffset 160) /\
  offset_of_uncached 20 (build64 true) test_type_info 6 (s "anon_struct_value1") = Ok (1, ByteOffset 0) /\
  offset_of_uncached 20 (build64 true) test_type_info 6 (s "anon_struct_value2") = Ok (1, ByteOffset 32) /\
  offset_of_uncached 20 (build64 true) test_type_info 6 (s "anon_union_value1") = Ok (1, ByteOffset 64) /\
  offset_of_uncached 20 (build64 true) test_type_info 6 (s "anon_union_value2") = Ok (2, ByteOffset 64) /\
  offset_of_uncached 20 (build64 true) test_type_info 11 (s "int_value") = Ok (1, ByteOffset 128) /\
  offset_of_uncached 20 (build64 true) test_type_info 11 (s "ptr_value") = Ok (2, ByteOffset 160) /\
  offset_of_uncached 20 (build64 true) test_type_info 11 (s "anon_struct_value1") = Ok (1, ByteOffset 0) /\
  offset_of_uncached 20 (build64 true) test_type_info 11 (s "anon_struct_value2") = Ok (1, ByteOffset 32) /\
  offset_of_uncached 20 (build64 true) test_type_info 11 (s "anon_union_value1") = Ok (1, ByteOffset 64) /\
  offset_of_uncached 20 (build64 true) test_type_info 11 (s "anon_union_value2") = Ok (2, ByteOffset 64) /\
  offset_of_uncached 20 (build64 true) test_type_info 12 (s "int_value") = Ok (1, ByteOffset 128) /\
  offset_of_uncached 20 (build64 true) test_type_info 12 (s "ptr_value") = Ok (2, ByteOffset 160) /\
  offset_of_uncached 20 (build64 true) test_type_info 12 (s "anon_struct_value1") = Ok (1, ByteOffset 0) /\
  offset_of_uncached 20 (build64 true) test_type_info 12 (s "anon_struct_value2") = Ok (1, ByteOffset 32) /\
  offset_of_uncached 20 (build64 true) test_type_info 12 (s "anon_union_value1") = Ok (1, ByteOffset 64) /\
  offset_of_uncached 20 (build64 true) test_type_info 12 (s "anon_union_value2") = Ok (2, ByteOffset 64) /\
  offset_of_uncached 20 (build64 true) test_type_info 13 (s "int_value") = Ok (1, ByteOffset 128) /\
  offset_of_uncached 20 (build64 true) test_type_info 13 (s "ptr_value") = Ok (2, ByteOffset 160) /\
  offset_of_uncached 20 (build64 true) test_type_info 13 (s "anon_struct_value1") = Ok (1, ByteOffset 0) /\
  offset_of_uncached 20 (build64 true) test_type_info 13 (s "anon_struct_value2") = Ok (1, ByteOffset 32) /\
  offset_of_uncached 20 (build64 true) test_type_info 13 (s "anon_union_value1") = Ok (1, ByteOffset 64) /\
  offset_of_uncached 20 (build64 true) test_type_info 13 (s "anon_union_value2") = Ok (2, ByteOffset 64) /\
  offset_of_uncached 20 (build64 true) test_type_info 14 (s "int_value") = Ok (1, ByteOffset 128) /\
  offset_of_uncached 20 (build64 true) test_type_info 14 (s "ptr_value") = Ok (2, ByteOffset 160) /\
  offset_of_uncached 20 (build64 true) test_type_info 14 (s "anon_struct_value1") = Ok (1, ByteOffset 0) /\
  offset_of_uncached 20 (build64 true) test_type_info 14 (s "anon_struct_value2") = Ok (1, ByteOffset 32) /\
  offset_of_uncached 20 (build64 true) test_type_info 14 (s "anon_union_value1") = Ok (1, ByteOffset 64) /\
  offset_of_uncached 20 (build64 true) test_type_info 14 (s "anon_union_value2") = Ok (2, ByteOffset 64).
Proof. vm_compute. repeat split. Qed.
(** src/btf/type_information.rs:1558 *)
Definition type_information_test_type_section_offset_overflow_image : list byte :=
  [x9f; xeb; x01; x00; xff; xff; xff; x7f; xff; xff; xff; x7f; x01; x00; x00; x00; x00; x00; x00; x00; x01; x00; x00; x00].
Example type_information_test_type_section_offset_overflow : type_information_new (buf type_information_test_type_section_offset_overflow_image) = Err InvalidTypeSectionOffset.
Proof. vm_compute. repeat split. Qed.
(** src/btf/type_information.rs:1582 *)
Definition type_information_test_type_section_end_overflow_image : list byte :=
  [x9f; xeb; x01; x00; x18; x00; x00; x00; x00; x00; x00; xff; xff; xff; xff; x01; x00; x00; x00; x00; x01; x00; x00; x00].
Example type_information_test_type_section_end_overflow : type_information_new (buf type_information_test_type_section_end_overflow_image) = Err InvalidTypeSectionOffset.
Proof. vm_compute. repeat split. Qed.
Definition overflow_type_info : type_information := {|
  id_to_type_map := inserted N.compare (test_types ++ [(200, TInt (mk_header KInt 1 0 false 268435456) {| int_name := Some (s "huge_int"); int_size := 268435456; int_signed := false; int_char := false; int_boolean := false; int_offset := 0; int_bits := 32 |}); (201, TArray (mk_header KArray 0 0 false 0) {| element_tid := 200; index_tid := 200; element_count := 100 |})]);
  name_to_id_map := name_to_id_map test_type_info; id_to_name_map := id_to_name_map test_type_info |}.
(** src/btf/type_information.rs:1606 *)
Example type_information_test_array_element_offset_overflow : offset_of_uncached 20 (build64 true) overflow_type_info 201 (s "[20]") = Err InvalidTypePath /\ fails (offset_of_uncached 20 (build64 true) overflow_type_info 201 (s "[0]")) = false.
Proof. vm_compute. repeat split. Qed.
