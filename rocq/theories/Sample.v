(** * Sample: a file with all nineteen kinds, on which the hypotheses of the
    property theorems are checked (Examples only: no property rests on it). *)
From Coq Require Import Strings.String.
From Coq Require Import List NArith ZArith Bool Lia.
From Verif Require Import Cache Spec BaseFacts Exact Encode LoadProps PathSpec QuerySpec Sizes Follow Checker Witness.
Import ListNotations.
Open Scope N_scope.

Definition s (x : String.string) : str := String.list_byte_of_string x.
Arguments s x%string.
Definition nm (x : String.string) : option str := Some (s x).
Arguments nm x%string.

Definition sample : list decl :=
  [ DInt (nm "int") 4 true false false 0 32;                                    (* 1 *)
    DStruct (nm "list_head") 16 false                                           (* 2 *)
      [(nm "next", 3, ByteOffset 0); (nm "prev", 3, ByteOffset 8)];
    DPtr 2;                                                                     (* 3 *)
    DInt (nm "char") 1 false true false 0 8;                                    (* 4 *)
    DArray 4 1 16;                                                              (* 5: char[16] *)
    DUnion None 8 false [(nm "a", 1, ByteOffset 0); (nm "b", 3, ByteOffset 0)]; (* 6 *)
    DStruct (nm "task") 64 true                                                 (* 7 *)
      [(nm "pid", 1, ByteOffset 0); (None, 6, ByteOffset 8); (nm "comm", 5, ByteOffset 16);
       (nm "list", 2, ByteOffset 32); (nm "flag", 1, BitOffsetAndSize 384 3)];
    DTypedef (nm "task_t") 7;                                                   (* 8 *)
    DConst 8;                                                                   (* 9 *)
    DArray 9 1 3;                                                               (* 10: const task_t[3] *)
    DEnum (nm "color") 4 true [(s "RED", Signed (-1)%Z); (s "GREEN", Signed 2%Z)]; (* 11 *)
    DEnum64 (nm "big") 8 false [(s "B", Unsigned (2 ^ 40 + 5))];                (* 12 *)
    DFwd (nm "hidden") true 0;                                                  (* 13 *)
    DVolatile 3;                                                                (* 14 *)
    DRestrict 14;                                                               (* 15 *)
    DFuncProto [(nm "x", 1); (None, 0)] 1;                                      (* 16 *)
    DFunc (nm "main") 1 16;                                                     (* 17 *)
    DVar (nm "v") 1 1;                                                          (* 18 *)
    DDataSec (nm ".data") 8 [(18, 0, 4)];                                       (* 19 *)
    DFloat (nm "double") 8;                                                     (* 20 *)
    DDeclTag (nm "tag") 7 0xFFFFFFFF;                                           (* 21 *)
    DTypeTag (nm "rcu") 7;                                                      (* 22 *)
    DTypedef (nm "int") 1;                                                      (* 23: a name used twice *)
    DStruct (nm "holder") 192 false [(nm "tasks", 10, ByteOffset 0)];           (* 24 *)
    DUnion None 4 false [(nm "in1", 1, ByteOffset 0)];                          (* 25 *)
    DStruct None 8 false [(nm "in2", 1, ByteOffset 0); (None, 25, ByteOffset 4)]; (* 26 *)
    DStruct (nm "deep") 24 false [(nm "hd", 3, ByteOffset 0); (None, 26, ByteOffset 8)] ]. (* 27 *)

Definition file_env (img : list byte) : env := {| cfg := build64 true; rd := readable_file img |}.
Definition sample_img : list byte := Eval vm_compute in encode Little sample.
Definition sample_big : list byte := Eval vm_compute in encode Big sample.
Definition sample_ti : type_information := Eval vm_compute in
  match type_information_new (file_env sample_img) with
  | Ok ti => ti
  | _ => {| id_to_type_map := []; name_to_id_map := []; id_to_name_map := [] |}
  end.

Lemma sample_img_eq : encode Little sample = sample_img. Proof. vm_compute. reflexivity. Qed.
Lemma sample_big_eq : encode Big sample = sample_big. Proof. vm_compute. reflexivity. Qed.
Lemma sample_loads : type_information_new (file_env sample_img) = Ok sample_ti. Proof. vm_compute. reflexivity. Qed.
Lemma file_serves img : serves (rd (file_env img)) img. Proof. apply readable_file_serves. Qed.

Lemma sample_acyclic : acyclic sample_ti. Proof. apply (ranked_acyclic (fun t => t)). vm_compute. reflexivity. Qed.
Lemma sample_sizes b : sizes_fit (build64 b) sample_ti. Proof. apply sized_within_fit. vm_compute. reflexivity. Qed.
Lemma sample_bytes : anonymous_in_bytes sample_ti. Proof. apply anonymous_bytes_ok. vm_compute. reflexivity. Qed.
Lemma sample_unambiguous : unambiguous sample_ti.
Proof. apply (distinct_unambiguous sample_ti (all_offers sample_ti)). vm_compute. reflexivity. Qed.
Lemma sample_plain : plain_bitfields sample_ti. Proof. apply bitfields_plain_ok. vm_compute. reflexivity. Qed.
Lemma sample_consistent : consistent sample_ti. Proof. apply contains_consistent. vm_compute. reflexivity. Qed.

(** The sample meets the hypotheses of the round trip. *)
Lemma sample_ok : Forall decl_ok sample. Proof. apply decls_ok. vm_compute. reflexivity. Qed.
