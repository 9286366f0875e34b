(** * PropQuery: the properties of size_of and pointee_tid (C28-C31), and what
    fails of termination and overflow. *)
From Coq Require Import Strings.String.
From Coq Require Import List NArith ZArith Bool Lia Strings.Byte.
From Verif Require Import TypeInfo Spec BaseFacts PathSpec Path PathGrammar PathPrint QuerySpec Chains Sizes Follow Offsets Offsets2 OffsetOf OffsetOf2 Checker Encode LoadProps Witness Sample PropPath.
Import ListNotations.
Open Scope N_scope.

(** ** C28 *)
(** [size ti t s], [no_size ti t k] (QuerySpec.v): the size of [t] is [s]; [t] has no size, because of [k]. *)
Theorem C28_size_of : forall c ti t, sizes_fit c ti ->
  (forall s, size_of c ti t = Ok s <-> size ti t s) /\
  (forall k, size_of c ti t = Err k <-> no_size ti t k) /\
  (forall q, size_of c ti t <> Panic q) /\
  (size_of c ti t = Diverge <-> endless (size_link ti) t).
Proof.
  intros c ti t F. destruct (size_of_spec c ti t) as (S1 & S2 & S3 & S4 & S5 & S6).
  assert (A : forall s, size ti t s -> size_of c ti t = Ok s) by (intros s H; apply S1, F, H).
  split; [|split; [exact S4|split; [|exact S6]]].
  - intros s. split; [|apply A]. intros E. destruct (S3 s E) as (s0 & H & _). pose proof (A s0 H) as E'. rewrite E in E'. injection E' as ->. exact H.
  - intros q E. destruct (S5 q E) as (_ & _ & s & H & N). apply N, F, H.
Qed.
Print Assumptions C28_size_of.
(** Without a condition on the rest of the table: whenever the products that enter into this size fit. *)
Theorem C28_size_of_local : forall c ti t s, has_size ti (fun n => n < 2 ^ usize_bits c) t s -> size_of c ti t = Ok s.
Proof. intros c ti t s. exact (proj1 (size_of_spec c ti t) s). Qed.
Print Assumptions C28_size_of_local.
Theorem C28_errors : forall c ti t k, size_of c ti t = Err k <-> no_size ti t k.
Proof. intros c ti t. exact (proj1 (proj2 (proj2 (proj2 (size_of_spec c ti t))))). Qed.
Print Assumptions C28_errors.
(** The same, case by case. *)
Theorem C28_by_kind : forall c ti t ty, from_id ti t = Some ty ->
  match ty with
  | TInt _ d => size_of c ti t = Ok (int_size d)
  | TFloat _ d => size_of c ti t = Ok (float_size d)
  | TEnum _ d | TEnum64 _ d => size_of c ti t = Ok (enum_size d)
  | TStruct _ d | TUnion _ d => size_of c ti t = Ok (struct_size d)
  | TDataSec _ d => size_of c ti t = Ok (ds_size d)
  | TTypedef _ d | TTypeTag _ d => size_of c ti t = size_of c ti (nl_tid d)
  | TConst _ d | TVolatile _ d | TRestrict _ d => size_of c ti t = size_of c ti (link_tid d)
  | TVar _ d => size_of c ti t = size_of c ti (var_tid d)
  | TArray _ d => forall s, size_of c ti (element_tid d) = Ok s -> s * element_count d < 2 ^ usize_bits c -> size_of c ti t = Ok (s * element_count d)
  | TPtr _ _ => forall lh h d, id_of ti (s "list_head") = Some lh -> from_id ti lh = Some (TStruct h d) -> size_of c ti t = Ok (struct_size d / 2)
  | TVoid | TFwd _ _ | TFunc _ _ | TFuncProto _ _ | TDeclTag _ _ => size_of c ti t = Err NotSized
  end.
Proof.
  intros c ti t ty E. rewrite (size_of_unfold c ti t), E. destruct ty; try reflexivity.
  - intros lh h' d' H1 H2. unfold pointer_size. change (id_of ti list_head_str = Some lh) in H1. rewrite H1, H2. reflexivity.
  - intros s Hs Hf. rewrite Hs. cbn [obind]. apply mul_usize_fits, Hf.
Qed.
Print Assumptions C28_by_kind.
Example C28_met : sizes_fit (build64 true) sample_ti /\ size sample_ti 10 192 /\ no_size sample_ti 16 NotSized /\ no_size sample_ti 999 InvalidTypeID /\
  size_of (build64 true) sample_ti 10 = Ok 192 /\ size_of (build64 true) sample_ti 15 = Ok 8.
Proof.
  pose proof (sample_sizes true) as F. split; [exact F|].
  destruct (C28_size_of (build64 true) sample_ti 10 F) as (A & _). destruct (C28_size_of (build64 true) sample_ti 16 F) as (_ & B & _).
  destruct (C28_size_of (build64 true) sample_ti 999 F) as (_ & B' & _).
  split; [apply A; vm_compute; reflexivity|]. split; [apply B; vm_compute; reflexivity|]. split; [apply B'; vm_compute; reflexivity|]. vm_compute. auto.
Qed.

(** ** C29 *)
(** int[2^31][2^31] is 2^64 bytes big: a debug build panics, a release build says 0, and
    offset_of places its element 2, in an array of 3 of them, at byte 0. *)
Definition overflow_file : list byte :=
  raw_file Little [0; 0x01000000; 4; 32;  0; 0x03000000; 0; 1; 1; 2 ^ 31;  0; 0x03000000; 0; 2; 1; 2 ^ 31;  0; 0x03000000; 0; 3; 1; 3] [x00].
Definition table_of (img : list byte) : type_information :=
  match type_information_new (file_env img) with Ok ti => ti | _ => {| id_to_type_map := []; name_to_id_map := []; id_to_name_map := [] |} end.
Definition overflow_ti : type_information := Eval vm_compute in table_of overflow_file.
Lemma overflow_loads : type_information_new (file_env overflow_file) = Ok overflow_ti. Proof. vm_compute. reflexivity. Qed.
Lemma overflow_size : size overflow_ti 3 (2 ^ 64).
Proof.
  assert (S1 : size overflow_ti 1 4) by (eapply size_stored; [vm_compute; reflexivity|reflexivity]).
  assert (S2 : size overflow_ti 2 (4 * 2 ^ 31)) by (eapply size_array; [do 2 eexists; split; [vm_compute; reflexivity|split; reflexivity]|exact S1|exact I]).
  change (2 ^ 64) with (4 * 2 ^ 31 * 2 ^ 31). eapply size_array; [do 2 eexists; split; [vm_compute; reflexivity|split; reflexivity]|exact S2|exact I].
Qed.
Theorem C29_wrapped_size_refuted : exists img ti, type_information_new (file_env img) = Ok ti /\ size ti 3 (2 ^ 64) /\
  size_of (build64 true) ti 3 = Panic ArithmeticOverflow /\ size_of (build64 false) ti 3 = Ok 0 /\
  offset_of_returns (build64 false) ti 4 (s "[2]") (Ok (3, ByteOffset 0)) /\
  offset_of_returns (build64 true) ti 4 (s "[2]") (Panic ArithmeticOverflow) /\
  leads ti (size ti) 4 [Index 2] 3 (ByteOffset (2 ^ 65)).
Proof.
  exists overflow_file, overflow_ti. split; [exact overflow_loads|]. split; [exact overflow_size|].
  split; [vm_compute; reflexivity|]. split; [vm_compute; reflexivity|].
  split; [split; [discriminate|exists 10%nat; vm_compute; reflexivity]|].
  split; [split; [discriminate|exists 10%nat; vm_compute; reflexivity]|].
  change (ByteOffset (2 ^ 65)) with (shift (2 * 2 ^ 64) (ByteOffset 0)).
  eapply leads_index; [exists 4; split; [constructor|apply opaque_iff; split; [vm_compute; reflexivity|exact I]]|vm_compute; reflexivity|exact overflow_size|constructor].
Qed.
Print Assumptions C29_wrapped_size_refuted.
(** With overflow checks, size_of is exact or panics; it panics only if a product overflows. Without,
    it is right modulo 2^64; and it is exact whenever the size is positive and fits. *)
Theorem C29_exact_partial : forall c ti t,
  (forall s, overflow_checks c = true -> size_of c ti t = Ok s -> size ti t s) /\
  (forall s, size_of c ti t = Ok s -> exists s0, size ti t s0 /\ s mod 2 ^ usize_bits c = s0 mod 2 ^ usize_bits c) /\
  (forall s, size ti t s -> 0 < s < 2 ^ usize_bits c -> size_of c ti t = Ok s) /\
  (forall q, size_of c ti t = Panic q -> overflow_checks c = true /\
     exists s, size ti t s /\ ~ has_size ti (fun n => n < 2 ^ usize_bits c) t s).
Proof.
  intros c ti t. destruct (size_of_spec c ti t) as (S1 & S2 & S3 & _ & S5 & _). split; [|split; [exact S3|split]].
  - intros s Hc E. eapply has_size_impl; [|exact (S2 s Hc E)]. auto.
  - intros s H [H0 H1]. apply S1. apply size_positive; assumption.
  - intros q E. destruct (S5 q E) as (_ & H1 & H2). auto.
Qed.
Print Assumptions C29_exact_partial.
Example C29_met : size sample_ti 10 192 /\ 192 < 2 ^ usize_bits (build64 false) /\ size_of (build64 false) sample_ti 10 = Ok 192.
Proof. split; [exact (proj1 (proj2 C28_met))|]. vm_compute. auto. Qed.

(** ** C30 *)
(** A typedef of itself, and a struct with an anonymous member of its own type. *)
Definition cycle_file : list byte :=
  raw_file Little [0; 0x08000000; 1;  0; 0x04000001; 8; 0; 2; 0] [x00].
Definition cycle_ti : type_information := Eval vm_compute in table_of cycle_file.
Lemma cycle_loads : type_information_new (file_env cycle_file) = Ok cycle_ti. Proof. vm_compute. reflexivity. Qed.
Lemma accepted_x c : accepted c (s "x") [Name (s "x")].
Proof. destruct c as [ub oc]. vm_compute. reflexivity. Qed.
Lemma cycle_follow c e n : follow n c cycle_ti e (ByteOffset 0) 2 [Name (s "x")] = Diverge.
Proof.
  induction n as [|n IH]; [reflexivity|]. rewrite follow_S.
  replace (resolve cycle_ti 2) with (@Ok offset_error _ (2, match from_id cycle_ti 2 with Some ty => ty | None => TVoid end)) by (vm_compute; reflexivity).
  cbn [obind snd]. match goal with |- context [from_id cycle_ti 2] => let t := eval vm_compute in (from_id cycle_ti 2) in change (from_id cycle_ti 2) with t end. cbv iota.
  unfold round. cbn [member_lists member_list probe_anonymous is_anonymous m_name m_offset m_tid].
  change (offset_add (ByteOffset 0) (ByteOffset 0)) with (@Ok error_kind _ (ByteOffset 0)). cbn [btf_err obind]. rewrite IH. reflexivity.
Qed.
Theorem C30_queries_terminate_refuted : exists img ti, type_information_new (file_env img) = Ok ti /\
  (forall c, size_of c ti 1 = Diverge) /\ pointee_tid ti 1 = Diverge /\
  (forall c, offset_of_never_returns c ti 1 (s "x")) /\
  (forall c, size_of c ti 2 = Ok 8 /\ offset_of_never_returns c ti 2 (s "x")).
Proof.
  exists cycle_file, cycle_ti. split; [exact cycle_loads|].
  assert (V : valid_utf8 (s "x")) by literal.
  assert (A : forall c, ascripts c (PStart, s "x") [Name (s "x")] None) by (intros c; apply accepted_script; [exact V|apply accepted_x]).
  split; [intros [ub oc]; vm_compute; reflexivity|]. split; [vm_compute; reflexivity|]. split; [|split].
  - intros c n. rewrite (uncached_user c cycle_ti _ _ _ n 1 V (A c)). destruct n as [|n]; [reflexivity|]. rewrite follow_S.
    replace (resolve cycle_ti 1) with (@Diverge offset_error (N * type_variant)) by (vm_compute; reflexivity). reflexivity.
  - destruct c as [ub oc]; vm_compute; reflexivity.
  - intros n. rewrite (uncached_user c cycle_ti _ _ _ n 2 V (A c)), cycle_follow. reflexivity.
Qed.
Print Assumptions C30_queries_terminate_refuted.
(** size_of and pointee_tid fail to return only on an endless chain of the links they follow ... *)
Theorem C30_terminate_partial : forall c ti t,
  (size_of c ti t = Diverge <-> endless (size_link ti) t) /\ (pointee_tid ti t = Diverge <-> endless (alias ti) t).
Proof. intros c ti t. split; [apply size_diverge|exact (proj1 (proj2 (pointee_spec ti t)))]. Qed.
Print Assumptions C30_terminate_partial.
(** ... and if there is no endless chain of links at all, offset_of returns on every path. *)
Theorem C30_offset_of_terminates_partial : forall c ti t p, valid_utf8 p -> acyclic ti -> exists r, offset_of_returns c ti t p r.
Proof. exact offset_of_terminates. Qed.
Print Assumptions C30_offset_of_terminates_partial.
Example C30_met : type_information_new (file_env sample_img) = Ok sample_ti /\ acyclic sample_ti.
Proof. split; [exact sample_loads|exact sample_acyclic]. Qed.

(** ** C31 *)
Theorem C31_pointee : forall ti t,
  (forall u, pointee_tid ti t = Ok u <-> points_to ti t u) /\
  (~ endless (alias ti) t -> (forall u, ~ points_to ti t u) -> pointee_tid ti t = Err InvalidTypeID).
Proof.
  intros ti t. destruct (pointee_spec ti t) as (P1 & P2 & P3). split; [exact P1|]. intros H1 H2.
  destruct (pointee_tid ti t) as [u|k|q|] eqn:E; [exfalso; apply (H2 u), P1; reflexivity|rewrite P3; reflexivity|destruct P3|exfalso; apply H1, P2; reflexivity].
Qed.
Print Assumptions C31_pointee.
(** 15 is a restrict volatile pointer to 2; 8, a typedef of a struct, is none. *)
Example C31_met : points_to sample_ti 15 2 /\ pointee_tid sample_ti 15 = Ok 2 /\ pointee_tid sample_ti 8 = Err InvalidTypeID.
Proof.
  split; [|vm_compute; auto]. exists 3. do 2 eexists. split; [|split; [vm_compute; reflexivity|reflexivity]].
  eapply chain_step; [eexists; split; [vm_compute; reflexivity|vm_compute; reflexivity]|].
  eapply chain_step; [eexists; split; [vm_compute; reflexivity|vm_compute; reflexivity]|]. constructor.
Qed.
