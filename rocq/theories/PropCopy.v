(** * PropCopy: how much of the table a query copies (C81).  [size_copies], [pointee_copies] and [offset_of_copies] are in Copies.v, the size of a type in CopySpec.v. *)
From Coq Require Import Strings.String.
From Coq Require Import List NArith ZArith Bool Lia PeanoNat Strings.Byte.
From Verif Require Import TypeInfo LoadProps Cost CostSpec Copies CopySpec CopyFacts Spec BaseFacts PathSpec Path QuerySpec Sizes OutcomeSpec MemorySpec CostFacts PropCost Encode CSpec PropC Sample Witness Checker PropMemory PropCheap.
Import ListNotations.
Open Scope N_scope.

(** ** C81 *)
(** For a table in which no type is larger than [w].  A query for the size copies at most w for each type of the table, and w twice more. *)
Theorem C81_size_of : forall c ti t w fuel, none_larger ti w -> 1 <= w -> size_of_fuel fuel c ti t <> Diverge ->
  size_copies fuel ti t <= w * (N.of_nat (length (get ti)) + 2).
Proof.
  intros c ti t w fuel W W1 D. pose proof (size_small ti w W W1 fuel t) as A. pose proof (C53_size_of c ti t fuel D) as B. nia.
Qed.
Print Assumptions C81_size_of.
(** Even for a struct or union, whose size is in one field: all its members and names are copied. *)
Theorem C81_struct : forall ti t ty, from_id ti t = Some ty -> members ty <> [] -> forall fuel, (0 < fuel)%nat ->
  size_copies fuel ti t = 1 + N.of_nat (length (members ty)) + text (held_names ty) /\ pointee_copies fuel ti t = 1 + N.of_nat (length (members ty)) + text (held_names ty).
Proof.
  intros ti t ty F M fuel P. destruct fuel as [|fuel]; [lia|]. cbn [size_copies pointee_copies]. unfold fetched. rewrite F. unfold held, item_count.
  destruct ty; try (exfalso; apply M; reflexivity); cbn [parameters enumerators variables length]; rewrite !Nat.add_0_r, !N.add_0_r; split; reflexivity.
Qed.
Print Assumptions C81_struct.
(** Looking up a pointee. *)
Theorem C81_pointee : forall ti t w fuel, none_larger ti w -> 1 <= w -> pointee_tid ti t <> Diverge -> pointee_copies fuel ti t <= w * (N.of_nat (length (get ti)) + 1).
Proof.
  intros ti t w fuel W W1. unfold pointee_tid. replace (N.of_nat (length (get ti)) + 1) with (N.of_nat (chain_fuel ti)) by (unfold chain_fuel, get; lia).
  generalize (chain_fuel ti) as f. intros f. revert t fuel. induction f as [|f IH]; intros t fuel D; [exfalso; apply D; reflexivity|]. destruct fuel as [|fuel]; [cbn [pointee_copies]; lia|].
  cbn [pointee_copies]. cbn [pointee_tid_fuel] in D. pose proof (fetched_small ti w W W1 t). rewrite Nat2N.inj_succ, N.mul_succ_r.
  destruct (from_id ti t) as [ty|]; [|nia]. destruct ty; try nia; match goal with |- context [pointee_copies fuel ti ?u] => pose proof (IH u fuel D) end; lia.
Qed.
Print Assumptions C81_pointee.
(** The count of copies belongs to the run of offset_of that gives the answer. *)
Theorem C81_same : forall n c ti p off t it, fst (offset_of_copying n c ti p off t it) = offset_of_impl n c ti p off t it.
Proof. exact offset_of_copying_result. Qed.
Print Assumptions C81_same.
(** A path: w for each lookup (C53 counts these). *)
Theorem C81_offset_of : forall c ti t p w fuel, none_larger ti w -> 1 <= w -> offset_of_copies fuel c ti t p <= w * offset_of_lookups fuel c ti t p.
Proof. intros c ti t p w fuel W W1. apply (offset_small ti w W W1). Qed.
Print Assumptions C81_offset_of.
(** In the table of a C program of n declarations, with a anonymous members, for a path of k components. *)
Theorem C81_c_program : forall m P L e img ti c t p cs bad w fuel, lawful m P L -> c_something_named P ->
  loadable (cfg e) img -> serves (rd e) img -> compiled m P L img -> type_information_new e = Ok ti -> valid_utf8 p -> text_is c p cs bad ->
  none_larger ti w -> 1 <= w ->
  offset_of_copies fuel c ti t p <= w * (N.of_nat (length cs) * ((N.of_nat (length P) + 1) * (N.of_nat (c_anonymous_members P) + 2) + 1)).
Proof.
  intros m P L e img ti c t p cs bad w fuel LG SN LD SV C ET V T W W1. pose proof (C53_c_program_partial m P L e img ti c t p cs bad fuel LG SN LD SV C ET V T) as A.
  pose proof (C81_offset_of c ti t p w fuel W W1) as B. nia.
Qed.
Print Assumptions C81_c_program.
(** The largest type of a loaded table: with type_len and str_len cut to the file, type_len / 8 + type_len * (str_len - 1) / 4. *)
Theorem C81_largest : forall e img ti, usize_bits (cfg e) = 64 -> serves (rd e) img -> type_information_new e = Ok ti ->
  exists en hf, file_header_at img en hf /\
  let T := N.min (hf_type_len hf) (N.of_nat (length img)) in let S := N.min (hf_str_len hf) (N.of_nat (length img)) in
  none_larger ti (T / 8 + T * (S - 1) / 4).
Proof.
  intros e img ti H Hs E. destruct (C67_bounded_memory e img ti H Hs E) as (en & hf & Hf & A & _ & B & _). exists en, hf. split; [exact Hf|]. cbv zeta.
  set (T := N.min (hf_type_len hf) (N.of_nat (length img))) in *. set (S := N.min (hf_str_len hf) (N.of_nat (length img))) in *. clearbody T S.
  intros x Hx. assert (Ht : In (snd x) (map snd (get ti))) by (apply in_map; exact Hx). generalize dependent (snd x). revert A B. generalize (map snd (get ti)) as ts. clear. intros ts A B t Ht.
  assert (Q : 12 + 8 * item_count t <= 12 * N.of_nat (length ts) + 8 * total item_count ts /\ text (held_names t) <= text (flat_map held_names ts)).
  { clear A B. assert (TA : forall a b, text (a ++ b) = text a + text b) by (induction a as [|y a IH]; intros b; [reflexivity|]; cbn [app text]; rewrite IH; lia).
    induction ts as [|u ts IH]; [destruct Ht|]. cbn [length total flat_map]. rewrite TA. destruct Ht as [->|Ht]; [lia|]. specialize (IH Ht). lia. }
  destruct Q as [Q1 Q2]. unfold held.
  assert (1 + item_count t <= T / 8) by (apply N.div_le_lower_bound; lia). assert (text (held_names t) <= T * (S - 1) / 4) by (apply N.div_le_lower_bound; lia). lia.
Qed.
Print Assumptions C81_largest.

(** In the table of 25 types the largest has size 37; this path copies 9 types, of together 111. *)
Example C81_met : type_information_new (file_env kernel_img) = Ok kernel_ti /\ none_larger kernel_ti 37 /\
  offset_of_lookups 20 (build64 true) kernel_ti 11 (s "tasks[2].b") = 9 /\ offset_of_copies 20 (build64 true) kernel_ti 11 (s "tasks[2].b") = 111 /\
  size_of_fuel 5 (build64 true) kernel_ti 11 <> Diverge /\ size_copies 5 kernel_ti 11 = 15.
Proof.
  split; [exact kernel_loads|]. split.
  { assert (B : forallb (fun e => held (snd e) <=? 37) (get kernel_ti) = true) by (vm_compute; reflexivity).
    intros e H. rewrite forallb_forall in B. apply N.leb_le. exact (B e H). }
  split; [vm_compute; reflexivity|]. split; [vm_compute; reflexivity|]. split; [vm_compute; discriminate|vm_compute; reflexivity].
Qed.
