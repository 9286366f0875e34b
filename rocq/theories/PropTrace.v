(** * PropTrace: the types a query looks up (C83).  The lists of lookups are in Trace.v, what they mean in TraceSpec.v. *)
From Coq Require Import Strings.String.
From Coq Require Import List NArith ZArith Bool Lia PeanoNat Strings.Byte.
From Verif Require Import TypeInfo Cost Copies CopySpec Trace TraceSpec TraceFacts Spec BaseFacts QuerySpec LoadProps Final Encode RenumberSpec Renumber CopyFacts PropClosed PropC Sample Witness.
Import ListNotations.
Open Scope N_scope.

(** ** C83 *)
(** The list belongs to the run that gives the answer; C53 counts its entries, C81 adds up the sizes of the types in it. *)
Theorem C83_same : forall n c ti p off t it, fst (offset_of_traced n c ti p off t it) = offset_of_impl n c ti p off t it.
Proof. intros. apply offset_traced_result. Qed.
Print Assumptions C83_same.
Theorem C83_counts : forall fuel c ti t p,
  offset_of_lookups fuel c ti t p = N.of_nat (length (offset_of_trace fuel c ti t p)) /\
  offset_of_copies fuel c ti t p = sum_held ti (offset_of_trace fuel c ti t p) /\
  size_lookups fuel ti t = N.of_nat (length (size_trace fuel ti t)) /\
  size_copies fuel ti t = sum_held ti (size_trace fuel ti t) /\
  pointee_copies fuel ti t = sum_held ti (pointee_trace fuel ti t).
Proof.
  intros fuel c ti t p. split; [apply offset_counted|]. split; [apply offset_summed|]. split; [apply size_counted|]. split; [apply size_summed|apply pointee_summed].
Qed.
Print Assumptions C83_counts.
(** Nothing is missing from the list: any other table, of whatever size, that has the same under these ids gives the same answer. *)
Theorem C83_offset_of : forall fuel c ti ti' t p, offset_of_uncached fuel c ti t p <> Diverge -> agree ti ti' (offset_of_trace fuel c ti t p) ->
  offset_of_uncached fuel c ti' t p = offset_of_uncached fuel c ti t p.
Proof.
  intros fuel c ti ti' t p D A. unfold offset_of_uncached in *. rewrite <- (offset_traced_result c ti p fuel) in *. rewrite <- (offset_traced_result c ti' p fuel).
  rewrite (kept_offset ti ti' c p fuel (ByteOffset 0) t piter_new A); [reflexivity|]. intros E. rewrite E in D. apply D. reflexivity.
Qed.
Print Assumptions C83_offset_of.
Theorem C83_size_of : forall c ti ti' t, size_of c ti t <> Diverge -> agree ti ti' (size_trace (chain_fuel ti) ti t) -> size_of c ti' t = size_of c ti t.
Proof. intros c ti ti' t D A. unfold size_of at 2. rewrite <- (agree_size ti ti' c (chain_fuel ti) t A). apply size_any. rewrite (agree_size ti ti' c (chain_fuel ti) t A). exact D. Qed.
Print Assumptions C83_size_of.
Theorem C83_pointee : forall ti ti' t, pointee_tid ti t <> Diverge -> agree ti ti' (pointee_trace (chain_fuel ti) ti t) -> pointee_tid ti' t = pointee_tid ti t.
Proof. intros ti ti' t D A. unfold pointee_tid at 2. rewrite <- (agree_pointee ti ti' (chain_fuel ti) t A). apply pointee_any. rewrite (agree_pointee ti ti' (chain_fuel ti) t A). exact D. Qed.
Print Assumptions C83_pointee.
(** Nothing is looked up out of the blue. *)
Theorem C83_step_by_step : forall fuel c ti t p,
  step_by_step ti t (offset_of_trace fuel c ti t p) /\ step_by_step ti t (size_trace fuel ti t) /\ step_by_step ti t (pointee_trace fuel ti t).
Proof.
  intros fuel c ti t p. split; [|split]; apply caused_start; [apply offset_steps|apply size_steps|apply pointee_steps]; left; reflexivity.
Qed.
Print Assumptions C83_step_by_step.
(** In a loaded table without dangling ids no lookup fails, and so every lookup copies something. *)
Lemma steps_known e ti t l : usize_bits (cfg e) = 64 -> type_information_new e = Ok ti -> closed ti -> in_table ti t -> step_by_step ti t l -> forall u, In u l -> in_table ti u.
Proof.
  intros H E C T S u I. apply in_split in I. destruct I as (a & b & ->). destruct (S a u b eq_refl) as [->|[L|(v & _ & d & V & M)]]; [exact T| |exact (C v d u V M)].
  intros Z. apply (loaded_id_of e ti H E) in L. destruct L as [[L _]|(_ & (ty & L & _) & _)]; [revert L; vm_compute; discriminate|].
  destruct (loaded_ids e ti H E) as (_ & _ & B & _). assert (N0 : u <> 0) by (intros ->; destruct L as [L _]; lia). apply (B u ty N0) in L. congruence.
Qed.
Theorem C83_no_failed_lookup : forall e ti fuel c t p, usize_bits (cfg e) = 64 -> type_information_new e = Ok ti -> closed ti -> in_table ti t ->
  (forall u, In u (offset_of_trace fuel c ti t p) -> in_table ti u) /\ (forall u, In u (size_trace fuel ti t) -> in_table ti u) /\ (forall u, In u (pointee_trace fuel ti t) -> in_table ti u) /\
  offset_of_lookups fuel c ti t p <= offset_of_copies fuel c ti t p /\ size_lookups fuel ti t <= size_copies fuel ti t.
Proof.
  intros e ti fuel c t p H E C T. destruct (C83_step_by_step fuel c ti t p) as (S1 & S2 & S3). pose proof (steps_known e ti t _ H E C T S1) as K1. pose proof (steps_known e ti t _ H E C T S2) as K2.
  split; [exact K1|]. split; [exact K2|]. split; [exact (steps_known e ti t _ H E C T S3)|]. destruct (C83_counts fuel c ti t p) as (-> & -> & -> & -> & _).
  assert (L : forall l, (forall u, In u l -> in_table ti u) -> N.of_nat (length l) <= sum_held ti l).
  { induction l as [|u l IH]; intros K; [cbn; lia|]. unfold sum_held. cbn [MemorySpec.total length]. fold (sum_held ti l). pose proof (IH (fun x h => K x (or_intror h))). pose proof (K u (or_introl eq_refl)) as Ku.
    unfold in_table in Ku. destruct (from_id ti u) as [ty|]; [|exfalso; apply Ku; reflexivity]. unfold held. lia. }
  split; apply L; assumption.
Qed.
Print Assumptions C83_no_failed_lookup.

(** Two files: their types 2 and 4 differ, and the second has one more. The path into type 5 does not look at these. *)
Definition near : list decl := [DInt (Some (s "int")) 4 true false false 0 32; DFloat (Some (s "double")) 8; DStruct (Some (s "list_head")) 16 false [(Some (s "next"), 4, ByteOffset 0)];
  DPtr 3; DStruct (Some (s "task")) 48 false [(Some (s "d"), 2, ByteOffset 0); (Some (s "a"), 7, ByteOffset 8)]; DTypedef (Some (s "num")) 1; DArray 6 1 10].
Definition far : list decl := [DInt (Some (s "int")) 4 true false false 0 32; DTypedef (Some (s "double")) 9; DStruct (Some (s "list_head")) 16 false [(Some (s "next"), 4, ByteOffset 0)];
  DPtr 1; DStruct (Some (s "task")) 48 false [(Some (s "d"), 2, ByteOffset 0); (Some (s "a"), 7, ByteOffset 8)]; DTypedef (Some (s "num")) 1; DArray 6 1 10; DVolatile 8].
Definition table (l : list decl) : type_information := match type_information_new (file_env (encode Little l)) with Ok ti => ti | _ => sample_ti end.
Definition near_ti := Eval vm_compute in table near.
Definition far_ti := Eval vm_compute in table far.
Example C83_met : type_information_new (file_env (encode Little near)) = Ok near_ti /\ type_information_new (file_env (encode Little far)) = Ok far_ti /\
  offset_of_uncached 20 (build64 true) near_ti 5 (s "a[3]") = Ok (6, ByteOffset 20) /\ offset_of_trace 20 (build64 true) near_ti 5 (s "a[3]") = [5; 7; 6; 1] /\
  agree near_ti far_ti [5; 7; 6; 1] /\ from_id near_ti 2 <> from_id far_ti 2 /\ closed near_ti /\ in_table near_ti 5.
Proof.
  split; [vm_compute; reflexivity|]. split; [vm_compute; reflexivity|]. split; [vm_compute; reflexivity|]. split; [vm_compute; reflexivity|].
  split; [split; [vm_compute; reflexivity|]; intros t H; cbn [In] in H; repeat (destruct H as [<-|H]; [vm_compute; reflexivity|]); destruct H|].
  split; [vm_compute; discriminate|]. split; [apply (closedb_sound (file_env (encode Little near))); vm_compute; reflexivity|]. vm_compute. discriminate.
Qed.
