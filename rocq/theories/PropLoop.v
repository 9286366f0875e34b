(** * PropLoop: a query that does not return has come back to a question it had asked before (C72). *)
From Coq Require Import Strings.String List NArith Bool Lia Strings.Byte.
From Verif Require Import TypeInfo Spec BaseFacts PathSpec Path PathGrammar QuerySpec Chains Sizes Follow Offsets Offsets2 OffsetOf OffsetOf2 OutcomeSpec Outcome Message MessageSpec MessageFacts
  MessagePath MessageOffset SearchSpec SearchFacts LoopSpec LoopFacts PathPrint Checker LoadProps Encode Sample Witness PropPath PropQuery PropOffset PropOutcome PropSearch.
Import ListNotations.
Open Scope N_scope.

Lemma alias_known ti a b : alias ti a b -> In a (known ti).
Proof. intros (ty & H & Q). eapply from_id_known; [exact H|]. intros ->. exact Q. Qed.

(** ** C72 *)
Theorem C72_size_of : forall c ti t, size_of c ti t = Diverge <-> comes_back (size_link ti) t.
Proof.
  intros c ti t. rewrite (proj1 (C30_terminate_partial c ti t)). split; [apply (endless_comes_back _ (known ti)); apply size_link_known|apply comes_back_endless].
Qed.
Print Assumptions C72_size_of.
Theorem C72_pointee : forall ti t, pointee_tid ti t = Diverge <-> comes_back (alias ti) t.
Proof.
  intros ti t. rewrite (proj2 (C30_terminate_partial (build64 true) ti t)). split; [apply (endless_comes_back _ (known ti)); apply alias_known|apply comes_back_endless].
Qed.
Print Assumptions C72_pointee.
(** [hangs] (LoopSpec.v): typedefs, qualifiers and forwards that go round, an element whose size goes round, or a
    question that comes back. *)
Theorem C72_offset_of : forall c p cs bad, valid_utf8 p -> text_is c p cs bad -> exists ending, text_ends c p cs ending /\
  forall ti t, offset_of_never_returns c ti t p <-> exists q, comes_to c ti ending (ByteOffset 0, t, cs) q /\ hangs c ti ending q.
Proof.
  intros c p cs bad V T. destruct (C70_never_returns c p cs bad V T) as (ending & E & H). exists ending. split; [exact E|]. intros ti t. rewrite H.
  apply busy_comes_back. split; [reflexivity|exact I].
Qed.
Print Assumptions C72_offset_of.
(** A question comes back only if anonymous members at offset 0 lead from the struct or union to itself. *)
Theorem C72_loops : forall c ti ending q q', asks c ti ending q q' -> comes_to c ti ending q' q ->
  exists o t n cs ty ms a, q = (o, t, Name n :: cs) /\ is ti t ty /\ members_of ty ms /\ In a ms /\ m_name a = None /\ m_offset a = ByteOffset 0 /\
    q' = (o, m_tid a, Name n :: cs).
Proof. exact loop_enters. Qed.
Print Assumptions C72_loops.
(** Every call returns or never does (there is a number of steps after which it is decided). *)
Theorem C72_decided : forall c ti t p cs bad, valid_utf8 p -> text_is c p cs bad -> (exists r, offset_of_returns c ti t p r) \/ offset_of_never_returns c ti t p.
Proof.
  intros c ti t p cs bad V T. destruct (text_hunt c p cs bad V T) as (ending & _ & _ & H).
  assert (K : forall n, kind_only (hunt c ti ending n (ByteOffset 0) t cs) = offset_of_uncached n c ti t p) by (intros n; rewrite <- H; apply offset_of_kind).
  destruct (busy_decides c ti ending (ByteOffset 0) t cs) as [[n D]|B]; [split; [reflexivity|exact I]|left|right].
  - exists (offset_of_uncached n c ti t p). split; [|exists n; reflexivity]. rewrite <- K. destruct (hunt c ti ending n (ByteOffset 0) t cs); cbn; congruence.
  - intros n. rewrite <- K, (busy_hunt c ti ending n _ _ _ (B n)). reflexivity.
Qed.
Print Assumptions C72_decided.
(** ** C30 *)
Theorem C30_loops_exactly_partial : forall c p cs bad, valid_utf8 p -> text_is c p cs bad -> exists ending, text_ends c p cs ending /\
  forall ti t, offset_of_never_returns c ti t p <-> exists q, comes_to c ti ending (ByteOffset 0, t, cs) q /\ hangs c ti ending q.
Proof. exact C72_offset_of. Qed.
Print Assumptions C30_loops_exactly_partial.

(** ** Concrete cases *)
(** Type 4 is a struct whose anonymous member is of type 4 itself; 5 has an anonymous member of type 4 (PropSearch.v). *)
Example C72_met : let c := build64 true in
  comes_to c shadow_ti None (ByteOffset 0, 5, [Name (s "x")]) (ByteOffset 0, 4, [Name (s "x")]) /\
  hangs c shadow_ti None (ByteOffset 0, 4, [Name (s "x")]) /\
  offset_of_never_returns c shadow_ti 5 (s "x") /\ ~ (exists r, offset_of_returns c shadow_ti 5 (s "x") r) /\
  comes_back (size_link cycle_ti) 1 /\ size_of c cycle_ti 1 = Diverge /\ pointee_tid cycle_ti 1 = Diverge.
Proof.
  assert (Q : forall t n cs ty a after o' u, is shadow_ti t ty -> members_of ty (a :: after) -> m_name a = None -> adds (m_offset a) (ByteOffset 0) (Ok o') -> m_tid a = u ->
    asks (build64 true) shadow_ti None (ByteOffset 0, t, Name n :: cs) (o', u, Name n :: cs)).
  { intros t n cs ty a after o' u H1 H2 H3 H4 <-. eapply (asks_anonymous _ _ _ _ _ _ _ _ []); [exact H1|exact H2|exact H3|intros b []|exact H4]. }
  cbv zeta. split; [|split; [|split; [|split; [|split; [|split]]]]].
  - eapply comes_on; [|apply comes_here]. eapply Q; [apply is_now; [vm_compute; reflexivity|exact I]|reflexivity|reflexivity|apply adds_iff; vm_compute; reflexivity|reflexivity].
  - right. right. exists (ByteOffset 0, 4, [Name (s "x")]). split; [|apply comes_here].
    eapply Q; [apply is_now; [vm_compute; reflexivity|exact I]|reflexivity|reflexivity|apply adds_iff; vm_compute; reflexivity|reflexivity].
  - apply C70_met.
  - intros (r & D & n & H). destruct C70_met as (_ & _ & _ & _ & _ & _ & X). cbv zeta in X. rewrite (X n) in H. congruence.
  - apply (C72_size_of (build64 true)). vm_compute. reflexivity.
  - vm_compute. reflexivity.
  - vm_compute. reflexivity.
Qed.
