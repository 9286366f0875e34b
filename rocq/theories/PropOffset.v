(** * PropOffset: the properties of offset_of (C32-C39, C43).
    [offset_of_returns c ti t p r] (QuerySpec.v): the call offset_of(t, p) returns [r]. *)
From Coq Require Import Strings.String.
From Coq Require Import List NArith ZArith Bool Lia Strings.Byte.
From Verif Require Import TypeInfo Spec BaseFacts PathSpec Path PathGrammar PathPrint QuerySpec Chains Sizes Follow Offsets Offsets2 OffsetOf OffsetOf2 Move Checker Encode LoadProps Witness Sample PropPath PropQuery.
Import ListNotations.
Open Scope N_scope.

(** ** C32 *)
(** [leads ti sz t cs u o] (QuerySpec.v): the components [cs] lead from [t] to [u] at [o]. *)
Theorem C32_sound : forall c ti t p u o, valid_utf8 p -> overflow_checks c = true \/ sizes_fit c ti ->
  offset_of_returns c ti t p (Ok (u, o)) ->
  fits32 o /\ exists cs, reads_as (usize_max c) p cs /\ leads ti (size ti) t cs u o.
Proof.
  intros c ti t p u o V H E. destruct (offset_of_sound c ti t p u o V E) as (F & cs & R & L). split; [exact F|]. exists cs. split; [exact R|].
  eapply leads_impl; [|exact L]. intros x z Hx. unfold computed in Hx. destruct H as [H|H].
  - exact (proj1 (C29_exact_partial c ti x) z H Hx).
  - apply (C28_size_of c ti x H). exact Hx.
Qed.
Print Assumptions C32_sound.
(** Without any condition: the same with the element sizes that size_of reports (exact modulo 2^64, C29). *)
Theorem C32_sound_reported_sizes : forall c ti t p u o, valid_utf8 p -> offset_of_returns c ti t p (Ok (u, o)) ->
  fits32 o /\ exists cs, reads_as (usize_max c) p cs /\ leads ti (fun e z => size_of c ti e = Ok z) t cs u o.
Proof. exact offset_of_sound. Qed.
Print Assumptions C32_sound_reported_sizes.
Lemma sample_returns fuel t p r : offset_of_uncached fuel (build64 true) sample_ti t p = r -> r <> Diverge -> offset_of_returns (build64 true) sample_ti t p r.
Proof. intros E H. split; [exact H|]. exists fuel. exact E. Qed.
(** Through an array, const, a typedef, an anonymous union; and to a bitfield. *)
Example C32_met :
  offset_of_returns (build64 true) sample_ti 24 (s "tasks[2].b") (Ok (3, ByteOffset 136)) /\
  offset_of_returns (build64 true) sample_ti 24 (s "tasks[1].flag") (Ok (1, BitOffsetAndSize 896 3)) /\
  offset_of_returns (build64 true) sample_ti 7 (s "list.prev") (Ok (3, ByteOffset 40)).
Proof. repeat split; try discriminate; exists 20%nat; vm_compute; reflexivity. Qed.

(** ** C33 *)
(** The side conditions: no endless chains (C30), no overflowing sizes (C29), no anonymous bitfields (C39),
    and no place met on the way lies beyond 4 GiB. *)
Theorem C33_complete : forall c ti t p cs u o, valid_utf8 p -> reads_as (usize_max c) p cs ->
  acyclic ti -> sizes_fit c ti -> anonymous_in_bytes ti -> unambiguous ti ->
  leads ti (size ti) t cs u o -> fits32 o -> (forall r b, visits ti (size ti) t cs r b -> b < 2 ^ 32) ->
  offset_of_returns c ti t p (Ok (u, o)).
Proof. exact offset_of_complete. Qed.
Print Assumptions C33_complete.
(** Hence, in such tables, offset_of finds exactly the places that the path leads to. *)
Theorem C33_exact : forall c ti t p cs, valid_utf8 p -> reads_as (usize_max c) p cs ->
  acyclic ti -> sizes_fit c ti -> anonymous_in_bytes ti -> unambiguous ti ->
  (forall r b, visits ti (size ti) t cs r b -> b < 2 ^ 32) -> forall u o,
  offset_of_returns c ti t p (Ok (u, o)) <-> (leads ti (size ti) t cs u o /\ fits32 o).
Proof.
  intros c ti t p cs V R H1 H2 H3 H4 H5 u o. split.
  - intros E. destruct (C32_sound c ti t p u o V (or_intror H2) E) as (F & cs' & R' & L). split; [|exact F].
    assert (cs' = cs) as -> by (eapply accepted_det; [exact V| |]; apply accepted_iff; eassumption). exact L.
  - intros [L F]. eapply C33_complete; eassumption.
Qed.
Print Assumptions C33_exact.
Lemma is_now ti t ty : from_id ti t = Some ty -> solid ty -> is ti t ty.
Proof. intros E H. exists t. split; [constructor|apply opaque_iff; auto]. Qed.
Lemma accepted_reads c p cs : valid_utf8 p -> accepted c p cs -> reads_as (usize_max c) p cs.
Proof. intros V A. apply accepted_iff; assumption. Qed.
(** The places met on the way to [tasks[2].b] in struct holder. *)
Lemma sample_is_det t ty ty' : is sample_ti t ty -> is sample_ti t ty' -> ty = ty'.
Proof. intros H H'. apply is_resolve in H. apply is_resolve in H'. destruct H as (r & E). destruct H' as (r' & E'). rewrite E in E'. injection E' as _ ->. reflexivity. Qed.
(** In a table whose structs contain their members, the last condition is that [t] is smaller than 4 GiB. *)
Theorem C33_complete_consistent : forall c ti t p cs u o st, valid_utf8 p -> reads_as (usize_max c) p cs ->
  acyclic ti -> sizes_fit c ti -> anonymous_in_bytes ti -> unambiguous ti -> consistent ti -> size ti t st -> st < 2 ^ 32 ->
  leads ti (size ti) t cs u o -> fits32 o -> offset_of_returns c ti t p (Ok (u, o)).
Proof.
  intros c ti t p cs u o st V R H1 H2 H3 H4 H5 Hst Hlt L F. eapply C33_complete; try eassumption.
  intros r b Hv. destruct (visits_inside ti t cs r b H5 Hv st Hst) as (sr & _ & Hle). lia.
Qed.
Print Assumptions C33_complete_consistent.
Lemma sample_size t z : size_of (build64 true) sample_ti t = Ok z -> size sample_ti t z.
Proof. intros E. apply (C28_size_of (build64 true) sample_ti t (sample_sizes true)). exact E. Qed.
Example C33_met : let c := build64 true in let p := s "tasks[2].b" in let cs := [Name (s "tasks"); Index 2; Name (s "b")] in
  valid_utf8 p /\ reads_as (usize_max c) p cs /\ acyclic sample_ti /\ sizes_fit c sample_ti /\ anonymous_in_bytes sample_ti /\
  unambiguous sample_ti /\ consistent sample_ti /\ size sample_ti 24 192 /\
  (forall r b, visits sample_ti (size sample_ti) 24 cs r b -> b < 2 ^ 32) /\ leads sample_ti (size sample_ti) 24 cs 3 (ByteOffset 136).
Proof.
  cbv zeta. assert (V : valid_utf8 (s "tasks[2].b")) by literal. split; [exact V|].
  split; [apply accepted_reads; [exact V|vm_compute; reflexivity]|].
  split; [exact sample_acyclic|]. split; [exact (sample_sizes true)|]. split; [exact sample_bytes|]. split; [exact sample_unambiguous|].
  split; [exact sample_consistent|]. assert (S24 : size sample_ti 24 192) by (apply sample_size; vm_compute; reflexivity). split; [exact S24|]. split.
  - intros r b H. destruct (visits_inside _ _ _ _ _ sample_consistent H _ S24) as (sr & _ & Hle). lia.
  - change (ByteOffset 136) with (shift 0 (shift (2 * 64) (shift 8 (shift 0 (ByteOffset 0))))).
    eapply leads_member; [apply is_now; [vm_compute; reflexivity|exact I]|reflexivity|apply find_named; vm_compute; reflexivity|reflexivity|].
    eapply leads_index; [apply is_now; [vm_compute; reflexivity|exact I]|vm_compute; reflexivity|apply sample_size; vm_compute; reflexivity|].
    assert (Is : exists ty, from_id sample_ti 7 = Some ty /\ is sample_ti 9 ty).
    { eexists. split; [vm_compute; reflexivity|]. exists 7. split; [|apply opaque_iff; split; [vm_compute; reflexivity|exact I]].
      eapply chain_step; [apply transparent_cases; eexists; split; [vm_compute; reflexivity|vm_compute; reflexivity]|].
      eapply chain_step; [apply transparent_cases; eexists; split; [vm_compute; reflexivity|vm_compute; reflexivity]|]. constructor. }
    destruct Is as (ty & Ety & Is). vm_compute in Ety. injection Ety as <-.
    eapply leads_anonymous; [exact Is|reflexivity|right; left; reflexivity|reflexivity|reflexivity|].
    eapply leads_member; [apply is_now; [vm_compute; reflexivity|exact I]|reflexivity|apply find_named; vm_compute; reflexivity|reflexivity|constructor].
Qed.

(** ** C34 *)
(** [transparent ti t u]: [t] is a typedef, const, volatile, restrict or fwd of [u]. Whatever offset_of does. *)
Theorem C34_offset_of : forall c ti t u p, valid_utf8 p -> p <> [] -> transparent ti t u ->
  (forall r, offset_of_returns c ti t p r <-> offset_of_returns c ti u p r) /\
  (offset_of_never_returns c ti t p <-> offset_of_never_returns c ti u p).
Proof.
  intros c ti t u p V Hne H. pose proof (fun n => offset_of_transparent c ti t u p n V Hne H) as E. split.
  - intros r. split; (intros (D & n & F); split; [exact D|exists n]); [rewrite <- E|rewrite E]; exact F.
  - split; intros D n; [rewrite <- E|rewrite E]; apply D.
Qed.
Print Assumptions C34_offset_of.
(** [size_alias ti t u]: [t] is a typedef, const, volatile, restrict, type tag or variable of type [u]. *)
Theorem C34_size_of : forall c ti t u, size_alias ti t u -> size_of c ti t = size_of c ti u.
Proof.
  intros c ti t u (ty & E & H). rewrite (size_of_unfold c ti t), E.
  destruct H as [H|[(h & d & -> & <-)|(h & d & -> & <-)]]; [|reflexivity|reflexivity]. destruct ty; cbn in H; try contradiction; subst u; reflexivity.
Qed.
Print Assumptions C34_size_of.
Theorem C34_pointee : forall ti t u, alias ti t u -> pointee_tid ti t = pointee_tid ti u.
Proof.
  intros ti t u H. destruct (pointee_spec ti t) as (T1 & T2 & T3). destruct (pointee_spec ti u) as (U1 & U2 & U3).
  assert (P : forall v, points_to ti t v <-> points_to ti u v).
  { intros v. split.
    - intros (p & h & d & C & E & L). destruct C as [t|t w p A C].
      + exfalso. destruct H as (ty & E' & Q). rewrite E in E'. injection E' as <-. destruct Q.
      + pose proof (alias_det _ _ _ _ H A) as <-. exists p, h, d. auto.
    - intros (p & h & d & C & E & L). exists p, h, d. split; [eapply chain_step; eassumption|auto]. }
  destruct (pointee_tid ti u) as [v|k|q|] eqn:EU.
  - apply T1, P, U1. reflexivity.
  - subst k. destruct (pointee_tid ti t) as [v|k|q|] eqn:ET; [|rewrite T3; reflexivity|destruct T3|].
    + assert (X : points_to ti t v) by (apply T1; reflexivity). apply P, U1 in X. discriminate.
    + assert (X : endless (alias ti) t) by (apply T2; reflexivity). eapply endless_step in X; [|apply alias_det|exact H]. apply U2 in X. discriminate.
  - destruct U3.
  - apply T2. eapply endless_cons; [exact H|]. apply U2. reflexivity.
Qed.
Print Assumptions C34_pointee.
Example C34_met : transparent sample_ti 9 8 /\ transparent sample_ti 8 7 /\ size_alias sample_ti 18 1 /\ size_alias sample_ti 22 7 /\ alias sample_ti 15 14.
Proof.
  split; [apply transparent_cases; eexists; split; vm_compute; reflexivity|].
  split; [apply transparent_cases; eexists; split; vm_compute; reflexivity|].
  split; [eapply size_alias_of; vm_compute; reflexivity|]. split; [eapply size_alias_of; vm_compute; reflexivity|].
  eexists; split; vm_compute; reflexivity.
Qed.

(** ** C35 *)
Theorem C35_inside : forall c ti t p u o st, valid_utf8 p -> sizes_fit c ti -> consistent ti ->
  offset_of_returns c ti t p (Ok (u, o)) -> size_of c ti t = Ok st ->
  match o with
  | ByteOffset b => exists su, size_of c ti u = Ok su /\ b + su <= st
  | BitOffsetAndSize b z => b + z <= 8 * st
  end.
Proof. exact offset_of_inside. Qed.
Print Assumptions C35_inside.
Example C35_met : sizes_fit (build64 true) sample_ti /\ consistent sample_ti /\
  offset_of_returns (build64 true) sample_ti 24 (s "tasks[2].b") (Ok (3, ByteOffset 136)) /\ size_of (build64 true) sample_ti 24 = Ok 192 /\ size_of (build64 true) sample_ti 3 = Ok 8.
Proof.
  split; [exact (sample_sizes true)|]. split; [exact sample_consistent|]. split; [exact (proj1 C32_met)|]. vm_compute. auto.
Qed.

(** ** C36 *)
(** On any table: what the first component decides alone. *)
Theorem C36_first_component : forall c ti t p ty, valid_utf8 p -> is ti t ty ->
  (forall i, begins c p [Index i] -> match ty with TArray _ d => element_count d <= i | _ => True end ->
     offset_of_returns c ti t p (Err InvalidTypePath)) /\
  (forall n, begins c p [Name n] -> ~ has_members ty -> offset_of_returns c ti t p (Err InvalidTypePath)).
Proof.
  intros c ti t p ty V H. split; [intros i B X; eapply offset_of_first_index; eassumption|intros n B X; eapply offset_of_first_name; eassumption].
Qed.
Print Assumptions C36_first_component.
Theorem C36_void : forall c ti p x, valid_utf8 p -> begins c p [x] -> offset_of_returns c ti 0 p (Err InvalidTypePath).
Proof.
  intros c ti p x V B. assert (H : is ti 0 TVoid) by (exists 0; split; [constructor|apply opaque_iff; split; [reflexivity|exact I]]).
  destruct (C36_first_component c ti 0 p TVoid V H) as [A1 A2]. destruct x as [i|n]; [exact (A1 i B I)|apply (A2 n B)]. intros (ms & []).
Qed.
Print Assumptions C36_void.
Theorem C36_unknown : forall c ti t p x r, valid_utf8 p -> begins c p [x] -> chain (transparent ti) t r -> from_id ti r = None ->
  offset_of_returns c ti t p (Err InvalidTypeID).
Proof. exact offset_of_unknown. Qed.
Print Assumptions C36_unknown.
(** In well-behaved tables: wherever in the path the refused component is. *)
Theorem C36_refused : forall c ti t p cs x rest u b, valid_utf8 p ->
  acyclic ti -> sizes_fit c ti -> anonymous_in_bytes ti -> unambiguous ti ->
  reads_as (usize_max c) p (cs ++ x :: rest) -> leads ti (size ti) t cs u (ByteOffset b) -> refused ti u x ->
  (forall r b', visits ti (size ti) t (cs ++ x :: rest) r b' -> b' < 2 ^ 32) ->
  offset_of_returns c ti t p (Err InvalidTypePath).
Proof. exact offset_of_refused. Qed.
Print Assumptions C36_refused.
(** Success only goes through components that are not refused. *)
Theorem C36_never_ok : forall c ti t p cs x rest u o r, valid_utf8 p -> unambiguous ti ->
  reads_as (usize_max c) p (cs ++ x :: rest) -> leads ti (computed c ti) t cs u o -> refused ti u x ->
  ~ offset_of_returns c ti t p (Ok r).
Proof.
  intros c ti t p cs x rest u o [v o'] V U R L F E. destruct (offset_of_sound c ti t p v o' V E) as (_ & cs' & R' & L').
  assert (cs' = cs ++ x :: rest) as -> by (eapply accepted_det; [exact V| |]; apply accepted_iff; eassumption). clear E R R' V.
  revert o' L'. induction L as [t|t h d i s0 cs u o Hty Hi Hs Hl IH|t ty ms n m b cs u o Hty Hms Hm Ho Hl IH|t ty ms n m b z Hty Hms Hm Ho|t ty ms n m b cs u o Hty Hms Hin Hn Ho Hl IH]; intros o' L'.
  - cbn [app] in L'. destruct x as [i|n].
    + destruct F as (ty & Hty & F). inversion L'; subst. pose proof (is_det _ _ _ _ Hty H1) as ->. cbn in F. lia.
    + destruct F as (ty & Hty & F). pose proof (leads_offers _ _ _ _ _ _ L' n rest eq_refl) as O.
      destruct F as [F|[_ F]]; [|exact (F O)]. apply F. destruct O as [? ty' ms ? Hty' Hms _ _|? ty' ms ? Hty' Hms _ _ _]; pose proof (is_det _ _ _ _ Hty Hty') as ->; exists ms; exact Hms.
  - cbn [app] in L'. inversion L' as [|? h' d' ? s' ? ? o1 Hty' Hi' Hs' Hl'| | |]; subst. pose proof (is_det _ _ _ _ Hty Hty') as E. injection E as <- <-.
    exact (IH F _ Hl').
  - cbn [app] in L'. assert (A : accounts ti n m) by (left; apply named_In in Hm; tauto). apply named_In in Hm as Hm2. destruct Hm2 as [Hin _].
    inversion L' as [| |? ty' ms' ? m' b' ? ? o1 Hty' Hms' Hm' Ho' Hl'|? ty' ms' ? m' b' z' Hty' Hms' Hm' Ho'|? ty' ms' ? m' b' ? ? o1 Hty' Hms' Hin' Hn' Ho' Hl']; subst;
      pose proof (is_det _ _ _ _ Hty Hty') as X; subst ty'; pose proof (members_of_det _ _ _ Hms Hms') as X; subst ms'.
    + assert (m' = m) by (apply (U t ty ms n); try assumption; [apply named_In in Hm'; tauto|left; apply named_In in Hm'; tauto]). subst m'. exact (IH F _ Hl').
    + destruct cs; discriminate.
    + assert (m' = m) by (apply (U t ty ms n); try assumption; right; split; [exact Hn'|eapply leads_offers; [exact Hl'|reflexivity]]). subst m'. apply named_In in Hm. destruct Hm. congruence.
  - cbn [app] in L'. assert (A : accounts ti n m) by (left; apply named_In in Hm; tauto). apply named_In in Hm as Hm2. destruct Hm2 as [Hin Hmn].
    inversion L' as [| |? ty' ms' ? m' b' ? ? o1 Hty' Hms' Hm' Ho' Hl'|? ty' ms' ? m' b' z' Hty' Hms' Hm' Ho'|? ty' ms' ? m' b' ? ? o1 Hty' Hms' Hin' Hn' Ho' Hl']; subst;
      pose proof (is_det _ _ _ _ Hty Hty') as X; subst ty'; pose proof (members_of_det _ _ _ Hms Hms') as X; subst ms'.
    + assert (m' = m) by (apply (U t ty ms n); try assumption; [apply named_In in Hm'; tauto|left; apply named_In in Hm'; tauto]). subst m'. congruence.
    + assert (m' = m) by (apply (U t ty ms n); try assumption; right; split; [exact Hn'|eapply leads_offers; [exact Hl'|reflexivity]]). subst m'. congruence.
  - cbn [app] in L'. assert (A : accounts ti n m) by (right; split; [exact Hn|eapply leads_offers; [exact Hl|reflexivity]]).
    inversion L' as [| |? ty' ms' ? m' b' ? ? o1 Hty' Hms' Hm' Ho' Hl'|? ty' ms' ? m' b' z' Hty' Hms' Hm' Ho'|? ty' ms' ? m' b' ? ? o1 Hty' Hms' Hin' Hn' Ho' Hl']; subst;
      pose proof (is_det _ _ _ _ Hty Hty') as X; subst ty'; pose proof (members_of_det _ _ _ Hms Hms') as X; subst ms'.
    + apply named_In in Hm'. assert (m' = m) by (apply (U t ty ms n); try assumption; [tauto|left; tauto]). subst m'. destruct Hm'. congruence.
    + destruct cs; discriminate.
    + assert (m' = m) by (apply (U t ty ms n); try assumption; right; split; [exact Hn'|eapply leads_offers; [exact Hl'|reflexivity]]). subst m'. exact (IH F _ Hl').
Qed.
Print Assumptions C36_never_ok.
(** Index 3 of the 3 tasks; an index on a pointer; a member of an int; an unknown member. *)
Example C36_met : let c := build64 true in
  refused sample_ti 10 (Index 3) /\ refused sample_ti 3 (Index 0) /\ refused sample_ti 1 (Name (s "x")) /\ refused sample_ti 7 (Name (s "zzz")) /\
  begins c (s "[3].pid") [Index 3] /\ is sample_ti 3 (match from_id sample_ti 3 with Some ty => ty | None => TVoid end) /\
  offset_of_uncached 20 c sample_ti 24 (s "tasks[3].pid") = Err InvalidTypePath /\
  offset_of_uncached 20 c sample_ti 7 (s "b.next") = Err InvalidTypePath /\ offset_of_uncached 20 c sample_ti 999 (s "x") = Err InvalidTypeID.
Proof.
  cbv zeta.
  split; [eexists; split; [apply is_now; [vm_compute; reflexivity|exact I]|vm_compute; discriminate]|].
  split; [eexists; split; [apply is_now; [vm_compute; reflexivity|exact I]|exact I]|].
  split; [eexists; split; [apply is_now; [vm_compute; reflexivity|exact I]|left; intros (ms & [])]|].
  split.
  { eexists. split; [apply is_now; [vm_compute; reflexivity|exact I]|]. right. split; [eexists; reflexivity|].
    intros O. apply (closed_offers sample_ti (all_offers sample_ti)) in O; [|vm_compute; reflexivity]. vm_compute in O.
    repeat (destruct O as [O|O]; [discriminate|]). exact O. }
  split; [vm_compute; reflexivity|]. split; [apply is_now; [vm_compute; reflexivity|exact I]|]. vm_compute. auto.
Qed.

(** ** C37 *)
(** The empty path succeeds on ids that the table does not have. *)
Theorem C37_unknown_id_refuted : exists img ti, type_information_new (file_env img) = Ok ti /\ from_id ti 999 = None /\
  forall c, offset_of_returns c ti 999 [] (Ok (999, ByteOffset 0)).
Proof.
  exists sample_img, sample_ti. split; [exact sample_loads|]. split; [vm_compute; reflexivity|]. intros c. apply offset_of_empty.
Qed.
Print Assumptions C37_unknown_id_refuted.
(** For known ids (indeed all) it returns the id itself at offset 0; with any component, an unknown id is refused. *)
Theorem C37_empty_path_partial : forall c ti t,
  offset_of_returns c ti t [] (Ok (t, ByteOffset 0)) /\
  (forall r, offset_of_returns c ti t [] r -> r = Ok (t, ByteOffset 0)) /\
  (forall p, valid_utf8 p -> p <> [] -> from_id ti t = None ->
     offset_of_returns c ti t p (Err InvalidTypeID) \/ offset_of_returns c ti t p (Err InvalidTypePath)).
Proof.
  intros c ti t. split; [apply offset_of_empty|]. split.
  - intros r H. eapply offset_of_det; [|exact H|apply offset_of_empty]. literal.
  - intros p V Hne Hu. destruct (script_of c p V) as (cs & e & S & He). destruct cs as [|x cs].
    + right. destruct He as [->| ->].
      * exfalso. apply Hne. apply (proj1 (reads_nil (usize_max c) p)). apply script_reads; assumption.
      * apply offset_of_first_malformed; [exact V|]. apply malformed_script; assumption.
    + left. eapply offset_of_unknown; [exact V| |constructor|exact Hu]. eapply (script_begins c p [x] cs e); [exact V|exact S].
Qed.
Print Assumptions C37_empty_path_partial.
Example C37_met : from_id sample_ti 7 <> None /\ offset_of_returns (build64 true) sample_ti 7 [] (Ok (7, ByteOffset 0)).
Proof. split; [vm_compute; discriminate|apply offset_of_empty]. Qed.

(** ** C38 *)
(** Whatever offset_of does on the element (success, error, panic, no return), it does on the array, [i * z] bytes
    further on ([moved], QuerySpec.v). The last two conditions: no place met on the way lies beyond 32 bits. *)
Theorem C38_indexing_linear : forall c ti t h d i z p q cs, valid_utf8 p -> valid_utf8 q ->
  reads_as (usize_max c) p (Index i :: cs) -> reads_as (usize_max c) q cs -> plain_bitfields ti ->
  is ti t (TArray h d) -> i < element_count d -> size_of c ti (element_tid d) = Ok z ->
  (forall r b, visits ti (computed c ti) (element_tid d) cs r b -> i * z + b < 2 ^ 32) ->
  (forall cs1 cs2 u o, cs = cs1 ++ cs2 -> leads ti (computed c ti) (element_tid d) cs1 u o -> fits32 (shift (i * z) o)) ->
  (forall r, offset_of_returns c ti (element_tid d) q r -> offset_of_returns c ti t p (moved (i * z) r)) /\
  (offset_of_never_returns c ti (element_tid d) q -> offset_of_never_returns c ti t p).
Proof.
  intros c ti t h d i z p q cs V V' R R' Hp Hty Hi Hz Hv Hl.
  pose proof (offset_of_index_eq c ti t h d i z p q cs V V' R R' Hp Hty Hi Hz Hv Hl) as E. split.
  - intros r (D & n & F). split; [destruct r as [[? ?]| | |]; cbn; congruence|]. exists (S n). rewrite E, F. reflexivity.
  - intros D n. destruct n as [|n]; [reflexivity|]. rewrite E, (D n). reflexivity.
Qed.
Print Assumptions C38_indexing_linear.
(** In a consistent table it is enough that the array is smaller than 2^29 bytes. *)
Theorem C38_indexing_linear_consistent : forall c ti t h d i z p q cs, valid_utf8 p -> valid_utf8 q ->
  reads_as (usize_max c) p (Index i :: cs) -> reads_as (usize_max c) q cs -> plain_bitfields ti -> consistent ti -> sizes_fit c ti ->
  is ti t (TArray h d) -> i < element_count d -> size_of c ti (element_tid d) = Ok z -> z * element_count d < 2 ^ 29 ->
  (forall r, offset_of_returns c ti (element_tid d) q r -> offset_of_returns c ti t p (moved (i * z) r)) /\
  (offset_of_never_returns c ti (element_tid d) q -> offset_of_never_returns c ti t p).
Proof.
  intros c ti t h d i z p q cs V V' R R' Hp Hc Hf Hty Hi Hz Hlt.
  assert (Hsz : size ti (element_tid d) z) by (apply (C28_size_of c ti _ Hf); exact Hz).
  assert (Hi2 : i * z + z <= z * element_count d) by (replace (i * z + z) with (z * (i + 1)) by lia; apply N.mul_le_mono_l; lia).
  assert (W : forall e y, computed c ti e y -> size ti e y) by (intros e y; apply computed_size; right; exact Hf).
  apply (C38_indexing_linear c ti t h d i z p q cs); try assumption.
  - intros r b Hv. eapply visits_impl in Hv; [|exact W]. destruct (visits_inside _ _ _ _ _ Hc Hv _ Hsz) as (sr & _ & Hle). lia.
  - intros cs1 cs2 u o _ L. eapply leads_impl in L; [|exact W]. pose proof (leads_inside _ _ _ _ _ Hc L _ Hsz) as G.
    destruct o as [b|b y]; cbn [shift fits32]; [destruct G as (su & _ & G)|]; lia.
Qed.
Print Assumptions C38_indexing_linear_consistent.
(** An index whose distance does not fit 32 bits is refused, as is one out of range (C36). *)
Theorem C38_too_far : forall c ti t h d i z p, valid_utf8 p -> begins c p [Index i] -> is ti t (TArray h d) -> i < element_count d ->
  size_of c ti (element_tid d) = Ok z -> 2 ^ 32 <= i * z -> offset_of_returns c ti t p (Err InvalidTypePath).
Proof. exact offset_of_index_big. Qed.
Print Assumptions C38_too_far.
Definition far_file : list byte := raw_file Little [0; 0x01000000; 4; 32;  0; 0x03000000; 0; 1; 1; 2 ^ 31] [x00].
Example C38_met : let c := build64 true in
  (exists h d, is sample_ti 10 (TArray h d) /\ element_count d = 3 /\ size_of c sample_ti (element_tid d) = Ok 64) /\
  plain_bitfields sample_ti /\ reads_as (usize_max c) (s "[2].flag") [Index 2; Name (s "flag")] /\ reads_as (usize_max c) (s "flag") [Name (s "flag")] /\
  offset_of_returns c sample_ti 9 (s "flag") (Ok (1, BitOffsetAndSize 384 3)) /\
  offset_of_returns c sample_ti 10 (s "[2].flag") (Ok (1, BitOffsetAndSize 1408 3)) /\
  (exists ti h d, type_information_new (file_env far_file) = Ok ti /\ is ti 2 (TArray h d) /\ 2 ^ 30 < element_count d /\
     size_of c ti (element_tid d) = Ok 4 /\ offset_of_returns c ti 2 (s "[1073741824]") (Err InvalidTypePath) /\
     offset_of_returns c ti 2 (s "[1073741823]") (Ok (1, ByteOffset (2 ^ 32 - 4)))).
Proof.
  cbv zeta. split.
  { do 2 eexists. split; [apply is_now; [vm_compute; reflexivity|exact I]|]. vm_compute. auto. }
  split; [exact sample_plain|]. split; [apply accepted_reads; [literal|vm_compute; reflexivity]|]. split; [apply accepted_reads; [literal|vm_compute; reflexivity]|].
  split; [split; [discriminate|exists 20%nat; vm_compute; reflexivity]|]. split; [split; [discriminate|exists 20%nat; vm_compute; reflexivity]|].
  do 3 eexists. split; [vm_compute; reflexivity|]. split; [apply is_now; [vm_compute; reflexivity|exact I]|]. split; [vm_compute; reflexivity|]. split; [vm_compute; reflexivity|].
  split; (split; [discriminate|exists 20%nat; vm_compute; reflexivity]).
Qed.

(** ** C39 *)
(** struct { int x; int : 3; }: an unnamed bitfield makes every lookup by name fail. *)
Definition unnamed_bits_file : list byte :=
  raw_file Little [0; 0x01000000; 4; 32;  0; 0x84000002; 8; 1; 1; 0; 0; 1; 0x03000020] [x00; x78; x00].
Theorem C39_anonymous_bitfield_refuted : exists img ti ty ms m, type_information_new (file_env img) = Ok ti /\
  is ti 2 ty /\ members_of ty ms /\ named ms (s "x") m /\ m_offset m = ByteOffset 0 /\
  (forall m', In m' ms -> m_name m' = None -> ~ offers ti (s "x") (m_tid m')) /\
  forall c, offset_of_returns c ti 2 (s "x") (Err UnexpectedBitfield).
Proof.
  exists unnamed_bits_file. set (ti := table_of unnamed_bits_file). vm_compute in ti. exists ti.
  do 3 eexists. split; [vm_compute; reflexivity|]. split; [apply is_now; [vm_compute; reflexivity|exact I]|]. split; [reflexivity|].
  split; [apply find_named; vm_compute; reflexivity|]. split; [reflexivity|]. split.
  - intros m' Hin Hn O. assert (Hm : m_tid m' = 1) by (destruct Hin as [<-|[<-|[]]]; reflexivity). rewrite Hm in O.
    inversion O as [? ty ms m Hty Hms _ _|? ty ms m Hty Hms _ _ _]; subst;
    (apply is_resolve in Hty; destruct Hty as (r & E); vm_compute in E; injection E as _ <-; exact Hms).
  - intros [ub oc]. split; [discriminate|]. exists 5%nat. vm_compute. reflexivity.
Qed.
Print Assumptions C39_anonymous_bitfield_refuted.
(** It is true when anonymous members start at whole bytes (and nested ones not beyond 4 GiB). *)
Theorem C39_member_found_partial : forall c ti t p ty ms n m, valid_utf8 p -> reads_as (usize_max c) p [Name n] ->
  acyclic ti -> anonymous_in_bytes ti -> (forall r b, visits ti (size ti) t [Name n] r b -> b < 2 ^ 32) ->
  is ti t ty -> members_of ty ms -> named ms n m -> (forall m', In m' ms -> m_name m' = None -> ~ offers ti n (m_tid m')) ->
  fits32 (m_offset m) -> offset_of_returns c ti t p (Ok (m_tid m, m_offset m)).
Proof. exact offset_of_member. Qed.
Print Assumptions C39_member_found_partial.
Example C39_met : exists ty ms m, is sample_ti 27 ty /\ members_of ty ms /\ named ms (s "hd") m /\
  (exists m', In m' ms /\ m_name m' = None) /\
  (forall m', In m' ms -> m_name m' = None -> ~ offers sample_ti (s "hd") (m_tid m')) /\
  (forall r b, visits sample_ti (size sample_ti) 27 [Name (s "hd")] r b -> b < 2 ^ 32).
Proof.
  do 3 eexists. split; [apply is_now; [vm_compute; reflexivity|exact I]|]. split; [reflexivity|].
  split; [apply find_named; vm_compute; reflexivity|]. split; [eexists; split; [right; left; reflexivity|reflexivity]|]. split.
  - intros m' Hin Hn O. apply (closed_offers sample_ti (all_offers sample_ti)) in O; [|vm_compute; reflexivity].
    destruct Hin as [<-|[<-|[]]]; [discriminate Hn|]. vm_compute in O. repeat (destruct O as [O|O]; [discriminate|]). exact O.
  - intros r b H. assert (S27 : size sample_ti 27 24) by (apply sample_size; vm_compute; reflexivity).
    destruct (visits_inside _ _ _ _ _ sample_consistent H _ S27) as (sr & _ & Hle). lia.
Qed.

(** ** C43 *)
Theorem C43_profiles_agree : forall ti, sizes_fit (build64 true) ti ->
  (forall t, size_of (build64 true) ti t = size_of (build64 false) ti t) /\
  (forall t p r, valid_utf8 p -> (offset_of_returns (build64 true) ti t p r <-> offset_of_returns (build64 false) ti t p r)).
Proof.
  intros ti F. split.
  - intros t. symmetry. apply size_of_profile_fit; [reflexivity|exact F].
  - intros t p r V. pose proof (fun n => offset_of_profile_fit (build64 true) (build64 false) ti t p n eq_refl F V) as E.
    split; (intros (D & n & H); split; [exact D|exists n]); [rewrite E|rewrite <- E]; exact H.
Qed.
Print Assumptions C43_profiles_agree.
(** On any table: what a debug build returns without panicking, a release build returns too; and the debug build
    panics only because some array size overflows. *)
Theorem C43_debug_result_holds : forall ti t p r, valid_utf8 p -> offset_of_returns (build64 true) ti t p r ->
  offset_of_returns (build64 false) ti t p r \/
  (r = Panic ArithmeticOverflow /\ exists x z, size ti x z /\ ~ has_size ti (fun n => n < 2 ^ 64) x z).
Proof.
  intros ti t p r V H. destruct r as [r|k|q|].
  - left. apply (offset_of_profile (build64 true)); try assumption; [reflexivity|reflexivity|discriminate].
  - left. apply (offset_of_profile (build64 true)); try assumption; [reflexivity|reflexivity|discriminate].
  - right. destruct (offset_of_panic _ _ _ _ _ V H) as (-> & _ & X). split; [reflexivity|exact X].
  - destruct H as [H _]. congruence.
Qed.
Print Assumptions C43_debug_result_holds.
Example C43_met : sizes_fit (build64 true) sample_ti /\ offset_of_returns (build64 false) sample_ti 24 (s "tasks[2].b") (Ok (3, ByteOffset 136)) /\
  offset_of_returns (build64 true) overflow_ti 4 (s "[2]") (Panic ArithmeticOverflow).
Proof.
  split; [exact (sample_sizes true)|]. split; (split; [discriminate|exists 20%nat; vm_compute; reflexivity]).
Qed.
