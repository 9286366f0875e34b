(** * PropPath: the properties of type paths and offsets (C24-C27). *)
From Coq Require Import Strings.String.
From Coq Require Import List NArith ZArith Bool Lia Strings.Byte.
From Verif Require Import TypeInfo Spec BaseFacts PathSpec Path PathGrammar PathPrint QuerySpec Offsets OffsetOf OffsetOf2 PathCanon LoadProps Sample.
Import ListNotations.
Open Scope N_scope.

(** A literal path is ASCII, hence UTF-8. *)
Lemma literal_valid p : forallb (fun b => Byte.to_N b <? 0x80) p = true -> valid_utf8 p.
Proof.
  intros H. apply ascii_valid. apply Forall_forall. intros b Hb. rewrite forallb_forall in H. specialize (H b Hb). unfold asciib. lia.
Qed.
Ltac literal := apply literal_valid; vm_compute; reflexivity.

(** ** C24 *)
(** Left operand in bytes: the exact sum, or InvalidOffset when it does not fit.
    [shift a o] (QuerySpec.v) is [o] moved by [a] bytes. *)
Theorem C24_add_exact : forall a o, fits32 o ->
  (fits32 (shift a o) -> offset_add (ByteOffset a) o = Ok (shift a o)) /\
  (~ fits32 (shift a o) -> offset_add (ByteOffset a) o = Err InvalidOffset).
Proof.
  intros a o Ho. rewrite (add_byte a o Ho). destruct o as [b|b z]; cbn [shift fits32]; split; intros H.
  - destruct (N.ltb_spec (a + b) (2 ^ 32)); [reflexivity|lia].
  - destruct (N.ltb_spec (a + b) (2 ^ 32)); [lia|reflexivity].
  - destruct (N.ltb_spec (8 * a + b) (2 ^ 32)); [reflexivity|lia].
  - destruct (N.ltb_spec (8 * a + b) (2 ^ 32)); [lia|reflexivity].
Qed.
Print Assumptions C24_add_exact.
Theorem C24_add_number : forall a n,
  (a + n < 2 ^ 32 -> offset_add_u32 (ByteOffset a) n = Ok (ByteOffset (a + n))) /\
  (2 ^ 32 <= a + n -> offset_add_u32 (ByteOffset a) n = Err InvalidOffset).
Proof. intros a n. rewrite add_u32_byte. split; intros H; destruct (N.ltb_spec (a + n) (2 ^ 32)); (reflexivity || lia). Qed.
Print Assumptions C24_add_number.
Theorem C24_add_bitfield : forall b z, (forall o, offset_add (BitOffsetAndSize b z) o = Err UnexpectedBitfield) /\
  (forall n, offset_add_u32 (BitOffsetAndSize b z) n = Err UnexpectedBitfield).
Proof. intros b z. split; reflexivity. Qed.
Print Assumptions C24_add_bitfield.
Theorem C24_add_algebra :
  (forall o, fits32 o -> offset_add (ByteOffset 0) o = Ok o) /\
  (forall o1 o2 o3 o12 o23 r, offset_add o1 o2 = Ok o12 -> offset_add o2 o3 = Ok o23 -> offset_add o12 o3 = Ok r -> offset_add o1 o23 = Ok r).
Proof. split; [exact add_identity|exact add_assoc]. Qed.
Print Assumptions C24_add_algebra.
Example C24_met : fits32 (shift 0x1FFFFFFF (BitOffsetAndSize 7 1)) /\ ~ fits32 (shift 0x1FFFFFFF (BitOffsetAndSize 8 1)) /\
  offset_add (ByteOffset 2) (ByteOffset 3) = Ok (ByteOffset 5) /\ offset_add (ByteOffset 3) (BitOffsetAndSize 4 2) = Ok (BitOffsetAndSize 28 2) /\
  offset_add (ByteOffset 5) (BitOffsetAndSize 4 2) = Ok (BitOffsetAndSize 44 2).
Proof. split; [vm_compute; reflexivity|]. split; [vm_compute; discriminate|]. auto. Qed.

(** ** C25 *)
(** [accepted c p cs] (PathSpec.v): iterating over [p] yields exactly [cs]. *)
Theorem C25_print_parse : forall c cs, Forall (component_ok (usize_max c)) cs ->
  accepted c (print cs) cs /\ forall cs', accepted c (print cs) cs' -> cs' = cs.
Proof.
  intros c cs H. pose proof (print_accepted c cs H) as A. split; [exact A|]. intros cs' A'.
  eapply accepted_det; [eapply print_valid; exact H|exact A'|exact A].
Qed.
Print Assumptions C25_print_parse.
(** and so different component lists have different texts *)
Theorem C25_print_injective : forall max cs cs', Forall (component_ok max) cs -> Forall (component_ok max) cs' -> max < 2 ^ 64 ->
  print cs = print cs' -> cs = cs'.
Proof.
  intros max cs cs' H H' Hm E. set (c := {| usize_bits := 64; overflow_checks := true |}).
  assert (W : forall l, Forall (component_ok max) l -> Forall (component_ok (usize_max c)) l).
  { intros l F. eapply Forall_impl; [|exact F]. intros [i|n]; [|exact (fun z => z)]. change (i <= max -> i <= 2 ^ 64 - 1). intros ?. cbn in Hm |- *. lia. }
  destruct (C25_print_parse c cs (W _ H)) as [_ U]. symmetry. apply U. rewrite E. exact (proj1 (C25_print_parse c cs' (W _ H'))).
Qed.
Print Assumptions C25_print_injective.
Example C25_met : Forall (component_ok (usize_max (build64 true))) [Name (s "tasks"); Index 2; Index 18446744073709551615; Name (s "_x1")] /\
  print [Name (s "tasks"); Index 2; Index 18446744073709551615; Name (s "_x1")] = s "tasks[2][18446744073709551615]._x1".
Proof.
  split; [|vm_compute; reflexivity].
  repeat constructor; vm_compute; try discriminate; intuition discriminate.
Qed.

(** ** C26 *)
(** Not all accepted strings are printed forms: one trailing "." or "[" is
    ignored, and indices may have leading zeros. *)
Theorem C26_malformed_accepted_refuted : forall c ti t,
  (forall p cs, In (p, cs) [(s "a.", [Name (s "a")]); (s "a[", [Name (s "a")]); (s "[0].", [Index 0]); (s "[007]", [Index 7])] ->
     usize_bits c = 64 -> accepted c p cs /\ forall cs', p <> print cs' \/ ~ Forall (component_ok (usize_max c)) cs') /\
  (forall u, usize_bits c = 64 -> offset_of_returns c ti t (s "a") u -> offset_of_returns c ti t (s "a.") u /\ offset_of_returns c ti t (s "a[") u).
Proof.
  intros c ti t. split.
  - intros p cs Hin Hc. destruct c as [ub oc]; cbn in Hc; subst ub.
    assert (D : valid_utf8 p /\ accepted {| usize_bits := 64; overflow_checks := oc |} p cs).
    { split; [|destruct oc; repeat (destruct Hin as [Hin|Hin]; [injection Hin as <- <-; vm_compute; reflexivity|]); destruct Hin].
      repeat (destruct Hin as [Hin|Hin]; [injection Hin as <- <-; literal|]); destruct Hin. }
    destruct D as [V A]. split; [exact A|]. intros cs'.
    destruct (list_eq_dec Byte.byte_eq_dec p (print cs')) as [E|E]; [|left; exact E]. right. intros F.
    pose proof (print_accepted {| usize_bits := 64; overflow_checks := oc |} cs' F) as A'. rewrite <- E in A'.
    pose proof (accepted_det _ _ _ _ V A' A) as ->. clear A A' F V.
    repeat (destruct Hin as [Hin|Hin]; [injection Hin as <- <-; vm_compute in E; discriminate|]). destruct Hin.
  - intros u Hc (Hu & fuel & E).
    assert (Va : valid_utf8 (s "a")) by literal. assert (Vd : valid_utf8 (s "a.")) by literal. assert (Vb : valid_utf8 (s "a[")) by literal.
    assert (HA : forall p, In p [s "a"; s "a."; s "a["] -> ascripts c (PStart, p) [Name (s "a")] None).
    { intros p Hp. apply accepted_script; [repeat (destruct Hp as [<-|Hp]; [assumption|]); destruct Hp|].
      destruct c as [ub oc]; cbn in Hc; subst ub. repeat (destruct Hp as [<-|Hp]; [destruct oc; vm_compute; reflexivity|]); destruct Hp. }
    rewrite (uncached_user c ti _ _ _ fuel t Va (HA _ (or_introl eq_refl))) in E.
    split; (split; [exact Hu|]; exists fuel; rewrite <- E).
    + apply (uncached_user c ti _ _ _ fuel t Vd). apply HA. right. left. reflexivity.
    + apply (uncached_user c ti _ _ _ fuel t Vb). apply HA. right. right. left. reflexivity.
Qed.
Print Assumptions C26_malformed_accepted_refuted.
(** What is accepted: exactly the language [reads_as] (PathSpec.v) ... *)
Theorem C26_accepted_partial : forall c p, valid_utf8 p ->
  (forall cs, accepted c p cs <-> reads_as (usize_max c) p cs) /\
  ((exists cs, reads_as (usize_max c) p cs) \/ (exists cs, malformed_after c p cs)) /\
  (forall cs cs', reads_as (usize_max c) p cs -> ~ malformed_after c p cs').
Proof.
  intros c p V. split; [intros cs; apply accepted_iff; exact V|]. split; [apply reads_or_malformed; exact V|].
  intros cs cs' R M. eapply reads_not_malformed; eassumption.
Qed.
Print Assumptions C26_accepted_partial.
(** ... so that an accepted ASCII path is the printed form of its components,
    apart from superfluous zeros and one trailing "." or "[" *)
Theorem C26_printed_partial : forall c p cs, Forall (fun b => Byte.to_N b < 0x80) p -> accepted c p cs ->
  Forall (component_ok (usize_max c)) cs /\
  (unpadded p (print cs) \/ unpadded p (print cs ++ dot) \/ unpadded p (print cs ++ lbracket)).
Proof.
  intros c p cs A H. apply accepted_iff in H; [|apply ascii_valid; exact A]. exact (reads_print _ _ _ H A).
Qed.
Print Assumptions C26_printed_partial.
(** A malformed path never succeeds, whatever the table, and if it is malformed at the
    first component the error is InvalidTypePath. *)
Theorem C26_malformed_partial : forall c ti t p, valid_utf8 p ->
  (forall cs r, malformed_after c p cs -> ~ offset_of_returns c ti t p (Ok r)) /\
  (malformed_after c p [] -> offset_of_returns c ti t p (Err InvalidTypePath)).
Proof.
  intros c ti t p V. split; [intros cs r; apply malformed_never_ok; exact V|apply offset_of_first_malformed; exact V].
Qed.
Print Assumptions C26_malformed_partial.
(** In a well-behaved table the error is InvalidTypePath whenever the well-formed part leads somewhere. *)
Theorem C26_malformed_later_partial : forall c ti t p cs u b, valid_utf8 p ->
  acyclic ti -> sizes_fit c ti -> anonymous_in_bytes ti -> unambiguous ti ->
  malformed_after c p cs -> leads ti (size ti) t cs u (ByteOffset b) ->
  (forall r b', visits ti (size ti) t cs r b' -> b' < 2 ^ 32) ->
  offset_of_returns c ti t p (Err InvalidTypePath).
Proof. exact offset_of_malformed. Qed.
Print Assumptions C26_malformed_later_partial.
Example C26_met : 
  malformed_after (build64 true) (s "comm..x") [Name (s "comm")] /\ malformed_after (build64 true) (s ".x") [] /\
  malformed_after (build64 true) (s "a[18446744073709551616]") [Name (s "a")] /\ malformed_after (build64 true) (s "[1]x") [Index 1] /\
  malformed_after (build64 true) (s "a b") [] /\ malformed_after (build64 true) (s "[]") [] /\ malformed_after (build64 true) (s "[-1]") [] /\
  malformed_after (build64 true) (s "1a") [] /\
  accepted (build64 true) (s "a[00].b") [Name (s "a"); Index 0; Name (s "b")] /\
  offset_of_uncached 100 (build64 true) sample_ti 7 (s "comm..x") = Err InvalidTypePath.
Proof. vm_compute. repeat split. Qed.

(** ** C27 *)
(** However often the iterator is called: some components, then the end or one error, and
    nothing after that. *)
Theorem C27_iteration_ends : forall c p, valid_utf8 p -> exists cs last, (length cs <= length p)%nat /\
  (last = Ok None \/ last = Err InvalidTypePath) /\
  forall n, yields (length cs + 1 + n) c p = map (fun x => Ok (Some x)) cs ++ [last] ++ repeat (Ok None) n.
Proof. exact yields_total. Qed.
Print Assumptions C27_iteration_ends.
Theorem C27_never_panics : forall c p n item, valid_utf8 p -> In item (yields n c p) ->
  (exists x, item = Ok (Some x)) \/ item = Ok None \/ item = Err InvalidTypePath.
Proof.
  intros c p n item V H. destruct (yields_total c p V) as (cs & last & _ & L & Y). 
  destruct (yields_app n (length cs + 1) c p) as (l & E).
  assert (H' : In item (yields (length cs + 1 + n) c p)) by (rewrite Nat.add_comm, E; apply in_or_app; left; exact H).
  rewrite Y in H'. apply in_app_or in H'. destruct H' as [H'|H'].
  - apply in_map_iff in H'. destruct H' as (x & <- & _). left. eauto.
  - right. destruct H' as [<-|H']; [exact L|]. apply repeat_spec in H'. left. exact H'.
Qed.
Print Assumptions C27_never_panics.
(** Multi-byte characters: "é" is C3 A9; A9 is no letter in Latin-1, so the path is refused;
    "ê" followed by "." is C3 AA 2E, whose bytes all look like letters. *)
Example C27_met : valid_utf8 [xc3; xa9] /\ valid_utf8 [xc3; xaa; x2e; x62] /\
  yields 3 (build64 true) [xc3; xa9] = [Err InvalidTypePath; Ok None; Ok None] /\
  yields 4 (build64 true) [xc3; xaa; x2e; x62] = [Ok (Some (Name [xc3; xaa])); Ok (Some (Name [x62])); Ok None; Ok None].
Proof.
  split; [|split; [|vm_compute; repeat split]].
  - exists [[xc3; xa9]]. split; [|reflexivity]. repeat constructor; discriminate.
  - exists [[xc3; xaa]; [x2e]; [x62]]. split; [|reflexivity]. repeat constructor; discriminate.
Qed.
