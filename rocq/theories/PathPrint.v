(** * PathPrint: printing component lists and parsing them back. *)
From Coq Require Import Lia Decimal DecimalN DecimalString.
From Verif Require Import TypeInfo BaseFacts Spec PathSpec Path PathGrammar.
From Coq Require Import Strings.Byte Strings.String.

Definition dvalue (v : N) (s : str) : N := fold_left (fun v b => 10 * v + (Byte.to_N b - 0x30)) s v.
Definition text (u : uint) : str := list_byte_of_string (NilEmpty.string_of_uint u).
Lemma text_digits u : Forall ascii_digit (text u).
Proof. induction u; unfold text in *; cbn; constructor; try assumption; unfold ascii_digit, between; cbn; lia. Qed.
Lemma text_value_acc u : forall p, dvalue (Npos p) (text u) = Npos (Pos.of_uint_acc u p).
Proof.
  induction u as [|u IH|u IH|u IH|u IH|u IH|u IH|u IH|u IH|u IH|u IH]; intros p; unfold text, dvalue in *; [reflexivity| | | | | | | | | |];
  cbn -[N.mul N.add N.sub Byte.to_N Pos.mul Pos.add]; cbn [Byte.to_N];
  (rewrite <- IH; f_equal; lia).
Qed.
Lemma text_value u : decimal_value (text u) = N.of_uint u.
Proof.
  change (dvalue 0 (text u) = N.of_uint u).
  induction u as [|u IH|u IH|u IH|u IH|u IH|u IH|u IH|u IH|u IH|u IH]; [reflexivity|exact IH|..];
  unfold text, dvalue, N.of_uint, Pos.of_uint; cbn -[N.mul N.add N.sub Byte.to_N Pos.mul Pos.add]; cbn [Byte.to_N]; rewrite <- text_value_acc; unfold dvalue, text; f_equal.
Qed.
Lemma decimal_digits max i : i <= max -> digits max i (decimal i).
Proof.
  intros H. unfold digits, decimal. change (list_byte_of_string _) with (text (N.to_uint i)).
  split; [|split; [apply text_digits|split; [rewrite text_value; apply Unsigned.of_to|exact H]]].
  destruct (N.to_uint i) eqn:E; try discriminate.
  destruct i as [|p]; [discriminate|]. exfalso. pose proof (Unsigned.of_to (Npos p)) as G. rewrite E in G. discriminate G.
Qed.
Lemma identifier_name n : identifier n -> name_text n.
Proof.
  destruct n as [|b n]; [auto|]. intros [Hb Hn]. split.
  - unfold name_start, letter, ascii_letter in *. tauto.
  - eapply Forall_impl; [|exact Hn]. intros a. unfold name_byte, letter, numeric, ascii_letter. tauto.
Qed.
Lemma print_index_ok max i : i <= max -> index_text max i (print_index i).
Proof. intros H. apply index_text_digits. exists (decimal i). split; [reflexivity|apply decimal_digits; exact H]. Qed.
Lemma print_rest_ok max cs : Forall (component_ok max) cs -> path_rest max cs (print_rest cs).
Proof.
  induction 1 as [|[i|n] cs Hc Hcs IH]; cbn [print_rest]; [constructor| |].
  - constructor; [apply print_index_ok; exact Hc|exact IH].
  - constructor; [apply identifier_name; exact Hc|exact IH].
Qed.
Lemma print_ok max cs : Forall (component_ok max) cs -> path max cs (print cs).
Proof.
  intros [|[i|n] cs' Hc Hcs]; cbn [print print_rest]; [constructor| |].
  - constructor; [apply print_index_ok; exact Hc|apply print_rest_ok; exact Hcs].
  - constructor; [apply identifier_name; exact Hc|apply print_rest_ok; exact Hcs].
Qed.

(** printed paths are ASCII *)
Definition asciib (b : byte) : Prop := Byte.to_N b < 0x80.
Lemma ascii_valid s : Forall asciib s -> valid_utf8 s.
Proof.
  intros H. exists (map (fun b => [b]) s). split.
  - apply Forall_map. eapply Forall_impl; [|exact H]. intros b Hb. constructor. unfold asciib in Hb. unfold in_bytes. lia.
  - clear. induction s as [|b s IH]; [reflexivity|]. cbn [map List.concat app]. f_equal. exact IH.
Qed.
Lemma print_rest_ascii max cs : Forall (component_ok max) cs -> Forall asciib (print_rest cs).
Proof.
  assert (D : forall i, Forall asciib (decimal i)).
  { intros i. unfold decimal. change (list_byte_of_string _) with (text (N.to_uint i)). eapply Forall_impl; [|apply text_digits]. intros b. unfold ascii_digit, between, asciib. lia. }
  induction 1 as [|[i|n] cs Hc Hcs IH]; cbn [print_rest]; [constructor| |].
  - unfold print_index. rewrite <- !app_assoc. repeat (apply Forall_app; split); try assumption; try apply D; repeat constructor.
  - constructor; [reflexivity|]. apply Forall_app. split; [|exact IH].
    destruct n as [|b n]; [constructor|]. destruct Hc as [Hb Hn]. unfold ascii_letter, between, underscore in *. constructor.
    + unfold asciib. destruct Hb as [Hb|Hb]; [lia|subst b; reflexivity].
    + eapply Forall_impl; [|exact Hn]. intros a Ha. unfold asciib, ascii_digit, between in *.
      destruct Ha as [Ha|[Ha| ->]]; [lia|lia|reflexivity].
Qed.
Lemma print_valid max cs : Forall (component_ok max) cs -> valid_utf8 (print cs).
Proof.
  intros H. apply ascii_valid. pose proof (print_rest_ascii max cs H) as G. destruct cs as [|[i|n] cs]; [exact G|exact G|].
  cbn [print print_rest dot app] in *. inversion G; subst. assumption.
Qed.
Theorem print_accepted c cs : Forall (component_ok (usize_max c)) cs -> accepted c (print cs) cs.
Proof.
  intros H. apply accepted_iff; [eapply print_valid; exact H|]. exists (print cs). split; [apply print_ok; exact H|auto].
Qed.
Lemma accepted_det c p cs1 cs2 : valid_utf8 p -> accepted c p cs1 -> accepted c p cs2 -> cs1 = cs2.
Proof.
  intros Hu H1 H2. apply (accepted_script c p _ Hu) in H1, H2. apply (script_det _ _ _ _ H1 _ _ H2).
Qed.
