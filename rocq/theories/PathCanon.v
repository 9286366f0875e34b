(** * PathCanon: accepted ASCII paths are printed forms, up to leading zeros of
    indices and one trailing "." or "[". *)
From Coq Require Import List NArith Bool Lia Strings.Byte Strings.Ascii Strings.String Decimal DecimalFacts DecimalN DecimalString.
From Verif Require Import TypeInfo PathSpec PathPrint.
Import ListNotations.
Open Scope N_scope.

Fixpoint digits_of (ds : str) : uint :=
  match ds with
  | [] => Nil
  | b :: ds' =>
      let u := digits_of ds' in
      match b with
      | x30 => D0 u | x31 => D1 u | x32 => D2 u | x33 => D3 u | x34 => D4 u
      | x35 => D5 u | x36 => D6 u | x37 => D7 u | x38 => D8 u | _ => D9 u
      end
  end.
Lemma text_cons (f : uint -> uint) b u : (forall u, NilEmpty.string_of_uint (f u) = String (ascii_of_byte b) (NilEmpty.string_of_uint u)) ->
  text (f u) = b :: text u.
Proof. intros H. unfold text. rewrite H. cbn. rewrite byte_of_ascii_of_byte. reflexivity. Qed.
Lemma text_digits_of ds : Forall ascii_digit ds -> text (digits_of ds) = ds.
Proof.
  induction 1 as [|b ds Hb H IH]; [reflexivity|]. cbn [digits_of].
  destruct b; unfold ascii_digit, between in Hb; cbn in Hb; try lia; rewrite <- IH at 2; (apply text_cons; reflexivity).
Qed.
Lemma text_nzhead u : exists k, text u = repeat x30 k ++ text (nzhead u).
Proof.
  induction u as [|u IH|u IH|u IH|u IH|u IH|u IH|u IH|u IH|u IH|u IH]; try (exists 0%nat; reflexivity).
  destruct IH as (k & E). exists (S k). cbn [nzhead repeat app]. rewrite <- E. apply (text_cons D0). reflexivity.
Qed.
Lemma padded ds : ds <> [] -> Forall ascii_digit ds -> exists k, ds = repeat x30 k ++ decimal (decimal_value ds).
Proof.
  intros Hne H. pose proof (text_digits_of ds H) as T. pose proof (text_value (digits_of ds)) as V. rewrite T in V. rewrite V.
  assert (D : decimal (N.of_uint (digits_of ds)) = text (unorm (digits_of ds))) by (unfold decimal; rewrite DecimalN.Unsigned.to_of; reflexivity).
  rewrite D. destruct (text_nzhead (digits_of ds)) as (k & E). rewrite T in E. unfold unorm.
  destruct (nzhead (digits_of ds)) eqn:Z; try (exists k; exact E).
  destruct k as [|k]; [cbn in E; congruence|]. exists k. rewrite E at 1. change (text (D0 Nil)) with [x30]. cbn [text]. rewrite app_nil_r, <- (repeat_cons k). reflexivity.
Qed.

(** [unpadded p q]: [q] is [p] with superfluous zeros removed after "[". *)
Inductive unpadded : str -> str -> Prop :=
| unpadded_same p : unpadded p p
| unpadded_zero p1 d p2 q : ascii_digit d -> unpadded (p1 ++ lbracket ++ [d] ++ p2) q -> unpadded (p1 ++ lbracket ++ [x30; d] ++ p2) q.
Lemma unpadded_trans p q r : unpadded p q -> unpadded q r -> unpadded p r.
Proof. intros H Hr. induction H as [p|p1 d p2 q Hd H IH]; [exact Hr|]. apply unpadded_zero; auto. Qed.
Lemma unpadded_front a p q : unpadded p q -> unpadded (a ++ p) (a ++ q).
Proof. induction 1 as [p|p1 d p2 q Hd H IH]; [constructor|]. rewrite app_assoc in IH |- *. apply unpadded_zero; auto. Qed.
Lemma unpadded_back b p q : unpadded p q -> unpadded (p ++ b) (q ++ b).
Proof.
  induction 1 as [p|p1 d p2 q Hd H IH]; [constructor|]. rewrite <- !app_assoc in IH |- *. apply (unpadded_zero p1 d (p2 ++ b)); [exact Hd|]. exact IH.
Qed.
Lemma decimal_head i : exists d ds, decimal i = d :: ds /\ Forall ascii_digit (d :: ds).
Proof.
  pose proof (text_digits (N.to_uint i)) as H. change (text (N.to_uint i)) with (decimal i) in H.
  destruct (decimal i) as [|d ds] eqn:E; [|eauto]. exfalso.
  assert (V : text (N.to_uint i) = []) by exact E.
  destruct (N.to_uint i) eqn:U; try (unfold text in V; cbn in V; discriminate).
  pose proof (f_equal N.of_uint U) as W. rewrite DecimalN.Unsigned.of_to in W. cbn in W. subst i. discriminate U.
Qed.
Lemma unpadded_index k i : unpadded (lbracket ++ (repeat x30 k ++ decimal i) ++ rbracket) (print_index i).
Proof.
  destruct (decimal_head i) as (d & ds & E & F). inversion F as [|? ? Hd _]; subst.
  induction k as [|k IH]; [constructor|].
  eapply unpadded_trans; [|exact IH].
  assert (Z : exists d' r, (repeat x30 k ++ decimal i) ++ rbracket = d' :: r /\ ascii_digit d').
  { destruct k; cbn [repeat app]; [rewrite E; cbn [app]; eauto|]. do 2 eexists. split; [reflexivity|]. unfold ascii_digit, between. cbn. lia. }
  destruct Z as (d' & r & Z & Hd'). cbn [repeat]. change ((x30 :: repeat x30 k) ++ decimal i) with (x30 :: (repeat x30 k ++ decimal i)).
  change ((x30 :: (repeat x30 k ++ decimal i)) ++ rbracket) with (x30 :: ((repeat x30 k ++ decimal i) ++ rbracket)). rewrite Z.
  apply (unpadded_zero [] d' r); [exact Hd'|]. constructor.
Qed.
Lemma unpadded_index_text max i t : index_text max i t -> unpadded t (print_index i) /\ i <= max.
Proof.
  intros (ds & -> & Hne & Hd & Hv & Hm). split; [|exact Hm]. destruct (padded ds Hne Hd) as (k & E). rewrite Hv in E. rewrite E. apply unpadded_index.
Qed.
Lemma ascii_identifier n : Forall asciib n -> name_text n -> identifier n.
Proof.
  assert (B : forall b, asciib b -> letter b -> ascii_letter b).
  { intros b H L. unfold asciib in H. unfold letter, ascii_letter, between in *. intuition (subst; cbn in *; lia). }
  intros H Hn. destruct n as [|b n]; [exact Hn|]. inversion H as [|? ? Hb Hr]; subst. destruct Hn as [H1 H2]. split.
  - destruct H1 as [H1|H1]; [left; auto|right; exact H1].
  - apply Forall_forall. intros x Hx. rewrite Forall_forall in Hr, H2. specialize (Hr x Hx). specialize (H2 x Hx).
    destruct H2 as [H2|[H2|H2]]; [left; auto| |right; right; exact H2]. right. left.
    unfold numeric in H2. unfold asciib in Hr. unfold between in H2. intuition (subst; cbn in *; lia).
Qed.
Lemma path_rest_print max cs p : path_rest max cs p -> Forall asciib p -> unpadded p (print_rest cs) /\ Forall (component_ok max) cs.
Proof.
  induction 1 as [|n cs s Hn H IH|i t cs s Ht H IH]; intros A.
  - split; constructor.
  - apply Forall_app in A. destruct A as [_ A]. apply Forall_app in A. destruct A as [An As]. destruct (IH As) as [U F]. split.
    + cbn [print_rest]. apply unpadded_front. apply unpadded_front. exact U.
    + constructor; [apply ascii_identifier; assumption|exact F].
  - apply Forall_app in A. destruct A as [_ As]. destruct (IH As) as [U F]. destruct (unpadded_index_text _ _ _ Ht) as [Ui Hi]. split.
    + cbn [print_rest]. eapply unpadded_trans; [apply unpadded_back; exact Ui|]. apply unpadded_front. exact U.
    + constructor; [exact Hi|exact F].
Qed.
Theorem path_print max cs p : path max cs p -> Forall asciib p -> unpadded p (print cs) /\ Forall (component_ok max) cs.
Proof.
  intros H A. destruct H as [|n cs s Hn H|i t cs s Ht H].
  - split; constructor.
  - apply Forall_app in A. destruct A as [An As]. destruct (path_rest_print _ _ _ H As) as [U F]. split; [apply unpadded_front; exact U|].
    constructor; [apply ascii_identifier; assumption|exact F].
  - apply (path_rest_print max (Index i :: cs)); [constructor; assumption|exact A].
Qed.
Theorem reads_print max p cs : reads_as max p cs -> Forall asciib p ->
  Forall (component_ok max) cs /\
  (unpadded p (print cs) \/ unpadded p (print cs ++ dot) \/ unpadded p (print cs ++ lbracket)).
Proof.
  intros (p0 & P & H) A.
  assert (A0 : Forall asciib p0) by (destruct H as [->|[[-> _]|[-> _]]]; [exact A| |]; apply Forall_app in A; tauto).
  destruct (path_print _ _ _ P A0) as [U F]. split; [exact F|].
  destruct H as [->|[[-> _]|[-> _]]]; [left; exact U|right; left|right; right]; apply unpadded_back; exact U.
Qed.
