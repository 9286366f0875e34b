(** Facts about paths that begin alike (C74). *)
From Coq Require Import List NArith Bool Lia Strings.Byte.
From Verif Require Import TypeInfo Spec BaseFacts PathSpec Path PathGrammar QuerySpec Chains Sizes Follow Offsets Offsets2 OffsetOf OffsetOf2 OutcomeSpec Outcome Message MessageSpec MessageFacts
  MessagePath MessageOffset SearchSpec SearchFacts.
Import ListNotations.
Open Scope N_scope.

Definition answered {E A} (r : outcome E A) : Prop := exists v, r = Ok v.
Lemma probe_stuck f g off ms : (forall o mt, ~ answered (f o mt) -> g o mt = f o mt) ->
  (forall v, probe_msg f off ms <> Ok (Some v)) -> probe_msg g off ms = probe_msg f off ms.
Proof.
  intros H. induction ms as [|m ms IH]; [reflexivity|]. cbn [probe_msg]. destruct (is_anonymous m); [|exact IH].
  destruct (add_msg _ _) as [o|k|q|]; cbn [obind]; try reflexivity. intros D.
  rewrite H by (intros (v & X); rewrite X in D; exact (D v eq_refl)). destruct (f o (m_tid m)); try reflexivity. apply IH. exact D.
Qed.
Lemma look_stuck c ti p1 p2 g1 g2 off ty x : (forall o mt, ~ answered (p1 o mt) -> p2 o mt = p1 o mt) -> (forall o mt, ~ answered (g1 o mt) -> g2 o mt = g1 o mt) ->
  ~ answered (look c ti p1 g1 off ty x) -> look c ti p2 g2 off ty x = look c ti p1 g1 off ty x.
Proof.
  intros Hp Hg. assert (M : forall name ms,
    ~ answered (obind (probe_msg p1 off ms) (fun found => match found with Some r => Ok r | None =>
      match find (has_name name) ms with Some m => obind (add_msg off (m_offset m)) (fun off' => g1 off' (m_tid m)) | None => Err (MMemberNotFound name) end end)) ->
    obind (probe_msg p2 off ms) (fun found => match found with Some r => Ok r | None =>
      match find (has_name name) ms with Some m => obind (add_msg off (m_offset m)) (fun off' => g2 off' (m_tid m)) | None => Err (MMemberNotFound name) end end) =
    obind (probe_msg p1 off ms) (fun found => match found with Some r => Ok r | None =>
      match find (has_name name) ms with Some m => obind (add_msg off (m_offset m)) (fun off' => g1 off' (m_tid m)) | None => Err (MMemberNotFound name) end end)).
  { intros name ms D. rewrite (probe_stuck p1 p2 off ms Hp) by (intros v X; rewrite X in D; apply D; exists v; reflexivity).
    destruct (probe_msg p1 off ms) as [[?|]|?|?|]; cbn [obind] in *; try reflexivity. destruct (find _ _); try reflexivity.
    destruct (add_msg _ _); cbn [obind] in *; try reflexivity. apply Hg. exact D. }
  destruct ty; destruct x as [i|name]; cbn [look member_lists]; try reflexivity; try (apply M).
  intros D. destruct (array_step_msg c ti d off i); cbn [obind] in *; try reflexivity. apply Hg. exact D.
Qed.
Lemma hunt_stuck c ti e n : forall off t cs cs', ~ answered (hunt c ti None n off t cs) -> hunt c ti e n off t (cs ++ cs') = hunt c ti None n off t cs.
Proof.
  induction n as [|n IH]; intros off t cs cs' D; [reflexivity|]. destruct cs as [|x cs].
  - destruct D. cbn [hunt]. eexists. reflexivity.
  - change ((x :: cs) ++ cs') with (x :: (cs ++ cs')). rewrite !hunt_S in *. destruct (resolve_msg ti t) as [r|k|q|]; cbn [obind] in *; try reflexivity.
    apply look_stuck; [| |exact D]; intros o mt D'; [exact (IH o mt (x :: cs) cs' D')|exact (IH o mt cs cs' D')].
Qed.

(** ** Texts *)
Lemma rest_goes_on c cs s w : path_rest (usize_max c) cs s -> okhead w -> forall b, exists rest e, ascripts c (st b (s ++ w)) (cs ++ rest) e.
Proof.
  intros P Hw. induction P as [|n cs s Hn P IH|i t cs s Hi P IH]; intros b.
  - cbn [app]. destruct (script_total c (st b w)) as (cs & e & A & _); [|eauto].
    unfold fine. destruct b; [|discriminate]. destruct w as [|x w]; [discriminate|]. cbn [st nst]. destruct (is_lbracket x); discriminate.
  - destruct (IH true) as (rest & e & A). exists rest, e. assert (O : okhead (s ++ w)) by (pose proof (rest_head _ _ _ P) as O; destruct s; [exact Hw|exact O]).
    assert (exists b' r, n ++ s ++ w = b' :: r) as (b' & r & En) by (destruct n as [|y n]; [destruct Hn|exists y, (n ++ s ++ w); reflexivity]).
    cbn [app dot]. rewrite <- app_assoc. apply as_more with (s' := nst (s ++ w)); [|exact A].
    apply anext_st; [intros _; right; reflexivity|]. right. exists b', r. rewrite En. split; [reflexivity|]. apply astart_iff. exists n, (s ++ w). rewrite <- En. auto.
  - destruct (IH false) as (rest & e & A). exists rest, e. destruct Hi as (ds & -> & Hd).
    rewrite <- !app_assoc. apply as_more with (s' := (PAfterIndex, s ++ w)); [|exact A].
    change (lbracket ++ ds ++ rbracket ++ s ++ w) with (x5b :: ds ++ x5d :: s ++ w). apply anext_st; [intros _; left; reflexivity|]. left. eexists. split; [reflexivity|]. apply aindex_iff. exists ds, i, (s ++ w). rewrite <- ?app_assoc. auto.
Qed.
Lemma path_goes_on c cs p w : path (usize_max c) cs p -> cs <> [] -> okhead w -> exists rest e, ascripts c (PStart, p ++ w) (cs ++ rest) e.
Proof.
  intros P N Hw. destruct P as [|n cs s Hn P|i t cs s Hi P]; [destruct (N eq_refl)| |].
  - destruct (rest_goes_on c cs s w P Hw true) as (rest & e & A). exists rest, e. assert (O : okhead (s ++ w)) by (pose proof (rest_head _ _ _ P) as O; destruct s; [exact Hw|exact O]).
    rewrite <- app_assoc. pose proof (name_not_bracket n Hn) as B. destruct n as [|b' n]; [destruct Hn|]. cbn [app]. apply as_more with (s' := nst (s ++ w)); [|exact A].
    rewrite anext_start by exact B. apply astart_iff. exists (b' :: n), (s ++ w). auto.
  - destruct (rest_goes_on c cs s w P Hw false) as (rest & e & A). exists rest, e. destruct Hi as (ds & -> & Hd).
    rewrite <- !app_assoc. apply as_more with (s' := (PAfterIndex, s ++ w)); [|exact A].
    change (lbracket ++ ds ++ rbracket ++ s ++ w) with (x5b :: ds ++ x5d :: s ++ w). rewrite anext_start_index. apply aindex_iff. exists ds, i, (s ++ w). auto.
Qed.
