(** * PathGrammar: which paths the iterator accepts. *)
From Coq Require Import Lia.
From Verif Require Import TypeInfo BaseFacts Spec PathSpec Path.
From Coq Require Import Strings.Byte.

Lemma script_nil c s : ascripts c s [] None <-> fst (anext c s) = Ok None.
Proof. split; [inversion 1; assumption|apply as_end]. Qed.
Lemma script_cons c s x cs : ascripts c s (x :: cs) None <-> exists s', anext c s = (Ok (Some x), s') /\ ascripts c s' cs None.
Proof. split; [inversion 1; subst; eauto|intros (s' & H & H'); eapply as_more; eassumption]. Qed.

Definition okhead (l : str) : Prop := match l with [] => True | b :: _ => b = x5b \/ b = x2e end.
Definition nst (l : str) : pstate * str :=
  match l with
  | [] => (PDone, [])
  | b :: r => if is_lbracket b then (PInsideIndex, r) else (PExpectingName, r)
  end.
Definition st (b : bool) (l : str) : pstate * str := if b then nst l else (PAfterIndex, l).
Definition digits (max i : N) (ds : str) : Prop := ds <> [] /\ Forall ascii_digit ds /\ decimal_value ds = i /\ i <= max.
Lemma index_text_digits max i t : index_text max i t <-> exists ds, t = x5b :: ds ++ [x5d] /\ digits max i ds.
Proof. unfold index_text, digits. firstorder. Qed.

Lemma aindex_iff c l x s' : aindex c l = (Ok (Some x), s') <->
  exists ds i r, l = ds ++ x5d :: r /\ digits (usize_max c) i ds /\ x = Index i /\ s' = (PAfterIndex, r).
Proof.
  unfold aindex, digits. split.
  - pose proof (take_drop is_numeric l) as E. destruct (drop_while is_numeric l) as [|b r]; [discriminate|].
    destruct (is_rbracket b) eqn:Eb; [|discriminate]. apply is_char_lt in Eb. subst b.
    destruct (parse_usize c (take_while is_numeric l)) as [i|] eqn:Ei; [|discriminate].
    intros H. injection H as <- <-. apply parse_usize_iff in Ei.
    exists (take_while is_numeric l), i, r. auto.
  - intros (ds & i & r & -> & Hd & -> & ->).
    assert (Hn : forallb is_numeric ds = true).
    { apply (forallb_Forall is_numeric numeric ds is_numeric_iff). eapply Forall_impl; [|apply Hd]. intros a Ha. left. exact Ha. }
    destruct (take_while_app is_numeric ds (x5d :: r) Hn ltac:(reflexivity)) as [-> ->].
    change (is_rbracket x5d) with true. cbn iota. apply parse_usize_iff in Hd. rewrite Hd. reflexivity.
Qed.
Lemma aindex_not_none c l : fst (aindex c l) <> Ok None.
Proof. pose proof (aindex_cases c l) as H. destruct (fst (aindex c l)) as [[|]| | |]; try discriminate. destruct H. Qed.
Lemma astart_not_none b l : fst (astart b (b :: l)) <> Ok None.
Proof. pose proof (astart_cases b l) as H. destruct (fst (astart b (b :: l))) as [[|]| | |]; try discriminate. destruct H. Qed.
Lemma okhead_stop r : okhead r -> match r with b :: _ => nameb b = false | [] => True end.
Proof. destruct r as [|b r]; [auto|]. intros [-> | ->]; reflexivity. Qed.
Lemma astart_iff b l x s' : astart b (b :: l) = (Ok (Some x), s') <->
  exists n r, b :: l = n ++ r /\ name_text n /\ okhead r /\ x = Name n /\ s' = nst r.
Proof.
  unfold astart. split.
  - destruct (is_alphabetic b || is_underscore b) eqn:E; [|discriminate].
    unfold aname. pose proof (take_drop nameb (b :: l)) as Es. pose proof (take_all nameb (b :: l)) as Ea.
    assert (Hb : nameb b = true) by (apply startb_iff in E; apply nameb_iff; destruct E as [E|E]; unfold name_byte; tauto).
    assert (Et : take_while nameb (b :: l) = b :: take_while nameb l) by (cbn [take_while]; rewrite Hb; reflexivity).
    intros H. exists (take_while nameb (b :: l)), (drop_while nameb (b :: l)). split; [auto|].
    split. { rewrite name_text_iff. split; [rewrite Et; exact E|exact Ea]. }
    destruct (drop_while nameb (b :: l)) as [|b' r]; [injection H as <- <-; repeat split|].
    unfold nst. destruct (is_lbracket b') eqn:E1; [injection H as <- <-; apply is_char_lt in E1; cbn; auto|].
    destruct (is_dot b') eqn:E2; [injection H as <- <-; apply is_char_lt in E2; cbn; auto|discriminate].
  - intros (n & r & E & Hn & Hr & -> & ->). apply name_text_iff in Hn. destruct Hn as [Hh Hn].
    destruct n as [|b0 n]; [destruct Hh|]. cbn [app] in E. injection E as <- ->. rewrite Hh.
    unfold aname. change (b :: n ++ r) with ((b :: n) ++ r).
    destruct (take_while_app nameb (b :: n) r Hn (okhead_stop r Hr)) as [-> ->].
    destruct r as [|b' r]; [reflexivity|]. unfold nst. destruct Hr as [-> | ->]; reflexivity.
Qed.

Definition ends (b : bool) (cs : list component) : Prop :=
  match rev cs with [] => b = true | Name _ :: _ => True | Index _ :: _ => False end.
Lemma ends_cons b x cs : ends b (x :: cs) <-> ends (match x with Name _ => true | _ => false end) cs.
Proof.
  unfold ends. cbn [rev]. destruct (rev cs) as [|y l]; cbn; [|tauto]. destruct x; split; intros H; try tauto; congruence.
Qed.
Definition tail (b : bool) (cs : list component) (l0 l : str) : Prop :=
  l = l0 \/ l = l0 ++ dot \/ (l = l0 ++ lbracket /\ ends b cs).
Lemma rest_head max cs l : path_rest max cs l -> okhead l.
Proof. intros [|n cs' s _ _|i t cs' s (ds & -> & _) _]; cbn; auto. Qed.
Lemma tail_head max b cs l0 l : path_rest max cs l0 -> tail b cs l0 l -> okhead l.
Proof.
  intros H. apply rest_head in H. intros [-> |[-> |[-> _]]]; [exact H| |]; destruct l0; cbn in *; auto.
Qed.

Transparent anext.
Lemma anext_st c b l x s' : (b = true -> okhead l) -> anext c (st b l) = (Ok (Some x), s') <->
  (exists r, l = x5b :: r /\ aindex c r = (Ok (Some x), s')) \/ (exists b' r, l = x2e :: b' :: r /\ astart b' (b' :: r) = (Ok (Some x), s')).
Proof.
  intros Hh. destruct b.
  - specialize (Hh eq_refl). destruct l as [|b l]; [cbn; split; [discriminate|intros [(?&?&_)|(?&?&?&_)]; discriminate]|].
    destruct Hh as [-> | ->]; cbn -[aindex astart].
    + destruct l as [|b l].
      * split; [discriminate|]. intros [(r & E & H)|(?&?&?&_)]; [|discriminate]. injection E as <-. discriminate H.
      * split; [intros H; left; eauto|]. intros [(r & E & H)|(?&?&?&_)]; [|discriminate]. injection E as <-. exact H.
    + destruct l as [|b l].
      * split; [discriminate|]. intros [(?&?&_)|(?&?&?&_)]; discriminate.
      * split; [intros H; right; eauto|]. intros [(?&?&_)|(b'&r&E&H)]; [discriminate|]. injection E as <- <-. exact H.
  - destruct l as [|b l]; [cbn; split; [discriminate|intros [(?&?&_)|(?&?&?&_)]; discriminate]|].
    cbn -[aindex astart is_lbracket is_dot]. destruct (is_lbracket b) eqn:E1.
    { apply is_char_lt in E1. subst b. split; [intros H; left; eauto|]. intros [(r & E & H)|(?&?&?&_)]; [|discriminate]. injection E as <-. exact H. }
    destruct (is_dot b) eqn:E2.
    { apply is_char_lt in E2. subst b. destruct l as [|b' l]; [split; [discriminate|intros [(?&?&_)|(?&?&?&_)]; discriminate]|].
      split; [intros H; right; eauto|]. intros [(?&?&_)|(b2&r&E&H)]; [discriminate|]. injection E as <- <-. exact H. }
    split; [discriminate|]. intros [(?&E&_)|(?&?&E&_)]; injection E as -> _; discriminate.
Qed.
Lemma anext_st_none c b l : (b = true -> okhead l) -> fst (anext c (st b l)) = Ok None <-> tail b [] [] l.
Proof.
  intros Hh. unfold tail, ends. cbn [rev app]. unfold dot, lbracket. destruct b.
  - specialize (Hh eq_refl). destruct l as [|b l]; [cbn; tauto|].
    destruct Hh as [-> | ->]; cbn -[aindex astart]; (destruct l as [|b l]; [cbn; split; auto|]).
    + split; [intros H; apply aindex_not_none in H; destruct H|]. intros [H|[H|[H _]]]; discriminate H.
    + split; [intros H; apply astart_not_none in H; destruct H|]. intros [H|[H|[H _]]]; discriminate H.
  - destruct l as [|b l]; [cbn; tauto|].
    cbn -[aindex astart is_lbracket is_dot]. destruct (is_lbracket b) eqn:E1.
    { split; [intros H; apply aindex_not_none in H; destruct H|]. apply is_char_lt in E1. subst b. intros [H|[H|[_ H]]]; discriminate H. }
    destruct (is_dot b) eqn:E2.
    { apply is_char_lt in E2. subst b. destruct l as [|b l]; [cbn; split; auto|].
      split; [intros H; apply astart_not_none in H; destruct H|]. intros [H|[H|[_ H]]]; discriminate H. }
    split; [discriminate|]. intros [H|[H|[_ H]]]; try discriminate H. injection H as ->. discriminate E2.
Qed.
Opaque anext.

Lemma after_iff c cs : forall b l, (b = true -> okhead l) ->
  ascripts c (st b l) cs None <-> exists l0, path_rest (usize_max c) cs l0 /\ tail b cs l0 l.
Proof.
  induction cs as [|x cs IH]; intros b l Hh.
  - rewrite script_nil, anext_st_none by exact Hh. split; [intros H; exists []; split; [constructor|exact H]|].
    intros (l0 & H & Ht). inversion H; subst. exact Ht.
  - rewrite script_cons. setoid_rewrite (anext_st c b l x) ; [|exact Hh]. split.
    + intros (s' & [(r & -> & H)|(b' & r & -> & H)] & Hs).
      * apply aindex_iff in H. destruct H as (ds & i & r' & -> & Hd & -> & ->).
        apply (IH false r' ltac:(discriminate)) in Hs. destruct Hs as (l0 & Hp & Ht).
        exists ((x5b :: ds ++ [x5d]) ++ l0). split.
        { constructor; [apply index_text_digits; eauto|exact Hp]. }
        unfold tail in *. rewrite ends_cons. cbn [app]. rewrite <- !app_assoc. cbn [app].
        destruct Ht as [-> |[-> |[-> He]]]; auto.
      * apply astart_iff in H. destruct H as (n & r' & E & Hn & Ho & -> & ->).
        apply (IH true r' ltac:(auto)) in Hs. destruct Hs as (l0 & Hp & Ht).
        exists (dot ++ n ++ l0). split; [constructor; assumption|].
        unfold tail in *. rewrite ends_cons, E. change (x2e :: n ++ r') with (dot ++ n ++ r'). rewrite <- !app_assoc.
        destruct Ht as [-> |[-> |[-> He]]]; auto.
    + intros (l0 & Hp & Ht). inversion Hp as [|n cs' s Hn Hr|i t cs' s Hi Hr]; subst.
      * unfold tail in Ht. rewrite ends_cons, <- !app_assoc in Ht. cbn [dot app] in Ht.
        assert (E : exists r, l = x2e :: n ++ r /\ tail true cs s r).
        { unfold tail. destruct Ht as [-> |[-> |[-> He]]]; eexists; (split; [reflexivity|]); auto. }
        destruct E as (r & -> & Ht'). exists (nst r). split.
        { right. destruct n as [|b' n]; [destruct Hn|]. exists b', (n ++ r). split; [reflexivity|].
          apply astart_iff. exists (b' :: n), r. split; [reflexivity|]. split; [exact Hn|]. split; [eapply tail_head; eassumption|auto]. }
        apply (IH true r); [intros _; eapply tail_head; eassumption|eauto].
      * apply index_text_digits in Hi. destruct Hi as (ds & -> & Hd). unfold tail in Ht. rewrite ends_cons in Ht. cbn [app] in Ht. rewrite <- !app_assoc in Ht. cbn [app] in Ht.
        assert (E : exists r, l = x5b :: ds ++ x5d :: r /\ tail false cs s r).
        { unfold tail. destruct Ht as [-> |[-> |[-> He]]]; eexists; (split; [reflexivity|]); auto. }
        destruct E as (r & -> & Ht'). exists (PAfterIndex, r). split.
        { left. eexists. split; [reflexivity|]. apply aindex_iff. exists ds, i, r. auto. }
        apply (IH false r); [discriminate|eauto].
Qed.

Transparent anext.
Lemma anext_start c b l : is_lbracket b = false -> anext c (PStart, b :: l) = astart b (b :: l).
Proof. intros H. cbn -[is_lbracket astart]. rewrite H. reflexivity. Qed.
Lemma anext_start_index c l : anext c (PStart, x5b :: l) = aindex c l.
Proof. reflexivity. Qed.
Lemma anext_start_nil c : fst (anext c (PStart, [])) = Ok None.
Proof. reflexivity. Qed.
Opaque anext.

Lemma name_not_bracket n : name_text n -> match n with b :: _ => is_lbracket b = false | [] => False end.
Proof. intros H. apply name_text_iff in H. destruct n as [|b n]; [apply H|]. apply starts_not_bracket. apply H. Qed.

Lemma ends_last x cs : ends (match x with Name _ => true | _ => false end) cs <-> last_is_name (x :: cs).
Proof.
  rewrite <- (ends_cons false). unfold ends, last_is_name. destruct (rev (x :: cs)) as [|y l] eqn:E.
  - apply (f_equal (@length _)) in E. rewrite rev_length in E. discriminate E.
  - apply (f_equal (@rev _)) in E. rewrite rev_involutive in E. cbn [rev] in E. rewrite E. destruct y as [i|n].
    + split; [intros []|]. intros (cs' & n & H). apply app_inj_tail in H. destruct H. discriminate.
    + split; [intros _; eauto|intros _; exact I].
Qed.

Theorem accepted_iff c p cs : valid_utf8 p -> accepted c p cs <-> reads_as (usize_max c) p cs.
Proof.
  unfold reads_as.
  intros Hu. rewrite (accepted_script c p cs Hu). destruct cs as [|x cs].
  - rewrite script_nil. split.
    + intros H. destruct p as [|b p]; [exists []; split; [constructor|auto]|]. exfalso.
      destruct (is_lbracket b) eqn:E1.
      * apply is_char_lt in E1. subst b. rewrite anext_start_index in H. apply aindex_not_none in H. exact H.
      * rewrite anext_start in H by exact E1. apply astart_not_none in H. exact H.
    + intros (p0 & Hp & Ht). inversion Hp; subst. destruct Ht as [-> |[[_ H]|[_ (cs' & n & H)]]]; [apply anext_start_nil|congruence|].
      destruct cs'; discriminate H.
  - rewrite script_cons. split.
    + intros (s' & H & Hs). destruct p as [|b p]; [apply (f_equal fst) in H; pose proof (eq_trans (eq_sym (anext_start_nil c)) H) as H'; discriminate H'|].
      destruct (is_lbracket b) eqn:E1.
      * apply is_char_lt in E1. subst b. rewrite anext_start_index in H. apply aindex_iff in H. destruct H as (ds & i & r' & -> & Hd & -> & ->).
        apply (after_iff c cs false r' ltac:(discriminate)) in Hs. destruct Hs as (l0 & Hp & Ht).
        exists ((x5b :: ds ++ [x5d]) ++ l0). split.
        { constructor; [apply index_text_digits; eauto|exact Hp]. }
        unfold tail in *. rewrite <- (ends_last (Index i)). cbn [app]. rewrite <- !app_assoc. cbn [app].
        destruct Ht as [-> |[-> |[-> He]]]; auto. right. left. split; [auto|discriminate].
      * rewrite anext_start in H by exact E1. apply astart_iff in H. destruct H as (n & r' & E & Hn & Ho & -> & ->).
        apply (after_iff c cs true r' ltac:(auto)) in Hs. destruct Hs as (l0 & Hp & Ht).
        exists (n ++ l0). split; [constructor; assumption|].
        unfold tail in *. rewrite <- (ends_last (Name n)), E. rewrite <- !app_assoc.
        destruct Ht as [-> |[-> |[-> He]]]; auto. right. left. split; [auto|discriminate].
    + intros (p0 & Hp & Ht). inversion Hp as [|n cs' s Hn Hr|i t cs' s Hi Hr]; subst.
      * rewrite <- (ends_last (Name n)), <- !app_assoc in Ht.
        assert (E : exists r, p = n ++ r /\ tail true cs s r).
        { unfold tail. destruct Ht as [-> |[[-> _]|[-> He]]]; eexists; (split; [reflexivity|]); auto. }
        destruct E as (r & -> & Ht'). exists (nst r). split.
        { pose proof (name_not_bracket n Hn) as Hb. destruct n as [|b' n]; [destruct Hn|]. cbn [app].
          rewrite anext_start by exact Hb.
          apply astart_iff. exists (b' :: n), r. split; [reflexivity|]. split; [exact Hn|]. split; [eapply tail_head; eassumption|auto]. }
        apply (after_iff c cs true r); [intros _; eapply tail_head; eassumption|eauto].
      * apply index_text_digits in Hi. destruct Hi as (ds & -> & Hd). rewrite <- (ends_last (Index i)) in Ht. cbn [app] in Ht. rewrite <- !app_assoc in Ht. cbn [app] in Ht.
        assert (E : exists r, p = x5b :: ds ++ x5d :: r /\ tail false cs s r).
        { unfold tail. destruct Ht as [-> |[[-> _]|[-> He]]]; eexists; (split; [reflexivity|]); auto. }
        destruct E as (r & -> & Ht'). exists (PAfterIndex, r). split.
        { rewrite anext_start_index. apply aindex_iff. exists ds, i, r. auto. }
        apply (after_iff c cs false r); [discriminate|eauto].
Qed.
