(** * Compose: following a path in two parts. *)
From Coq Require Import List NArith ZArith Bool Lia Strings.Byte.
From Verif Require Import TypeInfo Spec BaseFacts PathSpec Path PathGrammar PathPrint QuerySpec Chains Sizes Follow Offsets Offsets2 OffsetOf OffsetOf2.
Import ListNotations.
Open Scope N_scope.

(** ** Text *)
Lemma path_rest_app max cs s cs' s' : path_rest max cs s -> path_rest max cs' s' -> path_rest max (cs ++ cs') (s ++ s').
Proof.
  intros H H'. induction H as [|n cs s Hn _ IH|i t cs s Hi _ IH]; [exact H'| |].
  - rewrite <- !app_assoc. cbn [app]. apply rest_name; assumption.
  - rewrite <- !app_assoc. cbn [app]. apply rest_index; assumption.
Qed.
Lemma path_app max cs s cs' s' : path max cs s -> cs <> [] -> path_rest max cs' s' -> path max (cs ++ cs') (s ++ s').
Proof.
  intros H Hne H'. destruct H as [|n cs s Hn H|i t cs s Hi H]; [congruence| |].
  - rewrite <- !app_assoc. cbn [app]. apply path_name; [assumption|]. apply path_rest_app; assumption.
  - rewrite <- !app_assoc. cbn [app]. apply path_index; [assumption|]. apply path_rest_app; assumption.
Qed.
Lemma name_first n : name_text n -> exists b n', n = b :: n' /\ b <> x5b.
Proof.
  destruct n as [|b n']; [intros []|]. intros [H _]. exists b, n'. split; [reflexivity|]. intros ->.
  unfold name_start, letter, between, underscore in H. vm_compute in H. intuition congruence.
Qed.
Lemma index_first max i t : index_text max i t -> exists t', t = x5b :: t'.
Proof. intros (ds & -> & _). eexists. reflexivity. Qed.
(** A non-empty path as it continues another one. *)
Lemma path_as_rest max cs q : path max cs q -> cs <> [] ->
  exists b q', q = b :: q' /\ path_rest max cs (if byte_eq_dec b x5b then q else dot ++ q).
Proof.
  intros H Hne. destruct H as [|n cs s Hn H|i t cs s Hi H]; [congruence| |].
  - destruct (name_first n Hn) as (b & n' & -> & Hb). exists b, (n' ++ s). split; [reflexivity|].
    destruct (byte_eq_dec b x5b); [contradiction|]. apply rest_name; assumption.
  - destruct (index_first _ _ _ Hi) as (t' & ->). exists x5b, (t' ++ s). split; [reflexivity|].
    destruct (byte_eq_dec x5b x5b); [|congruence]. apply rest_index; assumption.
Qed.
Lemma path_nonempty max cs p : path max cs p -> cs <> [] -> exists b p', p = b :: p'.
Proof. intros H Hne. destruct (path_as_rest max cs p H Hne) as (b & p' & -> & _). eauto. Qed.
Lemma join_reads max cs p cs' q : path max cs p -> reads_as max q cs' -> reads_as max (join p q) (cs ++ cs').
Proof.
  intros H R. destruct cs as [|x cs].
  { inversion H; subst. cbn [join app]. exact R. }
  destruct (path_nonempty _ _ _ H) as (b & p' & ->); [discriminate|]. destruct cs' as [|x' cs'].
  { rewrite app_nil_r. destruct R as (q0 & Hq & Ht). inversion Hq; subst. 
    assert (q = []) as -> by (destruct Ht as [->|[[_ ?]|[_ (l & ? & E)]]]; [reflexivity|congruence|destruct l; discriminate]).
    exists (b :: p'). split; [exact H|]. left. reflexivity. }
  destruct R as (q0 & Hq & Ht). destruct (path_as_rest _ _ _ Hq) as (b0 & q' & -> & Hr); [discriminate|].
  assert (E : forall tail, join (b :: p') ((b0 :: q') ++ tail) = ((b :: p') ++ (if byte_eq_dec b0 x5b then b0 :: q' else dot ++ b0 :: q')) ++ tail).
  { intros tail. cbn [join app]. destruct (byte_eq_dec b0 x5b); cbn [app]; rewrite <- ?app_assoc; reflexivity. }
  exists ((b :: p') ++ (if byte_eq_dec b0 x5b then b0 :: q' else dot ++ b0 :: q')). split; [apply path_app; [exact H|discriminate|exact Hr]|].
  destruct Ht as [->|[[-> _]|[-> (l & n & El)]]].
  - left. specialize (E []). rewrite !app_nil_r in E. exact E.
  - right. left. split; [apply E|discriminate].
  - right. right. split; [apply E|]. exists ((x :: cs) ++ l), n. rewrite El, app_assoc. reflexivity.
Qed.
Lemma valid_app a b : valid_utf8 a -> valid_utf8 b -> valid_utf8 (a ++ b).
Proof.
  intros (ca & Ha & ->) (cb & Hb & ->). exists (ca ++ cb). split; [apply Forall_app; auto|]. rewrite concat_app. reflexivity.
Qed.
Lemma valid_join p q : valid_utf8 p -> valid_utf8 q -> valid_utf8 (join p q).
Proof.
  intros Hp Hq. destruct p as [|a p]; [exact Hq|]. destruct q as [|b q]; [exact Hp|]. cbn [join].
  destruct (byte_eq_dec b x5b).
  - apply (valid_app (a :: p)); assumption.
  - apply (valid_app (a :: p)); [assumption|]. apply valid_app; [|assumption].
    exists [dot]. split; [|reflexivity]. constructor; [|constructor]. apply utf8_1. split; vm_compute; discriminate.
Qed.

(** ** Places *)
Lemma shift_byte s o a : shift s o = ByteOffset a -> exists b, o = ByteOffset b /\ a = s + b.
Proof. destruct o as [b|b z]; cbn; [|discriminate]. intros H. injection H as <-. eauto. Qed.
Lemma leads_app ti sz t cs u oa cs' v o : leads ti sz t cs u oa -> forall a, oa = ByteOffset a ->
  leads ti sz u cs' v o -> leads ti sz t (cs ++ cs') v (shift a o).
Proof.
  intros L. induction L as [t|t h d i s cs u o' Hty Hi Hs L IH|t ty ms n m b cs u o' Hty Hms Hm Ho L IH|t ty ms n m b s Hty Hms Hm Ho|t ty ms n m b cs u o' Hty Hms Hin Hn Ho L IH];
    intros a E H.
  - injection E as <-. rewrite shift_0. exact H.
  - apply shift_byte in E. destruct E as (b & -> & ->). rewrite <- shift_shift. cbn [app]. eapply leads_index; try eassumption. apply IH; auto.
  - apply shift_byte in E. destruct E as (b' & -> & ->). rewrite <- shift_shift. cbn [app]. eapply leads_member; try eassumption. apply IH; auto.
  - discriminate.
  - apply shift_byte in E. destruct E as (b' & -> & ->). rewrite <- shift_shift. cbn [app] in *. eapply leads_anonymous; try eassumption. apply IH; auto.
Qed.
Lemma leads_split ti sz t csc v o : leads ti sz t csc v o -> forall cs cs', csc = cs ++ cs' -> cs' <> [] ->
  exists u a o', leads ti sz t cs u (ByteOffset a) /\ leads ti sz u cs' v o' /\ o = shift a o'.
Proof.
  intros L. induction L as [t|t h d i s cs0 u o' Hty Hi Hs L IH|t ty ms n m b cs0 u o' Hty Hms Hm Ho L IH|t ty ms n m b s Hty Hms Hm Ho|t ty ms n m b cs0 u o' Hty Hms Hin Hn Ho L IH];
    intros cs cs' E Hne; (destruct cs as [|x cs]; [cbn [app] in E; subst cs'; exists t, 0; eexists; split; [constructor|]; split; [|symmetry; apply shift_0]|]).
  - congruence.
  - discriminate.
  - eapply leads_index; eassumption.
  - cbn [app] in E. injection E as <- ->. destruct (IH cs cs' eq_refl Hne) as (w & a & o2 & L1 & L2 & ->).
    exists w, (i * s + a), o2. split; [|split; [exact L2|rewrite shift_shift; reflexivity]].
    change (ByteOffset (i * s + a)) with (shift (i * s) (ByteOffset a)). eapply leads_index; eassumption.
  - eapply leads_member; eassumption.
  - cbn [app] in E. injection E as <- ->. destruct (IH cs cs' eq_refl Hne) as (w & a & o2 & L1 & L2 & ->).
    exists w, (b + a), o2. split; [|split; [exact L2|rewrite shift_shift; reflexivity]].
    change (ByteOffset (b + a)) with (shift b (ByteOffset a)). eapply leads_member; eassumption.
  - eapply leads_bitfield; eassumption.
  - cbn [app] in E. injection E as <- E. symmetry in E. apply app_eq_nil in E. destruct E. contradiction.
  - eapply leads_anonymous; eassumption.
  - cbn [app] in E. injection E as <- ->. destruct (IH (Name n :: cs) cs' eq_refl Hne) as (w & a & o2 & L1 & L2 & ->).
    exists w, (b + a), o2. split; [|split; [exact L2|rewrite shift_shift; reflexivity]].
    change (ByteOffset (b + a)) with (shift b (ByteOffset a)). eapply leads_anonymous; eassumption.
Qed.

Theorem offset_of_compose c ti t p q cs cs' u a : valid_utf8 p -> valid_utf8 q -> path (usize_max c) cs p -> reads_as (usize_max c) q cs' ->
  acyclic ti -> sizes_fit c ti -> anonymous_in_bytes ti -> unambiguous ti ->
  (forall r b, visits ti (size ti) t (cs ++ cs') r b -> b < 2 ^ 32) ->
  offset_of_returns c ti t p (Ok (u, ByteOffset a)) -> forall v o',
  offset_of_returns c ti t (join p q) (Ok (v, o')) <->
  exists o, offset_of_returns c ti u q (Ok (v, o)) /\ o' = shift a o /\ fits32 o'.
Proof.
  intros Vp Vq P R H1 H2 H3 H4 Hv E v o'.
  assert (sound : forall t p cs u o, valid_utf8 p -> reads_as (usize_max c) p cs -> offset_of_returns c ti t p (Ok (u, o)) -> leads ti (size ti) t cs u o /\ fits32 o).
  { clear -H2. intros t p cs u o V R E. destruct (offset_of_sound c ti t p u o V E) as (F & cs' & R' & L). split; [|exact F].
    assert (cs' = cs) as -> by (eapply accepted_det; [exact V| |]; apply accepted_iff; eassumption).
    eapply leads_impl; [|exact L]. intros x z. apply computed_size. right. exact H2. }
  assert (Rp : reads_as (usize_max c) p cs) by (exists p; auto).
  destruct (sound _ _ _ _ _ Vp Rp E) as [L _].
  assert (Vj := valid_join p q Vp Vq). assert (Rj := join_reads _ _ _ _ _ P R).
  assert (Hu : forall r b, visits ti (size ti) u cs' r b -> b < 2 ^ 32).
  { intros r b V. pose proof (Hv _ _ (leads_visits _ _ _ _ _ _ L a eq_refl cs' r b V)). lia. }
  split.
  - intros J. destruct (sound _ _ _ _ _ Vj Rj J) as [LJ F]. destruct cs' as [|x cs'].
    + apply reads_nil in R. subst q. exists (ByteOffset 0). rewrite app_nil_r in LJ.
      destruct (leads_det ti (size ti) H4 (fun e s s' => size_det ti _ e s s') _ _ _ _ L _ _ LJ) as [-> ->].
      split; [apply offset_of_empty|]. split; [cbn; f_equal; lia|exact F].
    + destruct (leads_split _ _ _ _ _ _ LJ cs (x :: cs') eq_refl) as (u' & a' & o & L1 & L2 & ->); [discriminate|].
      destruct (leads_det ti (size ti) H4 (fun e s s' => size_det ti _ e s s') _ _ _ _ L _ _ L1) as [-> Ea]. injection Ea as ->.
      exists o. split; [|split; [reflexivity|exact F]]. eapply offset_of_complete; try eassumption.
      destruct o; cbn in *; lia.
  - intros (o & Q & -> & F). destruct (sound _ _ _ _ _ Vq R Q) as [LQ _].
    eapply offset_of_complete; try eassumption. eapply leads_app; [exact L|reflexivity|exact LQ].
Qed.
