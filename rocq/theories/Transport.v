(** * Transport: the next request depends only on the answers so far; loading the
    same bytes through different Readables. *)
From Coq Require Import List NArith ZArith Bool Lia Strings.Byte.
From Verif Require Import TypeInfo Spec BaseFacts Safety Local Exact Errors LoadProps.
Import ListNotations.
Open Scope N_scope.

Definition request_eq_dec (a b : request) : {a = b} + {a <> b}.
Proof.
  assert (F : forall x y : error_kind, {x = y} + {x <> y}) by decide equality.
  assert (A : forall x y : answer, {x = y} + {x <> y}) by (decide equality; apply list_eq_dec, byte_eq_dec).
  repeat decide equality.
Defined.
Definition trace_eq_dec : forall a b : list request, {a = b} + {a <> b} := list_eq_dec request_eq_dec.

(** [tr] extends [base]: [base] is what was asked first *)
Definition extendsb (base tr : list request) : bool :=
  if trace_eq_dec (skipn (length tr - length base) tr) base then true else false.
Lemma extendsb_app new base : extendsb base (new ++ base) = true.
Proof.
  unfold extendsb. rewrite app_length. replace (length new + length base - length base)%nat with (length new) by lia.
  rewrite skipn_app, skipn_all, Nat.sub_diag. cbn [app skipn]. destruct (trace_eq_dec base base) as [_|N]; [reflexivity|destruct (N eq_refl)].
Qed.
Lemma extendsb_true base tr : extendsb base tr = true -> exists new, tr = new ++ base.
Proof.
  unfold extendsb. destruct (trace_eq_dec _ _) as [E|]; [|discriminate]. intros _.
  exists (firstn (length tr - length base) tr). rewrite <- E at 2. symmetry. apply firstn_skipn.
Qed.
Lemma app_cons_not {A} (x : A) l l' : l' ++ x :: l <> l.
Proof. intros E. apply (f_equal (@length A)) in E. rewrite app_length in E. cbn in E. lia. Qed.

(** Where two suffixes of a trace start. *)
Lemma suffix_cases {A} (n1 : list A) x1 o1 n2 x2 o2 : n1 ++ x1 :: o1 = n2 ++ x2 :: o2 ->
  (x1 = x2 /\ o1 = o2) \/ (exists l, o1 = l ++ x2 :: o2) \/ (exists l, o2 = l ++ x1 :: o1).
Proof.
  intros E. destruct (app_eq_app _ _ _ _ E) as (l & [[-> E']|[-> E']]).
  - destruct l as [|y l]; [injection E' as -> ->; auto|]. injection E' as -> ->. right. right. eauto.
  - destruct l as [|y l]; [injection E' as -> ->; auto|]. injection E' as -> ->. right. left. eauto.
Qed.

Lemma next_request e1 e2 : usize_bits (cfg e1) = 64 -> usize_bits (cfg e2) = 64 ->
  forall newer off n a older, requests e1 = newer ++ (off, n, a) :: older ->
  (forall l off' n' a' l', older = l ++ (off', n', a') :: l' -> rd e2 l' off' n' = a') ->
  exists newer', requests e2 = newer' ++ (off, n, rd e2 older off n) :: older.
Proof.
  intros H1 H2 newer off n a older E HA.
  set (h := fun tr off' n' =>
    if extendsb ((off, n, a) :: older) tr then rd e1 tr off' n'
    else if trace_eq_dec tr older then (if N.eq_dec off' off then if N.eq_dec n' n then a else rd e2 tr off' n' else rd e2 tr off' n')
    else rd e2 tr off' n').
  set (eh := {| cfg := build64 true; rd := h |}).
  destruct (load_local e1 eh H1 eq_refl) as [_ T1].
  { intros nw o m b l Eq. cbn [rd eh]. unfold h. rewrite E in Eq. destruct (suffix_cases _ _ _ _ _ _ Eq) as [[X Y]|[(l0 & X)|(l0 & X)]].
    - injection X as -> -> ->. subst l. destruct (extendsb ((o, m, b) :: older) older) eqn:Ex.
      { apply extendsb_true in Ex. destruct Ex as (l & Ex). exfalso. symmetry in Ex. exact (app_cons_not _ _ _ Ex). }
      destruct (trace_eq_dec older older); [|congruence]. destruct (N.eq_dec o o); [|congruence]. destruct (N.eq_dec m m); congruence.
    - destruct (extendsb ((off, n, a) :: older) l) eqn:Ex.
      { apply extendsb_true in Ex. destruct Ex as (l1 & Ex). exfalso. rewrite Ex in X.
        apply (f_equal (@length _)) in X. rewrite !app_length in X. cbn in X. rewrite app_length in X. cbn in X. lia. }
      destruct (trace_eq_dec l older) as [->|_]; [exfalso; symmetry in X; exact (app_cons_not _ _ _ X)|]. exact (HA _ _ _ _ _ X).
    - rewrite X, extendsb_app. rewrite <- X. apply (requests_honest e1 nw). rewrite E. exact Eq. }
  destruct (in_dec trace_eq_dec ((off, n, rd e2 older off n) :: older)
    (map (fun k => skipn k (requests e2)) (seq 0 (S (length (requests e2)))))) as [In|Out].
  { apply in_map_iff in In. destruct In as (k & Ek & _). exists (firstn k (requests e2)). rewrite <- Ek. symmetry. apply firstn_skipn. }
  exfalso.
  assert (NO : forall nw b, requests e2 <> nw ++ (off, n, b) :: older).
  { intros nw b Eq. pose proof (requests_honest e2 _ _ _ _ _ Eq) as <-. apply Out. apply in_map_iff. exists (length nw).
    rewrite Eq, skipn_app, skipn_all, Nat.sub_diag. cbn [skipn app]. split; [reflexivity|]. apply in_seq. rewrite app_length. cbn. lia. }
  destruct (load_local e2 eh H2 eq_refl) as [_ T2].
  { intros nw o m b l Eq. cbn [rd eh]. unfold h. destruct (extendsb ((off, n, a) :: older) l) eqn:Ex.
    { exfalso. apply extendsb_true in Ex. destruct Ex as (l1 & ->). apply (NO (nw ++ (o, m, b) :: l1) a). rewrite Eq, <- app_assoc. reflexivity. }
    destruct (trace_eq_dec l older) as [->|_]; [|exact (requests_honest e2 _ _ _ _ _ Eq)].
    destruct (N.eq_dec o off) as [->|_]; [|exact (requests_honest e2 _ _ _ _ _ Eq)].
    destruct (N.eq_dec m n) as [->|_]; [|exact (requests_honest e2 _ _ _ _ _ Eq)]. exfalso. exact (NO _ _ Eq). }
  apply (NO newer a). rewrite <- T2, T1. exact E.
Qed.

(** ** The same bytes *)
Lemma request_range e img newer off n a older : usize_bits (cfg e) = 64 -> serves (rd e) img ->
  requests e = newer ++ (off, n, a) :: older -> 0 < n /\ off + n < 2 ^ 64.
Proof.
  intros H Hs E. assert (Hi : In (off, n, a) (requests e)) by (rewrite E; apply in_or_app; right; left; reflexivity).
  destruct (image_requests e img H Hs _ Hi) as [[Hn Hr]|(en & hf & (_ & A & B & C & D & F) & Hn & Hr)]; cbn in Hn, Hr; [lia|].
  apply u32_at_lt in A, B, C, D, F. split; [exact Hn|].
  destruct Hr as [[_ Hr]|[[_ Hr]|(ts & o & (_ & h & _ & _ & _ & Ho) & _ & Hr)]]; cbn in Hr; try (cbn in Ho); unfold q_off, q_len in Hr; cbn in Hr; lia.
Qed.
Lemma served rd img tr off n : serves rd img -> 0 < n -> off + n < 2 ^ 64 ->
  rd tr off n = (if off + n <=? N.of_nat (length img) then Bytes (slice img off n) else rd tr off n).
Proof.
  intros Hs Hn Hb. destruct (Hs tr off n Hn Hb) as [A _]. destruct (N.leb_spec (off + n) (N.of_nat (length img))) as [L|L]; [|reflexivity].
  destruct (A L) as (bs & -> & (pre & post & E & Ep) & El). f_equal. unfold slice. rewrite E.
  rewrite skipn_app. rewrite skipn_all2 by lia. replace (N.to_nat off - length pre)%nat with 0%nat by lia. cbn [skipn app].
  rewrite firstn_app, firstn_all2 by lia. replace (N.to_nat n - length bs)%nat with 0%nat by lia. cbn [firstn]. symmetry. apply app_nil_r.
Qed.

Lemma same_image e1 e2 img : usize_bits (cfg e1) = 64 -> usize_bits (cfg e2) = 64 -> serves (rd e1) img -> serves (rd e2) img ->
  (type_information_new e2 = type_information_new e1 /\ requests e2 = requests e1) \/
  exists off n k1 k2 asked, N.of_nat (length img) < off + n /\
    requests e1 = (off, n, Fails k1) :: asked /\ type_information_new e1 = Err k1 /\
    requests e2 = (off, n, Fails k2) :: asked /\ type_information_new e2 = Err k2.
Proof.
  intros H1 H2 S1 S2.
  assert (G : forall newer off n a older, requests e1 = newer ++ (off, n, a) :: older ->
     match a with Bytes _ => rd e2 older off n = a | Fails _ => N.of_nat (length img) < off + n /\ exists k, rd e2 older off n = Fails k end).
  { intros newer off n a older E. destruct (request_range e1 img newer off n a older H1 S1 E) as [Hn Hb].
    pose proof (requests_honest e1 _ _ _ _ _ E) as Ha. 
    pose proof (served (rd e1) img older off n S1 Hn Hb) as A1. pose proof (served (rd e2) img older off n S2 Hn Hb) as A2.
    destruct (S1 older off n Hn Hb) as [_ B1]. destruct (S2 older off n Hn Hb) as [_ B2].
    destruct (N.leb_spec (off + n) (N.of_nat (length img))) as [L|L].
    - rewrite A1 in Ha. subst a. exact A2.
    - destruct (B1 L) as (k & Ek). rewrite Ek in Ha. subst a. split; [exact L|]. exact (B2 L). }
  destruct (requests e1) as [|[[off n] [bs|k]] asked] eqn:E.
  - left. rewrite <- E. apply load_local; try assumption. intros newer off n a older Eq. rewrite E in Eq. destruct newer; discriminate.
  - left. rewrite <- E. apply load_local; try assumption. intros newer o m a older Eq. rewrite E in Eq. specialize (G _ _ _ _ _ Eq).
    destruct a as [bs'|k]; [exact G|]. exfalso. destruct (load_failures e1 H1 newer o m k older) as [-> _]; [congruence|]. discriminate.
  - right. destruct (next_request e1 e2 H1 H2 [] off n (Fails k) asked E) as (newer & E2).
    { intros l o m a l' ->. specialize (G ((off, n, Fails k) :: l) o m a l' eq_refl). destruct a as [bs|k']; [exact G|]. exfalso.
      destruct (load_failures e1 H1 ((off, n, Fails k) :: l) o m k' l' E) as [X _]. discriminate. }
    destruct (G [] off n (Fails k) asked eq_refl) as (L & k2 & Ek2). rewrite Ek2 in E2.
    destruct (load_failures e2 H2 _ _ _ _ _ E2) as [-> R2]. destruct (load_failures e1 H1 [] _ _ _ _ E) as [_ R1].
    exists off, n, k, k2, asked. auto.
Qed.
