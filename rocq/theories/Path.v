(** * Path: the path parser. *)
From Coq Require Import Lia ZifyBool ZifyNat ZifyN.
From Verif Require Import TypeInfo BaseFacts Spec PathSpec.
From Coq Require Import Strings.Byte.

(** ** The same parser on the rest of the path *)
Fixpoint take_while (p : byte -> bool) (l : str) : str :=
  match l with b :: l' => if p b then b :: take_while p l' else [] | [] => [] end.
Fixpoint drop_while (p : byte -> bool) (l : str) : str :=
  match l with b :: l' => if p b then drop_while p l' else l | [] => [] end.
Lemma take_drop p l : take_while p l ++ drop_while p l = l.
Proof. induction l as [|b l IH]; [reflexivity|]. cbn. destruct (p b); [cbn; f_equal; exact IH|reflexivity]. Qed.
Lemma take_all p l : forallb p (take_while p l) = true.
Proof. induction l as [|b l IH]; [reflexivity|]. cbn. destruct (p b) eqn:E; [cbn; rewrite E; exact IH|reflexivity]. Qed.
Lemma take_while_app p w l : forallb p w = true -> match l with b :: _ => p b = false | [] => True end ->
  take_while p (w ++ l) = w /\ drop_while p (w ++ l) = l.
Proof.
  induction w as [|b w IH]; intros Hw Hl.
  - destruct l as [|b l]; [auto|]. cbn. rewrite Hl. auto.
  - cbn in Hw. apply andb_true_iff in Hw. destruct Hw as [Hb Hw]. cbn. rewrite Hb.
    destruct (IH Hw Hl) as [-> ->]. auto.
Qed.
Definition nameb (b : byte) : bool := is_alphanumeric b || is_underscore b.

Definition aname (l : str) : pitem * (pstate * str) :=
  let w := take_while nameb l in
  match drop_while nameb l with
  | [] => (Ok (Some (Name w)), (PDone, []))
  | b :: r =>
      if is_lbracket b then (Ok (Some (Name w)), (PInsideIndex, r))
      else if is_dot b then (Ok (Some (Name w)), (PExpectingName, r))
      else (Err InvalidTypePath, (PError, []))
  end.
Definition aindex (c : build) (l : str) : pitem * (pstate * str) :=
  let w := take_while is_numeric l in
  match drop_while is_numeric l with
  | b :: r =>
      if is_rbracket b then
        match parse_usize c w with
        | Some i => (Ok (Some (Index i)), (PAfterIndex, r))
        | None => (Err InvalidTypePath, (PError, []))
        end
      else (Err InvalidTypePath, (PError, []))
  | [] => (Err InvalidTypePath, (PError, []))
  end.
Definition astart (b : byte) (l : str) : pitem * (pstate * str) :=
  if is_alphabetic b || is_underscore b then aname l else (Err InvalidTypePath, (PError, [])).
Definition anext (c : build) (s : pstate * str) : pitem * (pstate * str) :=
  match fst s, snd s with
  | PDone, _ | PError, _ => (Ok None, s)
  | _, [] => (Ok None, (PDone, []))
  | PStart, b :: l => if is_lbracket b then aindex c l else astart b (b :: l)
  | PInsideName, l => aname l
  | PInsideIndex, l => aindex c l
  | PAfterIndex, b :: l =>
      if is_lbracket b then aindex c l
      else if is_dot b then
        match l with [] => (Ok None, (PDone, [])) | b' :: _ => astart b' l end
      else (Err InvalidTypePath, (PError, []))
  | PExpectingName, b :: l => astart b (b :: l)
  end.

(** ** Character boundaries *)
Lemma valid_head s : valid_utf8 s -> match s with b :: _ => bval b < 0x80 \/ 0xC0 <= bval b | [] => True end.
Proof.
  intros (chars & HF & ->). destruct HF as [|ch chars Hc _]; [exact I|].
  destruct Hc as [a Ha|a b Ha Hb|a b c' Ha Hb|a b c' d Ha Hb Hd]; cbn; unfold in_bytes, bval in *; lia.
Qed.
Lemma valid_after_ascii s : valid_utf8 s -> forall i b, nth_error s i = Some b -> bval b < 0x80 -> is_char_boundary s (S i) = true.
Proof.
  intros (chars & HF & ->). induction HF as [|ch chars Hc HF IH]; intros i b Hi Hb; [destruct i; discriminate|].
  cbn [concat] in *. destruct (Nat.ltb_spec i (length ch)) as [Hlt|Hge].
  - rewrite nth_error_app1 in Hi by exact Hlt.
    assert (E : ch = [b] /\ i = 0%nat).
    { destruct Hc as [a Ha|a b' Ha Hb'|a b' c' Ha Hb'|a b' c' d Ha Hb' Hd]; unfold in_bytes, bval in *;
      destruct i as [|[|[|[|i]]]]; cbn in Hi, Hlt; try lia; try injection Hi as ->; try lia. auto. }
    destruct E as [-> ->]. unfold is_char_boundary. cbn.
    pose proof (valid_head (concat chars) ltac:(exists chars; auto)) as Hh.
    destruct (concat chars) as [|b' l]; cbn; [reflexivity|]. lia.
  - rewrite nth_error_app2 in Hi by exact Hge. specialize (IH _ _ Hi Hb). unfold is_char_boundary in *.
    rewrite nth_error_app2 by lia. replace (S i - length ch)%nat with (S (i - length ch)) by lia.
    destruct (nth_error (concat chars) (S (i - length ch))); [exact IH|]. rewrite app_length. lia.
Qed.
Lemma boundary_start s : valid_utf8 s -> is_char_boundary s 0 = true.
Proof. intros H. pose proof (valid_head s H) as Hh. unfold is_char_boundary. destruct s; cbn; [reflexivity|lia]. Qed.
Lemma boundary_ascii s i b : nth_error s i = Some b -> bval b < 0x80 -> is_char_boundary s i = true.
Proof. intros H Hb. unfold is_char_boundary. rewrite H. lia. Qed.
Lemma boundary_end s : is_char_boundary s (length s) = true.
Proof. unfold is_char_boundary. rewrite (proj2 (nth_error_None s (length s))) by lia. apply Nat.eqb_refl. Qed.

(** ** The scans *)
Lemma name_scan_spec l : forall pos, name_scan l pos =
  ((pos + length (take_while nameb l))%nat, match drop_while nameb l with [] => true | b :: _ => is_lbracket b || is_dot b end).
Proof.
  induction l as [|b l IH]; intros pos; cbn; [f_equal; lia|].
  unfold nameb at 1 3. destruct (is_alphanumeric b || is_underscore b) eqn:E.
  - rewrite IH. cbn [length]. f_equal. lia.
  - cbn. rewrite Nat.add_0_r. destruct (is_lbracket b || is_dot b); reflexivity.
Qed.
Lemma index_scan_spec l : forall pos, index_scan l pos =
  ((pos + length (take_while is_numeric l))%nat, match drop_while is_numeric l with [] => true | b :: _ => is_rbracket b end).
Proof.
  induction l as [|b l IH]; intros pos; cbn; [f_equal; lia|].
  destruct (is_numeric b) eqn:E.
  - rewrite IH. cbn [length]. f_equal. lia.
  - cbn. rewrite Nat.add_0_r. destruct (is_rbracket b); reflexivity.
Qed.

Lemma skipn_nth {A} n (l : list A) m : nth_error (skipn n l) m = nth_error l (n + m).
Proof. revert l. induction n as [|n IH]; intros l; [reflexivity|]. destruct l; [destruct m; reflexivity|apply IH]. Qed.
Lemma skipn_add {A} n m (l : list A) : skipn (m + n) l = skipn n (skipn m l).
Proof. revert l. induction m as [|m IH]; intros l; [reflexivity|]. destruct l; cbn; [rewrite skipn_nil; reflexivity|apply IH]. Qed.
Lemma is_char_lt c b : is_char c b = true -> b = c.
Proof. unfold is_char. intros H. apply N.eqb_eq in H. apply bval_inj. exact H. Qed.

Section Abs.
  Context (c : build) (p : str).
  Hypothesis Hu : valid_utf8 p.
  Definition stateof (it : piter) : pstate * str :=
    match pst it with PDone => (PDone, []) | PError => (PError, []) | s => (s, skipn (position it) p) end.
  Definition okit (it : piter) : Prop :=
    match pst it with
    | PDone | PError => True
    | PInsideName => False
    | _ => (position it <= length p)%nat /\ is_char_boundary p (position it) = true
    end.
  Definition matches (r : pitem * piter) (a : pitem * (pstate * str)) : Prop :=
    fst r = fst a /\ stateof (snd r) = snd a /\ okit (snd r).

  (** position of a byte in the rest *)
  Lemma rest_split start w b r : (start <= length p)%nat -> skipn start p = w ++ b :: r ->
    nth_error p (start + length w) = Some b /\ skipn (S (start + length w)) p = r /\ (S (start + length w) <= length p)%nat.
  Proof.
    intros Hs E. split; [|split].
    - rewrite <- skipn_nth, E, nth_error_app2, Nat.sub_diag by lia. reflexivity.
    - replace (S (start + length w)) with (start + S (length w))%nat by lia.
      rewrite skipn_add, E. replace (S (length w)) with (length (w ++ [b])) by (rewrite app_length; cbn; lia).
      change (b :: r) with ([b] ++ r). rewrite app_assoc, skipn_app, skipn_all, Nat.sub_diag. reflexivity.
    - apply (f_equal (@length _)) in E. rewrite skipn_length, app_length in E. cbn in E. lia.
  Qed.
  Lemma rest_end start w : (start <= length p)%nat -> skipn start p = w ->
    nth_error p (start + length w) = None /\ (start + length w)%nat = length p.
  Proof.
    intros Hs E. assert (L : (start + length w)%nat = length p) by (rewrite <- E, skipn_length; lia).
    split; [apply nth_error_None; lia|exact L].
  Qed.
  Lemma slice_ok start w r : (start <= length p)%nat -> is_char_boundary p start = true ->
    skipn start p = w ++ r -> is_char_boundary p (start + length w) = true ->
    @str_slice error_kind p start (start + length w) = Ok w.
  Proof.
    intros Hs Hb E He. unfold str_slice. rewrite Hb, He.
    replace (Nat.leb start (start + length w)) with true by (symmetry; apply Nat.leb_le; lia). cbn [andb].
    rewrite E. replace (start + length w - start)%nat with (length w) by lia.
    rewrite firstn_app, firstn_all, Nat.sub_diag, firstn_O, app_nil_r. reflexivity.
  Qed.

  Lemma parse_name_abs it : (position it <= length p)%nat -> is_char_boundary p (position it) = true ->
    matches (parse_name p it) (aname (skipn (position it) p)).
  Proof.
    intros Hs Hb. unfold parse_name, aname. rewrite name_scan_spec.
    pose proof (take_drop nameb (skipn (position it) p)) as E. symmetry in E.
    set (w := take_while nameb (skipn (position it) p)) in *.
    destruct (drop_while nameb (skipn (position it) p)) as [|b r].
    - rewrite app_nil_r in E. destruct (rest_end _ _ Hs E) as [En El].
      rewrite (slice_ok (position it) w []); [|assumption|assumption|rewrite app_nil_r; exact E|rewrite El; apply boundary_end].
      rewrite En. repeat split.
    - destruct (rest_split _ _ _ _ Hs E) as (En & Er & Hl).
      destruct (is_lbracket b) eqn:E1.
      { apply is_char_lt in E1 as Eb. assert (Hasc : bval b < 0x80) by (rewrite Eb; reflexivity).
        cbn [orb]. rewrite (slice_ok (position it) w (b :: r)); [|assumption|assumption|exact E|eapply boundary_ascii; eassumption].
        rewrite En, E1. split; [reflexivity|]. split; [unfold stateof; cbn [snd fst pst position]; rewrite Er; reflexivity|].
        split; [exact Hl|]. eapply valid_after_ascii; eassumption. }
      destruct (is_dot b) eqn:E2.
      { apply is_char_lt in E2 as Eb. assert (Hasc : bval b < 0x80) by (rewrite Eb; reflexivity).
        cbn [orb]. rewrite (slice_ok (position it) w (b :: r)); [|assumption|assumption|exact E|eapply boundary_ascii; eassumption].
        rewrite En, E1, E2. split; [reflexivity|]. split; [unfold stateof; cbn [snd fst pst position]; rewrite Er; reflexivity|].
        split; [exact Hl|]. eapply valid_after_ascii; eassumption. }
      cbn [orb]. repeat split.
  Qed.
  Lemma parse_index_abs it : (position it <= length p)%nat -> is_char_boundary p (position it) = true ->
    matches (parse_index c p it) (aindex c (skipn (position it) p)).
  Proof.
    intros Hs Hb. unfold parse_index, aindex. rewrite index_scan_spec.
    pose proof (take_drop is_numeric (skipn (position it) p)) as E. symmetry in E.
    set (w := take_while is_numeric (skipn (position it) p)) in *.
    destruct (drop_while is_numeric (skipn (position it) p)) as [|b r].
    - rewrite app_nil_r in E. destruct (rest_end _ _ Hs E) as [En El]. rewrite En. cbn [negb]. repeat split.
    - destruct (rest_split _ _ _ _ Hs E) as (En & Er & Hl).
      destruct (is_rbracket b) eqn:E1.
      2:{ repeat split. }
      apply is_char_lt in E1 as Eb. assert (Hasc : bval b < 0x80) by (rewrite Eb; reflexivity).
      rewrite En, E1. cbn [negb].
      rewrite (slice_ok (position it) w (b :: r)); [|assumption|assumption|exact E|eapply boundary_ascii; eassumption].
      destruct (Nat.eqb_spec (length w) 0) as [Hz|Hz].
      + unfold parse_usize. rewrite Hz. cbn. repeat split.
      + destruct (parse_usize c w) as [i|]; [|repeat split].
        split; [reflexivity|]. split; [unfold stateof; cbn [snd fst pst position]; rewrite Er; reflexivity|].
        split; [exact Hl|]. eapply valid_after_ascii; eassumption.
  Qed.

  Lemma next_abs it : okit it -> matches (next c p it) (anext c (stateof it)).
  Proof.
    unfold next. destruct it as [pos st]. unfold okit, stateof. cbn [pst position].
    assert (D : forall it, snd (anext c (stateof it)) = snd (anext c (stateof it))) by reflexivity. clear D.
    assert (HErr : forall pos, matches (Err InvalidTypePath, {| position := pos; pst := PError |}) (Err InvalidTypePath, (PError, []))) by (intros; repeat split).
    assert (Hskip : forall n, match nth_error p n with Some b => skipn n p = b :: skipn (S n) p /\ (S n <= length p)%nat | None => skipn n p = [] end).
    { intros n. destruct (nth_error p n) as [b|] eqn:E.
      - assert (n < length p)%nat by (apply nth_error_Some; congruence). split; [|lia].
        assert (F : forall (l : str) k, nth_error l k = Some b -> skipn k l = b :: skipn (S k) l).
        { clear. intros l k. revert l. induction k as [|k IH]; intros [|x l] H; try discriminate; cbn in *; [congruence|apply IH; exact H]. }
        apply F. exact E.
      - apply nth_error_None in E. apply skipn_all2. exact E. }
    assert (Start : forall n b, nth_error p n = Some b -> is_char_boundary p n = true ->
      matches (if is_alphabetic b || is_underscore b then parse_name p {| position := n; pst := PInsideName |}
               else (Err InvalidTypePath, {| position := n; pst := PError |})) (astart b (skipn n p))).
    { intros n b En Hbn. unfold astart. destruct (is_alphabetic b || is_underscore b); [|apply HErr].
      apply (parse_name_abs {| position := n; pst := PInsideName |}); cbn; [|exact Hbn].
      assert (n < length p)%nat by (apply nth_error_Some; congruence). lia. }
    assert (Idx : forall n b, nth_error p n = Some b -> is_lbracket b = true ->
      matches (parse_index c p {| position := S n; pst := PInsideIndex |}) (aindex c (skipn (S n) p))).
    { intros n b En Eb. apply is_char_lt in Eb as Eb'. apply (parse_index_abs {| position := S n; pst := PInsideIndex |}); cbn [position].
      - assert (n < length p)%nat by (apply nth_error_Some; congruence). lia.
      - eapply valid_after_ascii; [exact Hu|exact En|]. rewrite Eb'. reflexivity. }
    destruct st; try (intros []; fail); cbn [next_fuel pst position].
    - intros [Hp Hb]. unfold anext. cbn [fst snd]. specialize (Hskip pos). destruct (nth_error p pos) as [b|] eqn:En.
      + destruct Hskip as [Es Hl]. rewrite Es. destruct (is_lbracket b) eqn:E1; [exact (Idx pos b En E1)|].
        pose proof (Start pos b En Hb) as HS. rewrite Es in HS. exact HS.
      + rewrite Hskip. repeat split.
    - intros [Hp Hb]. unfold anext. cbn [fst snd]. specialize (Hskip pos). destruct (nth_error p pos) as [b|] eqn:En.
      + destruct Hskip as [Es Hl]. rewrite Es. rewrite <- Es. exact (parse_index_abs {| position := pos; pst := PInsideIndex |} Hp Hb).
      + rewrite Hskip. repeat split.
    - intros [Hp Hb]. unfold anext. cbn [fst snd]. pose proof (Hskip pos) as H1. destruct (nth_error p pos) as [b|] eqn:En.
      + destruct H1 as [Es Hl]. rewrite Es. destruct (is_lbracket b) eqn:E1; [exact (Idx pos b En E1)|].
        destruct (is_dot b) eqn:E2; [|apply HErr].
        apply is_char_lt in E2 as Eb'.
        assert (Hb2 : is_char_boundary p (S pos) = true) by (eapply valid_after_ascii; [exact Hu|exact En|rewrite Eb'; reflexivity]).
        specialize (Hskip (S pos)). destruct (nth_error p (S pos)) as [b2|] eqn:En2.
        * destruct Hskip as [Es2 _]. pose proof (Start (S pos) b2 En2 Hb2) as HS. rewrite Es2 in *. exact HS.
        * rewrite Hskip. repeat split.
      + rewrite H1. repeat split.
    - intros [Hp Hb]. unfold anext. cbn [fst snd]. specialize (Hskip pos). destruct (nth_error p pos) as [b|] eqn:En.
      + destruct Hskip as [Es Hl]. pose proof (Start pos b En Hb) as HS. rewrite Es in *. exact HS.
      + rewrite Hskip. repeat split.
    - intros _. repeat split.
    - intros _. repeat split.
  Qed.
End Abs.

(** ** Character classes *)
Lemma byte_is b x : b = x <-> bval b = bval x.
Proof. split; [congruence|apply bval_inj]. Qed.
Lemma is_alphabetic_iff b : is_alphabetic b = true <-> letter b.
Proof.
  unfold is_alphabetic, letter, between, in_range. rewrite !byte_is.
  change (bval xaa) with 0xAA. change (bval xb5) with 0xB5. change (bval xba) with 0xBA. unfold bval. lia.
Qed.
Lemma is_numeric_iff b : is_numeric b = true <-> numeric b.
Proof.
  unfold is_numeric, numeric, ascii_digit, between, in_range. rewrite !byte_is.
  change (bval xb2) with 0xB2. change (bval xb3) with 0xB3. change (bval xb9) with 0xB9. unfold bval. lia.
Qed.
Lemma is_underscore_iff b : is_underscore b = true <-> b = underscore.
Proof. unfold is_underscore, is_char. rewrite N.eqb_eq, byte_is. reflexivity. Qed.
Lemma is_digit_iff b : is_digit b = true <-> ascii_digit b.
Proof. unfold is_digit, ascii_digit, between, in_range, bval. lia. Qed.
Lemma startb_iff b : is_alphabetic b || is_underscore b = true <-> name_start b.
Proof. rewrite orb_true_iff, is_alphabetic_iff, is_underscore_iff. reflexivity. Qed.
Lemma nameb_iff b : nameb b = true <-> name_byte b.
Proof.
  unfold nameb, is_alphanumeric, name_byte. rewrite !orb_true_iff, is_alphabetic_iff, is_underscore_iff, is_numeric_iff. tauto.
Qed.
Lemma forallb_Forall {A} (f : A -> bool) (P : A -> Prop) l : (forall a, f a = true <-> P a) -> forallb f l = true <-> Forall P l.
Proof.
  intros H. induction l as [|a l IH]; cbn; [split; [constructor|reflexivity]|].
  rewrite andb_true_iff, H, IH. split; [intros []; constructor; auto|inversion 1; auto].
Qed.
Lemma name_text_iff w : name_text w <->
  match w with b :: _ => is_alphabetic b || is_underscore b = true | [] => False end /\ forallb nameb w = true.
Proof.
  destruct w as [|b w]; cbn [name_text forallb]; [tauto|].
  rewrite startb_iff, andb_true_iff, (forallb_Forall nameb name_byte w nameb_iff), nameb_iff.
  unfold name_start, name_byte. tauto.
Qed.
Lemma digits_value_eq w : digits_value w = decimal_value w.
Proof. reflexivity. Qed.
Lemma parse_usize_iff c w i : parse_usize c w = Some i <->
  w <> [] /\ Forall ascii_digit w /\ decimal_value w = i /\ i <= usize_max c.
Proof.
  unfold parse_usize, usize_max. rewrite digits_value_eq.
  assert (Hpos : 0 < 2 ^ usize_bits c) by (apply N.neq_0_lt_0, N.pow_nonzero; lia).
  destruct (Nat.eqb_spec (length w) 0) as [Hz|Hz]; cbn [negb andb].
  - destruct w; [|discriminate]. split; [discriminate|intros (X & _); congruence].
  - destruct (forallb is_digit w) eqn:E.
    + apply (forallb_Forall is_digit ascii_digit w is_digit_iff) in E. rewrite checked_Some.
      split; [intros [-> H]; repeat split; auto; [intros ->; apply Hz; reflexivity|lia]|intros (_ & _ & -> & H); split; [reflexivity|lia]].
    + split; [discriminate|]. intros (_ & H & _). apply (forallb_Forall is_digit ascii_digit w is_digit_iff) in H. congruence.
Qed.
Lemma nameb_bracket : nameb x5b = false /\ nameb x2e = false /\ is_numeric x5d = false.
Proof. repeat split; reflexivity. Qed.
Lemma starts_not_bracket b : is_alphabetic b || is_underscore b = true -> is_lbracket b = false.
Proof.
  intros H. apply startb_iff in H. destruct (is_lbracket b) eqn:E; [|reflexivity]. apply is_char_lt in E. subst b.
  apply startb_iff in H. discriminate H.
Qed.

(** ** What the iterator yields *)
Inductive ascripts (c : build) : pstate * str -> list component -> option error_kind -> Prop :=
| as_end s : fst (anext c s) = Ok None -> ascripts c s [] None
| as_bad s k : fst (anext c s) = Err k -> ascripts c s [] (Some k)
| as_more s x s' cs e : anext c s = (Ok (Some x), s') -> ascripts c s' cs e -> ascripts c s (x :: cs) e.

Definition terminal (s : pstate * str) : Prop := fst s = PDone \/ fst s = PError.
Lemma aname_cases l : match fst (aname l) with
  | Ok (Some _) => (length (snd (snd (aname l))) <= length l)%nat /\ fst (snd (aname l)) <> PInsideName
  | Err k => k = InvalidTypePath /\ terminal (snd (aname l)) | _ => False end.
Proof.
  unfold aname. pose proof (take_drop nameb l) as E. apply (f_equal (@length _)) in E. rewrite app_length in E.
  destruct (drop_while nameb l) as [|b r]; cbn in E; [split; [cbn; lia|discriminate]|].
  destruct (is_lbracket b); [split; [cbn; lia|discriminate]|]. destruct (is_dot b); [split; [cbn; lia|discriminate]|]. split; [reflexivity|right; reflexivity].
Qed.
Lemma aindex_cases c l : match fst (aindex c l) with
  | Ok (Some _) => (length (snd (snd (aindex c l))) < length l)%nat /\ fst (snd (aindex c l)) <> PInsideName
  | Err k => k = InvalidTypePath /\ terminal (snd (aindex c l)) | _ => False end.
Proof.
  unfold aindex. pose proof (take_drop is_numeric l) as E. apply (f_equal (@length _)) in E. rewrite app_length in E.
  destruct (drop_while is_numeric l) as [|b r]; cbn in E; [split; [reflexivity|right; reflexivity]|].
  destruct (is_rbracket b); [|split; [reflexivity|right; reflexivity]].
  destruct (parse_usize c _); [split; [cbn; lia|discriminate]|split; [reflexivity|right; reflexivity]].
Qed.
Lemma astart_cases b l : match fst (astart b (b :: l)) with
  | Ok (Some _) => (length (snd (snd (astart b (b :: l)))) <= length l)%nat /\ fst (snd (astart b (b :: l))) <> PInsideName
  | Err k => k = InvalidTypePath /\ terminal (snd (astart b (b :: l))) | _ => False end.
Proof.
  unfold astart. destruct (is_alphabetic b || is_underscore b) eqn:E; [|split; [reflexivity|right; reflexivity]].
  assert (Hb : nameb b = true).
  { unfold nameb, is_alphanumeric. apply orb_true_iff in E. destruct E as [-> | ->]; [reflexivity|apply orb_true_r]. }
  pose proof (aname_cases l) as H. unfold aname in *. cbn [take_while drop_while]. rewrite Hb.
  destruct (drop_while nameb l) as [|b' r].
  - cbn in *. split; [lia|discriminate].
  - destruct (is_lbracket b'); [exact H|]. destruct (is_dot b'); exact H.
Qed.
Definition fine (s : pstate * str) : Prop := fst s <> PInsideName.
Lemma anext_cases c s : fine s -> match fst (anext c s) with
  | Ok None => terminal (snd (anext c s))
  | Ok (Some _) => (length (snd (snd (anext c s))) < length (snd s))%nat /\ fine (snd (anext c s))
  | Err k => k = InvalidTypePath /\ terminal (snd (anext c s))
  | _ => False end.
Proof.
  destruct s as [st l]. unfold fine. cbn [fst snd]. intros Hf.
  assert (I : forall l0, (length l0 <= length l)%nat -> match fst (aindex c l0) with
    | Ok None => terminal (snd (aindex c l0))
    | Ok (Some _) => (length (snd (snd (aindex c l0))) < length l)%nat /\ fst (snd (aindex c l0)) <> PInsideName
    | Err k => k = InvalidTypePath /\ terminal (snd (aindex c l0)) | _ => False end).
  { intros l0 Hl. pose proof (aindex_cases c l0) as H. destruct (fst (aindex c l0)) as [[x|]|k|p|]; try exact H; [|destruct H]. destruct H. split; [lia|assumption]. }
  assert (A : forall b l0, (length l0 < length l)%nat -> match fst (astart b (b :: l0)) with
    | Ok None => terminal (snd (astart b (b :: l0)))
    | Ok (Some _) => (length (snd (snd (astart b (b :: l0)))) < length l)%nat /\ fst (snd (astart b (b :: l0))) <> PInsideName
    | Err k => k = InvalidTypePath /\ terminal (snd (astart b (b :: l0))) | _ => False end).
  { intros b l0 Hl. pose proof (astart_cases b l0) as H. destruct (fst (astart b (b :: l0))) as [[x|]|k|p|]; try exact H; [|destruct H]. destruct H. split; [lia|assumption]. }
  destruct st; unfold anext; cbn [fst snd]; try congruence.
  - destruct l as [|b l]; [left; reflexivity|]. destruct (is_lbracket b); [apply I; cbn; lia|apply A; cbn; lia].
  - destruct l as [|b l]; [left; reflexivity|]. apply I. lia.
  - destruct l as [|b l]; [left; reflexivity|]. destruct (is_lbracket b); [apply I; cbn; lia|].
    destruct (is_dot b); [|split; [reflexivity|right; reflexivity]]. destruct l as [|b' l]; [left; reflexivity|]. apply A; cbn; lia.
  - destruct l as [|b l]; [left; reflexivity|]. apply A. cbn; lia.
  - right. reflexivity.
  - left. reflexivity.
Qed.
Lemma anext_terminal c s : terminal s -> anext c s = (Ok None, s).
Proof. destruct s as [st l]. intros [H|H]; cbn in H; subst st; reflexivity. Qed.
Lemma script_total c s : fine s -> exists cs e, ascripts c s cs e /\ (length cs <= length (snd s))%nat /\ (e = None \/ e = Some InvalidTypePath).
Proof.
  remember (length (snd s)) as n eqn:En. revert s En. induction n as [n IH] using lt_wf_ind. intros s En Hf.
  pose proof (anext_cases c s Hf) as H. destruct (anext c s) as [x s'] eqn:E. cbn [fst snd] in H.
  destruct x as [[x|]|k|p|].
  - destruct H as [Hlt Hf']. destruct (IH (length (snd s')) ltac:(lia) s' eq_refl Hf') as (cs & e & Hs & Hl & He).
    exists (x :: cs), e. split; [eapply as_more; eassumption|]. split; [cbn; lia|exact He].
  - exists [], None. split; [apply as_end; rewrite E; reflexivity|]. split; [cbn; lia|auto].
  - destruct H as [-> _]. exists [], (Some InvalidTypePath). split; [apply as_bad; rewrite E; reflexivity|]. split; [cbn; lia|auto].
  - destruct H.
  - destruct H.
Qed.
Lemma script_det c s cs1 e1 : ascripts c s cs1 e1 -> forall cs2 e2, ascripts c s cs2 e2 -> cs1 = cs2 /\ e1 = e2.
Proof.
  induction 1 as [s H|s k H|s x s' cs e H _ IH]; intros cs2 e2 H2; inversion H2 as [? G|? ? G|? ? ? ? ? G G']; subst; rewrite ?H, ?G in *; cbn in *; try congruence.
  - auto.
  - split; congruence.
  - injection G as -> ->. destruct (IH _ _ G') as [-> ->]. auto.
Qed.

(** the real iterator *)
Opaque next anext.
Definition last_item (e : option error_kind) : pitem := match e with None => Ok None | Some k => Err k end.
Lemma calls_script c p : valid_utf8 p -> forall s cs e, ascripts c s cs e -> fine s -> forall it, okit p it -> stateof p it = s ->
  forall n, calls (length cs + 1 + n) c p it = map (fun x => Ok (Some x)) cs ++ [last_item e] ++ repeat (Ok None) n.
Proof.
  intros Hu.
  assert (T : forall n it, okit p it -> terminal (stateof p it) -> calls n c p it = repeat (Ok None) n).
  { induction n as [|n IH]; intros it Hok Ht; [reflexivity|]. cbn [calls repeat].
    destruct (next_abs c p Hu it Hok) as (E1 & E2 & E3). rewrite (anext_terminal c _ Ht) in E1, E2. cbn [fst snd] in E1, E2.
    f_equal; [exact E1|]. apply IH; [exact E3|]. rewrite E2. exact Ht. }
  induction 1 as [s H|s k H|s x s' cs e H Hs IH]; intros Hf it Hok Es n; pose proof (anext_cases c s Hf) as HC.
  - cbn [length Nat.add calls map app]. destruct (next_abs c p Hu it Hok) as (E1 & E2 & E3). rewrite Es in E1, E2.
    rewrite H in HC. f_equal; [rewrite E1; exact H|]. apply T; [exact E3|rewrite E2; exact HC].
  - cbn [length Nat.add calls map app]. destruct (next_abs c p Hu it Hok) as (E1 & E2 & E3). rewrite Es in E1, E2.
    rewrite H in HC. f_equal; [rewrite E1; exact H|]. apply T; [exact E3|rewrite E2; apply HC].
  - cbn [length Nat.add calls map app]. destruct (next_abs c p Hu it Hok) as (E1 & E2 & E3). rewrite Es in E1, E2.
    rewrite H in *. cbn [fst snd] in *. f_equal; [exact E1|]. apply IH; [apply HC|exact E3|exact E2].
Qed.
Lemma okit_new p : valid_utf8 p -> okit p piter_new.
Proof. intros H. split; [cbn; lia|apply boundary_start; exact H]. Qed.
Lemma yields_script c p cs e : valid_utf8 p -> ascripts c (PStart, p) cs e ->
  forall n, yields (length cs + 1 + n) c p = map (fun x => Ok (Some x)) cs ++ [last_item e] ++ repeat (Ok None) n.
Proof.
  intros Hu Hs n. apply (calls_script c p Hu _ _ _ Hs); [discriminate|apply okit_new; exact Hu|reflexivity].
Qed.
Lemma yields_total c p : valid_utf8 p -> exists cs last, (length cs <= length p)%nat /\ (last = Ok None \/ last = Err InvalidTypePath) /\
  forall n, yields (length cs + 1 + n) c p = map (fun x => Ok (Some x)) cs ++ [last] ++ repeat (Ok None) n.
Proof.
  intros Hu. destruct (script_total c (PStart, p) ltac:(discriminate)) as (cs & e & Hs & Hl & He).
  exists cs, (last_item e). split; [exact Hl|]. split; [destruct He as [-> | ->]; auto|]. apply yields_script; assumption.
Qed.
Lemma accepted_script c p cs : valid_utf8 p -> (accepted c p cs <-> ascripts c (PStart, p) cs None).
Proof.
  intros Hu. unfold accepted. split.
  - intros H. destruct (script_total c (PStart, p) ltac:(discriminate)) as (cs' & e & Hs & Hl & He).
    pose proof (yields_script c p cs' e Hu Hs) as HY.
    assert (G : cs = cs' /\ e = None).
    { destruct (Nat.le_gt_cases (length cs) (length cs')) as [Hle|Hgt].
      - specialize (HY 0%nat). cbn [repeat] in HY. rewrite app_nil_r in HY.
        assert (P : forall n it l, calls n c p it = l -> forall m, calls m c p it = firstn m l ++ match Nat.leb m n with true => [] | false => skipn n (calls m c p it) end).
        { clear. induction n as [|n IH]; intros it l <- m.
          - cbn. rewrite firstn_nil. destruct m; reflexivity.
          - destruct m as [|m]; [reflexivity|]. cbn [calls firstn Nat.leb skipn]. cbn [app]. f_equal. apply IH. reflexivity. }
        unfold yields in *. specialize (P _ _ _ HY (S (length cs))).
        replace (Nat.leb (S (length cs)) (length cs' + 1 + 0)) with true in P by (symmetry; apply Nat.leb_le; lia).
        rewrite app_nil_r in P. rewrite H in P. clear - P Hle.
        revert cs' Hle P. induction cs as [|x cs IH]; intros [|x' cs'] Hle P; cbn in *; try lia.
        + injection P as P. split; [reflexivity|]. destruct e; [discriminate|reflexivity].
        + discriminate.
        + injection P as -> P. destruct (IH cs' ltac:(lia) P) as [-> ->]. auto.
      - specialize (HY (length cs - length cs')%nat). replace (length cs' + 1 + (length cs - length cs'))%nat with (S (length cs)) in HY by lia.
        rewrite H in HY. exfalso. clear - HY Hgt. revert cs' Hgt HY. induction cs as [|x cs IH]; intros [|x' cs'] Hgt HY; cbn in *; try lia.
        + injection HY as HY _. destruct e; discriminate.
        + injection HY as _ HY. apply (IH cs'); [lia|]. replace (length cs - length cs')%nat with (length cs - length cs')%nat by lia. exact HY. }
    destruct G as [-> ->]. exact Hs.
  - intros Hs. pose proof (yields_script c p cs None Hu Hs 0) as H. rewrite app_nil_r in H.
    replace (S (length cs)) with (length cs + 1 + 0)%nat by lia. exact H.
Qed.
