(** * MessagePath: what the messages of the path iterator say (C58). *)
From Coq Require Import List NArith ZArith Bool Lia ZifyBool ZifyNat ZifyN Strings.Byte.
From Verif Require Import TypeInfo Spec BaseFacts PathSpec Path PathGrammar PathPrint QuerySpec OutcomeSpec Message MessageSpec MessageFacts.
Import ListNotations.
Open Scope N_scope.

(** ** Where a beginning of a path stands, byte by byte *)
Inductive dstate := DStart | DName | DDot | DOpen | DDigits | DClosed.
Definition delta (d : dstate) (b : byte) : option dstate :=
  match d with
  | DStart => if is_lbracket b then Some DOpen else if is_alphabetic b || is_underscore b then Some DName else None
  | DName => if nameb b then Some DName else if is_lbracket b then Some DOpen else if is_dot b then Some DDot else None
  | DDot => if is_alphabetic b || is_underscore b then Some DName else None
  | DOpen => if is_digit b then Some DDigits else None
  | DDigits => if is_digit b then Some DDigits else if is_rbracket b then Some DClosed else None
  | DClosed => if is_lbracket b then Some DOpen else if is_dot b then Some DDot else None
  end.
Fixpoint run (d : dstate) (l : str) : option dstate :=
  match l with [] => Some d | b :: l' => match delta d b with Some d' => run d' l' | None => None end end.
Lemma run_app l l' : forall d, run d (l ++ l') = match run d l with Some d' => run d' l' | None => None end.
Proof. induction l as [|b l IH]; intros d; [reflexivity|]. cbn [app run]. destruct (delta d b); [apply IH|reflexivity]. Qed.

(** What may follow *)
Definition goes (d : dstate) (l : str) : Prop :=
  match d with
  | DStart => exists max cs, path max cs l
  | DName => exists w s max cs, l = w ++ s /\ Forall name_byte w /\ path_rest max cs s
  | DDot => exists n s max cs, l = n ++ s /\ name_text n /\ path_rest max cs s
  | DOpen => exists ds s max cs, l = ds ++ x5d :: s /\ ds <> [] /\ Forall ascii_digit ds /\ path_rest max cs s
  | DDigits => exists ds s max cs, l = ds ++ x5d :: s /\ Forall ascii_digit ds /\ path_rest max cs s
  | DClosed => exists max cs, path_rest max cs l
  end.
Lemma index_mono max max' i t : max <= max' -> index_text max i t -> index_text max' i t.
Proof. intros H (ds & E & N & F & V & L). exists ds. repeat split; try assumption. lia. Qed.
Lemma rest_mono max max' cs l : max <= max' -> path_rest max cs l -> path_rest max' cs l.
Proof. intros H. induction 1; [constructor|constructor; assumption|constructor; [eapply index_mono; eassumption|assumption]]. Qed.
Lemma rest_index_any ds s : ds <> [] -> Forall ascii_digit ds -> (exists max cs, path_rest max cs s) ->
  exists max i cs, index_text max i (x5b :: ds ++ [x5d]) /\ path_rest max cs s.
Proof.
  intros N F (max & cs & H). exists (N.max max (decimal_value ds)), (decimal_value ds), cs. split.
  - exists ds. split; [reflexivity|]. split; [exact N|]. split; [exact F|]. split; [reflexivity|lia].
  - eapply rest_mono; [|exact H]. lia.
Qed.
Lemma digit_numeric b : is_digit b = true -> is_rbracket b = false.
Proof. unfold is_digit, is_rbracket, is_char, in_range, bval. intros H. change (Byte.to_N x5d) with 0x5d. lia. Qed.
Lemma goes_delta d b l : goes d (b :: l) <-> match delta d b with Some d' => goes d' l | None => False end.
Proof.
  assert (NB : forall b, nameb b = false -> ~ name_byte b) by (intros b0 H G; apply nameb_iff in G; congruence).
  assert (Op : forall l, goes DOpen l <-> exists i t s max cs, x5b :: l = t ++ s /\ index_text max i t /\ path_rest max cs s).
  { intros l0. split.
    - intros (ds & s & max & cs & -> & N & F & R). destruct (rest_index_any ds s N F ltac:(eauto)) as (max' & i & cs' & I & R').
      exists i, (x5b :: ds ++ [x5d]), s, max', cs'. split; [cbn; rewrite <- app_assoc; reflexivity|auto].
    - intros (i & t & s & max & cs & E & (ds & -> & N & F & _) & R). exists ds, s, max, cs. split; [|auto]. cbn in E. rewrite <- app_assoc in E. injection E as ->. reflexivity. }
  assert (Nm : forall l, (exists n s max cs, b :: l = n ++ s /\ name_text n /\ path_rest max cs s) <-> is_alphabetic b || is_underscore b = true /\ goes DName l).
  { intros l0. split.
    - intros (n & s & max & cs & E & T & R). destruct n as [|b0 w]; [destruct T|]. injection E as <- ->. destruct T as [Hb Hw]. split; [apply startb_iff; exact Hb|]. exists w, s, max, cs. auto.
    - intros [Hb (w & s & max & cs & -> & F & R)]. exists (b :: w), s, max, cs. split; [reflexivity|]. split; [|exact R]. split; [apply startb_iff; exact Hb|exact F]. }
  destruct d; cbn [delta].
  - split.
    + intros (max & cs & H). inversion H as [|n cs' s T R E1 E|i t cs' s T R E1 E]; subst.
      * assert (X : exists n s max cs, b :: l = n ++ s /\ name_text n /\ path_rest max cs s) by (exists n, s, max, cs'; auto).
        apply Nm in X. destruct X as [Hb G]. rewrite (starts_not_bracket _ Hb), Hb. exact G.
      * assert (is_lbracket b = true) by (destruct T as (ds & -> & _); injection E as <- _; reflexivity). rewrite H0. apply is_char_lt in H0. subst b.
        apply Op. exists i, t, s, max, cs'. auto.
    + destruct (is_lbracket b) eqn:E1.
      * apply is_char_lt in E1. subst b. intros G. apply Op in G. destruct G as (i & t & s & max & cs & -> & T & R). exists max, (Index i :: cs). constructor; assumption.
      * destruct (is_alphabetic b || is_underscore b) eqn:E2; [|intros []]. intros G. destruct (proj2 (Nm l) (conj eq_refl G)) as (n & s & max & cs & -> & T & R).
        exists max, (Name n :: cs). constructor; assumption.
  - split.
    + intros (w & s & max & cs & E & F & R). destruct w as [|b0 w].
      * cbn in E. subst s. inversion R as [|n cs' s T R' E1 E|i t cs' s T R' E1 E]; subst.
        -- exists n, s, max, cs'. auto.
        -- assert (is_lbracket b = true) by (destruct T as (ds & -> & _); injection E as <- _; reflexivity). apply is_char_lt in H. subst b. cbn -[goes]. apply Op. exists i, t, s, max, cs'. auto.
      * injection E as <- ->. inversion F as [|? ? Hb Fw]; subst. apply nameb_iff in Hb. rewrite Hb. exists w, s, max, cs. auto.
    + destruct (nameb b) eqn:E0; [intros (w & s & max & cs & -> & F & R); exists (b :: w), s, max, cs; split; [reflexivity|]; split; [constructor; [apply nameb_iff; exact E0|exact F]|exact R]|].
      destruct (is_lbracket b) eqn:E1.
      * apply is_char_lt in E1. subst b. intros G. apply Op in G. destruct G as (i & t & s & max & cs & E & T & R). exists [], (x5b :: l), max, (Index i :: cs). split; [reflexivity|]. split; [constructor|]. rewrite E. constructor; assumption.
      * destruct (is_dot b) eqn:E2; [|intros []]. apply is_char_lt in E2. subst b. intros (n & s & max & cs & -> & T & R). exists [], (x2e :: n ++ s), max, (Name n :: cs). split; [reflexivity|]. split; [constructor|].
        change (x2e :: n ++ s) with (dot ++ n ++ s). constructor; assumption.
  - change (goes DDot (b :: l)) with (exists n s max cs, b :: l = n ++ s /\ name_text n /\ path_rest max cs s). rewrite Nm. destruct (is_alphabetic b || is_underscore b); tauto || (split; [intros [H _]; discriminate|intros []]).
  - split.
    + intros (ds & s & max & cs & E & N & F & R). destruct ds as [|b0 ds]; [congruence|]. injection E as <- ->. inversion F as [|? ? Hb Fw]; subst. apply is_digit_iff in Hb. rewrite Hb. exists ds, s, max, cs. auto.
    + destruct (is_digit b) eqn:E; [|intros []]. intros (ds & s & max & cs & -> & F & R). exists (b :: ds), s, max, cs. split; [reflexivity|]. split; [discriminate|]. split; [constructor; [apply is_digit_iff; exact E|exact F]|exact R].
  - split.
    + intros (ds & s & max & cs & E & F & R). destruct ds as [|b0 ds].
      * injection E as -> ->. change (is_digit x5d) with false. change (is_rbracket x5d) with true. exists max, cs. exact R.
      * injection E as <- ->. inversion F as [|? ? Hb Fw]; subst. apply is_digit_iff in Hb. rewrite Hb. exists ds, s, max, cs. auto.
    + destruct (is_digit b) eqn:E.
      * intros (ds & s & max & cs & -> & F & R). exists (b :: ds), s, max, cs. split; [reflexivity|]. split; [constructor; [apply is_digit_iff; exact E|exact F]|exact R].
      * destruct (is_rbracket b) eqn:E1; [|intros []]. apply is_char_lt in E1. subst b. intros (max & cs & R). exists [], l, max, cs. auto.
  - split.
    + intros (max & cs & R). inversion R as [|n cs' s T R' E1 E|i t cs' s T R' E1 E]; subst.
      * exists n, s, max, cs'. auto.
      * assert (is_lbracket b = true) by (destruct T as (ds & -> & _); injection E as <- _; reflexivity). apply is_char_lt in H. subst b. cbn -[goes]. apply Op. exists i, t, s, max, cs'. auto.
    + destruct (is_lbracket b) eqn:E1.
      * apply is_char_lt in E1. subst b. intros G. apply Op in G. destruct G as (i & t & s & max & cs & E & T & R). exists max, (Index i :: cs). rewrite E. constructor; assumption.
      * destruct (is_dot b) eqn:E2; [|intros []]. apply is_char_lt in E2. subst b. intros (n & s & max & cs & -> & T & R). exists max, (Name n :: cs).
        change (x2e :: n ++ s) with (dot ++ n ++ s). constructor; assumption.
Qed.
Lemma goes_run l : forall d l', goes d (l ++ l') <-> match run d l with Some d' => goes d' l' | None => False end.
Proof.
  induction l as [|b l IH]; intros d l'; [reflexivity|]. cbn [app run]. rewrite goes_delta. destruct (delta d b) as [d'|]; [apply IH|reflexivity].
Qed.
Lemma goes_some d : exists l, goes d l.
Proof.
  destruct d.
  - exists [], 0, []. constructor.
  - exists [], [], [], 0, []. repeat split; constructor.
  - exists [underscore], [underscore], [], 0, []. split; [reflexivity|]. split; [split; [right; reflexivity|constructor]|constructor].
  - exists [x30; x5d], [x30], [], 0, []. split; [reflexivity|]. split; [discriminate|]. split; [repeat constructor; discriminate|constructor].
  - exists [x5d], [], [], 0, []. repeat split; constructor.
  - exists [], 0, []. constructor.
Qed.
Lemma viable_run s : viable s <-> run DStart s <> None.
Proof.
  unfold viable. split.
  - intros (max & cs & suffix & H). assert (G : goes DStart (s ++ suffix)) by (exists max, cs; exact H). apply goes_run in G. destruct (run DStart s); [discriminate|destruct G].
  - intros H. destruct (run DStart s) as [d|] eqn:E; [|congruence]. destruct (goes_some d) as [l G]. assert (G' : goes DStart (s ++ l)) by (apply goes_run; rewrite E; exact G).
    destruct G' as (max & cs & G'). exists max, cs, l. exact G'.
Qed.
(** A whole path stands at its start, behind a name or behind an index. *)
Definition whole (d : dstate) : Prop := match d with DStart | DName | DClosed => True | _ => False end.
Lemma path_run max cs q : path max cs q -> exists d, run DStart q = Some d /\ whole d /\ (d = DStart -> q = []).
Proof.
  intros H. assert (G : goes DStart (q ++ [])) by (exists max, cs; rewrite app_nil_r; exact H). apply goes_run in G. destruct (run DStart q) as [d|] eqn:E; [|destruct G].
  exists d. split; [reflexivity|]. split.
  - destruct d; try exact I; destruct G as (w & s & ? & ? & E' & G); destruct w; try discriminate E'. destruct G as [[] _]. 
  - intros ->. destruct q as [|b q]; [reflexivity|]. exfalso. clear -E. cbn [run] in E.
    assert (N : forall l d, run d l = Some DStart -> d <> DStart -> False).
    { induction l as [|b0 l IH]; intros d H Hd; [cbn in H; congruence|]. cbn [run] in H. destruct (delta d b0) as [d'|] eqn:Ed; [|discriminate]. apply (IH d' H).
      intros ->. destruct d; cbn [delta] in Ed; repeat match type of Ed with context [if ?x then _ else _] => destruct x end; discriminate. }
    destruct (delta DStart b) as [d'|] eqn:Ed; [|discriminate]. apply (N _ _ E). intros ->. cbn [delta] in Ed. repeat match type of Ed with context [if ?x then _ else _] => destruct x end; discriminate.
Qed.

(** ** Paths grow at their ends *)
Lemma rest_snoc max cs l x t : path_rest max cs l -> path_rest max [x] t -> path_rest max (cs ++ [x]) (l ++ t).
Proof. intros H Ht. induction H; cbn [app]; [exact Ht| |]; rewrite <- ?app_assoc; constructor; assumption. Qed.
Lemma path_snoc max cs q x t : cs <> [] -> path max cs q -> path_rest max [x] t -> path max (cs ++ [x]) (q ++ t).
Proof. intros N H Ht. destruct H as [|n cs s T R|i t0 cs s T R]; [congruence| |]; cbn [app]; rewrite <- app_assoc; constructor; try assumption; apply rest_snoc; assumption. Qed.
Lemma rest_one_name max n : name_text n -> path_rest max [Name n] (dot ++ n).
Proof. intros T. rewrite <- (app_nil_r n) at 2. constructor; [exact T|constructor]. Qed.
Lemma rest_one_index max i t : index_text max i t -> path_rest max [Index i] t.
Proof. intros T. rewrite <- (app_nil_r t). constructor; [exact T|constructor]. Qed.
Lemma path_any_index max cs q i t : path max cs q -> index_text max i t -> path max (cs ++ [Index i]) (q ++ t).
Proof.
  intros H T. destruct cs as [|x cs].
  - inversion H; subst. cbn [app]. rewrite <- (app_nil_r t). constructor; [exact T|constructor].
  - apply path_snoc; [discriminate|exact H|apply rest_one_index; exact T].
Qed.
Lemma run_start_name n d : name_text n -> d = DStart \/ d = DDot -> run d n = Some DName.
Proof.
  assert (W : forall w, Forall name_byte w -> run DName w = Some DName).
  { induction 1 as [|b w Hb _ IH]; [reflexivity|]. cbn [run delta]. apply nameb_iff in Hb. rewrite Hb. exact IH. }
  destruct n as [|b w]; [intros []|]. intros [Hb Hw] Hd. apply startb_iff in Hb. cbn [run].
  destruct Hd as [-> | ->]; cbn [delta]; rewrite ?(starts_not_bracket _ Hb), Hb; apply W; exact Hw.
Qed.
Lemma run_digits ds : Forall ascii_digit ds -> run DDigits ds = Some DDigits.
Proof. induction 1 as [|b w Hb _ IH]; [reflexivity|]. cbn [run delta]. apply is_digit_iff in Hb. rewrite Hb. exact IH. Qed.
Lemma run_open ds : Forall ascii_digit ds -> exists d, run DOpen ds = Some d /\ (d = DOpen /\ ds = [] \/ d = DDigits).
Proof.
  intros [|b w Hb Hw]; [exists DOpen; auto|]. exists DDigits. split; [|auto]. cbn [run delta]. apply is_digit_iff in Hb. rewrite Hb. apply run_digits. exact Hw.
Qed.
Lemma run_index max i t d : index_text max i t -> whole d -> run d t = Some DClosed.
Proof.
  intros (ds & -> & N & F & _) W. assert (E : delta d x5b = Some DOpen) by (destruct d; try destruct W; reflexivity).
  unfold lbracket, rbracket. cbn [app run]. rewrite E, run_app. destruct ds as [|b ds]; [congruence|]. inversion F as [|? ? Hb Fw]; subst. cbn [run delta]. apply is_digit_iff in Hb. rewrite Hb, (run_digits _ Fw). reflexivity.
Qed.

Section Iter.
  Context (c : build) (p : str).
  Hypothesis Hu : valid_utf8 p.
  Let max := usize_max c.
  Definition stuck_at (q : str) (m : message) : Prop :=
    exists w b post, p = q ++ w ++ b :: post /\ m = MInvalidCharacter (length (q ++ w)) /\ viable (q ++ w) /\ ~ viable (q ++ w ++ [b]).
  Lemma stuck q w b post d : p = q ++ w ++ b :: post -> run DStart (q ++ w) = Some d -> delta d b = None -> stuck_at q (MInvalidCharacter (length (q ++ w))).
  Proof.
    intros E R D. exists w, b, post. split; [exact E|]. split; [reflexivity|]. split; [apply viable_run; congruence|]. rewrite viable_run, app_assoc, run_app, R. cbn [run]. rewrite D. intros H. apply H. reflexivity.
  Qed.
  Lemma slice_any {E} start w r : (start <= length p)%nat -> is_char_boundary p start = true ->
    skipn start p = w ++ r -> is_char_boundary p (start + length w) = true -> @str_slice E p start (start + length w) = Ok w.
  Proof.
    intros Hs Hb X He. unfold str_slice. rewrite Hb, He.
    replace (Nat.leb start (start + length w)) with true by (symmetry; apply Nat.leb_le; lia). cbn [andb].
    rewrite X. replace (start + length w - start)%nat with (length w) by lia.
    rewrite firstn_app, firstn_all, Nat.sub_diag, firstn_O, app_nil_r. reflexivity.
  Qed.
  Lemma skip_here (pre l : str) : skipn (length pre) (pre ++ l) = l.
  Proof. rewrite skipn_app, skipn_all, Nat.sub_diag. reflexivity. Qed.
  Lemma nth_here (pre : str) b l : nth_error (pre ++ b :: l) (length pre) = Some b.
  Proof. rewrite nth_error_app2, Nat.sub_diag by lia. reflexivity. Qed.

  Definition after_name (pre n : str) (it' : piter) : Prop :=
    (p = pre ++ n /\ pst it' = PDone) \/
    (exists l, p = pre ++ n ++ lbracket ++ l /\ pst it' = PInsideIndex /\ position it' = length (pre ++ n ++ lbracket)) \/
    (exists l, p = pre ++ n ++ dot ++ l /\ pst it' = PExpectingName /\ position it' = length (pre ++ n ++ dot)).
  Lemma name_msg_cases it pre b l d0 : p = pre ++ b :: l -> position it = length pre -> is_char_boundary p (length pre) = true ->
    is_alphabetic b || is_underscore b = true -> run DStart pre = Some d0 -> d0 = DStart \/ d0 = DDot ->
    match parse_name_msg p it with
    | (Err m, _) => stuck_at pre m
    | (Ok (Some x), it') => exists n, x = Name n /\ name_text n /\ after_name pre n it'
    | _ => False
    end.
  Proof.
    intros Ep Epos Hb Hst Hr Hd. unfold parse_name_msg. rewrite Epos.
    assert (Es : skipn (length pre) p = b :: l) by (rewrite Ep; apply skip_here). rewrite Es, name_scan_spec.
    pose proof (take_drop nameb (b :: l)) as E. pose proof (take_all nameb (b :: l)) as Ea.
    assert (Hnb : nameb b = true) by (apply startb_iff in Hst; apply nameb_iff; destruct Hst as [H|H]; unfold name_byte; tauto).
    assert (T : name_text (take_while nameb (b :: l))) by (rewrite name_text_iff; split; [cbn [take_while]; rewrite Hnb; exact Hst|exact Ea]).
    set (w := take_while nameb (b :: l)) in *. assert (Hle : (length pre <= length p)%nat) by (rewrite Ep, app_length; lia).
    destruct (drop_while nameb (b :: l)) as [|b' r] eqn:Ed.
    - rewrite app_nil_r in E. rewrite (slice_any (length pre) w []); [|exact Hle|exact Hb|rewrite Es, app_nil_r; auto|].
      2:{ rewrite <- app_length, E, <- Ep. apply boundary_end. }
      replace (length pre + length w)%nat with (length p) by (rewrite Ep at 1; rewrite app_length, E; reflexivity). rewrite (proj2 (nth_error_None p (length p))) by lia. exists w. split; [reflexivity|]. split; [exact T|]. left. split; [rewrite E; exact Ep|reflexivity].
    - assert (Ep' : p = (pre ++ w) ++ b' :: r) by (rewrite <- app_assoc, E; exact Ep).
      assert (En : nth_error p (length pre + length w) = Some b') by (rewrite <- app_length, Ep'; apply nth_here).
      assert (Nb' : nameb b' = false).
      { clear -Ed. revert b' r Ed. induction (b :: l) as [|x l0 IH]; intros b' r Ed; [discriminate|]. cbn [drop_while] in Ed. destruct (nameb x) eqn:Ex; [eapply IH; exact Ed|]. injection Ed as <- _. exact Ex. }
      destruct (is_lbracket b') eqn:E1.
      { apply is_char_lt in E1 as Eb. cbn [orb]. rewrite (slice_any (length pre) w (b' :: r)); [|exact Hle|exact Hb|congruence|eapply boundary_ascii; [exact En|subst b'; reflexivity]].
        rewrite En, E1. exists w. split; [reflexivity|]. split; [exact T|]. right. left. exists r. split; [rewrite Ep', Eb, <- app_assoc; reflexivity|]. split; [reflexivity|]. cbn. rewrite !app_length. cbn. lia. }
      destruct (is_dot b') eqn:E2.
      { apply is_char_lt in E2 as Eb. cbn [orb]. rewrite (slice_any (length pre) w (b' :: r)); [|exact Hle|exact Hb|congruence|eapply boundary_ascii; [exact En|subst b'; reflexivity]].
        rewrite En, E1, E2. exists w. split; [reflexivity|]. split; [exact T|]. right. right. exists r. split; [rewrite Ep', Eb, <- app_assoc; reflexivity|]. split; [reflexivity|]. cbn. rewrite !app_length. cbn. lia. }
      cbn [orb]. rewrite <- app_length. eapply stuck; [rewrite app_assoc; exact Ep'|rewrite run_app, Hr; apply run_start_name; [exact T|exact Hd]|]. cbn [delta]. rewrite Nb', E1, E2. reflexivity.
  Qed.

  (** In a text, what counts as numeric behind a bracket are decimal digits. *)
  Lemma numeric_digits w : forall pre r, p = pre ++ w ++ r -> is_char_boundary p (length pre) = true -> forallb is_numeric w = true -> Forall ascii_digit w.
  Proof.
    induction w as [|b w IH]; intros pre r Ep Hb Hn; [constructor|]. cbn [forallb] in Hn. apply andb_true_iff in Hn. destruct Hn as [Hn Hw].
    assert (En : nth_error p (length pre) = Some b) by (rewrite Ep; apply nth_here).
    assert (D : ascii_digit b).
    { unfold is_char_boundary in Hb. rewrite En in Hb. apply is_numeric_iff in Hn. destruct Hn as [Hn|Hn]; [exact Hn|]. exfalso.
      unfold PathSpec.between in Hn. rewrite !byte_is in Hn. change (bval xb2) with 0xB2 in Hn. change (bval xb3) with 0xB3 in Hn. change (bval xb9) with 0xB9 in Hn. unfold bval in *. lia. }
    constructor; [exact D|]. apply (IH (pre ++ [b]) r); [rewrite Ep, <- app_assoc; reflexivity| |exact Hw].
    rewrite app_length. cbn [length]. rewrite Nat.add_1_r. eapply valid_after_ascii; [exact Hu|exact En|]. unfold ascii_digit, PathSpec.between in D. unfold bval. lia.
  Qed.
  Lemma index_msg_cases it q l d0 : p = q ++ lbracket ++ l -> position it = length (q ++ lbracket) -> run DStart q = Some d0 -> whole d0 ->
    match parse_index_msg c p it with
    | (Err m, _) => match m with
        | MInvalidCharacter k => stuck_at q m
        | MUnclosedIndex => exists ds, p = q ++ lbracket ++ ds /\ Forall ascii_digit ds
        | MEmptyIndex => exists post, p = q ++ lbracket ++ rbracket ++ post
        | MIndexTooBig => exists ds post, p = q ++ lbracket ++ ds ++ rbracket ++ post /\ Forall ascii_digit ds /\ max < decimal_value ds
        | _ => False end
    | (Ok (Some x), it') => exists i t post, x = Index i /\ index_text max i t /\ p = q ++ t ++ post /\ pst it' = PAfterIndex /\ position it' = length (q ++ t)
    | _ => False
    end.
  Proof.
    intros Ep Epos Hr Hd. set (pre := q ++ lbracket) in *. assert (Ep0 : p = pre ++ l) by (unfold pre; rewrite <- app_assoc; exact Ep).
    assert (Hb : is_char_boundary p (length pre) = true).
    { unfold pre. rewrite app_length. cbn [length lbracket]. rewrite Nat.add_1_r. eapply valid_after_ascii; [exact Hu|rewrite Ep; apply nth_here|reflexivity]. }
    assert (Ro : run DStart pre = Some DOpen) by (unfold pre; rewrite run_app, Hr; destruct d0; try destruct Hd; reflexivity).
    unfold parse_index_msg. rewrite Epos. assert (Es : skipn (length pre) p = l) by (rewrite Ep0; apply skip_here). rewrite Es, index_scan_spec.
    pose proof (take_drop is_numeric l) as E. pose proof (take_all is_numeric l) as Ea. set (w := take_while is_numeric l) in *.
    assert (Hle : (length pre <= length p)%nat) by (rewrite Ep0, app_length; lia).
    assert (Dg : Forall ascii_digit w) by (eapply numeric_digits; [rewrite E; exact Ep0|exact Hb|exact Ea]).
    destruct (drop_while is_numeric l) as [|b' r] eqn:Ed.
    - rewrite app_nil_r in E. replace (length pre + length w)%nat with (length p) by (rewrite Ep0 at 1; rewrite app_length, E; reflexivity). rewrite (proj2 (nth_error_None p (length p))) by lia. cbn [negb]. exists w. split; [rewrite E; exact Ep|exact Dg].
    - assert (Ep' : p = (pre ++ w) ++ b' :: r) by (rewrite <- app_assoc, E; exact Ep0).
      assert (En : nth_error p (length pre + length w) = Some b') by (rewrite <- app_length, Ep'; apply nth_here).
      assert (Nb' : is_numeric b' = false).
      { clear -Ed. revert b' r Ed. induction l as [|x l0 IH]; intros b' r Ed; [discriminate|]. cbn [drop_while] in Ed. destruct (is_numeric x) eqn:Ex; [eapply IH; exact Ed|]. injection Ed as <- _. exact Ex. }
      destruct (is_rbracket b') eqn:E1.
      2:{ rewrite <- app_length. destruct (run_open w Dg) as (d & Rd & Hd'). replace (length (pre ++ w)) with (length (q ++ lbracket ++ w)) by (unfold pre; rewrite <- app_assoc; reflexivity).
          apply (stuck q (lbracket ++ w) b' r d).
          - rewrite Ep'. unfold pre. rewrite <- !app_assoc. reflexivity.
          - rewrite app_assoc. fold pre. rewrite run_app, Ro. exact Rd.
          - assert (ND : is_digit b' = false) by (destruct (is_digit b') eqn:X; [|reflexivity]; apply is_digit_iff in X; assert (is_numeric b' = true) by (apply is_numeric_iff; left; exact X); congruence).
            destruct Hd' as [[-> _]| ->]; cbn [delta]; rewrite ND; [reflexivity|]. rewrite E1. reflexivity. }
      rewrite En, E1. cbn [negb]. apply is_char_lt in E1. subst b'.
      rewrite (slice_any (length pre) w (x5d :: r)); [|exact Hle|exact Hb|congruence|eapply boundary_ascii; [exact En|reflexivity]].
      destruct (Nat.eqb_spec (length w) 0) as [Hz|Hz].
      + exists r. rewrite Ep'. unfold pre. destruct w; [|discriminate]. rewrite app_nil_r, <- app_assoc. reflexivity.
      + assert (Hw : w <> []) by (intros ->; apply Hz; reflexivity).
        assert (Ep2 : p = q ++ (lbracket ++ w ++ rbracket) ++ r) by (rewrite Ep'; unfold pre; rewrite <- !app_assoc; reflexivity).
        destruct (parse_usize c w) as [i|] eqn:Ei.
        * apply parse_usize_iff in Ei. destruct Ei as (_ & _ & Ev & Em). exists i, (lbracket ++ w ++ rbracket), r. split; [reflexivity|]. split; [exists w; auto|]. split; [exact Ep2|]. split; [reflexivity|].
          cbn [position]. unfold pre. rewrite !app_length. unfold lbracket, rbracket. cbn [length]. lia.
        * rewrite (proj2 (forallb_Forall is_digit ascii_digit w is_digit_iff) Dg). exists w, r. split; [rewrite Ep2, <- !app_assoc; reflexivity|]. split; [exact Dg|].
          destruct (N.lt_ge_cases max (decimal_value w)) as [L|L]; [exact L|]. exfalso. pose proof (proj2 (parse_usize_iff c w (decimal_value w)) (conj Hw (conj Dg (conj eq_refl L)))). congruence.
  Qed.

  (** ** Where the iterator stands *)
  Definition stands (it : piter) (cs : list component) : Prop :=
    match pst it with
    | PStart => position it = 0%nat /\ cs = []
    | PInsideIndex => exists q l, p = q ++ lbracket ++ l /\ position it = length (q ++ lbracket) /\ path max cs q
    | PExpectingName => exists q l, p = q ++ dot ++ l /\ position it = length (q ++ dot) /\ path max cs q /\ cs <> []
    | PAfterIndex => exists q l, p = q ++ l /\ position it = length q /\ path max cs q /\ cs <> [] /\ run DStart q = Some DClosed
    | PInsideName => False
    | PDone | PError => True
    end.
  Definition next_ok (cs : list component) (r : mitem * piter) : Prop :=
    match r with
    | (Err m, _) => complains c p cs m
    | (Ok (Some x), it') => stands it' (cs ++ [x])
    | (Ok None, _) => True
    | _ => False
    end.
  Lemma from_index it q l cs : p = q ++ lbracket ++ l -> position it = length (q ++ lbracket) -> path max cs q -> next_ok cs (parse_index_msg c p it).
  Proof.
    intros Ep Epos Hp. destruct (path_run _ _ _ Hp) as (d & Rd & Wd & _). pose proof (index_msg_cases it q l d Ep Epos Rd Wd) as H.
    destruct (parse_index_msg c p it) as [[[x|]|m|k|] it']; try destruct H; unfold next_ok.
    - destruct H as (t & post & -> & T & E & S & P). unfold stands. rewrite S. exists (q ++ t), post. split; [rewrite <- app_assoc; exact E|]. split; [exact P|].
      split; [apply path_any_index; assumption|]. split; [destruct cs; discriminate|]. rewrite run_app, Rd. eapply run_index; eassumption.
    - exists q. split; [exact Hp|]. destruct m; try destruct H; try (eexists; eassumption).
      destruct H as (b & post & E & M & V & NV). injection M as ->. exists x, b, post. auto.
  Qed.
  Lemma from_name it pre q b l cs d0 : p = pre ++ b :: l -> position it = length pre -> is_char_boundary p (length pre) = true ->
    is_alphabetic b || is_underscore b = true -> run DStart pre = Some d0 -> d0 = DStart \/ d0 = DDot ->
    path max cs q -> (exists w, pre = q ++ w) -> (forall n, name_text n -> path max (cs ++ [Name n]) (pre ++ n)) -> next_ok cs (parse_name_msg p it).
  Proof.
    intros Ep Epos Hb Hst Hr Hd Hq (w0 & Ew) Hn. pose proof (name_msg_cases it pre b l d0 Ep Epos Hb Hst Hr Hd) as H.
    destruct (parse_name_msg p it) as [[[x|]|m|k|] it']; try destruct H; unfold next_ok.
    - destruct H as (-> & T & [[_ S]|[(l' & E & S & P)|(l' & E & S & P)]]); unfold stands; rewrite S; [exact I| |].
      + exists (pre ++ x0), l'. rewrite <- !app_assoc. split; [exact E|]. split; [exact P|]. apply Hn. exact T.
      + exists (pre ++ x0), l'. rewrite <- !app_assoc. split; [exact E|]. split; [exact P|]. split; [apply Hn; exact T|]. destruct cs; discriminate.
    - exists q. split; [exact Hq|]. destruct H as (b' & post & E & -> & V & NV). subst pre. exists (w0 ++ x), b', post. rewrite <- !app_assoc in *. auto.
  Qed.
  Lemma here_stuck pre q b l cs d0 it : p = pre ++ b :: l -> run DStart pre = Some d0 -> delta d0 b = None -> path max cs q -> (exists w, pre = q ++ w) ->
    next_ok cs (Err (MInvalidCharacter (length pre)), it).
  Proof.
    intros Ep Hr Hd Hq (w & ->). exists q. split; [exact Hq|]. destruct (stuck q w b l d0) as (w' & b' & post & E & M & V & NV); [rewrite app_assoc; exact Ep|exact Hr|exact Hd|].
    injection M as M. exists w', b', post. auto.
  Qed.
  Lemma next_stands it cs : okit p it -> stands it cs -> next_ok cs (next_msg c p it).
  Proof.
    intros Hok Hs. unfold next_msg. destruct it as [pos st].
    assert (Nth : forall pre l, p = pre ++ l -> nth_error p (length pre) = match l with b :: _ => Some b | [] => None end).
    { intros pre l ->. destruct l; [rewrite app_nil_r; apply nth_error_None; lia|apply nth_here]. }
    assert (Name_at : forall n q l cs, p = q ++ dot ++ l -> path max cs q -> cs <> [] -> next_ok cs (next_msg_fuel (S n) c p {| position := length (q ++ dot); pst := PExpectingName |})).
    { intros n q l cs0 Ep Hq Hne. assert (Ep' : p = (q ++ dot) ++ l) by (rewrite <- app_assoc; exact Ep). cbn [next_msg_fuel pst position]. rewrite (Nth _ _ Ep').
      destruct l as [|b l]; [exact I|].
      assert (Hr : run DStart (q ++ dot) = Some DDot).
      { destruct (path_run _ _ _ Hq) as (d & Rd & Wd & Hd). rewrite run_app, Rd. destruct d; try destruct Wd; try reflexivity. rewrite (Hd eq_refl) in Hq. inversion Hq as [|n0 cs1 s0 T R0 E0 E1|i0 t0 cs1 s0 T R0 E0 E1]; subst; [congruence| |].
        - destruct n0; [destruct T|discriminate].
        - destruct T as (ds & -> & _). discriminate. }
      destruct (is_alphabetic b || is_underscore b) eqn:E.
      - eapply from_name; [exact Ep'|reflexivity| |exact E|exact Hr|auto|exact Hq|eauto|].
        + rewrite app_length. cbn [length dot]. rewrite Nat.add_1_r. eapply valid_after_ascii; [exact Hu|rewrite Ep; apply nth_here|reflexivity].
        + intros n0 T. rewrite <- app_assoc. apply path_snoc; [exact Hne|exact Hq|apply rest_one_name; exact T].
      - eapply here_stuck; [exact Ep'|exact Hr|cbn [delta]; rewrite E; reflexivity|exact Hq|eauto]. }
    destruct st; unfold stands in Hs; cbn [pst position] in Hs.
    - destruct Hs as [-> ->]. change 0%nat with (length (@nil byte)). cbn [next_msg_fuel pst position]. rewrite (Nth [] p eq_refl). destruct p as [|b l] eqn:Ep; [exact I|]. rewrite <- Ep in *. 
      destruct (is_lbracket b) eqn:E1.
      + apply is_char_lt in E1. subst b. eapply (from_index _ [] l); [exact Ep|reflexivity|constructor].
      + destruct (is_alphabetic b || is_underscore b) eqn:E2.
        * eapply (from_name _ [] [] b l); [exact Ep|reflexivity|apply Hok|exact E2|reflexivity|auto|constructor|exists []; reflexivity|].
          intros n T. cbn [app]. rewrite <- (app_nil_r n) at 2. constructor; [exact T|constructor].
        * eapply (here_stuck [] []); [exact Ep|reflexivity|cbn [delta]; rewrite E1, E2; reflexivity|constructor|exists []; reflexivity].
    - destruct Hs.
    - destruct Hs as (q & l & Ep & -> & Hq). assert (Ep' : p = (q ++ lbracket) ++ l) by (rewrite <- app_assoc; exact Ep). cbn [next_msg_fuel pst position]. rewrite (Nth _ _ Ep').
      destruct l as [|b l]; [exact I|]. eapply from_index; [exact Ep|reflexivity|exact Hq].
    - destruct Hs as (q & l & Ep & -> & Hq & Hne & Hr). change (next_ok cs (next_msg_fuel 2 c p {| position := length q; pst := PAfterIndex |})).
      cbn -[next_msg_fuel next_ok]. remember 1%nat as one. cbn [next_msg_fuel pst position]. rewrite (Nth _ _ Ep). destruct l as [|b l]; [exact I|].
      destruct (is_lbracket b) eqn:E1.
      + apply is_char_lt in E1. subst b. eapply (from_index _ q l); [exact Ep|cbn [position]; rewrite app_length; cbn; lia|exact Hq].
      + destruct (is_dot b) eqn:E2.
        * apply is_char_lt in E2. subst b one. replace (S (length q)) with (length (q ++ dot)) by (rewrite app_length; cbn; lia). apply (Name_at 0%nat q l); assumption.
        * eapply here_stuck; [exact Ep|exact Hr|cbn [delta]; rewrite E1, E2; reflexivity|exact Hq|exists []; rewrite app_nil_r; reflexivity].
    - destruct Hs as (q & l & Ep & -> & Hq & Hne). apply (Name_at 1%nat q l); assumption.
    - exact I.
    - exact I.
  Qed.
End Iter.
