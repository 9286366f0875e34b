(** * DebugFacts: proofs about the [{:?}] text (C63). *)
From Coq Require Import Strings.String.
From Coq Require Import List NArith ZArith Bool Lia Strings.Byte.
From Verif Require Import TypeInfo Spec BaseFacts PathSpec PathPrint PathCanon Exact ToolsFacts Debug DebugSpec.
Import ListNotations.
Open Scope N_scope.

(** ** Reading the text back: [p a] ends where it ends *)
Definition code {A} (p : A -> str) : Prop :=
  forall a b r r', ends_word r -> ends_word r' -> p a ++ r = p b ++ r' -> a = b /\ r = r'.

Definition wordlikeb (b : byte) : bool :=
  let n := Byte.to_N b in ((0x30 <=? n) && (n <=? 0x39)) || ((0x41 <=? n) && (n <=? 0x5A)) || ((0x61 <=? n) && (n <=? 0x7A)) || (n =? 0x5F).
Lemma wordlike_iff b : wordlikeb b = true <-> wordlike b.
Proof. unfold wordlikeb, wordlike. rewrite !orb_true_iff, !andb_true_iff, !N.leb_le, N.eqb_eq. tauto. Qed.
Definition stops (x : String.string) : bool := match txt x with [] => false | b :: _ => negb (wordlikeb b) end.
Lemma stop_app x r : stops x = true -> ends_word (txt x ++ r).
Proof.
  unfold stops. destruct (txt x) as [|b l]; [discriminate|]. intros H. cbn. rewrite <- wordlike_iff. destruct (wordlikeb b); [discriminate|congruence].
Qed.
Lemma stop_only x : stops x = true -> ends_word (txt x).
Proof. intros H. rewrite <- (app_nil_r (txt x)). apply stop_app. exact H. Qed.
Lemma word_code x : forall y r r', Forall wordlike x -> Forall wordlike y -> ends_word r -> ends_word r' -> x ++ r = y ++ r' -> x = y /\ r = r'.
Proof.
  induction x as [|b x IH]; intros [|c y] r r' Hx Hy Hr Hr' E; cbn [app] in E.
  - auto.
  - exfalso. subst r. inversion Hy; subst. exact (Hr H1).
  - exfalso. subst r'. inversion Hx; subst. exact (Hr' H1).
  - inversion Hx; inversion Hy; subst. assert (b = c) by congruence. subst c. assert (x ++ r = y ++ r') by congruence.
    destruct (IH y r r') as [-> ->]; auto.
Qed.
Lemma digit_word b : ascii_digit b -> wordlike b.
Proof. unfold ascii_digit, PathSpec.between, wordlike. cbv zeta. lia. Qed.
Lemma number_word n : Forall wordlike (digits_of_N n).
Proof. change (digits_of_N n) with (decimal n). eapply Forall_impl; [exact digit_word|apply decimal_all]. Qed.
Lemma number_code : code digits_of_N.
Proof.
  intros a b r r' H H' E. destruct (word_code _ _ _ _ (number_word a) (number_word b) H H' E) as [E1 ->]. split; [|reflexivity]. apply decimal_inj. exact E1.
Qed.
Lemma number_head n : exists b l, digits_of_N n = b :: l /\ ascii_digit b.
Proof. change (digits_of_N n) with (decimal n). destruct (decimal_head n) as (d & ds & E & F). exists d, ds. split; [exact E|]. inversion F; assumption. Qed.
Lemma signed_code : code digits_of_Z.
Proof.
  assert (N0 : ~ ascii_digit x2d) by (unfold ascii_digit, PathSpec.between; cbn; lia).
  intros a b r r' H H' E.
  assert (X : forall n r p r', digits_of_N n ++ r = txt "-" ++ digits_of_N p ++ r' -> False).
  { intros n q p q' X. destruct (number_head n) as (d & l & Ed & Hd). rewrite Ed in X. cbn [app] in X. change (txt "-") with [x2d] in X. cbn [app] in X. congruence. }
  destruct a as [|a|a], b as [|b|b]; unfold digits_of_Z in E; rewrite <- ?app_assoc in E;
    try (exfalso; exact (X _ _ _ _ E)); try (exfalso; exact (X _ _ _ _ (eq_sym E)));
    try match type of E with txt _ ++ _ = _ => apply app_inv_head in E end; destruct (number_code _ _ _ _ H H' E) as [E1 E2]; cbn in E1; split; try exact E2; congruence.
Qed.

(** ** Words *)
Definition all_words (x : str) : bool := forallb wordlikeb x.
Lemma all_words_ok x : all_words x = true -> Forall wordlike x.
Proof. unfold all_words. rewrite forallb_forall, Forall_forall. intros H b Hb. apply wordlike_iff. auto. Qed.
Lemma words_code {A} (p : A -> str) : (forall a, all_words (p a) = true) -> (forall a b, p a = p b -> a = b) -> code p.
Proof.
  intros W I a b r r' H H' E. destruct (word_code _ _ _ _ (all_words_ok _ (W a)) (all_words_ok _ (W b)) H H' E) as [E1 ->]. auto.
Qed.
Lemma bool_code : code debug_bool.
Proof. apply words_code; [intros []; reflexivity|intros [] [] E; try reflexivity; discriminate E]. Qed.
Lemma kind_code_ : code kind_debug.
Proof. apply words_code; [intros []; reflexivity|intros [] [] E; try reflexivity; discriminate E]. Qed.
Lemma linkage_code : code debug_linkage.
Proof. apply words_code; [intros []; reflexivity|intros [] [] E; try reflexivity; discriminate E]. Qed.

(** ** Strings *)
Definition hexv (d : byte) : N := if Byte.to_N d <? 0x61 then Byte.to_N d - 0x30 else Byte.to_N d - 0x61 + 10.
Lemma hex_value_eq d v : hex_value d v -> v = hexv d.
Proof. unfold hex_value, hexv. cbv zeta. intros [[H ->]|[H ->]]; destruct (N.ltb_spec (Byte.to_N d) 0x61); lia. Qed.
Definition push (x : str) (o : option (str * str)) : option (str * str) := match o with Some (s, r) => Some (x ++ s, r) | None => None end.
Definition simple (c : byte) : option byte :=
  if Byte.eqb c x30 then Some x00 else if Byte.eqb c x74 then Some x09 else if Byte.eqb c x6e then Some x0a else if Byte.eqb c x72 then Some x0d
  else if Byte.eqb c x22 then Some x22 else if Byte.eqb c x5c then Some x5c else None.
Fixpoint decode (t : str) : option (str * str) :=
  match t with
  | [] => None
  | b :: t1 =>
      if Byte.eqb b x22 then Some ([], t1)
      else if Byte.eqb b x5c then
        match t1 with
        | c :: t2 =>
            match simple c with
            | Some x => push [x] (decode t2)
            | None =>
                match t2 with
                | _ :: d :: e :: t5 =>
                    if Byte.eqb e x7d then push (utf8_of_latin1 (byte_of (hexv d))) (decode t5)
                    else match t5 with _ :: t6 => push (utf8_of_latin1 (byte_of (16 * hexv d + hexv e))) (decode t6) | [] => None end
                | _ => None
                end
            end
        | [] => None
        end
      else push [b] (decode t1)
  end.
Lemma eqb_neq b c : b <> c -> Byte.eqb b c = false.
Proof. intros H. destruct (Byte.eqb b c) eqn:E; [|reflexivity]. exfalso. apply H. apply Byte.byte_dec_bl. exact E. Qed.
Lemma hex_not_brace d v : hex_value d v -> Byte.eqb d x7d = false.
Proof. intros H. apply eqb_neq. intros ->. destruct H as [[H _]|[H _]]; cbn in H; lia. Qed.
Lemma literal_decode w s r : literal w s -> decode (w ++ x22 :: r) = Some (s, r).
Proof.
  intros L. induction L as [|b w s H1 H2 L IH|w s L IH|w s L IH|w s L IH|w s L IH|w s L IH|w s L IH|d v b c w s Hd Hb Hc L IH|d1 v1 d2 v2 b c w s H1 H2 Hb Hc L IH].
  - reflexivity.
  - cbn [app decode]. rewrite (eqb_neq b x22 H1), (eqb_neq b x5c H2), IH. reflexivity.
  - change ((words "\0" ++ w) ++ x22 :: r) with (x5c :: x30 :: (w ++ x22 :: r)). cbn [decode Byte.eqb simple]. rewrite IH. reflexivity.
  - change ((words "\t" ++ w) ++ x22 :: r) with (x5c :: x74 :: (w ++ x22 :: r)). cbn [decode]. rewrite IH. reflexivity.
  - change ((words "\n" ++ w) ++ x22 :: r) with (x5c :: x6e :: (w ++ x22 :: r)). cbn [decode]. rewrite IH. reflexivity.
  - change ((words "\r" ++ w) ++ x22 :: r) with (x5c :: x72 :: (w ++ x22 :: r)). cbn [decode]. rewrite IH. reflexivity.
  - change (([x5c; x22] ++ w) ++ x22 :: r) with (x5c :: x22 :: (w ++ x22 :: r)). cbn [decode]. rewrite IH. reflexivity.
  - change ((words "\\" ++ w) ++ x22 :: r) with (x5c :: x5c :: (w ++ x22 :: r)). cbn [decode]. rewrite IH. reflexivity.
  - change ((words "\u{" ++ [d] ++ words "}" ++ w) ++ x22 :: r) with (x5c :: x75 :: x7b :: d :: x7d :: (w ++ x22 :: r)). cbn [decode].
    change (Byte.eqb x5c x22) with false. change (Byte.eqb x5c x5c) with true. change (simple x75) with (@None byte). change (Byte.eqb x7d x7d) with true. cbv iota. rewrite IH.
    apply latin1_char_eq in Hc. subst c. rewrite <- (hex_value_eq d v Hd), <- Hb. change (Byte.to_N b) with (bval b). rewrite byte_of_bval. reflexivity.
  - change ((words "\u{" ++ [d1; d2] ++ words "}" ++ w) ++ x22 :: r) with (x5c :: x75 :: x7b :: d1 :: d2 :: x7d :: (w ++ x22 :: r)). cbn [decode].
    change (Byte.eqb x5c x22) with false. change (Byte.eqb x5c x5c) with true. change (simple x75) with (@None byte). cbv iota. rewrite (hex_not_brace d2 v2 H2). rewrite IH.
    apply latin1_char_eq in Hc. subst c. rewrite <- (hex_value_eq d1 v1 H1), <- (hex_value_eq d2 v2 H2), <- Hb. change (Byte.to_N b) with (bval b). rewrite byte_of_bval. reflexivity.
Qed.

Lemma low_hex_value d : d < 16 -> hex_value (low_hex_digit d) d.
Proof.
  intros H. unfold low_hex_digit, hex_value. cbv zeta. change (Byte.to_N ?x) with (bval x). rewrite bval_byte_of.
  destruct (N.ltb_spec d 10); rewrite N.mod_small by lia; lia.
Qed.
Lemma low_hex_is d : d < 16 -> Byte.to_N (low_hex_digit d) = if d <? 10 then 0x30 + d else 0x57 + d.
Proof. intros H. unfold low_hex_digit. change (Byte.to_N ?x) with (bval x). rewrite bval_byte_of. apply N.mod_small. destruct (N.ltb_spec d 10); lia. Qed.

(** One character *)
Lemma escape_char_literal b w s : literal w s -> literal (escape_char (bval b) (utf8_of_latin1 b) ++ w) (utf8_of_latin1 b ++ s).
Proof.
  intros L. pose proof (bval_lt b) as Hlt. unfold escape_char.
  assert (V : forall c, bval b = bval c -> b = c) by (intros c E; apply bval_inj; exact E).
  destruct (N.eqb_spec (bval b) 0) as [E|N0]; [rewrite (V x00 E); apply literal_nul; exact L|].
  destruct (N.eqb_spec (bval b) 9) as [E|N9]; [rewrite (V x09 E); apply literal_tab; exact L|].
  destruct (N.eqb_spec (bval b) 13) as [E|N13]; [rewrite (V x0d E); apply literal_return; exact L|].
  destruct (N.eqb_spec (bval b) 10) as [E|N10]; [rewrite (V x0a E); apply literal_newline; exact L|].
  destruct (N.eqb_spec (bval b) 34) as [E|N34]; [rewrite (V x22 E); apply literal_quote; exact L|].
  destruct (N.eqb_spec (bval b) 92) as [E|N92]; [rewrite (V x5c E); apply literal_backslash; exact L|].
  destruct (printable (bval b)) eqn:P.
  - unfold utf8_of_latin1. destruct (N.ltb_spec (bval b) 128) as [H|H]; cbn [app].
    + apply literal_plain; [intros ->; apply N34; reflexivity|intros ->; apply N92; reflexivity|exact L].
    + assert (D : bval b / 64 < 4) by (apply N.div_lt_upper_bound; lia). assert (M : bval b mod 64 < 64) by (apply N.mod_lt; lia).
      apply literal_plain; [intros C; apply (f_equal bval) in C; rewrite bval_byte_of, N.mod_small in C by lia; cbn in C; lia|
                            intros C; apply (f_equal bval) in C; rewrite bval_byte_of, N.mod_small in C by lia; cbn in C; lia|].
      apply literal_plain; [intros C; apply (f_equal bval) in C; rewrite bval_byte_of, N.mod_small in C by lia; cbn in C; lia|
                            intros C; apply (f_equal bval) in C; rewrite bval_byte_of, N.mod_small in C by lia; cbn in C; lia|exact L].
  - destruct (N.ltb_spec (bval b) 16) as [H|H]; rewrite <- !app_assoc.
    + apply (literal_u1 _ (bval b) b); [apply low_hex_value; exact H|reflexivity|apply latin1_char_eq; reflexivity|exact L].
    + assert (D : bval b / 16 < 16) by (apply N.div_lt_upper_bound; lia). assert (M : bval b mod 16 < 16) by (apply N.mod_lt; lia).
      apply (literal_u2 _ (bval b / 16) _ (bval b mod 16) b); [apply low_hex_value; exact D|apply low_hex_value; exact M| |apply latin1_char_eq; reflexivity|exact L].
      apply N.div_mod. discriminate.
Qed.
Lemma two_bytes_char b c n : two_bytes b c = Some n -> exists x, bval x = n /\ [b; c] = utf8_of_latin1 x.
Proof.
  unfold two_bytes, in_range. destruct (_ && _) eqn:T; [|discriminate]. intros [= <-].
  rewrite !andb_true_iff, !N.leb_le in T. destruct T as [[T1 T2] [T3 T4]].
  exists (byte_of (64 * (bval b - 0xC0) + (bval c - 0x80))).
  assert (X : bval (byte_of (64 * (bval b - 192) + (bval c - 128))) = 64 * (bval b - 192) + (bval c - 128)) by (rewrite bval_byte_of; apply N.mod_small; lia).
  split; [exact X|]. unfold utf8_of_latin1. rewrite X. destruct (N.ltb_spec (64 * (bval b - 192) + (bval c - 128)) 128); [lia|].
  assert (Q : (64 * (bval b - 192) + (bval c - 128)) / 64 = bval b - 192) by (symmetry; apply (N.div_unique _ 64 _ (bval c - 128)); lia).
  assert (R : (64 * (bval b - 192) + (bval c - 128)) mod 64 = bval c - 128) by (symmetry; apply (N.mod_unique _ 64 (bval b - 192)); lia).
  rewrite Q, R. replace (0xC0 + (bval b - 192)) with (bval b) by lia. replace (0x80 + (bval c - 128)) with (bval c) by lia. rewrite !byte_of_bval. reflexivity.
Qed.
Lemma escape_literal s : literal (escape s) s.
Proof.
  remember (List.length s) as n eqn:Hn. revert s Hn. induction n as [n IH] using lt_wf_ind. intros s Hn.
  destruct s as [|b s]; [constructor|]. cbn [List.length] in Hn. cbn [escape].
  destruct (N.ltb_spec (bval b) 0x80) as [H|H].
  - pose proof (escape_char_literal b (escape s) s (IH (List.length s) ltac:(lia) s eq_refl)) as L. unfold utf8_of_latin1 in L. rewrite (proj2 (N.ltb_lt _ _) H) in L. exact L.
  - assert (P : b <> x22 /\ b <> x5c) by (split; intros ->; vm_compute in H; apply H; reflexivity).
    destruct s as [|c s]; [apply literal_plain; [apply P|apply P|constructor]|].
    destruct (two_bytes b c) as [m|] eqn:T.
    + destruct (two_bytes_char b c m T) as (x & <- & E). rewrite E. change (b :: c :: s) with ([b; c] ++ s). rewrite E. apply escape_char_literal.
      apply (IH (List.length s)); cbn [List.length] in Hn; [lia|reflexivity].
    + apply literal_plain; [apply P|apply P|]. apply (IH (List.length (c :: s))); [lia|reflexivity].
Qed.
Lemma str_code : forall a b r r', debug_str a ++ r = debug_str b ++ r' -> a = b /\ r = r'.
Proof.
  intros a b r r' E. unfold debug_str in E. rewrite <- !app_assoc in E. apply app_inv_head in E. cbn [app] in E.
  apply (f_equal decode) in E. rewrite !(literal_decode _ _ _ (escape_literal _)) in E. injection E. auto.
Qed.
