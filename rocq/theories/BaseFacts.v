(** * Facts about the definitions of Base.v and Reader.v. *)
From Coq Require Import Lia ZifyBool ZifyNat ZifyN.
From Verif Require Import Reader.
From Coq Require Import Strings.Byte.
Ltac Zify.zify_post_hook ::= Z.div_mod_to_equations.
Arguments N.add : simpl never.
Arguments N.mul : simpl never.
Arguments N.sub : simpl never.
Arguments N.div : simpl never.
Arguments N.modulo : simpl never.
Arguments N.pow : simpl never.
Arguments N.ltb : simpl never.
Arguments N.leb : simpl never.
Arguments N.eqb : simpl never.
Arguments N.to_nat : simpl never.
Arguments N.of_nat : simpl never.
Arguments N.land : simpl never.
Arguments N.shiftr : simpl never.

(** ** bytes *)
Lemma bval_lt b : bval b < 256.
Proof. unfold bval. pose proof (Byte.to_N_bounded b). lia. Qed.

Lemma bval_inj a b : bval a = bval b -> a = b.
Proof.
  unfold bval. intros H.
  pose proof (Byte.of_to_N a) as Ha. pose proof (Byte.of_to_N b) as Hb.
  rewrite H in Ha. congruence.
Qed.

Lemma bval_byte_of n : bval (byte_of n) = n mod 256.
Proof.
  unfold bval, byte_of.
  destruct (Byte.of_N (n mod 256)) as [b|] eqn:Hb.
  - apply Byte.to_of_N. exact Hb.
  - apply Byte.of_N_None_iff in Hb.
    pose proof (N.mod_lt n 256). lia.
Qed.

Lemma byte_of_bval b : byte_of (bval b) = b.
Proof.
  apply bval_inj. rewrite bval_byte_of. pose proof (bval_lt b).
  apply N.mod_small. assumption.
Qed.

(** ** strings *)
Lemma str_compare_eq a b : str_compare a b = Eq <-> a = b.
Proof.
  revert b. induction a as [|x a IH]; intros [|y b]; cbn [str_compare]; try easy.
  destruct (N.compare_spec (bval x) (bval y)) as [H|H|H].
  - rewrite IH. split; intros E.
    + subst. f_equal. apply bval_inj. exact H.
    + congruence.
  - split; [easy|]. intros E. injection E as -> ->. lia.
  - split; [easy|]. intros E. injection E as -> ->. lia.
Qed.

Lemma str_eqb_eq a b : str_eqb a b = true <-> a = b.
Proof.
  unfold str_eqb. rewrite <- str_compare_eq. destruct (str_compare a b); easy.
Qed.
Lemma str_eqb_refl a : str_eqb a a = true.
Proof. apply str_eqb_eq. reflexivity. Qed.
Lemma str_eqb_neq a b : str_eqb a b = false <-> a <> b.
Proof. rewrite <- str_eqb_eq. destruct (str_eqb a b); split; congruence. Qed.

(** ** maps *)
Section BT.
  Context {K V : Type} (cmp : K -> K -> comparison).
  Hypothesis cmp_eq : forall a b, cmp a b = Eq <-> a = b.

  Lemma bt_get_insert_same k v (m : list (K * V)) : bt_get cmp k (bt_insert cmp k v m) = Some v.
  Proof.
    assert (R : cmp k k = Eq) by (apply cmp_eq; reflexivity).
    induction m as [|[k' v'] m IH]; cbn [bt_insert bt_get].
    - rewrite R. reflexivity.
    - destruct (cmp k k') eqn:C; cbn [bt_get]; rewrite ?R, ?C; auto.
  Qed.
  Lemma bt_get_insert_other k k' v (m : list (K * V)) :
    k <> k' -> bt_get cmp k (bt_insert cmp k' v m) = bt_get cmp k m.
  Proof.
    intros D.
    assert (R : cmp k k' <> Eq) by (intros E; apply cmp_eq in E; auto).
    induction m as [|[k1 v1] m IH]; cbn [bt_insert bt_get].
    - destruct (cmp k k'); easy.
    - destruct (cmp k' k1) eqn:C; cbn [bt_get].
      + apply cmp_eq in C. subst k1. destruct (cmp k k'); easy.
      + destruct (cmp k k'); easy.
      + destruct (cmp k k1); auto.
  Qed.
  Lemma bt_insert_last k v (m : list (K * V)) :
    (forall k', In k' (map fst m) -> cmp k k' = Gt) -> bt_insert cmp k v m = m ++ [(k, v)].
  Proof.
    induction m as [|[k1 v1] m IH]; cbn [bt_insert map fst app In]; intros H; [reflexivity|].
    rewrite H by (left; reflexivity). rewrite IH; [reflexivity|]. intros k' Hk. apply H. right. exact Hk.
  Qed.
  Lemma bt_get_Some_In k v (m : list (K * V)) : bt_get cmp k m = Some v -> In (k, v) m.
  Proof.
    induction m as [|[k1 v1] m IH]; cbn [bt_get In]; [easy|].
    destruct (cmp k k1) eqn:C; intros H.
    - apply cmp_eq in C. left. congruence.
    - right. auto.
    - right. auto.
  Qed.
End BT.

Lemma N_compare_eq a b : N.compare a b = Eq <-> a = b.
Proof. apply N.compare_eq_iff. Qed.

(** ** loops *)
Section LoopFacts.
  Context {S R : Type} (step : S -> S + R).
  (** unary version of [loop_N] *)
  Fixpoint loop_nat (n : nat) (s : S) : S + R :=
    match n with
    | O => inl s
    | Datatypes.S n' => match step s with inl s' => loop_nat n' s' | inr r => inr r end
    end.
  Lemma loop_nat_add a b s :
    loop_nat (a + b) s = match loop_nat a s with inl s' => loop_nat b s' | inr r => inr r end.
  Proof.
    revert s. induction a as [|a IH]; intros s; cbn [Nat.add loop_nat]; [reflexivity|].
    destruct (step s); auto.
  Qed.
  Lemma loop_pos_nat p s : loop_pos step p s = loop_nat (Pos.to_nat p) s.
  Proof.
    revert s. induction p as [p IH|p IH|]; intros s; cbn [loop_pos].
    - rewrite Pos2Nat.inj_xI. cbn [loop_nat]. destruct (step s) as [s1|r]; [|reflexivity].
      replace (2 * Pos.to_nat p)%nat with (Pos.to_nat p + Pos.to_nat p)%nat by lia.
      rewrite loop_nat_add, IH. destruct (loop_nat _ s1); [apply IH|reflexivity].
    - rewrite Pos2Nat.inj_xO.
      replace (2 * Pos.to_nat p)%nat with (Pos.to_nat p + Pos.to_nat p)%nat by lia.
      rewrite loop_nat_add, IH. destruct (loop_nat _ s); [apply IH|reflexivity].
    - change (Pos.to_nat 1) with 1%nat. cbn [loop_nat]. destruct (step s); reflexivity.
  Qed.
  Lemma loop_N_nat n s : loop_N step n s = loop_nat (N.to_nat n) s.
  Proof. destruct n as [|p]; [reflexivity|]. cbn [loop_N]. rewrite loop_pos_nat. reflexivity. Qed.
End LoopFacts.

(** [while_M] as a recursion on a unary bound *)
Fixpoint while_nat {S A} (n : nat) (body : S -> M (S + A)) (s : S) : M A :=
  match n with
  | O => lift Diverge
  | Datatypes.S n' => x <- body s ;; match x with inl s' => while_nat n' body s' | inr a => ret a end
  end.
Lemma while_M_nat {S A} bound (body : S -> M (S + A)) s r :
  while_M bound body s r = while_nat (N.to_nat bound) body s r.
Proof.
  unfold while_M. rewrite loop_N_nat.
  generalize (N.to_nat bound) as n. intros n. revert s r.
  induction n as [|n IH]; intros s r; cbn [loop_nat while_nat]; [reflexivity|].
  unfold bind at 1. cbn [fst snd].
  destruct (body s r) as [[[s'|a]| | |] r']; try reflexivity. apply IH.
Qed.

(** ** the monad *)
Lemma bind_Ok {A B} (m : M A) (k : A -> M B) r b r2 :
  bind m k r = (Ok b, r2) -> exists a r1, m r = (Ok a, r1) /\ k a r1 = (Ok b, r2).
Proof.
  unfold bind. destruct (m r) as [[a|e|p|] r1] eqn:Hm; intros H; try discriminate. eauto.
Qed.
Lemma bind_eq {A B} (m : M A) (k : A -> M B) r a r1 :
  m r = (Ok a, r1) -> bind m k r = k a r1.
Proof. unfold bind. intros ->. reflexivity. Qed.

Lemma length_fit n bs : length (fit n bs) = n.
Proof. unfold fit. rewrite firstn_length, app_length, repeat_length. lia. Qed.
Lemma fit_exact n bs : length bs = n -> fit n bs = bs.
Proof.
  intros <-. unfold fit. rewrite firstn_app, Nat.sub_diag, firstn_all. cbn. apply app_nil_r.
Qed.

(** ** machine integers *)
Lemma from_le_bytes_lt bs : from_le_bytes bs < 256 ^ N.of_nat (length bs).
Proof.
  induction bs as [|b bs IH]; cbn [from_le_bytes length].
  - cbn. lia.
  - pose proof (bval_lt b). rewrite Nat2N.inj_succ, N.pow_succ_r'. nia.
Qed.
Lemma from_be_bytes_lt bs : from_be_bytes bs < 256 ^ N.of_nat (length bs).
Proof. unfold from_be_bytes. rewrite <- (rev_length bs). apply from_le_bytes_lt. Qed.

Lemma checked_Some bits v w : checked bits v = Some w <-> v = w /\ v < 2 ^ bits.
Proof. unfold checked, two_pow. destruct (N.ltb_spec v (2 ^ bits)); split; intros; try (split; try congruence; lia); try destruct H0; try congruence; try lia. Qed.
Lemma checked_None bits v : checked bits v = None <-> 2 ^ bits <= v.
Proof. unfold checked, two_pow. destruct (N.ltb_spec v (2 ^ bits)); split; intros; try congruence; lia. Qed.
Lemma wrap_small {E} c bits v : v < 2 ^ bits -> @wrap_or_panic E c bits v = Ok v.
Proof. unfold wrap_or_panic, two_pow. intros H. destruct (N.ltb_spec v (2 ^ bits)); [reflexivity|lia]. Qed.
