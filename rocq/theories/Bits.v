(** * Masks and shifts as division and remainder. *)
From Coq Require Import Lia ZifyBool ZifyNat ZifyN.
From Verif Require Import Format BaseFacts Spec.

Lemma land_ffff x : N.land x 0xFFFF = x mod 2 ^ 16.
Proof. change 0xFFFF with (N.ones 16). apply N.land_ones. Qed.
Lemma land_ff x : N.land x 0xFF = x mod 2 ^ 8.
Proof. change 0xFF with (N.ones 8). apply N.land_ones. Qed.
Lemma land_ffffff x : N.land x 0xFFFFFF = x mod 2 ^ 24.
Proof. change 0xFFFFFF with (N.ones 24). apply N.land_ones. Qed.

Lemma field_kind x : N.shiftr (N.land x 0x1F000000) 24 = x / 2 ^ 24 mod 32.
Proof.
  rewrite N.shiftr_land. change (N.shiftr 0x1F000000 24) with (N.ones 5).
  rewrite N.land_ones, N.shiftr_div_pow2. reflexivity.
Qed.
Lemma field_int_offset x : N.shiftr (N.land x 0x00FF0000) 16 = x / 2 ^ 16 mod 256.
Proof.
  rewrite N.shiftr_land. change (N.shiftr 0x00FF0000 16) with (N.ones 8).
  rewrite N.land_ones, N.shiftr_div_pow2. reflexivity.
Qed.

Lemma land_bit x k : negb (N.land x (2 ^ k) =? 0) = N.testbit x k.
Proof.
  destruct (N.testbit x k) eqn:T.
  - apply Bool.negb_true_iff, N.eqb_neq. intros E.
    assert (N.testbit (N.land x (2 ^ k)) k = true) as B.
    { rewrite N.land_spec, T, N.pow2_bits_true. reflexivity. }
    rewrite E, N.bits_0 in B. discriminate.
  - apply Bool.negb_false_iff, N.eqb_eq, N.bits_inj. intros n. rewrite N.bits_0, N.land_spec.
    destruct (N.eq_dec k n) as [<-|D].
    + rewrite T. reflexivity.
    + rewrite N.pow2_bits_false by exact D. apply Bool.andb_false_r.
Qed.

Lemma encoding_bit x k m : k < 4 -> m = 2 ^ k ->
  negb (N.land (N.shiftr (N.land x 0x0F000000) 24) m =? 0) = N.testbit x (24 + k).
Proof.
  intros Hk ->. rewrite land_bit, N.shiftr_land. change (N.shiftr 0x0F000000 24) with (N.ones 4).
  rewrite N.land_spec, N.ones_spec_low by exact Hk.
  rewrite Bool.andb_true_r, N.shiftr_spec'. f_equal. lia.
Qed.

Lemma field_flag x : x < 2 ^ 32 -> negb (N.land x 0x80000000 =? 0) = (2 ^ 31 <=? x).
Proof.
  intros H. change 0x80000000 with (2 ^ 31). rewrite land_bit, N.testbit_eqb.
  change (2 ^ 32) with 4294967296 in H. change (2 ^ 31) with 2147483648.
  destruct (N.leb_spec 2147483648 x).
  - replace (x / 2147483648) with 1; [reflexivity|].
    apply N.div_unique with (r := x - 2147483648); lia.
  - rewrite N.div_small by lia. reflexivity.
Qed.

(** The member offset word *)
Lemma decode_member_offset_spec kf w o : w < 2 ^ 32 ->
  decode_member_offset kf w = Ok o <-> member_offset kf w o.
Proof.
  intros Hw. unfold decode_member_offset, member_offset. change (2 ^ 32) with 4294967296 in Hw.
  destruct kf.
  - rewrite land_ffffff, land_ff, N.shiftr_div_pow2.
    change (2 ^ 24) with 16777216. change (2 ^ 8) with 256.
    assert (Hd : w / 16777216 < 256) by (apply N.div_lt_upper_bound; lia).
    rewrite (N.mod_small (w / 16777216) 256) by exact Hd.
    destruct (N.eqb_spec (w / 16777216) 0) as [E|E]; cbn [andb].
    + assert (w < 16777216) by lia.
      rewrite (N.mod_small w 16777216) by assumption.
      destruct (N.eqb_spec (w mod 8) 0); cbn [andb]; split; congruence.
    + split; congruence.
  - destruct (N.eqb_spec (w mod 8) 0) as [E|E].
    + split; [intros H; split; congruence|intros [_ ->]; reflexivity].
    + split; [discriminate|intros [? _]; contradiction].
Qed.
Lemma decode_member_offset_err kf w : w < 2 ^ 32 ->
  (exists o, decode_member_offset kf w = Ok o) \/
  (decode_member_offset kf w = Err InvalidOffset /\ kf = false /\ w mod 8 <> 0).
Proof.
  intros Hw. unfold decode_member_offset. destruct kf.
  - destruct (_ && _); eauto.
  - destruct (N.eqb_spec (w mod 8) 0); eauto.
Qed.
Lemma member_offset_fits kf w o : w < 2 ^ 32 -> member_offset kf w o -> offset_fits kf o.
Proof.
  unfold member_offset, offset_fits. intros Hw. change (2 ^ 32) with 4294967296 in Hw.
  change (2 ^ 29) with 536870912. change (2 ^ 24) with 16777216. change (2 ^ 8) with 256. change (2 ^ 21) with 2097152.
  assert (w / 8 < 536870912) by (apply N.div_lt_upper_bound; lia).
  destruct kf; [|intros [_ ->]; assumption].
  destruct (N.eqb_spec (w / 16777216) 0) as [E|E]; cbn [andb].
  - assert (L : w < 16777216) by (apply N.div_small_iff in E; lia).
    destruct (N.eqb_spec (w mod 8) 0) as [E'|E']; intros ->; [apply N.div_lt_upper_bound; lia|].
    rewrite N.mod_small by exact L. repeat split; try lia.
  - intros ->. split; [reflexivity|]. split; [apply N.mod_lt; lia|]. split; [apply N.div_lt_upper_bound; lia|lia].
Qed.

(** Two's complement *)
Lemma as_signed_spec bits v : 0 < bits -> v < 2 ^ bits -> signed_value bits v (as_signed bits v).
Proof.
  intros Hb Hv. unfold signed_value, as_signed.
  assert (P : 2 ^ bits = 2 * 2 ^ (bits - 1)).
  { rewrite <- N.pow_succ_r'. f_equal. lia. }
  assert (Pz : (2 ^ Z.of_N bits = 2 * 2 ^ Z.of_N (bits - 1))%Z).
  { change 2%Z with (Z.of_N 2). rewrite <- !N2Z.inj_pow, P. lia. }
  assert (Q : Z.of_N (2 ^ (bits - 1)) = (2 ^ Z.of_N (bits - 1))%Z) by (rewrite N2Z.inj_pow; reflexivity).
  assert (Q' : Z.of_N (2 ^ bits) = (2 ^ Z.of_N bits)%Z) by (rewrite N2Z.inj_pow; reflexivity).
  split; [exact Hv|].
  destruct (N.ltb_spec v (2 ^ (bits - 1))) as [L|L].
  - split; [lia|]. apply Z.mod_small. lia.
  - split; [lia|]. symmetry. apply Z.mod_unique with (q := (-1)%Z); lia.
Qed.
Lemma signed_value_unique bits v z1 z2 : 0 < bits ->
  signed_value bits v z1 -> signed_value bits v z2 -> z1 = z2.
Proof.
  unfold signed_value. intros Hb (_ & B1 & M1) (_ & B2 & M2).
  assert (Pz : (2 ^ Z.of_N bits = 2 * 2 ^ Z.of_N (bits - 1))%Z).
  { rewrite <- Z.pow_succ_r by lia. f_equal. lia. }
  set (p := (2 ^ Z.of_N (bits - 1))%Z) in *. set (q := (2 ^ Z.of_N bits)%Z) in *.
  assert (0 < p)%Z by (apply Z.pow_pos_nonneg; lia).
  pose proof (Z.div_mod z1 q ltac:(lia)). pose proof (Z.div_mod z2 q ltac:(lia)).
  assert (z1 - z2 = q * (z1 / q - z2 / q))%Z by lia.
  assert (z1 / q - z2 / q = 0)%Z by nia. lia.
Qed.
(** the word is determined by the value *)
Lemma signed_value_inj bits v1 v2 z :
  signed_value bits v1 z -> signed_value bits v2 z -> v1 = v2.
Proof. unfold signed_value. intros (_ & _ & M1) (_ & _ & M2). lia. Qed.

Lemma kind_new_spec v k : kind_new v = Ok k <-> kind_code k = v.
Proof.
  split.
  - unfold kind_new. intros H.
    destruct v as [|p]; [discriminate|].
    repeat (destruct p as [p|p|]; try discriminate; try (injection H as <-; reflexivity)).
  - intros <-. destruct k; reflexivity.
Qed.
Lemma kind_new_err v : (exists k, kind_new v = Ok k) \/ kind_new v = Err InvalidBTFKind /\ (v = 0 \/ 19 < v).
Proof.
  unfold kind_new. destruct v as [|p]; [right; split; [reflexivity|lia]|].
  repeat (destruct p as [p|p|]; try (left; eexists; reflexivity); try (right; split; [reflexivity|lia])).
Qed.
