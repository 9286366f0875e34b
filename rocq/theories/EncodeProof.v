(** * EncodeProof: an encoded file describes the declarations it was made from. *)
From Coq Require Import Lia ZifyBool ZifyNat ZifyN.
From Verif Require Import TypeInfo BaseFacts Spec Encode Bits Maps Exact.
From Coq Require Import Strings.Byte.
Ltac Zify.zify_post_hook ::= Z.div_mod_to_equations.

(** ** Words *)
Lemma to_byte_val n : Byte.to_N (to_byte n) = n mod 256.
Proof. exact (bval_byte_of n). Qed.
Lemma word_bytes_length en w : length (word_bytes en w) = 4%nat.
Proof. destruct en; reflexivity. Qed.
Lemma word_bytes_value en w : w < 2 ^ 32 -> value en (word_bytes en w) = w.
Proof.
  intros H.
  assert (E : little_value [to_byte w; to_byte (w / 2 ^ 8); to_byte (w / 2 ^ 16); to_byte (w / 2 ^ 24)] = w).
  { cbn [little_value]. rewrite !to_byte_val.
    change (2 ^ 8) with 256. change (2 ^ 16) with 65536. change (2 ^ 24) with 16777216. change (2 ^ 32) with 4294967296 in H. lia. }
  destruct en; [exact E|].
  cbn [value word_bytes]. rewrite big_value_eq. unfold from_be_bytes. rewrite rev_involutive, <- little_value_eq. exact E.
Qed.
Lemma words_bytes_length en ws : length (words_bytes en ws) = (4 * length ws)%nat.
Proof. induction ws as [|w ws IH]; [reflexivity|]. cbn [words_bytes flat_map]. rewrite app_length, word_bytes_length. fold (words_bytes en ws). cbn [length]. lia. Qed.
Lemma words_bytes_app en a b : words_bytes en (a ++ b) = words_bytes en a ++ words_bytes en b.
Proof. apply flat_map_app. Qed.

Lemma words_at img en off ws i w :
  bytes_at img off (words_bytes en ws) -> nth_error ws i = Some w -> w < 2 ^ 32 ->
  u32_at img en (off + 4 * N.of_nat i) w.
Proof.
  intros Hb Hi Hw. apply nth_error_split in Hi. destruct Hi as (l1 & l2 & -> & Hl).
  exists (word_bytes en w). split; [apply word_bytes_length|]. split; [|apply word_bytes_value; exact Hw].
  rewrite words_bytes_app in Hb. apply bytes_at_app in Hb. destruct Hb as [_ Hb].
  change (words_bytes en (w :: l2)) with (word_bytes en w ++ words_bytes en l2) in Hb.
  apply bytes_at_app in Hb. destruct Hb as [Hb _]. rewrite words_bytes_length, Hl in Hb.
  replace (off + 4 * N.of_nat i) with (off + N.of_nat (4 * i)) by lia. exact Hb.
Qed.

Lemma flat_map_nth {A B} (g : A -> list B) k l i a j :
  (forall a, length (g a) = k) -> nth_error l i = Some a -> (j < k)%nat ->
  nth_error (flat_map g l) (k * i + j) = nth_error (g a) j.
Proof.
  intros Hg. revert i. induction l as [|b l IH]; intros [|i] Hi Hj; try discriminate; cbn [flat_map].
  - injection Hi as ->. rewrite Nat.mul_0_r. cbn [Nat.add]. apply nth_error_app1. rewrite Hg. exact Hj.
  - rewrite nth_error_app2 by (rewrite Hg; lia). rewrite Hg.
    replace (k * S i + j - k)%nat with (k * i + j)%nat by lia. apply IH; assumption.
Qed.
Lemma flat_map_len {A B} (g : A -> list B) k l : (forall a, length (g a) = k) -> length (flat_map g l) = (k * length l)%nat.
Proof. intros Hg. induction l as [|a l IH]; cbn [flat_map length]; [lia|]. rewrite app_length, Hg, IH. lia. Qed.

(** ** The string table *)
Lemma starts_with_spec p l : starts_with p l = true <-> exists r, l = p ++ r.
Proof.
  revert l. induction p as [|x p IH]; intros l; cbn [starts_with].
  - split; [intros _; exists l; reflexivity|auto].
  - destruct l as [|y l]; [split; [discriminate|intros [r E]; discriminate]|].
    rewrite andb_true_iff, N.eqb_eq, IH. split.
    + intros [E [r ->]]. apply (bval_inj x y) in E. subst. exists r. reflexivity.
    + intros [r E]. injection E as -> ->. split; [reflexivity|]. exists r. reflexivity.
Qed.
Lemma find_from_spec p : p <> [] -> forall l k, (exists a b, l = a ++ p ++ b) ->
  exists a b, l = a ++ p ++ b /\ find_from k p l = k + N.of_nat (length a).
Proof.
  intros Hp l. induction l as [|y l IH]; intros k (a & b & E).
  - destruct a; [destruct p; [contradiction|discriminate]|discriminate].
  - cbn [find_from]. destruct (starts_with p (y :: l)) eqn:S.
    + apply starts_with_spec in S. destruct S as [r ->]. exists [], r. split; [reflexivity|cbn; lia].
    + destruct a as [|z a].
      { cbn in E. rewrite E in S. assert (starts_with p (p ++ b) = true) by (apply starts_with_spec; eauto). congruence. }
      injection E as -> E. destruct (IH (k + 1)) as (a' & b' & -> & Hf); [eauto|].
      exists (z :: a'), b'. split; [reflexivity|]. rewrite Hf. cbn [length]. lia.
Qed.
Lemma string_offset_spec ns s : In s ns ->
  exists a b, string_table ns = a ++ (s ++ [x00]) ++ b /\ string_offset (string_table ns) s = N.of_nat (length a) /\ a <> [].
Proof.
  intros Hin. unfold string_offset. cbn [string_table tl].
  destruct (find_from_spec (s ++ [x00]) ltac:(destruct s; discriminate) (flat_map (fun s => s ++ [x00]) ns) 1) as (a & b & E & Hf).
  - apply in_split in Hin. destruct Hin as (l1 & l2 & ->). rewrite flat_map_app. cbn [flat_map]. eauto.
  - exists (x00 :: a), b. unfold string_table. split; [rewrite E; reflexivity|]. split; [|discriminate].
    etransitivity; [exact Hf|]. cbn [length]. lia.
Qed.

Lemma ascii_latin1 s : ascii_name s -> latin1 s s /\ ~ In x00 s.
Proof.
  unfold ascii_name. intros H. split.
  - exists (map (fun b => [b]) s). split; [|induction s as [|b s IH]; [reflexivity|inversion H; subst; cbn; f_equal; auto]].
    induction H as [|b s Hb _ IH]; cbn; constructor; [left; split; [lia|reflexivity]|exact IH].
  - intros Hin. rewrite Forall_forall in H. specialize (H _ Hin). cbn in H. lia.
Qed.

Section Records.
  Context (f : layout) (ns : list str) (reserved : decl -> N).
  Let table := string_table ns.
  Hypothesis Hstr : bytes_at (image f) (strings_lo f) table.
  Hypothesis Hhi : strings_hi f = strings_lo f + N.of_nat (length table).
  Hypothesis H32 : strings_hi f < 2 ^ 32.
  Hypothesis T32 : types_hi f < 2 ^ 32.

  Lemma string_at_offset s : In s ns -> ascii_name s ->
    string_at f (string_offset table s) s /\ string_offset table s <> 0 /\ string_offset table s < 2 ^ 32.
  Proof.
    intros Hin Ha. destruct (string_offset_spec ns s Hin) as (a & b & E & Ho & Hne). fold table in E, Ho.
    destruct (ascii_latin1 s Ha) as [Hl Hz]. rewrite Ho.
    assert (L : N.of_nat (length table) = N.of_nat (length a) + N.of_nat (length s) + 1 + N.of_nat (length b))
      by (rewrite E, !app_length; cbn [length]; lia).
    split; [|split; [destruct a; [contradiction|cbn [length]; lia]|lia]].
    exists s. split; [|exact Hl]. split; [|split; [exact Hz|split; [lia|exact H32]]].
    rewrite E in Hstr. apply bytes_at_app in Hstr. destruct Hstr as [_ H]. apply bytes_at_app in H. apply H.
  Qed.
  Lemma name_at_ref o : incl (opt_name o) ns -> Forall ascii_name (opt_name o) ->
    name_at f (ref table o) o /\ ref table o < 2 ^ 32.
  Proof.
    destruct o as [s|]; cbn [opt_name ref name_at]; intros Hin Ha; [|split; [reflexivity|lia]].
    destruct (string_at_offset s) as (H1 & H2 & H3).
    - apply Hin. left. reflexivity.
    - inversion Ha; assumption.
    - auto.
  Qed.

  Lemma info_fields k v fl r : v < 2 ^ 16 -> k < 32 -> reserved_ok r ->
    let w := info_word k v fl + r in
    w < 2 ^ 32 /\ k = w / 2 ^ 24 mod 32 /\ v = w mod 2 ^ 16 /\ fl = (2 ^ 31 <=? w).
  Proof.
    unfold info_word, reserved_ok. change (2 ^ 16) with 65536. change (2 ^ 24) with 16777216. change (2 ^ 31) with 2147483648. change (2 ^ 32) with 4294967296. change (2 ^ 29) with 536870912. change (2 ^ 8) with 256. change (2 ^ 2) with 4.
    intros Hv Hk (a & b & Hra & Hrb & ->). destruct fl; repeat split; try lia.
  Qed.

  Lemma mk_header ws off K v fl name st r : reserved_ok r ->
    bytes_at (image f) off (words_bytes (order f) ([name; info_word (kind_code K) v fl + r; st] ++ ws)) ->
    name < 2 ^ 32 -> v < 2 ^ 16 -> st < 2 ^ 32 ->
    header_at f off {| h_kind := K; h_name_offset := name; h_vlen := v; h_kind_flag := fl; h_size_or_type := st |}.
  Proof.
    intros Hr Hb Hn Hv Hst. destruct (info_fields (kind_code K) v fl r Hv) as (I1 & I2 & I3 & I4); [destruct K; cbn; lia|exact Hr|].
    unfold header_at. cbn [h_kind h_name_offset h_vlen h_kind_flag h_size_or_type].
    pose proof (words_at _ _ _ _ 0 name Hb eq_refl Hn) as W0.
    pose proof (words_at _ _ _ _ 1 _ Hb eq_refl I1) as W1.
    pose proof (words_at _ _ _ _ 2 st Hb eq_refl Hst) as W2.
    replace (off + 4 * N.of_nat 0) with off in W0 by lia.
    change (4 * N.of_nat 1) with 4 in W1. change (4 * N.of_nat 2) with 8 in W2. eauto 8.
  Qed.

  Lemma items_words {A B} (g : A -> list N) k (item : N -> B -> Prop) (mk : A -> B) hd off l :
    bytes_at (image f) off (words_bytes (order f) (hd ++ flat_map g l)) -> length hd = 3%nat ->
    (forall a, length (g a) = k) ->
    (forall a p, In a l -> bytes_at (image f) p (words_bytes (order f) (g a)) -> item p (mk a)) ->
    items_at item (off + 12) (4 * N.of_nat k) (len l) (map mk l).
  Proof.
    intros Hb Hhd Hg Hit. unfold items_at, len. rewrite map_length. split; [reflexivity|].
    intros i b Hi. rewrite nth_error_map in Hi. destruct (nth_error l i) as [a|] eqn:Ea; [|discriminate].
    injection Hi as <-. apply nth_error_split in Ea. destruct Ea as (l1 & l2 & -> & Hl1).
    apply Hit; [apply in_or_app; right; left; reflexivity|].
    rewrite words_bytes_app in Hb. apply bytes_at_app in Hb. destruct Hb as [_ Hb].
    rewrite flat_map_app, words_bytes_app in Hb. apply bytes_at_app in Hb. destruct Hb as [_ Hb].
    cbn [flat_map] in Hb. rewrite words_bytes_app in Hb. apply bytes_at_app in Hb. destruct Hb as [Hb _].
    rewrite !words_bytes_length, (flat_map_len g k l1 Hg), Hhd, Hl1 in Hb.
    replace (off + 12 + 4 * N.of_nat k * N.of_nat i) with (off + N.of_nat (4 * 3) + N.of_nat (4 * (k * i))) by lia.
    exact Hb.
  Qed.

  Lemma member_word_ok fl o : offset_ok fl o -> member_word fl o < 2 ^ 32 /\ member_offset fl (member_word fl o) o.
  Proof.
    unfold member_offset, offset_ok, member_word.
    change (2 ^ 24) with 16777216. change (2 ^ 32) with 4294967296. change (2 ^ 8) with 256.
    destruct o as [b|b s].
    - destruct fl; intros H.
      + split; [lia|]. destruct (N.eqb_spec (8 * b / 16777216) 0); [|lia]. destruct (N.eqb_spec (8 * b mod 8) 0); [|lia].
        cbn [andb]. f_equal. lia.
      + split; [lia|]. split; [lia|]. f_equal. lia.
    - intros (-> & Hb & Hs & Hn). split; [lia|].
      assert (E1 : (b + 16777216 * s) / 16777216 = s) by lia.
      assert (E2 : (b + 16777216 * s) mod 16777216 = b) by lia.
      assert (E3 : (b + 16777216 * s) mod 8 = b mod 8) by lia.
      rewrite E1, E2, E3.
      destruct (N.eqb_spec s 0); [|reflexivity]. destruct (N.eqb_spec (b mod 8) 0); [|reflexivity]. tauto.
  Qed.
  Lemma value_word_ok bits sg v : 0 < bits -> value_fits bits sg v ->
    value_word bits v < 2 ^ bits /\
    if sg then exists z, v = Signed z /\ signed_value bits (value_word bits v) z else v = Unsigned (value_word bits v).
  Proof.
    intros Hbits. assert (P : (0 < 2 ^ Z.of_N bits)%Z) by (apply Z.pow_pos_nonneg; lia).
    assert (P2 : Z.of_N (2 ^ bits) = (2 ^ Z.of_N bits)%Z) by (rewrite N2Z.inj_pow; reflexivity).
    destruct v as [z|n]; cbn [value_fits value_word]; intros [-> Hr].
    - pose proof (Z.mod_pos_bound z _ P) as Hm. split; [lia|].
      exists z. split; [reflexivity|]. split; [lia|]. split; [exact Hr|]. rewrite Z2N.id; lia.
    - split; [exact Hr|reflexivity].
  Qed.

  Lemma read_word p ws i w : bytes_at (image f) p (words_bytes (order f) ws) -> nth_error ws i = Some w -> w < 2 ^ 32 ->
    forall q, q = p + 4 * N.of_nat i -> u32_at (image f) (order f) q w.
  Proof. intros Hb Hi Hw q ->. eapply words_at; eassumption. Qed.

  Lemma mk_member fl m p :
    incl (opt_name (fst (fst m))) ns -> Forall ascii_name (opt_name (fst (fst m))) -> member_ok fl m ->
    bytes_at (image f) p (words_bytes (order f) (member_words table fl m)) ->
    member_at f fl p {| m_name_offset := ref table (fst (fst m)); m_name := fst (fst m); m_tid := snd (fst m); m_offset := snd m |}.
  Proof.
    intros Hin Ha [Htid Hoff] Hb. destruct (name_at_ref _ Hin Ha) as [N1 N2].
    destruct (member_word_ok fl (snd m) Hoff) as [W1 W2]. unfold member_at. cbn [m_name_offset m_name m_tid m_offset].
    split; [|split; [exact N1|split; [|exists (member_word fl (snd m)); split; [|exact W2]]]].
    - eapply (read_word p _ 0); [exact Hb|reflexivity|assumption|lia].
    - eapply (read_word p _ 1); [exact Hb|reflexivity|assumption|lia].
    - eapply (read_word p _ 2); [exact Hb|reflexivity|assumption|lia].
  Qed.
  Lemma mk_value32 sg v p : In (fst v) ns -> ascii_name (fst v) -> value_fits 32 sg (snd v) ->
    bytes_at (image f) p (words_bytes (order f) [ref table (Some (fst v)); value_word 32 (snd v)]) ->
    enumerator_at f 4 sg p {| nv_name := fst v; nv_value := snd v |}.
  Proof.
    intros Hin Ha Hv Hb. destruct (string_at_offset _ Hin Ha) as (S1 & _ & S3).
    destruct (value_word_ok 32 sg (snd v) ltac:(lia) Hv) as [W1 W2].
    split.
    - exists (string_offset table (fst v)). split; [|exact S1].
      eapply (read_word p _ 0); [exact Hb|reflexivity|assumption|lia].
    - exists (value_word 32 (snd v)). split; [|exact W2].
      eapply (read_word p _ 1); [exact Hb|reflexivity|assumption|lia].
  Qed.
  Definition loaded_value (en : endianness) sg v : integer_value :=
    match en with Little => v | Big => exchanged_value sg v end.
  Lemma mk_value64 sg v p : In (fst v) ns -> ascii_name (fst v) -> value_fits 64 sg (snd v) ->
    bytes_at (image f) p (words_bytes (order f) [ref table (Some (fst v)); value_word 64 (snd v) mod 2 ^ 32; value_word 64 (snd v) / 2 ^ 32]) ->
    enumerator_at f 8 sg p {| nv_name := fst v; nv_value := loaded_value (order f) sg (snd v) |}.
  Proof.
    intros Hin Ha Hv Hb. destruct (string_at_offset _ Hin Ha) as (S1 & _ & S3).
    destruct (value_word_ok 64 sg (snd v) ltac:(lia) Hv) as [W1 W2].
    split; cbn [nv_name nv_value].
    - exists (string_offset table (fst v)). split; [|exact S1].
      eapply (read_word p _ 0); [exact Hb|reflexivity|assumption|lia].
    - unfold loaded_value, exchanged_value, exchange.
      set (w := value_word 64 (snd v)) in *. clearbody w.
      change (ref table (Some (fst v))) with (string_offset table (fst v)) in Hb.
      change (words_bytes (order f) [string_offset table (fst v); w mod 2 ^ 32; w / 2 ^ 32]) with
        (words_bytes (order f) ([string_offset table (fst v)] ++ [w mod 2 ^ 32; w / 2 ^ 32])) in Hb.
      rewrite words_bytes_app in Hb. apply bytes_at_app in Hb. destruct Hb as [_ Hb].
      rewrite words_bytes_length in Hb. change (N.of_nat (4 * length [string_offset table (fst v)])) with 4 in Hb.
      assert (W : word_at (image f) (order f) 8 (p + 4) (value (order f) (words_bytes (order f) [w mod 2 ^ 32; w / 2 ^ 32])))
        by (exists (words_bytes (order f) [w mod 2 ^ 32; w / 2 ^ 32]); split; [rewrite words_bytes_length; reflexivity|split; [exact Hb|reflexivity]]).
      change (2 ^ 64) with 18446744073709551616 in W1. change (2 ^ 32) with 4294967296 in *.
      destruct (order f) eqn:Hord.
      + exists w. split; [|exact W2].
        pose proof (word_bytes_value Little (w mod 4294967296) ltac:(lia)) as V1.
        pose proof (word_bytes_value Little (w / 4294967296) ltac:(lia)) as V2.
        cbn [words_bytes flat_map] in W. rewrite app_nil_r in W. cbn [value] in *.
        rewrite little_value_eq in *. rewrite from_le_bytes_app, word_bytes_length, V1, V2 in W.
        change (256 ^ N.of_nat 4) with 4294967296 in W. replace w with (w mod 4294967296 + 4294967296 * (w / 4294967296)) at 1 by lia. exact W.
      + exists (w mod 4294967296 * 4294967296 + w / 4294967296). split.
        * pose proof (word_bytes_value Big (w mod 4294967296) ltac:(lia)) as V1.
          pose proof (word_bytes_value Big (w / 4294967296) ltac:(lia)) as V2.
          cbn [words_bytes flat_map] in W. rewrite app_nil_r in W. cbn [value] in *.
          rewrite big_value_eq in *. unfold from_be_bytes in *. rewrite rev_app_distr, from_le_bytes_app, rev_length, word_bytes_length, V1, V2 in W.
          change (256 ^ N.of_nat 4) with 4294967296 in W. replace (w mod 4294967296 * 4294967296 + w / 4294967296) with (w / 4294967296 + 4294967296 * (w mod 4294967296)) by lia. exact W.
        * destruct sg; [|reflexivity]. eexists. split; [reflexivity|].
          assert (Hlt : w mod 4294967296 * 4294967296 + w / 4294967296 < 2 ^ 64) by (change (2 ^ 64) with 18446744073709551616; lia).
          exact (as_signed_spec 64 _ ltac:(lia) Hlt).
  Qed.

  Lemma bit_lt b k : bit b k <= 2 ^ k.
  Proof. destruct b; cbn [bit]; lia. Qed.

  Lemma int_word_ok n sz sg ch bo off bits : off < 256 -> bits < 256 ->
    let w := bits + 2 ^ 16 * off + bit sg 24 + bit ch 25 + bit bo 26 in
    w < 2 ^ 32 /\ int_encoding w {| int_name := n; int_size := sz; int_signed := sg; int_char := ch; int_boolean := bo; int_offset := off; int_bits := bits |}.
  Proof.
    intros H1 H2 w. unfold int_encoding. cbn [int_signed int_char int_boolean int_offset int_bits].
    assert (Q : w / 2 ^ 24 = bit sg 0 + bit ch 1 + bit bo 2).
    { subst w. destruct sg, ch, bo; cbn [bit]; change (2 ^ 16) with 65536; change (2 ^ 24) with 16777216; change (2 ^ 25) with 33554432; change (2 ^ 26) with 67108864; change (2 ^ 0) with 1; change (2 ^ 1) with 2; change (2 ^ 2) with 4; lia. }
    assert (B : forall k, N.testbit w (k + 24) = N.testbit (bit sg 0 + bit ch 1 + bit bo 2) k).
    { intros k. rewrite <- Q. rewrite <- N.shiftr_div_pow2, N.shiftr_spec'. reflexivity. }
    pose proof (B 0) as B0. pose proof (B 1) as B1. pose proof (B 2) as B2. change (0 + 24) with 24 in B0. change (1 + 24) with 25 in B1. change (2 + 24) with 26 in B2.
    rewrite B0, B1, B2. clear B B0 B1 B2 Q. subst w.
    change (2 ^ 16) with 65536; change (2 ^ 32) with 4294967296.
    destruct sg, ch, bo; cbn [bit]; change (2 ^ 24) with 16777216; change (2 ^ 25) with 33554432; change (2 ^ 26) with 67108864;
      repeat split; lia.
  Qed.

  Lemma finish h off (ws : list N) t d :
    header_at f off h -> payload_at f (off + 12) h t -> 4 * len ws = 12 + extra_size h -> checked_size h <= extra_size h ->
    off + 4 * len ws <= types_hi f -> view t = Some d ->
    exists t, record_at f off t (off + 4 * len ws) /\ view t = Some d /\ 3 <= len ws.
  Proof.
    intros Hh Hp Hl Hc Hfit Hv. exists t. split; [|split; [exact Hv|lia]].
    exists h. split; [exact Hh|]. split; [exact Hp|]. repeat split; try assumption; lia.
  Qed.

  Lemma incl_part {A} (l : list A) (g : A -> list str) a (rest : list str) :
    incl (rest ++ flat_map g l) ns -> Forall ascii_name (rest ++ flat_map g l) -> In a l ->
    incl (g a) ns /\ Forall ascii_name (g a).
  Proof.
    intros Hin Ha HI. assert (I : incl (g a) (rest ++ flat_map g l)).
    { intros x Hx. apply in_or_app. right. apply in_flat_map. eauto. }
    split; [intros x Hx; apply Hin, I, Hx|]. apply Forall_forall. intros x Hx. rewrite Forall_forall in Ha. apply Ha, I, Hx.
  Qed.

  Lemma map_id_eq {A} (g : A -> A) l : (forall a, g a = a) -> map g l = l.
  Proof. intros H. induction l as [|a l IH]; cbn; [reflexivity|]. rewrite H, IH. reflexivity. Qed.

  Ltac fin_link K := 
    match goal with HR : reserved_ok _, Hb : bytes_at _ ?off (words_bytes _ [?n; info_word _ ?v ?fl + ?r; ?st]) |- _ =>
      eapply finish; [eapply (mk_header [] off K v fl n st r); [exact HR|exact Hb|assumption || lia|assumption || lia|assumption]
                     | unfold payload_at; cbn [h_kind]; cbn [h_size_or_type h_name_offset] | reflexivity | cbn; lia | assumption | ] end.

  Lemma struct_items fl ms off hd : length hd = 3%nat ->
    (exists rest, incl (rest ++ flat_map (fun m => opt_name (fst (fst m))) ms) ns /\
                  Forall ascii_name (rest ++ flat_map (fun m : option str * N * offset => opt_name (fst (fst m))) ms)) ->
    Forall (member_ok fl) ms ->
    bytes_at (image f) off (words_bytes (order f) (hd ++ flat_map (member_words table fl) ms)) ->
    items_at (member_at f fl) (off + 12) 12 (len ms)
      (map (fun m => {| m_name_offset := ref table (fst (fst m)); m_name := fst (fst m); m_tid := snd (fst m); m_offset := snd m |}) ms).
  Proof.
    intros Hhd (rest & Hin & Ha) Hok Hb.
    apply (items_words (member_words table fl) 3 (member_at f fl) _ hd off ms Hb Hhd); [reflexivity|].
    intros m p Hm Hp. destruct (incl_part _ _ m rest Hin Ha Hm) as [I A]. apply mk_member; try assumption.
    rewrite Forall_forall in Hok. auto.
  Qed.

  Lemma map_members (ms : list (option str * N * offset)) :
    map (fun m => (m_name m, m_tid m, m_offset m))
      (map (fun m => {| m_name_offset := ref table (fst (fst m)); m_name := fst (fst m); m_tid := snd (fst m); m_offset := snd m |}) ms) = ms.
  Proof. rewrite map_map. apply map_id_eq. intros [[n t] o]. reflexivity. Qed.

  Lemma len_items {A} (g : A -> list N) k hd l : length hd = 3%nat -> (forall a, length (g a) = k) ->
    4 * len (hd ++ flat_map g l) = 12 + 4 * N.of_nat k * len l.
  Proof. intros Hhd Hg. unfold len. rewrite app_length, Hhd, (flat_map_len g k l Hg). lia. Qed.

  Lemma record_encoded d off :
    bytes_at (image f) off (words_bytes (order f) (words reserved table d)) ->
    incl (names d) ns -> decl_ok d -> reserved_ok (reserved d) ->
    off + 4 * len (words reserved table d) <= types_hi f ->
    exists t, record_at f off t (off + 4 * len (words reserved table d)) /\ view t = Some (as_loaded (order f) d) /\ 3 <= len (words reserved table d).
  Proof.
    intros Hb Hin (Ha & Hok) HR Hfit.
    assert (SAME : forall d', exchanged d' = d' -> as_loaded (order f) d' = d') by (intros d' E; destruct (order f); [reflexivity|exact E]).
    destruct d; cbn [words names] in *; cbn zeta in *; try rewrite SAME by reflexivity; clear SAME.
    - (* Int *)
      destruct Hok as (K1 & K2 & K3). destruct (name_at_ref _ Hin Ha) as [N1 N2].
      destruct (int_word_ok name size signed char boolean offset bits K2 K3) as [W1 W2].
      eapply finish; [eapply (mk_header _ off KInt 0 false _ _ _ HR Hb N2 ltac:(lia) K1)| |reflexivity|cbn; lia|exact Hfit|].
      + unfold payload_at. cbn [h_kind]. eexists {| int_name := name; int_size := size; int_signed := signed; int_char := char; int_boolean := boolean; int_offset := offset; int_bits := bits |}, _.
        split; [reflexivity|]. split; [exact N1|]. split; [reflexivity|]. split; [|exact W2].
        eapply (read_word off _ 3); [exact Hb|reflexivity|assumption|lia].
      + reflexivity.
    - fin_link KPtr; reflexivity.
    - (* Array *)
      destruct Hok as (K1 & K2 & K3).
      eapply finish; [eapply (mk_header _ off KArray 0 false _ _ _ HR Hb ltac:(lia) ltac:(lia) ltac:(lia))| |reflexivity|cbn; lia|exact Hfit|].
      + unfold payload_at. cbn [h_kind]. exists {| element_tid := element; index_tid := index; element_count := count |}.
        split; [reflexivity|]. cbn [element_tid index_tid element_count].
        split; [|split].
        * eapply (read_word off _ 3); [exact Hb|reflexivity|assumption|lia].
        * eapply (read_word off _ 4); [exact Hb|reflexivity|assumption|lia].
        * eapply (read_word off _ 5); [exact Hb|reflexivity|assumption|lia].
      + reflexivity.
    - (* Struct *)
      destruct Hok as (K1 & K2 & K3). apply incl_app_inv in Hin as Hin'. apply Forall_app in Ha as Ha'.
      destruct (name_at_ref _ (proj1 Hin') (proj1 Ha')) as [N1 N2].
      eapply finish; [eapply (mk_header _ off KStruct (len members) flag _ _ _ HR Hb N2 K2 K1)| | | |exact Hfit|].
      + unfold payload_at. cbn [h_kind]. cbn [h_vlen h_kind_flag].
        eexists {| struct_name := _; struct_size := _; member_list := _ |}. split; [reflexivity|]. split; [exact N1|]. split; [reflexivity|].
        eapply struct_items; [|eauto|exact K3|exact Hb]; reflexivity.
      + rewrite (len_items _ 3); reflexivity.
      + reflexivity.
      + cbn [view h_kind_flag struct_name struct_size member_list h_size_or_type]. rewrite map_members. reflexivity.
    - (* Union *)
      destruct Hok as (K1 & K2 & K3). apply incl_app_inv in Hin as Hin'. apply Forall_app in Ha as Ha'.
      destruct (name_at_ref _ (proj1 Hin') (proj1 Ha')) as [N1 N2].
      eapply finish; [eapply (mk_header _ off KUnion (len members) flag _ _ _ HR Hb N2 K2 K1)| | | |exact Hfit|].
      + unfold payload_at. cbn [h_kind]. cbn [h_vlen h_kind_flag].
        eexists {| struct_name := _; struct_size := _; member_list := _ |}. split; [reflexivity|]. split; [exact N1|]. split; [reflexivity|].
        eapply struct_items; [|eauto|exact K3|exact Hb]; reflexivity.
      + rewrite (len_items _ 3); reflexivity.
      + reflexivity.
      + cbn [view h_kind_flag struct_name struct_size member_list h_size_or_type]. rewrite map_members. reflexivity.
    - (* Enum *)
      destruct Hok as (K1 & K2 & K3). apply incl_app_inv in Hin as Hin'. apply Forall_app in Ha as Ha'.
      destruct (name_at_ref _ (proj1 Hin') (proj1 Ha')) as [N1 N2].
      eapply finish; [eapply (mk_header _ off KEnum (len values) signed _ _ _ HR Hb N2 K2 K1)| | | |exact Hfit|].
      + unfold payload_at. cbn [h_kind]. cbn [h_vlen h_kind_flag].
        exists {| enum_name := name; enum_size := size;
                  named_value_list := map (fun v => {| nv_name := fst v; nv_value := snd v |}) values; enum_signed := signed |}.
        split; [reflexivity|]. split; [exact N1|]. split; [reflexivity|]. split; [reflexivity|]. cbn [named_value_list].
        eapply (items_words (fun v => [ref table (Some (fst v)); value_word 32 (snd v)]) 2 _ _ _ off values Hb); [reflexivity|reflexivity|].
        intros v p Hv Hp. rewrite Forall_forall in K3. destruct Hin' as [_ Hin']. destruct Ha' as [_ Ha']. rewrite Forall_forall in Ha'.
        apply mk_value32; auto; [apply Hin'|apply Ha']; apply in_map; exact Hv.
      + rewrite (len_items _ 2); reflexivity.
      + reflexivity.
      + cbn [view enum_name enum_size enum_signed named_value_list]. rewrite map_map.
        rewrite (map_id_eq (fun v : str * integer_value => (fst v, snd v))) by (intros []; reflexivity). reflexivity.
    - (* Fwd *) destruct (name_at_ref _ Hin Ha) as [N1 N2].
      fin_link KFwd; [eexists; split; [reflexivity|exact N1]|reflexivity].
    - destruct (name_at_ref _ Hin Ha) as [N1 N2].
      fin_link KTypedef; [eexists; split; [reflexivity|exact N1]|reflexivity].
    - fin_link KVolatile; reflexivity.
    - fin_link KConst; reflexivity.
    - fin_link KRestrict; reflexivity.
    - destruct Hok as [Hok Hl]. destruct (name_at_ref _ Hin Ha) as [N1 N2].
      fin_link KFunc; [eexists; split; [reflexivity|exact N1]|reflexivity].
    - (* FuncProto *)
      destruct Hok as (K1 & K2 & K3).
      eapply finish; [eapply (mk_header _ off KFuncProto (len parameters) false _ _ _ HR Hb ltac:(lia) K2 K1)| | | |exact Hfit|].
      + unfold payload_at. cbn [h_kind]. cbn [h_vlen h_kind_flag].
        exists {| parameter_list := map (fun p => {| p_name_offset := ref table (fst p); p_name := fst p; p_tid := snd p |}) parameters; return_tid := returns |}.
        split; [reflexivity|]. split; [reflexivity|]. cbn [parameter_list].
        eapply (items_words (fun p => [ref table (fst p); snd p]) 2 _ _ _ off parameters Hb); [reflexivity|reflexivity|].
        intros v p Hv Hp. rewrite Forall_forall in K3. destruct (incl_part _ _ v [] Hin Ha Hv) as [I A].
        destruct (name_at_ref _ I A) as [N1 N2]. unfold parameter_at. cbn [p_name_offset p_name p_tid].
        split; [|split; [exact N1|]].
        * eapply (read_word p _ 0); [exact Hp|reflexivity|assumption|lia].
        * eapply (read_word p _ 1); [exact Hp|reflexivity|auto|lia].
      + rewrite (len_items _ 2); reflexivity.
      + reflexivity.
      + cbn [view parameter_list return_tid]. rewrite map_map. cbn [p_name p_tid].
        rewrite (map_id_eq (fun v : option str * N => (fst v, snd v))) by (intros []; reflexivity). reflexivity.
    - (* Var *)
      destruct Hok as (K1 & K2). destruct (name_at_ref _ Hin Ha) as [N1 N2].
      eapply finish; [eapply (mk_header _ off KVar 0 false _ _ _ HR Hb N2 ltac:(lia) K1)| |reflexivity|cbn; lia|exact Hfit|].
      + unfold payload_at. cbn [h_kind].
        exists {| var_name := name; var_tid := tid; linkage := linkage; var_linkage_type := if linkage =? 0 then LinkStatic else LinkGlobal |}.
        split; [reflexivity|]. split; [exact N1|]. split; [reflexivity|]. split; [|reflexivity].
        eapply (read_word off _ 3); [exact Hb|reflexivity|assumption|lia].
      + reflexivity.
    - (* DataSec *)
      destruct Hok as (K1 & K2 & K3). destruct (name_at_ref _ Hin Ha) as [N1 N2].
      eapply finish; [eapply (mk_header _ off KDataSec (len variables) false _ _ _ HR Hb N2 K2 K1)| | | |exact Hfit|].
      + unfold payload_at. cbn [h_kind]. cbn [h_vlen h_kind_flag].
        exists {| ds_name := name; ds_size := size;
                  variable_list := map (fun v => {| var_decl_id := fst (fst v); v_offset := snd (fst v); var_size := snd v |}) variables |}.
        split; [reflexivity|]. split; [exact N1|]. split; [reflexivity|]. cbn [variable_list].
        eapply (items_words (fun v => [fst (fst v); snd (fst v); snd v]) 3 _ _ _ off variables Hb); [reflexivity|reflexivity|].
        intros v p Hv Hp. rewrite Forall_forall in K3. destruct (K3 v Hv) as (V1 & V2 & V3). unfold variable_at. cbn [var_decl_id v_offset var_size].
        split; [|split].
        * eapply (read_word p _ 0); [exact Hp|reflexivity|assumption|lia].
        * eapply (read_word p _ 1); [exact Hp|reflexivity|assumption|lia].
        * eapply (read_word p _ 2); [exact Hp|reflexivity|assumption|lia].
      + rewrite (len_items _ 3); reflexivity.
      + reflexivity.
      + cbn [view ds_name ds_size variable_list]. rewrite map_map. cbn [var_decl_id v_offset var_size].
        rewrite (map_id_eq (fun v : N * N * N => (fst (fst v), snd (fst v), snd v))) by (intros [[] ]; reflexivity). reflexivity.
    - (* Float *)
      destruct (name_at_ref _ Hin Ha) as [N1 N2].
      fin_link KFloat; [eexists; split; [reflexivity|exact N1]|reflexivity].
    - (* DeclTag *)
      destruct Hok as (K1 & K2). destruct (name_at_ref _ Hin Ha) as [N1 N2].
      eapply finish; [eapply (mk_header _ off KDeclTag 0 false _ _ _ HR Hb N2 ltac:(lia) K1)| |reflexivity|cbn; lia|exact Hfit|].
      + unfold payload_at. cbn [h_kind].
        exists {| dt_name := name; dt_tid := tid; component_index := component |}.
        split; [reflexivity|]. split; [exact N1|]. split; [reflexivity|].
        eapply (read_word off _ 3); [exact Hb|reflexivity|assumption|lia].
      + reflexivity.
    - destruct (name_at_ref _ Hin Ha) as [N1 N2].
      fin_link KTypeTag; [eexists; split; [reflexivity|exact N1]|reflexivity].
    - (* Enum64 *)
      destruct Hok as (K1 & K2 & K3). apply incl_app_inv in Hin as Hin'. apply Forall_app in Ha as Ha'.
      destruct (name_at_ref _ (proj1 Hin') (proj1 Ha')) as [N1 N2].
      eapply finish; [eapply (mk_header _ off KEnum64 (len values) signed _ _ _ HR Hb N2 K2 K1)| | | |exact Hfit|].
      + unfold payload_at. cbn [h_kind]. cbn [h_vlen h_kind_flag].
        exists {| enum_name := name; enum_size := size;
                  named_value_list := map (fun v => {| nv_name := fst v; nv_value := loaded_value (order f) signed (snd v) |}) values; enum_signed := signed |}.
        split; [reflexivity|]. split; [exact N1|]. split; [reflexivity|]. split; [reflexivity|]. cbn [named_value_list].
        eapply (items_words (fun v => [ref table (Some (fst v)); value_word 64 (snd v) mod 2 ^ 32; value_word 64 (snd v) / 2 ^ 32]) 3 _ _ _ off values Hb); [reflexivity|reflexivity|].
        intros v p Hv Hp. rewrite Forall_forall in K3. destruct Hin' as [_ Hin']. destruct Ha' as [_ Ha']. rewrite Forall_forall in Ha'.
        apply mk_value64; auto; [apply Hin'|apply Ha']; apply in_map; exact Hv.
      + rewrite (len_items _ 3); reflexivity.
      + reflexivity.
      + cbn [view enum_name enum_size enum_signed named_value_list]. rewrite map_map. cbn [nv_name nv_value].
        destruct (order f); cbn [loaded_value as_loaded exchanged]; [|reflexivity].
        rewrite (map_id_eq (fun v : str * integer_value => (fst v, snd v))) by (intros []; reflexivity). reflexivity.
  Qed.

  Lemma records_encoded ds : forall off,
    bytes_at (image f) off (words_bytes (order f) (flat_map (words reserved table) ds)) ->
    incl (flat_map names ds) ns -> Forall decl_ok ds -> Forall (fun d => reserved_ok (reserved d)) ds ->
    off + 4 * len (flat_map (words reserved table) ds) <= types_hi f ->
    exists ts, records_at f off ts (off + 4 * len (flat_map (words reserved table) ds)) /\ map view ts = map (fun d => Some (as_loaded (order f) d)) ds.
  Proof.
    induction ds as [|d ds IH]; intros off Hb Hin Hok HR Hfit; cbn [flat_map] in *.
    - exists []. cbn. rewrite N.add_0_r. split; [constructor|reflexivity].
    - inversion Hok as [|? ? Hd Hds]; subst. inversion HR as [|? ? Hr1 Hr2]; subst. apply incl_app_inv in Hin. destruct Hin as [Hin1 Hin2].
      rewrite words_bytes_app in Hb. apply bytes_at_app in Hb. destruct Hb as [Hb1 Hb2]. rewrite words_bytes_length in Hb2.
      unfold len in *. rewrite app_length in *.
      destruct (record_encoded d off Hb1 Hin1 Hd Hr1) as (t & Hr & Hv & Hl).
      { unfold len. lia. }
      destruct (IH (off + 4 * N.of_nat (length (words reserved table d)))) as (ts & Hrs & Hvs); auto.
      { replace (off + 4 * N.of_nat (length (words reserved table d))) with (off + N.of_nat (4 * length (words reserved table d))) by lia. exact Hb2. }
      { lia. }
      exists (t :: ts). split; [|cbn; congruence].
      econstructor; [|exact Hr|]; [unfold len in Hl; lia|].
      replace (off + 4 * N.of_nat (length (words reserved table d) + length (flat_map (words reserved table) ds)))
        with (off + 4 * N.of_nat (length (words reserved table d)) + 4 * N.of_nat (length (flat_map (words reserved table) ds))) by lia.
      exact Hrs.
  Qed.
End Records.

Theorem encode_describes ver fl reserved en ds :
  Forall decl_ok ds -> Forall (fun d => reserved_ok (reserved d)) ds -> len (encode_with ver fl reserved en ds) < 2 ^ 32 ->
  exists ts, file_describes (encode_with ver fl reserved en ds) ts /\ map view ts = map (fun d => Some (as_loaded en d)) ds.
Proof.
  intros Hok HR Hlen. set (table := string_table (flat_map names ds)).
  set (tw := flat_map (words reserved table) ds). set (types := words_bytes en tw).
  assert (Ht : len types = 4 * len tw) by (unfold types, len; rewrite words_bytes_length; lia).
  assert (E : encode_with ver fl reserved en ds = magic en ++ [ver; fl] ++ words_bytes en [24; 0; len types; len types; len table] ++ types ++ table) by reflexivity.
  assert (L : len (encode_with ver fl reserved en ds) = 24 + len types + len table).
  { rewrite E. unfold len. rewrite !app_length, words_bytes_length. destruct en; cbn [magic length]; lia. }
  set (hf := {| hf_hdr_len := 24; hf_type_off := 0; hf_type_len := len types; hf_str_off := len types; hf_str_len := len table |}).
  assert (Hw : bytes_at (encode_with ver fl reserved en ds) 4 (words_bytes en [24; 0; len types; len types; len table])).
  { exists (magic en ++ [ver; fl]), (types ++ table). split; [rewrite E, <- !app_assoc; reflexivity|destruct en; reflexivity]. }
  assert (Htb : bytes_at (encode_with ver fl reserved en ds) 24 types).
  { exists (magic en ++ [ver; fl] ++ words_bytes en [24; 0; len types; len types; len table]), table.
    split; [rewrite E, <- !app_assoc; reflexivity|]. rewrite !app_length, words_bytes_length. destruct en; reflexivity. }
  assert (Hsb : bytes_at (encode_with ver fl reserved en ds) (24 + len types) table).
  { exists (magic en ++ [ver; fl] ++ words_bytes en [24; 0; len types; len types; len table] ++ types), [].
    split; [rewrite E, app_nil_r, <- !app_assoc; reflexivity|]. unfold len. rewrite !app_length, words_bytes_length. destruct en; cbn [magic length]; lia. }
  destruct (records_encoded (layout_of (encode_with ver fl reserved en ds) en hf) (flat_map names ds) reserved) with (ds := ds) (off := 24) as (ts & Hr & Hv);
    cbn [layout_of image order types_lo types_hi strings_lo strings_hi hf hf_hdr_len hf_type_off hf_type_len hf_str_off hf_str_len]; fold table; fold tw; auto; try (unfold len in *; lia).
  { apply incl_refl. }
  exists ts. split; [|exact Hv]. exists en, hf. cbn zeta.
  split; [|split; [cbn; lia|exists (24 + 4 * len tw); split; [exact Hr|cbn; unfold len in *; lia]]].
  unfold file_header_at. cbn [hf hf_hdr_len hf_type_off hf_type_len hf_str_off hf_str_len].
  split; [|split; [|split; [|split; [|split]]]].
  - exists [], ([ver; fl] ++ words_bytes en [24; 0; len types; len types; len table] ++ types ++ table). split; [rewrite E; destruct en; reflexivity|reflexivity].
  - eapply (words_at _ _ 4 _ 0); [exact Hw|reflexivity|lia].
  - eapply (words_at _ _ 4 _ 1); [exact Hw|reflexivity|lia].
  - eapply (words_at _ _ 4 _ 2); [exact Hw|reflexivity|lia].
  - eapply (words_at _ _ 4 _ 3); [exact Hw|reflexivity|lia].
  - eapply (words_at _ _ 4 _ 4); [exact Hw|reflexivity|lia].
Qed.
