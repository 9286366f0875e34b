(** * Grow: a file whose sections extend those of another one (C42). *)
From Coq Require Import Lia ZifyBool ZifyNat ZifyN.
From Verif Require Import TypeInfo BaseFacts Spec Bits Maps Safety Local Exact Errors Encode EncodeProof LoadProps.
From Coq Require Import Strings.Byte.

Lemma bytes_at_inside img lo big p bs : bytes_at img lo big -> bytes_at img p bs ->
  lo <= p -> p + N.of_nat (length bs) <= lo + N.of_nat (length big) -> bytes_at big (p - lo) bs.
Proof.
  intros (a & b & E & L) (c & d & E' & L') Hlo Hhi.
  assert (Ec : exists x, c = a ++ x).
  { exists (skipn (length a) c). rewrite E in E'.
    assert (H : a = firstn (length a) c).
    { apply (f_equal (firstn (length a))) in E'. rewrite firstn_app, Nat.sub_diag, firstn_all, firstn_O, app_nil_r in E'.
      rewrite firstn_app in E'. replace (length a - length c)%nat with 0%nat in E' by lia. rewrite firstn_O, app_nil_r in E'. exact E'. }
    rewrite H at 1. symmetry. apply firstn_skipn. }
  destruct Ec as [x ->]. rewrite E in E'. rewrite <- app_assoc in E'. apply app_inv_head in E'.
  rewrite app_length in L'. exists x. 
  assert (Ed : exists y, big = (x ++ bs) ++ y).
  { exists (skipn (length (x ++ bs)) big).
    assert (H : x ++ bs = firstn (length (x ++ bs)) big).
    { rewrite app_assoc in E'. apply (f_equal (firstn (length (x ++ bs)))) in E'.
      rewrite (firstn_app _ big), (firstn_app _ (x ++ bs)), Nat.sub_diag, firstn_all, firstn_O, app_nil_r in E'.
      replace (length (x ++ bs) - length big)%nat with 0%nat in E' by (rewrite app_length; lia).
      rewrite firstn_O, app_nil_r in E'. symmetry. exact E'. }
    rewrite H at 1. symmetry. apply firstn_skipn. }
  destruct Ed as [y ->]. exists y. rewrite <- app_assoc. split; [reflexivity|lia].
Qed.
Lemma bytes_at_within img lo big k bs : bytes_at img lo big -> bytes_at big k bs -> bytes_at img (lo + k) bs.
Proof.
  intros (a & b & -> & <-) (c & d & -> & <-). exists (a ++ c), (d ++ b). split; [|rewrite app_length; lia].
  rewrite <- !app_assoc. reflexivity.
Qed.

(** [big] starts with [small] and is at [lo2] of the second image. *)
Lemma bytes_move i1 i2 lo1 lo2 small rest p q bs :
  bytes_at i1 lo1 small -> bytes_at i2 lo2 (small ++ rest) -> bytes_at i1 p bs ->
  lo1 <= p -> p + N.of_nat (length bs) <= lo1 + N.of_nat (length small) -> q + lo1 = p + lo2 -> bytes_at i2 q bs.
Proof.
  intros H1 H2 Hp Hlo Hhi Hq. pose proof (bytes_at_inside _ _ _ _ _ H1 Hp Hlo Hhi) as Hin.
  replace q with (lo2 + (p - lo1)) by lia. eapply bytes_at_within; [|exact Hin].
  destruct H2 as (a & b & -> & <-). exists a, (rest ++ b). rewrite <- app_assoc. auto.
Qed.

Section Move.
  Context (f1 f2 : layout) (tb trest sb srest : list byte).
  Hypothesis Hord : order f1 = order f2.
  Hypothesis T1 : bytes_at (image f1) (types_lo f1) tb.
  Hypothesis T1e : types_hi f1 = types_lo f1 + len tb.
  Hypothesis T2 : bytes_at (image f2) (types_lo f2) (tb ++ trest).
  Hypothesis T2e : types_hi f2 = types_lo f2 + len (tb ++ trest).
  Hypothesis T2b : types_hi f2 < 2 ^ 32.
  Hypothesis S1 : bytes_at (image f1) (strings_lo f1) sb.
  Hypothesis S1e : strings_hi f1 = strings_lo f1 + len sb.
  Hypothesis S2 : bytes_at (image f2) (strings_lo f2) (sb ++ srest).
  Hypothesis S2e : strings_hi f2 = strings_lo f2 + len (sb ++ srest).
  Hypothesis S2b : strings_hi f2 < 2 ^ 32.

  Lemma word_move n p q v : word_at (image f1) (order f1) n p v -> types_lo f1 <= p -> p + N.of_nat n <= types_hi f1 ->
    q + types_lo f1 = p + types_lo f2 -> word_at (image f2) (order f2) n q v.
  Proof.
    clear S1 S1e S2 S2e S2b. intros (bs & Hl & Hb & Hv) Hlo Hhi Hq. exists bs. split; [exact Hl|]. split; [|rewrite <- Hord; exact Hv].
    eapply bytes_move; [exact T1|exact T2|exact Hb|exact Hlo|unfold len in *; lia|exact Hq].
  Qed.
  Lemma string_move k s : string_at f1 k s -> string_at f2 k s.
  Proof.
    clear T1 T1e T2 T2e T2b. intros (bs & (Hb & Hz & He & H32) & Hl). exists bs. split; [|exact Hl]. split; [|split; [exact Hz|split; [|exact S2b]]].
    - eapply bytes_move; [exact S1|exact S2|exact Hb|lia|rewrite app_length; cbn [length]; unfold len in *; lia|lia].
    - rewrite S2e. unfold len in *. rewrite app_length. lia.
  Qed.
  Lemma name_move k n : name_at f1 k n -> name_at f2 k n.
  Proof. destruct n as [s|]; cbn; [|auto]. intros [H Hs]. split; [exact H|apply string_move; exact Hs]. Qed.

  Lemma items_move {A} (item1 item2 : N -> A -> Prop) sz p q n l :
    (forall p q a, item1 p a -> types_lo f1 <= p -> p + sz <= types_hi f1 -> q + types_lo f1 = p + types_lo f2 -> item2 q a) ->
    items_at item1 p sz n l -> types_lo f1 <= p -> p + sz * n <= types_hi f1 -> q + types_lo f1 = p + types_lo f2 ->
    items_at item2 q sz n l.
  Proof.
    clear T1 T1e T2 T2e T2b S1 S1e S2 S2e S2b.
    intros H [Hl Hi] Hlo Hhi Hq. split; [exact Hl|]. intros i a Ha.
    assert (Hlt : (i < length l)%nat) by (apply nth_error_Some; congruence).
    eapply H; [exact (Hi i a Ha)| | |]; nia.
  Qed.
  Lemma member_move kf p q m : member_at f1 kf p m -> types_lo f1 <= p -> p + 12 <= types_hi f1 -> q + types_lo f1 = p + types_lo f2 -> member_at f2 kf q m.
  Proof.
    intros (A & B & C & w & D & E) Hlo Hhi Hq. split; [eapply word_move; [exact A|lia|lia|lia]|]. split; [apply name_move; exact B|].
    split; [eapply word_move; [exact C|lia|lia|lia]|]. exists w. split; [|exact E]. eapply word_move; [exact D|lia|lia|lia].
  Qed.
  Lemma enumerator_move n sg p q v : enumerator_at f1 n sg p v -> types_lo f1 <= p -> p + (4 + N.of_nat n) <= types_hi f1 -> q + types_lo f1 = p + types_lo f2 -> enumerator_at f2 n sg q v.
  Proof.
    intros ((k & A & B) & w & C & D) Hlo Hhi Hq. split.
    - exists k. split; [eapply word_move; [exact A|lia|lia|lia]|apply string_move; exact B].
    - exists w. split; [eapply word_move; [exact C|lia|lia|lia]|exact D].
  Qed.
  Lemma parameter_move p q v : parameter_at f1 p v -> types_lo f1 <= p -> p + 8 <= types_hi f1 -> q + types_lo f1 = p + types_lo f2 -> parameter_at f2 q v.
  Proof.
    intros (A & B & C) Hlo Hhi Hq. split; [eapply word_move; [exact A|lia|lia|lia]|]. split; [apply name_move; exact B|eapply word_move; [exact C|lia|lia|lia]].
  Qed.
  Lemma variable_move p q v : variable_at f1 p v -> types_lo f1 <= p -> p + 12 <= types_hi f1 -> q + types_lo f1 = p + types_lo f2 -> variable_at f2 q v.
  Proof. intros (A & B & C) Hlo Hhi Hq. repeat split; (eapply word_move; [eassumption|lia|lia|lia]). Qed.

  Lemma payload_move p q h t : payload_at f1 p h t -> types_lo f1 <= p -> p + extra_size h <= types_hi f1 -> q + types_lo f1 = p + types_lo f2 -> payload_at f2 q h t.
  Proof.
    unfold payload_at, extra_size, h_name. intros Hp Hlo Hhi Hq.
    destruct (h_kind h);
      repeat match goal with H : exists _, _ |- _ => destruct H | H : _ /\ _ |- _ => destruct H end;
      repeat match goal with
      | |- exists _, _ => eexists
      | |- _ /\ _ => split
      end; try eassumption; try reflexivity; try (apply name_move; eassumption);
      try (eapply word_move; [eassumption|lia|lia|lia]);
      try (eapply items_move; [intros; first [eapply member_move|eapply (enumerator_move 4)|eapply (enumerator_move 8)|eapply parameter_move|eapply variable_move]; try eassumption|eassumption|lia|lia|lia]);
      try (cbn; lia).
  Qed.
  Lemma record_move p q t stop : record_at f1 p t stop -> types_lo f1 <= p -> stop <= types_hi f1 -> q + types_lo f1 = p + types_lo f2 ->
    record_at f2 q t (stop - types_lo f1 + types_lo f2).
  Proof.
    intros (h & Hh & Hp & -> & _ & Hc & _) Hlo Hhi Hq. exists h.
    destruct Hh as (A & (info & B & Bi) & C).
    assert (L : len tb <= len (tb ++ trest)) by (unfold len; rewrite app_length; lia).
    repeat split.
    - eapply word_move; [exact A|lia|lia|lia].
    - exists info. split; [eapply word_move; [exact B|lia|lia|lia]|exact Bi].
    - eapply word_move; [exact C|lia|lia|lia].
    - eapply payload_move; [exact Hp|lia|lia|lia].
    - lia.
    - lia.
    - lia.
    - exact T2b.
  Qed.
  Lemma records_stop f p ts stop : records_at f p ts stop -> p <= stop.
  Proof. induction 1 as [|p t n ts stop _ (h & _ & _ & -> & _) _ IH]; lia. Qed.
  Lemma records_move p q ts stop : records_at f1 p ts stop -> types_lo f1 <= p -> stop <= types_hi f1 -> q + types_lo f1 = p + types_lo f2 ->
    records_at f2 q ts (stop - types_lo f1 + types_lo f2).
  Proof.
    intros H. revert q. induction H as [p|p t n ts stop Hin Hr Hrs IH]; intros q Hlo Hhi Hq.
    - replace (p - types_lo f1 + types_lo f2) with q by lia. constructor.
    - pose proof (records_stop _ _ _ _ Hrs) as Hst. assert (p + 12 <= n) by (destruct Hr as (h & _ & _ & -> & _); lia).
      econstructor; [|eapply record_move; [exact Hr|exact Hlo|lia|exact Hq]|apply IH; lia].
      rewrite T2e. rewrite T1e in Hin. unfold len in *. rewrite app_length. lia.
  Qed.
End Move.

(** What the bytes describe is unique. *)
Lemma record_det img en hf p t1 s1 t2 s2 : let f := layout_of img en hf in
  types_lo f <= p -> p <= types_hi f -> record_at f p t1 s1 -> record_at f p t2 s2 -> t1 = t2 /\ s1 = s2.
Proof.
  intros f Hlo Hhi R1 R2. set (e := {| cfg := build64 true; rd := readable_file img |}).
  set (fh := {| version := 0; flags := 0; hdr_len := hf_hdr_len hf; type_off := hf_type_off hf; type_len := hf_type_len hf;
                str_off := hf_str_off hf; str_len := hf_str_len hf |}).
  assert (Hf : f = layout_of img en (fields fh)) by reflexivity.
  assert (H32 : types_hi f < 2 ^ 32) by (destruct R1 as (h & _ & _ & _ & _ & _ & X); exact X).
  destruct (ex_record e img eq_refl (readable_file_serves img) fh en p Hlo Hhi ltac:(lia)
              {| r_off := p; r_end := en; r_trace := [] |} ltac:(split; reflexivity)) as [_ HE].
  destruct (HE t1 s1 R1) as (r1 & E1 & P1 & _). destruct (HE t2 s2 R2) as (r2 & E2 & P2 & _).
  rewrite E1 in E2. injection E2 as -> ->. split; [reflexivity|congruence].
Qed.
Lemma records_prefix img en hf p ts1 s1 ts2 s2 : let f := layout_of img en hf in
  types_lo f <= p -> records_at f p ts1 s1 -> records_at f p ts2 s2 -> types_hi f <= s2 -> exists more, ts2 = ts1 ++ more.
Proof.
  intros f Hlo R1. revert ts2 Hlo. induction R1 as [p|p t n ts1 s1 Hin Hr Hrs IH]; intros ts2 Hlo R2 Hend.
  - exists ts2. reflexivity.
  - inversion R2 as [|? t' n' ts' ? _ Hr' Hrs']; subst; [lia|].
    destruct (record_det img en hf p t n t' n' Hlo (N.lt_le_incl _ _ Hin) Hr Hr') as [<- <-].
    assert (p + 12 <= n) by (destruct Hr as (h & _ & _ & -> & _); lia).
    destruct (IH ts' ltac:(lia) Hrs' Hend) as [more ->]. exists more. reflexivity.
Qed.

(** The sections of [i2] extend those of [i1]. *)
Definition extends (i1 i2 : list byte) : Prop :=
  exists en hf1 hf2 tb trest sb srest,
    let f1 := layout_of i1 en hf1 in let f2 := layout_of i2 en hf2 in
    file_header_at i1 en hf1 /\ file_header_at i2 en hf2 /\
    bytes_at i1 (types_lo f1) tb /\ hf_type_len hf1 = len tb /\
    bytes_at i2 (types_lo f2) (tb ++ trest) /\ hf_type_len hf2 = len (tb ++ trest) /\
    bytes_at i1 (strings_lo f1) sb /\ hf_str_len hf1 = len sb /\
    bytes_at i2 (strings_lo f2) (sb ++ srest) /\ hf_str_len hf2 = len (sb ++ srest) /\
    strings_hi f2 < 2 ^ 32 /\
    (* the records of [i1] end where its type section ends *)
    exists ts, records_at f1 (types_lo f1) ts (types_hi f1).

Lemma grown i1 i2 ts1 ts2 : extends i1 i2 -> file_describes i1 ts1 -> file_describes i2 ts2 -> exists more, ts2 = ts1 ++ more.
Proof.
  intros (en & hf1 & hf2 & tb & trest & sb & srest & H1 & H2 & T1 & T1e & T2 & T2e & S1 & S1e & S2 & S2e & S2b & ts & Hts) D1 D2.
  set (f1 := layout_of i1 en hf1) in *. set (f2 := layout_of i2 en hf2) in *.
  assert (D : file_describes i1 ts).
  { destruct D1 as (en1 & hf1' & Hh & Hlo & _). destruct (header_functional i1 _ _ _ _ Hh H1) as [-> ->].
    exists en, hf1. split; [exact H1|]. split; [exact Hlo|]. exists (types_hi f1). split; [exact Hts|apply N.le_refl]. }
  assert (ts1 = ts) as ->.
  { set (e := {| cfg := build64 true; rd := readable_file i1 |}).
    apply (load_iff e i1 eq_refl (readable_file_serves i1)) in D, D1.
    destruct D as (ti & E & <-), D1 as (ti' & E' & <-). congruence. }
  destruct D2 as (en2 & hf2' & Hh & Hlo2 & stop2 & R2 & Hend). destruct (header_functional i2 _ _ _ _ Hh H2) as [-> ->].
  fold f2 in Hlo2, R2, Hend.
  destruct ts as [|t ts]; [exists ts2; reflexivity|].
  assert (Hne : ts2 <> []).
  { intros ->. inversion R2; subst. inversion Hts as [|? ? n ? ? Hin Hr _]; subst.
    cbn [f1 f2 layout_of types_lo types_hi] in *. rewrite T1e in Hin. rewrite T2e in Hend. unfold len in *. rewrite app_length in Hend. lia. }
  assert (T2b : types_hi f2 < 2 ^ 32).
  { inversion R2 as [|? ? ? ? ? _ (h & _ & _ & _ & _ & _ & X) _]; subst; [congruence|exact X]. }
  assert (M : records_at f2 (types_lo f2) (t :: ts) (types_hi f1 - types_lo f1 + types_lo f2)).
  { apply (records_move f1 f2 tb trest sb srest eq_refl T1) with (p := types_lo f1); try assumption;
      try (unfold f1, f2, layout_of; cbn; lia). }
  eapply records_prefix; [|exact M|exact R2|exact Hend]. apply N.le_refl.
Qed.

Lemma type_at_app ts more i t : type_at ts i t -> type_at (ts ++ more) i t.
Proof. intros [H1 H2]. split; [exact H1|]. rewrite nth_error_app1; [exact H2|]. apply nth_error_Some. congruence. Qed.
Lemma type_at_app_inv ts more i t : type_at (ts ++ more) i t ->
  type_at ts i t \/ (In t more /\ N.of_nat (length ts) < i).
Proof.
  intros [H1 H2]. destruct (Nat.ltb_spec (N.to_nat i - 1) (length ts)).
  - left. rewrite nth_error_app1 in H2 by assumption. split; assumption.
  - right. rewrite nth_error_app2 in H2 by assumption. split; [eapply nth_error_In; exact H2|lia].
Qed.
Lemma lookups_grow t1 t2 more : t1 = tables (types t1) -> t2 = tables (types t2) ->
  Forall type_fits (types t1) -> Forall type_fits (types t2) -> types t2 = types t1 ++ more ->
  (forall i t, from_id t1 i = Some t -> from_id t2 i = Some t) /\
  (forall i n, name_of t1 i = Some n -> name_of t2 i = Some n) /\
  (forall n, (forall t, In t more -> declared_name t <> Some n) -> id_of t2 n = id_of t1 n) /\
  (forall n t, In t more -> declared_name t = Some n -> n <> void_str ->
     exists i, id_of t2 n = Some i /\ N.of_nat (length (types t1)) < i).
Proof.
  intros E1 E2 F1 F2 E.
  assert (CA : forall i n, carries (types t1) i n -> carries (types t2) i n).
  { intros i n (t & Ht & Hn). exists t. rewrite E. split; [apply type_at_app; exact Ht|exact Hn]. }
  split; [|split; [|split]].
  - intros i t H. apply from_id_spec in H; [|exact E1]. apply from_id_spec; [exact E2|].
    destruct H as [H|H]; [auto|]. right. rewrite E. apply type_at_app. exact H.
  - intros i n H. apply name_of_spec in H; [|assumption|assumption]. apply name_of_spec; [assumption|assumption|].
    destruct H as [H|H]; auto.
  - intros n Hno.
    assert (CB : forall i, carries (types t2) i n -> carries (types t1) i n).
    { intros i (t & Ht & Hn). rewrite E in Ht. apply type_at_app_inv in Ht. destruct Ht as [Ht|[Ht _]]; [exists t; auto|].
      destruct (Hno t Ht Hn). }
    destruct (id_of t1 n) as [i|] eqn:E1i.
    + apply id_of_spec in E1i; [|assumption|assumption]. apply id_of_spec; [assumption|assumption|].
      destruct E1i as [H|(Hv & Hc & Hm)]; [auto|]. right. split; [exact Hv|]. split; [auto|]. intros j Hj. apply Hm. auto.
    + destruct (id_of t2 n) as [i|] eqn:E2i; [|reflexivity]. exfalso.
      apply id_of_spec in E2i; [|assumption|assumption]. destruct E2i as [[-> _]|(Hv & Hc & _)]; [discriminate E1i|].
      destruct (carries_id t1 n i E1 F1 Hv (CB i Hc)) as (j & Hj & _). congruence.
  - intros n t Ht Hn Hv. apply In_nth_error in Ht. destruct Ht as [k Hk].
    assert (C : carries (types t2) (N.of_nat (length (types t1) + k) + 1) n).
    { exists t. split; [|exact Hn]. rewrite E. split; [lia|].
      replace (N.to_nat (N.of_nat (length (types t1) + k) + 1) - 1)%nat with (length (types t1) + k)%nat by lia.
      rewrite nth_error_app2 by lia. replace (length (types t1) + k - length (types t1))%nat with k by lia. exact Hk. }
    destruct (carries_id t2 n _ E2 F2 Hv C) as (j & Hj & Hle & _). exists j. split; [exact Hj|lia].
Qed.
