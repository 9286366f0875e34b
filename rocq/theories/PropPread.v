(** * PropPread: however the operating system delivers a file (C88).  [read_exact_at]: Pread.v; [keeps], [reads_from]: PreadSpec.v. *)
From Coq Require Import List NArith Bool Lia Strings.Byte ConstructiveEpsilon.
From Verif Require Import TypeInfo Spec Exact Pread PreadSpec Tools CSpec LoadProps LoadProps2 Final Safety Sample PropLoad PropLoad2 PropMore PropTruncate PropC.
Import ListNotations.
Open Scope N_scope.

Section System.
  Context (sys : system) (img : list byte) (K : keeps sys img).
  Lemma exact_result fuel tr : forall k off n acc a, read_exact_at fuel (sys tr) k off n acc = Some a ->
    (exists bs, a = Bytes (acc ++ bs) /\ N.of_nat (length bs) = n /\ (0 < n -> bytes_at img off bs)) \/
    (a = Fails IOError /\ (never_fails sys img -> N.of_nat (length img) < off + n)).
  Proof.
    induction fuel as [|fuel IH]; intros k off n acc a; cbn [read_exact_at]; [discriminate|]. destruct (N.eqb_spec n 0) as [->|Hn].
    - intros E. injection E as <-. left. exists []. rewrite app_nil_r. split; [reflexivity|]. split; [reflexivity|lia].
    - destruct (sys tr k off n) as [bs| |] eqn:Sq.
      + pose proof (K tr k off n bs ltac:(lia) Sq) as X. destruct (N.ltb_spec off (N.of_nat (length img))) as [L|L].
        * destruct X as [[X1 X2] X3]. destruct bs as [|b bs]; [cbn in X1; lia|]. intros E. destruct (IH _ _ _ _ _ E) as [(bs2 & -> & L2 & B2)|[-> NF]].
          -- left. exists ((b :: bs) ++ bs2). split; [rewrite <- app_assoc; reflexivity|]. split; [rewrite app_length, Nnat.Nat2N.inj_add, L2, N.add_comm; apply N.sub_add; exact X2|]. intros _.
             destruct (N.eq_dec (n - N.of_nat (length (b :: bs))) 0) as [Z|Z]; [destruct bs2; [rewrite app_nil_r; exact X3|rewrite Z in L2; discriminate L2]|].
             apply bytes_at_app. split; [exact X3|apply B2; lia].
          -- right. split; [reflexivity|]. intros F. specialize (NF F). lia.
        * subst bs. intros E. injection E as <-. right. split; [reflexivity|]. intros _. lia.
      + intros E. exact (IH _ _ _ _ _ E).
      + intros E. injection E as <-. right. split; [reflexivity|]. intros F. destruct (N.leb_spec (off + n) (N.of_nat (length img))) as [Le|Gt]; [destruct (F _ _ _ _ Le Sq)|exact Gt].
  Qed.
  Lemma request_result rd tr off n : reads_from sys rd -> 0 < n -> (rd tr off n = readable_file img tr off n) \/ (rd tr off n = Fails IOError /\ (never_fails sys img -> rd tr off n = readable_file img tr off n)).
  Proof.
    intros R Hn. destruct (R tr off n) as [fuel E]. apply exact_result in E. unfold readable_file. destruct E as [(bs & -> & L & B)|[-> NF]].
    - left. specialize (B Hn). pose proof (bytes_at_length _ _ _ B) as Le. rewrite L in Le. destruct (N.leb_spec (off + n) (N.of_nat (length img))); [|lia]. cbn [app]. f_equal.
      destruct (bytes_at_slice img off n Le) as [B' L']. apply (bytes_at_inj _ _ _ _ B B'). lia.
    - right. split; [reflexivity|]. intros F. specialize (NF F). destruct (N.leb_spec (off + n) (N.of_nat (length img))); [lia|reflexivity].
  Qed.
  Lemma all_returns (G : lets_go_on sys) tr m : forall k off n acc, (N.to_nat n <= m)%nat -> exists fuel a, read_exact_at fuel (sys tr) k off n acc = Some a.
  Proof.
    induction m as [|m IH]; intros k off n acc Le.
    - exists 1%nat, (Bytes acc). cbn [read_exact_at]. destruct (N.eqb_spec n 0); [reflexivity|lia].
    - destruct (N.eq_dec n 0) as [->|Hn]; [exists 1%nat, (Bytes acc); reflexivity|]. destruct (G tr k off n ltac:(lia)) as [j J]. revert k J. induction j as [|j IHj]; intros k J.
      + rewrite Nat.add_0_r in J. destruct (sys tr k off n) as [bs| |] eqn:Sq; [|congruence|].
        * destruct bs as [|b bs]; [exists 1%nat, (Fails IOError); cbn [read_exact_at]; rewrite (proj2 (N.eqb_neq n 0) Hn), Sq; reflexivity|].
          destruct (IH (S k) (off + N.of_nat (length (b :: bs))) (n - N.of_nat (length (b :: bs))) (acc ++ b :: bs)) as (fuel & a & E); [cbn [length]; lia|].
          exists (S fuel), a. cbn [read_exact_at]. rewrite (proj2 (N.eqb_neq n 0) Hn), Sq. exact E.
        * exists 1%nat, (Fails IOError). cbn [read_exact_at]. rewrite (proj2 (N.eqb_neq n 0) Hn), Sq. reflexivity.
      + destruct (sys tr k off n) as [bs| |] eqn:Sq.
        * destruct bs as [|b bs]; [exists 1%nat, (Fails IOError); cbn [read_exact_at]; rewrite (proj2 (N.eqb_neq n 0) Hn), Sq; reflexivity|].
          destruct (IH (Datatypes.S k) (off + N.of_nat (length (b :: bs))) (n - N.of_nat (length (b :: bs))) (acc ++ b :: bs)) as (fuel & a & E); [cbn [length]; lia|].
          exists (Datatypes.S fuel), a. cbn [read_exact_at]. rewrite (proj2 (N.eqb_neq n 0) Hn), Sq. exact E.
        * destruct (IHj (Datatypes.S k)) as (fuel & a & E); [rewrite Nat.add_succ_comm; exact J|]. exists (Datatypes.S fuel), a. cbn [read_exact_at]. rewrite (proj2 (N.eqb_neq n 0) Hn), Sq. exact E.
        * exists 1%nat, (Fails IOError). cbn [read_exact_at]. rewrite (proj2 (N.eqb_neq n 0) Hn), Sq. reflexivity.
  Qed.
End System.
(** In whatever pieces, and however often interrupted: the file is loaded as if it were read in one piece. *)
Theorem C88_any_pieces : forall sys img rd, keeps sys img -> never_fails sys img -> reads_from sys rd ->
  serves rd img /\ (forall tr off n, 0 < n -> rd tr off n = readable_file img tr off n) /\
  (forall c, usize_bits c = 64 -> type_information_new {| cfg := c; rd := rd |} = type_information_new {| cfg := c; rd := readable_file img |}) /\
  (forall c ti, loadable c img -> (type_information_new {| cfg := c; rd := rd |} = Ok ti <-> type_information_new {| cfg := c; rd := readable_file img |} = Ok ti)).
Proof.
  intros sys img rd K F R.
  assert (E : forall tr off n, 0 < n -> rd tr off n = readable_file img tr off n).
  { intros tr off n Hn. destruct (request_result sys img K rd tr off n R Hn) as [E|[_ E]]; [exact E|exact (E F)]. }
  assert (S : serves rd img) by (intros tr off n Hn Hb; rewrite (E tr off n Hn); exact (readable_file_serves img tr off n Hn Hb)).
  assert (S64 : forall c, usize_bits c = 64 -> type_information_new {| cfg := c; rd := rd |} = type_information_new {| cfg := c; rd := readable_file img |}).
  { intros c U. destruct (C47_same_bytes_same_result {| cfg := c; rd := rd |} {| cfg := c; rd := readable_file img |} img U U S (readable_file_serves img)) as [[X _]|(off & n & k1 & k2 & asked & Past & Q1 & L1 & Q2 & L2)]; [symmetry; exact X|].
    rewrite L1, L2. f_equal. pose proof (C16_requests_honest _ [] _ _ _ _ Q1) as H1. pose proof (C16_requests_honest _ [] _ _ _ _ Q2) as H2. cbn [Reader.rd] in H1, H2.
    destruct (C14_reads_in_sections_partial {| cfg := c; rd := rd |} img U S off n (Fails k1)) as (Hn & _); [rewrite Q1; left; reflexivity|]. rewrite (E _ _ _ Hn) in H1. congruence. }
  split; [exact S|]. split; [exact E|]. split; [exact S64|].
  intros c ti Ld. rewrite (on_64 {| cfg := c; rd := rd |} img ti Ld S), (on_64 {| cfg := c; rd := readable_file img |} img ti Ld (readable_file_serves img)). cbn [Reader.rd].
  rewrite (S64 (build64 true) eq_refl). reflexivity.
Qed.
Print Assumptions C88_any_pieces.
(** Where calls may fail, at any moment: the same result, or IOError. *)
Theorem C88_flaky : forall c sys img rd, usize_bits c = 64 -> keeps sys img -> reads_from sys rd ->
  type_information_new {| cfg := c; rd := rd |} = type_information_new {| cfg := c; rd := readable_file img |} \/ type_information_new {| cfg := c; rd := rd |} = Err IOError.
Proof.
  intros c sys img rd U K R. set (e1 := {| cfg := c; rd := readable_file img |}). set (e2 := {| cfg := c; rd := rd |}).
  assert (P : forall newer off n a older, requests e1 = newer ++ (off, n, a) :: older -> rd older off n = a \/ rd older off n = Fails IOError).
  { intros newer off n a older Q. destruct (C14_reads_in_sections_partial e1 img U (readable_file_serves img) off n a) as (Hn & _); [rewrite Q; apply in_elt|].
    pose proof (C16_requests_honest _ _ _ _ _ _ Q) as H. cbn [Reader.rd e1] in H. destruct (request_result sys img K rd older off n R Hn) as [X|[X _]]; [left; congruence|right; exact X]. }
  destruct (C65_never_misread e1 e2 U U) as [[X _]|(off & n & a & k & newer & older & Q & Na & Q2 & L2)].
  - intros newer off n a older Q. destruct (P _ _ _ _ _ Q) as [X|X]; [left; exact X|right; exists IOError; exact X].
  - left. exact X.
  - right. rewrite L2. f_equal. pose proof (C16_requests_honest _ [] _ _ _ _ Q2) as H2. cbn [Reader.rd e2] in H2. destruct (P _ _ _ _ _ Q) as [X|X]; congruence.
Qed.
Print Assumptions C88_flaky.
(** Reading returns if signals stop some time; and never, if they do not. *)
Theorem C88_returns : forall sys, (lets_go_on sys -> exists rd, reads_from sys rd) /\
  forall tr off n, 0 < n -> (forall k, sys tr k off n = Interrupted) -> forall rd, ~ reads_from sys rd.
Proof.
  intros sys. split.
  - intros G.
    assert (D : forall tr off n, {fuel | read_exact_at fuel (sys tr) 0 off n [] <> None}).
    { intros tr off n. apply constructive_indefinite_ground_description_nat.
      - intros fuel. destruct (read_exact_at fuel (sys tr) 0 off n []); [left; discriminate|right; intros X; apply X; reflexivity].
      - destruct (all_returns sys G tr _ 0%nat off n [] (Nat.le_refl _)) as (fuel & a & E). exists fuel. rewrite E. discriminate. }
    exists (fun tr off n => match read_exact_at (proj1_sig (D tr off n)) (sys tr) 0 off n [] with Some a => a | None => Fails IOError end).
    intros tr off n. destruct (D tr off n) as [fuel E]. exists fuel. cbn [proj1_sig]. destruct (read_exact_at fuel (sys tr) 0 off n []); [reflexivity|contradiction].
  - intros tr off n Hn I rd R. destruct (R tr off n) as [fuel E].
    assert (X : forall fuel k, read_exact_at fuel (sys tr) k off n [] = None).
    { clear E fuel. induction fuel as [|fuel IH]; intros k; [reflexivity|]. cbn [read_exact_at]. destruct (N.eqb_spec n 0); [lia|]. rewrite I. apply IH. }
    rewrite X in E. discriminate E.
Qed.
Print Assumptions C88_returns.
(** So the tools: whatever comes after the load ([rest]: id_of, size_of, offset_of and printing), what they print and how they end is as
    with a file that is read in one piece (C54, C78), or, if a call failed, they panic and print no answer. *)
Theorem C88_tools : forall b fs path img sys rd rest, usize_bits b = 64 -> fs path = Some img -> keeps sys img -> reads_from sys rd ->
  let out := unwrap [Opening path] (type_information_new {| cfg := b; rd := rd |}) rest in
  (never_fails sys img -> out = open_btf b fs path rest) /\
  (out = open_btf b fs path rest \/ out = {| printed := [Opening path]; ended := Panicked |}).
Proof.
  intros b fs path img sys rd rest U F K R. cbv zeta. unfold open_btf. rewrite F. cbn [some]. unfold unwrap at 2 4. split.
  - intros NF. rewrite (proj1 (proj2 (proj2 (C88_any_pieces _ _ _ K NF R))) b U). reflexivity.
  - destruct (C88_flaky b sys img rd U K R) as [-> | ->]; [left; reflexivity|right; reflexivity].
Qed.
Print Assumptions C88_tools.

(** Both hypotheses are met by a system that delivers one byte at a time, and is interrupted before each. *)
Definition one_byte (img : list byte) : system := fun _ k off _ => if Nat.even k then Interrupted else Delivered (slice img off 1).
Lemma one_byte_keeps img : keeps (one_byte img) img /\ never_fails (one_byte img) img /\ lets_go_on (one_byte img).
Proof.
  split; [|split].
  - intros tr k off n bs Hn E. unfold one_byte in E. destruct (Nat.even k); [discriminate|]. injection E as <-. destruct (N.ltb_spec off (N.of_nat (length img))) as [L|L].
    + destruct (bytes_at_slice img off 1 ltac:(lia)) as [B Le]. split; [|exact B]. lia.
    + unfold slice. rewrite skipn_all2 by lia. apply firstn_nil.
  - intros tr k off n _. unfold one_byte. destruct (Nat.even k); discriminate.
  - intros tr k off n _. destruct (Nat.even k) eqn:Ev.
    + exists 1%nat. unfold one_byte. rewrite Nat.add_1_r, Nat.even_succ, <- Nat.negb_even, Ev. discriminate.
    + exists 0%nat. unfold one_byte. rewrite Nat.add_0_r, Ev. discriminate.
Qed.
Example C88_met : exists rd, reads_from (one_byte sample_img) rd /\ type_information_new {| cfg := build64 true; rd := rd |} = Ok sample_ti /\
  read_exact_at 9 (one_byte sample_img []) 0 0 4 [] = Some (Bytes (firstn 4 sample_img)) /\ read_exact_at 8 (one_byte sample_img []) 0 0 4 [] = None.
Proof.
  destruct (one_byte_keeps sample_img) as (K & F & G). destruct (proj1 (C88_returns (one_byte sample_img)) G) as [rd R]. exists rd. split; [exact R|]. split; [|split; vm_compute; reflexivity].
  rewrite (proj1 (proj2 (proj2 (C88_any_pieces _ _ _ K F R))) (build64 true) eq_refl). exact sample_loads.
Qed.
