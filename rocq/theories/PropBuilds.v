(** * PropBuilds: what holds in every build, also where it panics, wraps around or never returns (C17, C47, C65, C88). *)
From Coq Require Import List NArith Bool Lia Strings.Byte.
From Verif Require Import TypeInfo Spec Pread PreadSpec Tools LoadProps Final LocalSame Safety Sample PropLoad PropLoad2 PropTruncate PropPread PropWidths2 Witness.
Import ListNotations.
Open Scope N_scope.

(** Two Readables, the same build: the answers to the requests made decide, whatever the outcome is. *)
Theorem C17_any_build : forall e1 e2, cfg e2 = cfg e1 ->
  (forall newer off n a older, requests e1 = newer ++ (off, n, a) :: older -> rd e2 older off n = a) ->
  type_information_new e2 = type_information_new e1 /\ requests e2 = requests e1.
Proof. exact load_same. Qed.
Print Assumptions C17_any_build.
(** As long as the answers are the same, the next request is. *)
Theorem C47_any_build : forall e1 e2, cfg e2 = cfg e1 ->
  forall newer off n a older, requests e1 = newer ++ (off, n, a) :: older ->
  (forall l off' n' a' l', older = l ++ (off', n', a') :: l' -> rd e2 l' off' n' = a') ->
  exists newer', requests e2 = newer' ++ (off, n, rd e2 older off n) :: older.
Proof. exact next_request_same. Qed.
Print Assumptions C47_any_build.
(** A Readable that fails requests which another one answers: the same outcome, or its error; and never an outcome of its own. *)
Theorem C65_any_build : forall e1 e2, cfg e2 = cfg e1 ->
  (forall newer off n a older, requests e1 = newer ++ (off, n, a) :: older -> rd e2 older off n = a \/ exists k, rd e2 older off n = Fails k) ->
  (type_information_new e2 = type_information_new e1 /\ requests e2 = requests e1) \/
  exists off n a k newer older, requests e1 = newer ++ (off, n, a) :: older /\ a <> Fails k /\
    requests e2 = (off, n, Fails k) :: older /\ type_information_new e2 = Err k.
Proof.
  intros e1 e2 C H. destruct (first_failure (rd e2) (requests e1) H) as [S|(newer & off & n & a & older & k & E & F & D & S)].
  - left. exact (load_same e1 e2 C S).
  - right. destruct (next_request_same e1 e2 C newer off n a older E S) as (newer' & E2). rewrite F in E2.
    destruct (proj1 (C16_any_width e2) _ _ _ _ _ E2) as [-> R]. exists off, n, a, k, newer, older. auto.
Qed.
Print Assumptions C65_any_build.

(** However the operating system delivers the file: the same, in every build. *)
Theorem C88_any_build : forall c sys img rd, keeps sys img -> reads_from sys rd ->
  let e1 := {| cfg := c; rd := readable_file img |} in let e2 := {| cfg := c; rd := rd |} in
  (never_fails sys img -> type_information_new e2 = type_information_new e1 /\ requests e2 = requests e1) /\
  (type_information_new e2 = type_information_new e1 \/ type_information_new e2 = Err IOError).
Proof.
  intros c sys img rd K R e1 e2.
  assert (P : forall newer off n a older, requests e1 = newer ++ (off, n, a) :: older ->
    (rd older off n = a \/ rd older off n = Fails IOError) /\ (never_fails sys img -> rd older off n = a)).
  { intros newer off n a older Q. assert (Hn : 0 < n) by (apply (requests_positive e1 off n a); rewrite Q; apply in_elt).
    pose proof (requests_honest e1 _ _ _ _ _ Q) as H. cbn [Reader.rd e1] in H. destruct (request_result sys img K rd older off n R Hn) as [X|[X Y]].
    - split; [left|intros _]; congruence.
    - split; [right; exact X|]. intros F. rewrite (Y F). exact H. }
  split.
  - intros F. apply (load_same e1 e2 eq_refl). intros newer off n a older Q. exact (proj2 (P _ _ _ _ _ Q) F).
  - destruct (C65_any_build e1 e2 eq_refl) as [[X _]|(off & n & a & k & newer & older & Q & Na & Q2 & L2)].
    + intros newer off n a older Q. destruct (proj1 (P _ _ _ _ _ Q)) as [X|X]; [left; exact X|right; exists IOError; exact X].
    + left. exact X.
    + right. rewrite L2. f_equal. pose proof (requests_honest e2 [] _ _ _ _ Q2) as H2. cbn [Reader.rd e2] in H2. destruct (proj1 (P _ _ _ _ _ Q)) as [X|X]; congruence.
Qed.
Print Assumptions C88_any_build.
(** And the tools: what they print and how they end. *)
Theorem C88_tools_any_build : forall b fs path img sys rd rest, fs path = Some img -> keeps sys img -> reads_from sys rd ->
  let out := unwrap [Opening path] (type_information_new {| cfg := b; rd := rd |}) rest in
  (never_fails sys img -> out = open_btf b fs path rest) /\
  (out = open_btf b fs path rest \/ out = {| printed := [Opening path]; ended := Panicked |}).
Proof.
  intros b fs path img sys rd rest F K R. cbv zeta. unfold open_btf. rewrite F. cbn [some]. unfold unwrap at 2 4. destruct (C88_any_build b sys img rd K R) as [A1 A2]. split.
  - intros NF. rewrite (proj1 (A1 NF)). reflexivity.
  - destruct A2 as [-> | ->]; [left; reflexivity|right; reflexivity].
Qed.
Print Assumptions C88_tools_any_build.
(** A build that panics: the 24-byte file of C02 on a 32-bit target with checks, delivered byte by byte. *)
Example any_build_met : exists rd p, keeps (one_byte panic_32) panic_32 /\ never_fails (one_byte panic_32) panic_32 /\ reads_from (one_byte panic_32) rd /\
  type_information_new {| cfg := build32 true; rd := rd |} = Panic p.
Proof.
  destruct (one_byte_keeps panic_32) as (K & F & G). destruct (proj1 (C88_returns (one_byte panic_32)) G) as [rd R]. exists rd, ArithmeticOverflow.
  split; [exact K|]. split; [exact F|]. split; [exact R|]. rewrite (proj1 (proj1 (C88_any_build (build32 true) _ _ _ K R) F)). vm_compute. reflexivity.
Qed.
(** And one whose third request fails, on a build that wraps around. *)
Definition third_fails (img : list byte) : readable := fun tr off n => if (length tr =? 2)%nat then Fails IOError else readable_file img tr off n.
Example any_build_met2 : let e1 := {| cfg := build32 false; rd := readable_file panic_32 |} in let e2 := {| cfg := build32 false; rd := third_fails panic_32 |} in
  cfg e2 = cfg e1 /\ (forall newer off n a older, requests e1 = newer ++ (off, n, a) :: older -> rd e2 older off n = a \/ exists k, rd e2 older off n = Fails k) /\
  (2 < length (requests e1))%nat /\ type_information_new e2 = Err IOError.
Proof.
  cbv zeta. split; [reflexivity|]. split; [|split; [vm_compute; lia|vm_compute; reflexivity]]. intros newer off n a older E. pose proof (requests_honest _ _ _ _ _ _ E) as H. cbn [Reader.rd] in *.
  destruct (@length request older =? 2)%nat eqn:L; [right; exists IOError; unfold third_fails; rewrite L; reflexivity|left]. unfold third_fails. rewrite L. exact H.
Qed.
