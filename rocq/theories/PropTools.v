(** * PropTools: the command line tools (C54). *)
From Coq Require Import Strings.String.
From Coq Require Import List NArith Bool Lia Strings.Byte.
From Verif Require Import TypeInfo Spec BaseFacts PathSpec PathGrammar PathPrint QuerySpec OutcomeSpec Chains Sizes Follow Offsets2 OffsetOf Outcome LoadProps Final Maps Sample Tools ToolsSpec ToolsFacts PropPath PropQuery PropOffset PropOutcome.
Import ListNotations.
Open Scope N_scope.

Definition answers (path text : str) : run := {| printed := [Opening path; Text text]; ended := Returned |}.
Lemma answers_inj path t t' : {| printed := [Opening path; Text t]; ended := Returned |} = answers path t' -> t = t'.
Proof. unfold answers. intros E. injection E. auto. Qed.

(** get-type-size prints the size of the type, whenever it has one; what it prints is the size (without overflow checks,
    modulo 2^64: C29); otherwise it prints no answer, and either panics or follows an endless chain of typedefs. *)
Theorem C54_get_type_size : forall b fs prog path name, usize_bits b = 64 -> let out := get_type_size b fs [prog; path; name] in
  (forall ti i z, asked fs path name ti i -> has_size ti (fun n => n < 2 ^ 64) i z -> out = answers path (size_text name i z)) /\
  (forall i z, out = answers path (size_text name i z) -> exists ti z0, asked fs path name ti i /\ size ti i z0 /\
     z mod 2 ^ 64 = z0 mod 2 ^ 64 /\ (overflow_checks b = true -> z = z0)) /\
  (ended out = NoReturn <-> exists ti i, asked fs path name ti i /\ endless (size_link ti) i) /\
  ((exists i z, out = answers path (size_text name i z)) \/ (printed out = [Opening path] /\ ended out <> Returned)).
Proof.
  intros b fs prog path name H out. unfold out, get_type_size, open_btf. clear out.
  split; [|split; [|split]].
  - intros ti i z A Z. apply (asked_iff b _ _ _ _ _ H) in A. destruct A as (img & ti0 & F & L & E & I). rewrite F. cbn [some unwrap]. unfold opened in L. rewrite L. cbn [unwrap].
    rewrite I. cbn [some unwrap]. apply (eq_has_size _ _ (equal_sym _ _ E)) in Z. rewrite <- H in Z. rewrite (proj1 (size_of_spec b ti0 i) z Z). reflexivity.
  - intros i z E. destruct (fs path) as [img|] eqn:F; cbn [some unwrap] in E; [|discriminate].
    destruct (type_information_new _) as [ti|k|q|] eqn:L; cbn [unwrap] in E; try discriminate.
    destruct (id_of ti name) as [i'|] eqn:I; cbn [some unwrap] in E; [|discriminate].
    destruct (size_of b ti i') as [z'|k|q|] eqn:Z; cbn [unwrap] in E; try discriminate.
    apply answers_inj in E. change (size_text name i' z' = size_text name i z) in E. apply size_text_inj in E. destruct E as (_ & -> & ->).
    destruct (C29_exact_partial b ti i) as (X1 & X2 & _). destruct (X2 z Z) as (z0 & Hz & M). rewrite H in M.
    destruct (overflow_checks b) eqn:O.
    + exists ti, z. split; [exact (asked_self b fs path name img ti i H F L I)|]. split; [apply X1; auto|]. auto.
    + exists ti, z0. split; [exact (asked_self b fs path name img ti i H F L I)|]. split; [exact Hz|]. split; [exact M|discriminate].
  - split.
    + intros E. destruct (fs path) as [img|] eqn:F; cbn [some unwrap] in E; [|discriminate].
      destruct (load_total {| cfg := b; rd := readable_file img |} H) as [[ti L]|[k L]]; rewrite L in E; cbn [unwrap] in E; [|discriminate].
      destruct (id_of ti name) as [i|] eqn:I; cbn [some unwrap] in E; [|discriminate].
      destruct (size_of b ti i) as [z|k|q|] eqn:Z; cbn [unwrap] in E; try discriminate.
      exists ti, i. split; [exact (asked_self b fs path name img ti i H F L I)|]. apply (size_of_spec b ti i). exact Z.
    + intros (ti & i & A & Z). apply (asked_iff b _ _ _ _ _ H) in A. destruct A as (img & ti0 & F & L & E & I). rewrite F. cbn [some unwrap]. unfold opened in L. rewrite L. cbn [unwrap].
      rewrite I. cbn [some unwrap]. assert (Z0 : endless (size_link ti0) i) by (revert Z; apply endless_mono; apply eq_size_link; apply equal_sym; exact E).
      apply (size_of_spec b ti0 i) in Z0. rewrite Z0. reflexivity.
  - destruct (fs path) as [img|]; cbn [some unwrap]; [|right; split; [reflexivity|discriminate]].
    destruct (type_information_new _) as [ti|k|q|]; cbn [unwrap]; try (right; split; [reflexivity|discriminate]).
    destruct (id_of ti name) as [i|]; cbn [some unwrap]; [|right; split; [reflexivity|discriminate]].
    destruct (size_of b ti i) as [z|k|q|]; cbn [unwrap]; try (right; split; [reflexivity|discriminate]).
    left. exists i, z. reflexivity.
Qed.
Print Assumptions C54_get_type_size.

(** get-type-offset: what it prints is where the path leads; and if the path leads somewhere, and nothing on the way
    prevents it ([fine], OutcomeSpec.v), it prints that, given time. *)
Theorem C54_get_type_offset : forall b fs prog path name p, usize_bits b = 64 -> valid_utf8 p ->
  let out fuel := get_type_offset fuel b fs [prog; path; name; p] in
  (forall ti i cs u o, asked fs path name ti i -> reads_as (2 ^ 64 - 1) p cs -> leads ti (size ti) i cs u o ->
     (forall o' u' rest, gets ti (size ti) (ByteOffset 0) i cs o' u' rest -> fine b ti o' u' rest) ->
     exists fuel, forall more, out (fuel + more)%nat = answers path (offset_text name p u o)) /\
  (forall fuel u o, out fuel = answers path (offset_text name p u o) -> exists ti i cs, asked fs path name ti i /\ reads_as (2 ^ 64 - 1) p cs /\
     fits32 o /\ leads ti (fun e z => size_of b ti e = Ok z) i cs u o /\
     (overflow_checks b = true \/ sizes_fit b ti -> leads ti (size ti) i cs u o)) /\
  (forall fuel, (exists u o, out fuel = answers path (offset_text name p u o)) \/ (printed (out fuel) = [Opening path] /\ ended (out fuel) <> Returned)) /\
  ((forall ti i, asked fs path name ti i -> acyclic ti) -> exists fuel, ended (out fuel) <> NoReturn).
Proof.
  intros b fs prog path name p H V out. unfold out, get_type_offset, open_btf. clear out.
  assert (M : usize_max b = 2 ^ 64 - 1) by (unfold usize_max; rewrite H; reflexivity).
  assert (T : forall v, name ++ says " => " ++ p ++ says ": " ++ show_place v = offset_text name p (fst v) (snd v)).
  { intros [u o]. unfold offset_text. do 4 f_equal. destruct o; cbn [fst snd show_place place_text show_offset]; unfold show_place; cbn [fst snd show_offset]; rewrite <- ?app_assoc; reflexivity. }
  split; [|split; [|split]].
  - intros ti i cs u o A R L Hf. apply (asked_iff b _ _ _ _ _ H) in A. destruct A as (img & ti0 & F & Ld & E & I). pose proof (equal_sym _ _ E) as E'.
    assert (Sz : forall ti1 ti2, equal_tables ti1 ti2 -> forall x z, size ti1 x z -> size ti2 x z) by (intros ti1 ti2 Q x z; apply (eq_has_size _ _ Q)).
    assert (Rt : offset_of_returns b ti0 i p (Ok (u, o))).
    { apply (C33_exact_along_path b ti0 i p cs V); [rewrite M; exact R| |].
      - intros o' u' rest G. apply (eq_fine _ _ _ _ _ _ E'). apply Hf. apply (eq_gets _ _ E). eapply gets_size; [|exact G]. apply (Sz _ _ E).
      - apply (eq_leads _ _ E'). eapply leads_size; [|exact L]. apply (Sz _ _ E'). }
    destruct Rt as (_ & fuel & Rt). exists fuel. intros more.
    assert (Rt' : offset_of_uncached (fuel + more) b ti0 i p = Ok (u, o)) by (rewrite (returns_mono b ti0 i p fuel (fuel + more) V ltac:(lia)); [exact Rt|rewrite Rt; discriminate]).
    rewrite F. cbn [some unwrap]. unfold opened in Ld. rewrite Ld. cbn [unwrap]. rewrite I. cbn [some unwrap]. rewrite Rt'. cbn [unwrap]. rewrite T. reflexivity.
  - intros fuel u o E. destruct (fs path) as [img|] eqn:F; cbn [some unwrap] in E; [|discriminate].
    destruct (type_information_new _) as [ti|k|q|] eqn:L; cbn [unwrap] in E; try discriminate.
    destruct (id_of ti name) as [i|] eqn:I; cbn [some unwrap] in E; [|discriminate].
    destruct (offset_of_uncached fuel b ti i p) as [[u' o']|k|q|] eqn:Z; cbn [unwrap] in E; try discriminate.
    rewrite T in E. apply answers_inj in E. unfold offset_text in E. do 4 apply app_inv_head in E. cbn [fst snd] in E. apply place_text_inj in E. destruct E as [-> ->].
    assert (Rt : offset_of_returns b ti i p (Ok (u, o))) by (split; [discriminate|exists fuel; exact Z]).
    destruct (C32_sound_reported_sizes b ti i p u o V Rt) as (Fi & cs & R & Ls). exists ti, i, cs. split; [exact (asked_self b fs path name img ti i H F L I)|]. rewrite <- M.
    split; [exact R|]. split; [exact Fi|]. split; [exact Ls|]. intros Hc. destruct (C32_sound b ti i p u o V Hc Rt) as (_ & cs' & R' & L').
    assert (cs' = cs) as <- by (eapply accepted_det; [exact V| |]; apply accepted_iff; eassumption). exact L'.
  - intros fuel. destruct (fs path) as [img|]; cbn [some unwrap]; [|right; split; [reflexivity|discriminate]].
    destruct (type_information_new _) as [ti|k|q|]; cbn [unwrap]; try (right; split; [reflexivity|discriminate]).
    destruct (id_of ti name) as [i|]; cbn [some unwrap]; [|right; split; [reflexivity|discriminate]].
    destruct (offset_of_uncached fuel b ti i p) as [v|k|q|]; cbn [unwrap]; try (right; split; [reflexivity|discriminate]).
    left. exists (fst v), (snd v). rewrite T. reflexivity.
  - intros Ac. destruct (fs path) as [img|] eqn:F; cbn [some unwrap]; [|exists 0%nat; discriminate].
    destruct (load_total {| cfg := b; rd := readable_file img |} H) as [[ti L]|[k L]]; rewrite L; cbn [unwrap]; [|exists 0%nat; discriminate].
    destruct (id_of ti name) as [i|] eqn:I; cbn [some unwrap]; [|exists 0%nat; discriminate].
    destruct (offset_of_terminates b ti i p V (Ac ti i (asked_self b fs path name img ti i H F L I))) as (r & D & fuel & R).
    exists fuel. rewrite R. destruct r as [v|k|q|]; cbn [unwrap ended]; try discriminate. contradiction.
Qed.
Print Assumptions C54_get_type_offset.

(** dump-btf shows the types of the file, numbered from 1, or panics when it is no BTF file. *)
Theorem C54_dump_btf : forall b fs prog path, usize_bits b = 64 -> let out := dump_btf b fs [prog; path] in
  (forall l, out = {| printed := [Opening path; Types l]; ended := Returned |} <->
     exists img ts, fs path = Some img /\ contents img ts /\ l = combine (map N.of_nat (seq 1 (length ts))) ts) /\
  ((exists l, out = {| printed := [Opening path; Types l]; ended := Returned |}) \/ out = {| printed := [Opening path]; ended := Panicked |}).
Proof.
  intros b fs prog path H out. unfold out, dump_btf, open_btf. clear out.
  split.
  - intros l. split.
    + intros E. destruct (fs path) as [img|] eqn:F; cbn [some unwrap] in E; [|discriminate].
      destruct (type_information_new _) as [ti|k|q|] eqn:L; cbn [unwrap] in E; try discriminate. injection E as <-.
      exists img, (map snd (get ti)). split; [reflexivity|]. split; [apply (opened_contents b img _ H); eauto|].
      exact (get_spec ti (proj1 (loaded_types {| cfg := b; rd := readable_file img |} ti H L))).
    + intros (img & ts & F & C & ->). apply (opened_contents b img ts H) in C. destruct C as (ti & L & <-). rewrite F. cbn [some unwrap]. unfold opened in L. rewrite L. cbn [unwrap].
      rewrite (get_spec ti (proj1 (loaded_types {| cfg := b; rd := readable_file img |} ti H L))) at 1. reflexivity.
  - destruct (fs path) as [img|]; cbn [some unwrap]; [|right; reflexivity].
    destruct (load_total {| cfg := b; rd := readable_file img |} H) as [[ti L]|[k L]]; rewrite L; cbn [unwrap]; [left; eexists; reflexivity|right; reflexivity].
Qed.
Print Assumptions C54_dump_btf.

(** With another number of arguments they print how they are used, and open no file. *)
Theorem C54_usage :
  (forall args, length args <> 2%nat -> exists t, forall b fs, dump_btf b fs args = {| printed := [Text t]; ended := Returned |}) /\
  (forall args, length args <> 3%nat -> exists t, forall b fs, get_type_size b fs args = {| printed := [Text t]; ended := Returned |}) /\
  (forall args, length args <> 4%nat -> exists t, forall fuel b fs, get_type_offset fuel b fs args = {| printed := [Text t]; ended := Returned |}).
Proof.
  split; [|split]; intros args Ha; eexists; intros; repeat (destruct args as [|? args]; try reflexivity); cbn in Ha; lia.
Qed.
Print Assumptions C54_usage.

(** The printed answers can be read back. *)
Theorem C54_readable :
  (forall n i z n' i' z', size_text n i z = size_text n' i' z' -> n = n' /\ i = i' /\ z = z') /\
  (forall n p u o u' o', offset_text n p u o = offset_text n p u' o' -> u = u' /\ o = o').
Proof.
  split; [exact size_text_inj|]. intros n p u o u' o' E. unfold offset_text in E. do 4 apply app_inv_head in E. apply place_text_inj. exact E.
Qed.
Print Assumptions C54_readable.

(** The sample file at /sys/kernel/btf/vmlinux, nothing else. *)
Definition sample_fs : files := fun p => if str_eqb p (s "/sys/kernel/btf/vmlinux") then Some sample_img else None.
Example C54_met : let b := build64 true in
  get_type_size b sample_fs [s "get-type-size"; s "/sys/kernel/btf/vmlinux"; s "holder"] =
    answers (s "/sys/kernel/btf/vmlinux") (s "Type holder has ID 24 and requires 192 bytes in total") /\
  get_type_offset 20 b sample_fs [s "get-type-offset"; s "/sys/kernel/btf/vmlinux"; s "holder"; s "tasks[1].flag"] =
    answers (s "/sys/kernel/btf/vmlinux") (s "holder => tasks[1].flag: (1, BitOffsetAndSize(896, 3))") /\
  ended (get_type_size b sample_fs [s "get-type-size"; s "/sys/kernel/btf/vmlinux"; s "main"]) = Panicked /\
  ended (dump_btf b sample_fs [s "dump-btf"; s "/sys/kernel/btf/vmlinux"]) = Returned /\
  ended (dump_btf b sample_fs [s "dump-btf"; s "/sys/kernel/btf/other"]) = Panicked /\
  asked sample_fs (s "/sys/kernel/btf/vmlinux") (s "holder") sample_ti 24 /\ has_size sample_ti (fun n => n < 2 ^ 64) 24 192.
Proof.
  cbv zeta. split; [vm_compute; reflexivity|]. split; [vm_compute; reflexivity|]. split; [vm_compute; reflexivity|]. split; [vm_compute; reflexivity|].
  split; [vm_compute; reflexivity|]. split.
  - apply (asked_self (build64 true) _ _ _ sample_img); [reflexivity|vm_compute; reflexivity|exact sample_loads|vm_compute; reflexivity].
  - apply (proj1 (proj2 (size_of_spec (build64 true) sample_ti 24))); [reflexivity|vm_compute; reflexivity].
Qed.
