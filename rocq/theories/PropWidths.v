(** * PropWidths: the loader's guarantees for 32-bit builds (C03, C07-C10, C44).  [reaches_4G]: NarrowSpec.v, C02. *)
From Coq Require Import Strings.String.
From Coq Require Import List NArith Bool Lia Strings.Byte.
From Verif Require Import TypeInfo Spec Final Exact LoadProps LoadProps2 Witness Sample PropLoad PropLoad2 NarrowSpec PropNarrow.
Import ListNotations.
Open Scope N_scope.

(** A 64-bit build, or a 32-bit build with overflow checks: for every Readable. *)
Definition dependable (c : build) : Prop := usize_bits c = 64 \/ usize_bits c = 32 /\ overflow_checks c = true.
Lemma carried e ti : dependable (cfg e) -> type_information_new e = Ok ti -> type_information_new {| cfg := build64 true; rd := rd e |} = Ok ti.
Proof.
  destruct e as [[bits ck] rd]. intros [H|[H1 H2]] E; cbn [cfg usize_bits overflow_checks Reader.rd] in *; subst.
  - destruct ck; [exact E|]. rewrite <- E. apply (C01_debug_release_agree rd).
  - destruct (C02_checked_32_partial rd true) as [[X _]|[p X]].
    + rewrite <- X. exact E.
    + unfold build32 in X. rewrite X in E. discriminate E.
Qed.
(** For an unchanging file the builds of both widths, with and without checks, accept the same, unless the loader comes to 4 GiB. *)
Theorem C03_any_width : forall e img, usize_bits (cfg e) = 64 \/ usize_bits (cfg e) = 32 /\ ~ reaches_4G img -> serves (rd e) img -> forall ts,
  (exists ti, type_information_new e = Ok ti /\ map snd (get ti) = ts) <-> describes_exactly img ts \/ describes_but_tail img ts.
Proof.
  intros e img [H|[H NR]] SV ts; [exact (C03_loader_exact e img H SV ts)|]. destruct e as [[bits ck] rd]; cbn [cfg usize_bits Reader.rd] in *; subst.
  rewrite <- (C03_loader_exact {| cfg := build64 true; rd := rd |} img eq_refl SV ts).
  destruct (C02_otherwise_same_partial rd img true ck SV NR) as [X _]. unfold build32 in X. rewrite X. reflexivity.
Qed.
Print Assumptions C03_any_width.
Theorem C07_any_width : forall e ti, dependable (cfg e) -> type_information_new e = Ok ti ->
  map fst (get ti) = map N.of_nat (seq 1 (length (get ti))) /\
  (forall i t, i <> 0 -> (from_id ti i = Some t <-> In (i, t) (get ti))) /\
  (forall i t, i <> 0 -> (from_id ti i = Some t <-> type_at (map snd (get ti)) i t)) /\
  from_id ti 0 = Some TVoid.
Proof. intros e ti D E. exact (C07_ids_consecutive {| cfg := build64 true; rd := rd e |} ti eq_refl (carried e ti D E)). Qed.
Print Assumptions C07_any_width.
Theorem C08_any_width : forall e ti, dependable (cfg e) -> type_information_new e = Ok ti ->
  (forall n t, id_of ti n = Some t -> name_of ti t = Some n) /\
  (forall n t, name_of ti t = Some n -> n <> s "void" -> exists t', id_of ti n = Some t' /\ t <= t' /\ name_of ti t' = Some n) /\
  id_of ti (s "void") = Some 0 /\ name_of ti 0 = Some (s "void").
Proof. intros e ti D E. exact (C08_names_ids_agree {| cfg := build64 true; rd := rd e |} ti eq_refl (carried e ti D E)). Qed.
Print Assumptions C08_any_width.
Theorem C09_any_width : forall e ti, dependable (cfg e) -> type_information_new e = Ok ti -> forall n, n <> s "void" ->
  (forall i, id_of ti n = Some i <->
     (carries (map snd (get ti)) i n /\ forall j, carries (map snd (get ti)) j n -> j <= i)) /\
  (id_of ti n = None <-> forall i, ~ carries (map snd (get ti)) i n).
Proof. intros e ti D E. exact (C09_last_definition_wins {| cfg := build64 true; rd := rd e |} ti eq_refl (carried e ti D E)). Qed.
Print Assumptions C09_any_width.
Theorem C10_any_width : forall e ti, dependable (cfg e) -> type_information_new e = Ok ti -> forall i t,
  i <> 0 -> from_id ti i = Some t -> name_of ti i = declared_name t.
Proof. intros e ti D E. exact (C10_name_of_record {| cfg := build64 true; rd := rd e |} ti eq_refl (carried e ti D E)). Qed.
Print Assumptions C10_any_width.
Theorem C44_any_width : forall e ti, dependable (cfg e) -> type_information_new e = Ok ti ->
  Forall type_fits (map snd (get ti)) /\ N.of_nat (length (get ti)) < 2 ^ 32.
Proof. intros e ti D E. exact (C44_widths {| cfg := build64 true; rd := rd e |} ti eq_refl (carried e ti D E)). Qed.
Print Assumptions C44_any_width.
Example any_width_met : let e := {| cfg := build32 true; rd := readable_file sample_img |} in
  dependable (cfg e) /\ ~ dependable (build32 false) /\ ~ reaches_4G sample_img /\ serves (rd e) sample_img /\ type_information_new e = Ok sample_ti.
Proof.
  cbv zeta. split; [right; split; reflexivity|]. split; [intros [X|[_ X]]; discriminate X|]. split; [exact (proj1 (proj2 C02_iff_met))|]. split; [apply readable_file_serves|vm_compute; reflexivity].
Qed.
