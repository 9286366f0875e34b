(** * PropPrefix: a path fails where its first failing component does (C74). *)
From Coq Require Import Strings.String List NArith Bool Lia Strings.Byte.
From Verif Require Import TypeInfo Spec BaseFacts PathSpec Path PathGrammar QuerySpec Chains Sizes Follow Offsets Offsets2 OffsetOf OffsetOf2 OutcomeSpec Outcome Message MessageSpec MessageFacts
  MessagePath MessageOffset SearchSpec SearchFacts PathPrint Checker LoadProps Encode Sample Witness PropPath PropQuery PropOffset PropOutcome PropClosed PropSearch Compose PrefixFacts.
Import ListNotations.
Open Scope N_scope.

(** [w], put behind a path, goes on with it: it starts with a dot or a bracket. *)
Definition goes_on (w : str) : Prop := exists w', w = dot ++ w' \/ w = lbracket ++ w'.

Lemma stuck_fuel c p w cs : valid_utf8 p -> valid_utf8 w -> reads_as (usize_max c) p cs -> begins c w cs ->
  exists e cs' , forall ti t n, offset_of_msg n c ti t p = hunt c ti None n (ByteOffset 0) t cs /\ offset_of_msg n c ti t w = hunt c ti e n (ByteOffset 0) t (cs ++ cs').
Proof.
  intros V W R B.
  assert (T : text_is c p cs False) by (left; auto). destruct (text_hunt c p cs False V T) as (e & _ & He & H). assert (e = None) as -> by (destruct e as [m|]; [|reflexivity]; exfalso; apply (proj1 He); discriminate).
  destruct (C56_every_text c w W) as (csw & bad & Tw). destruct (text_hunt c w csw bad W Tw) as (e & _ & _ & Hw).
  destruct (text_script c w csw bad W Tw) as (e' & A & _). destruct (begins_script c w cs csw e' W A B) as (cs' & ->).
  exists e, cs'. intros ti t n. split; [apply H|apply Hw].
Qed.

(** ** Whatever a path that begins with the components of a failing one has behind them, it fails in the same way *)
Theorem C74_first_failure : forall c ti t p w cs, valid_utf8 p -> valid_utf8 w -> reads_as (usize_max c) p cs -> begins c w cs ->
  (forall r, (forall v, r <> Ok v) -> offset_of_yields c ti t p r -> offset_of_yields c ti t w r) /\
  (forall r, (forall v, r <> Ok v) -> offset_of_returns c ti t p r -> offset_of_returns c ti t w r) /\
  (offset_of_never_returns c ti t p -> offset_of_never_returns c ti t w).
Proof.
  intros c ti t p w cs V W R B. destruct (stuck_fuel c p w cs V W R B) as (e & cs' & H).
  assert (S : forall n, ~ answered (offset_of_msg n c ti t p) -> offset_of_msg n c ti t w = offset_of_msg n c ti t p).
  { intros n. destruct (H ti t n) as [-> ->]. apply hunt_stuck. }
  assert (U : forall n, (forall v, offset_of_uncached n c ti t p <> Ok v) -> offset_of_uncached n c ti t w = offset_of_uncached n c ti t p).
  { intros n D. rewrite <- !offset_of_kind. rewrite S; [reflexivity|]. intros (v & X). apply (D v). rewrite <- offset_of_kind, X. reflexivity. }
  split; [|split].
  - intros r D (N & n & E). split; [exact N|]. exists n. rewrite S; [exact E|]. rewrite E. intros (v & X). exact (D v X).
  - intros r D (N & n & E). split; [exact N|]. exists n. rewrite U; [exact E|]. rewrite E. exact D.
  - intros N n. rewrite U; [apply N|]. rewrite N. discriminate.
Qed.
Print Assumptions C74_first_failure.

(** ... so each beginning of a path that is answered is answered. *)
Theorem C74_prefix_answered : forall c ti t p w cs v, valid_utf8 p -> valid_utf8 w -> reads_as (usize_max c) p cs -> begins c w cs ->
  offset_of_returns c ti t w (Ok v) -> exists v', offset_of_returns c ti t p (Ok v').
Proof.
  intros c ti t p w cs v V W R B (_ & n & E). destruct (stuck_fuel c p w cs V W R B) as (e & cs' & H). destruct (H ti t n) as [Hp Hw].
  assert (A : answered (offset_of_msg n c ti t p)).
  { destruct (offset_of_msg n c ti t p) as [v'|k|q|] eqn:Ep; [exists v'; reflexivity| | |]; exfalso;
      (rewrite hunt_stuck in Hw by (rewrite <- Hp; intros (x & X); discriminate); rewrite <- offset_of_kind, Hw, <- Hp in E; discriminate). }
  destruct A as (v' & A). exists v'. split; [discriminate|]. exists n. rewrite <- offset_of_kind, A. reflexivity.
Qed.
Print Assumptions C74_prefix_answered.

(** ** In particular: a path followed by a dot or a bracket and anything else, well-formed or not *)
Theorem C74_text : forall c p w cs, valid_utf8 p -> valid_utf8 w -> path (usize_max c) cs p -> p <> [] -> goes_on w -> begins c (p ++ w) cs.
Proof.
  intros c p w cs V W P N (w' & G). destruct (path_goes_on c cs p w P) as (rest & e & A).
  - intros ->. inversion P. subst. auto.
  - destruct G as [-> | ->]; cbn; auto.
  - eapply script_begins; [apply valid_app; assumption|exact A].
Qed.
Print Assumptions C74_text.
Theorem C74_no_rescue : forall c ti t p w cs, valid_utf8 p -> valid_utf8 w -> path (usize_max c) cs p -> p <> [] -> goes_on w ->
  (forall r, (forall v, r <> Ok v) -> offset_of_yields c ti t p r -> offset_of_yields c ti t (p ++ w) r) /\
  (offset_of_never_returns c ti t p -> offset_of_never_returns c ti t (p ++ w)) /\
  (forall v, offset_of_returns c ti t (p ++ w) (Ok v) -> exists v', offset_of_returns c ti t p (Ok v')).
Proof.
  intros c ti t p w cs V W P N G. pose proof (C74_text c p w cs V W P N G) as B. pose proof (valid_app _ _ V W) as VW.
  assert (R : reads_as (usize_max c) p cs) by (exists p; auto). destruct (C74_first_failure c ti t p (p ++ w) cs V VW R B) as (A1 & _ & A2).
  split; [exact A1|]. split; [exact A2|]. intros v. exact (C74_prefix_answered c ti t p (p ++ w) cs v V VW R B).
Qed.
Print Assumptions C74_no_rescue.

(** ** What it is answered: if the file names members unambiguously, a longer path stays inside of what the shorter one leads
    to, and nothing lies inside of a bitfield *)
Theorem C74_stays_inside : forall c ti t p w cs v o, valid_utf8 p -> valid_utf8 w -> reads_as (usize_max c) p cs -> begins c w cs -> ~ reads_as (usize_max c) w cs ->
  overflow_checks c = true \/ sizes_fit c ti -> unambiguous ti ->
  offset_of_returns c ti t w (Ok (v, o)) ->
  exists u a o', offset_of_returns c ti t p (Ok (u, ByteOffset a)) /\ o = QuerySpec.shift a o' /\ exists rest, reads_as (usize_max c) w (cs ++ rest) /\ leads ti (size ti) u rest v o'.
Proof.
  intros c ti t p w cs v o V W R B NR OC U E. destruct (C74_prefix_answered c ti t p w cs (v, o) V W R B E) as ((u & o1) & Ep).
  destruct (C32_sound c ti t w v o W OC E) as (_ & csw & Rw & Lw). destruct (C32_sound c ti t p u o1 V OC Ep) as (_ & cs1 & R1 & L1).
  assert (cs1 = cs) as -> by (eapply accepted_det; [exact V| |]; apply accepted_iff; eassumption).
  destruct (begins_script c w cs csw None W (proj1 (script_reads c w csw W) Rw) B) as (rest & ->).
  destruct (leads_split ti (size ti) t _ v o Lw cs rest eq_refl) as (u' & a & o' & L & L' & ->); [intros ->; rewrite app_nil_r in Rw; exact (NR Rw)|].
  destruct (leads_det ti (size ti) U (fun e s s' => size_det ti _ e s s') _ _ _ _ L1 _ _ L) as [Eu Eo]. subst u o1.
  exists u', a, o'. split; [exact Ep|]. split; [reflexivity|]. exists rest. auto.
Qed.
Print Assumptions C74_stays_inside.
(** ... and so no path goes through a bitfield. *)
Theorem C74_bitfield_last : forall c ti t p w cs u b z, valid_utf8 p -> valid_utf8 w -> reads_as (usize_max c) p cs -> begins c w cs -> ~ reads_as (usize_max c) w cs ->
  overflow_checks c = true \/ sizes_fit c ti -> unambiguous ti ->
  offset_of_returns c ti t p (Ok (u, BitOffsetAndSize b z)) -> forall v, ~ offset_of_returns c ti t w (Ok v).
Proof.
  intros c ti t p w cs u b z V W R B NR OC U E (v & o) Ew. destruct (C74_stays_inside c ti t p w cs v o V W R B NR OC U Ew) as (u' & a & o' & Ep & _).
  destruct (C32_sound c ti t p _ _ V OC E) as (_ & cs1 & R1 & L1). destruct (C32_sound c ti t p _ _ V OC Ep) as (_ & cs2 & R2 & L2).
  assert (cs1 = cs2) as -> by (eapply accepted_det; [exact V| |]; apply accepted_iff; eassumption).
  destruct (leads_det ti (size ti) U (fun e s s' => size_det ti _ e s s') _ _ _ _ L1 _ _ L2) as [_ X]. discriminate X.
Qed.
Print Assumptions C74_bitfield_last.

(** If it does not, a longer path can be answered with something that lies in another member:
    3: [struct { union { int x; }; struct { int y; } x; }], with x at 0 and x.y at 4. *)
Definition two_x_file : list byte :=
  raw_file Little [5; 0x01000000; 4; 32;  0; 0x05000001; 4; 1; 1; 0;  0; 0x04000002; 8; 0; 2; 0; 1; 4; 32;  0; 0x04000001; 4; 3; 1; 0] [x00; x78; x00; x79; x00; x69; x00].
Definition two_x_ti : type_information := Eval vm_compute in table_of two_x_file.
Theorem C74_elsewhere : exists img ti, type_information_new (file_env img) = Ok ti /\
  offset_of_returns (build64 true) ti 3 (s "x") (Ok (1, ByteOffset 0)) /\ from_id ti 1 <> None /\
  (forall n, ~ leads ti (size ti) 1 [Name n] 1 (ByteOffset 4)) /\
  offset_of_returns (build64 true) ti 3 (s "x.y") (Ok (1, ByteOffset 4)).
Proof.
  exists two_x_file, two_x_ti. split; [vm_compute; reflexivity|]. split; [split; [discriminate|exists 9%nat; vm_compute; reflexivity]|]. split; [vm_compute; discriminate|].
  split; [|split; [discriminate|exists 9%nat; vm_compute; reflexivity]].
  intros n L. assert (I : forall ty ms, is two_x_ti 1 ty -> ~ members_of ty ms).
  { intros ty ms H M. assert (H' : is two_x_ti 1 (match from_id two_x_ti 1 with Some ty => ty | None => TVoid end)) by (apply is_now; [vm_compute; reflexivity|exact I]).
    rewrite (is_det _ _ _ _ H H') in M. vm_compute in M. exact M. }
  inversion L; subst; eapply I; eassumption.
Qed.
Print Assumptions C74_elsewhere.

(** ** Concrete cases *)
Example C74_met : let c := build64 true in
  (** there are three tasks: whatever is said of the fourth, that is what offset_of complains about *)
  (valid_utf8 (s "tasks[3]") /\ path (usize_max c) [Name (s "tasks"); Index 3] (s "tasks[3]") /\ goes_on (s ".pid[") /\ goes_on (s "[x]..") /\
   offset_of_yields c sample_ti 24 (s "tasks[3]") (Err (MIndexOutOfBounds 3 3)) /\
   offset_of_yields c sample_ti 24 (s "tasks[3].pid[") (Err (MIndexOutOfBounds 3 3)) /\
   offset_of_yields c sample_ti 24 (s "tasks[3][x]..") (Err (MIndexOutOfBounds 3 3))) /\
  (** a type that never ends *)
  (offset_of_never_returns c cycle_ti 1 (s "x") /\ offset_of_never_returns c cycle_ti 1 (s "x.y")) /\
  (** the third task at 128, b in it at 136; a bitfield, and nothing behind it *)
  (unambiguous sample_ti /\ offset_of_returns c sample_ti 24 (s "tasks[2].b") (Ok (3, ByteOffset 136)) /\ offset_of_returns c sample_ti 24 (s "tasks[2]") (Ok (9, ByteOffset 128)) /\
   offset_of_returns c sample_ti 24 (s "tasks[2].flag") (Ok (1, BitOffsetAndSize 1408 3)) /\ begins c (s "tasks[2].flag.x") [Name (s "tasks"); Index 2; Name (s "flag")] /\
   ~ reads_as (usize_max c) (s "tasks[2].flag.x") [Name (s "tasks"); Index 2; Name (s "flag")]).
Proof.
  cbv zeta.
  assert (P3 : path (usize_max (build64 true)) [Name (s "tasks"); Index 3] (s "tasks[3]")).
  { apply (path_name _ (s "tasks") [Index 3] (s "[3]")); [split|].
    - left. right. left. split; vm_compute; discriminate.
    - repeat (apply Forall_cons; [left; right; left; split; vm_compute; discriminate|]). apply Forall_nil.
    - apply (rest_index _ 3 (s "[3]") [] []); [|constructor]. exists (s "3"). split; [reflexivity|]. split; [discriminate|].
      split; [apply Forall_cons; [split; vm_compute; discriminate|apply Forall_nil]|]. split; vm_compute; [reflexivity|discriminate]. }
  assert (V3 : valid_utf8 (s "tasks[3]")) by literal. assert (Y3 : offset_of_yields (build64 true) sample_ti 24 (s "tasks[3]") (Err (MIndexOutOfBounds 3 3))) by (split; [discriminate|exists 20%nat; vm_compute; reflexivity]).
  assert (G1 : goes_on (s ".pid[")) by (exists (s "pid["); left; reflexivity). assert (G2 : goes_on (s "[x]..")) by (exists (s "x].."); right; reflexivity).
  split; [|split].
  - split; [exact V3|]. split; [exact P3|]. split; [exact G1|]. split; [exact G2|]. split; [exact Y3|]. split.
    + apply (proj1 (C74_no_rescue (build64 true) sample_ti 24 (s "tasks[3]") (s ".pid[") _ V3 ltac:(literal) P3 ltac:(discriminate) G1)); [discriminate|exact Y3].
    + apply (proj1 (C74_no_rescue (build64 true) sample_ti 24 (s "tasks[3]") (s "[x]..") _ V3 ltac:(literal) P3 ltac:(discriminate) G2)); [discriminate|exact Y3].
  - assert (N : offset_of_never_returns (build64 true) cycle_ti 1 (s "x")).
    { assert (V : valid_utf8 (s "x")) by literal. assert (A : ascripts (build64 true) (PStart, s "x") [Name (s "x")] None) by (apply accepted_script; [exact V|vm_compute; reflexivity]).
      intros n. rewrite (uncached_user (build64 true) cycle_ti _ _ _ n 1 V A). destruct n as [|n]; [reflexivity|]. rewrite follow_S.
      replace (resolve cycle_ti 1) with (@Diverge offset_error (N * type_variant)) by (vm_compute; reflexivity). reflexivity. } split; [exact N|].
    refine (proj2 (proj2 (C74_first_failure (build64 true) cycle_ti 1 (s "x") (s "x.y") [Name (s "x")] ltac:(literal) ltac:(literal) _ _)) N).
    + apply accepted_reads; [literal|vm_compute; reflexivity].
    + vm_compute. reflexivity.
  - split; [exact sample_unambiguous|]. split; [eapply sample_returns with (fuel := 20%nat); [vm_compute; reflexivity|discriminate]|]. split; [eapply sample_returns with (fuel := 20%nat); [vm_compute; reflexivity|discriminate]|].
    split; [eapply sample_returns with (fuel := 20%nat); [vm_compute; reflexivity|discriminate]|]. split; [vm_compute; reflexivity|].
    intros R. apply accepted_iff in R; [|literal]. vm_compute in R. discriminate R.
Qed.
