(** * PropSearch: offset_of is exactly a search for the first match (C70, and C30 exactly). *)
From Coq Require Import Strings.String List NArith Bool Lia Strings.Byte.
From Verif Require Import TypeInfo Spec BaseFacts PathSpec Path PathGrammar QuerySpec Chains Sizes Follow Offsets Offsets2 OffsetOf OffsetOf2 OutcomeSpec Outcome Message MessageSpec MessageFacts
  MessagePath MessageOffset SearchSpec SearchFacts PathPrint Checker LoadProps Encode Sample Witness PropPath PropQuery PropOffset PropOutcome.
Import ListNotations.
Open Scope N_scope.

Lemma text_hunt c p cs bad : valid_utf8 p -> text_is c p cs bad -> exists ending, text_ends c p cs ending /\ (ending <> None <-> bad) /\
  forall ti t n, offset_of_msg n c ti t p = hunt c ti ending n (ByteOffset 0) t cs.
Proof.
  intros V T. destruct (text_script c p cs bad V T) as (e & A & _ & B).
  destruct (mscript_of c p V _ _ _ A piter_new [] (okit_new p V) eq_refl (stands_new c p)) as (em & M & C). cbn [app] in C. exists em.
  split; [|split; [|intros ti t n; apply impl_hunt; exact M]].
  - destruct em as [m|]; cbn [text_ends].
    + destruct C as [C1 C2]. split; [|exact C2]. destruct T as [[_ T]|[T _]]; [destruct (T (proj1 B C1))|right; auto].
    + destruct T as [[T _]|[_ T]]; [left; auto|]. destruct (proj2 B T C).
  - rewrite <- B. destruct em; [destruct C; split; [auto|discriminate]|]. subst e. split; intros X; destruct X; reflexivity.
Qed.

(** ** C70 *)
Theorem C70_offset_of_exact : forall c p cs bad, valid_utf8 p -> text_is c p cs bad -> exists ending, text_ends c p cs ending /\
  forall ti t r, offset_of_yields c ti t p r <-> finds c ti ending (ByteOffset 0) t cs r.
Proof.
  intros c p cs bad V T. destruct (text_hunt c p cs bad V T) as (ending & E & _ & H). exists ending. split; [exact E|]. intros ti t r. rewrite <- reached_iff.
  unfold offset_of_yields, reached. split; intros (D & n & F); (split; [exact D|]); exists n; [rewrite <- H|rewrite H]; exact F.
Qed.
Print Assumptions C70_offset_of_exact.
(** The search has at most one result. *)
Theorem C70_one_result : forall c ti ending o t cs r r', finds c ti ending o t cs r -> finds c ti ending o t cs r' -> r = r'.
Proof. exact finds_det. Qed.
Print Assumptions C70_one_result.
(** Looking at the kind of the error only. *)
Theorem C70_returns : forall c p cs bad, valid_utf8 p -> text_is c p cs bad -> exists ending, text_ends c p cs ending /\
  forall ti t r, offset_of_returns c ti t p r <-> exists r', finds c ti ending (ByteOffset 0) t cs r' /\ kind_only r' = r.
Proof.
  intros c p cs bad V T. destruct (C70_offset_of_exact c p cs bad V T) as (ending & E & H). exists ending. split; [exact E|]. intros ti t r. split.
  - intros (D & n & F). exists (offset_of_msg n c ti t p). rewrite offset_of_kind. split; [|exact F]. apply H. split; [|exists n; reflexivity].
    intros X. pose proof (offset_of_kind n c ti t p) as K. rewrite X, F in K. cbn in K. congruence.
  - intros (r' & F & <-). apply H in F. destruct F as (D & n & F). split; [destruct r'; cbn; congruence|]. exists n. rewrite <- offset_of_kind, F. reflexivity.
Qed.
Print Assumptions C70_returns.

(** offset_of does not return exactly if the search is not over after any number of steps. *)
Theorem C70_never_returns : forall c p cs bad, valid_utf8 p -> text_is c p cs bad -> exists ending, text_ends c p cs ending /\
  forall ti t, offset_of_never_returns c ti t p <-> forall n, busy c ti ending n (ByteOffset 0) t cs.
Proof.
  intros c p cs bad V T. destruct (text_hunt c p cs bad V T) as (ending & E & _ & H). exists ending. split; [exact E|]. intros ti t.
  assert (D : forall n, offset_of_uncached n c ti t p = Diverge <-> hunt c ti ending n (ByteOffset 0) t cs = Diverge).
  { intros n. rewrite <- H, <- offset_of_kind. destruct (offset_of_msg n c ti t p); cbn; split; congruence. }
  split; intros X n.
  - apply hunt_busy, D, X.
  - apply D, busy_hunt, X.
Qed.
Print Assumptions C70_never_returns.

(** ** C30 exactly *)
Theorem C30_never_returns_exactly_partial : forall c p cs bad, valid_utf8 p -> text_is c p cs bad -> exists ending, text_ends c p cs ending /\
  forall ti t, offset_of_never_returns c ti t p <-> forall n, busy c ti ending n (ByteOffset 0) t cs.
Proof. exact C70_never_returns. Qed.
Print Assumptions C30_never_returns_exactly_partial.

(** ** Concrete cases *)
(** 3: [struct { int x; union { int x; }; }], 4: a struct with an anonymous member of its own type, 5: the same followed by [x] *)
Definition shadow_file : list byte :=
  raw_file Little [1; 0x01000000; 4; 32;  0; 0x05000001; 4; 1; 1; 0;  0; 0x04000002; 8; 1; 1; 0; 0; 2; 32;
                   0; 0x04000001; 4; 0; 4; 0;  0; 0x04000002; 4; 0; 4; 0; 1; 1; 0] [x00; x78; x00].
Definition shadow_ti : type_information := Eval vm_compute in table_of shadow_file.
Lemma shadow_loads : type_information_new (file_env shadow_file) = Ok shadow_ti. Proof. vm_compute. reflexivity. Qed.
(** The member of the anonymous union is found, although the struct has one of that name before it. *)
Example C70_met : let c := build64 true in
  valid_utf8 (s "x") /\ text_is c (s "x") [Name (s "x")] False /\
  offset_of_yields c shadow_ti 3 (s "x") (Ok (1, ByteOffset 4)) /\
  finds c shadow_ti None (ByteOffset 0) 3 [Name (s "x")] (Ok (1, ByteOffset 4)) /\
  finds c shadow_ti None (ByteOffset 0) 3 [Name (s "y")] (Err (MMemberNotFound (s "y"))) /\
  (forall n, busy c shadow_ti None n (ByteOffset 0) 5 [Name (s "x")]) /\ offset_of_never_returns c shadow_ti 5 (s "x").
Proof.
  cbv zeta. assert (V : valid_utf8 (s "x")) by literal. assert (T : text_is (build64 true) (s "x") [Name (s "x")] False) by (left; split; [apply accepted_reads; [literal|vm_compute; reflexivity]|auto]).
  split; [exact V|]. split; [exact T|]. split; [split; [discriminate|exists 5%nat; vm_compute; reflexivity]|].
  split; [eapply (hunt_finds _ _ _ 5%nat); [vm_compute; reflexivity|discriminate]|]. split; [eapply (hunt_finds _ _ _ 5%nat); [vm_compute; reflexivity|discriminate]|].
  assert (B : forall n, busy (build64 true) shadow_ti None n (ByteOffset 0) 4 [Name (s "x")]).
  { induction n as [|n IH]; [constructor|]. eapply busy_anonymous with (before := []); [apply is_now; [vm_compute; reflexivity|exact I]|reflexivity|reflexivity|intros b []| |exact IH].
    apply adds_iff. vm_compute. reflexivity. }
  assert (B5 : forall n, busy (build64 true) shadow_ti None n (ByteOffset 0) 5 [Name (s "x")]).
  { intros [|n]; [constructor|]. eapply busy_anonymous with (before := []); [apply is_now; [vm_compute; reflexivity|exact I]|reflexivity|reflexivity|intros b []| |exact (B n)].
    apply adds_iff. vm_compute. reflexivity. }
  split; [exact B5|]. destruct (C70_never_returns _ _ _ _ V T) as (ending & E & H). apply H. intros n.
  destruct ending as [m|]; [|apply B5]. exfalso. destruct E as [[[_ E]|[E _]] _]; [apply E; exact I|].
  destruct T as [[T _]|[_ []]]. vm_compute in E, T. congruence.
Qed.
