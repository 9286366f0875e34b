(** * PropLook: queries look at nothing but what is on their way (C75). *)
From Coq Require Import Strings.String List NArith Bool Lia Strings.Byte.
From Verif Require Import TypeInfo Spec BaseFacts PathSpec Path PathGrammar QuerySpec Chains Sizes Follow Offsets Offsets2 OffsetOf OffsetOf2 OutcomeSpec Outcome LookSpec LookFacts
  PathPrint Checker LoadProps Encode Sample Witness PropPath PropQuery PropOffset.
Import ListNotations.
Open Scope N_scope.

Theorem C75_pointee_tid : forall ti1 ti2 t, (forall x, follows ti1 t x -> same_item ti1 ti2 x) -> pointee_tid ti2 t = pointee_tid ti1 t.
Proof. exact look_pointee_tid. Qed.
Print Assumptions C75_pointee_tid.
Theorem C75_size_of : forall c ti1 ti2 t, (forall x, measures ti1 t x -> same_item ti1 ti2 x) -> size_of c ti2 t = size_of c ti1 t.
Proof. intros c ti1 ti2 t. exact (look_size_of ti1 ti2 c t). Qed.
Print Assumptions C75_size_of.
(** The text of the path is any: [bad] tells whether it is malformed behind the components [cs]. *)
Theorem C75_offset_of : forall c ti1 ti2 t p cs bad, valid_utf8 p -> text_is c p cs bad -> (forall x, sees ti1 t cs x -> same_item ti1 ti2 x) ->
  (forall r, offset_of_returns c ti2 t p r <-> offset_of_returns c ti1 t p r) /\ (offset_of_never_returns c ti2 t p <-> offset_of_never_returns c ti1 t p).
Proof.
  intros c ti1 ti2 t p cs bad V T H. destruct (text_script c p cs bad V T) as (e & A & _).
  assert (E : forall n, offset_of_uncached n c ti2 t p = offset_of_uncached n c ti1 t p) by (intros n; rewrite !(uncached_user _ _ _ _ _ _ _ V A), (look_follow ti1 ti2 c e n (ByteOffset 0) t cs H); reflexivity).
  split.
  - intros r. unfold offset_of_returns. split; intros (D & n & R); (split; [exact D|]); exists n; [rewrite <- E|rewrite E]; exact R.
  - unfold offset_of_never_returns. split; intros D n; [rewrite <- E|rewrite E]; apply D.
Qed.
Print Assumptions C75_offset_of.

(** ** In particular *)
(** [x] replaced by anything, if it is not on the way. *)
Theorem C75_elsewhere : forall c ti1 ti2 x t p cs bad, valid_utf8 p -> text_is c p cs bad -> (forall v, v <> x -> from_id ti2 v = from_id ti1 v) ->
  (forall s, pointer_sized ti1 s <-> pointer_sized ti2 s) -> ~ sees ti1 t cs (Passed x) -> ~ sees ti1 t cs (Measured x) ->
  forall r, offset_of_returns c ti2 t p r <-> offset_of_returns c ti1 t p r.
Proof.
  intros c ti1 ti2 x t p cs bad V T E HP N1 N2. apply (C75_offset_of c ti1 ti2 t p cs bad V T). intros y S. destruct y as [v|v|v|]; cbn [same_item].
  - exfalso. clear -S. remember (Followed v) as y eqn:Ey. induction S as [| |t h d i cs y _ _ _ IH|t ty ms n m cs y _ _ _ _ _ IH|t ty ms n m cs y _ _ _ _ IH]; subst; auto; [discriminate|]. match goal with M : measures _ _ _ |- _ => inversion M end.
  - rewrite E; [reflexivity|]. intros ->. auto.
  - rewrite E; [reflexivity|]. intros ->. auto.
  - exact HP.
Qed.
Print Assumptions C75_elsewhere.
(** Where pointers point to does not matter to size_of and offset_of. *)
Theorem C75_retarget : forall c ti1 ti2, (forall v, same_item ti1 ti2 (Measured v)) -> (forall v, same_item ti1 ti2 (Passed v)) -> same_item ti1 ti2 PointerSize ->
  (forall t, size_of c ti2 t = size_of c ti1 t) /\ (forall t p r, valid_utf8 p -> offset_of_returns c ti2 t p r <-> offset_of_returns c ti1 t p r).
Proof.
  intros c ti1 ti2 HM HS HP. assert (G : forall t x, measures ti1 t x -> same_item ti1 ti2 x) by (intros t x [? ? _|? ? ? ? _ _]; [apply HM|exact HP]). split.
  - intros t. apply C75_size_of, G.
  - intros t p r V. destruct (script_of c p V) as (cs & e & A & He).
    assert (T : exists bad, text_is c p cs bad) by (destruct He as [-> | ->]; [exists False; left; split; [apply script_reads; assumption|auto]|exists True; right; split; [apply malformed_script; assumption|exact I]]).
    destruct T as (bad & T). apply (C75_offset_of c ti1 ti2 t p cs bad V T). clear -G HS. intros x S. induction S; auto. eapply G. eassumption.
Qed.
Print Assumptions C75_retarget.
(** No size matters to the offset of a member: sizes only enter with the elements of an array. *)
Definition only_names (cs : list component) : Prop := Forall (fun x => exists n, x = Name n) cs.
Theorem C75_resize : forall c ti1 ti2 t p cs bad, valid_utf8 p -> text_is c p cs bad -> only_names cs -> (forall v, same_item ti1 ti2 (Passed v)) ->
  forall r, offset_of_returns c ti2 t p r <-> offset_of_returns c ti1 t p r.
Proof.
  intros c ti1 ti2 t p cs bad V T O H. apply (C75_offset_of c ti1 ti2 t p cs bad V T). clear -O H. intros x S.
  induction S as [t y cs u _|t h d i cs v _ _ _|t h d i cs v _ _ _ _|t ty ms n m cs v _ _ _ _ _ IH|t ty ms n m cs v _ _ _ _ IH]; [apply H| | |auto|apply IH; inversion O; assumption];
    inversion O as [|? ? (n & X) _]; discriminate X.
Qed.
Print Assumptions C75_resize.

(** ** Concrete cases *)
(** 2: [T *], 3: [struct T { int x; }], 4: [struct S { int a; struct T t; T *p; }], 5: [struct S[3]] *)
Definition before_file : list byte :=
  raw_file Little [1; 0x01000000; 4; 32;  0; 0x02000000; 3;  3; 0x04000001; 8; 5; 1; 0;  7; 0x04000003; 24; 9; 1; 0; 13; 3; 32; 11; 2; 128;  0; 0x03000000; 0; 4; 1; 3]
    [x00; x69; x00; x54; x00; x78; x00; x53; x00; x61; x00; x70; x00; x74; x00].
(** the same with another pointer, and bigger structs *)
Definition after_file : list byte :=
  raw_file Little [1; 0x01000000; 4; 32;  0; 0x02000000; 4;  3; 0x04000001; 12; 5; 1; 0;  7; 0x04000003; 32; 9; 1; 0; 13; 3; 32; 11; 2; 128;  0; 0x03000000; 0; 4; 1; 3]
    [x00; x69; x00; x54; x00; x78; x00; x53; x00; x61; x00; x70; x00; x74; x00].
Definition before_ti : type_information := Eval vm_compute in table_of before_file.
Definition after_ti : type_information := Eval vm_compute in table_of after_file.
Lemma same_passed v : same_item before_ti after_ti (Passed v).
Proof. cbn [same_item]. destruct v as [|p]; [reflexivity|]. do 4 (destruct p as [p|p|]; try (vm_compute; reflexivity)). Qed.
(** t.x at 4 in both, and p at 16; but the second element is elsewhere: it is there that a size is looked at. *)
Example C75_met : let c := build64 true in
  type_information_new (file_env before_file) = Ok before_ti /\ type_information_new (file_env after_file) = Ok after_ti /\
  (text_is c (s "t.x") [Name (s "t"); Name (s "x")] False /\ only_names [Name (s "t"); Name (s "x")] /\ (forall v, same_item before_ti after_ti (Passed v)) /\
   offset_of_returns c before_ti 4 (s "t.x") (Ok (1, ByteOffset 4)) /\ offset_of_returns c after_ti 4 (s "t.x") (Ok (1, ByteOffset 4))) /\
  (~ same_item before_ti after_ti (Measured 4) /\ sees before_ti 5 [Index 1; Name (s "a")] (Measured 4) /\
   offset_of_returns c before_ti 5 (s "[1].a") (Ok (1, ByteOffset 24)) /\ offset_of_returns c after_ti 5 (s "[1].a") (Ok (1, ByteOffset 32))) /\
  (** T is not on the way to a *)
  (~ sees before_ti 4 [Name (s "a")] (Passed 3) /\ ~ sees before_ti 4 [Name (s "a")] (Measured 3)) /\
  (** and where p points to only pointee_tid knows *)
  (~ same_item before_ti after_ti (Followed 2) /\ follows before_ti 2 (Followed 2) /\ pointee_tid before_ti 2 = Ok 3 /\ pointee_tid after_ti 2 = Ok 4 /\ same_item before_ti after_ti (Measured 2)).
Proof.
  cbv zeta. split; [vm_compute; reflexivity|]. split; [vm_compute; reflexivity|].
  assert (I5 : is before_ti 5 (match from_id before_ti 5 with Some ty => ty | None => TVoid end)) by (apply is_now; [vm_compute; reflexivity|exact I]).
  assert (T : text_is (build64 true) (s "t.x") [Name (s "t"); Name (s "x")] False) by (left; split; [apply accepted_reads; [literal|vm_compute; reflexivity]|auto]).
  assert (O : only_names [Name (s "t"); Name (s "x")]) by (repeat constructor; eexists; reflexivity).
  assert (R : offset_of_returns (build64 true) before_ti 4 (s "t.x") (Ok (1, ByteOffset 4))) by (split; [discriminate|exists 9%nat; vm_compute; reflexivity]).
  split; [|split; [|split]].
  - split; [exact T|]. split; [exact O|]. split; [exact same_passed|]. split; [exact R|].
    apply (C75_resize (build64 true) before_ti after_ti 4 (s "t.x") _ False ltac:(literal) T O same_passed). exact R.
  - split; [vm_compute; discriminate|]. split; [|split; (split; [discriminate|exists 9%nat; vm_compute; reflexivity])].
    eapply sees_size; [exact I5|vm_compute; reflexivity|]. apply measures_type. constructor.
  - assert (I4 : is before_ti 4 (match from_id before_ti 4 with Some ty => ty | None => TVoid end)) by (apply is_now; [vm_compute; reflexivity|exact I]).
    assert (I1 : forall x, ~ sees before_ti 1 [] x) by (intros x S; inversion S).
    assert (G : forall x, sees before_ti 4 [Name (s "a")] x -> x = Passed 4).
    { intros x S. inversion S as [t y cs u C|t h d i cs v H1 H2 H3|t h d i cs v H1 H2 H3|t ty ms n m cs v H1 H2 H3 H4 H5|t ty ms n m cs v H1 H2 H3 H4]; subst.
      - inversion C as [w|w u' v L _]; subst; [reflexivity|]. exfalso. destruct L as (ty & E & L). vm_compute in E. injection E as <-. destruct L as [[]|(? & ? & L & _)]; discriminate L.
      - exfalso. rewrite (is_det _ _ _ _ H1 I4) in H2. vm_compute in H2. subst ms. repeat (destruct H3 as [<- |H3]; [discriminate H4|]). destruct H3.
      - exfalso. rewrite (is_det _ _ _ _ H1 I4) in H2. vm_compute in H2. subst ms. apply find_named in H3. vm_compute in H3. injection H3 as <-. exact (I1 _ H4). }
    split; intros S; apply G in S; discriminate S.
  - split; [vm_compute; discriminate|]. split; [constructor; constructor|]. split; [vm_compute; reflexivity|]. split; [vm_compute; reflexivity|]. vm_compute. reflexivity.
Qed.
