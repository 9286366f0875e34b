(** * PropClosed: tables without dangling ids (C55), and texts that mean the same path (C56). *)
From Coq Require Import Strings.String.
From Coq Require Import List NArith Bool Lia Strings.Byte.
From Verif Require Import TypeInfo Spec BaseFacts PathSpec Path PathGrammar PathPrint QuerySpec RenumberSpec OutcomeSpec Encode Chains Sizes Follow Offsets Offsets2 OffsetOf OffsetOf2 Outcome LoadProps Final Maps Witness Sample PropPath PropQuery PropOffset.
Import ListNotations.
Open Scope N_scope.

(** [t] is in the table; every id mentioned by a type of the table is. *)
Definition in_table (ti : type_information) (t : N) : Prop := from_id ti t <> None.
Definition closed (ti : type_information) : Prop := forall t d u, shows ti t = Shown d -> In u (mentions d) -> in_table ti u.

Section Closed.
  Context (c : build) (ti : type_information) (HC : closed ti).
  Lemma mentioned t ty d u : from_id ti t = Some ty -> view ty = Some d -> In u (mentions d) -> in_table ti u.
  Proof. intros H V I. apply (HC t d u); [|exact I]. unfold shows. rewrite H, V. reflexivity. Qed.
  Lemma closed_transparent t u : transparent ti t u -> in_table ti u.
  Proof.
    intros (ty & H & [Q|(h & d & -> & E)]); [|eapply mentioned; [exact H|reflexivity|left; exact E]].
    destruct ty; cbn in Q; try contradiction; (eapply mentioned; [exact H|reflexivity|left; exact Q]).
  Qed.
  Lemma closed_size_link t u : size_link ti t u -> in_table ti u.
  Proof.
    intros [(ty & H & [Q|[(h & d & -> & E)|(h & d & -> & E)]])|(n & h & d & H & E & _)].
    - destruct ty; cbn in Q; try contradiction; (eapply mentioned; [exact H|reflexivity|left; exact Q]).
    - eapply mentioned; [exact H|reflexivity|left; exact E].
    - eapply mentioned; [exact H|reflexivity|left; exact E].
    - eapply mentioned; [exact H|reflexivity|left; exact E].
  Qed.
  Lemma closed_chain (R : N -> N -> Prop) : (forall t u, R t u -> in_table ti u) -> forall t u, chain R t u -> in_table ti t -> in_table ti u.
  Proof. intros HR t u C. induction C; eauto. Qed.
  Lemma closed_is t ty : is ti t ty -> forall d u, view ty = Some d -> In u (mentions d) -> in_table ti u.
  Proof. intros (r & _ & H & _) d u V I. eapply mentioned; eassumption. Qed.
  Lemma closed_member t ty ms m : is ti t ty -> members_of ty ms -> In m ms -> in_table ti (m_tid m).
  Proof.
    intros H M I. destruct ty; cbn in M; try contradiction; subst ms; (eapply closed_is; [exact H|reflexivity|]); cbn; rewrite map_map; apply in_map_iff; exists m; auto.
  Qed.
  Lemma named_In ms n m : named ms n m -> In m ms.
  Proof. intros (a & b & -> & _). apply in_or_app. right. left. reflexivity. Qed.
  Lemma closed_gets sz o t cs o' u rest : gets ti sz o t cs o' u rest -> in_table ti t -> in_table ti u.
  Proof.
    induction 1 as [|a t h d i s cs o' u rest Hty Hi Hs G IH|a t ty ms n m cs o' u rest Hty Hms Hm G IH|o t ty ms n m b cs o' u rest Hty Hms Hin Hn Em G IH]; intros K; [exact K| | |].
    - apply IH. eapply closed_is; [exact Hty|reflexivity|left; reflexivity].
    - apply IH. eapply closed_member; [exact Hty|exact Hms|eapply named_In; exact Hm].
    - apply IH. eapply closed_member; eassumption.
  Qed.
  Lemma closed_size t : in_table ti t -> no_size ti t InvalidTypeID -> forall s, ~ pointer_sized ti s.
  Proof.
    intros K N. inversion N as [t' u Ch Hn|t' u h d Ch Hp Hno|]; subst; [|exact Hno].
    exfalso. exact (closed_chain _ closed_size_link _ _ Ch K Hn).
  Qed.
  Lemma closed_blocked sz bad o u rest k : blocked ti sz bad o u rest k -> in_table ti u -> k = InvalidTypeID -> forall s, ~ pointer_sized ti s.
  Proof.
    intros Bk K E. destruct Bk as [| o u x rest r Hch Hno| | |o u i rest h d k Hty Hi Hns| | | | | |]; try discriminate.
    - exfalso. exact (closed_chain _ closed_transparent _ _ Hch K Hno).
    - subst k. eapply closed_size; [|exact Hns]. eapply closed_is; [exact Hty|reflexivity|left; reflexivity].
  Qed.
End Closed.

(** ** C55 *)
(** Starting from a type of the table, every id a query returns is in the table; and InvalidTypeID is returned only for
    want of a struct list_head (the size of pointers), or - by pointee_tid - because the type is no pointer. *)
Theorem C55_closed : forall c ti t, closed ti -> in_table ti t ->
  (forall u, pointee_tid ti t = Ok u -> in_table ti u) /\
  (forall p u o, valid_utf8 p -> offset_of_returns c ti t p (Ok (u, o)) -> in_table ti u) /\
  (size_of c ti t = Err InvalidTypeID -> forall s, ~ pointer_sized ti s) /\
  (forall p, valid_utf8 p -> offset_of_returns c ti t p (Err InvalidTypeID) -> forall s, ~ pointer_sized ti s).
Proof.
  intros c ti t HC K. split; [|split; [|split]].
  - intros u E. apply (proj1 (C31_pointee ti t)) in E. destruct E as (p & h & d & _ & H & <-).
    eapply mentioned; [exact HC|exact H|reflexivity|left; reflexivity].
  - intros p u o V (D & n & E). destruct (script_of c p V) as (cs & e & A & He). rewrite (uncached_user _ _ _ _ _ _ _ V A) in E.
    pose proof (follow_outcome c ti e n He (ByteOffset 0) t cs) as F. destruct (follow n c ti e (ByteOffset 0) t cs) as [[u' o']|k|q|]; cbn in E; try discriminate.
    injection E as -> ->. destruct F as [_ G]. eapply closed_gets; eassumption.
  - intros E. apply C28_errors in E. eapply closed_size; eassumption.
  - intros p V (D & n & E). destruct (script_of c p V) as (cs & e & A & He). rewrite (uncached_user _ _ _ _ _ _ _ V A) in E.
    pose proof (follow_outcome c ti e n He (ByteOffset 0) t cs) as F. destruct (follow n c ti e (ByteOffset 0) t cs) as [[u' o']|k|q|]; cbn in E; try discriminate.
    injection E as E. destruct F as (o & u & rest & G & Bk). eapply closed_blocked; [exact HC|exact Bk| |exact E]. eapply closed_gets; eassumption.
Qed.
Print Assumptions C55_closed.
(** Loading does not check this: a table is closed or not. *)
Definition closedb (ti : type_information) : bool :=
  forallb (fun it => match view (snd it) with None => true | Some d => forallb (fun u => match from_id ti u with None => false | Some _ => true end) (mentions d) end) (get ti).
Lemma closedb_sound e ti : usize_bits (cfg e) = 64 -> type_information_new e = Ok ti -> closedb ti = true -> closed ti.
Proof.
  intros H L C t d u S I. unfold shows in S. destruct (from_id ti t) as [ty|] eqn:E; [|discriminate]. destruct (view ty) as [d'|] eqn:V; [|discriminate]. injection S as ->.
  destruct (loaded_ids e ti H L) as (_ & A & _ & Z). destruct (N.eq_dec t 0) as [->|Ht]; [rewrite Z in E; injection E as <-; discriminate|].
  apply (A t ty Ht) in E. unfold closedb in C. rewrite forallb_forall in C. specialize (C _ E). cbn [snd] in C. rewrite V in C. rewrite forallb_forall in C. specialize (C u I).
  unfold in_table. destruct (from_id ti u); congruence.
Qed.
(** A pointer to 7, in a table of one type. *)
Definition dangling_ti : type_information := Eval vm_compute in table_of (raw_file Little [0; 0x02000000; 7] [x00]).
Example C55_met : closed sample_ti /\ in_table sample_ti 24 /\ in_table sample_ti 15 /\ pointee_tid sample_ti 15 = Ok 2 /\
  ~ closed dangling_ti /\ in_table dangling_ti 1 /\ pointee_tid dangling_ti 1 = Ok 7 /\ ~ in_table dangling_ti 7.
Proof.
  split; [apply (closedb_sound (file_env sample_img)); [reflexivity|exact sample_loads|vm_compute; reflexivity]|].
  split; [vm_compute; discriminate|]. split; [vm_compute; discriminate|]. split; [vm_compute; reflexivity|].
  assert (U : ~ in_table dangling_ti 7) by (intros H; apply H; vm_compute; reflexivity).
  split; [intros H; apply U; apply (H 1 (DPtr 7) 7); [vm_compute; reflexivity|left; reflexivity]|].
  split; [vm_compute; discriminate|]. split; [vm_compute; reflexivity|exact U].
Qed.

(** ** C56 *)
(** The answer depends only on the components of the path, and on whether something malformed follows. *)
Theorem C56_same_components : forall c ti t p q cs bad, valid_utf8 p -> valid_utf8 q -> text_is c p cs bad -> text_is c q cs bad ->
  (forall r, offset_of_returns c ti t p r <-> offset_of_returns c ti t q r) /\ (offset_of_never_returns c ti t p <-> offset_of_never_returns c ti t q).
Proof.
  intros c ti t p q cs bad Vp Vq Tp Tq. destruct (text_script c p cs bad Vp Tp) as (e & A & He & Hb). destruct (text_script c q cs bad Vq Tq) as (e' & A' & He' & Hb').
  assert (e' = e) as ->. { destruct He as [->| ->], He' as [->| ->]; try reflexivity; exfalso; [apply (proj2 Hb (proj1 Hb' ltac:(discriminate)))|apply (proj2 Hb' (proj1 Hb ltac:(discriminate)))]; reflexivity. }
  assert (E : forall n, offset_of_uncached n c ti t p = offset_of_uncached n c ti t q) by (intros n; rewrite (uncached_user _ _ _ _ _ _ _ Vp A), (uncached_user _ _ _ _ _ _ _ Vq A'); reflexivity).
  split.
  - intros r. unfold offset_of_returns. split; intros (D & n & R); (split; [exact D|]); exists n; [rewrite <- E|rewrite E]; exact R.
  - unfold offset_of_never_returns. split; intros D n; [rewrite <- E|rewrite E]; apply D.
Qed.
Print Assumptions C56_same_components.
(** Every text has such a reading. *)
Theorem C56_every_text : forall c p, valid_utf8 p -> exists cs bad, text_is c p cs bad.
Proof.
  intros c p V. destruct (script_of c p V) as (cs & e & A & [-> | ->]).
  - exists cs, False. left. split; [apply script_reads; assumption|auto].
  - exists cs, True. right. split; [apply malformed_script; assumption|auto].
Qed.
Print Assumptions C56_every_text.
(** Leading zeros and a dot at the end change nothing; nor does it matter what the malformed rest is. *)
Example C56_met : let c := build64 true in
  (text_is c (s "tasks[2].b") [Name (s "tasks"); Index 2; Name (s "b")] False /\ text_is c (s "tasks[0002].b.") [Name (s "tasks"); Index 2; Name (s "b")] False) /\
  (text_is c (s "pid..x") [Name (s "pid")] True /\ text_is c (s "pid.[") [Name (s "pid")] True).
Proof.
  cbv zeta. split; split.
  - left. split; [apply accepted_reads; [literal|vm_compute; reflexivity]|auto].
  - left. split; [apply accepted_reads; [literal|vm_compute; reflexivity]|auto].
  - right. split; [vm_compute; reflexivity|auto].
  - right. split; [vm_compute; reflexivity|auto].
Qed.
