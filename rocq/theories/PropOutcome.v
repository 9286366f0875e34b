(** * PropOutcome: every result of offset_of is explained (C52), and the conditions of C30 and C33 along the path only.
    [gets] and [blocked] are in OutcomeSpec.v. *)
From Coq Require Import Strings.String.
From Coq Require Import List NArith ZArith Bool Lia Strings.Byte.
From Verif Require Import TypeInfo Spec BaseFacts PathSpec Path PathGrammar PathPrint QuerySpec Chains Sizes Follow Offsets Offsets2 OffsetOf OffsetOf2 Checker Encode LoadProps Witness Sample
  OutcomeSpec Outcome PropPath PropQuery PropOffset.
Import ListNotations.
Open Scope N_scope.

(** ** C52 *)
Theorem C52_outcome_explained : forall c ti t p cs bad, valid_utf8 p -> text_is c p cs bad -> overflow_checks c = true \/ sizes_fit c ti ->
  ((exists r, offset_of_returns c ti t p r) \/ exists o u rest, gets ti (size ti) (ByteOffset 0) t cs o u rest /\ endless (link ti) u) /\
  forall r, offset_of_returns c ti t p r -> match r with
    | Ok (u, o) => ~ bad /\ gets ti (size ti) (ByteOffset 0) t cs o u []
    | Err k => exists o u rest, gets ti (size ti) (ByteOffset 0) t cs o u rest /\ blocked ti (size ti) bad o u rest k
    | Panic q => exists o u i rest h d s, gets ti (size ti) (ByteOffset 0) t cs o u (Index i :: rest) /\ is ti u (TArray h d) /\ i < element_count d /\
        size ti (element_tid d) s /\ ~ has_size ti (fun n => n < 2 ^ usize_bits c) (element_tid d) s
    | Diverge => False end.
Proof. exact offset_of_outcome. Qed.
Print Assumptions C52_outcome_explained.

(** What each error tells the caller, by its kind. *)
Theorem C52_error_kinds : forall c ti t p cs bad k, valid_utf8 p -> text_is c p cs bad -> overflow_checks c = true \/ sizes_fit c ti ->
  offset_of_returns c ti t p (Err k) -> exists o u rest, gets ti (size ti) (ByteOffset 0) t cs o u rest /\
  match k with
  | InvalidTypeID => exists x rest', rest = x :: rest' /\
      ((exists r, chain (transparent ti) u r /\ from_id ti r = None) \/
       exists i h d, x = Index i /\ is ti u (TArray h d) /\ no_size ti (element_tid d) InvalidTypeID)
  | NotSized => exists i rest' h d, rest = Index i :: rest' /\ is ti u (TArray h d) /\ i < element_count d /\ no_size ti (element_tid d) NotSized
  | InvalidOffset => ~ fits32 o
  | UnexpectedBitfield => exists x rest', rest = x :: rest' /\
      ((exists b z, o = BitOffsetAndSize b z) \/
       exists n ty ms m b z, x = Name n /\ is ti u ty /\ members_of ty ms /\ In m ms /\ m_name m = None /\ m_offset m = BitOffsetAndSize b z)
  | InvalidTypePath => bad \/ exists x rest' ty, rest = x :: rest' /\ is ti u ty /\
      match x with
      | Index i => match ty with TArray _ d => element_count d <= i \/ exists s, size ti (element_tid d) s /\ 2 ^ 32 <= i * s | _ => True end
      | Name n => forall ms, members_of ty ms -> forall m, In m ms -> m_name m <> Some n
      end
  | _ => False
  end.
Proof.
  intros c ti t p cs bad k V T Hc E. destruct (offset_of_outcome c ti t p cs bad V T Hc) as [_ X]. destruct (X _ E) as (o & u & rest & G & B). clear X E.
  exists o, u, rest. split; [exact G|].
  destruct B as [o u Hb|o u x rest r Hch Hno|o u rest Hf|o u i rest ty Hty Hi|o u i rest h d k Hty Hi Hns|o u i rest h d z Hty Hi Hs Hz|b z u i rest h d Hty Hi|b z u n rest ty ms m Hty Hms Hm|o u n rest ty Hty Hm|o u n rest ty ms m b z Hty Hms Hin Hn Ho|o u n rest ty ms Hty Hms Hno Han].
  - left. exact Hb.
  - exists x, rest. split; [reflexivity|]. left. exists r. auto.
  - exact Hf.
  - right. exists (Index i), rest, ty. split; [reflexivity|]. split; [exact Hty|]. destruct ty; auto.
  - inversion Hns; subst.
    + exists (Index i), rest. split; [reflexivity|]. right. exists i, h, d. auto.
    + exists (Index i), rest. split; [reflexivity|]. right. exists i, h, d. auto.
    + exists i, rest, h, d. auto.
  - right. exists (Index i), rest, (TArray h d). split; [reflexivity|]. split; [exact Hty|]. right. exists z. auto.
  - eexists _, rest. split; [reflexivity|]. left. exists b, z. reflexivity.
  - eexists _, rest. split; [reflexivity|]. left. exists b, z. reflexivity.
  - right. exists (Name n), rest, ty. split; [reflexivity|]. split; [exact Hty|]. intros ms Hms. destruct Hm. exists ms. exact Hms.
  - exists (Name n), rest. split; [reflexivity|]. right. exists n, ty, ms, m, b, z. auto 8.
  - right. exists (Name n), rest, ty. split; [reflexivity|]. split; [exact Hty|]. intros ms' Hms'. rewrite (members_of_det _ _ _ Hms' Hms). exact Hno.
Qed.
Print Assumptions C52_error_kinds.

(** An index beyond the array; a bad index after a member that exists; an overflowing size; and a chain without end. *)
Example C52_met : let c := build64 true in
  (text_is c (s "tasks[3].pid") [Name (s "tasks"); Index 3; Name (s "pid")] False /\
   offset_of_returns c sample_ti 24 (s "tasks[3].pid") (Err InvalidTypePath) /\
   gets sample_ti (size sample_ti) (ByteOffset 0) 24 [Name (s "tasks"); Index 3; Name (s "pid")] (ByteOffset 0) 10 [Index 3; Name (s "pid")] /\
   blocked sample_ti (size sample_ti) False (ByteOffset 0) 10 [Index 3; Name (s "pid")] InvalidTypePath) /\
  (text_is c (s "list[x]") [Name (s "list")] True /\ offset_of_returns c sample_ti 7 (s "list[x]") (Err InvalidTypePath)) /\
  offset_of_returns c sample_ti 7 (s "flag.x") (Err InvalidTypePath) /\
  (text_is c (s "[2]") [Index 2] False /\ offset_of_returns c overflow_ti 4 (s "[2]") (Panic ArithmeticOverflow)) /\
  (text_is c (s "x") [Name (s "x")] False /\ offset_of_never_returns c cycle_ti 1 (s "x") /\ endless (link cycle_ti) 1).
Proof.
  cbv zeta.
  split; [|split; [|split; [|split]]].
  - split; [left; split; [apply accepted_reads; [literal|vm_compute; reflexivity]|auto]|].
    split; [eapply sample_returns with (fuel := 20%nat); [vm_compute; reflexivity|discriminate]|]. split.
    + eapply gets_member; [apply is_now; [vm_compute; reflexivity|exact I]|reflexivity|apply find_named; vm_compute; reflexivity|]. apply gets_here.
    + eapply no_element; [apply is_now; [vm_compute; reflexivity|exact I]|vm_compute; discriminate].
  - split; [right; split; [vm_compute; reflexivity|exact I]|]. eapply sample_returns with (fuel := 20%nat); [vm_compute; reflexivity|discriminate].
  - eapply sample_returns with (fuel := 20%nat); [vm_compute; reflexivity|discriminate].
  - split; [left; split; [apply accepted_reads; [literal|vm_compute; reflexivity]|auto]|]. split; [discriminate|exists 10%nat; vm_compute; reflexivity].
  - split; [left; split; [apply accepted_reads; [literal|vm_compute; reflexivity]|auto]|]. split.
    + assert (V : valid_utf8 (s "x")) by literal. assert (A : ascripts (build64 true) (PStart, s "x") [Name (s "x")] None) by (apply accepted_script; [exact V|apply accepted_x]).
      intros n. rewrite (uncached_user (build64 true) cycle_ti _ _ _ n 1 V A).
      destruct n as [|n]; [reflexivity|]. rewrite follow_S.
      replace (resolve cycle_ti 1) with (@Diverge offset_error (N * type_variant)) by (vm_compute; reflexivity). reflexivity.
    + exists (fun _ => 1). split; [reflexivity|]. intros n. left. apply transparent_cases. eexists. split; vm_compute; reflexivity.
Qed.

(** ** C30, along the path *)
(** offset_of returns, unless it gets to the start of an endless chain of links: what the path does not reach does not matter. *)
Theorem C30_offset_of_local_partial : forall c ti t p cs bad, valid_utf8 p -> text_is c p cs bad ->
  (exists r, offset_of_returns c ti t p r) \/
  exists o u rest, gets ti (fun e s => size_of c ti e = Ok s) (ByteOffset 0) t cs o u rest /\ endless (link ti) u.
Proof.
  intros c ti t p cs bad V T. destruct (text_script c p cs bad V T) as (e & A & _ & _).
  destruct (follow_goes_on c ti e (ByteOffset 0) t cs) as [(o & u & rest & G & En)|(n & D)].
  - right. exists o, u, rest. split; [exact G|exact En].
  - left. eexists. eapply returns_of_follow; eassumption.
Qed.
Print Assumptions C30_offset_of_local_partial.

(** ** C33, along the path *)
(** If every place that the path can get to is [fine] (OutcomeSpec.v), offset_of finds exactly the places that the path leads to. *)
Theorem C33_exact_along_path : forall c ti t p cs, valid_utf8 p -> reads_as (usize_max c) p cs ->
  (forall o' u' rest, gets ti (size ti) (ByteOffset 0) t cs o' u' rest -> fine c ti o' u' rest) ->
  forall u o, offset_of_returns c ti t p (Ok (u, o)) <-> leads ti (size ti) t cs u o.
Proof. exact offset_of_fine. Qed.
Print Assumptions C33_exact_along_path.

(** A table with a typedef of itself (1) and a struct with an ambiguous name and an unnamed bitfield (4): neither matters for [a] in struct 2. *)
Definition mixed_file : list byte :=
  raw_file Little [0; 0x08000000; 1;  0; 0x04000001; 8; 1; 3; 32;  0; 0x01000000; 4; 32;
                   0; 0x84000003; 8; 1; 3; 0; 1; 3; 32; 0; 3; 0x03000000] [x00; x61; x00].
Definition mixed_ti : type_information := Eval vm_compute in table_of mixed_file.
Lemma mixed_loads : type_information_new (file_env mixed_file) = Ok mixed_ti. Proof. vm_compute. reflexivity. Qed.
Example C33_local_met : let c := build64 true in
  valid_utf8 (s "a") /\ reads_as (usize_max c) (s "a") [Name (s "a")] /\
  ~ acyclic mixed_ti /\ ~ anonymous_in_bytes mixed_ti /\ ~ unambiguous mixed_ti /\
  (forall o' u' rest, gets mixed_ti (size mixed_ti) (ByteOffset 0) 2 [Name (s "a")] o' u' rest -> fine c mixed_ti o' u' rest) /\
  leads mixed_ti (size mixed_ti) 2 [Name (s "a")] 3 (ByteOffset 4).
Proof.
  cbv zeta. assert (V : valid_utf8 (s "a")) by literal. split; [exact V|].
  split; [apply accepted_reads; [exact V|vm_compute; reflexivity]|].
  split; [intros H; apply (H 1); exists (fun _ => 1); split; [reflexivity|]; intros n; left; apply transparent_cases; eexists; split; vm_compute; reflexivity|].
  assert (Solid : forall t ty ty', from_id mixed_ti t = Some ty -> solid ty -> is mixed_ti t ty' -> ty' = ty) by (intros t ty ty' H1 H2 H3; eapply is_det; [exact H3|apply is_now; assumption]).
  split.
  { intros H. unfold anonymous_in_bytes in H. specialize (H 4 _ _ {| m_name_offset := 0; m_name := None; m_tid := 3; m_offset := BitOffsetAndSize 0 3 |} (ltac:(vm_compute; reflexivity)) eq_refl).
    destruct H as [b Hb]; [vm_compute; tauto|reflexivity|discriminate Hb]. }
  split.
  { intros H. specialize (H 4 _ _ (s "a") {| m_name_offset := 1; m_name := Some (s "a"); m_tid := 3; m_offset := ByteOffset 0 |} {| m_name_offset := 1; m_name := Some (s "a"); m_tid := 3; m_offset := ByteOffset 4 |}
      (is_now mixed_ti 4 _ (ltac:(vm_compute; reflexivity)) I) eq_refl).
    enough ({| m_name_offset := 1; m_name := Some (s "a"); m_tid := 3; m_offset := ByteOffset 0 |} = {| m_name_offset := 1; m_name := Some (s "a"); m_tid := 3; m_offset := ByteOffset 4 |}) by discriminate.
    apply H; [vm_compute; tauto|vm_compute; tauto|left; reflexivity|left; reflexivity]. }
  split.
  - assert (NE : forall t, t = 2 \/ t = 3 -> ~ endless (link mixed_ti) t).
    { intros t Ht En. apply endless_head in En. destruct En as (u & L). apply link_links in L. destruct L as (ty & E & L).
      destruct Ht as [-> | ->]; vm_compute in E; injection E as <-; exact L. }
    intros o' u' rest G.
    inversion G as [|? ? ? ? ? ? ? ? ? ? ? Hty|a t ty ms n m cs o u r Hty Hms Hm G'|o t ty ms n m b cs o1 u r Hty Hms Hin Hn]; subst.
    + split; [apply NE; auto|]. split; [cbn; lia|]. intros ty ms Hty Hms. apply (Solid 2 _ ty (ltac:(vm_compute; reflexivity)) I) in Hty. subst ty. cbn in Hms. subst ms. split.
      * intros m Hin Hn. cbn in Hin. destruct Hin as [<-|[]]. discriminate Hn.
      * intros m1 m2 H1 H2 _ _. cbn in H1, H2. destruct H1 as [<-|[]], H2 as [<-|[]]. reflexivity.
    + apply (Solid 2 _ ty (ltac:(vm_compute; reflexivity)) I) in Hty. subst ty. cbn in Hms. subst ms. apply named_In in Hm. destruct Hm as [Hin _]. cbn in Hin. destruct Hin as [<-|[]].
      cbn in G'. inversion G'; subst. split; [apply NE; auto|]. split; [vm_compute; reflexivity|exact I].
    + apply (Solid 2 _ ty (ltac:(vm_compute; reflexivity)) I) in Hty. subst ty. cbn in Hms. subst ms. cbn in Hin. destruct Hin as [<-|[]]. discriminate Hn.
  - change (ByteOffset 4) with (shift 4 (ByteOffset 0)). eapply leads_member; [apply is_now; [vm_compute; reflexivity|exact I]|reflexivity|apply find_named; vm_compute; reflexivity|reflexivity|constructor].
Qed.
