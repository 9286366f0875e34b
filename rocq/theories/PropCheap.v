(** * PropCheap: how many type lookups offset_of makes on the BTF file of a C program (C53). *)
From Coq Require Import Strings.String.
From Coq Require Import List NArith ZArith Bool Lia PeanoNat Strings.Byte.
From Verif Require Import TypeInfo LoadProps Cost CostSpec Spec BaseFacts PathSpec Path QuerySpec Chains Sizes Follow Offsets OutcomeSpec Outcome CostFacts PropCost Encode CSpec CFacts PropC Sample Witness Checker.
Import ListNotations.
Open Scope N_scope.

(** The anonymous structs and unions of a program: in each of them something has a name. *)
Definition c_anonymous_field (f : field) : bool := match f_name f, f_width f with None, None => true | _, _ => false end.
Definition c_something_named (P : program) : Prop :=
  forall t un pk al nm fs f, declared P t (CAggregate un pk al nm fs) -> In f fs -> c_anonymous_field f = true -> exists n, c_offers true P n (f_type f).
(** How many anonymous members the program has. *)
Definition c_anonymous_members (P : program) : nat :=
  list_sum (map (fun d => match d with CAggregate _ _ _ _ fs => length (filter c_anonymous_field fs) | _ => O end) P).

Section Program.
  Context (ti : type_information) (m : machine) (P : program) (L : N -> option (N * N)) (LG : lawful m P L) (TD : table_describes ti m P L) (SN : c_something_named P).
  Lemma enters_field r i r' : enters ti r i r' -> exists un pk al nm fs f k, declared P r (CAggregate un pk al nm fs) /\ nth_error fs k = Some f /\
    i = length (filter is_member (firstn k fs)) /\ f_name f = None /\ f_width f = None /\ chain (transparent ti) (f_type f) r' /\ (exists ty', from_id ti r' = Some ty' /\ has_members ty').
  Proof.
    intros (ty & ms & mb & ty' & F & M & H1 & H2 & C & F' & M'). destruct (members_from _ _ _ _ LG TD _ _ _ F M) as (un & pk & al & nm & fs & z & a & D & Y & _).
    destruct (aggregate _ _ _ LG _ _ _ _ _ _ D) as (ms' & z' & a' & Y' & _ & _ & NM & _). rewrite Y in Y'. injection Y' as E _ _.
    destruct (nth_members ms ms' fs i mb E NM H1) as (f & k & Nf & Ek & Mf & E1 & E2). exists un, pk, al, nm, fs, f, k.
    split; [exact D|]. split; [exact Nf|]. split; [exact Ek|]. rewrite H2 in E1. split; [exact E1|]. unfold is_member in Mf. rewrite E1 in Mf.
    split; [destruct (f_width f); [discriminate Mf|reflexivity]|]. rewrite E2. split; [exact C|]. exists ty'. auto.
  Qed.
  Lemma offers_ahead n a b ty' : chain (transparent ti) a b -> from_id ti b = Some ty' -> has_members ty' -> offers ti n a -> offers ti n b.
  Proof.
    intros C F (ms' & M') O.
    assert (G : forall ty, is ti a ty -> is ti b ty).
    { intros ty It. assert (X : resolve ti b = Ok (b, ty')) by (apply resolve_opaque, opaque_iff; split; [exact F|destruct ty'; try destruct M'; exact I]).
      apply is_resolve in It. destruct It as (r & It). rewrite (resolve_chain _ _ _ C), X in It. injection It as <- <-. apply is_resolve. eauto. }
    destruct O as [t ty ms mb A1 A2 A3 A4|t ty ms mb A1 A2 A3 A4 A5]; [exact (offers_member ti n b ty ms mb (G _ A1) A2 A3 A4)|exact (offers_anonymous ti n b ty ms mb (G _ A1) A2 A3 A4 A5)].
  Qed.
  Lemma field_offers r i r' : enters ti r i r' -> exists un pk al nm fs f k, declared P r (CAggregate un pk al nm fs) /\ nth_error fs k = Some f /\
    i = length (filter is_member (firstn k fs)) /\ (exists n, offers ti n r') /\ (forall n, offers ti n r' -> c_accounts true P n f).
  Proof.
    intros H. destruct (enters_field _ _ _ H) as (un & pk & al & nm & fs & f & k & D & Nf & Ek & E1 & E2 & C & ty' & F & M).
    exists un, pk, al, nm, fs, f, k. split; [exact D|]. split; [exact Nf|]. split; [exact Ek|].
    assert (In f fs) as If by (eapply nth_error_In; exact Nf). split.
    - destruct (SN _ _ _ _ _ _ _ D If) as (n & O); [unfold c_anonymous_field; rewrite E1, E2; reflexivity|]. exists n. eapply offers_ahead; [exact C|exact F|exact M|].
      apply (offers_to _ _ _ _ LG TD). apply offers_plain; [exact (l_tags _ _ _ LG)| |exact O].
      apply (member_plain P (l_tags _ _ _ LG) r un pk al nm fs); [exists r; split; [constructor|exact D]|exact If].
    - intros n O. apply accounts_mono. right. split; [exact E1|]. split; [exact E2|]. apply (offers_from _ _ _ _ LG TD). apply (offers_behind ti n _ _ C). exact O.
  Qed.
  Lemma c_named : something_named ti.
  Proof. intros r i r' H. destruct (field_offers _ _ _ H) as (? & ? & ? & ? & ? & ? & ? & _ & _ & _ & O & _). exact O. Qed.
  Lemma c_alone : entered_alone ti.
  Proof.
    intros r i j r' H H'. destruct (field_offers _ _ _ H) as (un & pk & al & nm & fs & f & k & D & Nf & -> & (n & O) & A).
    destruct (field_offers _ _ _ H') as (un' & pk' & al' & nm' & fs' & f' & k' & D' & Nf' & -> & _ & A').
    pose proof (declared_det _ _ _ _ D D') as E. injection E as <- <- <- <- <-.
    assert (k = k') as <-; [|reflexivity]. eapply (l_distinct _ _ _ LG); [exact D|exact Nf|exact Nf'|apply A; exact O|apply A'; exact O].
  Qed.
  Lemma unnamed_field t d (ty : type_variant) x : declared P t d -> view ty = Some (describe m L x d) ->
    CostSpec.unnamed ty = match d with CAggregate _ _ _ _ fs => length (filter c_anonymous_field fs) | _ => O end.
  Proof.
    intros D V. destruct d; try (cbn [describe] in V; destruct ty; cbn [view] in V; try discriminate V; reflexivity).
    destruct (aggregate _ _ _ LG _ _ _ _ _ _ D) as (ms & z & a & Y & _ & _ & NM & _). cbn [describe] in V. rewrite Y in V.
    assert (G : forall mem : list member, map seen_member mem = ms -> length (filter (fun mb => match m_name mb with None => true | Some _ => false end) mem) = length (filter c_anonymous_field fields)).
    { intros mem <-. clear - NM. rewrite map_map in NM. revert mem NM. 
      assert (X : forall l : list field, length (filter c_anonymous_field l) = length (filter (fun q : option str * N => match fst q with None => true | Some _ => false end) (map f_label (filter is_member l)))).
      { induction l as [|f l IH]; [reflexivity|]. cbn [filter]. unfold is_member at 1. unfold c_anonymous_field at 1. destruct (f_name f) eqn:E, (f_width f); cbn [map filter f_label fst length]; rewrite ?E; cbn [length]; rewrite IH; reflexivity. }
      intros mem NM. rewrite X, <- NM. clear. induction mem as [|mb mem IH]; [reflexivity|]. cbn [map filter label seen_member fst]. destruct (m_name mb); cbn [length]; rewrite IH; reflexivity. }
    destruct is_union, ty; cbn [view] in V; try discriminate V; injection V as _ _ _ V; cbn [CostSpec.unnamed]; apply G; exact V.
  Qed.
End Program.
Theorem C53_c_program_partial : forall m P L e img ti c t p cs bad fuel, lawful m P L -> c_something_named P ->
  loadable (cfg e) img -> serves (rd e) img -> compiled m P L img -> type_information_new e = Ok ti -> valid_utf8 p -> text_is c p cs bad ->
  offset_of_lookups fuel c ti t p <= N.of_nat (length cs) * ((N.of_nat (length P) + 1) * (N.of_nat (c_anonymous_members P) + 2) + 1).
Proof.
  intros m P L e img ti c t p cs bad fuel LG SN LD SV C ET V T. pose proof (program_table _ _ _ _ _ _ LG LD SV C ET) as TD.
  destruct (loaded_program _ _ _ _ _ _ LD SV C ET) as (_ & _ & F2).
  assert (LE : length P = length (types ti)) by (revert F2; clear; generalize (types ti) as l; intros l F2; induction F2; cbn [length]; congruence).
  replace (length P) with (length (get ti)) by (rewrite LE; unfold types; rewrite map_length; reflexivity).
  replace (c_anonymous_members P) with (anonymous_members ti).
  2:{ unfold anonymous_members, c_anonymous_members. rewrite <- (map_map snd CostSpec.unnamed). fold (types ti). f_equal.
      assert (G : forall ds l k, Forall2 (fun d ty => exists x, view ty = Some (describe m L x d)) ds l -> (forall i d, nth_error ds i = Some d -> nth_error P (k + i) = Some d) ->
        map CostSpec.unnamed l = map (fun d => match d with CAggregate _ _ _ _ fs => length (filter c_anonymous_field fs) | _ => O end) ds).
      { induction ds as [|d ds IH]; intros l k F Hk; inversion F as [|? ty ? l' (x & Vx) F']; subst; [reflexivity|]. cbn [map]. f_equal.
        - apply (unnamed_field m P L LG (N.of_nat k + 1) d ty x); [|exact Vx]. split; [lia|]. replace (N.to_nat (N.of_nat k + 1 - 1)) with (k + 0)%nat by lia. apply Hk. reflexivity.
        - apply (IH _ (S k) F'). intros i d0 H. replace (S k + i)%nat with (k + S i)%nat by lia. apply Hk. exact H. }
      apply (G P _ 0%nat F2). auto. }
  apply (C53_shared_partial c ti t p cs bad fuel V T (c_acyclic _ _ _ _ LG TD) (c_unambiguous _ _ _ _ LG TD)); [eapply c_named|eapply c_alone]; eassumption.
Qed.
Print Assumptions C53_c_program_partial.

Example C53_c_met : lawful machine64 kernel (computed_layout machine64 kernel) /\ c_something_named kernel /\ c_anonymous_members kernel = 1%nat /\ length kernel = 25%nat /\
  serves (rd (file_env kernel_img)) kernel_img /\ loadable (build64 true) kernel_img /\ compiled machine64 kernel (computed_layout machine64 kernel) kernel_img /\
  type_information_new (file_env kernel_img) = Ok kernel_ti /\ offset_of_lookups 20 (build64 true) kernel_ti 11 (s "tasks[2].b") = 9.
Proof.
  split; [exact (proj1 kernel_legal)|]. split.
  { assert (G : forall t d, declared kernel t d -> match d with CAggregate _ _ _ _ fs => Forall (fun f => c_anonymous_field f = true -> exists n, c_offers true kernel n (f_type f)) fs | _ => True end).
    { apply by_number. repeat (apply Forall_cons; [cbn [snd]; first [exact I|repeat (apply Forall_cons; [intros A; first [discriminate A|idtac]|]); try apply Forall_nil]|]); try apply Forall_nil.
      exists (s "a"). eapply c_offers_member; [exists 6; split; [constructor|split; [discriminate|reflexivity]]|left; reflexivity|reflexivity]. }
    intros t un pk al nm fs f D If A. exact (proj1 (Forall_forall _ _) (G _ _ D) f If A). }
  split; [reflexivity|]. split; [reflexivity|]. split; [apply file_serves|]. split; [left; reflexivity|]. split; [exact kernel_compiled|]. split; [exact kernel_loads|]. vm_compute. reflexivity.
Qed.
