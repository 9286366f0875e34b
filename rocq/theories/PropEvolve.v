(** * PropEvolve: a path survives the next kernel (C87).  [field], [evolved], [orderly]: EvolveSpec.v. *)
From Coq Require Import Strings.String.
From Coq Require Import List NArith Bool Lia Strings.Byte.
From Verif Require Import TypeInfo Spec PathSpec QuerySpec Sizes Chains Offsets Offsets2 OffsetOf OffsetOf2 Compose OutcomeSpec EvolveSpec KernelSpec KernelTypes Sample Witness Safety LoadProps Final PropLoad PropLoad2
  PropPath PropQuery PropOffset PropOutcome PropClosed PropKernel Checker KernelCheck2.
Import ListNotations.
Open Scope N_scope.

Lemma leads_field ti sz t cs u o : leads ti sz t cs u o -> forall n, cs = [Name n] -> field ti n t u o.
Proof.
  induction 1 as [t|t h d i s cs u o It Hi S L IH|t ty ms n m b cs u o It M Nm Em L IH|t ty ms n m b z It M Nm Em|t ty ms n m b cs u o It M Im En Em L IH]; intros n' E; try discriminate.
  - injection E as <- ->. inversion L; subst. cbn [QuerySpec.shift]. rewrite N.add_0_r, <- Em. eapply own_field; eassumption.
  - injection E as <-. rewrite <- Em. eapply own_field; eassumption.
  - injection E as <- ->. eapply inner_field; try eassumption. apply IH. reflexivity.
Qed.
Lemma field_leads ti sz n t u o : field ti n t u o -> leads ti sz t [Name n] u o.
Proof.
  induction 1 as [t ty ms m It M Nm|t ty ms m b u o It M Im En Em F IH].
  - destruct (m_offset m) as [b|b z] eqn:Em; [|eapply leads_bitfield; eassumption]. replace (ByteOffset b) with (QuerySpec.shift b (ByteOffset 0)) by (cbn; f_equal; lia).
    eapply leads_member; try eassumption. constructor.
  - eapply leads_anonymous; eassumption.
Qed.
Section Evolved.
  Context (ti ti' : type_information) (R : N -> N -> Prop) (EV : evolved ti ti' R) (ES : forall t h d, is ti' t (TArray h d) -> exists s, size ti' (element_tid d) s).
  Lemma one_step sz t x u o t' : leads ti sz t [x] u o -> R t t' ->
    exists u' o', leads ti' (size ti') t' [x] u' o' /\ R u u' /\ (forall b, o = ByteOffset b -> (exists b', o' = ByteOffset b') \/ plain ti u).
  Proof.
    intros L r. destruct x as [i|n]; revgoals.
    - destruct (fields_kept _ _ _ EV _ _ _ _ _ r (leads_field _ _ _ _ _ _ L n eq_refl)) as (u' & o' & F & r' & B). exists u', o'. split; [exact (field_leads _ _ _ _ _ _ F)|auto].
    - inversion L as [|? h d ? s ? ? ? It Hi S L'| | |]; subst. inversion L'; subst. destruct (elements_kept _ _ _ EV _ _ _ _ r It) as (h' & d' & It' & C & r').
      destruct (ES _ _ _ It') as [s' S']. exists (element_tid d'), (QuerySpec.shift (i * s') (ByteOffset 0)). split; [eapply leads_index; [exact It'|lia|exact S'|constructor]|].
      split; [exact r'|]. intros b _. left. cbn. eauto.
  Qed.
  Lemma plain_end sz t x cs u o : plain ti t -> ~ leads ti sz t (x :: cs) u o.
  Proof.
    intros [P1 P2] L. destruct cs as [|y cs].
    - destruct x as [i|n]; [|exact (P1 _ _ _ (leads_field _ _ _ _ _ _ L n eq_refl))]. inversion L; subst. eapply P2; eassumption.
    - destruct (leads_split _ _ _ _ _ _ L [x] (y :: cs) eq_refl ltac:(discriminate)) as (w & a & o' & L1 & _ & _).
      destruct x as [i|n]; [|exact (P1 _ _ _ (leads_field _ _ _ _ _ _ L1 n eq_refl))]. inversion L1; subst. eapply P2; eassumption.
  Qed.
  Lemma all_steps sz cs : forall t u o t', leads ti sz t cs u o -> R t t' ->
    exists u' o', leads ti' (size ti') t' cs u' o' /\ R u u' /\ (forall b, o = ByteOffset b -> (exists b', o' = ByteOffset b') \/ plain ti u).
  Proof.
    induction cs as [|x cs IH]; intros t u o t' L r.
    - inversion L; subst. exists t', (ByteOffset 0). split; [constructor|]. split; [exact r|]. intros b _. left. eauto.
    - destruct cs as [|y cs]; [exact (one_step sz _ _ _ _ _ L r)|].
      destruct (leads_split _ _ _ _ _ _ L [x] (y :: cs) eq_refl ltac:(discriminate)) as (w & a & o2 & L1 & L2 & ->).
      destruct (one_step sz _ _ _ _ _ L1 r) as (w' & ow & L1' & rw & B). destruct (B a eq_refl) as [[a' ->]|P]; [|destruct (plain_end _ _ _ _ _ _ P L2)].
      destruct (IH _ _ _ _ L2 rw) as (u' & o2' & L2' & ru & B2). exists u', (QuerySpec.shift a' o2'). split; [exact (leads_app _ _ _ _ _ _ _ _ _ L1' a' eq_refl L2')|]. split; [exact ru|].
      intros b E. apply shift_byte in E. destruct E as (b2 & -> & _). destruct (B2 b2 eq_refl) as [[b2' ->]|P]; [left; cbn; eauto|right; exact P].
  Qed.
End Evolved.

Lemma orderly_finds c ti t p cs u o st : orderly c ti -> size_of c ti t = Ok st -> st < 2 ^ 29 -> valid_utf8 p -> reads_as (usize_max c) p cs -> leads ti (size ti) t cs u o -> offset_of_returns c ti t p (Ok (u, o)).
Proof.
  intros [A SF ES HC AB UN] St Small Vp RA L. apply (proj1 (C28_size_of c ti t SF)) in St.
  eapply C33_complete_consistent; try eassumption; [lia|]. pose proof (leads_inside ti t cs u o HC L st St) as X. destruct o as [b|b z]; cbn [fits32]; [destruct X as (su & _ & X)|]; lia.
Qed.

(** A path that was answered with the old table is answered with the new one, and what it finds there has again all that the
    old one has. *)
Theorem C87_survives : forall c ti ti' R t t' p u o st, valid_utf8 p -> evolved ti ti' R -> R t t' -> orderly c ti' -> size_of c ti' t' = Ok st -> st < 2 ^ 29 ->
  offset_of_returns c ti t p (Ok (u, o)) ->
  exists u' o', offset_of_returns c ti' t' p (Ok (u', o')) /\ R u u'.
Proof.
  intros c ti ti' R t t' p u o st Vp EV r OR St Small E. destruct (C32_sound_reported_sizes c ti t p u o Vp E) as (_ & cs & RA & L).
  destruct (all_steps ti ti' R EV (elements_sized _ _ OR) _ _ _ _ _ _ L r) as (u' & o' & L' & ru & _). exists u', o'. split; [|exact ru].
  eapply orderly_finds; eassumption.
Qed.
Print Assumptions C87_survives.

(** If the new type has no such member any more, the answer is InvalidTypePath, whatever else the path contains. *)
Lemma without_field ti sz n o t cs o' u rest : gets ti sz o t cs o' u rest -> forall a cs0, cs = Name n :: cs0 -> o = ByteOffset a -> (forall v w, ~ field ti n t v w) ->
  rest = cs /\ (forall v w, ~ field ti n u v w) /\ exists a', o' = ByteOffset a' /\ a <= a' /\
    (consistent ti -> forall st, size ti t st -> exists su, size ti u su /\ a' + su <= a + st).
Proof.
  induction 1 as [o t cs|a t h d i s cs o' u rest It Hi S G IH|a t ty ms m' m cs o' u rest It M Nm G IH|o t ty ms m' m b cs o' u rest It M Im En Em G IH]; intros a0 cs0 E Eo NF; try discriminate.
  - split; [reflexivity|]. split; [exact NF|]. exists a0. split; [exact Eo|]. split; [lia|]. intros _ st St. exists st. split; [exact St|lia].
  - injection E as -> ->. destruct (NF _ _ (own_field _ _ _ _ _ _ It M Nm)).
  - injection E as -> ->. subst o. destruct (IH (b + a0) cs0 eq_refl eq_refl) as (E1 & E2 & a' & E3 & E4 & E5).
    { intros v w F. exact (NF _ _ (inner_field _ _ _ _ _ _ _ _ _ It M Im En Em F)). }
    split; [exact E1|]. split; [exact E2|]. exists a'. split; [exact E3|]. split; [lia|]. intros HC st St. clear IH.
    destruct (size_is _ _ _ _ St It) as (r & Er & Hr). apply has_size_cases in Hr. destruct Hr as (ty' & F & Hr). rewrite Er in F. injection F as <-.
    assert (Hss : stored_size ty st) by (destruct ty; cbn in M; try contradiction; symmetry; exact Hr).
    pose proof (HC _ _ _ _ _ Er M Im Hss) as X. rewrite Em in X. destruct X as (sm & Sm & Le). destruct (E5 HC sm Sm) as (su & Su & Le'). exists su. split; [exact Su|lia].
Qed.
Theorem C87_dropped : forall c ti t p n cs bad st, valid_utf8 p -> text_is c p (Name n :: cs) bad -> orderly c ti -> size_of c ti t = Ok st -> st < 2 ^ 29 ->
  (forall u o, ~ field ti n t u o) -> offset_of_returns c ti t p (Err InvalidTypePath).
Proof.
  intros c ti t p n cs bad st Vp T [A SF ES HC AB UN] St Small NF. apply (proj1 (C28_size_of c ti t SF)) in St.
  destruct (C30_offset_of_terminates_partial c ti t p Vp A) as [r E]. destruct (C52_outcome_explained c ti t p _ bad Vp T (or_intror SF)) as [_ X]. pose proof (X _ E) as Y.
  assert (W : forall o' u rest, gets ti (size ti) (ByteOffset 0) t (Name n :: cs) o' u rest -> rest = Name n :: cs /\ (forall v w, ~ field ti n u v w) /\ exists a' su, o' = ByteOffset a' /\ size ti u su /\ a' + su <= st).
  { intros o' u rest G. destruct (without_field _ _ _ _ _ _ _ _ _ G 0 cs eq_refl eq_refl NF) as (E1 & E2 & a' & E3 & _ & E5). destruct (E5 HC st St) as (su & Su & Le). split; [exact E1|]. split; [exact E2|]. exists a', su. auto. }
  destruct r as [[u o]|k|q|]; [| | |destruct Y].
  - destruct Y as [_ G]. destruct (W _ _ _ G) as (F & _). discriminate F.
  - destruct Y as (o & u & rest & G & B). destruct (W _ _ _ G) as (-> & NF' & a' & su & -> & Su & Le). clear X W G.
    assert (Kn : k = InvalidTypePath); [|subst k; exact E].
    inversion B as [| ? ? ? ? r Hc Hr|? ? ? Nf| | | | | |? ? ? ? ty Iu Nm|? ? ? ? ty ms m b z Iu M Im En Em|? ? ? ? ty ms Iu M Na]; subst; try reflexivity.
    + exfalso. clear -Su Hc Hr. induction Hc as [t|t v r Tr _ IH]; [apply has_size_cases in Su; destruct Su as (ty & F & _); congruence|]. apply IH; [exact (size_transparent _ _ _ _ Su Tr)|exact Hr].
    + exfalso. apply Nf. cbn. lia.
    + exfalso. destruct Iu as (r & _ & Fr & _). destruct (AB _ _ _ _ Fr M Im En) as [b' Y]. congruence.
  - exfalso. destruct Y as (o & u & i & rest & h & d & s0 & G & _). destruct (W _ _ _ G) as (F & _). discriminate F.
Qed.
Print Assumptions C87_dropped.

(** Tables of kernels are orderly. *)
Theorem C87_kernel : forall c ti ptr, kernel_resolved ti ptr -> pointer_sized ti ptr -> 32 <= usize_bits c ->
  (forall s ty ms m, from_id ti s = Some ty -> members_of ty ms -> In m ms -> regular ti (m_tid m)) -> anonymous_in_bytes ti -> unambiguous ti -> orderly c ti.
Proof.
  intros c ti ptr K P W G AB UN. constructor; [exact (resolved_acyclic ti ptr K eq_refl)| | |exact (resolved_consistent ti ptr K P G)|exact AB|exact UN].
  - intros v s S. eapply has_size_impl; [|exact (kernel_has_size ti ptr P v s (size_kernel ti ptr K P v s S))]. cbn. intros n L. eapply N.lt_le_trans; [exact L|]. apply N.pow_le_mono_r; [discriminate|exact W].
  - intros t h d (r & _ & F & _). destruct (arrays_sized _ _ K _ _ _ F) as [s S]. destruct (kernel_size_inv ti ptr _ _ _ S F) as (s0 & S0 & _).
    exists s0. eapply has_size_impl; [|exact (kernel_has_size ti ptr P _ _ S0)]. auto.
Qed.
Print Assumptions C87_kernel.

(** struct task { int pid; char comm[16]; int flags; }, and in the next kernel
    struct task { long x; struct { char comm[32]; int pid; }; int flags : 3; struct list_head list; }. *)
Definition evolve_strings : list byte := [x00] ++ s "char" ++ [x00] ++ s "int" ++ [x00] ++ s "task" ++ [x00] ++ s "pid" ++ [x00] ++ s "comm" ++ [x00] ++ s "flags" ++ [x00] ++ s "long" ++ [x00] ++ s "x"
  ++ [x00] ++ s "list_head" ++ [x00] ++ s "next" ++ [x00] ++ s "prev" ++ [x00] ++ s "list" ++ [x00].
Definition old_task : list byte := raw_file Little
  [1; 0x01000000; 1; 8;  6; 0x01000000; 4; 32;  0; 0x03000000; 0; 1; 2; 16;  10; 0x04000003; 24; 15; 2; 0; 19; 3; 32; 24; 2; 160] evolve_strings.
Definition new_task : list byte := raw_file Little
  [1; 0x01000000; 1; 8;  6; 0x01000000; 4; 32;  0; 0x03000000; 0; 1; 2; 32;  0; 0x04000002; 36; 19; 3; 0; 15; 2; 256;  30; 0x01000000; 8; 64;
   10; 0x84000004; 64; 35; 5; 0; 0; 4; 64; 24; 2; 50331648 + 352; 57; 7; 384;  37; 0x04000002; 16; 47; 8; 0; 52; 8; 64;  0; 0x02000000; 7] evolve_strings.
Definition old_ti : type_information := Eval vm_compute in table_of old_task.
Definition new_ti : type_information := Eval vm_compute in table_of new_task.
Definition same_as (t t' : N) : Prop := In (t, t') [(1, 1); (2, 2); (3, 3); (4, 6)].
Lemma field_behind ti n t u o : field ti n t u o -> exists ms, behind ti t = Some ms /\
  ((exists m, In m ms /\ m_name m = Some n /\ u = m_tid m /\ o = m_offset m) \/ exists m, In m ms /\ m_name m = None).
Proof.
  intros F. destruct F as [t ty ms m I M (ms1 & ms2 & -> & E & _)|t ty ms m b u o I M Im En _ _]; exists (match ty with TStruct _ d | TUnion _ d => member_list d | _ => [] end);
    (split; [apply behind_iff; exists ty; split; [exact I|destruct ty; cbn in *; try contradiction; reflexivity]|]).
  - left. exists m. split; [destruct ty; cbn in *; try contradiction; rewrite M; apply in_elt|auto].
  - right. exists m. split; [destruct ty; cbn in *; try contradiction; rewrite M; exact Im|exact En].
Qed.
Lemma behind_field ti n t ms m : behind ti t = Some ms -> named ms n m -> field ti n t (m_tid m) (m_offset m).
Proof. intros B Nm. apply behind_iff in B. destruct B as (ty & I & M). eapply own_field; eassumption. Qed.
Lemma is_opaque ti t ty ty' : from_id ti t = Some ty -> match ty with TTypedef _ _ | TConst _ _ | TVolatile _ _ | TRestrict _ _ | TFwd _ _ => False | _ => True end -> is ti t ty' -> ty' = ty.
Proof.
  intros F O (r & C & Fr & _). destruct C as [t|t v r (ty2 & F2 & Q) _]; [congruence|]. rewrite F in F2. injection F2 as <-. destruct Q as [Q|(h & d & Q & _)]; [destruct ty; cbn in Q; contradiction|rewrite Q in O; destruct O].
Qed.
Lemma opaque_is ti t ty : from_id ti t = Some ty -> match ty with TTypedef _ _ | TConst _ _ | TVolatile _ _ | TRestrict _ _ | TFwd _ _ => False | _ => True end -> is ti t ty.
Proof.
  intros F O. exists t. split; [constructor|]. split; [exact F|]. intros u (ty2 & F2 & Q). rewrite F in F2. injection F2 as <-. destruct Q as [Q|(h & d & Q & _)]; [destruct ty; cbn in Q; contradiction|rewrite Q in O; exact O].
Qed.
Lemma tasks_evolved : evolved old_ti new_ti same_as.
Proof.
  constructor.
  - intros t t' n u o r F. apply field_behind in F. destruct F as (ms & B & F).
    destruct r as [E|[E|[E|[E|[]]]]]; injection E as <- <-; vm_compute in B; try discriminate B. injection B as <-.
    destruct F as [(m & I & En & -> & ->)|(m & I & En)]; [|destruct I as [<-|[<-|[<-|[]]]]; discriminate En].
    assert (P : plain old_ti 2). { split; [intros n' u o F; apply field_behind in F; destruct F as (ms & B & _); vm_compute in B; discriminate B|]. intros h d I'. eapply is_opaque in I'; [|vm_compute; reflexivity|exact Logic.I]. discriminate I'. }
    destruct I as [<-|[<-|[<-|[]]]]; injection En as <-.
    + do 2 eexists. split; [eapply inner_field; [apply opaque_is; [vm_compute; reflexivity|exact Logic.I]|reflexivity|right; left; reflexivity|reflexivity|reflexivity|]|].
      * eapply behind_field; [vm_compute; reflexivity|]. eexists [_], []. split; [reflexivity|]. split; [reflexivity|]. intros m' [<-|[]]. discriminate.
      * split; [right; left; reflexivity|]. intros b _. left. cbn. eauto.
    + do 2 eexists. split; [eapply inner_field; [apply opaque_is; [vm_compute; reflexivity|exact Logic.I]|reflexivity|right; left; reflexivity|reflexivity|reflexivity|]|].
      * eapply behind_field; [vm_compute; reflexivity|]. eexists [], [_]. split; [reflexivity|]. split; [reflexivity|]. intros m' [].
      * split; [right; right; left; reflexivity|]. intros b _. left. cbn. eauto.
    + do 2 eexists. split; [eapply behind_field; [vm_compute; reflexivity|]; eexists [_; _], [_]; split; [reflexivity|]; split; [reflexivity|]; intros m' [<-|[<-|[]]]; discriminate|].
      split; [right; left; reflexivity|]. intros b _. right. exact P.
  - intros t t' h d r I. destruct r as [E|[E|[E|[E|[]]]]]; injection E as <- <-; (eapply is_opaque in I; [|vm_compute; reflexivity|exact Logic.I]); try discriminate I. injection I as -> ->.
    do 2 eexists. split; [apply opaque_is; [vm_compute; reflexivity|exact Logic.I]|]. split; [vm_compute; discriminate|left; reflexivity].
Qed.
Lemma new_orderly c : 32 <= usize_bits c -> orderly c new_ti.
Proof.
  intros W. apply (C87_kernel c new_ti 8); [apply (resolve_check_sound _ _ 30); vm_compute; reflexivity| |exact W|apply (regular_check_sound _ 30); vm_compute; reflexivity| |].
  - do 3 eexists. repeat split; vm_compute; reflexivity.
  - apply anonymous_bytes_ok. vm_compute. reflexivity.
  - apply (distinct_unambiguous _ (all_offers new_ti)). vm_compute. reflexivity.
Qed.
Example C87_met : type_information_new (file_env old_task) = Ok old_ti /\ type_information_new (file_env new_task) = Ok new_ti /\
  evolved old_ti new_ti same_as /\ same_as 4 6 /\ orderly (build64 true) new_ti /\ orderly (build32 false) new_ti /\ size_of (build64 true) new_ti 6 = Ok 64 /\
  offset_of_returns (build64 true) old_ti 4 (s "comm[3]") (Ok (1, ByteOffset 7)) /\ offset_of_returns (build64 true) new_ti 6 (s "comm[3]") (Ok (1, ByteOffset 11)) /\
  offset_of_returns (build64 true) old_ti 4 (s "flags") (Ok (2, ByteOffset 20)) /\ offset_of_returns (build64 true) new_ti 6 (s "flags") (Ok (2, BitOffsetAndSize 352 3)) /\
  (forall u o, ~ field new_ti (s "comm") 7 u o).
Proof.
  split; [vm_compute; reflexivity|]. split; [vm_compute; reflexivity|]. split; [exact tasks_evolved|]. split; [right; right; right; left; reflexivity|].
  split; [apply new_orderly; discriminate|]. split; [apply new_orderly; discriminate|]. split; [vm_compute; reflexivity|].
  split; [split; [discriminate|exists 20%nat; vm_compute; reflexivity]|]. split; [split; [discriminate|exists 20%nat; vm_compute; reflexivity]|]. split; [split; [discriminate|exists 20%nat; vm_compute; reflexivity]|]. split; [split; [discriminate|exists 20%nat; vm_compute; reflexivity]|].
  intros u o F. apply field_behind in F. destruct F as (ms & B & F). vm_compute in B. injection B as <-. destruct F as [(m & I & En & _)|(m & I & En)]; destruct I as [<-|[<-|[]]]; discriminate En.
Qed.
