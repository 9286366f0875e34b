(** * Checker: computable tests for the hypotheses of the query theorems.
    Used to show that concrete loaded tables meet them. *)
From Coq Require Import Lia.
From Verif Require Import TypeInfo BaseFacts QuerySpec Chains Sizes Follow Offsets Offsets2.

(** Every id of the table, and 0. *)
Definition all_ids (ti : type_information) : list N := 0 :: known ti.
Lemma from_id_all ti t ty : from_id ti t = Some ty -> In t (all_ids ti).
Proof.
  intros H. destruct (N.eq_dec t 0) as [-> |Hne]; [left; reflexivity|]. right. unfold from_id in H.
  destruct (N.eqb_spec t 0); [contradiction|]. eapply bt_get_In; exact H.
Qed.

(** ** No endless chains *)
Definition links_of (ty : type_variant) : list N :=
  match ty with
  | TTypedef _ d | TTypeTag _ d | TFwd _ d => [nl_tid d]
  | TConst _ d | TVolatile _ d | TRestrict _ d => [link_tid d]
  | TVar _ d => [var_tid d]
  | TArray _ d => [element_tid d]
  | TStruct _ d | TUnion _ d => map m_tid (filter is_anonymous (member_list d))
  | _ => []
  end.
Definition ranked (rank : N -> N) (ti : type_information) : bool :=
  forallb (fun t => match from_id ti t with
    | Some ty => forallb (fun u => rank u <? rank t) (links_of ty)
    | None => true end) (all_ids ti).
Lemma link_links ti t u : link ti t u -> exists ty, from_id ti t = Some ty /\ In u (links_of ty).
Proof.
  intros [H|[H|H]].
  - apply transparent_cases in H. destruct H as (ty & E & H). exists ty. split; [exact E|]. destruct ty; cbn in *; try contradiction; auto.
  - apply size_link_cases in H. destruct H as (ty & E & H). exists ty. split; [exact E|]. destruct ty; cbn in *; try contradiction; auto.
  - destruct H as (ty & ms & m & E & Hms & Hin & Hn & Ht). exists ty. split; [exact E|].
    destruct ty; cbn in Hms; try contradiction; subst ms; cbn [links_of]; apply in_map_iff; exists m; (split; [exact Ht|]); apply filter_In; (split; [exact Hin|]); apply is_anonymous_iff; exact Hn.
Qed.
Lemma ranked_acyclic rank ti : ranked rank ti = true -> acyclic ti.
Proof.
  intros H t (f & Hf & Hl). unfold ranked in H. rewrite forallb_forall in H.
  assert (D : forall n, rank (f (S n)) < rank (f n)).
  { intros n. destruct (link_links _ _ _ (Hl n)) as (ty & E & Hin). specialize (H _ (from_id_all _ _ _ E)). rewrite E, forallb_forall in H. specialize (H _ Hin). lia. }
  assert (B : forall n, rank (f n) + N.of_nat n <= rank (f 0%nat)).
  { induction n as [|n IH]; [lia|]. specialize (D n). lia. }
  specialize (B (S (N.to_nat (rank (f 0%nat))))). lia.
Qed.

(** ** No overflowing sizes *)
Definition sized_within (c : build) (ti : type_information) : bool :=
  forallb (fun t => match size_of {| usize_bits := usize_bits c; overflow_checks := true |} ti t with Panic _ => false | _ => true end) (all_ids ti).
Lemma sized_within_fit c ti : sized_within c ti = true -> sizes_fit c ti.
Proof.
  intros H t s Hs. unfold sized_within in H. rewrite forallb_forall in H.
  assert (Hk : In t (all_ids ti)) by (apply has_size_cases in Hs; destruct Hs as (ty & E & _); eapply from_id_all; exact E).
  specialize (H _ Hk). set (c' := {| usize_bits := usize_bits c; overflow_checks := true |}) in *.
  destruct (size_of_spec c' ti t) as (_ & S2 & _ & S4 & _ & S6).
  destruct (size_of c' ti t) as [s'|k|q|] eqn:E; [| |discriminate|].
  - specialize (S2 s' eq_refl eq_refl). change (usize_bits c') with (usize_bits c) in S2.
    pose proof (has_size_impl ti _ (fun _ => True) t s' (fun _ _ => I) S2) as S3. pose proof (size_det _ _ _ _ _ Hs S3) as ->. exact S2.
  - exfalso. assert (N : no_size ti t k) by (apply S4; reflexivity). clear -Hs N.
    revert N. induction Hs as [t ty s E1 E2|t h d s E1 E2|t e n s E1 H IH _|t u s E1 H IH]; intros N.
    + apply no_size_end in N. destruct N as (u & C & _ & HS).
      destruct C as [t|t v w L _]; [|apply size_link_cases in L; destruct L as (ty' & E' & L); rewrite E1 in E'; injection E' as <-; destruct ty; cbn in *; contradiction].
      specialize (HS {| usize_bits := 64; overflow_checks := true |}). rewrite size_of_unfold, E1 in HS. destruct ty; cbn in *; try contradiction; discriminate.
    + apply no_size_end in N. destruct N as (u & C & _ & HS).
      destruct C as [t|t v w L _]; [|apply size_link_cases in L; destruct L as (ty' & E' & L); rewrite E1 in E'; injection E' as <-; destruct L].
      specialize (HS {| usize_bits := 64; overflow_checks := true |}). rewrite size_of_unfold, E1 in HS.
      pose proof (pointer_size_cases ti) as P. rewrite HS in P. destruct P as [_ P]. exact (P _ E2).
    + apply IH. assert (L : size_link ti t e) by (right; eauto). clear -N L. destruct N as [t u C E|t u h d C E P|t u ty C E U].
      * destruct C as [t|t v w L' C]; [apply size_link_cases in L; destruct L as (ty' & E' & _); congruence|]. pose proof (size_link_det _ _ _ _ L L') as <-. eapply no_unknown; eassumption.
      * destruct C as [t|t v w L' C]; [apply size_link_cases in L; destruct L as (ty' & E' & L); rewrite E in E'; injection E' as <-; destruct L|]. pose proof (size_link_det _ _ _ _ L L') as <-. eapply no_pointer; eassumption.
      * destruct C as [t|t v w L' C]; [apply size_link_cases in L; destruct L as (ty' & E' & L); rewrite E in E'; injection E' as <-; destruct ty; cbn in *; contradiction|]. pose proof (size_link_det _ _ _ _ L L') as <-. eapply no_unsized; eassumption.
    + apply IH. assert (L : size_link ti t u) by (left; exact E1). clear -N L. destruct N as [t v C E|t v h d C E P|t v ty C E U].
      * destruct C as [t|t v w L' C]; [apply size_link_cases in L; destruct L as (ty' & E' & _); congruence|]. pose proof (size_link_det _ _ _ _ L L') as <-. eapply no_unknown; eassumption.
      * destruct C as [t|t v w L' C]; [apply size_link_cases in L; destruct L as (ty' & E' & L); rewrite E in E'; injection E' as <-; destruct L|]. pose proof (size_link_det _ _ _ _ L L') as <-. eapply no_pointer; eassumption.
      * destruct C as [t|t v w L' C]; [apply size_link_cases in L; destruct L as (ty' & E' & L); rewrite E in E'; injection E' as <-; destruct ty; cbn in *; contradiction|]. pose proof (size_link_det _ _ _ _ L L') as <-. eapply no_unsized; eassumption.
  - exfalso. assert (G : endless (size_link ti) t) by (apply S6; reflexivity). clear -Hs G. revert G.
    induction Hs as [t ty s E1 E2|t h d s E1 E2|t e n s E1 H IH _|t u s E1 H IH]; intros G.
    + apply endless_head in G. destruct G as (u & L). apply size_link_cases in L. destruct L as (ty' & E' & L). rewrite E1 in E'. injection E' as <-. destruct ty; cbn in *; contradiction.
    + apply endless_head in G. destruct G as (u & L). apply size_link_cases in L. destruct L as (ty' & E' & L). rewrite E1 in E'. injection E' as <-. destruct L.
    + apply IH. eapply endless_step; [apply size_link_det| |exact G]. right. eauto.
    + apply IH. eapply endless_step; [apply size_link_det| |exact G]. left. exact E1.
Qed.

(** ** Anonymous members are not bitfields *)
Definition anonymous_bytes (ti : type_information) : bool :=
  forallb (fun t => match from_id ti t with
    | Some ty => match member_lists ty with
        | Some ms => forallb (fun m => negb (is_anonymous m) || match m_offset m with ByteOffset _ => true | _ => false end) ms
        | None => true end
    | None => true end) (all_ids ti).
Lemma anonymous_bytes_ok ti : anonymous_bytes ti = true -> anonymous_in_bytes ti.
Proof.
  intros H t ty ms m E Hms Hin Hn. unfold anonymous_bytes in H. rewrite forallb_forall in H. specialize (H _ (from_id_all _ _ _ E)). rewrite E in H.
  apply member_lists_iff in Hms. rewrite Hms, forallb_forall in H. specialize (H _ Hin). apply is_anonymous_iff in Hn. rewrite Hn in H.
  destruct (m_offset m) as [b|]; [eauto|discriminate].
Qed.

(** ** Names are not ambiguous: [offered] lists what each id offers *)
Definition offer := (N * str)%type.
Definition offer_eqb (a b : offer) : bool := (fst a =? fst b) && str_eqb (snd a) (snd b).
Definition offered_in (l : list offer) (t : N) (n : str) : bool := existsb (offer_eqb (t, n)) l.
Lemma offered_in_iff l t n : offered_in l t n = true <-> In (t, n) l.
Proof.
  unfold offered_in. rewrite existsb_exists. split.
  - intros ([t' n'] & Hin & H). unfold offer_eqb in H. cbn in H. apply andb_true_iff in H. destruct H as [H1 H2]. apply N.eqb_eq in H1. apply str_eqb_eq in H2. subst. exact Hin.
  - intros H. exists (t, n). split; [exact H|]. unfold offer_eqb. cbn. rewrite N.eqb_refl, str_eqb_refl. reflexivity.
Qed.
Definition behind (ti : type_information) (t : N) : option (list member) :=
  match resolve ti t with Ok (_, ty) => member_lists ty | _ => None end.
Lemma behind_iff ti t ms : behind ti t = Some ms <-> exists ty, is ti t ty /\ members_of ty ms.
Proof.
  unfold behind. split.
  - destruct (resolve ti t) as [[r ty]| | |] eqn:E; try discriminate. intros H. exists ty. split; [apply is_resolve; eauto|apply member_lists_iff; exact H].
  - intros (ty & H1 & H2). apply is_resolve in H1. destruct H1 as (r & ->). apply member_lists_iff. exact H2.
Qed.
Lemma is_known ti t ty : is ti t ty -> In t (all_ids ti).
Proof.
  intros (r & [t0|t0 u v L _] & O).
  - destruct O as [E _]. eapply from_id_all; exact E.
  - right. eapply transparent_known; exact L.
Qed.
Definition member_names (l : list offer) (m : member) : list str :=
  match m_name m with Some n => [n] | None => map snd (filter (fun o => fst o =? m_tid m) l) end.
Definition closed (ti : type_information) (l : list offer) : bool :=
  forallb (fun t => match behind ti t with
    | Some ms => forallb (fun m => forallb (offered_in l t) (member_names l m)) ms
    | None => true end) (all_ids ti).
Lemma closed_offers ti l n t : closed ti l = true -> offers ti n t -> In (t, n) l.
Proof.
  intros H. unfold closed in H. rewrite forallb_forall in H. induction 1 as [t ty ms m Hty Hms Hin Hn|t ty ms m Hty Hms Hin Hn Ho IH];
    specialize (H _ (is_known _ _ _ Hty)); assert (B : behind ti t = Some ms) by (apply behind_iff; eauto); rewrite B, forallb_forall in H;
    specialize (H _ Hin); rewrite forallb_forall in H; apply offered_in_iff; apply H; unfold member_names; rewrite Hn.
  - left. reflexivity.
  - apply in_map_iff. exists (m_tid m, n). split; [reflexivity|]. apply filter_In. split; [exact IH|]. cbn. apply N.eqb_refl.
Qed.
Definition disjoint (a b : list str) : bool := forallb (fun n => negb (existsb (str_eqb n) b)) a.
Fixpoint pairwise (l : list offer) (ms : list member) : bool :=
  match ms with
  | [] => true
  | m :: ms' => forallb (fun m' => disjoint (member_names l m) (member_names l m')) ms' && pairwise l ms'
  end.
Definition distinct_names (ti : type_information) (l : list offer) : bool :=
  closed ti l && forallb (fun t => match behind ti t with Some ms => pairwise l ms | None => true end) (all_ids ti).
Lemma disjoint_iff a b n : disjoint a b = true -> In n a -> In n b -> False.
Proof.
  unfold disjoint. rewrite forallb_forall. intros H Ha Hb. specialize (H n Ha). apply negb_true_iff in H.
  assert (X : existsb (str_eqb n) b = true) by (apply existsb_exists; exists n; split; [exact Hb|apply str_eqb_refl]). congruence.
Qed.
Lemma pairwise_ok l ms n m1 m2 : pairwise l ms = true -> In m1 ms -> In m2 ms -> In n (member_names l m1) -> In n (member_names l m2) -> m1 = m2.
Proof.
  induction ms as [|m ms IH]; intros H H1 H2 G1 G2; [destruct H1|]. cbn [pairwise] in H. apply andb_true_iff in H. destruct H as [HA HB]. rewrite forallb_forall in HA.
  destruct H1 as [-> |H1], H2 as [-> |H2]; [reflexivity| | |auto].
  - exfalso. exact (disjoint_iff _ _ _ (HA _ H2) G1 G2).
  - exfalso. exact (disjoint_iff _ _ _ (HA _ H1) G2 G1).
Qed.
Lemma distinct_unambiguous ti l : distinct_names ti l = true -> unambiguous ti.
Proof.
  intros H t ty ms n m1 m2 Hty Hms H1 H2 A1 A2. unfold distinct_names in H. apply andb_true_iff in H. destruct H as [HC HP].
  assert (G : forall m, accounts ti n m -> In n (member_names l m)).
  { intros m [Hn|[Hn Ho]]; unfold member_names; rewrite Hn; [left; reflexivity|]. apply in_map_iff. exists (m_tid m, n). split; [reflexivity|].
    apply filter_In. split; [apply closed_offers with (ti := ti); assumption|cbn; apply N.eqb_refl]. }
  rewrite forallb_forall in HP. specialize (HP _ (is_known _ _ _ Hty)). assert (B : behind ti t = Some ms) by (apply behind_iff; eauto). rewrite B in HP.
  eapply pairwise_ok; eauto.
Qed.
(** What the members of each id offer, entering anonymous members [fuel] deep. *)
Fixpoint offered_names (fuel : nat) (ti : type_information) (t : N) : list str :=
  match fuel with
  | O => []
  | S fuel' =>
      match behind ti t with
      | Some ms => flat_map (fun m => match m_name m with Some n => [n] | None => offered_names fuel' ti (m_tid m) end) ms
      | None => []
      end
  end.
Definition all_offers (ti : type_information) : list offer :=
  flat_map (fun t => map (pair t) (offered_names (chain_fuel ti) ti t)) (all_ids ti).

(** ** Members lie inside *)
Definition size_field (ty : type_variant) : option N := match ty with TStruct _ d | TUnion _ d => Some (struct_size d) | _ => None end.
Definition contains_members (ti : type_information) : bool :=
  forallb (fun t => match from_id ti t with
    | Some ty => match member_lists ty, size_field ty with
        | Some ms, Some st => forallb (fun m => match m_offset m with
            | ByteOffset b => match size_of {| usize_bits := 64; overflow_checks := true |} ti (m_tid m) with Ok s => b + s <=? st | _ => false end
            | BitOffsetAndSize b z => b + z <=? 8 * st end) ms
        | _, _ => true end
    | None => true end) (all_ids ti).
Lemma contains_consistent ti : contains_members ti = true -> consistent ti.
Proof.
  intros H t ty ms m st E Hms Hin Hst. unfold contains_members in H. rewrite forallb_forall in H. specialize (H _ (from_id_all _ _ _ E)). rewrite E in H.
  assert (Hm := Hms). apply member_lists_iff in Hm. rewrite Hm in H. assert (Hs : size_field ty = Some st) by (destruct ty; cbn in *; try contradiction; congruence).
  rewrite Hs, forallb_forall in H. specialize (H _ Hin). destruct (m_offset m) as [b|b z]; [|lia].
  destruct (size_of _ ti (m_tid m)) as [s| | |] eqn:Es; try discriminate. exists s. split; [|lia].
  eapply computed_size; [|exact Es]. left. reflexivity.
Qed.

(** ** Bitfields *)
Definition bitfields_plain (ti : type_information) : bool :=
  forallb (fun t => match from_id ti t with
    | Some ty => match member_lists ty with
        | Some ms => forallb (fun m => match m_offset m, behind ti (m_tid m) with BitOffsetAndSize _ _, Some _ => false | _, _ => true end) ms
        | None => true end
    | None => true end) (all_ids ti).
Lemma bitfields_plain_ok ti : bitfields_plain ti = true -> plain_bitfields ti.
Proof.
  intros H t ty ms m b z E Hms Hin Ho ty' Hty' (ms' & Hms'). unfold bitfields_plain in H. rewrite forallb_forall in H.
  specialize (H t (from_id_all _ _ _ E)). rewrite E in H. apply member_lists_iff in Hms. rewrite Hms, forallb_forall in H.
  specialize (H m Hin). rewrite Ho in H. apply member_lists_iff in Hms'. apply is_resolve in Hty'. destruct Hty' as (r & Er).
  unfold behind in H. rewrite Er, Hms' in H. discriminate.
Qed.
