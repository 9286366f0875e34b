(** * PropDisjoint: different fields do not overlap (C64).  [takes], [members_apart], [parts]: DisjointSpec.v. *)
From Coq Require Import Strings.String.
From Coq Require Import List NArith Bool Lia.
From Verif Require Import TypeInfo Spec BaseFacts PathSpec Path PathGrammar PathPrint QuerySpec Chains Sizes Follow Offsets Offsets2 OffsetOf OffsetOf2 LoadProps Checker Final Witness Sample
  PropPath PropQuery PropOffset DisjointSpec.
Import ListNotations.
Open Scope N_scope.

Section Table.
  Context (ti : type_information) (HC : consistent ti) (HU : unambiguous ti) (HA : members_apart ti).
  Lemma takes_shift u b o k : takes ti u (QuerySpec.shift b o) k -> 8 * b <= k /\ takes ti u o (k - 8 * b).
  Proof.
    destruct o as [a|a z]; cbn [QuerySpec.shift takes].
    - intros (z & Hz & H). split; [lia|]. exists z. split; [exact Hz|lia].
    - intros H. lia.
  Qed.
  Lemma takes_inside v cs u o sv k : leads ti (size ti) v cs u o -> size ti v sv -> takes ti u o k -> k < 8 * sv.
  Proof.
    intros L S T. pose proof (leads_inside _ _ _ _ _ HC L _ S) as G. destruct o as [b|b z]; cbn [takes] in T.
    - destruct G as (su & Hsu & G). destruct T as (s & Hs & T). rewrite (size_det _ _ _ _ _ Hs Hsu) in T. lia.
    - lia.
  Qed.
  (** Inside the member that accounts for the first name *)
  Lemma member_sized ty ms m t b : is ti t ty -> members_of ty ms -> In m ms -> m_offset m = ByteOffset b -> exists s, size ti (m_tid m) s.
  Proof.
    intros Hty Hms Hin Ho. destruct Hty as (r & _ & E & _).
    assert (S : exists st, stored_size ty st) by (destruct ty; try contradiction; eexists; reflexivity).
    destruct S as (st & Hst). pose proof (HC r ty ms m st E Hms Hin Hst) as G. rewrite Ho in G. destruct G as (s & Hs & _). eauto.
  Qed.
  Lemma in_member t ty ms n m cs u o : is ti t ty -> members_of ty ms -> In m ms -> accounts ti n m ->
    leads ti (size ti) t (Name n :: cs) u o -> forall k, takes ti u o k -> takes ti (m_tid m) (m_offset m) k.
  Proof.
    intros Hty Hms Hin HA0 L k T.
    inversion L as [| |? ty' ms' ? m' b' ? ? o1 Hty' Hms' Hm' Ho' Hl'|? ty' ms' ? m' b' z' Hty' Hms' Hm' Ho'|? ty' ms' ? m' b' ? ? o1 Hty' Hms' Hin' Hn' Ho' Hl']; subst;
      pose proof (is_det _ _ _ _ Hty Hty') as E; subst ty'; pose proof (members_of_det _ _ _ Hms Hms') as E; subst ms'.
    - apply named_In in Hm' as [Hin' Hn']. assert (m' = m) by (apply (HU t ty ms n); try assumption; left; assumption). subst m'.
      destruct (member_sized _ _ _ _ _ Hty Hms Hin Ho') as (s & Hs). apply takes_shift in T. destruct T as [T1 T2].
      pose proof (takes_inside _ _ _ _ _ _ Hl' Hs T2). rewrite Ho'. exists s. split; [exact Hs|lia].
    - apply named_In in Hm' as [Hin' Hn']. assert (m' = m) by (apply (HU t ty ms n); try assumption; left; assumption). subst m'. rewrite Ho'. exact T.
    - assert (m' = m) by (apply (HU t ty ms n); try assumption; right; split; [assumption|eapply leads_offers; [exact Hl'|reflexivity]]). subst m'.
      destruct (member_sized _ _ _ _ _ Hty Hms Hin Ho') as (s & Hs). apply takes_shift in T. destruct T as [T1 T2].
      pose proof (takes_inside _ _ _ _ _ _ Hl' Hs T2). rewrite Ho'. exists s. split; [exact Hs|lia].
  Qed.
  Lemma parts_offers t cs cs' : parts ti t cs cs' -> (forall n r, cs = Name n :: r -> offers ti n t) /\ (forall n r, cs' = Name n :: r -> offers ti n t).
  Proof.
    assert (X : forall t ty ms m n, is ti t ty -> members_of ty ms -> In m ms -> accounts ti n m -> offers ti n t).
    { intros t0 ty ms m n A B C [D|[D F]]; [eapply offers_member; eassumption|eapply offers_anonymous; eassumption]. }
    induction 1 as [t h d i j cs cs' Hty Hij|t h d i j m m' n n' cs cs' Hty Hm Hm' Hij Ha Ha'|t h d i cs cs' Hty P IH|t ty ms m n cs cs' Hty Hms Hin Hn P IH|t ty ms m n n' cs cs' Hty Hms Hin Hn P IH];
      split; intros n0 r0 E; try discriminate E; injection E as <- <-.
    - apply nth_error_In in Hm. eapply X; try eassumption. reflexivity.
    - apply nth_error_In in Hm'. eapply X; try eassumption. reflexivity.
    - eapply offers_member; eassumption.
    - eapply offers_member; eassumption.
    - eapply offers_anonymous; try eassumption. exact (proj1 IH _ _ eq_refl).
    - eapply offers_anonymous; try eassumption. exact (proj2 IH _ _ eq_refl).
  Qed.
  Lemma parts_cons t cs cs' : parts ti t cs cs' -> cs <> [] /\ cs' <> [].
  Proof. intros P. inversion P; subst; split; discriminate. Qed.
  (** One step along a member that is known to account for the name *)
  Lemma step_named t ty ms m n cs u o : is ti t ty -> members_of ty ms -> In m ms -> m_name m = Some n -> cs <> [] ->
    leads ti (size ti) t (Name n :: cs) u o -> exists b o1, m_offset m = ByteOffset b /\ o = QuerySpec.shift b o1 /\ leads ti (size ti) (m_tid m) cs u o1.
  Proof.
    intros Hty Hms Hin Hn Hcs L.
    inversion L as [| |? ty' ms' ? m' b' ? ? o1 Hty' Hms' Hm' Ho' Hl'|? ty' ms' ? m' b' z' Hty' Hms' Hm' Ho'|? ty' ms' ? m' b' ? ? o1 Hty' Hms' Hin' Hn' Ho' Hl']; subst;
      pose proof (is_det _ _ _ _ Hty Hty') as E; subst ty'; pose proof (members_of_det _ _ _ Hms Hms') as E; subst ms'.
    - apply named_In in Hm' as [Hin' Hn']. assert (m' = m) by (apply (HU t ty ms n); try assumption; left; assumption). subst m'. eauto.
    - congruence.
    - assert (m' = m) by (apply (HU t ty ms n); try assumption; [right; split; [assumption|eapply leads_offers; [exact Hl'|reflexivity]]|left; assumption]). subst m'. congruence.
  Qed.
  Lemma step_anonymous t ty ms m n cs u o : is ti t ty -> members_of ty ms -> In m ms -> m_name m = None -> offers ti n (m_tid m) ->
    leads ti (size ti) t (Name n :: cs) u o -> exists b o1, m_offset m = ByteOffset b /\ o = QuerySpec.shift b o1 /\ leads ti (size ti) (m_tid m) (Name n :: cs) u o1.
  Proof.
    intros Hty Hms Hin Hn Hof L.
    inversion L as [| |? ty' ms' ? m' b' ? ? o1 Hty' Hms' Hm' Ho' Hl'|? ty' ms' ? m' b' z' Hty' Hms' Hm' Ho'|? ty' ms' ? m' b' ? ? o1 Hty' Hms' Hin' Hn' Ho' Hl']; subst;
      pose proof (is_det _ _ _ _ Hty Hty') as E; subst ty'; pose proof (members_of_det _ _ _ Hms Hms') as E; subst ms'.
    - apply named_In in Hm' as [Hin' Hn']. assert (m' = m) by (apply (HU t ty ms n); try assumption; [left; assumption|right; auto]). subst m'. congruence.
    - apply named_In in Hm' as [Hin' Hn']. assert (m' = m) by (apply (HU t ty ms n); try assumption; [left; assumption|right; auto]). subst m'. congruence.
    - assert (m' = m) by (apply (HU t ty ms n); try assumption; right; split; try assumption; eapply leads_offers; [exact Hl'|reflexivity]). subst m'. eauto.
  Qed.
  Lemma parted t cs cs' : parts ti t cs cs' -> forall u o u' o', leads ti (size ti) t cs u o -> leads ti (size ti) t cs' u' o' ->
    forall k, takes ti u o k -> takes ti u' o' k -> False.
  Proof.
    induction 1 as [t h d i j cs cs' Hty Hij|t h d i j m m' n n' cs cs' Hty Hm Hm' Hij Ha Ha'|t h d i cs cs' Hty P IH|t ty ms m n cs cs' Hty Hms Hin Hn P IH|t ty ms m n n' cs cs' Hty Hms Hin Hn P IH];
      intros u o u' o' L L' k T T'.
    - inversion L as [|? h1 d1 ? s ? ? o1 Hty1 Hi Hs Hl| | |]; subst. inversion L' as [|? h2 d2 ? s' ? ? o2 Hty2 Hj Hs' Hl'| | |]; subst.
      pose proof (is_det _ _ _ _ Hty Hty1) as E. injection E as <- <-. pose proof (is_det _ _ _ _ Hty Hty2) as E. injection E as <- <-.
      rewrite (size_det _ _ _ _ _ Hs' Hs) in *. apply takes_shift in T, T'. destruct T as [A B], T' as [A' B'].
      pose proof (takes_inside _ _ _ _ _ _ Hl Hs B). pose proof (takes_inside _ _ _ _ _ _ Hl' Hs B').
      assert (i < j \/ j < i) as [Q|Q] by lia.
      + assert ((i + 1) * s <= j * s) by (apply N.mul_le_mono_r; lia). lia.
      + assert ((j + 1) * s <= i * s) by (apply N.mul_le_mono_r; lia). lia.
    - pose proof (in_member t _ _ n m cs u o Hty eq_refl (nth_error_In _ _ Hm) Ha L k T) as A.
      pose proof (in_member t _ _ n' m' cs' u' o' Hty eq_refl (nth_error_In _ _ Hm') Ha' L' k T') as A'.
      destruct Hty as (r & _ & E & _). exact (HA r h d i j m m' E Hm Hm' Hij k A A').
    - inversion L as [|? h1 d1 ? s ? ? o1 Hty1 Hi Hs Hl| | |]; subst. inversion L' as [|? h2 d2 ? s' ? ? o2 Hty2 Hj Hs' Hl'| | |]; subst.
      pose proof (is_det _ _ _ _ Hty Hty1) as E. injection E as <- <-. pose proof (is_det _ _ _ _ Hty Hty2) as E. injection E as <- <-.
      rewrite (size_det _ _ _ _ _ Hs' Hs) in *. apply takes_shift in T, T'. destruct T as [_ B], T' as [_ B']. exact (IH _ _ _ _ Hl Hl' _ B B').
    - destruct (parts_cons _ _ _ P) as [N1 N2].
      destruct (step_named t ty ms m n cs u o Hty Hms Hin Hn N1 L) as (b & o1 & Eb & -> & Hl).
      destruct (step_named t ty ms m n cs' u' o' Hty Hms Hin Hn N2 L') as (b' & o2 & Eb' & -> & Hl').
      rewrite Eb in Eb'. injection Eb' as <-. apply takes_shift in T, T'. destruct T as [_ B], T' as [_ B']. exact (IH _ _ _ _ Hl Hl' _ B B').
    - destruct (parts_offers _ _ _ P) as [O1 O2].
      destruct (step_anonymous t ty ms m n cs u o Hty Hms Hin Hn (O1 _ _ eq_refl) L) as (b & o1 & Eb & -> & Hl).
      destruct (step_anonymous t ty ms m n' cs' u' o' Hty Hms Hin Hn (O2 _ _ eq_refl) L') as (b' & o2 & Eb' & -> & Hl').
      rewrite Eb in Eb'. injection Eb' as <-. apply takes_shift in T, T'. destruct T as [_ B], T' as [_ B']. exact (IH _ _ _ _ Hl Hl' _ B B').
  Qed.
End Table.

(** ** C64 *)
Theorem C64_no_overlap : forall c ti t p p' cs cs' u o u' o', valid_utf8 p -> valid_utf8 p' ->
  sizes_fit c ti -> consistent ti -> unambiguous ti -> members_apart ti ->
  reads_as (usize_max c) p cs -> reads_as (usize_max c) p' cs' -> parts ti t cs cs' ->
  offset_of_returns c ti t p (Ok (u, o)) -> offset_of_returns c ti t p' (Ok (u', o')) ->
  forall k, ~ (takes ti u o k /\ takes ti u' o' k).
Proof.
  intros c ti t p p' cs cs' u o u' o' V V' HF HC HU HA R R' P E E' k [T T'].
  destruct (C32_sound c ti t p u o V (or_intror HF) E) as (_ & ds & Rd & L). destruct (C32_sound c ti t p' u' o' V' (or_intror HF) E') as (_ & ds' & Rd' & L').
  assert (ds = cs) as -> by (apply (accepted_det c p); [exact V| |]; apply accepted_iff; assumption).
  assert (ds' = cs') as -> by (apply (accepted_det c p'); [exact V'| |]; apply accepted_iff; assumption).
  exact (parted ti HC HU HA t cs cs' P u o u' o' L L' k T T').
Qed.
Print Assumptions C64_no_overlap.

(** Array elements never overlap, whatever the structs in them look like. *)
Theorem C64_elements : forall c ti t h d p p' i j cs cs' u o u' o', valid_utf8 p -> valid_utf8 p' -> sizes_fit c ti -> consistent ti ->
  is ti t (TArray h d) -> i <> j -> reads_as (usize_max c) p (Index i :: cs) -> reads_as (usize_max c) p' (Index j :: cs') ->
  offset_of_returns c ti t p (Ok (u, o)) -> offset_of_returns c ti t p' (Ok (u', o')) ->
  forall k, ~ (takes ti u o k /\ takes ti u' o' k).
Proof.
  intros c ti t h d p p' i j cs cs' u o u' o' V V' HF HC Hty Hij R R' E E' k [T T'].
  destruct (C32_sound c ti t p u o V (or_intror HF) E) as (_ & ds & Rd & L). destruct (C32_sound c ti t p' u' o' V' (or_intror HF) E') as (_ & ds' & Rd' & L').
  assert (ds = Index i :: cs) as -> by (apply (accepted_det c p); [exact V| |]; apply accepted_iff; assumption).
  assert (ds' = Index j :: cs') as -> by (apply (accepted_det c p'); [exact V'| |]; apply accepted_iff; assumption).
  inversion L as [|? h1 d1 ? s ? ? o1 Hty1 Hi Hs Hl| | |]; subst. inversion L' as [|? h2 d2 ? s' ? ? o2 Hty2 Hj Hs' Hl'| | |]; subst.
  pose proof (is_det _ _ _ _ Hty Hty1) as X. injection X as <- <-. pose proof (is_det _ _ _ _ Hty Hty2) as X. injection X as <- <-.
  rewrite (size_det _ _ _ _ _ Hs' Hs) in *. apply takes_shift in T, T'. destruct T as [A B], T' as [A' B'].
  pose proof (takes_inside ti HC _ _ _ _ _ _ Hl Hs B). pose proof (takes_inside ti HC _ _ _ _ _ _ Hl' Hs B').
  assert (i < j \/ j < i) as [Q|Q] by lia.
  - assert ((i + 1) * s <= j * s) by (apply N.mul_le_mono_r; lia). lia.
  - assert ((j + 1) * s <= i * s) by (apply N.mul_le_mono_r; lia). lia.
Qed.
Print Assumptions C64_elements.

(** In a union they may overlap: the condition where the paths part is needed. *)
Definition span (ti : type_information) (m : member) : option (N * N) :=
  match m_offset m with
  | ByteOffset b => match size_of (build64 true) ti (m_tid m) with Ok z => Some (8 * b, 8 * (b + z)) | _ => None end
  | BitOffsetAndSize b z => Some (b, b + z)
  end.
Definition clear (ti : type_information) (m m' : member) : bool :=
  match span ti m, span ti m' with Some (a, b), Some (a', b') => (b <=? a') || (b' <=? a) | _, _ => false end.
Fixpoint pairwise (ti : type_information) (ms : list member) : bool :=
  match ms with [] => true | m :: r => forallb (clear ti m) r && pairwise ti r end.
Definition all_apart (ti : type_information) : bool :=
  forallb (fun t => match from_id ti t with Some (TStruct _ d) => pairwise ti (member_list d) | _ => true end) (all_ids ti).
Lemma span_takes ti m a b k : span ti m = Some (a, b) -> takes ti (m_tid m) (m_offset m) k -> a <= k < b.
Proof.
  unfold span, takes. destruct (m_offset m) as [x|x z].
  - destruct (size_of _ ti (m_tid m)) as [s| | |] eqn:E; try discriminate. intros [= <- <-] (s' & Hs & H).
    assert (Q : size ti (m_tid m) s) by (eapply computed_size; [|exact E]; left; reflexivity). rewrite (size_det _ _ _ _ _ Hs Q) in H. exact H.
  - intros [= <- <-] H. exact H.
Qed.
Lemma clear_takes ti m m' k : clear ti m m' = true -> takes ti (m_tid m) (m_offset m) k -> takes ti (m_tid m') (m_offset m') k -> False.
Proof.
  unfold clear. destruct (span ti m) as [[a b]|] eqn:E; [|discriminate]. destruct (span ti m') as [[a' b']|] eqn:E'; [|discriminate].
  intros H T T'. pose proof (span_takes _ _ _ _ _ E T). pose proof (span_takes _ _ _ _ _ E' T'). rewrite orb_true_iff, !N.leb_le in H. lia.
Qed.
Lemma pairwise_nth ti ms : pairwise ti ms = true -> forall i j m m', nth_error ms i = Some m -> nth_error ms j = Some m' -> (i < j)%nat -> clear ti m m' = true.
Proof.
  induction ms as [|x ms IH]; intros H i j m m' Hi Hj L; [destruct i; discriminate|]. cbn [pairwise] in H. apply andb_true_iff in H. destruct H as [H1 H2].
  destruct j as [|j]; [lia|]. destruct i as [|i]; cbn [nth_error] in Hi, Hj.
  - injection Hi as ->. rewrite forallb_forall in H1. apply H1. apply nth_error_In in Hj. exact Hj.
  - apply (IH H2 i j); try assumption. lia.
Qed.
Lemma all_apart_ok ti : all_apart ti = true -> members_apart ti.
Proof.
  intros H t h d i j m m' E Hm Hm' Hij k T T'. unfold all_apart in H. rewrite forallb_forall in H. specialize (H _ (from_id_all _ _ _ E)). rewrite E in H.
  assert ((i < j)%nat \/ (j < i)%nat) as [L|L] by lia.
  - exact (clear_takes ti m m' k (pairwise_nth ti _ H i j m m' Hm Hm' L) T T').
  - exact (clear_takes ti m' m k (pairwise_nth ti _ H j i m' m Hm' Hm L) T' T).
Qed.
Lemma sample_apart : members_apart sample_ti. Proof. apply all_apart_ok. vm_compute. reflexivity. Qed.
(** tasks[2].b, inside an anonymous union, and tasks[2].flag; and a, b of the union overlap. *)
Example C64_met : let c := build64 true in
  sizes_fit c sample_ti /\ consistent sample_ti /\ unambiguous sample_ti /\ members_apart sample_ti /\
  parts sample_ti 24 [Name (s "tasks"); Index 2; Name (s "b")] [Name (s "tasks"); Index 2; Name (s "flag")] /\
  offset_of_returns c sample_ti 24 (s "tasks[2].b") (Ok (3, ByteOffset 136)) /\
  offset_of_returns c sample_ti 24 (s "tasks[2].flag") (Ok (1, BitOffsetAndSize 1408 3)) /\
  offset_of_returns c sample_ti 24 (s "tasks[2].a") (Ok (1, ByteOffset 136)) /\
  takes sample_ti 3 (ByteOffset 136) 1088 /\ takes sample_ti 1 (ByteOffset 136) 1088.
Proof.
  cbv zeta. split; [exact (sample_sizes true)|]. split; [exact sample_consistent|]. split; [exact sample_unambiguous|]. split; [exact sample_apart|].
  assert (I24 : exists h d, is sample_ti 24 (TStruct h d) /\ hd_error (member_list d) = Some (match hd_error (member_list d) with Some m => m | None => {| m_name_offset := 0; m_name := None; m_tid := 0; m_offset := ByteOffset 0 |} end) /\
    option_map m_name (hd_error (member_list d)) = Some (Some (s "tasks")) /\ option_map m_tid (hd_error (member_list d)) = Some 10).
  { do 2 eexists. split; [apply is_now; [vm_compute; reflexivity|exact I]|]. vm_compute. auto. }
  split.
  - destruct I24 as (h & d & H & E & En & Et). destruct (member_list d) as [|m ms] eqn:Em; [discriminate|]. cbn in En, Et. injection En as En. injection Et as Et.
    eapply (parts_after_name _ _ _ _ m); [exact H|cbn; exact Em|left; reflexivity|exact En|]. rewrite Et.
    eapply parts_after_index; [apply is_now; [vm_compute; reflexivity|exact I]|]. cbn [element_tid].
    assert (I9 : exists h d, is sample_ti 9 (TStruct h d) /\ from_id sample_ti 7 = Some (TStruct h d)).
    { do 2 eexists. split; [|vm_compute; reflexivity]. apply is_resolve. exists 7. vm_compute. reflexivity. }
    destruct I9 as (h9 & d9 & H9 & F7). vm_compute in F7. injection F7 as <- <-.
    eapply (parts_members _ _ _ _ 1%nat 4%nat); [exact H9|reflexivity|reflexivity|discriminate| |].
    + right. split; [reflexivity|]. cbn [m_tid]. eapply (offers_member _ _ _ _ [_; _]); [apply is_now; [vm_compute; reflexivity|exact I]|reflexivity|right; left; reflexivity|reflexivity].
    + left. reflexivity.
  - split; [apply (sample_returns 20); [vm_compute; reflexivity|discriminate]|]. split; [apply (sample_returns 20); [vm_compute; reflexivity|discriminate]|].
    split; [apply (sample_returns 20); [vm_compute; reflexivity|discriminate]|].
    split; [exists 8; split; [apply sample_size; vm_compute; reflexivity|lia]|exists 4; split; [apply sample_size; vm_compute; reflexivity|lia]].
Qed.
