(** * PropMirror: a file in the other byte order, broken or not (C60). *)
From Coq Require Import List NArith Bool Lia ZifyBool ZifyN Strings.Byte.
From Verif Require Import TypeInfo Spec BaseFacts Maps Exact LoadProps LoadProps2 Grow Final Encode Sample Witness PropLoad MirrorSpec MirrorFacts.
Import ListNotations.
Open Scope N_scope.

(** Records that end behind the type section. *)
Lemma tail_of img en hf ts stop : describes_up_to img en hf ts stop -> types_hi (layout_of img en hf) < stop -> types_lo (layout_of img en hf) < stop -> describes_but_tail img ts.
Proof.
  intros (Hf & Hlo & Hr) Lt Lt'. destruct ts as [|t0 ts'] eqn:E; [exfalso; inversion Hr; subst; lia|].
  rewrite <- E in *. destruct (records_snoc _ _ _ _ Hr ltac:(rewrite E; discriminate)) as (ts0 & t & o & Ets & Hr0 & Hlt & Hrec).
  pose proof Hrec as (h & Hh & Hp & Hs & H12 & Hc & _).
  assert (HK : h_kind h = KArray /\ h_vlen h = 0).
  { unfold checked_size in Hc. destruct (h_kind h) eqn:K; try lia. assert (extra_size h = 12) by (unfold extra_size; rewrite K; reflexivity). split; [reflexivity|lia]. }
  destruct HK as [HK HV]. assert (Hx : extra_size h = 12) by (unfold extra_size; rewrite HK; reflexivity).
  unfold payload_at in Hp. rewrite HK in Hp. destruct Hp as (d & Et & Hp). exists en, hf, ts0, o, h, d. cbn zeta. subst t.
  assert (Es : stop = o + 24) by lia. rewrite Es in Hrec. unfold checked_size in Hc. rewrite HK in Hc.
  split; [exact Ets|]. split; [exact HV|]. split; [split; [exact Hf|split; [exact Hlo|exact Hr0]]|]. split; [exact Hrec|]. lia.
Qed.
Lemma last_twins us us' h d d' : Forall2 same_type us us' -> same_but_last (tables (us ++ [TArray h d])) (tables (us' ++ [TArray h d'])).
Proof.
  intros F. pose proof (tables_twins us us' F) as HT. pose proof (twins_length _ _ F) as L. pose proof (table_twins _ _ HT) as (T1 & T2 & T3 & T4).
  exists (get (tables us)), (get (tables us')), (1 + N.of_nat (length us)), h, d, d'.
  assert (G : forall vs x, length vs = length us -> get (tables (vs ++ [x])) = get (tables vs) ++ [(1 + N.of_nat (length us), x)]).
  { intros vs x E. rewrite !get_tables, app_length, E. cbn [length]. rewrite Nat.add_1_r, ids_S, combine_snoc by (rewrite length_ids; congruence). do 3 f_equal. lia. }
  split; [apply G; reflexivity|]. split; [apply G; symmetry; exact L|]. split; [exact T1|]. split; [exact T2|].
  rewrite !tables_snoc. unfold add_type. cbn [type_name]. split; [exact T3|exact T4].
Qed.

(** The two loads. *)
Lemma load_twins b img img' : usize_bits b = 64 -> mirrored img img' ->
  let x := type_information_new {| cfg := b; rd := readable_file img |} in let y := type_information_new {| cfg := b; rd := readable_file img' |} in
  both (fun _ _ => True) x y /\
  forall ti ti', x = Ok ti -> y = Ok ti' -> maps_twins ti ti' \/ (describes_but_tail img (map snd (get ti)) /\ same_but_last ti ti').
Proof.
  intros H64 HM. cbv zeta. unfold type_information_new, load.
  pose proof (pair_header b img img' H64 HM reader_new reader_new (conj eq_refl eq_refl)) as [B0 N0].
  pose proof (header_sound {| cfg := b; rd := readable_file img |} img H64 (proj2 (C03_buffers_and_files img))) as HS.
  pose proof (ex_load_types {| cfg := b; rd := readable_file img |} img H64 (proj2 (C03_buffers_and_files img))) as HL.
  unfold bind at 1 5 9 13.
  destruct (file_header_new {| cfg := b; rd := readable_file img |} reader_new) as [[fh|x|p|] r1],
    (file_header_new {| cfg := b; rd := readable_file img' |} reader_new) as [[fh'|x'|p'|] r2]; cbn [fst snd both] in *; try contradiction; try (split; [assumption|discriminate]).
  subst fh'. specialize (N0 fh eq_refl). destruct (HS fh r1 eq_refl) as (en & [_ En] & HH).
  destruct N0 as (_ & _ & E1 & E2). rewrite E1 in En. subst en. clear HS. specialize (HL fh Little).
  cbn [cfg].
  pose proof (type_words _ _ HM _ HH) as HW. pose proof (string_bytes _ _ HM _ HH) as HB. cbv zeta in HW, HB. unfold fields, layout_of in HW, HB.
  cbn [types_lo types_hi strings_lo strings_hi hf_hdr_len hf_type_off hf_type_len hf_str_off hf_str_len] in HW, HB.
  destruct (N.lt_ge_cases (hdr_len fh + type_off fh) (2 ^ 32)) as [C0|C0].
  2:{ assert (E : checked 32 (hdr_len fh + type_off fh) = None) by (apply checked_None; exact C0). rewrite E. split; [reflexivity|discriminate]. }
  assert (E : checked 32 (hdr_len fh + type_off fh) = Some (hdr_len fh + type_off fh)) by (apply checked_Some; split; [reflexivity|exact C0]). rewrite E. cbn [ok_or].
  assert (TL : type_len fh < 2 ^ 32) by (destruct HH as (_ & _ & _ & Hc & _); eapply u32_at_lt; exact Hc).
  assert (E' : checked (usize_bits b) (hdr_len fh + type_off fh + type_len fh) = Some (hdr_len fh + type_off fh + type_len fh)) by (apply checked_Some; split; [reflexivity|rewrite H64; lia]).
  assert (G : forall e r, cfg e = b -> (tss <- lift (Ok (hdr_len fh + type_off fh)) ;; tse <- lift (ok_or InvalidTypeSectionOffset (checked (usize_bits b) (tss + type_len fh))) ;;
      set_offset tss ;;; load_types e fh tse) r = load_types e fh (hdr_len fh + type_off fh + type_len fh) (with_offset (hdr_len fh + type_off fh) r)).
  { intros e r _. unfold bind at 1, lift at 1. rewrite E'. reflexivity. }
  rewrite !G by reflexivity. clear G E E'.
  set (q1 := with_offset (hdr_len fh + type_off fh) r1). set (q2 := with_offset (hdr_len fh + type_off fh) r2).
  assert (T : twins (hdr_len fh + type_off fh) q1 q2) by (repeat split; assumption).
  destruct (N.lt_ge_cases (hdr_len fh + type_off fh + type_len fh) (2 ^ 32)) as [L|L].
  - pose proof (rounds_types b img img' H64 fh (same_length _ _ HM) L HW HB q1 q2 T) as [R1 R2]. split; [exact R1|]. intros ti ti' X Y.
    destruct (R2 ti ti' X Y) as (o' & T' & Lo & ts & ts' & -> & -> & [[_ F]|(us & us' & t & t' & -> & -> & F & Lt & h & d & d' & -> & ->)]).
    + left. apply tables_twins. exact F.
    + right. split; [|apply last_twins; exact F].
      destruct (load_types {| cfg := b; rd := readable_file img |} fh (hdr_len fh + type_off fh + type_len fh) q1) as [x q1'] eqn:EL. cbn [fst snd] in X, T'. subst x.
      destruct (HL ltac:(lia) q1 (conj (proj1 T) E1)) as [HL1 _]. destruct (HL1 _ _ EL) as [_ (vs & Ev & Hr & _)].
      assert (Es : map snd (get (tables (us ++ [TArray h d]))) = us ++ [TArray h d]) by (rewrite get_tables; apply map_snd_combine; rewrite length_ids; reflexivity).
      rewrite Es. apply tables_inj in Ev. rewrite Ev. destruct T' as (Eo & _). rewrite Eo in Hr.
      apply (tail_of img Little (fields fh) vs o'); [split; [exact HH|split; [exact C0|exact Hr]]|exact Lt|cbn [layout_of types_lo fields hf_hdr_len hf_type_off]; lia].
  - (* the first record is refused before anything is read *)
    assert (HF : forall e r, header_new e fh r = (Err InvalidTypeSectionOffset, r)).
    { intros e r. unfold header_new. rewrite (proj2 (checked_Some 32 (hdr_len fh + type_off fh) _)) by (split; [reflexivity|exact C0]). unfold bind at 1, lift at 1. cbn [ok_or].
      rewrite (proj2 (checked_None 32 _)) by exact L. reflexivity. }
    assert (LF : forall e r, r_off r = hdr_len fh + type_off fh -> fst (load_types e fh (hdr_len fh + type_off fh + type_len fh) r) = Err InvalidTypeSectionOffset).
    { intros e r Or. unfold load_types. rewrite while_M_nat. replace (N.to_nat (type_len fh + 1)) with (S (N.to_nat (type_len fh))) by lia. cbn [while_nat].
      unfold bind at 1. unfold bind at 1. unfold get_offset at 1. rewrite Or.
      destruct (N.ltb_spec (hdr_len fh + type_off fh) (hdr_len fh + type_off fh + type_len fh)) as [B1|B1]; [|lia]. unfold bind at 1. rewrite HF. reflexivity. }
    rewrite !LF by reflexivity. split; [reflexivity|discriminate].
Qed.

(** ** C60 *)
(** The two files are accepted or refused together; refused with the same error; accepted with the same table, up to 64-bit enumerator values (same_table,
    MirrorSpec.v), on which every query gives the same answer.  The one exception is a last array whose data lies behind the type section (C14), where the
    files need not correspond.  Nothing else is assumed of the files. *)
Definition load_of (b : build) (img : list byte) := type_information_new {| cfg := b; rd := readable_file img |}.
Definition same_answers (c : build) (ti ti' : type_information) : Prop :=
  (forall t, size_of c ti t = size_of c ti' t) /\ (forall t, pointee_tid ti t = pointee_tid ti' t) /\
  forall fuel t path, offset_of_uncached fuel c ti t path = offset_of_uncached fuel c ti' t path.
Theorem C60_other_byte_order : forall b img img', usize_bits b = 64 -> mirrored img img' ->
  (exists k, load_of b img = Err k /\ load_of b img' = Err k) \/
  exists ti ti', load_of b img = Ok ti /\ load_of b img' = Ok ti' /\
    (same_table ti ti' /\ (forall c, same_answers c ti ti') \/ describes_but_tail img (map snd (get ti)) /\ same_but_last ti ti').
Proof.
  intros b img img' H64 HM. destruct (load_twins b img img' H64 HM) as [H H']. unfold load_of.
  pose proof (load_total {| cfg := b; rd := readable_file img |} H64) as T.
  destruct (type_information_new {| cfg := b; rd := readable_file img |}) as [ti|k|p|], (type_information_new {| cfg := b; rd := readable_file img' |}) as [ti'|k'|p'|]; cbn [both] in H; try contradiction.
  - right. exists ti, ti'. split; [reflexivity|]. split; [reflexivity|]. destruct (H' ti ti' eq_refl eq_refl) as [W|W]; [left|right; exact W].
    split; [apply table_twins; exact W|]. intros c. split; [|split].
    + intros t. unfold size_of. rewrite (fuel_twins _ _ W). apply size_twins. exact W.
    + intros t. unfold pointee_tid. rewrite (fuel_twins _ _ W). apply pointee_twins. exact W.
    + intros fuel t path. unfold offset_of_uncached. rewrite (offset_twins c ti ti' W). reflexivity.
  - left. exists k. subst. split; reflexivity.
  - exfalso. destruct T as [[? ?]|[? ?]]; discriminate.
  - exfalso. destruct T as [[? ?]|[? ?]]; discriminate.
Qed.
Print Assumptions C60_other_byte_order.
(** When the records fill the type section and there is no 64-bit enumeration, the tables are equal. *)
Lemma records_end img en hf : let f := layout_of img en hf in forall ts p s s', types_lo f <= p -> records_at f p ts s -> records_at f p ts s' -> s = s'.
Proof.
  intros f ts. induction ts as [|t ts IH]; intros p s s' Lp H H'.
  - inversion H; subst. inversion H'; subst. reflexivity.
  - inversion H as [|? ? n ? ? Hin Hr Hrs]; subst. inversion H' as [|? ? n' ? ? _ Hr' Hrs']; subst.
    destruct (record_det img en hf p t n t n' Lp (N.lt_le_incl _ _ Hin) Hr Hr') as [_ <-].
    assert (p + 12 <= n) by (destruct Hr as (h & _ & _ & -> & _); lia). apply (IH n); [lia|assumption|assumption].
Qed.
Lemma exact_not_tail img ts : describes_exactly img ts -> describes_but_tail img ts -> False.
Proof.
  intros (en & hf & Hf & Hlo & Hr) (en' & hf' & ts0 & o & h & d & -> & HV & (Hf' & Hlo' & Hr') & Hrec & H12 & Hlt).
  destruct (header_unique _ _ _ _ _ Hf Hf') as [<- <-]. assert (L : o < types_hi (layout_of img en hf)) by lia.
  pose proof (records_app _ _ _ _ _ _ Hr' L Hrec) as Hr2. pose proof (records_end img en hf _ _ _ _ (N.le_refl _) Hr Hr2). lia.
Qed.
Theorem C60_equal_tables : forall b img img' ti, usize_bits b = 64 -> mirrored img img' -> load_of b img = Ok ti -> describes_exactly img (map snd (get ti)) ->
  (forall h d, ~ In (TEnum64 h d) (map snd (get ti))) -> load_of b img' = Ok ti.
Proof.
  intros b img img' ti H64 HM E HD No. destruct (load_twins b img img' H64 HM) as [H H']. unfold load_of in *. specialize (H' ti). rewrite E in H, H'.
  destruct (type_information_new {| cfg := b; rd := readable_file img' |}) as [ti'|k'|p'|]; cbn [both] in H; try contradiction. f_equal.
  destruct (H' ti' eq_refl eq_refl) as [W|[W _]]; [|destruct (exact_not_tail _ _ HD W)]. clear HD E H H'.
  destruct ti as [m1 m2 m3], ti' as [m1' m2' m3'], W as (F & B & C). cbn in F, B, C. subst m2' m3'. f_equal. unfold get in No. cbn [id_to_type_map] in No.
  induction F as [|[a x] [a' x'] l l' [E S] F IH]; [reflexivity|]. cbn [fst snd] in E, S. subst a'. f_equal; [|apply IH; intros h d I; apply (No h d); right; exact I].
  f_equal. destruct x, x'; cbn [same_type] in S; try congruence. exfalso. apply (No h d). left. reflexivity.
Qed.
Print Assumptions C60_equal_tables.

(** A check for concrete files. *)
Definition opt_eqb (x y : option (list byte)) : bool := match x, y with Some a, Some c => str_eqb a c | None, None => true | _, _ => false end.
Lemma opt_eqb_eq x y : opt_eqb x y = true -> x = y.
Proof. destruct x, y; cbn; try discriminate; [|reflexivity]. intros H. apply str_eqb_eq in H. congruence. Qed.
Definition reversedb img img' o := opt_eqb (bytes_of img' o 4) (option_map (@rev byte) (bytes_of img o 4)).
Definition mirroredb (img img' : list byte) : bool :=
  Nat.eqb (length img) (length img') && bytes_atb img 0 [x9f; xeb] && bytes_atb img' 0 [xeb; x9f] &&
  opt_eqb (bytes_of img 2 1) (bytes_of img' 2 1) && opt_eqb (bytes_of img 3 1) (bytes_of img' 3 1) &&
  forallb (reversedb img img') [4; 8; 12; 16; 20] &&
  match fst (file_header_new {| cfg := build64 false; rd := readable_file img |} reader_new) with
  | Ok fh =>
      forallb (fun k => reversedb img img' (hdr_len fh + type_off fh + 4 * N.of_nat k)) (seq 0 (N.to_nat (type_len fh / 4))) &&
      forallb (fun k => let o := hdr_len fh + str_off fh + N.of_nat k in opt_eqb (bytes_of img o 1) (bytes_of img' o 1)) (seq 0 (N.to_nat (str_len fh)))
  | _ => true
  end.
Lemma mirroredb_sound img img' : mirroredb img img' = true -> mirrored img img'.
Proof.
  unfold mirroredb. intros H. repeat (apply andb_prop in H as [H ?]).
  match goal with X : match _ with Ok _ => _ | _ => _ end = true |- _ => rename X into HF end.
  assert (G : forall hf, file_header_at img Little hf -> exists fh, fields fh = hf /\
    forallb (fun k => reversedb img img' (hdr_len fh + type_off fh + 4 * N.of_nat k)) (seq 0 (N.to_nat (type_len fh / 4))) = true /\
    forallb (fun k => let o := hdr_len fh + str_off fh + N.of_nat k in opt_eqb (bytes_of img o 1) (bytes_of img' o 1)) (seq 0 (N.to_nat (str_len fh))) = true).
  { intros hf Hh. destruct (header_complete {| cfg := build64 false; rd := readable_file img |} img eq_refl (proj2 (C03_buffers_and_files img)) Little hf Hh) as (fh & r' & E & Ef & _).
    exists fh. split; [exact Ef|]. rewrite E in HF. cbn [fst] in HF. apply andb_prop in HF. exact HF. }
  clear HF. constructor.
  - apply Nat.eqb_eq. assumption.
  - apply bytes_at_check. assumption.
  - apply bytes_at_check. assumption.
  - apply opt_eqb_eq. assumption.
  - apply opt_eqb_eq. assumption.
  - intros o I. apply opt_eqb_eq. match goal with X : forallb (reversedb img img') _ = true |- _ => rewrite forallb_forall in X; exact (X o I) end.
  - intros hf Hh f k L. destruct (G hf Hh) as (fh & <- & G1 & _). subst f. unfold layout_of, fields in *. cbn [types_lo types_hi hf_hdr_len hf_type_off hf_type_len] in *.
    rewrite forallb_forall in G1. specialize (G1 (N.to_nat k)). rewrite N2Nat.id in G1. apply opt_eqb_eq, G1. apply in_seq. lia.
  - intros hf Hh f o L. destruct (G hf Hh) as (fh & <- & _ & G2). subst f. unfold layout_of, fields in *. cbn [strings_lo strings_hi hf_hdr_len hf_str_off hf_str_len] in *.
    rewrite forallb_forall in G2. specialize (G2 (N.to_nat (o - (hdr_len fh + str_off fh)))). cbv zeta in G2.
    replace (hdr_len fh + str_off fh + N.of_nat (N.to_nat (o - (hdr_len fh + str_off fh)))) with o in G2 by lia. apply opt_eqb_eq, G2. apply in_seq. lia.
Qed.
(** The sample file (it has a 64-bit enumeration), and one whose second record has an unknown kind. *)
Definition broken_words : list N := [1; 2 ^ 24; 4; 32; 1; 31 * 2 ^ 24; 0].
Definition broken_little : list byte := raw_file Little broken_words [x00; x61; x00].
Definition broken_big : list byte := raw_file Big broken_words [x00; x61; x00].
Example C60_met : mirrored (encode Little sample) (encode Big sample) /\ load_of (build64 true) (encode Little sample) = Ok sample_ti /\
  mirrored broken_little broken_big /\ load_of (build64 true) broken_little = Err InvalidBTFKind /\
  mirrored (encode Little sample_no64) (encode Big sample_no64).
Proof. split; [|split; [|split; [|split]]]; try (apply mirroredb_sound); vm_compute; reflexivity. Qed.
Lemma load_describes b img ti : usize_bits b = 64 -> load_of b img = Ok ti -> file_describes img (map snd (get ti)).
Proof. intros H E. apply (load_iff {| cfg := b; rd := readable_file img |} img H (proj2 (C03_buffers_and_files img))). exists ti. split; [exact E|reflexivity]. Qed.
Example C60_equal_met : exists ti, load_of (build64 true) (encode Little sample_no64) = Ok ti /\ describes_exactly (encode Little sample_no64) (map snd (get ti)) /\
  (forall h d, ~ In (TEnum64 h d) (map snd (get ti))) /\ length (get ti) = length sample_no64 /\ sample_no64 <> [].
Proof.
  destruct (load_of (build64 true) (encode Little sample_no64)) as [ti| | |] eqn:E; [|vm_compute in E; discriminate E..]. exists ti. split; [reflexivity|].
  pose proof (load_describes (build64 true) _ _ eq_refl E) as D.
  vm_compute in E. injection E as <-. split; [|split; [|split; [reflexivity|discriminate]]].
  - apply describes_cases in D as [D|(en & hf & ts0 & o & h & d & L & _)]; [exact D|exfalso]. apply (f_equal (fun l => last l TVoid)) in L. rewrite last_last in L. vm_compute in L. discriminate L.
  - intros h d. cbn [get id_to_type_map map snd In]. intros I. repeat destruct I as [I|I]; try discriminate I; contradiction.
Qed.
(** The exception: the data of the array is taken from the string section. *)
Definition tail_words : list N := [0; 3 * 2 ^ 24; 0].
Definition tail_strings : list byte := [x00; x61; x00; x62; x00; x63; x00; x64; x00; x65; x66; x00].
Example C60_tail_met : mirrored (raw_file Little tail_words tail_strings) (raw_file Big tail_words tail_strings) /\
  exists ti ti', load_of (build64 true) (raw_file Little tail_words tail_strings) = Ok ti /\ load_of (build64 true) (raw_file Big tail_words tail_strings) = Ok ti' /\ ti <> ti'.
Proof. split; [apply mirroredb_sound; vm_compute; reflexivity|]. eexists. eexists. split; [vm_compute; reflexivity|]. split; [vm_compute; reflexivity|]. discriminate. Qed.
