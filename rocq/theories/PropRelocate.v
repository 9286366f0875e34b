(** * PropRelocate: where the sections lie in the file does not matter (C69). *)
From Coq Require Import List NArith Bool Lia Strings.Byte.
From Verif Require Import TypeInfo Spec BaseFacts Maps Exact LoadProps LoadProps2 BrokenSpec Explain Final Encode Sample Witness PropLoad PropError RelocateSpec RelocateFacts.
Import ListNotations.
Open Scope N_scope.

Lemma relocated_sym img img' en hf hf' : relocated img img' en hf hf' -> relocated img' img en hf' hf.
Proof.
  intros (H1 & H2 & H3 & H4 & H5 & H6 & H7 & H8 & H9 & H10). split; [exact H2|]. split; [exact H1|]. split; [symmetry; exact H3|]. split; [symmetry; exact H4|].
  split; [exact H6|]. split; [exact H5|]. split; [exact H8|]. split; [exact H7|]. split; intros k L; symmetry.
  - apply H9. rewrite H3. exact L.
  - apply H10. rewrite H4. exact L.
Qed.
Section Relocated.
  Context (img img' : list byte) (en : endianness) (hf hf' : header_fields) (HR : relocated img img' en hf hf').
  Let f := layout_of img en hf.
  Let f' := layout_of img' en hf'.
  Lemma rl_records ts o o' : at_types f f' o o' -> o <= types_hi f -> records_at f (types_lo f) ts o -> records_at f' (types_lo f') ts o'.
  Proof.
    intros H L R. destruct HR as (H1 & H2 & H3 & H4 & H5 & H6 & H7 & H8 & H9 & H10).
    eapply (mv_records f f'); try exact R; try assumption; try reflexivity; unfold f, f', layout_of; cbn; try lia.
    - replace (hf_hdr_len hf + hf_type_off hf + hf_type_len hf - (hf_hdr_len hf + hf_type_off hf)) with (hf_type_len hf) by lia. exact H9.
    - replace (hf_hdr_len hf + hf_str_off hf + hf_str_len hf - (hf_hdr_len hf + hf_str_off hf)) with (hf_str_len hf) by lia. exact H10.
    - split; cbn; lia.
  Qed.
  Lemma rl_header o o' h : at_types f f' o o' -> o + 12 <= types_hi f -> header_at f o h -> header_at f' o' h.
  Proof.
    intros H L R. destruct HR as (H1 & H2 & H3 & H4 & H5 & H6 & H7 & H8 & H9 & H10).
    eapply (mv_header f f'); try exact R; try assumption; try reflexivity; unfold f, f', layout_of; cbn; try lia.
    all: replace (hf_hdr_len hf + hf_type_off hf + hf_type_len hf - (hf_hdr_len hf + hf_type_off hf)) with (hf_type_len hf) by lia. exact H9.
  Qed.
  Lemma rl_bad o o' x : at_types f f' o o' -> bad_record f o x -> bad_record f' o' x.
  Proof.
    intros H R. destruct HR as (H1 & H2 & H3 & H4 & H5 & H6 & H7 & H8 & H9 & H10).
    eapply (mv_bad_record f f'); try exact R; try assumption; try reflexivity; unfold f, f', layout_of; cbn; try lia.
    - replace (hf_hdr_len hf + hf_type_off hf + hf_type_len hf - (hf_hdr_len hf + hf_type_off hf)) with (hf_type_len hf) by lia. exact H9.
    - replace (hf_hdr_len hf + hf_str_off hf + hf_str_len hf - (hf_hdr_len hf + hf_str_off hf)) with (hf_str_len hf) by lia. exact H10.
  Qed.
  Lemma rl_at o : types_lo f <= o -> at_types f f' o (o + types_lo f' - types_lo f).
  Proof. unfold at_types. lia. Qed.
  Lemma rl_ends : at_types f f' (types_hi f) (types_hi f') /\ at_types f f' (types_lo f) (types_lo f').
  Proof. destruct HR as (H1 & H2 & H3 & _). unfold at_types, f, f', layout_of. cbn. lia. Qed.
  Lemma records_le g a ts b : records_at g a ts b -> a <= b.
  Proof. induction 1 as [|? ? ? ? ? ? (h & _ & _ & -> & _)]; lia. Qed.
  Lemma rl_exactly ts : describes_exactly img ts -> describes_exactly img' ts.
  Proof.
    intros (en1 & hf1 & Hf & Hlo & Hr). destruct HR as (H1 & H2 & H3 & H4 & H5 & H6 & _).
    destruct (header_unique _ _ _ _ _ Hf H1) as [-> ->]. exists en, hf'. split; [exact H2|]. split; [unfold layout_of in *; cbn in *; lia|].
    apply (rl_records ts (types_hi f)); [apply rl_ends|lia|exact Hr].
  Qed.
  Lemma rl_broken x : broken img x -> broken img' x.
  Proof.
    destruct HR as (H1 & H2 & H3 & H4 & H5 & H6 & _). intros [a b Hb N1 N2|en1 hf1 Hf Hbig|en1 hf1 ts o x0 g Hf Hlo Hr Hin Bad].
    - exfalso. destruct H1 as (Hm & _). pose proof (bytes_at_inj _ _ _ _ Hb Hm) as E. destruct en; specialize (E eq_refl); congruence.
    - exfalso. destruct (header_unique _ _ _ _ _ Hf H1) as [-> ->]. unfold layout_of in *. cbn in *. lia.
    - unfold g in *. clear g. destruct (header_unique _ _ _ _ _ Hf H1) as [-> ->]. fold f in Hr, Hin, Bad, Hlo. fold f in H5. fold f' in H6. pose proof (records_le _ _ _ _ Hr) as Hle.
      assert (A : at_types f f' o (o + types_lo f' - types_lo f)) by (apply rl_at; exact Hle). pose proof rl_ends as [[_ E1] _]. pose proof A as [_ E2].
      eapply (wrong_record img' en hf'); [exact H2| | | |]; fold f'.
      + unfold f', layout_of in *. cbn in *. lia.
      + apply (rl_records ts o); [exact A|lia|exact Hr].
      + lia.
      + apply (rl_bad o); [exact A|exact Bad].
  Qed.
  Lemma rl_cut : cut_array img en hf -> cut_array img' en hf'.
  Proof.
    intros (ts & o & h & Hr & Hh & K & V & L1 & L2). pose proof (records_le _ _ _ _ Hr) as Hle. fold f in Hr, Hh, L1, L2, Hle.
    assert (A : at_types f f' o (o + types_lo f' - types_lo f)) by (apply rl_at; exact Hle). pose proof rl_ends as [[_ E1] _]. pose proof A as [_ E2].
    exists ts, (o + types_lo f' - types_lo f), h. fold f'. split; [apply (rl_records ts o); [exact A|lia|exact Hr]|]. split; [apply (rl_header o); [exact A|exact L1|exact Hh]|].
    split; [exact K|]. split; [exact V|]. lia.
  Qed.
  Lemma array_kind g o h0 h d : payload_at g o h (TArray h0 d) -> h_kind h = KArray /\ h0 = h.
  Proof.
    unfold payload_at. intros Hp. destruct (h_kind h); try discriminate Hp; repeat (destruct Hp as (? & Hp)); try discriminate; try congruence.
    split; [reflexivity|congruence].
  Qed.
  Lemma tail_cut ts : describes_but_tail img ts -> cut_array img en hf.
  Proof.
    intros (en1 & hf1 & ts0 & o & h & d & _ & V & (Hf & _ & Hr) & (h' & Hh & Hp & Hst & _) & L1 & L2). destruct HR as (H1 & _).
    destruct (header_unique _ _ _ _ _ Hf H1) as [-> ->]. destruct (array_kind _ _ _ _ _ Hp) as [K ->]. exists ts0, o, h'. split; [exact Hr|]. split; [exact Hh|].
    split; [exact K|]. split; [exact V|]. split; [exact L1|exact L2].
  Qed.
End Relocated.

(** ** C69 *)
(** Any Readable, any kind of copy: a file with the same two sections loads to the same table; what is wrong with one is
    wrong with the other, and reported alike. *)
Theorem C69_same_result : forall e e' img img' en hf hf', usize_bits (cfg e) = 64 -> usize_bits (cfg e') = 64 -> serves (rd e) img -> serves (rd e') img' ->
  relocated img img' en hf hf' ->
  (forall ti, type_information_new e = Ok ti -> type_information_new e' = Ok ti \/ cut_array img en hf) /\
  (forall x, broken img x -> type_information_new e = Err x /\ type_information_new e' = Err x).
Proof.
  intros e e' img img' en hf hf' H64 H64' Hs Hs' HR. split.
  - intros ti E. destruct (proj1 (C03_loader_exact e img H64 Hs _) (ex_intro _ ti (conj E eq_refl))) as [D|D].
    + left. apply (rl_exactly _ _ _ _ _ HR) in D. destruct (proj2 (C03_loader_exact e' img' H64' Hs' _) (or_introl D)) as (ti' & E' & Em). rewrite E'. f_equal.
      destruct (loaded_types e ti H64 E) as (-> & _). destruct (loaded_types e' ti' H64' E') as (-> & _). unfold types. rewrite Em. reflexivity.
    + right. exact (tail_cut _ _ _ _ _ HR _ D).
  - intros x B. split; [exact (proj1 (proj1 (C51_broken_iff e img x H64 Hs) B))|]. apply (rl_broken _ _ _ _ _ HR) in B. exact (proj1 (proj1 (C51_broken_iff e' img' x H64' Hs') B)).
Qed.
Print Assumptions C69_same_result.
(** For files: the same result in every case, unless the type section ends inside an array. *)
Theorem C69_same_file : forall b img img' en hf hf', usize_bits b = 64 -> relocated img img' en hf hf' ->
  type_information_new {| cfg := b; rd := readable_file img |} = type_information_new {| cfg := b; rd := readable_file img' |} \/
  (cut_array img en hf /\ cut_array img' en hf').
Proof.
  intros b img img' en hf hf' H64 HR. pose proof (relocated_sym _ _ _ _ _ HR) as HR'.
  set (e := {| cfg := b; rd := readable_file img |}). set (e' := {| cfg := b; rd := readable_file img' |}).
  pose proof (C69_same_result e e' img img' en hf hf' H64 H64 (readable_file_serves img) (readable_file_serves img') HR) as [A1 A2].
  pose proof (C69_same_result e' e img' img en hf' hf H64 H64 (readable_file_serves img') (readable_file_serves img) HR') as [B1 B2].
  assert (C : cut_array img en hf -> cut_array img en hf /\ cut_array img' en hf') by (intros C; split; [exact C|exact (rl_cut _ _ _ _ _ HR C)]).
  assert (C' : cut_array img' en hf' -> cut_array img en hf /\ cut_array img' en hf') by (intros C'; split; [exact (rl_cut _ _ _ _ _ HR' C')|exact C']).
  assert (IO : forall i x, type_information_new {| cfg := b; rd := readable_file i |} = Err x -> broken i x \/ x = IOError).
  { intros i x E. destruct (C51_failure_explained {| cfg := b; rd := readable_file i |} i x H64 (readable_file_serves i) E) as [B|(off & n & asked & R & _)]; [left; exact B|]. right.
    pose proof (requests_honest _ [] off n _ asked R) as H. unfold readable_file in H. cbn [rd] in H. destruct (off + n <=? N.of_nat (length i)); congruence. }
  destruct (load_total e H64) as [[ti E]|[x E]].
  - destruct (A1 ti E) as [E'|D]; [left; congruence|right; apply C; exact D].
  - destruct (IO img x E) as [B|X]; [left; destruct (A2 x B); congruence|].
    destruct (load_total e' H64) as [[ti E']|[y E']].
    + destruct (B1 ti E') as [E''|D]; [left; congruence|right; apply C'; exact D].
    + destruct (IO img' y E') as [B|Y]; [left; destruct (B2 y B); congruence|left; congruence].
Qed.
Print Assumptions C69_same_file.

(** ** A concrete case *)
Lemma same_from_bytes img img' o o' bs : bytes_at img o bs -> bytes_at img' o' bs -> same_bytes img img' o o' (len bs).
Proof.
  intros H H' k L. unfold len in L. destruct (nth_error bs (N.to_nat k)) as [b|] eqn:E; [|apply nth_error_None in E; lia].
  pose proof (bytes_at_nth _ _ _ H _ _ E) as A. pose proof (bytes_at_nth _ _ _ H' _ _ E) as A'. rewrite Nnat.N2Nat.id in A, A'. congruence.
Qed.
(** The sample file with a longer header, the strings before the types, and gaps full of other bytes. *)
Definition moved_img : list byte := Eval vm_compute in
  raw_header Little 32 160 600 1 157 ++ [xff; xff; xff; xff; xff; xff; xff; xff; x41] ++ slice sample_img 624 157 ++ [xff; xff] ++ slice sample_img 24 600.
Definition sample_fields := {| hf_hdr_len := 24; hf_type_off := 0; hf_type_len := 600; hf_str_off := 600; hf_str_len := 157 |}.
Definition moved_fields := {| hf_hdr_len := 32; hf_type_off := 160; hf_type_len := 600; hf_str_off := 1; hf_str_len := 157 |}.
Lemma moved_relocated : relocated sample_img moved_img Little sample_fields moved_fields.
Proof.
  split; [check|]. split; [check|]. do 2 (split; [reflexivity|]). do 4 (split; [vm_compute; reflexivity|]). split.
  - apply (same_from_bytes _ _ _ _ (slice sample_img 24 600)); check.
  - apply (same_from_bytes _ _ _ _ (slice sample_img 624 157)); check.
Qed.
(** A type section that ends behind the header of an array: both files load, with different arrays.  So the exception is needed. *)
Definition cut_img (n : N) : list byte := raw_header Little 24 0 12 24 1 ++ words_bytes Little [0; 3 * 2 ^ 24; 0; 1; 1; n] ++ [x00].
Definition cut_fields := {| hf_hdr_len := 24; hf_type_off := 0; hf_type_len := 12; hf_str_off := 24; hf_str_len := 1 |}.
Lemma cut_relocated : relocated (cut_img 5) (cut_img 6) Little cut_fields cut_fields.
Proof.
  split; [check|]. split; [check|]. do 2 (split; [reflexivity|]). do 4 (split; [vm_compute; reflexivity|]). split.
  - apply (same_from_bytes _ _ _ _ (slice (cut_img 5) 24 12)); check.
  - apply (same_from_bytes _ _ _ _ (slice (cut_img 5) 48 1)); check.
Qed.
Example C69_met :
  (relocated sample_img moved_img Little sample_fields moved_fields /\
   type_information_new (file_env sample_img) = Ok sample_ti /\ type_information_new (file_env moved_img) = Ok sample_ti) /\
  (relocated (cut_img 5) (cut_img 6) Little cut_fields cut_fields /\
   exists ti ti', type_information_new (file_env (cut_img 5)) = Ok ti /\ type_information_new (file_env (cut_img 6)) = Ok ti' /\
     map snd (get ti) <> map snd (get ti')).
Proof.
  split; [split; [exact moved_relocated|split; [exact sample_loads|vm_compute; reflexivity]]|]. split; [exact cut_relocated|].
  eexists. eexists. split; [vm_compute; reflexivity|]. split; [vm_compute; reflexivity|]. discriminate.
Qed.
