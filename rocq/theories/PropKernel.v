(** * PropKernel: BTF files that the Linux kernel accepts (C85, C86).
    [kernel_checked], [old_bitfield], [kernel_size], [kernel_resolved]: KernelSpec.v. *)
From Coq Require Import Strings.String.
From Coq Require Import List NArith Bool Lia Strings.Byte.
From Verif Require Import TypeInfo Spec BrokenSpec Exact PathSpec QuerySpec Sizes Chains Offsets OutcomeSpec CSpec KernelSpec KernelFacts KernelCheck KernelTypes KernelCheck2 LoadProps LoadProps2 Final Safety Sample Witness
  PropLoad PropLoad2 PropError PropQuery PropOffset PropOutcome PropClosed PropC RealFile Checker.
Import ListNotations.
Open Scope N_scope.

Lemma checked_not_broken img en hf hs x : kernel_checked img en hf hs -> broken img x -> x = InvalidOffset /\ old_bitfield (layout_of img en hf) (types_lo (layout_of img en hf)) hs.
Proof.
  intros (Hf & Hlen & Ht & Hs & Hne & Hz & C) B. set (f := layout_of img en hf) in *.
  inversion B as [a b Hb N1 N2|en' hf' Hf' Hlo|en' hf' ts o x' f' Hf' Hlo R Ho Bad]; subst.
  - exfalso. destruct Hf as (M & _). pose proof (bytes_at_inj _ _ _ _ Hb M) as E. destruct en; specialize (E eq_refl); contradiction.
  - exfalso. destruct (header_functional img _ _ _ _ Hf Hf') as [<- <-]. pose proof (checked_le f _ _ C). fold f in Hlo. lia.
  - destruct (header_functional img _ _ _ _ Hf Hf') as [<- <-]. change f' with f in *. clear f'.
    assert (Im : image f = img) by reflexivity. assert (Or : order f = en) by reflexivity. clear B Hf'. clearbody f.
    destruct (walk_same f _ _ _ R hs C) as (hs1 & hs2 & -> & C2 & _ & O).
    inversion C2 as [E|? h hs' K C']; [exfalso; rewrite <- E in Ho; exact (N.lt_irrefl _ Ho)|]. subst hs2. destruct K as [Hh Hfit Harr Hnames].
    assert (Hc : checked_size h <= extra_size h).
    { unfold checked_size, extra_size. destruct (h_kind h) eqn:E; try lia. }
    assert (G : forall q k y, name_place o h q -> u32_at (image f) (order f) q k -> ~ bad_string f k y).
    { intros q k y P U. apply (string_good f k y); [rewrite Im; exact Hs|rewrite Hs; lia|rewrite Im, Hs; exact Hz|exact (Hnames q k P U)]. }
    inversion Bad as [H1|H1 H2|nm info H1 H2 U1 U2 U3|h' H1 H2 H3 H4|h' y H1 H2 H3 D]; subst; try lia.
    + exfalso. destruct Hh as (_ & (i & Ui & Ki & _) & _). pose proof (word_at_fun _ _ _ _ _ _ Ui U2) as ->. rewrite <- Ki in U3. destruct (h_kind h); cbn in U3; lia.
    + exfalso. rewrite (header_at_fun f o _ _ H3 Hh) in H4. lia.
    + rewrite (header_at_fun f o _ _ H2 Hh) in *. clear H2. inversion D as [y t Kn Nz _ Bs|y i ms no tid w Hk Hi _ Un _ _ Nz Bs|i ms no name tid w Hk Hi _ Un _ _ Uw Fl Hm|y n i vs no Hk Hi _ Un Bs|y i ps no tid Hk Hi _ Un _ Nz Bs]; subst.
      * exfalso. destruct Hh as (U & _). exact (G _ _ _ (place_record o h) U Bs).
      * exfalso. exact (G _ _ _ (place_member o h i Hk Hi) Un Bs).
      * split; [reflexivity|]. apply O. exact (old_here f o h hs' i w Hk Fl Hi Uw Hm).
      * exfalso. destruct Hk as [[Hk ->]|[Hk ->]]; [exact (G _ _ _ (place_enumerator o h i Hk Hi) Un Bs)|exact (G _ _ _ (place_enumerator64 o h i Hk Hi) Un Bs)].
      * exfalso. exact (G _ _ _ (place_parameter o h i Hk Hi) Un Bs).
Qed.

Lemma checked_loads e img en hf hs : usize_bits (cfg e) = 64 -> serves (rd e) img -> kernel_checked img en hf hs ->
  let f := layout_of img en hf in
  (exists ti, type_information_new e = Ok ti /\ map type_header (map snd (get ti)) = map Some hs /\ ~ old_bitfield f (types_lo f) hs) \/
  (type_information_new e = Err InvalidOffset /\ old_bitfield f (types_lo f) hs).
Proof.
  intros H64 S K f. destruct (load_total e H64) as [[ti L]|[x L]].
  - left. exists ti. split; [exact L|]. pose proof (proj1 (load_iff e img H64 S (map snd (get ti))) (ex_intro _ ti (conj L eq_refl))) as (en' & hf' & Hf' & Hlo & stop & R & Hend).
    destruct K as (Hf & Hlen & Ht & Hs & Hne & Hz & C). destruct (header_functional img _ _ _ _ Hf Hf') as [<- <-]. fold f in R, Hend, C.
    split; [|exact (read_not_old f _ _ _ R Hend hs C)].
    destruct (walk_same f _ _ _ R hs C) as (hs1 & hs2 & -> & C2 & M & _).
    inversion C2 as [E|? h hs' [_ F _ _] C']; subst; [rewrite app_nil_r; exact M|lia].
  - right. destruct (C51_failure_explained e img x H64 S L) as [B|(off & n & asked & Q & Past)].
    + destruct (checked_not_broken img en hf hs x K B) as [-> X]. split; [exact L|exact X].
    + exfalso. destruct (C14_reads_in_sections_partial e img H64 S off n (Fails x)) as (_ & G); [rewrite Q; left; reflexivity|].
      destruct K as (Hf & Hlen & Ht & Hs & Hne & Hz & C).
      destruct G as [G|(en' & hf' & Hf' & [[_ G]|[[_ G]|(ts & o & h & R & Hh & Ka & Kv & Hin & _ & G)]])].
      * destruct Hf as (_ & _ & _ & _ & _ & bs & Lb & Bb & _). apply bytes_at_length in Bb. lia.
      * destruct (header_functional img _ _ _ _ Hf Hf') as [<- <-]. lia.
      * destruct (header_functional img _ _ _ _ Hf Hf') as [<- <-]. lia.
      * destruct (header_functional img _ _ _ _ Hf Hf') as [<- <-]. fold f in R, Hh, Hin, C.
        destruct (walk_same f _ _ _ R hs C) as (hs1 & hs2 & -> & C2 & _).
        inversion C2 as [E|? h' hs' [Hh' F _ _] C']; subst; [lia|]. rewrite (header_at_fun f o _ _ Hh' Hh) in F. unfold extra_size in F. rewrite Ka in F. fold f in Ht. lia.
Qed.

(** A file the kernel accepts is loaded by 32-bit and 64-bit programs, in either byte order, with the kernel's type ids - unless
    it has a bitfield in a struct without kind flag; then it is refused as a whole. *)
Theorem C85_loads_partial : forall e img en hf hs, usize_bits (cfg e) = 64 \/ usize_bits (cfg e) = 32 -> serves (rd e) img ->
  kernel_checked img en hf hs -> let f := layout_of img en hf in
  (exists ti, type_information_new e = Ok ti /\ map type_header (map snd (get ti)) = map Some hs /\ ~ old_bitfield f (types_lo f) hs) \/
  (type_information_new e = Err InvalidOffset /\ old_bitfield f (types_lo f) hs).
Proof.
  intros e img en hf hs [W|W] S K f; [exact (checked_loads e img en hf hs W S K)|].
  destruct e as [[bits checks] rd]. cbn in W, S |- *. subst bits. change {| usize_bits := 32; overflow_checks := checks |} with (build32 checks).
  rewrite (proj1 (C02_load_32_partial rd img true checks S ltac:(
    intros en' hf' Hf' f'; destruct K as (Hf & Hlen & Ht & Hs & Hne & Hz & C); destruct (header_functional img _ _ _ _ Hf Hf') as [<- <-]; unfold f'; lia))).
  exact (checked_loads {| cfg := build64 true; rd := rd |} img en hf hs eq_refl S K).
Qed.
Print Assumptions C85_loads_partial.

(** struct { unsigned a : 3; unsigned b : 5; } as old compilers wrote it, with integers of 3 and of 5 bits. *)
Definition old_fields : list byte := raw_file Little
  [0; 0x01000000; 4; 3;  0; 0x01000000; 4; 5;  0; 0x04000002; 4; 1; 1; 0; 3; 2; 3] [x00; x61; x00; x62; x00].
Definition old_header : header_fields := {| hf_hdr_len := 24; hf_type_off := 0; hf_type_len := 68; hf_str_off := 68; hf_str_len := 5 |}.
(** Not every file the kernel accepts is loaded. *)
Theorem C85_refuted : exists img en hf hs, kernel_checked img en hf hs /\ length hs = 3%nat /\
  forall e, usize_bits (cfg e) = 64 \/ usize_bits (cfg e) = 32 -> serves (rd e) img -> type_information_new e = Err InvalidOffset.
Proof.
  assert (X : exists hs, kernel_checkb old_fields Little old_header = Some hs /\ length hs = 3%nat) by (eexists; split; vm_compute; reflexivity).
  destruct X as (hs & X & Y). assert (K : kernel_checked old_fields Little old_header hs) by (apply kernel_check_sound; [apply header_at_check; vm_compute; reflexivity|exact X]).
  exists old_fields, Little, old_header, hs. split; [exact K|]. split; [exact Y|]. intros e U S.
  destruct (C85_loads_partial e _ _ _ _ U S K) as [(ti & _ & _ & O)|[L _]]; [|exact L].
  exfalso. apply O. clear O U S e. assert (Z : type_information_new (file_env old_fields) = Err InvalidOffset) by (vm_compute; reflexivity).
  destruct (C85_loads_partial (file_env old_fields) _ _ _ _ (or_introl eq_refl) (file_serves _) K) as [(ti2 & L & _)|[_ O]]; [|exact O]. rewrite Z in L. discriminate L.
Qed.
Print Assumptions C85_refuted.
(** The file that GCC wrote is one the kernel accepts. *)
Definition gcc64_header : header_fields := Eval vm_compute in
  let w o := value Little (slice gcc64_img o 4) in {| hf_hdr_len := w 4; hf_type_off := w 8; hf_type_len := w 12; hf_str_off := w 16; hf_str_len := w 20 |}.
Lemma gcc64_checked : exists hs, kernel_checked gcc64_img Little gcc64_header hs /\ length hs = length source64.
Proof.
  assert (X : exists hs, kernel_checkb gcc64_img Little gcc64_header = Some hs /\ length hs = length source64) by (eexists; split; vm_compute; reflexivity).
  destruct X as (hs & X & Y). exists hs. split; [|exact Y]. apply kernel_check_sound; [apply header_at_check; vm_compute; reflexivity|exact X].
Qed.
Example C85_met : exists hs, kernel_checked gcc64_img Little gcc64_header hs /\ length hs = length source64 /\
  type_information_new (file_env gcc64_img) = Ok gcc64_ti /\ serves (rd (file_env gcc64_img)) gcc64_img.
Proof. destruct gcc64_checked as (hs & K & E). exists hs. split; [exact K|]. split; [exact E|]. split; [exact gcc64_loads|apply file_serves]. Qed.

(** ** C86 *)
Section Answers.
  Context (ti : type_information) (c : build) (A : acyclic ti) (SF : sizes_fit c ti).
  Lemma size_replies t : replies (size_of c ti t).
  Proof.
    destruct (C28_size_of c ti t SF) as (_ & _ & NP & DV). destruct (size_of c ti t) as [z|k|q|] eqn:E; cbn; auto; [exact (NP q eq_refl)|].
    apply (A t). destruct (proj1 DV eq_refl) as (f & F0 & F). exists f. split; [exact F0|]. intro n. right. left. apply F.
  Qed.
  Lemma offset_replies t p : valid_utf8 p -> exists r, offset_of_returns c ti t p r /\ replies r.
  Proof.
    intro Hp. destruct (C30_offset_of_terminates_partial c ti t p Hp A) as [r R]. exists r. split; [exact R|].
    destruct r as [x|k|q|]; cbn; auto; [|destruct R; congruence].
    destruct (C56_every_text c p Hp) as (cs & bad & T). destruct (C52_outcome_explained c ti t p cs bad Hp T (or_intror SF)) as [_ X].
    destruct (X _ R) as (o & v & i & rest & h & d & z & _ & _ & _ & S & NF). exact (NF (SF _ _ S)).
  Qed.
  Lemma pointee_replies t : replies (pointee_tid ti t).
  Proof.
    destruct (C31_pointee ti t) as [P1 P2]. assert (X : (forall u, ~ points_to ti t u) -> pointee_tid ti t = Err InvalidTypeID).
    { apply P2. intros (f & F0 & F). apply (A t). exists f. split; [exact F0|]. intro n. left. destruct (F n) as (ty & F1 & F2). exists ty. auto. }
    destruct (pointee_tid ti t) as [u|k|q|] eqn:E; cbn; auto.
    - assert (Y : Panic q = Err InvalidTypeID :> outcome error_kind N); [|discriminate Y]. apply X. intros u Q. apply P1 in Q. discriminate Q.
    - assert (Y : Diverge = Err InvalidTypeID :> outcome error_kind N); [|discriminate Y]. apply X. intros u Q. apply P1 in Q. discriminate Q.
  Qed.
End Answers.

Lemma loaded_pointers e img ti : loadable (cfg e) img -> serves (rd e) img -> type_information_new e = Ok ti -> from_id ti 0 = Some TVoid /\ forall p, pointer_sized ti p -> p < 2 ^ 31.
Proof.
  intros U SV ET. apply (on_64 _ _ _ U SV) in ET. set (e' := {| cfg := build64 true; rd := rd e |}) in *. destruct (loaded_types e' _ eq_refl ET) as (T1 & T2 & _).
  split; [apply from_id_spec; [exact T1|left; auto]|]. intros p (lh & h & d & _ & F & ->). apply from_id_spec in F; [|exact T1]. destruct F as [[_ F]|F]; [discriminate F|].
  apply type_at_nth in F. destruct F as [_ F]. apply nth_error_In in F. rewrite Forall_forall in T2. destruct (T2 _ F) as (_ & X & _).
  unfold u32 in X. apply N.div_lt_upper_bound; [discriminate|]. exact X.
Qed.

(** The program that asks: of 64 bits - or of 32 bits or more, if the file's list_head gives the size of the kernel's pointers. *)
Definition asks (c : build) (ti : type_information) (ptr : N) : Prop := usize_bits c = 64 \/ (32 <= usize_bits c /\ pointer_sized ti ptr).
Lemma resolved_sizes_fit e img ti ptr c : loadable (cfg e) img -> serves (rd e) img -> type_information_new e = Ok ti -> kernel_resolved ti ptr -> 1 <= ptr -> asks c ti ptr -> sizes_fit c ti.
Proof.
  intros U SV ET R P1 [W|[W P]]; destruct (loaded_pointers e img ti U SV ET) as [Hz B].
  - intros t s S. rewrite W. exact (resolved_fits ti ptr R B P1 t s S).
  - intros t s S. eapply has_size_impl; [|exact (kernel_has_size ti ptr P t s (size_kernel ti ptr R P t s S))]. cbn. intros n L. eapply N.lt_le_trans; [exact L|]. apply N.pow_le_mono_r; [discriminate|exact W].
Qed.
(** No query panics, wraps around or hangs. *)
Theorem C86_answered : forall e img ti ptr c t p, loadable (cfg e) img -> serves (rd e) img -> type_information_new e = Ok ti ->
  kernel_resolved ti ptr -> 1 <= ptr -> asks c ti ptr -> valid_utf8 p ->
  replies (size_of c ti t) /\ replies (pointee_tid ti t) /\ exists r, offset_of_returns c ti t p r /\ replies r.
Proof.
  intros e img ti ptr c t p U SV ET R P1 As Hp. pose proof (resolved_sizes_fit e img ti ptr c U SV ET R P1 As) as SF. destruct (loaded_pointers e img ti U SV ET) as [Hz _].
  pose proof (resolved_acyclic ti ptr R Hz) as Ac. split; [exact (size_replies ti c Ac SF t)|]. split; [exact (pointee_replies ti Ac t)|exact (offset_replies ti c Ac SF t p Hp)].
Qed.
Print Assumptions C86_answered.
(** Sizes are the kernel's, if list_head gives the size of its pointers. *)
Theorem C86_sizes : forall ti ptr c t z, kernel_resolved ti ptr -> pointer_sized ti ptr -> 32 <= usize_bits c -> (size_of c ti t = Ok z <-> kernel_size ti ptr t z).
Proof.
  intros ti ptr c t z R P W.
  assert (SF : sizes_fit c ti).
  { intros u s S. eapply has_size_impl; [|exact (kernel_has_size ti ptr P u s (size_kernel ti ptr R P u s S))]. cbn. intros n L. eapply N.lt_le_trans; [exact L|]. apply N.pow_le_mono_r; [discriminate|exact W]. }
  rewrite (proj1 (C28_size_of c ti t SF)). split; [exact (size_kernel ti ptr R P t z)|].
  intros K. eapply has_size_impl; [|exact (kernel_has_size ti ptr P t z K)]. auto.
Qed.
Print Assumptions C86_sizes.
(** What offset_of finds lies in the type that was asked about. *)
Theorem C86_inside : forall ti ptr c t p u o st, kernel_resolved ti ptr -> pointer_sized ti ptr -> 32 <= usize_bits c ->
  (forall s ty ms m, from_id ti s = Some ty -> members_of ty ms -> In m ms -> regular ti (m_tid m)) -> valid_utf8 p ->
  offset_of_returns c ti t p (Ok (u, o)) -> size_of c ti t = Ok st ->
  match o with
  | ByteOffset b => exists su, size_of c ti u = Ok su /\ b + su <= st
  | BitOffsetAndSize b z => b + z <= 8 * st
  end.
Proof.
  intros ti ptr c t p u o st R P W G Hp. apply C35_inside; [exact Hp| |exact (resolved_consistent ti ptr R P G)].
  intros v s S. eapply has_size_impl; [|exact (kernel_has_size ti ptr P v s (size_kernel ti ptr R P v s S))]. cbn. intros n L. eapply N.lt_le_trans; [exact L|]. apply N.pow_le_mono_r; [discriminate|exact W].
Qed.
Print Assumptions C86_inside.

(** What GCC wrote, the kernel resolves, and every member is regular. *)
Lemma gcc64_resolved : kernel_resolved gcc64_ti 8.
Proof. apply (resolve_check_sound _ _ 30). vm_compute. reflexivity. Qed.
Example C86_met : loadable (cfg (file_env gcc64_img)) gcc64_img /\ serves (rd (file_env gcc64_img)) gcc64_img /\ type_information_new (file_env gcc64_img) = Ok gcc64_ti /\
  kernel_resolved gcc64_ti 8 /\ pointer_sized gcc64_ti 8 /\ asks (build64 true) gcc64_ti 8 /\ asks (build32 false) gcc64_ti 8 /\
  (forall s ty ms m, from_id gcc64_ti s = Some ty -> members_of ty ms -> In m ms -> regular gcc64_ti (m_tid m)) /\
  kernel_size gcc64_ti 8 19 120 /\ size_of (build32 false) gcc64_ti 19 = Ok 120.
Proof.
  assert (P : pointer_sized gcc64_ti 8) by (do 3 eexists; repeat split; vm_compute; reflexivity).
  split; [left; reflexivity|]. split; [apply file_serves|]. split; [exact gcc64_loads|]. split; [exact gcc64_resolved|]. split; [exact P|]. split; [left; reflexivity|].
  split; [right; split; [discriminate|exact P]|]. split; [apply (regular_check_sound _ 30); vm_compute; reflexivity|].
  split; [apply (ksize_sound _ _ 30); vm_compute; reflexivity|vm_compute; reflexivity].
Qed.
