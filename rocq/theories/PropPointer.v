(** * PropPointer: programs without struct list_head (C79).  btfparse takes the size of a pointer to be half the size of the type called list_head. The files of
    Linux kernels have it (C76); those of other programs, such as the objects made for BPF, need not. *)
From Coq Require Import Strings.String.
From Coq Require Import List NArith ZArith Bool Lia Strings.Byte.
From Verif Require Import TypeInfo Spec BaseFacts PathSpec Path QuerySpec Chains Sizes Follow Offsets Offsets2 OffsetOf OffsetOf2 Encode Maps LoadProps Witness Sample
  PropPath PropQuery PropOffset PropOutcome CSpec CFacts PropC Taken.
Import ListNotations.
Open Scope N_scope.

Lemma unnamed_pointers m P L e img ti : lawful m P L -> no_list_head P -> loadable (cfg e) img -> serves (rd e) img -> compiled m P L img -> type_information_new e = Ok ti ->
  forall z, ~ pointer_sized ti z.
Proof.
  intros LG NL U SV C ET z (lh & h & d & I & _ & _). destruct (loaded_program _ _ _ _ _ _ U SV C ET) as (T1 & T2 & T3).
  apply (id_of_spec _ _ _ T1 T2) in I. destruct I as [[E _]|(_ & C1 & _)]; [discriminate E|].
  apply (carries_declared m P L LG ti T3) in C1. destruct C1 as (d' & D & E). exact (NL _ _ D E).
Qed.

(** ** C79 *)
(** What holds without list_head: everything but the sizes of pointers and of arrays of pointers, and with them the places in such arrays. *)
Theorem C79_size_of_partial : forall m P L e img ti c t, lawful m P L -> no_list_head P -> loadable (cfg e) img -> serves (rd e) img -> compiled m P L img ->
  type_information_new e = Ok ti -> 32 <= usize_bits c ->
  (forall z, size_of c ti t = Ok z <-> (exists a, L t = Some (z, a)) /\ ~ of_pointers P t) /\
  (of_pointers P t -> size_of c ti t = Err InvalidTypeID).
Proof.
  intros m P L e img ti c t LG NL U SV C ET UC. pose proof (program_table _ _ _ _ _ _ LG U SV C ET) as TD. pose proof (unnamed_pointers _ _ _ _ _ _ LG NL U SV C ET) as NP.
  assert (PS : pointers_right ti m P) by (intros ? ? _ z Z; destruct (NP z Z)). split.
  - intro z. rewrite (c_size_of m P L LG ti TD PS c UC). split; intros [X M]; (split; [exact X|]); [destruct M as [[y Y]|M]; [destruct (NP y Y)|exact M]|right; exact M].
  - intro O. apply (C28_errors c ti t InvalidTypeID).
    assert (X : exists u h d, chain (size_link ti) t u /\ from_id ti u = Some (TPtr h d)).
    { induction O as [t u D|t u B O IH|t k x n D O IH].
      - destruct (td_has _ _ _ _ TD _ _ D) as (ty & w & F & V). destruct ty; cbn [view describe] in V; try discriminate V. do 3 eexists. split; [constructor|exact F].
      - destruct IH as (v & h & d & C' & F). exists v, h, d. split; [|exact F]. econstructor; [left; exact (size_alias_to _ _ _ _ TD _ _ B)|exact C'].
      - destruct IH as (v & h & d & C' & F). exists v, h, d. split; [|exact F]. destruct (array_to _ _ _ _ TD _ _ _ _ D) as (h' & d' & F' & E1 & E2).
        subst k. econstructor; [right; exists n, h', d'; auto|exact C']. }
    destruct X as (u & h & d & C' & F). eapply no_pointer; eassumption.
Qed.
Print Assumptions C79_size_of_partial.
Theorem C79_offset_of_partial : forall m P L e img ti c t p u o, lawful m P L -> no_list_head P -> loadable (cfg e) img -> serves (rd e) img -> compiled m P L img ->
  type_information_new e = Ok ti -> 32 <= usize_bits c -> ~ is_tag P t -> valid_utf8 p ->
  (offset_of_returns c ti t p (Ok (u, o)) <-> exists cs, reads_as (usize_max c) p cs /\ reaches true (fun k z => c_size L k z /\ ~ of_pointers P k) m P L t cs u o).
Proof.
  intros m P L e img ti c t p u o LG NL U SV C ET UC Z Hp. pose proof (program_table _ _ _ _ _ _ LG U SV C ET) as TD. pose proof (unnamed_pointers _ _ _ _ _ _ LG NL U SV C ET) as NP.
  assert (PS : pointers_right ti m P) by (intros ? ? _ z Z'; destruct (NP z Z')).
  assert (MS : forall k, measurable ti P k <-> ~ of_pointers P k) by (intro k; split; [intros [[y Y]|M]; [destruct (NP y Y)|exact M]|right; assumption]).
  rewrite (c_offset_of m P L LG ti TD PS c UC t p u o Hp). split; intros (cs & RA & D); exists cs; (split; [exact RA|]).
  - apply designates_mono. eapply reaches_impl; [|exact D]. intros k z [X M]. split; [exact X|]. apply MS. exact M.
  - eapply reaches_impl; [|apply designates_plain; [exact (l_tags _ _ _ LG)|exact Z|exact D]]. intros k z [X M]. split; [exact X|]. apply MS. exact M.
Qed.
Print Assumptions C79_offset_of_partial.
(** So what it answers is right. *)
Theorem C79_sound_partial : forall m P L e img ti c t p u o, lawful m P L -> no_list_head P -> loadable (cfg e) img -> serves (rd e) img -> compiled m P L img ->
  type_information_new e = Ok ti -> 32 <= usize_bits c -> ~ is_tag P t -> valid_utf8 p ->
  (forall z, size_of c ti t = Ok z -> exists a, L t = Some (z, a)) /\
  (offset_of_returns c ti t p (Ok (u, o)) -> exists cs, reads_as (usize_max c) p cs /\ designates m P L t cs u o).
Proof.
  intros m P L e img ti c t p u o LG NL U SV C ET UC Z Hp. split.
  - intros z E. apply (proj1 (C79_size_of_partial _ _ _ _ _ _ c t LG NL U SV C ET UC)) in E. exact (proj1 E).
  - intro R. apply (C79_offset_of_partial _ _ _ _ _ _ c t p u o LG NL U SV C ET UC Z Hp) in R. destruct R as (cs & RA & D). exists cs. split; [exact RA|].
    eapply reaches_impl; [|exact D]. intros k z [X _]. exact X.
Qed.
Print Assumptions C79_sound_partial.
(** And it always answers. *)
Theorem C79_answered_partial : forall m P L e img ti c t p, lawful m P L -> no_list_head P -> loadable (cfg e) img -> serves (rd e) img -> compiled m P L img ->
  type_information_new e = Ok ti -> 32 <= usize_bits c ->
  replies (size_of c ti t) /\ replies (pointee_tid ti t) /\ (valid_utf8 p -> exists r, offset_of_returns c ti t p r /\ replies r).
Proof.
  intros m P L e img ti c t p LG NL U SV C ET UC. pose proof (program_table _ _ _ _ _ _ LG U SV C ET) as TD. pose proof (unnamed_pointers _ _ _ _ _ _ LG NL U SV C ET) as NP.
  assert (PS : pointers_right ti m P) by (intros ? ? _ z Z; destruct (NP z Z)). split; [|split].
  - apply (c_size_answers m P L LG ti TD PS c UC).
  - apply (c_pointee_answers m P L LG ti TD).
  - apply (c_offset_answers m P L LG ti TD PS c UC).
Qed.
Print Assumptions C79_answered_partial.

(** ** Programs with any list_head, or none *)
(** btfparse takes pointers to be [w] bytes big, where [pointer_taken P L w]; [taken_size] are the sizes that follow from it. *)
Lemma taken_pointers m P L e img ti : lawful m P L -> loadable (cfg e) img -> serves (rd e) img -> compiled m P L img -> type_information_new e = Ok ti ->
  forall w, pointer_sized ti w <-> pointer_taken P L w.
Proof.
  intros LG U SV C ET w. destruct (loaded_program _ _ _ _ _ _ U SV C ET) as (T1 & T2 & T3). pose proof (program_table _ _ _ _ _ _ LG U SV C ET) as TD.
  assert (Z : list_head_str <> void_str) by discriminate. split.
  - intros (lh & h & d & I & F & ->). apply (last_name m P L LG ti T1 T2 T3 _ _ Z) in I.
    destruct (members_from _ _ _ _ LG TD _ _ _ F eq_refl) as (un & pk & al & nm & fs & z & a & D & _ & E & S & K). destruct un; [destruct K as (? & ? & K); discriminate K|].
    exists lh, pk, al, nm, fs, z. split; [exact I|]. split; [exact D|]. split; [exists a; exact E|]. cbn in S. rewrite S. reflexivity.
  - intros (lh & pk & al & n & fs & z & I & D & [a E] & ->). apply (last_name m P L LG ti T1 T2 T3 _ _ Z) in I.
    destruct (members_to _ _ _ _ LG TD _ _ _ _ _ _ D) as (ty & mem & ms & z' & a' & F & M & _).
    destruct (members_from _ _ _ _ LG TD _ _ _ F M) as (un & pk' & al' & n' & fs' & z2 & a2 & D2 & _ & E2 & S & K).
    pose proof (declared_det _ _ _ _ D D2) as X. injection X as <- <- <- <- <-. destruct K as (h & d & ->). rewrite E in E2. injection E2 as <- <-.
    exists lh, h, d. split; [exact I|]. split; [exact F|]. cbn in S. rewrite S. reflexivity.
Qed.
(** size_of gives these sizes, if they fit into usize; and on 64-bit targets they do. *)
Definition sizes_within (c : build) (P : program) (L : N -> option (N * N)) : Prop := forall t z, taken_size P L t z -> z < 2 ^ usize_bits c.
Theorem C79_taken_fits : forall m P L c, lawful m P L -> 1 <= pointer_bytes m -> usize_bits c = 64 -> sizes_within c P L.
Proof. intros m P L c LG PB UC t z T. rewrite UC. exact (taken_small m P L LG t z PB T). Qed.
Print Assumptions C79_taken_fits.
Theorem C79_taken_size_partial : forall m P L e img ti c t z, lawful m P L -> loadable (cfg e) img -> serves (rd e) img -> compiled m P L img ->
  type_information_new e = Ok ti -> sizes_within c P L ->
  (size_of c ti t = Ok z <-> taken_size P L t z).
Proof.
  intros m P L e img ti c t z LG U SV C ET TF.
  exact (t_size_of m P L LG ti (program_table _ _ _ _ _ _ LG U SV C ET) (taken_pointers _ _ _ _ _ _ LG U SV C ET) c TF t z).
Qed.
Print Assumptions C79_taken_size_partial.
(** offset_of gives the places that follow from these sizes. *)
Theorem C79_taken_offset_partial : forall m P L e img ti c t p u o, lawful m P L -> loadable (cfg e) img -> serves (rd e) img -> compiled m P L img ->
  type_information_new e = Ok ti -> sizes_within c P L -> ~ is_tag P t -> valid_utf8 p ->
  (offset_of_returns c ti t p (Ok (u, o)) -> exists cs, reads_as (usize_max c) p cs /\ reaches true (taken_size P L) m P L t cs u o) /\
  ((forall t z e y, c_size L t z -> taken_size P L e y -> 8 * (z + y) < 2 ^ 32) ->
   forall cs, reads_as (usize_max c) p cs -> reaches true (taken_size P L) m P L t cs u o -> offset_of_returns c ti t p (Ok (u, o))).
Proof.
  intros m P L e img ti c t p u o LG U SV C ET TF Z Hp. pose proof (program_table _ _ _ _ _ _ LG U SV C ET) as TD. pose proof (taken_pointers _ _ _ _ _ _ LG U SV C ET) as PT. split.
  - intro R. destruct (t_sound m P L LG ti TD PT c TF t p u o Hp R) as (_ & cs & RA & D). exists cs. split; [exact RA|]. apply designates_mono. exact D.
  - intros RM cs RA D. apply (t_complete m P L LG ti TD PT c TF t p cs u o Hp RM RA). apply designates_plain; [exact (l_tags _ _ _ LG)|exact Z|exact D].
Qed.
Print Assumptions C79_taken_offset_partial.
Theorem C79_taken_answered_partial : forall m P L e img ti c t p, lawful m P L -> loadable (cfg e) img -> serves (rd e) img -> compiled m P L img ->
  type_information_new e = Ok ti -> sizes_within c P L ->
  replies (size_of c ti t) /\ replies (pointee_tid ti t) /\ (valid_utf8 p -> exists r, offset_of_returns c ti t p r /\ replies r).
Proof.
  intros m P L e img ti c t p LG U SV C ET TF. pose proof (program_table _ _ _ _ _ _ LG U SV C ET) as TD. pose proof (taken_pointers _ _ _ _ _ _ LG U SV C ET) as PT. split; [|split].
  - exact (t_size_answers m P L LG ti TD PT c TF t).
  - exact (c_pointee_answers m P L LG ti TD t).
  - exact (t_offset_answers m P L LG ti TD PT c TF t p).
Qed.
Print Assumptions C79_taken_answered_partial.
(** So only the sizes of pointers and of arrays of pointers can be wrong, and the places in such arrays. *)
Theorem C79_rest_right_partial : forall m P L e img ti c t z, lawful m P L -> loadable (cfg e) img -> serves (rd e) img -> compiled m P L img ->
  type_information_new e = Ok ti -> sizes_within c P L -> ~ of_pointers P t -> (size_of c ti t = Ok z <-> c_size L t z).
Proof.
  intros m P L e img ti c t z LG U SV C ET TF O. rewrite (C79_taken_size_partial m P L e img ti c t z LG U SV C ET TF). split.
  - intro T. destruct (taken_cases m P L LG t z T) as (y & a & E & [[_ ->]|[X _]]); [exists a; exact E|destruct (O X)].
  - intro S. apply tk_own; assumption.
Qed.
Print Assumptions C79_rest_right_partial.

(** ** Two programs *)
(** struct node { struct node *next; struct node *slots[4]; int id; }; *)
Definition nodes : program :=
  [ CInteger (s "int") 4 4 true;                                                                                   (* 1 *)
    CPointer 3;                                                                                                    (* 2 *)
    CAggregate false false 1 (nm "node") [member_ (nm "next") 2; member_ (nm "slots") 4; member_ (nm "id") 1];     (* 3 *)
    CArray 2 1 4 ].                                                                                                (* 4 *)
(** struct list_head { struct list_head *first; }; struct table { struct list_head *slots[4]; int n; }; *)
Definition own_list : program :=
  [ CInteger (s "int") 4 4 true;                                                                                   (* 1 *)
    CPointer 3;                                                                                                    (* 2 *)
    CAggregate false false 1 (nm "list_head") [member_ (nm "first") 2];                                            (* 3 *)
    CArray 2 1 4;                                                                                                  (* 4 *)
    CAggregate false false 1 (nm "table") [member_ (nm "slots") 4; member_ (nm "n") 1] ].                          (* 5 *)
Lemma nodes_lawful : lawful machine64 nodes (computed_layout machine64 nodes). Proof. program_lawful. Qed.
Lemma own_lawful : lawful machine64 own_list (computed_layout machine64 own_list). Proof. program_lawful. Qed.
Lemma nodes_unnamed : no_list_head nodes.
Proof. unfold no_list_head. apply (by_number nodes (fun t d => c_name d <> Some (String.list_byte_of_string "list_head"))). each ltac:(cbn; discriminate). Qed.
Definition nodes_img : list byte := Eval vm_compute in file_of machine64 nodes Little.
Definition own_img : list byte := Eval vm_compute in file_of machine64 own_list Little.
Definition nodes_ti : type_information := Eval vm_compute in table_of nodes_img.
Definition own_ti : type_information := Eval vm_compute in table_of own_img.
Lemma nodes_compiled : compiled machine64 nodes (computed_layout machine64 nodes) nodes_img.
Proof. change nodes_img with (id nodes_img). replace (id nodes_img) with (file_of machine64 nodes Little) by (vm_compute; reflexivity). apply file_compiled; [exact nodes_lawful|vm_compute; reflexivity]. Qed.
Lemma own_compiled : compiled machine64 own_list (computed_layout machine64 own_list) own_img.
Proof. change own_img with (id own_img). replace (id own_img) with (file_of machine64 own_list Little) by (vm_compute; reflexivity). apply file_compiled; [exact own_lawful|vm_compute; reflexivity]. Qed.
Lemma nodes_loads : type_information_new (file_env nodes_img) = Ok nodes_ti. Proof. vm_compute. reflexivity. Qed.
Lemma own_loads : type_information_new (file_env own_img) = Ok own_ti. Proof. vm_compute. reflexivity. Qed.

(** Without list_head, pointers have no size, and slots[1] is not found; with another list_head, both are wrong. *)
Theorem C79_pointers_refuted : let c := build64 true in
  (let layout := computed_layout machine64 nodes in lawful machine64 nodes layout /\ compiled machine64 nodes layout nodes_img /\
   type_information_new (file_env nodes_img) = Ok nodes_ti /\
   layout 2 = Some (8, 8) /\ size_of c nodes_ti 2 = Err InvalidTypeID /\
   reads_as (usize_max c) (s "slots[1]") [Name (s "slots"); Index 1] /\
   designates machine64 nodes layout 3 [Name (s "slots"); Index 1] 2 (ByteOffset 16) /\ offset_of_returns c nodes_ti 3 (s "slots[1]") (Err InvalidTypeID)) /\
  (let layout := computed_layout machine64 own_list in lawful machine64 own_list layout /\ compiled machine64 own_list layout own_img /\
   type_information_new (file_env own_img) = Ok own_ti /\
   layout 2 = Some (8, 8) /\ size_of c own_ti 2 = Ok 4 /\
   designates machine64 own_list layout 5 [Name (s "slots"); Index 1] 2 (ByteOffset 8) /\ offset_of_returns c own_ti 5 (s "slots[1]") (Ok (2, ByteOffset 4))).
Proof.
  cbv zeta. split.
  - split; [exact nodes_lawful|]. split; [exact nodes_compiled|]. split; [exact nodes_loads|]. split; [vm_compute; reflexivity|]. split; [vm_compute; reflexivity|].
    split; [apply accepted_reads; [literal|vm_compute; reflexivity]|]. split; [|split; [discriminate|exists 20%nat; vm_compute; reflexivity]].
    change (ByteOffset 16) with (shift 8 (shift (1 * 8) (ByteOffset 0))). eapply d_member; [exists 3; split; [constructor|split; [discriminate|reflexivity]]|vm_compute; reflexivity|right; left; reflexivity|].
    eapply d_element; [exists 4; split; [constructor|split; [discriminate|reflexivity]]|reflexivity|eexists; vm_compute; reflexivity|constructor].
  - split; [exact own_lawful|]. split; [exact own_compiled|]. split; [exact own_loads|]. split; [vm_compute; reflexivity|]. split; [vm_compute; reflexivity|].
    split; [|split; [discriminate|exists 20%nat; vm_compute; reflexivity]].
    change (ByteOffset 8) with (shift 0 (shift (1 * 8) (ByteOffset 0))). eapply d_member; [exists 5; split; [constructor|split; [discriminate|reflexivity]]|vm_compute; reflexivity|left; reflexivity|].
    eapply d_element; [exists 4; split; [constructor|split; [discriminate|reflexivity]]|reflexivity|eexists; vm_compute; reflexivity|constructor].
Qed.
Print Assumptions C79_pointers_refuted.
(** The partial theorems apply to struct node: its size, and the places of its members, are right. *)
Example C79_met : let c := build64 true in let layout := computed_layout machine64 nodes in
  lawful machine64 nodes layout /\ no_list_head nodes /\ serves (rd (file_env nodes_img)) nodes_img /\ compiled machine64 nodes layout nodes_img /\
  type_information_new (file_env nodes_img) = Ok nodes_ti /\ (forall t, ~ is_tag nodes t) /\
  size_of c nodes_ti 3 = Ok 48 /\ ~ of_pointers nodes 3 /\ of_pointers nodes 4 /\
  reaches true (fun k z => c_size layout k z /\ ~ of_pointers nodes k) machine64 nodes layout 3 [Name (s "id")] 1 (ByteOffset 40) /\
  offset_of_returns c nodes_ti 3 (s "id") (Ok (1, ByteOffset 40)) /\ pointee_tid nodes_ti 2 = Ok 3.
Proof.
  cbv zeta. split; [exact nodes_lawful|]. split; [exact nodes_unnamed|]. split; [apply file_serves|]. split; [exact nodes_compiled|]. split; [exact nodes_loads|]. split.
  { intros t (x & u & D). assert (K : forall t d, declared nodes t d -> match d with CTag _ _ => False | _ => True end) by (apply by_number; each ltac:(exact I)). exact (K _ _ D). }
  split; [vm_compute; reflexivity|]. split; [|split; [|split; [|split; [|vm_compute; reflexivity]]]].
  - intro O. assert (D : declared nodes 3 (CAggregate false false 1 (nm "node") [member_ (nm "next") 2; member_ (nm "slots") 4; member_ (nm "id") 1])) by (split; [discriminate|reflexivity]).
    exact (points_to_pointers _ _ _ O D).
  - eapply op_array; [split; [discriminate|reflexivity]|]. eapply op_pointer. split; [discriminate|reflexivity].
  - change (ByteOffset 40) with (shift 40 (ByteOffset 0)). eapply d_member; [exists 3; split; [constructor|split; [discriminate|reflexivity]]|vm_compute; reflexivity|right; right; left; reflexivity|constructor].
  - split; [discriminate|exists 20%nat; vm_compute; reflexivity].
Qed.
(** And the theorems about any list_head to [own_list], where pointers are taken to be 4 bytes big. *)
Lemma own_sizes t z : c_size (computed_layout machine64 own_list) t z -> z <= 40.
Proof.
  intros [a E]. destruct (L_declared _ _ _ own_lawful _ _ E) as (d & D & _).
  exact (by_number own_list (fun t d => forall z a, computed_layout machine64 own_list t = Some (z, a) -> z <= 40)
    ltac:(each ltac:(let E := fresh in intros ? ? E; vm_compute in E; injection E as <- <-; discriminate)) _ _ D _ _ E).
Qed.
Lemma own_taken t z : taken_size own_list (computed_layout machine64 own_list) t z -> z <= 100.
Proof.
  intro T. destruct (taken_cases _ _ _ own_lawful _ _ T) as (y & a & E & X). assert (Y : y <= 40) by (apply (own_sizes t); exists a; exact E).
  destruct X as [[_ ->]|(_ & w & (h & pk & al & n & fs & zh & _ & _ & S & ->) & X)]; [lia|]. apply own_sizes in S. change (pointer_bytes machine64) with 8 in X.
  assert (zh / 2 <= 20) by (apply N.div_le_upper_bound; lia). nia.
Qed.
Example C79_taken_met : let c := build64 true in let layout := computed_layout machine64 own_list in
  lawful machine64 own_list layout /\ serves (rd (file_env own_img)) own_img /\ compiled machine64 own_list layout own_img /\ type_information_new (file_env own_img) = Ok own_ti /\
  sizes_within c own_list layout /\ (forall t z e y, c_size layout t z -> taken_size own_list layout e y -> 8 * (z + y) < 2 ^ 32) /\ (forall t, ~ is_tag own_list t) /\
  pointer_taken own_list layout 4 /\ c_size layout 4 32 /\ taken_size own_list layout 4 16 /\ size_of c own_ti 4 = Ok 16 /\
  ~ of_pointers own_list 5 /\ c_size layout 5 40 /\ size_of c own_ti 5 = Ok 40 /\
  reaches true (taken_size own_list layout) machine64 own_list layout 5 [Name (s "slots"); Index 1] 2 (ByteOffset 4) /\ offset_of_returns c own_ti 5 (s "slots[1]") (Ok (2, ByteOffset 4)).
Proof.
  cbv zeta.
  assert (PT : pointer_taken own_list (computed_layout machine64 own_list) 4).
  { exists 3, false, 1. do 3 eexists. split; [|split; [split; [discriminate|reflexivity]|split; [eexists; vm_compute; reflexivity|reflexivity]]].
    split; [eexists; split; [split; [discriminate|reflexivity]|reflexivity]|].
    apply (by_number own_list (fun t d => c_name d = Some (s "list_head") -> t <= 3)). each ltac:(let E := fresh in intro E; (discriminate || discriminate E)). }
  assert (T2 : taken_size own_list (computed_layout machine64 own_list) 2 4) by (eapply tk_pointer; [split; [discriminate|reflexivity]|exact PT]).
  split; [exact own_lawful|]. split; [apply file_serves|]. split; [exact own_compiled|]. split; [exact own_loads|].
  split; [apply (C79_taken_fits machine64); [exact own_lawful|discriminate|reflexivity]|].
  split; [intros t z e y Z Y; apply own_sizes in Z; apply own_taken in Y; lia|]. split.
  { intros t (x & u & D). assert (K : forall t d, declared own_list t d -> match d with CTag _ _ => False | _ => True end) by (apply by_number; each ltac:(exact I)). exact (K _ _ D). }
  split; [exact PT|]. split; [eexists; vm_compute; reflexivity|]. split; [|split; [vm_compute; reflexivity|split; [|split; [eexists; vm_compute; reflexivity|split; [vm_compute; reflexivity|split]]]]].
  - change 16 with (4 * 4). eapply tk_array; [split; [discriminate|reflexivity]|exact T2].
  - intro O. assert (D : declared own_list 5 (CAggregate false false 1 (nm "table") [member_ (nm "slots") 4; member_ (nm "n") 1])) by (split; [discriminate|reflexivity]).
    exact (points_to_pointers _ _ _ O D).
  - change (ByteOffset 4) with (shift 0 (shift (1 * 4) (ByteOffset 0))). eapply d_member; [exists 5; split; [constructor|split; [discriminate|reflexivity]]|vm_compute; reflexivity|left; reflexivity|].
    eapply d_element; [exists 4; split; [constructor|split; [discriminate|reflexivity]]|reflexivity|exact T2|constructor].
  - split; [discriminate|exists 20%nat; vm_compute; reflexivity].
Qed.
