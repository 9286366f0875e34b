(** * PropTag: type tags (C77).  A compiler marks what a pointer points to with __user, __rcu or __percpu by a type tag, which in C changes
    nothing ([designates], [c_is true] in CSpec.v see through it). *)
From Coq Require Import Strings.String.
From Coq Require Import List NArith ZArith Bool Lia Strings.Byte.
From Verif Require Import TypeInfo Spec BaseFacts PathSpec Path PathGrammar PathPrint QuerySpec Chains Sizes Follow Offsets Offsets2 OffsetOf OffsetOf2 Encode Maps LoadProps Witness Sample
  PropPath PropQuery PropOffset CSpec CFacts PropC.
Import ListNotations.
Open Scope N_scope.

(** ** C77 *)
(** For every table: size_of sees through a tag; offset_of and pointee_tid always refuse it, also behind typedefs and qualifiers. *)
Theorem C77_tag_partial : forall c ti t r h d, chain (alias ti) t r -> from_id ti r = Some (TTypeTag h d) ->
  size_of c ti t = size_of c ti (nl_tid d) /\
  (forall p, valid_utf8 p -> p <> [] -> offset_of_returns c ti t p (Err InvalidTypePath)) /\
  pointee_tid ti t = Err InvalidTypeID.
Proof.
  intros c ti t r h d C F. split; [|split].
  - induction C as [r|t u r A C IH].
    + apply C34_size_of. exists (TTypeTag h d). split; [exact F|right; left; eauto].
    + rewrite <- (IH F). apply C34_size_of. destruct A as (ty & E & Q). exists ty. split; [exact E|left; exact Q].
  - intros p V Hne. assert (T : is ti t (TTypeTag h d)).
    { exists r. split; [|apply opaque_iff; split; [exact F|exact I]]. clear F. induction C as [|t u r (ty & E & Q) C IH]; [constructor|].
      econstructor; [|exact IH]. exists ty. split; [exact E|left; exact Q]. }
    destruct (C36_first_component c ti t p _ V T) as [A1 A2]. destruct (script_of c p V) as (cs & e & S & He). destruct cs as [|x cs].
    + destruct He as [->| ->].
      * exfalso. apply Hne. apply (proj1 (reads_nil (usize_max c) p)). apply script_reads; assumption.
      * apply offset_of_first_malformed; [exact V|]. apply malformed_script; assumption.
    + assert (B : begins c p [x]) by (eapply (script_begins c p [x] cs e); [exact V|exact S]).
      destruct x as [i|n]; [exact (A1 i B I)|apply (A2 n B)]. intros (ms & []).
  - induction C as [r|t u r A C IH].
    + destruct (C31_pointee ti r) as [_ P2]. apply P2.
      * intro X. apply endless_head in X. destruct X as (u & ty & E & Q). rewrite F in E. injection E as <-. destruct Q.
      * intros u (p & h' & d' & C & E & _). inversion C as [|? ? ? (ty & E' & Q)]; subst; [congruence|]. rewrite F in E'. injection E' as <-. destruct Q.
    + rewrite (C34_pointee _ _ _ A). exact (IH F).
Qed.
Print Assumptions C77_tag_partial.

(** [task_t __rcu *current]: 18 is the pointer, 17 the tag, 8 the typedef; 24 is a tag of a pointer ([task_t __rcu * __user *]). *)
Theorem C77_tags_refuted : let layout := computed_layout machine64 kernel in
  legal machine64 kernel layout /\ compiled machine64 kernel layout kernel_img /\ type_information_new (file_env kernel_img) = Ok kernel_ti /\
  pointee_tid kernel_ti 18 = Ok 17 /\
  designates machine64 kernel layout 17 [Name (s "pid")] 1 (ByteOffset 4) /\
  offset_of_returns (build64 true) kernel_ti 8 (s "pid") (Ok (1, ByteOffset 4)) /\ (forall c, offset_of_returns c kernel_ti 17 (s "pid") (Err InvalidTypePath)) /\
  pointee_tid kernel_ti 25 = Ok 24 /\ c_is true kernel 24 (CPointer 17) /\ pointee_tid kernel_ti 24 = Err InvalidTypeID.
Proof.
  cbv zeta. split; [exact kernel_legal|]. split; [exact kernel_compiled|]. split; [exact kernel_loads|]. split; [vm_compute; reflexivity|].
  assert (D17 : c_is true kernel 17 (CAggregate false false 1 (nm "task") [member_ (nm "state") 2; member_ (nm "pid") 1; bits_ (nm "flags") 1 3; bits_ (nm "more") 1 30;
      member_ None 6; member_ (nm "comm") 5; member_ (nm "list") 4])).
  { exists 7. split; [|split; [discriminate|reflexivity]]. apply (chain_step _ 17 8); [eexists; split; [split; [discriminate|reflexivity]|split; reflexivity]|].
    apply (chain_step _ 8 7); [eexists; split; [split; [discriminate|reflexivity]|reflexivity]|]. constructor. }
  split; [change (ByteOffset 4) with (shift 4 (ByteOffset 0)); eapply d_member; [exact D17|vm_compute; reflexivity|right; left; reflexivity|constructor]|].
  split; [split; [discriminate|exists 20%nat; vm_compute; reflexivity]|].
  split. { intro c. assert (F : exists h d, from_id kernel_ti 17 = Some (TTypeTag h d)) by (do 2 eexists; vm_compute; reflexivity). destruct F as (h & d & F).
    destruct (C77_tag_partial c kernel_ti 17 17 h d (chain_here _ 17) F) as (_ & X & _). apply X; [literal|discriminate]. }
  split; [vm_compute; reflexivity|]. split; [|vm_compute; reflexivity].
  exists 18. split; [|split; [discriminate|reflexivity]]. apply (chain_step _ 24 18); [eexists; split; [split; [discriminate|reflexivity]|split; reflexivity]|]. constructor.
Qed.
Print Assumptions C77_tags_refuted.

(** In the file of a legal program: the tags can be taken off by hand, and then everything is as in C. *)
Definition tag_of (ti : type_information) (t u : N) : Prop := exists h d, from_id ti t = Some (TTypeTag h d) /\ nl_tid d = u.
Lemma tag_or_not P t : is_tag P t \/ ~ is_tag P t.
Proof.
  destruct (declared_or_not P t) as [[d D]|D]; [|right; intros (n & u & X); exact (D _ X)].
  destruct d; try (right; intros (n' & u' & X); pose proof (declared_det _ _ _ _ D X); discriminate). left. do 2 eexists. exact D.
Qed.
Lemma untag_is P t n u d : declared P t (CTag n u) -> (forall n' u', d <> CTag n' u') -> (c_is true P t d <-> c_is true P u d).
Proof.
  intros D N. split.
  - intros (r & C & Dr). inversion C as [|x y z (d' & D' & E) C']; subst.
    + pose proof (declared_det _ _ _ _ D Dr) as X. destruct (N _ _ (eq_sym X)).
    + pose proof (declared_det _ _ _ _ D D') as <-. destruct E as [_ <-]. exists r. auto.
  - intros (r & C & Dr). exists r. split; [|exact Dr]. econstructor; [|exact C]. eexists. split; [exact D|]. split; reflexivity.
Qed.
Lemma untag_designates m P L t n u : declared P t (CTag n u) -> forall x cs v o, designates m P L t (x :: cs) v o <-> designates m P L u (x :: cs) v o.
Proof.
  intros D x cs v o.
  assert (A : forall e y k, c_is true P t (CArray e y k) <-> c_is true P u (CArray e y k)) by (intros; eapply untag_is; [exact D|discriminate]).
  assert (B : forall un pk al nm fs, c_is true P t (CAggregate un pk al nm fs) <-> c_is true P u (CAggregate un pk al nm fs)) by (intros; eapply untag_is; [exact D|discriminate]).
  split; intro H; inversion H; subst;
    match goal with
    | X : c_is true P _ (CArray _ _ _) |- _ => apply A in X; eapply d_element; eassumption
    | X : c_is true P _ (CAggregate _ _ _ _ _), Y : In (Some _, _, ByteOffset _) _ |- _ => apply B in X; eapply d_member; eassumption
    | X : c_is true P _ (CAggregate _ _ _ _ _), Y : In (Some _, _, BitOffsetAndSize _ _) _ |- _ => apply B in X; eapply d_bitfield; eassumption
    | X : c_is true P _ (CAggregate _ _ _ _ _), Y : In (None, _, ByteOffset _) _ |- _ => apply B in X; eapply d_anonymous; eassumption
    end.
Qed.
Theorem C77_untagged_partial : forall m P L e img ti c t, legal m P L -> loadable (cfg e) img -> serves (rd e) img -> compiled m P L img -> type_information_new e = Ok ti ->
  32 <= usize_bits c -> exists r, chain (tag_of ti) t r /\ ~ is_tag P r /\ (~ is_tag P t -> r = t) /\
  (forall z, size_of c ti r = Ok z <-> exists a, L t = Some (z, a)) /\
  (forall u, pointee_tid ti r = Ok u <-> c_is true P t (CPointer u)) /\
  (forall p u o, valid_utf8 p -> p <> [] -> (offset_of_returns c ti r p (Ok (u, o)) <-> exists cs, reads_as (usize_max c) p cs /\ designates m P L t cs u o)).
Proof.
  intros m P L e img ti c t LG U SV C ET UC. revert t.
  apply (by_rank _ _ _ LG (fun t => exists r, chain (tag_of ti) t r /\ ~ is_tag P r /\ (~ is_tag P t -> r = t) /\
    (forall z, size_of c ti r = Ok z <-> exists a, L t = Some (z, a)) /\ (forall u, pointee_tid ti r = Ok u <-> c_is true P t (CPointer u)) /\
    (forall p u o, valid_utf8 p -> p <> [] -> (offset_of_returns c ti r p (Ok (u, o)) <-> exists cs, reads_as (usize_max c) p cs /\ designates m P L t cs u o)))).
  intros t IH. destruct (tag_or_not P t) as [(n & v & D)|Z].
  - destruct (IH _ v D (or_introl eq_refl)) as (r & CH & Z & _ & I1 & I2 & I3). exists r. split; [|split; [exact Z|split; [|split; [|split]]]].
    + econstructor; [|exact CH]. destruct (td_has _ _ _ _ (program_table _ _ _ _ _ _ LG U SV C ET) _ _ D) as (ty & w & F & V).
      destruct ty; cbn [view describe] in V; try discriminate V. injection V as _ V. do 2 eexists. split; [exact F|exact V].
    + intro X. destruct X. do 2 eexists. exact D.
    + intro z. rewrite (L_is _ _ _ LG _ _ D). exact (I1 z).
    + intro u. rewrite (I2 u). symmetry. eapply untag_is; [exact D|discriminate].
    + intros p u o Vp Np. rewrite (I3 p u o Vp Np). split; intros (cs & RA & X); exists cs; (split; [exact RA|]);
        (destruct cs as [|x cs]; [destruct Np; apply (reads_nil (usize_max c)); exact RA|]); [apply (untag_designates m P L t n v D)|apply (untag_designates m P L t n v D) in X]; exact X.
  - exists t. split; [constructor|]. split; [exact Z|]. split; [reflexivity|]. split; [|split].
    + intro z. exact (C76_size_of m P L e img ti c t z LG U SV C ET UC).
    + intro u. exact (C76_pointee m P L e img ti t u LG U SV C ET Z).
    + intros p u o Vp _. exact (C76_offset_of m P L e img ti c t p u o LG U SV C ET UC Z Vp).
Qed.
Print Assumptions C77_untagged_partial.
Example C77_met : (exists h d, chain (alias kernel_ti) 17 17 /\ from_id kernel_ti 17 = Some (TTypeTag h d) /\ nl_tid d = 8) /\
  legal machine64 kernel (computed_layout machine64 kernel) /\ loadable (cfg (file_env kernel_img)) kernel_img /\ serves (rd (file_env kernel_img)) kernel_img /\
  compiled machine64 kernel (computed_layout machine64 kernel) kernel_img /\ type_information_new (file_env kernel_img) = Ok kernel_ti /\ is_tag kernel 17.
Proof.
  split; [do 2 eexists; split; [constructor|split; vm_compute; reflexivity]|].
  split; [exact kernel_legal|]. split; [left; reflexivity|]. split; [apply file_serves|]. split; [exact kernel_compiled|]. split; [exact kernel_loads|].
  do 2 eexists. split; [discriminate|reflexivity].
Qed.
