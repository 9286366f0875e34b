(** * Sizes: pointee_tid and size_of (C28 - C31). *)
From Coq Require Import Lia ZifyBool ZifyNat ZifyN.
From Verif Require Import TypeInfo BaseFacts Spec QuerySpec Chains.

(** ** pointee_tid *)
Lemma alias_det ti a b b' : alias ti a b -> alias ti a b' -> b = b'.
Proof.
  intros (ty & H & Q) (ty' & H' & Q'). rewrite H in H'. injection H' as <-. destruct ty; cbn in Q, Q'; try contradiction; congruence.
Qed.
Lemma alias_known ti a b : alias ti a b -> In a (known ti).
Proof. intros (ty & H & Q). eapply from_id_known; [exact H|]. intros ->. exact Q. Qed.
Ltac use_alias ti t u := assert (alias ti t u) by (eexists; split; [eassumption|reflexivity]).
Lemma pointee_mono ti n : forall t, pointee_tid_fuel n ti t <> Diverge -> pointee_tid_fuel (S n) ti t = pointee_tid_fuel n ti t.
Proof.
  induction n as [|n IH]; intros t H; [exfalso; apply H; reflexivity|]. cbn [pointee_tid_fuel] in H |- *. destruct (from_id ti t) as [ty|]; [|reflexivity].
  destruct ty; try reflexivity; apply IH; exact H.
Qed.
Lemma pointee_walk ti n : forall t, pointee_tid_fuel n ti t = Diverge -> walk (alias ti) n t.
Proof.
  induction n as [|n IH]; intros t H; [apply walk_O|]. cbn [pointee_tid_fuel] in H. destruct (from_id ti t) as [ty|] eqn:E; [|discriminate].
  destruct ty; try discriminate H; (eapply walk_S; [exists (ltac:(match type of E with _ = Some ?y => exact y end)); split; [exact E|reflexivity]|apply IH; exact H]).
Qed.
Lemma pointee_endless ti n : forall t, endless (alias ti) t -> pointee_tid_fuel n ti t = Diverge.
Proof.
  induction n as [|n IH]; intros t H; [reflexivity|]. destruct (endless_head _ _ H) as [u Hu].
  pose proof (endless_step _ _ _ (alias_det ti) Hu H) as H'. cbn [pointee_tid_fuel]. destruct Hu as (ty & E & Q). rewrite E.
  destruct ty; cbn in Q; try contradiction; subst u; apply IH; exact H'.
Qed.
Lemma pointee_ok ti n : forall t u, pointee_tid_fuel n ti t = Ok u -> points_to ti t u.
Proof.
  induction n as [|n IH]; intros t u H; [discriminate|]. cbn [pointee_tid_fuel] in H. destruct (from_id ti t) as [ty|] eqn:E; [|discriminate].
  destruct ty; try discriminate H;
  try (apply IH in H; destruct H as (p & h0 & d0 & Hc & Hp & Hd); exists p, h0, d0; split; [|auto]; eapply chain_step; [|exact Hc]; eexists; split; [exact E|reflexivity]).
  injection H as <-. exists t, h, d. split; [constructor|auto].
Qed.
Lemma pointee_other ti n : forall t, match pointee_tid_fuel n ti t with Err k => k = InvalidTypeID | Panic _ => False | _ => True end.
Proof.
  induction n as [|n IH]; intros t; [exact I|]. cbn [pointee_tid_fuel]. destruct (from_id ti t) as [ty|]; [|reflexivity].
  destruct ty; try reflexivity; try exact I; apply IH.
Qed.
Lemma pointee_some ti t u : points_to ti t u -> exists n, pointee_tid_fuel n ti t = Ok u.
Proof.
  intros (p & h & d & Hc & Hp & Hd). induction Hc as [t|t v p Hr _ IH].
  - exists 1%nat. cbn [pointee_tid_fuel]. rewrite Hp, Hd. reflexivity.
  - destruct (IH Hp) as [n Hn]. exists (S n). cbn [pointee_tid_fuel]. destruct Hr as (ty & E & Q). rewrite E.
    destruct ty; cbn in Q; try contradiction; subst v; exact Hn.
Qed.
Theorem pointee_spec ti t :
  (forall u, pointee_tid ti t = Ok u <-> points_to ti t u) /\
  (pointee_tid ti t = Diverge <-> endless (alias ti) t) /\
  match pointee_tid ti t with Err k => k = InvalidTypeID | Panic _ => False | _ => True end.
Proof.
  unfold pointee_tid. split; [|split].
  - intros u. split; [apply pointee_ok|]. intros H. apply pointee_some in H. destruct H as [n H].
    apply (settled ti (alias ti) (fun n t => pointee_tid_fuel n ti t) (alias_known ti) (pointee_mono ti) (pointee_walk ti) (pointee_endless ti) n); [exact H|discriminate].
  - apply (diverge_endless ti (alias ti) (fun n t => pointee_tid_fuel n ti t) (alias_known ti) (pointee_mono ti) (pointee_walk ti) (pointee_endless ti)).
  - apply pointee_other.
Qed.

(** ** size_of *)
Lemma size_alias_det ti a b b' : size_alias ti a b -> size_alias ti a b' -> b = b'.
Proof.
  intros (ty & H & Q) (ty' & H' & Q'). rewrite H in H'. injection H' as <-.
  destruct Q as [Q|[(h & d & -> & Q)|(h & d & -> & Q)]], Q' as [Q'|[(h' & d' & E' & Q')|(h' & d' & E' & Q')]]; cbn in *; try contradiction; try discriminate; try congruence; try (subst ty; contradiction).
  destruct ty; cbn in Q, Q'; try contradiction; congruence.
Qed.
Lemma size_link_cases ti a b : size_link ti a b -> exists ty, from_id ti a = Some ty /\
  match ty with
  | TTypedef _ d | TTypeTag _ d => nl_tid d = b
  | TConst _ d | TVolatile _ d | TRestrict _ d => link_tid d = b
  | TVar _ d => var_tid d = b
  | TArray _ d => element_tid d = b
  | _ => False end.
Proof.
  intros [(ty & H & [Q|[(h & d & -> & Q)|(h & d & -> & Q)]])|(n & h & d & H & Q & _)]; eexists; (split; [exact H|]); auto.
  destruct ty; cbn in Q; try contradiction; exact Q.
Qed.
Lemma size_link_det ti a b b' : size_link ti a b -> size_link ti a b' -> b = b'.
Proof.
  intros H H'. apply size_link_cases in H, H'. destruct H as (ty & H & Q), H' as (ty' & H' & Q'). rewrite H in H'. injection H' as <-.
  destruct ty; try contradiction; congruence.
Qed.
Lemma size_link_known ti a b : size_link ti a b -> In a (known ti).
Proof. intros H. apply size_link_cases in H. destruct H as (ty & H & Q). eapply from_id_known; [exact H|]. intros ->. exact Q. Qed.
Lemma size_alias_of ti t ty u : from_id ti t = Some ty ->
  match ty with
  | TTypedef _ d | TTypeTag _ d => nl_tid d = u
  | TConst _ d | TVolatile _ d | TRestrict _ d => link_tid d = u
  | TVar _ d => var_tid d = u
  | _ => False end -> size_alias ti t u.
Proof.
  intros H Q. exists ty. split; [exact H|]. destruct ty; try contradiction; auto; right; [right|left]; eauto.
Qed.
Lemma array_of_of ti t h d : from_id ti t = Some (TArray h d) -> array_of ti t (element_tid d) (element_count d).
Proof. intros H. exists h, d. auto. Qed.

Lemma mul_usize_fits {E} c x y : x * y < 2 ^ usize_bits c -> @mul_usize E c x y = Ok (x * y).
Proof. intros H. unfold mul_usize, wrap_or_panic, two_pow. replace (x * y <? 2 ^ usize_bits c) with true by lia. reflexivity. Qed.
Lemma mul_usize_big {E} c x y : 2 ^ usize_bits c <= x * y ->
  @mul_usize E c x y = if overflow_checks c then Panic ArithmeticOverflow else Ok ((x * y) mod 2 ^ usize_bits c).
Proof. intros H. unfold mul_usize, wrap_or_panic, two_pow. replace (x * y <? 2 ^ usize_bits c) with false by lia. reflexivity. Qed.
Lemma mul_usize_not_diverge {E} c x y : @mul_usize E c x y <> Diverge.
Proof. unfold mul_usize, wrap_or_panic. destruct (_ <? _); [discriminate|]. destruct (overflow_checks c); discriminate. Qed.
Lemma mul_usize_not_err {E} c x y k : @mul_usize E c x y <> Err k.
Proof. unfold mul_usize, wrap_or_panic. destruct (_ <? _); [discriminate|]. destruct (overflow_checks c); discriminate. Qed.
Lemma obind_diverge {E A B} (m : outcome E A) (f : A -> outcome E B) : obind m f = Diverge -> m = Diverge \/ exists a, m = Ok a /\ f a = Diverge.
Proof. destruct m; cbn; intros H; try discriminate; eauto. Qed.
Lemma pointer_size_cases ti : match pointer_size ti with
  | Ok s => pointer_sized ti s | Err k => k = InvalidTypeID /\ (forall s, ~ pointer_sized ti s) | _ => False end.
Proof.
  unfold pointer_size, pointer_sized. destruct (id_of ti list_head_str) as [lh|].
  2:{ split; [reflexivity|]. intros s (lh & h & d & H & _). discriminate. }
  destruct (from_id ti lh) as [ty|] eqn:E.
  2:{ split; [reflexivity|]. intros s (lh' & h & d & H & H' & _). congruence. }
  destruct ty; try (split; [reflexivity|]; intros s (lh' & h' & d' & H & H' & _); injection H as <-; congruence).
  exists lh, h, d. auto.
Qed.
Lemma pointer_sized_det ti s s' : pointer_sized ti s -> pointer_sized ti s' -> s = s'.
Proof. intros (lh & h & d & H & H' & ->) (lh' & h' & d' & G & G' & ->). congruence. Qed.

Lemma size_mono c ti n : forall t, size_of_fuel n c ti t <> Diverge -> size_of_fuel (S n) c ti t = size_of_fuel n c ti t.
Proof.
  induction n as [|n IH]; intros t H; [exfalso; apply H; reflexivity|]. cbn [size_of_fuel] in H |- *. destruct (from_id ti t) as [ty|]; [|reflexivity].
  destruct ty; try reflexivity; try (apply IH; exact H).
  specialize (IH (element_tid d)). cbn [size_of_fuel] in IH. rewrite IH; [reflexivity|]. intros G. apply H. rewrite G. reflexivity.
Qed.
Lemma size_walk c ti n : forall t, size_of_fuel n c ti t = Diverge -> walk (size_link ti) n t.
Proof.
  induction n as [|n IH]; intros t H; [apply walk_O|]. cbn [size_of_fuel] in H. destruct (from_id ti t) as [ty|] eqn:E; [|discriminate].
  destruct ty; try discriminate H;
  try (eapply walk_S; [left; eapply size_alias_of; [exact E|reflexivity]|apply IH; exact H]).
  - pose proof (pointer_size_cases ti) as P. rewrite H in P. destruct P.
  - eapply walk_S; [right; eexists; eapply array_of_of; exact E|]. apply IH. apply obind_diverge in H.
    destruct H as [H|(a & _ & H)]; [exact H|]. apply mul_usize_not_diverge in H. destruct H.
Qed.
Lemma size_endless c ti n : forall t, endless (size_link ti) t -> size_of_fuel n c ti t = Diverge.
Proof.
  induction n as [|n IH]; intros t H; [reflexivity|]. destruct (endless_head _ _ H) as [u Hu].
  pose proof (endless_step _ _ _ (size_link_det ti) Hu H) as H'. cbn [size_of_fuel]. apply size_link_cases in Hu. destruct Hu as (ty & E & Q). rewrite E.
  destruct ty; try contradiction; subst u; rewrite IH by exact H'; reflexivity.
Qed.
Definition size_settled c ti n t r := settled ti (size_link ti) (fun n t => size_of_fuel n c ti t) (size_link_known ti) (size_mono c ti) (size_walk c ti) (size_endless c ti) n t r.
Lemma size_diverge c ti t : size_of c ti t = Diverge <-> endless (size_link ti) t.
Proof. apply (diverge_endless ti (size_link ti) (fun n t => size_of_fuel n c ti t) (size_link_known ti) (size_mono c ti) (size_walk c ti) (size_endless c ti)). Qed.

(** one unfolding of size_of *)
Lemma size_of_unfold c ti t : size_of c ti t =
  match from_id ti t with
  | None => Err InvalidTypeID
  | Some ty =>
      match ty with
      | TPtr _ _ => pointer_size ti
      | TArray _ d => obind (size_of c ti (element_tid d)) (fun s => mul_usize c s (element_count d))
      | TFloat _ d => Ok (float_size d)
      | TInt _ d => Ok (int_size d)
      | TEnum _ d => Ok (enum_size d)
      | TEnum64 _ d => Ok (enum_size d)
      | TStruct _ d => Ok (struct_size d)
      | TUnion _ d => Ok (struct_size d)
      | TDataSec _ d => Ok (ds_size d)
      | TVar _ d => size_of c ti (var_tid d)
      | TTypedef _ d | TTypeTag _ d => size_of c ti (nl_tid d)
      | TConst _ d | TVolatile _ d | TRestrict _ d => size_of c ti (link_tid d)
      | _ => Err NotSized
      end
  end.
Proof.
  assert (S1 : size_of c ti t = size_of_fuel (S (chain_fuel ti)) c ti t).
  { destruct (size_of c ti t) eqn:D; try (unfold size_of in D; rewrite size_mono; rewrite D; [reflexivity|discriminate]).
    apply size_diverge in D. symmetry. apply size_endless. exact D. }
  rewrite S1. cbn [size_of_fuel]. unfold size_of. destruct (from_id ti t) as [ty|]; [|reflexivity]. destruct ty; reflexivity.
Qed.

Lemma has_size_impl ti (P Q : N -> Prop) t s : (forall n, P n -> Q n) -> has_size ti P t s -> has_size ti Q t s.
Proof.
  intros H. induction 1 as [t ty s E Q0|t h d s E Q0|t e n s HA Hs IH HP|t u s HA Hs IH].
  - eapply size_stored; eassumption.
  - eapply size_pointer; eassumption.
  - eapply size_array; [exact HA|exact IH|apply H; exact HP].
  - eapply size_same; [exact HA|exact IH].
Qed.
Lemma has_size_cases ti P t s : has_size ti P t s -> exists ty, from_id ti t = Some ty /\
  match ty with
  | TPtr _ _ => pointer_sized ti s
  | TArray _ d => exists s0, has_size ti P (element_tid d) s0 /\ s = s0 * element_count d /\ P s
  | TFloat _ d => s = float_size d
  | TInt _ d => s = int_size d
  | TEnum _ d | TEnum64 _ d => s = enum_size d
  | TStruct _ d | TUnion _ d => s = struct_size d
  | TDataSec _ d => s = ds_size d
  | TVar _ d => has_size ti P (var_tid d) s
  | TTypedef _ d | TTypeTag _ d => has_size ti P (nl_tid d) s
  | TConst _ d | TVolatile _ d | TRestrict _ d => has_size ti P (link_tid d) s
  | _ => False
  end.
Proof.
  intros H. destruct H as [t ty s H Q|t h d s H Q|t e n s (h & d & H & <- & <-) Hs HP|t u s H Hs].
  - exists ty. split; [exact H|]. destruct ty; cbn in Q; try contradiction; auto.
  - exists (TPtr h d). auto.
  - exists (TArray h d). split; [exact H|]. exists s. auto.
  - assert (HL : size_link ti t u) by (left; exact H). apply size_link_cases in HL. destruct HL as (ty & E & Q). exists ty. split; [exact E|].
    destruct ty; try contradiction; subst u; try exact Hs.
    destruct H as (ty' & E' & H). rewrite E in E'. injection E' as <-. cbn in H. destruct H as [H|[(?&?&H&_)|(?&?&H&_)]]; [destruct H|discriminate|discriminate].
Qed.
Lemma size_exists_fuel c ti t s : has_size ti (fun n => n < 2 ^ usize_bits c) t s -> size_of c ti t = Ok s.
Proof.
  induction 1 as [t ty s H Q|t h d s H Q|t e n s (h & d & H & <- & <-) Hs IH HP|t u s H Hs IH]; rewrite size_of_unfold.
  - rewrite H. destruct ty; cbn in Q; try contradiction; congruence.
  - rewrite H. pose proof (pointer_size_cases ti) as C. destruct (pointer_size ti).
    + f_equal. eapply pointer_sized_det; eassumption.
    + destruct C as [_ C]. destruct (C s Q).
    + destruct C.
    + destruct C.
  - rewrite H, IH. cbn [obind]. apply mul_usize_fits. exact HP.
  - assert (HL : size_link ti t u) by (left; exact H). apply size_link_cases in HL. destruct HL as (ty & E & Q). rewrite E.
    destruct ty; try contradiction; subst u; try exact IH.
    destruct H as (ty' & E' & H). rewrite E in E'. injection E' as <-. cbn in H. destruct H as [H|[(?&?&H&_)|(?&?&H&_)]]; [destruct H|discriminate|discriminate].
Qed.
Lemma size_det ti P t s s' : has_size ti P t s -> has_size ti P t s' -> s = s'.
Proof.
  intros Hs. revert s'. induction Hs as [t ty s H Q|t h d s H Q|t e n s (h & d & H & <- & <-) Hs IH HP|t u s H Hs IH]; intros s1 G;
  apply has_size_cases in G; destruct G as (ty' & E' & G).
  - rewrite H in E'. injection E' as <-. destruct ty; cbn in Q; try contradiction; congruence.
  - rewrite H in E'. injection E' as <-. eapply pointer_sized_det; eassumption.
  - rewrite H in E'. injection E' as <-. destruct G as (s2 & G & -> & _). f_equal. apply IH. exact G.
  - assert (HL : size_link ti t u) by (left; exact H). apply size_link_cases in HL. destruct HL as (ty & E & Q). rewrite E in E'. injection E' as <-.
    destruct ty; try contradiction; subst u; try (apply IH; exact G).
    destruct H as (ty' & E' & H). rewrite E in E'. injection E' as <-. cbn in H. destruct H as [H|[(?&?&H&_)|(?&?&H&_)]]; [destruct H|discriminate|discriminate].
Qed.
Definition wraps (c : build) (a b : N) : Prop := a mod 2 ^ usize_bits c = b mod 2 ^ usize_bits c.
Lemma size_fuel_sound c ti n : forall t, match size_of_fuel n c ti t with
  | Ok s => if overflow_checks c then has_size ti (fun n => n < 2 ^ usize_bits c) t s
            else exists s0, size ti t s0 /\ wraps c s s0
  | Err k => no_size ti t k
  | Panic p => p = ArithmeticOverflow /\ overflow_checks c = true /\ exists s0, size ti t s0 /\ ~ has_size ti (fun n => n < 2 ^ usize_bits c) t s0
  | Diverge => True end.
Proof.
  assert (NSalias : forall t u k, size_link ti t u -> no_size ti u k -> no_size ti t k).
  { intros t u k HL G. destruct G as [u v Hc H|u v h d Hc H Hp|u v ty Hc H Hp].
    - eapply no_unknown; [eapply chain_step; eassumption|exact H].
    - eapply no_pointer; [eapply chain_step; eassumption|exact H|exact Hp].
    - eapply no_unsized; [eapply chain_step; eassumption|exact H|exact Hp]. }
  induction n as [|n IH]; intros t; [exact I|]. cbn [size_of_fuel]. destruct (from_id ti t) as [ty|] eqn:E.
  2:{ eapply no_unknown; [constructor|exact E]. }
  assert (ST : forall s, stored_size ty s -> if overflow_checks c then has_size ti (fun n => n < 2 ^ usize_bits c) t s else exists s0, size ti t s0 /\ wraps c s s0).
  { intros s Hs. destruct (overflow_checks c); [eapply size_stored; eassumption|]. exists s. split; [eapply size_stored; eassumption|reflexivity]. }
  assert (US : unsized ty -> no_size ti t NotSized) by (intros Hu; eapply no_unsized; [constructor|exact E|exact Hu]).
  assert (AL : forall u, size_alias ti t u -> match size_of_fuel n c ti u with
    | Ok s => if overflow_checks c then has_size ti (fun n => n < 2 ^ usize_bits c) t s else exists s0, size ti t s0 /\ wraps c s s0
    | Err k => no_size ti t k
    | Panic p => p = ArithmeticOverflow /\ overflow_checks c = true /\ exists s0, size ti t s0 /\ ~ has_size ti (fun n => n < 2 ^ usize_bits c) t s0
    | Diverge => True end).
  { intros u Hu. specialize (IH u). destruct (size_of_fuel n c ti u) as [s|k|p|]; [| |  |exact I].
    - destruct (overflow_checks c); [eapply size_same; eassumption|]. destruct IH as (s0 & Hs & Hw). exists s0. split; [eapply size_same; eassumption|exact Hw].
    - eapply NSalias; [left; exact Hu|exact IH].
    - destruct IH as (-> & Hc & s0 & Hs & Hn). split; [reflexivity|]. split; [exact Hc|]. exists s0. split; [eapply size_same; eassumption|].
      intros G. apply Hn. apply has_size_cases in G. destruct G as (ty' & E' & G). rewrite E in E'. injection E' as <-.
      assert (HL : size_link ti t u) by (left; exact Hu). apply size_link_cases in HL. destruct HL as (ty2 & E2 & Q). rewrite E in E2. injection E2 as <-.
      destruct ty; try contradiction; subst u; try exact G.
      destruct Hu as (ty' & E' & H). rewrite E in E'. injection E' as <-. cbn in H. destruct H as [H|[(?&?&H&_)|(?&?&H&_)]]; [destruct H|discriminate|discriminate]. }
  destruct ty; try (apply ST; reflexivity); try (apply US; exact I);
  try (apply AL; eapply size_alias_of; [exact E|reflexivity]).
  - pose proof (pointer_size_cases ti) as C. destruct (pointer_size ti) as [s|k|p|]; try contradiction.
    + destruct (overflow_checks c); [eapply size_pointer; eassumption|]. exists s. split; [eapply size_pointer; eassumption|reflexivity].
    + destruct C as [-> C]. eapply no_pointer; [constructor|exact E|exact C].
  - specialize (IH (element_tid d)). pose proof (array_of_of ti t h d E) as HA.
    destruct (size_of_fuel n c ti (element_tid d)) as [s|k|p|]; cbn [obind]; [| |  |exact I].
    + destruct (N.ltb_spec (s * element_count d) (2 ^ usize_bits c)) as [Hlt|Hge].
      * rewrite mul_usize_fits by exact Hlt. destruct (overflow_checks c); [eapply size_array; eassumption|].
        destruct IH as (s0 & Hs & Hw). exists (s0 * element_count d). split; [eapply size_array; [eassumption|exact Hs|exact I]|].
        unfold wraps in *. rewrite N.mul_mod, Hw, <- N.mul_mod by (apply N.pow_nonzero; lia). reflexivity.
      * rewrite mul_usize_big by exact Hge. destruct (overflow_checks c) eqn:OC.
        -- split; [reflexivity|]. split; [reflexivity|]. exists (s * element_count d). split.
           { eapply size_array; [eassumption| |exact I]. eapply has_size_impl; [|exact IH]. auto. }
           intros G. apply has_size_cases in G. destruct G as (ty' & E' & G). rewrite E in E'. injection E' as <-. destruct G as (s0 & _ & _ & HP). lia.
        -- destruct IH as (s0 & Hs & Hw). exists (s0 * element_count d). split; [eapply size_array; [eassumption|exact Hs|exact I]|].
           unfold wraps in *. rewrite N.mod_mod by (apply N.pow_nonzero; lia). rewrite N.mul_mod, Hw, <- N.mul_mod by (apply N.pow_nonzero; lia). reflexivity.
    + eapply NSalias; [right; eexists; exact HA|exact IH].
    + destruct IH as (-> & Hc & s0 & Hs & Hn). split; [reflexivity|]. split; [exact Hc|]. exists (s0 * element_count d). split; [eapply size_array; [eassumption|exact Hs|exact I]|].
      intros G. apply has_size_cases in G. destruct G as (ty' & E' & G). rewrite E in E'. injection E' as <-. destruct G as (s1 & Hs1 & Eq & _).
      apply Hn. replace s0 with s1; [exact Hs1|].
      eapply size_det; [|exact Hs]. eapply has_size_impl; [|exact Hs1]. auto.
Qed.
Lemma chain_size_endless ti t u : chain (size_link ti) t u -> endless (size_link ti) t -> endless (size_link ti) u.
Proof. induction 1 as [t|t v u H _ IH]; intros G; [exact G|]. apply IH. eapply endless_step; [apply size_link_det|exact H|exact G]. Qed.
Lemma chain_size_unique ti t u v : chain (size_link ti) t u -> chain (size_link ti) t v ->
  (forall w, ~ size_link ti u w) -> (forall w, ~ size_link ti v w) -> u = v.
Proof.
  induction 1 as [t|t w u H Hc IH]; intros Hv Hu Hv'.
  - inversion Hv; subst; [reflexivity|]. exfalso. eapply Hu. eassumption.
  - inversion Hv as [|? w' ? H' Hc']; subst; [exfalso; eapply Hv'; eassumption|]. rewrite (size_link_det _ _ _ _ H H') in *. auto.
Qed.
Lemma no_size_end ti t k : no_size ti t k -> exists u, chain (size_link ti) t u /\ (forall w, ~ size_link ti u w) /\
  (forall c, size_of c ti u = Err k).
Proof.
  intros [? u Hc H|? u h d Hc H Hp|? u ty Hc H Hp]; exists u; (split; [exact Hc|]); split;
    try (intros w HL; apply size_link_cases in HL; destruct HL as (ty' & E & Q); rewrite H in E; try discriminate; injection E as <-); try exact Q;
    try (destruct ty; contradiction); intros c; rewrite size_of_unfold, H; try reflexivity.
  - pose proof (pointer_size_cases ti) as C. destruct (pointer_size ti) as [s|k'|p|]; try contradiction; [destruct (Hp s C)|destruct C as [-> _]; reflexivity].
  - destruct ty; try contradiction; reflexivity.
Qed.
Lemma size_of_chain_err c ti t u k : chain (size_link ti) t u -> size_of c ti u = Err k -> size_of c ti t = Err k.
Proof.
  induction 1 as [t|t v u H _ IH]; intros G; [exact G|]. specialize (IH G). rewrite size_of_unfold. apply size_link_cases in H. destruct H as (ty & E & Q). rewrite E.
  destruct ty; try contradiction; subst v; rewrite IH; reflexivity.
Qed.

Theorem size_of_spec c ti t :
  (forall s, has_size ti (fun n => n < 2 ^ usize_bits c) t s -> size_of c ti t = Ok s) /\
  (forall s, overflow_checks c = true -> size_of c ti t = Ok s -> has_size ti (fun n => n < 2 ^ usize_bits c) t s) /\
  (forall s, size_of c ti t = Ok s -> exists s0, size ti t s0 /\ wraps c s s0) /\
  (forall k, size_of c ti t = Err k <-> no_size ti t k) /\
  (forall p, size_of c ti t = Panic p -> p = ArithmeticOverflow /\ overflow_checks c = true /\
     exists s, size ti t s /\ ~ has_size ti (fun n => n < 2 ^ usize_bits c) t s) /\
  (size_of c ti t = Diverge <-> endless (size_link ti) t).
Proof.
  pose proof (size_fuel_sound c ti (chain_fuel ti) t) as H. change (size_of_fuel (chain_fuel ti) c ti t) with (size_of c ti t) in H.
  split; [|split; [|split; [|split; [|split]]]].
  - apply size_exists_fuel.
  - intros s Hc E. rewrite E, Hc in H. exact H.
  - intros s E. rewrite E in H. destruct (overflow_checks c); [|exact H]. exists s. split; [|reflexivity]. eapply has_size_impl; [|exact H]. auto.
  - intros k. split; [intros E; rewrite E in H; exact H|]. intros G. apply no_size_end in G. destruct G as (u & Hu & _ & Hc). eapply size_of_chain_err; [exact Hu|apply Hc].
  - intros p E. rewrite E in H. exact H.
  - apply size_diverge.
Qed.
(** positive sizes that fit are exact *)
Lemma size_positive ti c t s : size ti t s -> 0 < s -> s < 2 ^ usize_bits c -> has_size ti (fun n => n < 2 ^ usize_bits c) t s.
Proof.
  intros Hs. induction Hs as [t ty s H Q|t h d s H Q|t e n s HA Hs IH HP|t u s H Hs IH]; intros H0 Hlt.
  - eapply size_stored; eassumption.
  - eapply size_pointer; eassumption.
  - assert (s <> 0) by (intros ->; rewrite N.mul_0_l in H0; lia). assert (n <> 0) by (intros ->; rewrite N.mul_0_r in H0; lia).
    assert (s <= s * n) by (rewrite <- (N.mul_1_r s) at 1; apply N.mul_le_mono_l; lia).
    eapply size_array; [eassumption|apply IH; lia|exact Hlt].
  - eapply size_same; [eassumption|]. auto.
Qed.
