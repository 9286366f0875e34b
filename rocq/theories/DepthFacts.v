(** * DepthFacts: how many calls are active at once. *)
From Coq Require Import List NArith Bool Lia PeanoNat.
From Verif Require Import TypeInfo Cost Depth Spec BaseFacts PathSpec Path PathGrammar QuerySpec Chains Sizes Follow Offsets Offsets2 CostSpec CostFacts DepthSpec.
Import ListNotations.
Open Scope N_scope.

(** ** Same results *)
Lemma dbind_fst {E A B} (x : deep E A) (f : A -> deep E B) : fst (dbind x f) = obind (fst x) (fun a => fst (f a)).
Proof. unfold dbind. destruct (fst x); reflexivity. Qed.
Lemma pointee_deep_result n ti : forall t, fst (pointee_tid_deep n ti t) = pointee_tid_fuel n ti t.
Proof. induction n as [|n IH]; intros t; [reflexivity|]. cbn [pointee_tid_deep pointee_tid_fuel]. destruct (from_id ti t) as [[]|]; cbn [call fst]; auto. Qed.
Lemma size_deep_result n c ti : forall t, fst (size_of_deep n c ti t) = size_of_fuel n c ti t.
Proof.
  induction n as [|n IH]; intros t; [reflexivity|]. cbn [size_of_deep size_of_fuel]. destruct (from_id ti t) as [[]|]; cbn [call fst]; auto.
  rewrite dbind_fst. cbn [call fst flat]. rewrite IH. reflexivity.
Qed.
Lemma array_deep_result c ti d off i : fst (array_step_deep c ti d off i) = array_step c ti d off i.
Proof.
  unfold array_step_deep, array_step. destruct (element_count d <=? i); [reflexivity|]. rewrite dbind_fst. cbn [call fst flat]. rewrite size_deep_result. reflexivity.
Qed.
Lemma probe_deep_fst probe off ms : fst (probe_deep probe off ms) = probe_anonymous (fun o mt => fst (probe o mt)) off ms.
Proof.
  induction ms as [|m ms IH]; [reflexivity|]. cbn [probe_deep probe_anonymous]. destruct (is_anonymous m); [|exact IH].
  rewrite dbind_fst. cbn [flat fst]. destruct (btf_err (offset_add (m_offset m) off)) as [o|k|q|]; cbn [obind]; try reflexivity.
  destruct (fst (probe o (m_tid m))); try reflexivity. exact IH.
Qed.
Lemma round_deep_fst c ti e probe go off tid comp : fst (round_deep c ti probe go off tid comp) =
  obind (resolve ti tid) (fun r => round c ti e (fun o mt => fst (probe o mt)) (fun o mt => fst (go o mt)) off (snd r) comp).
Proof.
  unfold round_deep. rewrite dbind_fst. cbn [flat fst]. destruct (resolve ti tid) as [[r ty]|k|q|]; cbn [obind snd]; try reflexivity.
  unfold round, member_lists. destruct ty; try reflexivity; destruct comp as [i|name]; cbn [fst flat]; try reflexivity.
  { rewrite dbind_fst, array_deep_result. reflexivity. }
  all: rewrite dbind_fst, probe_deep_fst; cbn [call fst]; destruct (probe_anonymous (fun o mt => fst (probe o mt)) off (member_list d)) as [[r0|]|k|q|]; cbn [obind]; try reflexivity;
    destruct (find (has_name name) (member_list d)); [rewrite dbind_fst|]; reflexivity.
Qed.
Lemma offset_of_deep_result n c ti p : forall off tid it, fst (offset_of_deep n c ti p off tid it) = offset_of_impl n c ti p off tid it.
Proof.
  induction n as [|n IH]; intros off tid it; [reflexivity|]. cbn [offset_of_deep offset_of_impl].
  destruct (next c p it) as [[[comp|]|k|q|] it']; try reflexivity. rewrite (round_deep_fst _ _ None).
  destruct (resolve ti tid) as [[r ty]|k|q|]; cbn [obind snd]; try reflexivity.
  unfold round, member_lists. destruct ty; try reflexivity; destruct comp as [i|name]; try reflexivity.
  - destruct (array_step c ti d off i); cbn [obind]; auto.
  - rewrite (probe_ext _ (fun o mt => offset_of_impl n c ti p o mt it)) by auto.
    destruct (probe_anonymous (fun o mt => offset_of_impl n c ti p o mt it) off (member_list d)) as [[r0|]|k|q|]; cbn [obind]; try reflexivity.
    destruct (find (has_name name) (member_list d)); [|reflexivity]. destruct (btf_err (offset_add off (m_offset m))); cbn [obind]; auto.
  - rewrite (probe_ext _ (fun o mt => offset_of_impl n c ti p o mt it)) by auto.
    destruct (probe_anonymous (fun o mt => offset_of_impl n c ti p o mt it) off (member_list d)) as [[r0|]|k|q|]; cbn [obind]; try reflexivity.
    destruct (find (has_name name) (member_list d)); [|reflexivity]. destruct (btf_err (offset_add off (m_offset m))); cbn [obind]; auto.
Qed.

(** ** On components *)
Fixpoint follow_deep (fuel : nat) (c : build) (ti : type_information) (e : option error_kind) (off : offset) (tid : N) (cs : list component) : deep offset_error (N * offset) :=
  match fuel with
  | O => flat Diverge
  | S fuel' =>
      match cs with
      | [] => match e with None => flat (Ok (tid, off)) | Some k => flat (Err (OEBtf k)) end
      | comp :: cs' => round_deep c ti (fun o mt => follow_deep fuel' c ti e o mt cs) (fun o mt => follow_deep fuel' c ti e o mt cs') off tid comp
      end
  end.
Lemma dbind_ext {E A B} (x : deep E A) (f g : A -> deep E B) : (forall a, f a = g a) -> dbind x f = dbind x g.
Proof. intros H. unfold dbind. destruct (fst x); try reflexivity. rewrite H. reflexivity. Qed.
Lemma probe_deep_ext f g off ms : (forall o mt, f o mt = g o mt) -> probe_deep f off ms = probe_deep g off ms.
Proof.
  intros H. induction ms as [|m ms IH]; [reflexivity|]. cbn [probe_deep]. destruct (is_anonymous m); [|exact IH].
  apply dbind_ext. intros o. rewrite H, IH. reflexivity.
Qed.
Lemma round_deep_ext c ti p1 p2 g1 g2 off tid comp : (forall o mt, p1 o mt = p2 o mt) -> (forall o mt, g1 o mt = g2 o mt) ->
  round_deep c ti p1 g1 off tid comp = round_deep c ti p2 g2 off tid comp.
Proof.
  intros HP HG. assert (HP' : forall o mt, call (p1 o mt) = call (p2 o mt)) by (intros; rewrite HP; reflexivity).
  apply dbind_ext. intros [r ty]. cbn [snd]. destruct ty; try reflexivity; destruct comp as [i|name]; try reflexivity.
  - apply dbind_ext. intros o. apply HG.
  - rewrite (probe_deep_ext _ _ _ _ HP'). apply dbind_ext. intros [r0|]; [reflexivity|]. destruct (find _ _); [|reflexivity]. apply dbind_ext. intros o. apply HG.
  - rewrite (probe_deep_ext _ _ _ _ HP'). apply dbind_ext. intros [r0|]; [reflexivity|]. destruct (find _ _); [|reflexivity]. apply dbind_ext. intros o. apply HG.
Qed.
Lemma deep_follow c ti p : valid_utf8 p -> forall n off tid it cs e, okit p it -> ascripts c (stateof p it) cs e ->
  offset_of_deep n c ti p off tid it = follow_deep n c ti e off tid cs.
Proof.
  intros Hu. induction n as [|n IH]; intros off tid it cs e Hok Hs; [reflexivity|].
  destruct (next_abs c p Hu it Hok) as (E1 & E2 & E3). cbn [offset_of_deep follow_deep].
  destruct (next c p it) as [x it'] eqn:En. cbn [fst snd] in E1, E2, E3.
  inversion Hs as [s H|s k H|s x0 s' cs0 e0 H Hs']; subst.
  - rewrite H. reflexivity.
  - rewrite H. reflexivity.
  - rewrite H in E2 |- *. cbn [fst snd] in E2 |- *. apply round_deep_ext; intros o mt; apply IH; try assumption. rewrite E2. exact Hs'.
Qed.
Lemma nesting_follow c ti p cs e : valid_utf8 p -> ascripts c (PStart, p) cs e -> forall n tid,
  offset_of_nesting n c ti tid p = snd (follow_deep n c ti e (ByteOffset 0) tid cs).
Proof. intros V A n tid. unfold offset_of_nesting. rewrite (deep_follow c ti p V n (ByteOffset 0) tid piter_new cs e); [reflexivity|apply okit_new; exact V|exact A]. Qed.

(** ** Links *)
Lemma dbind_snd {E A B} (x : deep E A) (f : A -> deep E B) b : snd x <= b -> (forall a, fst x = Ok a -> snd (f a) <= b) -> snd (dbind x f) <= b.
Proof. intros H1 H2. unfold dbind. destruct (fst x) as [a|k|p|]; cbn [snd]; try exact H1. specialize (H2 a eq_refl). lia. Qed.
Lemma call_snd {E A} (x : deep E A) b : snd x + 1 <= b -> snd (call x) <= b.
Proof. intros H. unfold call. cbn [snd]. lia. Qed.

Lemma size_deep_walk (R : N -> N -> Prop) c ti : (forall a b, size_link ti a b -> R a b) ->
  forall n t, walk R (N.to_nat (snd (size_of_deep n c ti t))) t.
Proof.
  intros HR. assert (Step : forall n t u, walk R (N.to_nat (snd (size_of_deep n c ti u))) u -> size_link ti t u ->
    walk R (N.to_nat (snd (call (size_of_deep n c ti u)))) t).
  { intros n t u H L. unfold call. cbn [snd]. rewrite N2Nat.inj_add. apply (walk_S R _ t u); [apply HR; exact L|exact H]. }
  induction n as [|n IH]; intros t; [apply walk_O|]. cbn [size_of_deep]. destruct (from_id ti t) as [ty|] eqn:F; [|apply walk_O].
  destruct ty; try apply walk_O; try (apply Step; [apply IH|]; left; eapply size_alias_of; [exact F|reflexivity]).
  assert (X : snd (dbind (call (size_of_deep n c ti (element_tid d))) (fun s => flat (mul_usize c s (element_count d)))) = snd (call (size_of_deep n c ti (element_tid d)))).
  { unfold dbind. destruct (fst (call (size_of_deep n c ti (element_tid d)))); cbn [snd flat]; lia. }
  rewrite X. apply Step; [apply IH|]. right. eexists. eapply array_of_of. exact F.
Qed.
Lemma pointee_deep_walk ti : forall n t, walk (alias ti) (N.to_nat (snd (pointee_tid_deep n ti t))) t.
Proof.
  assert (Step : forall n t u, walk (alias ti) (N.to_nat (snd (pointee_tid_deep n ti u))) u -> alias ti t u ->
    walk (alias ti) (N.to_nat (snd (call (pointee_tid_deep n ti u)))) t).
  { intros n t u H L. unfold call. cbn [snd]. rewrite N2Nat.inj_add. apply (walk_S _ _ t u); [exact L|exact H]. }
  induction n as [|n IH]; intros t; [apply walk_O|]. cbn [pointee_tid_deep]. destruct (from_id ti t) as [ty|] eqn:F; [|apply walk_O].
  destruct ty; try apply walk_O; (apply Step; [apply IH|]; eexists; (split; [exact F|]); cbn; eauto).
Qed.
(** Out of fuel: nested that deep. *)
Lemma size_deep_diverge c ti : forall n t, fst (size_of_deep n c ti t) = Diverge -> snd (size_of_deep n c ti t) = N.of_nat n.
Proof.
  assert (Step : forall n u, (fst (size_of_deep n c ti u) = Diverge -> snd (size_of_deep n c ti u) = N.of_nat n) ->
    fst (call (size_of_deep n c ti u)) = Diverge -> snd (call (size_of_deep n c ti u)) = N.of_nat (S n)).
  { intros n u H E. cbn [call fst] in E. cbn [call snd]. rewrite (H E). lia. }
  induction n as [|n IH]; intros t E; [reflexivity|]. cbn [size_of_deep] in *. destruct (from_id ti t) as [ty|] eqn:F; [|discriminate E].
  destruct ty; try discriminate E; try (apply Step; [apply IH|exact E]).
  - pose proof (pointer_size_cases ti) as P. cbn [flat fst] in E. rewrite E in P. destruct P.
  - rewrite dbind_fst in E. apply obind_diverge in E. destruct E as [E|(a & _ & E)]; [|destruct (mul_usize_not_diverge _ _ _ E)].
    unfold dbind. rewrite E. cbn [snd]. apply (Step _ _ (IH _) E).
Qed.
Lemma pointee_deep_diverge ti : forall n t, fst (pointee_tid_deep n ti t) = Diverge -> snd (pointee_tid_deep n ti t) = N.of_nat n.
Proof.
  assert (Step : forall n u, (fst (pointee_tid_deep n ti u) = Diverge -> snd (pointee_tid_deep n ti u) = N.of_nat n) ->
    fst (call (pointee_tid_deep n ti u)) = Diverge -> snd (call (pointee_tid_deep n ti u)) = N.of_nat (S n)).
  { intros n u H E. cbn [call fst] in E. cbn [call snd]. rewrite (H E). lia. }
  induction n as [|n IH]; intros t E; [reflexivity|]. cbn [pointee_tid_deep] in *. destruct (from_id ti t) as [ty|] eqn:F; [|discriminate E].
  destruct ty; try discriminate E; (apply Step; [apply IH|exact E]).
Qed.

(** ** The bound *)
Lemma not_walk_step (R : N -> N -> Prop) n t u : R t u -> ~ walk R (S n) t -> exists m, n = S m /\ ~ walk R (S m) u.
Proof.
  intros H W. destruct n as [|m]; [destruct W; eapply walk_S; [exact H|apply walk_O]|]. exists m. split; [reflexivity|]. intros W'. apply W. eapply walk_S; eassumption.
Qed.

Lemma probe_nesting probe off ms b : (forall m, In m ms -> m_name m = None -> forall o, snd (probe o (m_tid m)) <= b) -> snd (probe_deep probe off ms) <= b.
Proof.
  induction ms as [|m ms IH]; intros H; [cbn; lia|]. cbn [probe_deep]. assert (Hms : snd (probe_deep probe off ms) <= b) by (apply IH; intros; apply H; [right|]; assumption).
  destruct (is_anonymous m) eqn:A; [|exact Hms]. unfold is_anonymous in A. destruct (m_name m) eqn:Nm; [discriminate A|].
  apply dbind_snd; [cbn; lia|]. intros o _. specialize (H m (or_introl eq_refl) Nm o).
  destruct (fst (probe o (m_tid m))); cbn [fst snd]; lia.
Qed.
Lemma array_nesting c ti d off i b : snd (size_of_deep (chain_fuel ti) c ti (element_tid d)) + 1 <= b -> snd (array_step_deep c ti d off i) <= b.
Proof.
  intros H. unfold array_step_deep. destruct (element_count d <=? i); [cbn; lia|]. apply dbind_snd; [cbn [snd call]; lia|]. intros s _. cbn [flat snd]. lia.
Qed.
Lemma round_nesting c ti probe go off tid comp b :
  (forall r h d, chain (transparent ti) tid r -> from_id ti r = Some (TArray h d) ->
     snd (size_of_deep (chain_fuel ti) c ti (element_tid d)) + 1 <= b /\ forall o, snd (go o (element_tid d)) <= b) ->
  (forall r ty ms m, chain (transparent ti) tid r -> from_id ti r = Some ty -> members_of ty ms -> In m ms ->
     (m_name m = None -> forall o, snd (probe o (m_tid m)) + 1 <= b) /\ (m_name m <> None -> forall o, snd (go o (m_tid m)) <= b)) ->
  snd (round_deep c ti probe go off tid comp) <= b.
Proof.
  intros HA HM. unfold round_deep. apply dbind_snd; [cbn; lia|]. intros [r ty] E. cbn [flat fst] in E. pose proof (resolve_sound ti tid) as S. rewrite E in S. destruct S as [Hc [F _]].
  assert (Members : forall ms name, members_of ty ms ->
    snd (dbind (probe_deep (fun o mt => call (probe o mt)) off ms) (fun found =>
              match found with
              | Some r => flat (Ok r)
              | None =>
                  match find (has_name name) ms with
                  | Some m => dbind (flat (btf_err (offset_add off (m_offset m)))) (fun off' => go off' (m_tid m))
                  | None => flat (Err OEMemberNotFound)
                  end
              end)) <= b).
  { intros ms name Hms. apply dbind_snd.
    - apply probe_nesting. intros m Hin Nm o. apply call_snd. exact (proj1 (HM r ty ms m Hc F Hms Hin) Nm o).
    - intros [x|] _; [cbn; lia|]. destruct (find (has_name name) ms) as [m|] eqn:Fd; [|cbn; lia]. apply find_some in Fd. destruct Fd as [Hin Hn].
      apply dbind_snd; [cbn; lia|]. intros o _. apply (proj2 (HM r ty ms m Hc F Hms Hin)). unfold has_name in Hn. destruct (m_name m); [discriminate|discriminate Hn]. }
  cbn [snd]. destruct ty; try (cbn; lia); destruct comp as [i|name]; try (cbn; lia); try (apply Members; reflexivity).
  destruct (HA r h d Hc F) as [H1 H2]. apply dbind_snd; [apply array_nesting; exact H1|]. intros o _. apply H2.
Qed.
Lemma transparent_chain_link ti t r : chain (transparent ti) t r -> chain (link ti) t r.
Proof. apply chain_impl. intros a b H. left. exact H. Qed.
Lemma size_nesting_not_walk (R : N -> N -> Prop) c ti n t m : (forall a b, size_link ti a b -> R a b) -> ~ walk R (S m) t -> snd (size_of_deep n c ti t) <= N.of_nat m.
Proof.
  intros HR W. destruct (N.le_gt_cases (snd (size_of_deep n c ti t)) (N.of_nat m)) as [L|L]; [exact L|]. exfalso. apply W.
  destruct (size_deep_walk R c ti HR n t) as (f & F0 & Fs). exists f. split; [exact F0|]. intros k Hk. apply Fs. lia.
Qed.

(** When nothing contains itself, whatever the path. *)
Lemma offset_nesting_inside c ti p : forall fuel m off tid it, ~ walk (inside ti) (S m) tid -> snd (offset_of_deep fuel c ti p off tid it) <= N.of_nat m.
Proof.
  induction fuel as [|fuel IH]; intros m off tid it W; [cbn; lia|]. cbn [offset_of_deep].
  destruct (next c p it) as [[[comp|]|k|q|] it']; try (cbn; lia).
  assert (Wr : forall r, chain (transparent ti) tid r -> ~ walk (inside ti) (S m) r).
  { intros r Hc Wr. apply W. eapply walk_chain; [|exact Wr]. eapply chain_impl; [|exact Hc]. intros a b H. left. left. exact H. }
  apply round_nesting.
  - intros r h d Hc F. assert (L : inside ti r (element_tid d)) by (left; right; left; right; eexists; eapply array_of_of; exact F).
    destruct (not_walk_step _ _ _ _ L (Wr r Hc)) as (m' & -> & W'). split.
    + assert (S : snd (size_of_deep (chain_fuel ti) c ti (element_tid d)) <= N.of_nat m') by (eapply size_nesting_not_walk; [|exact W']; intros a b H; left; right; left; exact H). lia.
    + intros o. specialize (IH m' o (element_tid d) it' W'). lia.
  - intros r ty ms mb Hc F Hms Hin. assert (L : inside ti r (m_tid mb)) by (right; eauto 8).
    destruct (not_walk_step _ _ _ _ L (Wr r Hc)) as (m' & -> & W'). split; intros _ o; [specialize (IH m' o (m_tid mb) it W')|specialize (IH m' o (m_tid mb) it' W')]; lia.
Qed.
(** When no chain of links is endless: per component. *)
Lemma follow_nesting c ti e L : (forall t, ~ walk (link ti) (S L) t) ->
  forall fuel m off tid comp cs, ~ walk (link ti) (S m) tid -> snd (follow_deep fuel c ti e off tid (comp :: cs)) <= N.of_nat m + N.of_nat L * N.of_nat (length cs).
Proof.
  intros HL. induction fuel as [|fuel IH]; intros m off tid comp cs W; [cbn; lia|]. cbn [follow_deep].
  assert (Wr : forall r, chain (transparent ti) tid r -> ~ walk (link ti) (S m) r).
  { intros r Hc Wr. apply W. eapply walk_chain; [|exact Wr]. apply transparent_chain_link. exact Hc. }
  assert (Go : forall o t, snd (follow_deep fuel c ti e o t cs) <= N.of_nat L * N.of_nat (length cs)).
  { intros o t. destruct cs as [|comp' cs']; [destruct fuel; [cbn; lia|]; cbn [follow_deep]; destruct e; cbn; lia|].
    specialize (IH L o t comp' cs' (HL t)). cbn [length]. lia. }
  apply round_nesting.
  - intros r h d Hc F. assert (Lk : link ti r (element_tid d)) by (right; left; right; eexists; eapply array_of_of; exact F).
    destruct (not_walk_step _ _ _ _ Lk (Wr r Hc)) as (m' & -> & W'). split.
    + assert (S : snd (size_of_deep (chain_fuel ti) c ti (element_tid d)) <= N.of_nat m') by (eapply size_nesting_not_walk; [|exact W']; intros a b H; right; left; exact H). lia.
    + intros o. specialize (Go o (element_tid d)). lia.
  - intros r ty ms mb Hc F Hms Hin. split; intros Nm o.
    + assert (Lk : link ti r (m_tid mb)) by (right; right; exists ty, ms, mb; auto).
      destruct (not_walk_step _ _ _ _ Lk (Wr r Hc)) as (m' & -> & W'). specialize (IH m' o (m_tid mb) comp cs W'). lia.
    + specialize (Go o (m_tid mb)). lia.
Qed.
Lemma members_not_void ty ms : members_of ty ms -> ty <> TVoid.
Proof. intros H ->. exact H. Qed.
Lemma link_known ti a b : link ti a b -> In a (known ti).
Proof.
  intros [(ty & F & H)|[H|(ty & ms & m & F & Hms & _)]].
  - apply (from_id_known ti a ty F). intros ->. destruct H as [H|(h & d & H & _)]; [destruct H|discriminate H].
  - eapply size_link_known. exact H.
  - apply (from_id_known ti a ty F). eapply members_not_void. exact Hms.
Qed.
Lemma inside_known ti a b : inside ti a b -> In a (known ti).
Proof.
  intros [H|(ty & ms & m & F & Hms & _)]; [eapply link_known; exact H|]. apply (from_id_known ti a ty F). eapply members_not_void. exact Hms.
Qed.
Lemma not_walk_length ti (R : N -> N -> Prop) t : (forall a b, R a b -> In a (known ti)) -> ~ endless R t -> ~ walk R (S (length (get ti))) t.
Proof. intros HK HE W. apply HE. eapply endless_of_walk; [exact HK| |exact W]. unfold known, get. rewrite map_length. lia. Qed.
