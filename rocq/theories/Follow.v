(** * Follow: offset_of on a list of components. *)
From Coq Require Import Lia ZifyBool ZifyNat ZifyN.
From Verif Require Import TypeInfo BaseFacts Spec PathSpec Path PathGrammar QuerySpec Chains Sizes.

(** ** Resolving indirections *)
Lemma transparent_cases ti a b : transparent ti a b <-> exists ty, from_id ti a = Some ty /\
  match ty with
  | TTypedef _ d | TFwd _ d => nl_tid d = b
  | TConst _ d | TVolatile _ d | TRestrict _ d => link_tid d = b
  | _ => False end.
Proof.
  split.
  - intros (ty & H & [Q|(h & d & -> & Q)]); eexists; (split; [exact H|]); auto. destruct ty; cbn in Q; try contradiction; exact Q.
  - intros (ty & H & Q). exists ty. split; [exact H|]. destruct ty; try contradiction; auto. right. eauto.
Qed.
Lemma transparent_det ti a b b' : transparent ti a b -> transparent ti a b' -> b = b'.
Proof.
  intros H H'. apply transparent_cases in H, H'. destruct H as (ty & H & Q), H' as (ty' & H' & Q'). rewrite H in H'. injection H' as <-.
  destruct ty; try contradiction; congruence.
Qed.
Lemma transparent_known ti a b : transparent ti a b -> In a (known ti).
Proof. intros H. apply transparent_cases in H. destruct H as (ty & H & Q). eapply from_id_known; [exact H|]. intros ->. exact Q. Qed.
Definition solid (ty : type_variant) : Prop :=
  match ty with TTypedef _ _ | TFwd _ _ | TConst _ _ | TVolatile _ _ | TRestrict _ _ => False | _ => True end.
Lemma opaque_iff ti r ty : opaque ti r ty <-> from_id ti r = Some ty /\ solid ty.
Proof.
  unfold opaque. split; intros [H G]; (split; [exact H|]).
  - destruct ty; try exact I; exfalso; eapply G; apply transparent_cases; (eexists; split; [exact H|reflexivity]).
  - intros u Hu. apply transparent_cases in Hu. destruct Hu as (ty' & E & Q). rewrite H in E. injection E as <-. destruct ty; contradiction.
Qed.
Lemma resolve_mono ti n : forall t, resolve_fuel n ti t <> Diverge -> resolve_fuel (S n) ti t = resolve_fuel n ti t.
Proof.
  induction n as [|n IH]; intros t H; [exfalso; apply H; reflexivity|]. cbn [resolve_fuel] in H |- *. destruct (from_id ti t) as [ty|]; [|reflexivity].
  destruct ty; try reflexivity; apply IH; exact H.
Qed.
Lemma resolve_walk ti n : forall t, resolve_fuel n ti t = Diverge -> walk (transparent ti) n t.
Proof.
  induction n as [|n IH]; intros t H; [apply walk_O|]. cbn [resolve_fuel] in H. destruct (from_id ti t) as [ty|] eqn:E; [|discriminate].
  destruct ty; try discriminate H; (eapply walk_S; [apply transparent_cases; eexists; split; [exact E|reflexivity]|apply IH; exact H]).
Qed.
Lemma resolve_endless ti n : forall t, endless (transparent ti) t -> resolve_fuel n ti t = Diverge.
Proof.
  induction n as [|n IH]; intros t H; [reflexivity|]. destruct (endless_head _ _ H) as [u Hu].
  pose proof (endless_step _ _ _ (transparent_det ti) Hu H) as H'. cbn [resolve_fuel]. apply transparent_cases in Hu. destruct Hu as (ty & E & Q). rewrite E.
  destruct ty; try contradiction; subst u; apply IH; exact H'.
Qed.
Lemma resolve_diverge ti t : resolve ti t = Diverge <-> endless (transparent ti) t.
Proof. apply (diverge_endless ti (transparent ti) (fun n t => resolve_fuel n ti t) (transparent_known ti) (resolve_mono ti) (resolve_walk ti) (resolve_endless ti)). Qed.
Lemma resolve_step ti t u : transparent ti t u -> resolve ti t = resolve ti u.
Proof.
  intros H. pose proof H as Hr. apply transparent_cases in H. destruct H as (ty & E & Q).
  assert (S1 : forall x, resolve ti x = resolve_fuel (S (chain_fuel ti)) ti x).
  { intros x. destruct (resolve ti x) eqn:D; try (unfold resolve in D; rewrite resolve_mono; rewrite D; [reflexivity|discriminate]).
    apply resolve_diverge in D. symmetry. apply resolve_endless. exact D. }
  rewrite (S1 t). cbn [resolve_fuel]. rewrite E. destruct ty; try contradiction; subst u; reflexivity.
Qed.
Lemma resolve_chain ti t u : chain (transparent ti) t u -> resolve ti t = resolve ti u.
Proof. induction 1 as [t|t v u H _ IH]; [reflexivity|]. rewrite (resolve_step _ _ _ H). exact IH. Qed.
Lemma resolve_opaque ti t ty : opaque ti t ty -> resolve ti t = Ok (t, ty).
Proof.
  intros H. apply opaque_iff in H. destruct H as [H S]. unfold resolve, chain_fuel. cbn [resolve_fuel]. rewrite H. destruct ty; try contradiction; reflexivity.
Qed.
Lemma resolve_unknown ti t : from_id ti t = None -> resolve ti t = Err OEInvalidTypeId.
Proof. intros H. unfold resolve, chain_fuel. cbn [resolve_fuel]. rewrite H. reflexivity. Qed.
Lemma resolve_fuel_sound ti n : forall t, match resolve_fuel n ti t with
  | Ok (r, ty) => chain (transparent ti) t r /\ opaque ti r ty
  | Err k => k = OEInvalidTypeId /\ exists r, chain (transparent ti) t r /\ from_id ti r = None
  | Panic _ => False | Diverge => True end.
Proof.
  induction n as [|n IH]; intros t; [exact I|]. cbn [resolve_fuel]. destruct (from_id ti t) as [ty|] eqn:E.
  2:{ split; [reflexivity|]. exists t. split; [constructor|exact E]. }
  assert (ST : forall u, transparent ti t u -> match resolve_fuel n ti u with
    | Ok (r, ty) => chain (transparent ti) t r /\ opaque ti r ty
    | Err k => k = OEInvalidTypeId /\ exists r, chain (transparent ti) t r /\ from_id ti r = None
    | Panic _ => False | Diverge => True end).
  { intros u Hu. specialize (IH u). destruct (resolve_fuel n ti u) as [[r ty']|k|p|]; auto.
    - destruct IH. split; [eapply chain_step; eassumption|assumption].
    - destruct IH as [-> (r & Hc & Hn)]. split; [reflexivity|]. exists r. split; [eapply chain_step; eassumption|assumption]. }
  destruct ty; try (apply ST; apply transparent_cases; eexists; split; [exact E|reflexivity]);
  (split; [constructor|apply opaque_iff; split; [exact E|exact I]]).
Qed.
Lemma resolve_sound ti t : match resolve ti t with
  | Ok (r, ty) => chain (transparent ti) t r /\ opaque ti r ty
  | Err k => k = OEInvalidTypeId /\ exists r, chain (transparent ti) t r /\ from_id ti r = None
  | Panic _ => False | Diverge => endless (transparent ti) t end.
Proof.
  pose proof (resolve_fuel_sound ti (chain_fuel ti) t) as H. change (resolve_fuel (chain_fuel ti) ti t) with (resolve ti t) in H.
  destruct (resolve ti t) as [[r ty]|k|p|] eqn:E; try exact H. apply resolve_diverge. exact E.
Qed.
Lemma is_resolve ti t ty : is ti t ty <-> exists r, resolve ti t = Ok (r, ty).
Proof.
  split.
  - intros (r & Hc & Ho). exists r. rewrite (resolve_chain _ _ _ Hc). apply resolve_opaque. exact Ho.
  - intros (r & H). pose proof (resolve_sound ti t) as S. rewrite H in S. exists r. exact S.
Qed.

(** ** The walk over a component list *)
Definition member_lists (t : type_variant) : option (list member) :=
  match t with TStruct _ d => Some (member_list d) | TUnion _ d => Some (member_list d) | _ => None end.
Fixpoint follow (fuel : nat) (c : build) (ti : type_information) (e : option error_kind)
    (off : offset) (tid : N) (cs : list component) : outcome offset_error (N * offset) :=
  match fuel with
  | O => Diverge
  | S fuel' =>
      match cs with
      | [] => match e with None => Ok (tid, off) | Some k => Err (OEBtf k) end
      | comp :: cs' =>
          obind (resolve ti tid) (fun r =>
          match snd r with
          | TVoid => Err OEVoidDereference
          | t =>
              match comp with
              | Index i =>
                  match t with
                  | TArray _ d => obind (array_step c ti d off i) (fun off' => follow fuel' c ti e off' (element_tid d) cs')
                  | TPtr _ _ => Err OEPtrNotIndexable
                  | _ => Err OETypeNotIndexable
                  end
              | Name name =>
                  match member_lists t with
                  | None => Err OENotStructOrUnion
                  | Some ms =>
                      obind (probe_anonymous (fun o mt => follow fuel' c ti e o mt cs) off ms)
                        (fun found =>
                         match found with
                         | Some r => Ok r
                         | None =>
                             match find (has_name name) ms with
                             | Some m => obind (btf_err (offset_add off (m_offset m))) (fun off' => follow fuel' c ti e off' (m_tid m) cs')
                             | None => Err OEMemberNotFound
                             end
                         end)
                  end
              end
          end)
      end
  end.
Lemma probe_ext f g off ms : (forall o mt, f o mt = g o mt) -> probe_anonymous f off ms = probe_anonymous g off ms.
Proof.
  intros H. induction ms as [|m ms IH]; [reflexivity|]. cbn [probe_anonymous]. destruct (is_anonymous m); [|exact IH].
  destruct (btf_err (offset_add (m_offset m) off)); cbn [obind]; try reflexivity. rewrite H, IH. reflexivity.
Qed.
Opaque next anext.
Lemma impl_follow c ti p : valid_utf8 p -> forall n off tid it cs e, okit p it -> ascripts c (stateof p it) cs e ->
  offset_of_impl n c ti p off tid it = follow n c ti e off tid cs.
Proof.
  intros Hu. induction n as [|n IH]; intros off tid it cs e Hok Hs; [reflexivity|].
  destruct (next_abs c p Hu it Hok) as (E1 & E2 & E3). cbn [offset_of_impl follow].
  destruct (next c p it) as [x it'] eqn:En. cbn [fst snd] in E1, E2, E3.
  inversion Hs as [s H|s k H|s x0 s' cs0 e0 H Hs']; subst.
  - rewrite H. reflexivity.
  - rewrite H. reflexivity.
  - rewrite H in E2 |- *. cbn [fst snd] in E2 |- *.
    assert (IH1 : forall off tid, offset_of_impl n c ti p off tid it' = follow n c ti e off tid cs0) by (intros; apply IH; [exact E3|rewrite E2; exact Hs']).
    assert (IH2 : forall off tid, offset_of_impl n c ti p off tid it = follow n c ti e off tid (x0 :: cs0)) by (intros; apply IH; assumption).
    destruct (resolve ti tid) as [[r ty]|k|q|]; cbn [obind snd]; try reflexivity.
    assert (HI : forall ty, match x0 with
      | Index i => match ty with
          | TArray _ d => obind (array_step c ti d off i) (fun off' => offset_of_impl n c ti p off' (element_tid d) it')
          | TPtr _ _ => Err OEPtrNotIndexable | _ => Err OETypeNotIndexable end
      | Name name =>
          match (match ty with TStruct _ d => Some (member_list d) | TUnion _ d => Some (member_list d) | _ => None end) with
          | None => Err OENotStructOrUnion
          | Some ms => obind (probe_anonymous (fun o mt => offset_of_impl n c ti p o mt it) off ms)
              (fun found => match found with Some r => Ok r | None =>
                match find (has_name name) ms with
                | Some m => obind (btf_err (offset_add off (m_offset m))) (fun off' => offset_of_impl n c ti p off' (m_tid m) it')
                | None => Err OEMemberNotFound end end)
          end end =
      match x0 with
      | Index i => match ty with
          | TArray _ d => obind (array_step c ti d off i) (fun off' => follow n c ti e off' (element_tid d) cs0)
          | TPtr _ _ => Err OEPtrNotIndexable | _ => Err OETypeNotIndexable end
      | Name name =>
          match member_lists ty with
          | None => Err OENotStructOrUnion
          | Some ms => obind (probe_anonymous (fun o mt => follow n c ti e o mt (x0 :: cs0)) off ms)
              (fun found => match found with Some r => Ok r | None =>
                match find (has_name name) ms with
                | Some m => obind (btf_err (offset_add off (m_offset m))) (fun off' => follow n c ti e off' (m_tid m) cs0)
                | None => Err OEMemberNotFound end end)
          end end).
    { intros ty0. destruct x0 as [i|name].
      - destruct ty0; try reflexivity. destruct (array_step c ti d off i); cbn [obind]; auto.
      - unfold member_lists. destruct (match ty0 with TStruct _ d => Some (member_list d) | TUnion _ d => Some (member_list d) | _ => None end) as [ms|]; [|reflexivity].
        rewrite (probe_ext _ (fun o mt => follow n c ti e o mt (Name name :: cs0)) off ms IH2).
        destruct (probe_anonymous _ off ms) as [[r0|]|k|q|]; cbn [obind]; try reflexivity.
        destruct (find (has_name name) ms) as [m|]; [|reflexivity]. destruct (btf_err (offset_add off (m_offset m))); cbn [obind]; auto. }
    specialize (HI ty). destruct ty; try reflexivity; exact HI.
Qed.
Lemma uncached_follow c ti p cs e : valid_utf8 p -> ascripts c (PStart, p) cs e -> forall n tid,
  offset_of_uncached n c ti tid p =
  match follow n c ti e (ByteOffset 0) tid cs with Ok r => Ok r | Err k => Err (offset_error_kind k) | Panic q => Panic q | Diverge => Diverge end.
Proof.
  intros Hu Hs n tid. unfold offset_of_uncached. rewrite (impl_follow c ti p Hu n (ByteOffset 0) tid piter_new cs e); [reflexivity|apply okit_new; exact Hu|exact Hs].
Qed.

(** ** More fuel *)
Lemma probe_mono f g off ms : (forall o mt, f o mt <> Diverge -> g o mt = f o mt) ->
  probe_anonymous f off ms <> Diverge -> probe_anonymous g off ms = probe_anonymous f off ms.
Proof.
  intros H. induction ms as [|m ms IH]; intros Hd; [reflexivity|]. cbn [probe_anonymous] in *. destruct (is_anonymous m); [|auto].
  destruct (btf_err (offset_add (m_offset m) off)) as [o| | |]; cbn [obind] in *; try reflexivity.
  rewrite H. 2:{ intros G. rewrite G in Hd. apply Hd. reflexivity. }
  destruct (f o (m_tid m)); auto.
Qed.
(** The body of one round, with the recursive calls abstracted. *)
Definition round (c : build) (ti : type_information) (e : option error_kind)
   (probe : offset -> N -> outcome offset_error (N * offset)) (go : offset -> N -> outcome offset_error (N * offset))
   (off : offset) (t : type_variant) (comp : component) : outcome offset_error (N * offset) :=
  match t with
  | TVoid => Err OEVoidDereference
  | _ =>
    match comp with
    | Index i =>
        match t with
        | TArray _ d => obind (array_step c ti d off i) (fun off' => go off' (element_tid d))
        | TPtr _ _ => Err OEPtrNotIndexable
        | _ => Err OETypeNotIndexable
        end
    | Name name =>
        match member_lists t with
        | None => Err OENotStructOrUnion
        | Some ms =>
            obind (probe_anonymous probe off ms)
              (fun found =>
               match found with
               | Some r => Ok r
               | None =>
                   match find (has_name name) ms with
                   | Some m => obind (btf_err (offset_add off (m_offset m))) (fun off' => go off' (m_tid m))
                   | None => Err OEMemberNotFound
                   end
               end)
        end
    end
  end.
Lemma follow_S n c ti e off tid comp cs : follow (S n) c ti e off tid (comp :: cs) =
  obind (resolve ti tid) (fun r => round c ti e (fun o mt => follow n c ti e o mt (comp :: cs)) (fun o mt => follow n c ti e o mt cs) off (snd r) comp).
Proof. cbn [follow]. destruct (resolve ti tid) as [[r ty]|k|q|]; try reflexivity. cbn [obind snd]. destruct ty; reflexivity. Qed.
Lemma round_mono c ti e p1 p2 g1 g2 off t comp :
  (forall o mt, p1 o mt <> Diverge -> p2 o mt = p1 o mt) -> (forall o mt, g1 o mt <> Diverge -> g2 o mt = g1 o mt) ->
  round c ti e p1 g1 off t comp <> Diverge -> round c ti e p2 g2 off t comp = round c ti e p1 g1 off t comp.
Proof.
  intros Hp Hg. unfold round. destruct comp as [i|name].
  - destruct t; try reflexivity. destruct (array_step c ti d off i); cbn [obind]; auto.
  - destruct (member_lists t) as [ms|]; [|reflexivity].
    assert (G : obind (probe_anonymous p1 off ms) (fun found => match found with Some r => Ok r | None =>
       match find (has_name name) ms with Some m => obind (btf_err (offset_add off (m_offset m))) (fun off' => g1 off' (m_tid m)) | None => Err OEMemberNotFound end end) <> Diverge ->
       obind (probe_anonymous p2 off ms) (fun found => match found with Some r => Ok r | None =>
       match find (has_name name) ms with Some m => obind (btf_err (offset_add off (m_offset m))) (fun off' => g2 off' (m_tid m)) | None => Err OEMemberNotFound end end) =
       obind (probe_anonymous p1 off ms) (fun found => match found with Some r => Ok r | None =>
       match find (has_name name) ms with Some m => obind (btf_err (offset_add off (m_offset m))) (fun off' => g1 off' (m_tid m)) | None => Err OEMemberNotFound end end)).
    { intros Hd. rewrite (probe_mono p1 p2 off ms Hp). 2:{ intros G. rewrite G in Hd. apply Hd. reflexivity. }
      destruct (probe_anonymous p1 off ms) as [[r0|]|k|q|]; cbn [obind] in *; try reflexivity.
      destruct (find (has_name name) ms) as [m|]; [|reflexivity]. destruct (btf_err (offset_add off (m_offset m))); cbn [obind] in *; auto. }
    destruct t; try reflexivity; exact G.
Qed.
Lemma follow_mono c ti e n : forall off tid cs, follow n c ti e off tid cs <> Diverge -> follow (S n) c ti e off tid cs = follow n c ti e off tid cs.
Proof.
  induction n as [|n IH]; intros off tid cs H; [exfalso; apply H; reflexivity|]. destruct cs as [|comp cs]; [reflexivity|].
  rewrite follow_S in H |- *. rewrite follow_S. destruct (resolve ti tid) as [[r ty]|k|q|]; cbn [obind snd] in *; try reflexivity.
  apply round_mono; [intros; apply IH; assumption|intros; apply IH; assumption|exact H].
Qed.
Lemma follow_le c ti e n m off tid cs : (n <= m)%nat -> follow n c ti e off tid cs <> Diverge -> follow m c ti e off tid cs = follow n c ti e off tid cs.
Proof.
  intros H Hd. induction H as [|m H IH]; [reflexivity|]. rewrite <- IH. apply follow_mono. rewrite IH. exact Hd.
Qed.
Lemma follow_stable c ti e n m off tid cs : follow n c ti e off tid cs <> Diverge -> follow m c ti e off tid cs <> Diverge ->
  follow n c ti e off tid cs = follow m c ti e off tid cs.
Proof.
  intros Hn Hm. destruct (Nat.le_ge_cases n m) as [H|H]; [symmetry|]; apply follow_le; assumption.
Qed.
