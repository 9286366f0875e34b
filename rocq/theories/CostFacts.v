(** * CostFacts: how many type lookups offset_of makes. *)
From Coq Require Import List NArith Bool Lia PeanoNat.
From Verif Require Import TypeInfo Cost Spec BaseFacts PathSpec Path PathGrammar QuerySpec Chains Sizes Follow Offsets Offsets2 CostSpec.
Import ListNotations.
Open Scope N_scope.

(** ** Same results *)
Lemma cbind_fst {A B} (x : counted A) (f : A -> counted B) : fst (cbind x f) = obind (fst x) (fun a => fst (f a)).
Proof. unfold cbind. destruct (fst x); reflexivity. Qed.
Lemma probe_fst probe off ms : fst (probe_counted probe off ms) = probe_anonymous (fun o mt => fst (probe o mt)) off ms.
Proof.
  induction ms as [|m ms IH]; [reflexivity|]. cbn [probe_counted probe_anonymous]. destruct (is_anonymous m); [|exact IH].
  rewrite cbind_fst. cbn [free fst]. destruct (btf_err (offset_add (m_offset m) off)) as [o|k|q|]; cbn [obind]; try reflexivity.
  destruct (fst (probe o (m_tid m))); try reflexivity. exact IH.
Qed.
Lemma round_fst c ti e probe go off tid comp : fst (round_counted c ti probe go off tid comp) =
  obind (resolve ti tid) (fun r => round c ti e (fun o mt => fst (probe o mt)) (fun o mt => fst (go o mt)) off (snd r) comp).
Proof.
  unfold round_counted. rewrite cbind_fst. cbn [fst]. destruct (resolve ti tid) as [[r ty]|k|q|]; cbn [obind snd]; try reflexivity.
  unfold round, member_lists. destruct ty; try reflexivity; destruct comp as [i|name]; cbn [fst free]; try reflexivity; try (rewrite cbind_fst; reflexivity).
  all: rewrite cbind_fst, probe_fst; destruct (probe_anonymous (fun o mt => fst (probe o mt)) off (member_list d)) as [[r0|]|k|q|]; cbn [obind]; try reflexivity;
    destruct (find (has_name name) (member_list d)); [rewrite cbind_fst|]; reflexivity.
Qed.
Lemma offset_of_counted_result n c ti p : forall off tid it, fst (offset_of_counted n c ti p off tid it) = offset_of_impl n c ti p off tid it.
Proof.
  induction n as [|n IH]; intros off tid it; [reflexivity|]. cbn [offset_of_counted offset_of_impl].
  destruct (next c p it) as [[[comp|]|k|q|] it']; try reflexivity. rewrite (round_fst _ _ None).
  destruct (resolve ti tid) as [[r ty]|k|q|]; cbn [obind snd]; try reflexivity.
  unfold round, member_lists. destruct ty; try reflexivity; destruct comp as [i|name]; try reflexivity.
  - destruct (array_step c ti d off i); cbn [obind]; auto.
  - rewrite (probe_ext _ (fun o mt => offset_of_impl n c ti p o mt it)) by auto.
    destruct (probe_anonymous (fun o mt => offset_of_impl n c ti p o mt it) off (member_list d)) as [[r0|]|k|q|]; cbn [obind]; try reflexivity.
    destruct (find (has_name name) (member_list d)); [|reflexivity]. destruct (btf_err (offset_add off (m_offset m))); cbn [obind]; auto.
  - rewrite (probe_ext _ (fun o mt => offset_of_impl n c ti p o mt it)) by auto.
    destruct (probe_anonymous (fun o mt => offset_of_impl n c ti p o mt it) off (member_list d)) as [[r0|]|k|q|]; cbn [obind]; try reflexivity.
    destruct (find (has_name name) (member_list d)); [|reflexivity]. destruct (btf_err (offset_add off (m_offset m))); cbn [obind]; auto.
Qed.

(** ** On components *)
Fixpoint follow_counted (fuel : nat) (c : build) (ti : type_information) (e : option error_kind) (off : offset) (tid : N) (cs : list component) : counted (N * offset) :=
  match fuel with
  | O => free Diverge
  | S fuel' =>
      match cs with
      | [] => match e with None => free (Ok (tid, off)) | Some k => free (Err (OEBtf k)) end
      | comp :: cs' => round_counted c ti (fun o mt => follow_counted fuel' c ti e o mt cs) (fun o mt => follow_counted fuel' c ti e o mt cs') off tid comp
      end
  end.
Lemma cbind_ext {A B} (x : counted A) (f g : A -> counted B) : (forall a, f a = g a) -> cbind x f = cbind x g.
Proof. intros H. unfold cbind. destruct (fst x); try reflexivity. rewrite H. reflexivity. Qed.
Lemma probe_counted_ext f g off ms : (forall o mt, f o mt = g o mt) -> probe_counted f off ms = probe_counted g off ms.
Proof.
  intros H. induction ms as [|m ms IH]; [reflexivity|]. cbn [probe_counted]. destruct (is_anonymous m); [|exact IH].
  apply cbind_ext. intros o. rewrite H, IH. reflexivity.
Qed.
Lemma round_counted_ext c ti p1 p2 g1 g2 off tid comp : (forall o mt, p1 o mt = p2 o mt) -> (forall o mt, g1 o mt = g2 o mt) ->
  round_counted c ti p1 g1 off tid comp = round_counted c ti p2 g2 off tid comp.
Proof.
  intros HP HG. apply cbind_ext. intros [r ty]. cbn [snd]. destruct ty; try reflexivity; destruct comp as [i|name]; try reflexivity.
  - apply cbind_ext. intros o. apply HG.
  - rewrite (probe_counted_ext _ _ _ _ HP). apply cbind_ext. intros [r0|]; [reflexivity|]. destruct (find _ _); [|reflexivity]. apply cbind_ext. intros o. apply HG.
  - rewrite (probe_counted_ext _ _ _ _ HP). apply cbind_ext. intros [r0|]; [reflexivity|]. destruct (find _ _); [|reflexivity]. apply cbind_ext. intros o. apply HG.
Qed.
Lemma counted_follow c ti p : valid_utf8 p -> forall n off tid it cs e, okit p it -> ascripts c (stateof p it) cs e ->
  offset_of_counted n c ti p off tid it = follow_counted n c ti e off tid cs.
Proof.
  intros Hu. induction n as [|n IH]; intros off tid it cs e Hok Hs; [reflexivity|].
  destruct (next_abs c p Hu it Hok) as (E1 & E2 & E3). cbn [offset_of_counted follow_counted].
  destruct (next c p it) as [x it'] eqn:En. cbn [fst snd] in E1, E2, E3.
  inversion Hs as [s H|s k H|s x0 s' cs0 e0 H Hs']; subst.
  - rewrite H. reflexivity.
  - rewrite H. reflexivity.
  - rewrite H in E2 |- *. cbn [fst snd] in E2 |- *. apply round_counted_ext; intros o mt; apply IH; try assumption. rewrite E2. exact Hs'.
Qed.
Lemma lookups_follow c ti p cs e : valid_utf8 p -> ascripts c (PStart, p) cs e -> forall n tid,
  offset_of_lookups n c ti tid p = snd (follow_counted n c ti e (ByteOffset 0) tid cs).
Proof. intros V A n tid. unfold offset_of_lookups. rewrite (counted_follow c ti p V n (ByteOffset 0) tid piter_new cs e); [reflexivity|apply okit_new; exact V|exact A]. Qed.

(** ** Chains are short *)
Lemma resolve_lookups_le n ti : forall t, resolve_lookups n ti t <= N.of_nat n.
Proof.
  induction n as [|n IH]; intros t; [cbn; lia|]. cbn [resolve_lookups].
  destruct (from_id ti t) as [[]|]; try lia; match goal with |- context [resolve_lookups n ti ?u] => specialize (IH u) end; lia.
Qed.
Lemma size_lookups_le n ti : forall t, size_lookups n ti t <= N.of_nat n + 1.
Proof.
  induction n as [|n IH]; intros t; [cbn; lia|]. cbn [size_lookups].
  destruct (from_id ti t) as [[]|]; try lia; try (destruct (id_of ti list_head_str); lia); match goal with |- context [size_lookups n ti ?u] => specialize (IH u) end; lia.
Qed.

(** ** The anonymous members below a type *)
Lemma chain_last {R} a x : chain R a x -> a = x \/ exists y, chain R a y /\ R y x.
Proof.
  induction 1 as [t|t u v H C IH]; [auto|]. right. destruct IH as [->|(y & C' & Hy)]; [exists t; split; [constructor|exact H]|].
  exists y. split; [eapply chain_step; eassumption|exact Hy].
Qed.
Lemma chain_linear {R : N -> N -> Prop} a b x : (forall u v w, R u w -> R v w -> u = v) -> chain R a x -> chain R b x -> chain R a b \/ chain R b a.
Proof.
  intros U Ha. revert b. induction Ha as [t|t u v H C IH]; intros b Hb; [right; exact Hb|].
  destruct (IH b Hb) as [G|G]; [left; eapply chain_step; eassumption|].
  destruct (chain_last _ _ G) as [->|(y & C' & Hy)]; [left; eapply chain_step; [exact H|constructor]|].
  right. rewrite (U _ _ _ H Hy). exact C'.
Qed.
Lemma walk_chain (R : N -> N -> Prop) t u : chain R t u -> forall n, walk R n u -> walk R n t.
Proof.
  induction 1 as [t|t u v H _ IH]; intros n W; [exact W|]. apply IH in W. apply (walk_S R n t u H) in W.
  destruct W as (f & Hf & Hw). exists f. split; [exact Hf|]. intros k Hk. apply Hw. lia.
Qed.
Lemma cycle_endless ti r u : link ti r u -> chain (link ti) u r -> endless (link ti) r.
Proof.
  intros L C. apply (endless_of_walk _ (known ti) (S (length (known ti)))); [apply link_known|lia|]. generalize (S (length (known ti))) as n.
  induction n as [|n IH]; [apply walk_O|]. eapply walk_S; [exact L|]. eapply walk_chain; eassumption.
Qed.
Lemma chain_impl (R R' : N -> N -> Prop) a b : (forall x y, R x y -> R' x y) -> chain R a b -> chain R' a b.
Proof. intros H. induction 1; [constructor|eapply chain_step; eauto]. Qed.

Lemma NoDup_app_intro {A} (l l' : list A) : NoDup l -> NoDup l' -> (forall x, In x l -> In x l' -> False) -> NoDup (l ++ l').
Proof.
  induction l as [|a l IH]; intros H H' D; [exact H'|]. inversion H as [|? ? Ha Hl]; subst. cbn [app]. constructor.
  - rewrite in_app_iff. intros [G|G]; [exact (Ha G)|]. apply (D a); [left; reflexivity|exact G].
  - apply IH; [exact Hl|exact H'|]. intros x G G'. apply (D x); [right; exact G|exact G'].
Qed.
Section Tree.
  Context (ti : type_information).
  Definition E (a b : N) : Prop := exists i, enters ti a i b.
  Lemma enters_E a i b : enters ti a i b -> E a b. Proof. intros H. exists i. exact H. Qed.
  Lemma E_links a b : E a b -> exists u, link ti a u /\ chain (link ti) u b.
  Proof.
    intros (i & ty & ms & m & ty' & H1 & H2 & H3 & H4 & H5 & _). exists (m_tid m). split.
    - right. right. exists ty, ms, m. apply nth_error_In in H3. auto.
    - eapply chain_impl; [|exact H5]. intros x y H. left. exact H.
  Qed.
  Lemma E_chain a b : chain E a b -> chain (link ti) a b.
  Proof. induction 1 as [t|t u v H _ IH]; [constructor|]. destruct (E_links _ _ H) as (w & L & C). eapply chain_step; [exact L|]. eapply chain_app; eassumption. Qed.
  Context (AC : acyclic ti).
  Lemma E_acyclic a b : E a b -> ~ chain E b a.
  Proof. intros H C. destruct (E_links _ _ H) as (u & L & Cu). apply (AC a). eapply cycle_endless; [exact L|]. eapply chain_app; [exact Cu|apply E_chain; exact C]. Qed.
  (** Two conditions under which nothing is entered twice. *)
  Lemma in_place_once : written_in_place ti -> entered_once ti.
  Proof.
    intros WP r i j a b x Ha Hb Ca Cb. assert (EP : forall u v w, E u w -> E v w -> u = v) by (intros u v w (k & H) (l & H'); apply (WP _ _ _ _ _ H H')).
    assert (X : forall i j a b, enters ti r i a -> enters ti r j b -> chain E a b -> i = j).
    { clear -AC WP EP. intros i j a b Ha Hb C. destruct (chain_last _ _ C) as [->|(y & C' & Hy)]; [apply (WP _ _ _ _ _ Ha Hb)|].
      exfalso. assert (y = r) as -> by (eapply EP; [exact Hy|exists j; exact Hb]). exact (E_acyclic r a (enters_E _ _ _ Ha) C'). }
    destruct (chain_linear a b x EP Ca Cb) as [C|C]; [eapply X; eassumption|symmetry; eapply X; eassumption].
  Qed.
  Lemma offers_behind n a b : chain (transparent ti) a b -> offers ti n b -> offers ti n a.
  Proof.
    intros C O. assert (G : forall ty, is ti b ty -> is ti a ty) by (intros ty (r & C0 & O0); exists r; split; [eapply chain_app; eassumption|exact O0]).
    destruct O as [t ty ms m A1 A2 A3 A4|t ty ms m A1 A2 A3 A4 A5]; [exact (offers_member ti n a ty ms m (G _ A1) A2 A3 A4)|exact (offers_anonymous ti n a ty ms m (G _ A1) A2 A3 A4 A5)].
  Qed.
  Lemma itself_is r ty ms : from_id ti r = Some ty -> members_of ty ms -> is ti r ty.
  Proof. intros F M. exists r. split; [constructor|]. apply opaque_iff. split; [exact F|]. destruct ty; try destruct M; exact I. Qed.
  Lemma entered_offers n a x : chain E a x -> offers ti n x -> offers ti n a.
  Proof.
    induction 1 as [t|t u v (i & ty & ms & m & ty' & F & M & H1 & H2 & C & _) _ IH]; [auto|]. intros O. specialize (IH O).
    eapply offers_anonymous; [eapply itself_is; eassumption|exact M|eapply nth_error_In; exact H1|exact H2|eapply offers_behind; eassumption].
  Qed.
  Lemma named_once : unambiguous ti -> something_named ti -> entered_alone ti -> entered_once ti.
  Proof.
    intros UN SN EA r i j a b x Ha Hb Ca Cb.
    assert (S : exists n, offers ti n x) by (destruct (chain_last _ _ Ca) as [<-|(y & _ & (k & Hy))]; [exact (SN _ _ _ Ha)|exact (SN _ _ _ Hy)]).
    destruct S as (n & O). pose proof (entered_offers n _ _ Ca O) as Oa. pose proof (entered_offers n _ _ Cb O) as Ob.
    destruct Ha as (ty & ms & m & ty1 & F & M & H1 & H2 & C & F1 & M1). destruct Hb as (ty' & ms' & m' & ty2 & F' & M' & H1' & H2' & C' & F2 & M2).
    rewrite F in F'. injection F' as <-. assert (ms' = ms) as -> by (destruct ty; cbn in M, M'; try contradiction; congruence).
    assert (m = m') as <-.
    { apply (UN r ty ms n m m'); [eapply itself_is; eassumption|exact M|eapply nth_error_In; exact H1|eapply nth_error_In; exact H1'|right; split; [exact H2|]; eapply offers_behind; eassumption|right; split; [exact H2'|]; eapply offers_behind; eassumption]. }
    apply (EA r i j a); exists ty, ms, m, ty1; auto 8.
  Qed.
  Context (WP : entered_once ti).
  Lemma siblings r i j a b x : enters ti r i a -> enters ti r j b -> chain E a x -> chain E b x -> i = j.
  Proof. apply WP. Qed.

  (** The anonymous members met from [t], each as the id of its struct and its position. *)
  Fixpoint edges (below : N -> list (N * nat)) (r : N) (i : nat) (ms : list member) : list (N * nat) :=
    match ms with [] => [] | m :: ms' => (if is_anonymous m then (r, i) :: below (m_tid m) else []) ++ edges below r (S i) ms' end.
  Fixpoint tree (n : nat) (t : N) : list (N * nat) :=
    match n with
    | O => []
    | S n' => match resolve ti t with Ok (r, ty) => match member_lists ty with Some ms => edges (tree n') r 0 ms | None => [] end | _ => [] end
    end.
  Lemma edges_In below r k ms x : In x (edges below r k ms) -> exists i m, nth_error ms i = Some m /\ m_name m = None /\ (x = (r, (k + i)%nat) \/ In x (below (m_tid m))).
  Proof.
    revert k. induction ms as [|m ms IH]; intros k H; [destruct H|]. cbn [edges] in H. apply in_app_iff in H. destruct H as [H|H].
    - exists 0%nat, m. unfold is_anonymous in H. destruct (m_name m); [destruct H|]. split; [reflexivity|]. split; [reflexivity|].
      destruct H as [<-|H]; [left; f_equal; lia|right; exact H].
    - destruct (IH _ H) as (i & m' & H1 & H2 & H3). exists (S i), m'. split; [exact H1|]. split; [exact H2|]. destruct H3 as [->|H3]; [left; f_equal; lia|auto].
  Qed.
  Lemma resolved_members t r ty ms : resolve ti t = Ok (r, ty) -> member_lists ty = Some ms -> chain (transparent ti) t r /\ from_id ti r = Some ty /\ members_of ty ms.
  Proof.
    intros H Hm. pose proof (resolve_sound ti t) as S. rewrite H in S. destruct S as [C O]. split; [exact C|]. split; [apply O|].
    destruct ty; try discriminate Hm; injection Hm as <-; reflexivity.
  Qed.
  (** An edge below [t]: its struct is reached from the struct of [t]. *)
  Lemma tree_In n : forall t x i, In (x, i) (tree n t) -> exists r ty, resolve ti t = Ok (r, ty) /\ has_members ty /\ chain E r x.
  Proof.
    induction n as [|n IH]; intros t x i H; [destruct H|]. cbn [tree] in H. destruct (resolve ti t) as [[r ty]|k|q|] eqn:Er; try destruct H.
    destruct (member_lists ty) as [ms|] eqn:Em; [|destruct H]. destruct (resolved_members _ _ _ _ Er Em) as (_ & F & M).
    exists r, ty. split; [reflexivity|]. split; [exists ms; exact M|]. apply edges_In in H. destruct H as (j & m & H1 & H2 & [H|H]); [injection H as -> _; constructor|].
    destruct (IH _ _ _ H) as (r' & ty' & Er' & (ms' & M') & C). eapply chain_step; [|exact C]. exists j, ty, ms, m, ty'.
    pose proof (resolve_sound ti (m_tid m)) as S. rewrite Er' in S. destruct S as [Ch O].
    repeat (split; [first [assumption|apply O]|]). exists ms'. exact M'.
  Qed.
  Lemma tree_child n r ty ms j m x i : from_id ti r = Some ty -> members_of ty ms -> nth_error ms j = Some m -> m_name m = None -> In (x, i) (tree n (m_tid m)) ->
    exists a, enters ti r j a /\ chain E a x.
  Proof.
    intros F M H1 H2 H. destruct (tree_In _ _ _ _ H) as (r' & ty' & Er' & Hm & C). exists r'. split; [|exact C]. exists ty, ms, m, ty'.
    pose proof (resolve_sound ti (m_tid m)) as S. rewrite Er' in S. destruct S as [Ch O]. repeat (split; [first [assumption|apply O]|]). exact Hm.
  Qed.
  Lemma tree_NoDup n : forall t, NoDup (tree n t).
  Proof.
    induction n as [|n IH]; intros t; [constructor|]. cbn [tree]. destruct (resolve ti t) as [[r ty]|k|q|] eqn:Er; try constructor.
    destruct (member_lists ty) as [ms|] eqn:Em; [|constructor]. destruct (resolved_members _ _ _ _ Er Em) as (_ & F & M).
    assert (G : forall suf k, (forall i m, nth_error suf i = Some m -> nth_error ms (k + i) = Some m) -> NoDup (edges (tree n) r k suf)).
    { induction suf as [|m suf IHs]; intros k Hs; [constructor|]. cbn [edges].
      assert (Hs' : forall i m0, nth_error suf i = Some m0 -> nth_error ms (S k + i) = Some m0) by (intros i m0 H; rewrite <- (Hs (S i) m0 H); f_equal; lia).
      specialize (IHs (S k) Hs'). destruct (is_anonymous m) eqn:Ea; [|exact IHs]. assert (Hn : m_name m = None) by (unfold is_anonymous in Ea; destruct (m_name m); [discriminate|reflexivity]).
      assert (H0 : nth_error ms k = Some m) by (rewrite <- (Hs 0%nat m eq_refl); f_equal; lia).
      cbn [app]. constructor.
      - rewrite in_app_iff. intros [H|H].
        + destruct (tree_child _ _ _ _ _ _ _ _ F M H0 Hn H) as (a & Ha & C). exact (E_acyclic r a (enters_E _ _ _ Ha) C).
        + apply edges_In in H. destruct H as (i & m' & H1 & H2 & [H|H]); [apply (f_equal snd) in H; cbn in H; lia|].
          destruct (tree_child _ _ _ _ _ _ _ _ F M (Hs' _ _ H1) H2 H) as (a & Ha & C). exact (E_acyclic r a (enters_E _ _ _ Ha) C).
      - apply NoDup_app_intro; [apply IH|exact IHs|]. intros [x i] H1 H2. apply edges_In in H2. destruct H2 as (j & m' & H3 & H4 & H5).
        destruct (tree_child _ _ _ _ _ _ _ _ F M H0 Hn H1) as (a & Ha & C). destruct H5 as [H5|H5].
        + injection H5 as -> _. exact (E_acyclic r a (enters_E _ _ _ Ha) C).
        + destruct (tree_child _ _ _ _ _ _ _ _ F M (Hs' _ _ H3) H4 H5) as (b & Hb & C'). pose proof (siblings _ _ _ _ _ _ Ha Hb C C'). lia. }
    apply G. auto.
  Qed.

  (** There are no more than the anonymous members of the table. *)
  Definition members_list (ty : type_variant) : list member := match member_lists ty with Some ms => ms | None => [] end.
  Definition all_edges : list (N * nat) := flat_map (fun e => edges (fun _ => []) (fst e) 0 (members_list (snd e))) (get ti).
  Lemma all_edges_length : length all_edges = anonymous_members ti.
  Proof.
    unfold all_edges, anonymous_members. induction (get ti) as [|[r ty] l IH]; [reflexivity|]. cbn [flat_map map fst snd]. rewrite app_length, IH. cbn [list_sum fold_right]. apply f_equal2; [|reflexivity]. clear IH.
    assert (G : forall ms k, length (edges (fun _ => []) r k ms) = length (filter (fun m => match m_name m with None => true | Some _ => false end) ms)).
    { induction ms as [|m ms IHm]; intros k; [reflexivity|]. cbn [edges filter]. unfold is_anonymous. destruct (m_name m); cbn [app length]; rewrite IHm; reflexivity. }
    unfold unnamed, members_list, member_lists. destruct ty; try reflexivity; apply G.
  Qed.
  Lemma edges_intro below r k ms i m : nth_error ms i = Some m -> m_name m = None -> In (r, (k + i)%nat) (edges below r k ms).
  Proof.
    revert k i. induction ms as [|m0 ms IH]; intros k [|i] H Hn; try discriminate H; cbn [edges]; apply in_app_iff.
    - injection H as ->. left. unfold is_anonymous. rewrite Hn. left. f_equal. lia.
    - right. replace (k + S i)%nat with (S k + i)%nat by lia. apply IH; assumption.
  Qed.
  Lemma bt_get_pair {V} k (l : list (N * V)) v : bt_get N.compare k l = Some v -> In (k, v) l.
  Proof. induction l as [|[k' v'] l IH]; cbn; [discriminate|]. destruct (N.compare_spec k k') as [->|H|H]; [intros [= ->]; auto|auto|auto]. Qed.
  Lemma tree_all n t : incl (tree n t) all_edges.
  Proof.
    revert t. induction n as [|n IH]; intros t x H; [destruct H|]. cbn [tree] in H. destruct (resolve ti t) as [[r ty]|k|q|] eqn:Er; try destruct H.
    destruct (member_lists ty) as [ms|] eqn:Em; [|destruct H]. destruct (resolved_members _ _ _ _ Er Em) as (_ & F & M).
    apply edges_In in H. destruct H as (i & m & H1 & H2 & [->|H]); [|exact (IH _ _ H)].
    apply in_flat_map. exists (r, ty). split.
    - unfold from_id in F. destruct (N.eqb_spec r 0) as [->|Hr]; [injection F as <-; discriminate Em|]. apply bt_get_pair. exact F.
    - cbn [fst snd]. unfold members_list. rewrite Em. apply edges_intro with (m := m); assumption.
  Qed.
  Lemma tree_length n t : (length (tree n t) <= anonymous_members ti)%nat.
  Proof. rewrite <- all_edges_length. apply NoDup_incl_length; [apply tree_NoDup|apply tree_all]. Qed.

  (** ** The cost of a name *)
  Context (UN : unambiguous ti) (c : build) (e : option error_kind).
  Notation F := (N.of_nat (chain_fuel ti)).
  Lemma cbind_snd {A B} (x : counted A) (f : A -> counted B) b : (forall a, fst x = Ok a -> snd (f a) <= b) -> snd (cbind x f) <= snd x + b.
  Proof. intros H. unfold cbind. destruct (fst x) as [a|k|q|]; cbn [snd]; try lia. specialize (H a eq_refl). lia. Qed.
  Notation size_of_tree n t := (1 + N.of_nat (length (tree n t))).
  Lemma offers_struct n t : offers ti n t -> exists r ty ms, resolve ti t = Ok (r, ty) /\ members_of ty ms.
  Proof. intros [t' ty ms m H1 H2 _ _|t' ty ms m H1 H2 _ _ _]; apply is_resolve in H1; destruct H1 as (r & H1); exists r, ty, ms; auto. Qed.
  Lemma probe_cost name (probe : offset -> N -> counted (N * offset)) (below : N -> list (N * nat)) off r ty ms b :
    from_id ti r = Some ty -> is ti r ty -> members_of ty ms ->
    (forall o mt, snd (probe o mt) <= F * (1 + N.of_nat (length (below mt))) \/ (offers ti name mt /\ snd (probe o mt) <= F * (1 + N.of_nat (length (below mt))) + b)) ->
    forall suf k, (forall i m, nth_error suf i = Some m -> nth_error ms (k + i) = Some m) ->
    snd (probe_counted probe off suf) <= F * N.of_nat (length (edges below r k suf)) \/
    exists i m, nth_error suf i = Some m /\ m_name m = None /\ offers ti name (m_tid m) /\ snd (probe_counted probe off suf) <= F * N.of_nat (length (edges below r k suf)) + b.
  Proof.
    intros HF HI HM HP. induction suf as [|m suf IH]; intros k Hs; [left; cbn; lia|].
    assert (Hs' : forall i m0, nth_error suf i = Some m0 -> nth_error ms (S k + i) = Some m0) by (intros i m0 H; rewrite <- (Hs (S i) m0 H); f_equal; lia).
    assert (H0 : nth_error ms k = Some m) by (rewrite <- (Hs 0%nat m eq_refl); f_equal; lia).
    specialize (IH (S k) Hs'). cbn [probe_counted edges]. destruct (is_anonymous m) eqn:Ea.
    2:{ destruct IH as [IH|(i & m' & H1 & H2)]; [left; exact IH|right; exists (S i), m'; split; [exact H1|exact H2]]. }
    assert (Hn : m_name m = None) by (unfold is_anonymous in Ea; destruct (m_name m); [discriminate|reflexivity]).
    cbn [app length]. rewrite app_length. unfold cbind, free. cbn [fst snd].
    destruct (btf_err (offset_add (m_offset m) off)) as [o|x|q|]; cbn [fst snd]; try (left; lia).
    pose proof (HP o (m_tid m)) as P. destruct (fst (probe o (m_tid m))) as [v|x|q|]; cbn [fst snd];
      try (destruct P as [P|[P0 P]]; [left; nia|right; exists 0%nat, m; repeat (split; [first [reflexivity|assumption]|]); nia]).
    destruct P as [P|[P0 P]], IH as [IH|(i & m' & H1 & H2 & H3 & IH)].
    - left. nia.
    - right. exists (S i), m'. repeat (split; [first [reflexivity|assumption]|]). nia.
    - right. exists 0%nat, m. repeat (split; [first [reflexivity|assumption]|]). nia.
    - exfalso. assert (Em : m = m').
      { apply (UN r ty ms name m m'); [exact HI|exact HM|eapply nth_error_In; exact H0|eapply nth_error_In, Hs'; exact H1|right; auto|right; auto]. }
      subst m'. destruct (offers_struct _ _ P0) as (r' & ty' & ms' & Er & M').
      pose proof (resolve_sound ti (m_tid m)) as S. rewrite Er in S. destruct S as [C O].
      assert (En : forall j, nth_error ms j = Some m -> enters ti r j r') by (intros j Hj; exists ty, ms, m, ty'; repeat (split; [first [assumption|apply O]|]); exists ms'; exact M').
      pose proof (WP _ _ _ _ _ r' (En _ H0) (En _ (Hs' _ _ H1)) (chain_here _ _) (chain_here _ _)). lia.
  Qed.
  Lemma name_cost name cs b : (forall m o mt, snd (follow_counted m c ti e o mt cs) <= b) ->
    forall n off t, let k := snd (follow_counted n c ti e off t (Name name :: cs)) in
    k <= F * size_of_tree n t \/ (offers ti name t /\ k <= F * size_of_tree n t + b).
  Proof.
    intros HB. induction n as [|n IH]; intros off t k; [left; cbn; lia|]. subst k. cbn [follow_counted].
    unfold round_counted, cbind. cbn [fst snd]. pose proof (resolve_lookups_le (chain_fuel ti) ti t) as RL. cbn [tree].
    destruct (resolve ti t) as [[r ty]|x|q|] eqn:Er; cbn [fst snd]; try (left; lia).
    destruct (member_lists ty) as [ms|] eqn:Em.
    2:{ left. set (f := chain_fuel ti) in *. clearbody f. destruct ty; try discriminate Em; cbn [fst snd free length N.of_nat]; rewrite N.add_0_r, N.mul_1_r || lia; lia. }
    destruct (resolved_members _ _ _ _ Er Em) as (Ct & Ff & M).
    assert (HI : is ti r ty) by (exists r; split; [constructor|]; pose proof (resolve_sound ti t) as S; rewrite Er in S; apply S).
    assert (HIt : is ti t ty) by (apply is_resolve; exists r; exact Er).
    assert (Goal0 : forall p, p = probe_counted (fun o mt => follow_counted n c ti e o mt (Name name :: cs)) off ms ->
      let k := resolve_lookups (chain_fuel ti) ti t + snd (cbind p (fun found => match found with Some v => free (Ok v) | None =>
        match find (has_name name) ms with Some m => cbind (free (btf_err (offset_add off (m_offset m)))) (fun off' => follow_counted n c ti e off' (m_tid m) cs) | None => free (Err OEMemberNotFound) end end)) in
      k <= F * (1 + N.of_nat (length (edges (tree n) r 0 ms))) \/ (offers ti name t /\ k <= F * (1 + N.of_nat (length (edges (tree n) r 0 ms))) + b)).
    { intros p Ep k.
      assert (P : snd p <= F * N.of_nat (length (edges (tree n) r 0 ms)) \/
        exists i m, nth_error ms i = Some m /\ m_name m = None /\ offers ti name (m_tid m) /\ snd p <= F * N.of_nat (length (edges (tree n) r 0 ms)) + b).
      { rewrite Ep. apply (probe_cost name _ (tree n) off r ty ms b Ff HI M); [|auto]. intros o mt. apply IH. }
      assert (Q : snd (cbind p (fun found => match found with Some v => free (Ok v) | None =>
        match find (has_name name) ms with Some m => cbind (free (btf_err (offset_add off (m_offset m)))) (fun off' => follow_counted n c ti e off' (m_tid m) cs) | None => free (Err OEMemberNotFound) end end)) <= snd p \/
        (exists m, In m ms /\ m_name m = Some name) /\ snd (cbind p (fun found => match found with Some v => free (Ok v) | None =>
        match find (has_name name) ms with Some m => cbind (free (btf_err (offset_add off (m_offset m)))) (fun off' => follow_counted n c ti e off' (m_tid m) cs) | None => free (Err OEMemberNotFound) end end)) <= snd p + b).
      { destruct (find (has_name name) ms) as [m|] eqn:Ef.
        - right. apply find_some in Ef. destruct Ef as [Hin Hn]. split; [exists m; split; [exact Hin|apply has_name_iff; exact Hn]|].
          apply cbind_snd. intros [v|] _; [cbn; lia|]. transitivity (0 + b); [|lia]. apply (cbind_snd (free _)). intros o _. apply HB.
        - left. transitivity (snd p + 0); [|lia]. apply cbind_snd. intros [v|] _; cbn; lia. }
      set (kk := snd (cbind p _)) in *. subst k. destruct P as [P|(i & m & H1 & H2 & H3 & P)], Q as [Q|[(m' & H4 & H5) Q]].
      - left. nia.
      - right. split; [eapply offers_member; eassumption|nia].
      - right. split; [eapply offers_anonymous; [exact HIt|exact M|eapply nth_error_In; exact H1|exact H2|exact H3]|nia].
      - exfalso. assert (m = m').
        { apply (UN r ty ms name m m'); [exact HI|exact M|eapply nth_error_In; exact H1|exact H4|right; auto|left; exact H5]. }
        subst m'. congruence. }
    destruct ty; try discriminate Em; injection Em as Em; cbn beta iota; rewrite Em; apply (Goal0 _ eq_refl).
  Qed.
  Lemma follow_cost cs : forall n off t, snd (follow_counted n c ti e off t cs) <= N.of_nat (length cs) * (F * (N.of_nat (anonymous_members ti) + 2) + 1).
  Proof.
    induction cs as [|comp cs IH]; intros n off t.
    { destruct n; [cbn; lia|]. cbn [follow_counted]. destruct e; cbn; lia. }
    set (b := N.of_nat (length cs) * (F * (N.of_nat (anonymous_members ti) + 2) + 1)) in *.
    assert (Goal0 : snd (follow_counted n c ti e off t (comp :: cs)) <= (F * (N.of_nat (anonymous_members ti) + 2) + 1) + b).
    2:{ cbn [length]. rewrite Nat2N.inj_succ. subst b. nia. }
    destruct comp as [i|name].
    - destruct n as [|n]; [cbn; lia|]. cbn [follow_counted]. unfold round_counted.
      pose proof (resolve_lookups_le (chain_fuel ti) ti t) as RL.
      transitivity (resolve_lookups (chain_fuel ti) ti t + (F + 1 + b)); [|nia].
      apply (cbind_snd (resolve ti t, resolve_lookups (chain_fuel ti) ti t)). intros [r ty] _. cbn [snd].
      destruct ty; cbn [free snd]; try lia.
      transitivity (array_lookups ti d i + b).
      + apply (cbind_snd (array_step c ti d off i, array_lookups ti d i)). intros o _. apply IH.
      + unfold array_lookups. pose proof (size_lookups_le (chain_fuel ti) ti (element_tid d)). destruct (element_count d <=? i); lia.
    - pose proof (name_cost name cs b (fun m o mt => IH m o mt) n off t) as H. cbv zeta in H.
      pose proof (tree_length n t) as L. assert (L' : N.of_nat (length (tree n t)) <= N.of_nat (anonymous_members ti)) by lia.
      assert (X : F * (1 + N.of_nat (length (tree n t))) <= F * (N.of_nat (anonymous_members ti) + 2)) by (apply N.mul_le_mono_l; lia).
      destruct H as [H|[_ H]]; lia.
  Qed.
End Tree.
