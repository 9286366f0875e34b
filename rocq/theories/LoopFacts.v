(** * LoopFacts: a search that is not over after very many steps has asked a question twice. *)
From Coq Require Import List NArith Bool Lia Strings.Byte.
From Verif Require Import TypeInfo Spec BaseFacts Maps PathSpec QuerySpec Chains Sizes Follow Message MessageSpec MessageFacts SearchSpec SearchFacts LoopSpec.
Import ListNotations.
Open Scope N_scope.

(** ** Chains of links *)
Lemma endless_comes_back (R : N -> N -> Prop) keys t : (forall a b, R a b -> In a keys) -> endless R t -> comes_back R t.
Proof.
  intros K (f & F0 & F). destruct (find_dup f (S (length keys))) as [(i & j & L & _ & E)|ND].
  - assert (Ch : forall i n, chain R (f i) (f (i + n)%nat)).
    { intros i0 n. revert i0. induction n as [|n IH]; intros i0; [rewrite Nat.add_0_r; constructor|]. eapply chain_step; [apply F|]. rewrite <- Nat.add_succ_comm. apply IH. }
    exists (f i), (f (S i)). split; [rewrite <- F0; apply (Ch 0%nat i)|]. split; [apply F|]. rewrite E. replace j with (S i + (j - S i))%nat by lia. apply Ch.
  - exfalso. assert (I : incl (map f (seq 0 (S (length keys)))) keys) by (intros x X; apply in_map_iff in X; destruct X as (k & <- & _); eapply K, F).
    pose proof (NoDup_incl_length ND I) as L. rewrite map_length, seq_length in L. lia.
Qed.
Lemma comes_back_endless (R : N -> N -> Prop) t : comes_back R t -> endless R t.
Proof.
  intros (u & v & Ht & Ru & Hv). assert (E : endless R u).
  { (* going round: a function *)
    assert (P : exists l, l <> [] /\ exists g : nat -> N, g 0%nat = u /\ g (length l) = u /\ (forall k, (k < length l)%nat -> R (g k) (g (S k))) /\ l = map g (seq 0 (length l))).
    { assert (Q : forall a b, chain R a b -> exists n (g : nat -> N), g 0%nat = a /\ g n = b /\ forall k, (k < n)%nat -> R (g k) (g (S k))).
      { induction 1 as [a|a b c Rab _ (n & g & G0 & Gn & G)]; [exists 0%nat, (fun _ => a); repeat split; intros k L; lia|].
        exists (S n), (fun k => match k with O => a | S k => g k end). split; [reflexivity|]. split; [exact Gn|]. intros [|k] L; [rewrite G0; exact Rab|apply G; lia]. }
      destruct (Q _ _ Hv) as (n & g & G0 & Gn & G). exists (map (fun k => match k with O => u | S k => g k end) (seq 0 (S n))). split; [discriminate|].
      exists (fun k => match k with O => u | S k => g k end). rewrite map_length, seq_length. split; [reflexivity|]. split; [exact Gn|]. split; [|reflexivity].
      intros [|k] L; [rewrite G0; exact Ru|apply G; lia]. }
    destruct P as (l & Hl & g & G0 & Gn & G & _). assert (Lp : (0 < length l)%nat) by (destruct l; [congruence|cbn; lia]). set (n := length l) in *. clearbody n.
    exists (fun k => g (k mod n)%nat). split; [rewrite Nat.mod_small by lia; exact G0|]. intros k. pose proof (Nat.mod_upper_bound k n ltac:(lia)) as B.
    pose proof (G _ B) as Step. destruct (Nat.eq_dec (S (k mod n)) n) as [X|X].
    - rewrite X, Gn in Step. replace (S k mod n)%nat with 0%nat; [rewrite G0; exact Step|]. symmetry. replace (S k) with (0 + (S (k / n)) * n)%nat; [rewrite Nat.mod_add by lia; apply Nat.mod_small; lia|].
      pose proof (Nat.div_mod k n ltac:(lia)). nia.
    - replace (S k mod n)%nat with (S (k mod n))%nat; [exact Step|]. symmetry. replace (S k) with (S (k mod n) + (k / n) * n)%nat by (pose proof (Nat.div_mod k n ltac:(lia)); nia).
      rewrite Nat.mod_add by lia. apply Nat.mod_small. lia. }
  clear Ru Hv. induction Ht as [|t w u Rt Hw IH]; [exact E|]. eapply endless_cons; [exact Rt|apply IH; exact E].
Qed.

(** ** Pigeonhole *)
Lemma dup_or_not {A} (dec : forall a b : A, {a = b} + {a <> b}) (l : list A) : NoDup l \/ exists a l1 l2 l3, l = l1 ++ a :: l2 ++ a :: l3.
Proof.
  induction l as [|x l [IH|(a & l1 & l2 & l3 & ->)]]; [left; constructor| |right; exists a, (x :: l1), l2, l3; reflexivity].
  destruct (in_dec dec x l) as [I|I]; [|left; constructor; assumption]. apply in_split in I. destruct I as (l2 & l3 & ->). right. exists x, [], l2, l3. reflexivity.
Qed.
Definition question_dec (a b : question) : {a = b} + {a <> b}.
Proof.
  assert (DC : forall x y : component, {x = y} + {x <> y}) by (decide equality; [apply N.eq_dec|apply (list_eq_dec Byte.byte_eq_dec)]).
  assert (DO : forall x y : offset, {x = y} + {x <> y}) by (decide equality; apply N.eq_dec).
  decide equality; [apply (list_eq_dec DC)|]. decide equality. apply N.eq_dec.
Qed.

Section Loop.
  Context (c : build) (ti : type_information) (e : option message).
  Notation asks := (asks c ti e).
  Notation comes_to := (comes_to c ti e).
  Definition busy_q (n : nat) (q : question) : Prop := let '(o, t, cs) := q in busy c ti e n o t cs.
  Lemma busy_fewer n m q : (m <= n)%nat -> busy_q n q -> busy_q m q.
  Proof.
    destruct q as [[o t] cs]. intros L B. apply busy_hunt in B. apply hunt_busy. destruct (hunt c ti e m o t cs) as [r|k|x|] eqn:E; try reflexivity;
    rewrite (hunt_le c ti e m n o t cs L) in B by (rewrite E; discriminate); congruence.
  Qed.
  Lemma asks_busy n q q' : asks q q' -> busy_q n q' -> busy_q (S n) q.
  Proof.
    intros H. destruct H as [o t i cs h d s o' H1 H2 H3 H4 H5|o t x cs ty before a after o' H1 H2 H3 H4 H5|o t x cs ty ms a o' H1 H2 H3 H4 H5]; cbn [busy_q]; intros B;
    [eapply busy_element|eapply busy_anonymous|eapply busy_member]; eassumption.
  Qed.
  Lemma comes_busy q q' : comes_to q q' -> forall n, busy_q n q' -> busy_q n q.
  Proof. induction 1 as [q|q q' q'' H _ IH]; intros n B; [exact B|]. apply (busy_fewer (S n)); [lia|]. eapply asks_busy; [exact H|apply IH; exact B]. Qed.
  Lemma hangs_busy q : hangs c ti e q -> forall n, busy_q n q.
  Proof.
    destruct q as [[o t] cs]. intros [[Hc H]|[(i & cs' & h & d & -> & Hi & L & H)|(q' & H & H')]] n.
    - destruct cs as [|x cs]; [congruence|]. apply busy_chain. apply comes_back_endless. exact H.
    - eapply busy_size; [exact Hi|exact L|]. apply comes_back_endless. exact H.
    - induction n as [|n IH]; [destruct q' as [[? ?] ?]; constructor|]. eapply asks_busy; [exact H|]. eapply comes_busy; [exact H'|exact IH].
  Qed.

  (** A path of questions *)
  Inductive path : list question -> Prop :=
  | path_one q : path [q]
  | path_more q q' l : asks q q' -> path (q' :: l) -> path (q :: q' :: l).
  Lemma busy_path n : forall q, busy_q n q -> (exists q', comes_to q q' /\ hangs c ti e q') \/ exists l, length l = n /\ path (q :: l).
  Proof.
    induction n as [|n IH]; intros q B; [right; exists []; split; [reflexivity|constructor]|]. destruct q as [[o t] cs]. cbn [busy_q] in B.
    assert (Go : forall q', asks (o, t, cs) q' -> busy_q n q' -> (exists q', comes_to (o, t, cs) q' /\ hangs c ti e q') \/ exists l, length l = S n /\ path ((o, t, cs) :: l)).
    { intros q' A B'. destruct (IH q' B') as [(q2 & C & H)|(l & L & P)].
      - left. exists q2. split; [eapply comes_on; eassumption|exact H].
      - right. exists (q' :: l). split; [exact (f_equal S L)|]. constructor; assumption. }
    inversion B as [|n0 o0 t0 x cs0 He|n0 o0 t0 i cs0 h d Hi L He|n0 o0 t0 i cs0 h d s o' Hi L Hs Hf Ha Hb|n0 o0 t0 x cs0 ty before a after o' Hi Hms Hn AF Ha Hb|n0 o0 t0 x cs0 ty ms a o' Hi Hms AF Hn Ha Hb]; subst.
    - left. eexists. split; [apply comes_here|]. left. split; [discriminate|]. eapply endless_comes_back; [apply transparent_known|exact He].
    - left. eexists. split; [apply comes_here|]. right. left. do 4 eexists. split; [reflexivity|]. split; [exact Hi|]. split; [exact L|]. eapply endless_comes_back; [apply size_link_known|exact He].
    - eapply Go; [eapply asks_element; eassumption|exact Hb].
    - eapply Go; [eapply asks_anonymous; eassumption|exact Hb].
    - eapply Go; [eapply asks_member; eassumption|exact Hb].
  Qed.
  Lemma path_tail a l : path (a :: l) -> l <> [] -> path l.
  Proof. intros P. inversion P; subst; [congruence|auto]. Qed.
  Lemma path_comes l1 : forall q a l2, path (q :: l1 ++ a :: l2) -> comes_to q a /\ path (a :: l2) /\ exists q', asks q q' /\ comes_to q' a.
  Proof.
    induction l1 as [|b l1 IH]; intros q a l2 P; cbn [app] in P; inversion P; subst.
    - split; [eapply comes_on; [eassumption|apply comes_here]|]. split; [assumption|]. eexists. split; [eassumption|apply comes_here].
    - destruct (IH _ _ _ H3) as (C & P' & _). split; [eapply comes_on; eassumption|]. split; [exact P'|]. eexists. split; eassumption.
  Qed.
  Lemma path_dup q l a l1 l2 l3 : path (q :: l) -> q :: l = l1 ++ a :: l2 ++ a :: l3 -> comes_to q a /\ hangs c ti e a.
  Proof.
    intros P E. assert (X : comes_to q a /\ path (a :: l2 ++ a :: l3)).
    { destruct l1 as [|b l1]; cbn [app] in E; injection E as -> ->; [split; [apply comes_here|exact P]|]. destruct (path_comes _ _ _ _ P) as (C & P' & _). auto. }
    destruct X as [C P']. split; [exact C|]. destruct (path_comes _ _ _ _ P') as (_ & _ & q' & A & B). destruct a as [[o t] cs]. right. right. exists q'. auto.
  Qed.

  (** ** There are finitely many questions *)
  Definition bit_sizes : list N :=
    flat_map (fun p : N * type_variant => flat_map (fun m => match m_offset m with BitOffsetAndSize _ z => [z] | _ => [] end) (match member_lists (snd p) with Some ms => ms | None => [] end)) (id_to_type_map ti).
  Definition within (o : offset) : Prop := fits32 o /\ match o with BitOffsetAndSize _ z => In z bit_sizes | _ => True end.
  Lemma all_below (limit : N) : exists l, forall n, n < limit -> In n l.
  Proof. exists (map N.of_nat (seq 0 (N.to_nat limit))). intros n L. apply in_map_iff. exists (N.to_nat n). split; [apply N2Nat.id|]. apply in_seq. lia. Qed.
  Lemma all_places : exists places, forall o, within o -> In o places.
  Proof.
    destruct (all_below (2 ^ 32)) as [numbers I]. exists (map ByteOffset numbers ++ map (fun p => BitOffsetAndSize (fst p) (snd p)) (list_prod numbers bit_sizes)). intros o [F Z].
    apply in_or_app. destruct o as [b|b z]; cbn [fits32] in F; [left; apply in_map; apply I; exact F|].
    right. apply in_map_iff. exists (b, z). split; [reflexivity|]. apply in_prod; [apply I; exact F|exact Z].
  Qed.
  Fixpoint tails {A} (l : list A) : list (list A) := l :: match l with [] => [] | _ :: l' => tails l' end.
  Lemma tails_here {A} (l : list A) : In l (tails l). Proof. destruct l; left; reflexivity. Qed.
  Lemma tails_tail {A} (x : A) l0 l : In (x :: l) (tails l0) -> In l (tails l0).
  Proof.
    induction l0 as [|y l0 IH]; cbn [tails]; intros [H|H]; try discriminate H; try contradiction.
    - injection H as -> ->. right. apply tails_here.
    - right. apply IH. exact H.
  Qed.
  Lemma from_id_in t ty : from_id ti t = Some ty -> ty <> TVoid -> exists k, In (k, ty) (id_to_type_map ti).
  Proof.
    unfold from_id. destruct (t =? 0); [intros [= <-]; congruence|]. intros H _. exists t. revert H. generalize (id_to_type_map ti). intros l.
    induction l as [|[k v] l IH]; cbn [bt_get]; [discriminate|]. destruct (N.compare t k) eqn:C; try (intros H; right; apply IH; exact H).
    - intros [= ->]. apply N.compare_eq_iff in C. subst. left. reflexivity.
  Qed.
  Lemma is_known t ty : is ti t ty -> ty <> TVoid -> In t (known ti) /\ exists k, In (k, ty) (id_to_type_map ti).
  Proof.
    intros (r & C & O) V. apply opaque_iff in O. destruct O as [O _]. split; [|eapply from_id_in; eassumption]. inversion C; subst; [eapply from_id_known; eassumption|eapply transparent_known; eassumption].
  Qed.
  Lemma members_void ty ms : members_of ty ms -> ty <> TVoid. Proof. intros H ->. exact H. Qed.
  Lemma asks_within q q' : asks q q' -> within (fst (fst q)) -> within (fst (fst q')) /\ In (snd (fst q)) (known ti).
  Proof.
    intros H. destruct H as [o t i cs h d s o' H1 H2 H3 H4 H5|o t x cs ty before a after o' H1 H2 H3 H4 H5|o t x cs ty ms a o' H1 H2 H3 H4 H5]; cbn [fst snd]; intros [F Z].
    - split; [|apply (is_known t _ H1); discriminate]. inversion H5; subst; [split; [assumption|exact I]].
    - split; [|apply (is_known t _ H1); eapply members_void; exact H2]. inversion H5; subst. split; [assumption|]. destruct o; exact Z.
    - destruct (is_known t _ H1) as (K & k & KI); [eapply members_void; exact H2|]. split; [|exact K]. inversion H5; subst. split; [assumption|].
      destruct (m_offset a) as [b|b z] eqn:Ea; [exact I|]. cbn [QuerySpec.shift]. unfold bit_sizes. apply in_flat_map. exists (k, ty). split; [exact KI|]. cbn [snd].
      rewrite (proj2 (members_lists ty ms) H2). destruct H4 as (ms1 & ms2 & -> & _). apply in_flat_map. exists a. split; [apply in_elt|]. rewrite Ea. left. reflexivity.
  Qed.
  Lemma all_questions cs0 : exists questions : list question, forall o t cs, within o -> In t (known ti) -> In cs (tails cs0) -> In (o, t, cs) questions.
  Proof.
    destruct all_places as [places I]. exists (list_prod (list_prod places (known ti)) (tails cs0)). intros o t cs W K T. apply in_prod; [apply in_prod; [apply I; exact W|exact K]|exact T].
  Qed.
  Lemma path_within cs0 questions l : (forall o t cs, within o -> In t (known ti) -> In cs (tails cs0) -> In (o, t, cs) questions) -> forall q, path (q :: l) -> within (fst (fst q)) -> In (snd q) (tails cs0) -> incl (removelast (q :: l)) questions.
  Proof.
    intros All. induction l as [|q' l IH]; intros q P W T; [intros x []|]. inversion P; subst. destruct (asks_within _ _ H1 W) as [W' K].
    assert (T' : In (snd q') (tails cs0)).
    { destruct H1; cbn [snd] in *; try (eapply tails_tail; exact T). exact T. }
    change (removelast (q :: q' :: l)) with (q :: removelast (q' :: l)). intros x [<-|X]; [|exact (IH q' H3 W' T' x X)].
    destruct q as [[o t] cs]. apply All; assumption.
  Qed.
  Lemma removelast_length {A} (l : list A) : length (removelast l) = (length l - 1)%nat.
  Proof. induction l as [|a [|b l] IH]; [reflexivity|reflexivity|]. change (removelast (a :: b :: l)) with (a :: removelast (b :: l)). cbn [length] in *. lia. Qed.
  Lemma removelast_split {A} (l : list A) : l <> [] -> exists x, l = removelast l ++ [x].
  Proof. intros H. destruct (exists_last H) as (l' & x & ->). exists x. rewrite removelast_last. reflexivity. Qed.
  Lemma busy_long o t cs : within o -> exists n, busy c ti e n o t cs -> exists q, comes_to (o, t, cs) q /\ hangs c ti e q.
  Proof.
    intros W. destruct (all_questions cs) as [questions All]. exists (S (length questions)). intros B. destruct (busy_path _ (o, t, cs) B) as [H|(l & L & P)]; [exact H|].
    destruct (dup_or_not question_dec (removelast ((o, t, cs) :: l))) as [ND|(a & l1 & l2 & l3 & E)].
    - exfalso. pose proof (NoDup_incl_length ND (path_within cs questions l All (o, t, cs) P W (tails_here cs))) as K. rewrite removelast_length in K. cbn [length] in K.
      assert (L' : length l = S (length questions)) by exact L. rewrite L' in K. lia.
    - destruct (removelast_split ((o, t, cs) :: l)) as [x X]; [discriminate|]. rewrite E in X. exists a. apply (path_dup (o, t, cs) l a l1 l2 (l3 ++ [x]) P). etransitivity; [exact X|]. rewrite <- !app_assoc. cbn [app]. rewrite <- app_assoc. reflexivity.
  Qed.
  Theorem busy_comes_back o t cs : within o -> ((forall n, busy c ti e n o t cs) <-> exists q, comes_to (o, t, cs) q /\ hangs c ti e q).
  Proof.
    intros W. split.
    - intros B. destruct (busy_long o t cs W) as [n H]. exact (H (B n)).
    - intros (q & C & H) n. exact (comes_busy _ _ C n (hangs_busy q H n)).
  Qed.
  (** With this many steps the search is over, or is never over. *)
  Lemma busy_decides o t cs : within o -> (exists n, hunt c ti e n o t cs <> Diverge) \/ forall n, busy c ti e n o t cs.
  Proof.
    intros W. destruct (busy_long o t cs W) as [n H]. destruct (hunt c ti e n o t cs) as [r|k|x|] eqn:E; try (left; exists n; rewrite E; discriminate).
    right. apply busy_comes_back; [exact W|]. apply H. apply hunt_busy. exact E.
  Qed.

  (** ** What a loop looks like *)
  Definition enters (q q' : question) : Prop := exists o t n cs ty ms a b,
    q = (o, t, Name n :: cs) /\ is ti t ty /\ members_of ty ms /\ In a ms /\ m_name a = None /\ m_offset a = ByteOffset b /\ q' = (QuerySpec.shift b o, m_tid a, Name n :: cs).
  Lemma asks_shorter q q' : asks q q' -> (length (snd q') < length (snd q))%nat \/ enters q q'.
  Proof.
    intros H. destruct H as [o t i cs h d s o' H1 H2 H3 H4 H5|o t x cs ty before a after o' H1 H2 H3 H4 H5|o t x cs ty ms a o' H1 H2 H3 H4 H5]; cbn [snd length]; [left; lia| |left; lia].
    right. inversion H5; subst. unfold enters. exists o, t, x, cs, ty, (before ++ a :: after), a, a0. split; [reflexivity|]. split; [exact H1|]. split; [exact H2|]. split; [apply in_elt|]. split; [exact H3|]. split; [symmetry; assumption|reflexivity].
  Qed.
  Lemma shift_shift a b o : QuerySpec.shift a (QuerySpec.shift b o) = QuerySpec.shift (a + b) o.
  Proof. destruct o; cbn [QuerySpec.shift]; f_equal; lia. Qed.
  Lemma comes_shorter q q' : comes_to q q' -> (length (snd q') < length (snd q))%nat \/ (snd q' = snd q /\ exists b, fst (fst q') = QuerySpec.shift b (fst (fst q))).
  Proof.
    induction 1 as [q|q q' q'' H _ IH]; [right; split; [reflexivity|]; exists 0; destruct q as [[[b|b z] t] cs]; cbn [fst QuerySpec.shift]; f_equal; lia|].
    destruct (asks_shorter _ _ H) as [L|(o & t & n & cs & ty & ms & a & b & -> & _ & _ & _ & _ & _ & ->)]; cbn [fst snd length] in *.
    - left. destruct IH as [IH|[IH _]]; [lia|rewrite IH; exact L].
    - destruct IH as [IH|[IH [b' IH']]]; [left; exact IH|]. right. split; [exact IH|]. exists (b' + b). rewrite IH', shift_shift. reflexivity.
  Qed.
  Lemma loop_enters q q' : asks q q' -> comes_to q' q -> exists o t n cs ty ms a,
    q = (o, t, Name n :: cs) /\ is ti t ty /\ members_of ty ms /\ In a ms /\ m_name a = None /\ m_offset a = ByteOffset 0 /\ q' = (o, m_tid a, Name n :: cs).
  Proof.
    intros H H'. pose proof (asks_shorter _ _ H) as A. pose proof (comes_shorter _ _ H') as C. destruct A as [A|A]; [destruct C as [C|[C _]]; [lia|rewrite C in A; lia]|].
    destruct A as (o & t & n & cs & ty & ms & a & b & -> & Hi & Hm & Ha & Hn & Ho & ->). cbn [fst snd] in C. destruct C as [C|[_ [b' C]]]; [lia|].
    rewrite shift_shift in C. assert (Z : b = 0) by (destruct o; cbn [QuerySpec.shift] in C; injection C; lia). subst b.
    exists o, t, n, cs, ty, ms, a. repeat (split; [assumption || reflexivity|]). destruct o; cbn [QuerySpec.shift]; reflexivity.
  Qed.
End Loop.
