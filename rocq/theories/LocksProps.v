(** * LocksProps: the lock discipline of offset_of. *)
From Coq Require Import Lia Bool.
From Verif Require Import TypeInfo Spec BaseFacts PathSpec Path QuerySpec Chains Sizes Follow Offsets Offsets2 OffsetOf Cache CacheProps Locks.

Definition lcall_of (t : lthread) : cache_key :=
  match t with LStart k | LRead k _ | LGot k _ | LComputing k | LWait k _ | LWrite k _ _ | LWritten k _ | LDone k _ => k end.
Definition holds (t : lthread) : bool := reads t || writes t.
(** At any time: readers only, or one writer and nobody else. *)
Definition exclusive (ts : list lthread) : Prop :=
  forall i j a b, nth_error ts i = Some a -> nth_error ts j = Some b -> writes a = true -> holds b = true -> i = j.
(** Thread [i] can take a step. *)
Definition can_step (pol : list lthread -> bool) (c : build) (ti : type_information) (w : lworld) (i : nat) : Prop :=
  exists t, nth_error (l_threads w) i = Some t /\ forall fuel, lstep_thread pol c ti fuel w t <> None.
Definition done (t : lthread) : bool := match t with LDone _ _ => true | _ => false end.

Lemma nth_set {A} i j (x y : A) l : nth_error (set_nth i x l) j = Some y -> (i = j /\ y = x) \/ (i <> j /\ nth_error l j = Some y).
Proof.
  intros H. destruct (Nat.eq_dec i j) as [-> |Hne]; [|right; rewrite set_nth_other in H by exact Hne; auto].
  left. split; [reflexivity|]. assert (L : (j < length l)%nat).
  { clear -H. revert j H. induction l as [|a l IH]; intros [|j] H; cbn in *; try discriminate; [lia|]. specialize (IH j H). lia. }
  rewrite set_nth_same in H by exact L. congruence.
Qed.
Section Locked.
  Context (pol : list lthread -> bool) (c : build) (ti : type_information).
  Lemma lrun_snoc evs ev : lrun pol c ti (evs ++ [ev]) = lstep pol c ti (lrun pol c ti evs) ev.
  Proof. unfold lrun. rewrite fold_left_app. reflexivity. Qed.

  (** *** Mutual exclusion *)
  Lemma lstep_exclusive w ev : exclusive (l_threads w) -> exclusive (l_threads (lstep pol c ti w ev)).
  Proof.
    intros H. destruct ev as [k|n fuel|]; cbn [lstep l_threads]; [| |exact H].
    - intros i j a b Ha Hb Wa Hb'.
      assert (Old : forall n x, nth_error (l_threads w ++ [LStart k]) n = Some x -> holds x = true -> nth_error (l_threads w) n = Some x).
      { intros n x E Hx. destruct (Nat.lt_ge_cases n (length (l_threads w))) as [L|L]; [rewrite nth_error_app1 in E by exact L; exact E|].
        rewrite nth_error_app2 in E by exact L. destruct (n - length (l_threads w))%nat as [|q]; cbn in E; [injection E as <-; discriminate|destruct q; discriminate]. }
      apply (H i j a b); try assumption; apply Old; try assumption. unfold holds. rewrite Wa. apply orb_true_r.
    - destruct (nth_error (l_threads w) n) as [t|] eqn:Et; [|exact H]. destruct (lstep_thread pol c ti fuel w t) as [[m t']|] eqn:Es; [|exact H].
      cbn [l_threads snd]. intros i j a b Ha Hb Wa Hb'. apply nth_set in Ha. apply nth_set in Hb.
      assert (Nw : no_writer w = true -> forall j b, nth_error (l_threads w) j = Some b -> writes b = false).
      { intros G j' b' E. unfold no_writer in G. rewrite forallb_forall in G. specialize (G b' (nth_error_In _ _ E)). destruct (writes b'); [discriminate|reflexivity]. }
      assert (Nh : no_holder w = true -> forall j b, nth_error (l_threads w) j = Some b -> holds b = false).
      { intros G j' b' E. unfold no_holder in G. rewrite forallb_forall in G. specialize (G b' (nth_error_In _ _ E)). unfold holds. destruct (writes b'), (reads b'); try discriminate; reflexivity. }
      destruct Ha as [[<- ->]|[Hni Ha]]; destruct Hb as [[<- ->]|[Hnj Hb]]; [reflexivity| | |exact (H i j a b Ha Hb Wa Hb')].
      + (* the stepping thread writes *) destruct t; cbn [lstep_thread] in Es.
        * destruct (no_writer w && pol (l_threads w)); [|discriminate]. injection Es as <- <-. discriminate Wa.
        * destruct usable; injection Es as <- <-; discriminate Wa.
        * destruct found; injection Es as <- <-; discriminate Wa.
        * destruct (offset_of_uncached fuel c ti (fst k) (snd k)); injection Es as <- <-; discriminate Wa.
        * destruct (no_holder w) eqn:G; [|discriminate]. rewrite (Nh eq_refl _ _ Hb) in Hb'. discriminate.
        * apply (H n j _ b Et Hb); [reflexivity|exact Hb'].
        * injection Es as <- <-. discriminate Wa.
        * discriminate Es.
      + (* the stepping thread holds the lock *) destruct t; cbn [lstep_thread] in Es.
        * destruct (no_writer w && pol (l_threads w)) eqn:G; [|discriminate]. apply andb_true_iff in G; destruct G as [G _]. rewrite (Nw G _ _ Ha) in Wa. discriminate.
        * apply (H i n a _ Ha Et); [exact Wa|reflexivity].
        * apply (H i n a _ Ha Et); [exact Wa|reflexivity].
        * destruct (offset_of_uncached fuel c ti (fst k) (snd k)); injection Es as <- <-; discriminate Hb'.
        * destruct (no_holder w) eqn:G; [|discriminate]. pose proof (Nh eq_refl _ _ Ha) as X. unfold holds in X. rewrite Wa in X. rewrite orb_true_r in X. discriminate.
        * apply (H i n a _ Ha Et); [exact Wa|reflexivity].
        * apply (H i n a _ Ha Et); [exact Wa|reflexivity].
        * discriminate Es.
  Qed.
  Theorem lrun_exclusive evs : exclusive (l_threads (lrun pol c ti evs)).
  Proof.
    induction evs as [|ev evs IH] using rev_ind; [intros [|i] j a b H; discriminate H|]. rewrite lrun_snoc. apply lstep_exclusive, IH.
  Qed.

  (** *** No deadlock *)
  Lemma holder_steps fuel w t : holds t = true -> exists r, lstep_thread pol c ti fuel w t = Some r.
  Proof.
    destruct t as [k|k u|k f|k|k v|k v u|k v|k r]; cbn [holds reads writes orb lstep_thread]; try discriminate; intros _.
    - destruct u; eauto.
    - destruct f; eauto.
    - destruct u; eauto.
    - eauto.
  Qed.
  Theorem no_deadlock w i t : lock_policy pol -> nth_error (l_threads w) i = Some t -> done t = false ->
    exists j, can_step pol c ti w j.
  Proof.
    intros LP Ht Hd. destruct (forallb (fun t => negb (holds t)) (l_threads w)) eqn:G.
    - (* nobody holds the lock *)
      assert (A : no_writer w = true /\ no_holder w = true).
      { unfold no_writer, no_holder. rewrite !forallb_forall. rewrite forallb_forall in G. split; intros x Hx; specialize (G x Hx); unfold holds in G; destruct (reads x), (writes x); try discriminate; reflexivity. }
      destruct A as [A1 A2]. destruct (existsb waits_to_write (l_threads w)) eqn:B.
      + (* a waiting writer gets it *)
        apply existsb_exists in B. destruct B as (t' & Hin & Hw). apply In_nth_error in Hin. destruct Hin as (j & Hj). exists j, t'. split; [exact Hj|].
        intros fuel. destruct t'; try discriminate Hw. cbn [lstep_thread]. rewrite A2. discriminate.
      + exists i, t. split; [exact Ht|]. intros fuel. destruct t as [k|k u|k f|k|k v|k v u|k v|k r]; cbn [lstep_thread].
        * rewrite A1, (LP _ B). discriminate.
        * destruct u; discriminate.
        * destruct f; discriminate.
        * destruct (offset_of_uncached fuel c ti (fst k) (snd k)); discriminate.
        * rewrite A2. discriminate.
        * destruct u; discriminate.
        * discriminate.
        * discriminate Hd.
    - (* somebody does, and can go on *)
      assert (X : exists t', In t' (l_threads w) /\ holds t' = true).
      { clear -G. induction (l_threads w) as [|x l IH]; [discriminate|]. cbn in G. destruct (holds x) eqn:E; [exists x; split; [left; reflexivity|exact E]|].
        destruct (IH G) as (t' & H1 & H2). exists t'. split; [right; exact H1|exact H2]. }
      destruct X as (t' & Hin & Hh). apply In_nth_error in Hin. destruct Hin as (j & Hj). exists j.
      exists t'. split; [exact Hj|]. intros fuel. destruct (holder_steps fuel w t' Hh) as (r & Hr). congruence.
  Qed.
  (** No guard is held while computing or while waiting for the lock. *)
  Lemma waits_without_lock fuel w t : lstep_thread pol c ti fuel w t = None -> holds t = false.
  Proof. intros H. destruct (holds t) eqn:E; [|reflexivity]. destruct (holder_steps fuel w t E) as (r & Hr). congruence. Qed.

  (** *** The finer steps are those of the atomic model *)
  Notation computes k r := (offset_of_returns c ti (fst k) (snd k) r).
  Definition lthread_ok (t : lthread) : Prop :=
    match t with
    | LGot k (Some v) => computes k (Ok v)
    | LWait k v | LWrite k v _ | LWritten k v => computes k (Ok v)
    | LDone k r => computes k r
    | _ => True
    end.
  Lemma lstep_thread_ok fuel w t m t' : cache_ok c ti (l_cache w) -> lthread_ok t -> lstep_thread pol c ti fuel w t = Some (m, t') ->
    cache_ok c ti m /\ lthread_ok t' /\ lcall_of t' = lcall_of t.
  Proof.
    intros Hm Ht H. destruct t as [k|k u|k f|k|k v|k v u|k v|k r]; cbn [lstep_thread] in H.
    - destruct (no_writer w && pol (l_threads w)); [|discriminate]. injection H as <- <-. split; [exact Hm|split; [exact I|reflexivity]].
    - destruct u; injection H as <- <-; (split; [exact Hm|split; [|reflexivity]]); [|exact I].
      cbn. destruct (cache_get k (l_cache w)) as [v|] eqn:E; [exact (Hm _ _ E)|exact I].
    - destruct f; injection H as <- <-; (split; [exact Hm|split; [|reflexivity]]); [exact Ht|exact I].
    - destruct (offset_of_uncached fuel c ti (fst k) (snd k)) as [v|e|q|] eqn:E; injection H as <- <-; (split; [exact Hm|split; [|reflexivity]]); cbn; try exact I; (split; [discriminate|eauto]).
    - destruct (no_holder w); [|discriminate]. injection H as <- <-. split; [exact Hm|split; [exact Ht|reflexivity]].
    - destruct u; injection H as <- <-; (split; [|split; [exact Ht|reflexivity]]); [|exact Hm].
      intros k' v' H. cbn in H. destruct (key_eqb k' k) eqn:E; [|exact (Hm _ _ H)]. apply key_eqb_iff in E. subst k'. injection H as <-. exact Ht.
    - injection H as <- <-. split; [exact Hm|split; [exact Ht|reflexivity]].
    - discriminate.
  Qed.
  Lemma lrun_ok evs : cache_ok c ti (l_cache (lrun pol c ti evs)) /\ Forall lthread_ok (l_threads (lrun pol c ti evs)) /\
    map lcall_of (l_threads (lrun pol c ti evs)) = calls_made evs.
  Proof.
    induction evs as [|ev evs IH] using rev_ind; [split; [intros k v H; discriminate H|split; [constructor|reflexivity]]|].
    rewrite lrun_snoc, calls_made_app. destruct IH as (IC & IT & IM). destruct ev as [k|i fuel|]; cbn [lstep l_cache l_threads].
    - split; [exact IC|]. split; [apply Forall_app; split; [exact IT|constructor; [exact I|constructor]]|]. rewrite map_app, IM. reflexivity.
    - destruct (nth_error (l_threads (lrun pol c ti evs)) i) as [t|] eqn:E; [|cbn; rewrite app_nil_r; auto].
      destruct (lstep_thread pol c ti fuel (lrun pol c ti evs) t) as [[m t']|] eqn:Es; [|cbn; rewrite app_nil_r; auto]. cbn [l_cache l_threads fst snd].
      assert (Hti : lthread_ok t) by (rewrite Forall_forall in IT; apply IT; eapply nth_error_In; exact E).
      destruct (lstep_thread_ok _ _ _ _ _ IC Hti Es) as (H1 & H2 & H3). split; [exact H1|]. split.
      + apply Forall_forall. intros x Hx. apply set_nth_In in Hx. destruct Hx as [-> |Hx]; [exact H2|]. rewrite Forall_forall in IT. auto.
      + cbn. rewrite app_nil_r, <- IM. apply set_nth_map. rewrite E. cbn. congruence.
    - cbn. rewrite app_nil_r. auto.
  Qed.
  Theorem lrun_exact evs i k r : nth_error (l_threads (lrun pol c ti evs)) i = Some (LDone k r) ->
    nth_error (calls_made evs) i = Some k /\ computes k r.
  Proof.
    intros H. destruct (lrun_ok evs) as (_ & F & M). split; [rewrite <- M, nth_error_map, H; reflexivity|].
    rewrite Forall_forall in F. exact (F _ (nth_error_In _ _ H)).
  Qed.
  Theorem lrun_entries evs k v : cache_get k (l_cache (lrun pol c ti evs)) = Some v -> computes k (Ok v).
  Proof. apply lrun_ok. Qed.
  Lemma lpoisoned_iff evs : l_poisoned (lrun pol c ti evs) = true <-> poisons evs.
  Proof.
    unfold poisons. induction evs as [|ev evs IH] using rev_ind; [cbn; split; [discriminate|intros []]|]. rewrite lrun_snoc, in_app_iff, <- IH.
    destruct ev as [k|i fuel|]; cbn [lstep]; [| |cbn; tauto].
    - cbn. split; [auto|]. intros [H|[H|[]]]; [exact H|discriminate].
    - destruct (nth_error _ i); [destruct (lstep_thread _ _ _ _ _)|]; cbn; (split; [auto|]); intros [H|[H|[]]]; auto; discriminate.
  Qed.
  (** What must be in the cache because of [t]. *)
  Definition leaves (m : cache) (t : lthread) : Prop :=
    match t with
    | LGot k (Some v) => cache_get k m = Some v
    | LWrite _ _ u | LRead _ u => u = true
    | LWritten k v => cache_get k m = Some v
    | LDone k (Ok v) => cache_get k m = Some v
    | _ => True
    end.
  Lemma leaves_insert m k v t : (forall k' v', lcall_of t = k' -> cache_get k' m = Some v' -> k' = k -> v' = v) -> leaves m t -> leaves (cache_insert k v m) t.
  Proof.
    intros H L. assert (G : forall k' v', lcall_of t = k' -> cache_get k' m = Some v' -> cache_get k' (cache_insert k v m) = Some v').
    { intros k' v' E G. cbn. destruct (key_eqb k' k) eqn:K; [|exact G]. apply key_eqb_iff in K. rewrite (H k' v' E G K). reflexivity. }
    destruct t as [k0|k0 u|k0 [v0|]|k0|k0 v0|k0 v0 u|k0 v0|k0 [v0| | |]]; cbn [leaves] in *; try exact L; apply G; try exact L; reflexivity.
  Qed.
  Theorem lrun_cached evs : valid_calls evs -> ~ poisons evs -> Forall (leaves (l_cache (lrun pol c ti evs))) (l_threads (lrun pol c ti evs)).
  Proof.
    induction evs as [|ev evs IH] using rev_ind; intros Hc Hp; [constructor|].
    assert (Hc' : valid_calls evs) by (unfold valid_calls in *; rewrite calls_made_app in Hc; apply Forall_app in Hc; tauto).
    assert (Hp' : ~ poisons evs) by (unfold poisons in *; rewrite in_app_iff in Hp; tauto).
    specialize (IH Hc' Hp'). destruct (lrun_ok evs) as (OC & OT & OM). rewrite lrun_snoc in *.
    destruct ev as [k|i fuel|]; cbn [lstep l_cache l_threads].
    - apply Forall_app. split; [exact IH|]. constructor; [exact I|constructor].
    - destruct (nth_error (l_threads (lrun pol c ti evs)) i) as [t|] eqn:E; [|exact IH].
      destruct (lstep_thread pol c ti fuel (lrun pol c ti evs) t) as [[m t']|] eqn:Es; [|exact IH]. cbn [l_cache l_threads fst snd].
      assert (Hpo : l_poisoned (lrun pol c ti evs) = false) by (destruct (l_poisoned (lrun pol c ti evs)) eqn:P; [apply lpoisoned_iff in P; contradiction|reflexivity]).
      assert (Ein : In t (l_threads (lrun pol c ti evs))) by (eapply nth_error_In; exact E).
      rewrite Forall_forall in IH, OT. pose proof (IH _ Ein) as It. pose proof (OT _ Ein) as Ot.
      assert (Vk : valid_utf8 (snd (lcall_of t))).
      { unfold valid_calls in Hc'. rewrite <- OM in Hc'. rewrite Forall_forall in Hc'. apply Hc'. apply in_map. exact Ein. }
      assert (Both : (m = l_cache (lrun pol c ti evs) /\ leaves m t') \/ (exists k v, t = LWrite k v true /\ m = cache_insert k v (l_cache (lrun pol c ti evs)) /\ t' = LWritten k v)).
      { destruct t as [k|k u|k f|k|k v|k v u|k v|k r]; cbn [lstep_thread] in Es.
        - destruct (no_writer _ && _); [|discriminate]. injection Es as <- <-. left. split; [reflexivity|]. cbn. rewrite Hpo. reflexivity.
        - destruct u; injection Es as <- <-; left; (split; [reflexivity|]); [|exact I]. cbn. destruct (cache_get k _) eqn:G; [reflexivity|exact I].
        - destruct f; injection Es as <- <-; left; (split; [reflexivity|]); [exact It|exact I].
        - destruct (offset_of_uncached _ _ _ _ _); injection Es as <- <-; left; split; try reflexivity; exact I.
        - destruct (no_holder _); [|discriminate]. injection Es as <- <-. left. split; [reflexivity|]. cbn. rewrite Hpo. reflexivity.
        - destruct u; [|discriminate It]. injection Es as <- <-. right. exists k, v. auto.
        - injection Es as <- <-. left. split; [reflexivity|]. exact It.
        - discriminate. }
      apply Forall_forall. intros x Hx. apply set_nth_In in Hx. destruct Both as [[-> L]|(k & v & -> & -> & ->)].
      + destruct Hx as [-> |Hx]; [exact L|apply IH; exact Hx].
      + destruct Hx as [-> |Hx].
        * cbn. assert (X : key_eqb k k = true) by (apply key_eqb_iff; reflexivity). rewrite X. reflexivity.
        * apply leaves_insert; [|apply IH; exact Hx]. intros k' v' _ G ->. pose proof (OC _ _ G) as W. cbn in Ot. pose proof (offset_of_det _ _ _ _ _ _ Vk W Ot). congruence.
    - destruct Hp. unfold poisons. apply in_app_iff. right. left. reflexivity.
  Qed.

  (** *** Progress *)
  (** Steps a thread still needs. *)
  Definition left_ (t : lthread) : nat :=
    match t with LStart _ => 7 | LRead _ _ => 6 | LGot _ _ => 5 | LComputing _ => 4 | LWait _ _ => 3 | LWrite _ _ _ => 2 | LWritten _ _ => 1 | LDone _ _ => 0 end.
  Definition work (w : lworld) : nat := fold_right (fun t n => left_ t + n)%nat 0%nat (l_threads w).
  Lemma work_set i t t' l : nth_error l i = Some t -> (left_ t' < left_ t)%nat ->
    (fold_right (fun t n => left_ t + n) 0 (set_nth i t' l) < fold_right (fun t n => left_ t + n) 0 l)%nat.
  Proof.
    revert i. induction l as [|x l IH]; intros [|i] H L; cbn in *; try discriminate; [injection H as ->; lia|]. specialize (IH i H L). lia.
  Qed.
  Lemma lstep_thread_left fuel w t m t' : lstep_thread pol c ti fuel w t = Some (m, t') ->
    (forall k, t = LComputing k -> offset_of_uncached fuel c ti (fst k) (snd k) <> Diverge) -> (left_ t' < left_ t)%nat.
  Proof.
    intros H D. destruct t as [k|k u|k f|k|k v|k v u|k v|k r]; cbn [lstep_thread] in H.
    - destruct (no_writer w && pol (l_threads w)); [|discriminate]. injection H as <- <-. cbn. lia.
    - destruct u; injection H as <- <-; cbn; lia.
    - destruct f; injection H as <- <-; cbn; lia.
    - specialize (D k eq_refl). destruct (offset_of_uncached fuel c ti (fst k) (snd k)); try congruence; injection H as <- <-; cbn; lia.
    - destruct (no_holder w); [|discriminate]. injection H as <- <-. cbn. lia.
    - destruct u; injection H as <- <-; cbn; lia.
    - injection H as <- <-. cbn. lia.
    - discriminate.
  Qed.
  (** Every step of a thread that can step does away with some of the work. *)
  Theorem step_works w i fuel : can_step pol c ti w i ->
    (forall k, In (LComputing k) (l_threads w) -> offset_of_uncached fuel c ti (fst k) (snd k) <> Diverge) ->
    (work (lstep pol c ti w (Step i fuel)) < work w)%nat.
  Proof.
    intros (t & Et & Hs) D. cbn [lstep]. rewrite Et. destruct (lstep_thread pol c ti fuel w t) as [[m t']|] eqn:Es; [|destruct (Hs fuel Es)].
    unfold work. cbn [l_threads snd]. apply (work_set i t t'); [exact Et|]. eapply lstep_thread_left; [exact Es|]. intros k ->. apply D. eapply nth_error_In. exact Et.
  Qed.
  (** Running threads that can step, in any order, for long enough, ends with all calls returned. *)
  Definition all_done (w : lworld) : Prop := Forall (fun t => done t = true) (l_threads w).
  Lemma all_done_dec w : all_done w \/ exists i t, nth_error (l_threads w) i = Some t /\ done t = false.
  Proof.
    unfold all_done. induction (l_threads w) as [|t l IH]; [left; constructor|]. destruct (done t) eqn:E; [|right; exists 0%nat, t; auto].
    destruct IH as [IH|(i & t' & H1 & H2)]; [left; constructor; assumption|right; exists (S i), t'; auto].
  Qed.
  Lemma lstep_calls w i fuel : map lcall_of (l_threads (lstep pol c ti w (Step i fuel))) = map lcall_of (l_threads w).
  Proof.
    cbn [lstep]. destruct (nth_error (l_threads w) i) as [t|] eqn:E; [|reflexivity]. destruct (lstep_thread pol c ti fuel w t) as [[m t']|] eqn:Es; [|reflexivity].
    cbn [l_threads snd]. apply set_nth_map. rewrite E. cbn. f_equal.
    destruct t as [k|k u|k f|k|k v|k v u|k v|k r]; cbn [lstep_thread] in Es.
    - destruct (no_writer w && pol (l_threads w)); [|discriminate]. injection Es as <- <-. reflexivity.
    - destruct u; injection Es as <- <-; reflexivity.
    - destruct f; injection Es as <- <-; reflexivity.
    - destruct (offset_of_uncached fuel c ti (fst k) (snd k)); injection Es as <- <-; reflexivity.
    - destruct (no_holder w); [|discriminate]. injection Es as <- <-. reflexivity.
    - destruct u; injection Es as <- <-; reflexivity.
    - injection Es as <- <-. reflexivity.
    - discriminate.
  Qed.
  Theorem completes n fuel : lock_policy pol -> forall w, (work w <= n)%nat ->
    (forall k, In k (map lcall_of (l_threads w)) -> offset_of_uncached fuel c ti (fst k) (snd k) <> Diverge) ->
    exists steps, (length steps <= n)%nat /\ Forall (fun ev => exists i, ev = Step i fuel) steps /\ all_done (fold_left (lstep pol c ti) steps w).
  Proof.
    intros LP. induction n as [|n IH]; intros w Hn D.
    - exists []. split; [cbn; lia|]. split; [constructor|]. cbn. destruct (all_done_dec w) as [H|(i & t & E & Hd)]; [exact H|]. exfalso.
      destruct (no_deadlock w i t LP E Hd) as (j & Hj). assert (X : (work (lstep pol c ti w (Step j fuel)) < work w)%nat); [|lia].
      apply step_works; [exact Hj|]. intros k Hk. apply D. apply (in_map lcall_of) in Hk. exact Hk.
    - destruct (all_done_dec w) as [H|(i & t & E & Hd)]; [exists []; split; [cbn; lia|split; [constructor|exact H]]|].
      destruct (no_deadlock w i t LP E Hd) as (j & Hj). assert (X : (work (lstep pol c ti w (Step j fuel)) < work w)%nat).
      { apply step_works; [exact Hj|]. intros k Hk. apply D. apply (in_map lcall_of) in Hk. exact Hk. }
      destruct (IH (lstep pol c ti w (Step j fuel))) as (steps & HL & HF & HD); [lia|rewrite lstep_calls; exact D|].
      exists (Step j fuel :: steps). split; [cbn; lia|]. split; [constructor; [eauto|exact HF]|exact HD].
  Qed.
End Locked.
