(** * PropGrowth: how the offset cache grows (C66).  Notation as in PropCache.v. *)
From Coq Require Import Strings.String.
From Coq Require Import List NArith ZArith Bool Lia Strings.Byte.
From Verif Require Import TypeInfo Spec BaseFacts PathSpec Path PathGrammar PathPrint QuerySpec Chains Sizes Follow Offsets Offsets2 OffsetOf OffsetOf2 OutcomeSpec Cache CacheProps Locks LocksProps LocksMore LoadProps Sample PropPath PropQuery PropOffset PropCache PropClosed.
Import ListNotations.
Open Scope N_scope.

(** The cache [m] has [n] entries. *)
Definition entries (m : cache) (n : nat) : Prop :=
  exists l, NoDup l /\ length l = n /\ forall k, In k l <-> exists v, cache_get k m = Some v.
Definition key_eq_dec (a b : cache_key) : {a = b} + {a <> b}.
Proof. destruct (key_eqb a b) eqn:E; [left; apply key_eqb_iff; exact E|right; intros Q; apply key_eqb_iff in Q; congruence]. Defined.
Lemma entries_exist m : exists n, entries m n.
Proof.
  exists (length (nodup key_eq_dec (map fst m))), (nodup key_eq_dec (map fst m)). split; [apply NoDup_nodup|]. split; [reflexivity|].
  intros k. rewrite nodup_In. induction m as [|[k' v] m IH]; cbn; [split; [intros []|intros (v & H); discriminate]|].
  destruct (key_eqb k k') eqn:E; [apply key_eqb_iff in E; subst; split; [eauto|auto]|]. rewrite <- IH. split; [intros [Q|Q]; [|exact Q]|auto].
  symmetry in Q. apply key_eqb_iff in Q. congruence.
Qed.
Lemma entries_det m n n' : entries m n -> entries m n' -> n = n'.
Proof.
  intros (l & D & <- & H) (l' & D' & <- & H').
  apply Nat.le_antisymm; apply NoDup_incl_length; try assumption; intros k Q; [apply H', H|apply H, H']; exact Q.
Qed.

(** ** C66 *)
(** When all calls have returned there is one entry for each different question that has an answer. *)
Theorem C66_one_each : forall pol c ti evs l, valid_calls evs -> ~ In Poison evs ->
  (forall t, In t (l_threads (lrun pol c ti evs)) -> exists k r, t = LDone k r) ->
  NoDup l -> (forall k, In k l <-> In k (calls_made evs) /\ exists v, offset_of_returns c ti (fst k) (snd k) (Ok v)) ->
  entries (l_cache (lrun pol c ti evs)) (length l).
Proof.
  intros pol c ti evs l V P D N H. exists l. split; [exact N|]. split; [reflexivity|]. intros k. rewrite H. split.
  - intros [Hc (v & R)]. destruct (lrun_ok pol c ti evs) as (_ & _ & M). rewrite <- M in Hc. apply in_map_iff in Hc. destruct Hc as (t & Ek & Ht).
    destruct (D t Ht) as (k' & r & ->). cbn in Ek. subst k'. apply In_nth_error in Ht. destruct Ht as (i & Hi).
    destruct (C40_cached_results_exact pol c ti evs i k r Hi) as [Hk R'].
    assert (Vk : valid_utf8 (snd k)) by (unfold valid_calls in V; rewrite Forall_forall in V; apply V; eapply nth_error_In; exact Hk).
    rewrite (offset_of_det _ _ _ _ _ _ Vk R' R) in Hi. exists v. apply (C41_successes_cached pol c ti evs k v V P). eapply nth_error_In. exact Hi.
  - intros (v & G). split; [eapply C41_only_asked; exact G|]. exists v. eapply C41_entries_exact. exact G.
Qed.
Print Assumptions C66_one_each.
(** At no moment are there more entries than different questions asked. *)
Theorem C66_at_most : forall pol c ti evs l n, (forall k, In k (calls_made evs) -> In k l) -> entries (l_cache (lrun pol c ti evs)) n -> (n <= length l)%nat.
Proof.
  intros pol c ti evs l n H (l' & N & <- & E). apply NoDup_incl_length; [exact N|]. intros k Hk. apply H. apply E in Hk. destruct Hk as (v & G). eapply C41_only_asked. exact G.
Qed.
Print Assumptions C66_at_most.
(** Asking again what the cache knows never changes it. *)
Definition knows (m : cache) (w : lworld) : Prop :=
  (forall t, In t (l_threads w) -> (exists k r, t = LDone k r) \/ exists v, cache_get (lcall_of t) m = Some v) /\
  forall k, cache_get k m = None -> cache_get k (l_cache w) = None.
Lemma knows_step pol c ti m w ev : knows m w -> (forall k, ev = Call k -> exists v, cache_get k m = Some v) -> knows m (lstep pol c ti w ev).
Proof.
  intros [T C] E. destruct ev as [k|i fuel|]; cbn [lstep]; [|destruct (nth_error (l_threads w) i) as [t|] eqn:Et; [destruct (lstep_thread pol c ti fuel w t) as [[m' t']|] eqn:Es|]|]; try (split; assumption).
  - split; cbn [l_threads l_cache]; [|exact C]. intros t Ht. apply in_app_iff in Ht. destruct Ht as [Ht|[<-|[]]]; [auto|]. right. cbn. apply E. reflexivity.
  - pose proof (nth_error_In _ _ Et) as Hi. split; cbn [l_threads l_cache fst snd].
    + intros x Hx. apply set_nth_In in Hx. destruct Hx as [->|Hx]; [|auto].
      assert (K : lcall_of t' = lcall_of t) by (destruct t as [k|k u|k f|k|k v|k v u|k v|k r]; cbn [lstep_thread] in Es;
        [destruct (no_writer w && pol (l_threads w)); [|discriminate]|destruct u|destruct f|destruct (offset_of_uncached fuel c ti (fst k) (snd k))|destruct (no_holder w); [|discriminate]|destruct u| |discriminate]; injection Es as _ <-; reflexivity).
      rewrite K. destruct (T t Hi) as [(k & r & ->)|Q]; [discriminate Es|auto].
    + intros k Hk. apply step_changes in Es. destruct Es as [->|(k0 & v0 & -> & _ & ->)]; [auto|]. cbn [cache_insert cache_get].
      destruct (key_eqb k k0) eqn:Q; [|auto]. apply key_eqb_iff in Q. subst k0. destruct (T _ Hi) as [(k' & r & X)|(v & X)]; [discriminate|]. cbn in X. congruence.
Qed.
Theorem C66_asked_again : forall pol c ti evs again, valid_calls evs ->
  (forall t, In t (l_threads (lrun pol c ti evs)) -> exists k r, t = LDone k r) ->
  (forall k, In k (calls_made again) -> exists v, cache_get k (l_cache (lrun pol c ti evs)) = Some v) ->
  forall k, cache_get k (l_cache (lrun pol c ti (evs ++ again))) = cache_get k (l_cache (lrun pol c ti evs)).
Proof.
  intros pol c ti evs again V D A k. destruct (cache_get k (l_cache (lrun pol c ti evs))) as [v|] eqn:G.
  { apply (C41_entries_stay pol c ti evs again k v); [|exact G]. unfold valid_calls in V. rewrite Forall_forall in V. apply V. eapply C41_only_asked. exact G. }
  assert (K : knows (l_cache (lrun pol c ti evs)) (lrun pol c ti (evs ++ again))).
  { rewrite lrun_app. set (w := lrun pol c ti evs) in *. assert (K0 : knows (l_cache w) w) by (split; [intros t Ht; left; exact (D t Ht)|auto]).
    set (m := l_cache w) in *. clearbody m w. clear D G V. revert w K0. induction again as [|ev again IH]; intros w K0; [exact K0|]. cbn [fold_left]. apply IH.
    - intros k' Hk'. apply A. change (calls_made (ev :: again)) with (calls_made ([ev] ++ again)). rewrite calls_made_app. apply in_or_app. right. exact Hk'.
    - apply knows_step; [exact K0|]. intros k' ->. apply A. left. reflexivity. }
  exact (proj2 K k G).
Qed.
Print Assumptions C66_asked_again.

(** Different spellings of one path are different questions: no bound depends on the table only. *)
Definition spelling (n : nat) : str := s "tasks[" ++ repeat x30 (S n) ++ s "]".
Lemma zeros n acc : fold_left (fun v b => 10 * v + (Byte.to_N b - 0x30)) (repeat x30 n) acc = acc * 10 ^ N.of_nat n.
Proof.
  revert acc. induction n as [|n IH]; intros acc; [cbn; lia|]. cbn [repeat fold_left]. rewrite IH. rewrite Nat2N.inj_succ, N.pow_succ_r'. change (Byte.to_N x30 - 48) with 0. lia.
Qed.
Lemma spelling_reads c n : reads_as (usize_max c) (spelling n) [Name (s "tasks"); Index 0].
Proof.
  exists (spelling n). split; [|left; reflexivity].
  apply (path_name _ (s "tasks") [Index 0] (lbracket ++ repeat x30 (S n) ++ rbracket)); [split|].
  - left. right. left. split; vm_compute; discriminate.
  - repeat (apply Forall_cons; [left; right; left; split; vm_compute; discriminate|]). apply Forall_nil.
  - rewrite <- (app_nil_r (lbracket ++ repeat x30 (S n) ++ rbracket)). apply rest_index; [|constructor]. exists (repeat x30 (S n)). split; [reflexivity|]. split; [discriminate|].
    split; [apply Forall_forall; intros b Hb; apply repeat_spec in Hb; subst b; split; vm_compute; discriminate|].
    split; [unfold decimal_value; rewrite zeros; reflexivity|lia].
Qed.
Lemma spelling_valid n : valid_utf8 (spelling n).
Proof.
  exists (map (fun b => [b]) (spelling n)). split.
  - apply Forall_map. unfold spelling. apply Forall_app. split; [|apply Forall_app; split].
    + repeat (apply Forall_cons; [apply utf8_1; split; vm_compute; discriminate|]). apply Forall_nil.
    + apply Forall_forall. intros b Hb. apply repeat_spec in Hb. subst b. apply utf8_1. split; vm_compute; discriminate.
    + repeat (apply Forall_cons; [apply utf8_1; split; vm_compute; discriminate|]). apply Forall_nil.
  - induction (spelling n) as [|b l IH]; [reflexivity|]. cbn. f_equal. exact IH.
Qed.
Lemma spelling_inj n n' : spelling n = spelling n' -> n = n'.
Proof.
  unfold spelling. intros E. apply (f_equal (@length byte)) in E. rewrite !app_length, !repeat_length in E. lia.
Qed.
Lemma spelling_returns n : offset_of_returns (build64 true) sample_ti 24 (spelling n) (Ok (9, ByteOffset 0)).
Proof.
  assert (B : offset_of_returns (build64 true) sample_ti 24 (s "tasks[0]") (Ok (9, ByteOffset 0))) by (apply (sample_returns 20); [vm_compute; reflexivity|discriminate]).
  refine (proj1 (proj1 (C56_same_components (build64 true) sample_ti 24 (s "tasks[0]") (spelling n) [Name (s "tasks"); Index 0] False _ (spelling_valid n) _ _) _) B); [literal| |].
  - left. split; [apply accepted_reads; [literal|vm_compute; reflexivity]|auto].
  - left. split; [apply spelling_reads|auto].
Qed.
Theorem C66_no_limit : exists ti t u o, type_information_new (file_env sample_img) = Ok ti /\ forall pol, lock_policy pol -> forall n, exists evs,
  length (calls_made evs) = n /\
  (forall k, In k (calls_made evs) -> fst k = t /\ offset_of_returns (build64 true) ti t (snd k) (Ok (u, o))) /\
  entries (l_cache (lrun pol (build64 true) ti evs)) n.
Proof.
  exists sample_ti, 24, 9, (ByteOffset 0). split; [exact sample_loads|]. intros pol LP n.
  set (ks := map (fun i => (24, spelling i) : cache_key) (seq 0 n)).
  assert (KL : length ks = n) by (subst ks; rewrite map_length, seq_length; reflexivity).
  assert (CM : calls_made (map Call ks) = ks). { clear. unfold calls_made. induction ks as [|k l IH]; [reflexivity|]. cbn. f_equal. exact IH. }
  assert (KS : forall k, In k ks -> exists i, k = (24, spelling i)) by (intros k Hk; apply in_map_iff in Hk; destruct Hk as (i & <- & _); eauto).
  assert (ND : NoDup ks).
  { unfold ks. assert (G : forall l, NoDup l -> NoDup (map (fun i => (24, spelling i)) l)); [|apply G, seq_NoDup].
    induction 1 as [|x l Hx Hl IH]; cbn; constructor; [|exact IH]. intros Q. apply in_map_iff in Q. destruct Q as (j & Q & Hj). apply (f_equal snd) in Q. cbn [snd] in Q. apply spelling_inj in Q. subst j. contradiction. }
  assert (FU : exists fuel, forall k, In k ks -> offset_of_uncached fuel (build64 true) sample_ti (fst k) (snd k) <> Diverge).
  { assert (F : forall l : list nat, exists fuel, forall i, In i l -> offset_of_uncached fuel (build64 true) sample_ti 24 (spelling i) <> Diverge).
    { induction l as [|i l (f & IH)]; [exists 0%nat; intros i []|]. destruct (spelling_returns i) as (_ & f' & E'). exists (f + f')%nat.
      intros j [<-|Hj]; [rewrite (returns_mono _ _ _ _ f' (f + f') (spelling_valid i) ltac:(lia)); rewrite E'; discriminate|].
      rewrite (returns_mono _ _ _ _ f (f + f') (spelling_valid j) ltac:(lia) (IH j Hj)). exact (IH j Hj). }
    destruct (F (seq 0 n)) as (fuel & HF). exists fuel. intros k Hk. apply in_map_iff in Hk. destruct Hk as (i & <- & Hi). exact (HF i Hi). }
  destruct FU as (fuel & HF).
  destruct (C45_all_return pol (build64 true) sample_ti (map Call ks) fuel LP) as (steps & _ & HS & HR); [rewrite CM; exact HF|].
  assert (CS : calls_made (map Call ks ++ steps) = ks).
  { rewrite calls_made_app, CM. assert (calls_made steps = []) as ->; [|apply app_nil_r]. clear -HS. unfold calls_made. induction HS as [|ev l (j & ->) _ IH]; [reflexivity|]. cbn. exact IH. }
  exists (map Call ks ++ steps). rewrite CS. split; [exact KL|]. split.
  { intros k Hk. destruct (KS k Hk) as (i & ->). split; [reflexivity|apply spelling_returns]. }
  rewrite <- KL. apply C66_one_each.
  - unfold valid_calls. rewrite CS. apply Forall_forall. intros k Hk. destruct (KS k Hk) as (i & ->). apply spelling_valid.
  - intros Q. apply in_app_iff in Q. destruct Q as [Q|Q]; [apply in_map_iff in Q; destruct Q as (k & Q & _); discriminate|]. rewrite Forall_forall in HS. destruct (HS _ Q) as (i & X). discriminate.
  - intros t Ht. apply In_nth_error in Ht. destruct Ht as (i & Hi). destruct (lrun_ok pol (build64 true) sample_ti (map Call ks ++ steps)) as (_ & _ & M). rewrite CS in M.
    assert (Hk : nth_error (calls_made (map Call ks)) i = Some (lcall_of t)) by (rewrite CM, <- M, nth_error_map, Hi; reflexivity).
    destruct (HR i _ Hk) as (r & Q & _). rewrite Hi in Q. injection Q as ->. eauto.
  - exact ND.
  - intros k. rewrite CS. split; [|tauto]. intros Hk. split; [exact Hk|]. destruct (KS k Hk) as (i & ->). exists (9, ByteOffset 0). apply spelling_returns.
Qed.
Print Assumptions C66_no_limit.
(** Three calls, two asking the same at the same time and one failing; then a fourth, asking the same again. *)
Definition settled : list event := firstn 20 schedule ++ [Step 1 9; Step 1 9; Step 1 9].
Definition again : list event := [Call (7, s "b"); Step 3 9; Step 3 9; Step 3 9].
Example C66_met : valid_calls settled /\ ~ In Poison settled /\
  l_threads (lrun readers_first (build64 true) sample_ti (settled ++ again)) = [LDone (7, s "b") (Ok (3, ByteOffset 8)); LDone (7, s "b") (Ok (3, ByteOffset 8));
    LDone (7, s "zzz") (Err InvalidTypePath); LDone (7, s "b") (Ok (3, ByteOffset 8))] /\
  entries (l_cache (lrun readers_first (build64 true) sample_ti settled)) 1 /\
  entries (l_cache (lrun readers_first (build64 true) sample_ti (settled ++ again))) 1.
Proof.
  assert (V : valid_calls settled) by (repeat constructor; literal).
  assert (P : ~ In Poison settled) by (cbn; intros H; repeat (destruct H as [H|H]; [discriminate|]); exact H).
  assert (D : forall t, In t (l_threads (lrun readers_first (build64 true) sample_ti settled)) -> exists k r, t = LDone k r).
  { intros t Ht. vm_compute in Ht. repeat (destruct Ht as [<-|Ht]; [do 2 eexists; reflexivity|]). destruct Ht. }
  assert (E : entries (l_cache (lrun readers_first (build64 true) sample_ti settled)) 1).
  { apply (C66_one_each readers_first (build64 true) sample_ti settled [(7, s "b")] V P D); [repeat constructor; intros []|].
    intros k. split.
    - intros [<-|[]]. split; [left; reflexivity|]. exists (3, ByteOffset 8). apply (sample_returns 20); [vm_compute; reflexivity|discriminate].
    - intros [H (v & R)]. cbn in H. repeat (destruct H as [<-|H]; [try (left; reflexivity)|]); [|destruct H].
      assert (X : offset_of_returns (build64 true) sample_ti 7 (s "zzz") (Err InvalidTypePath)) by (apply (sample_returns 20); [vm_compute; reflexivity|discriminate]).
      assert (Vz : valid_utf8 (s "zzz")) by literal. pose proof (offset_of_det _ _ _ _ _ _ Vz X R) as Q. discriminate Q. }
  split; [exact V|]. split; [exact P|]. split; [vm_compute; reflexivity|]. split; [exact E|].
  assert (A : forall k, cache_get k (l_cache (lrun readers_first (build64 true) sample_ti (settled ++ again))) = cache_get k (l_cache (lrun readers_first (build64 true) sample_ti settled))).
  { apply C66_asked_again; [exact V|exact D|]. intros k' [<-|[]]. exists (3, ByteOffset 8). vm_compute. reflexivity. }
  destruct E as (l & N & L & H). exists l. split; [exact N|]. split; [exact L|]. intros k.
  split; [intros Hk; apply H in Hk; destruct Hk as (v & G); exists v; etransitivity; [apply A|exact G]|].
  intros (v & G). apply H. exists v. etransitivity; [symmetry; apply A|exact G].
Qed.
