(** * PropCache: the properties of the offset cache (C40, C41, C45).
    [lrun pol c ti evs] (Locks.v): the state after the events [evs] - calls of offset_of, steps of the threads
    serving them (acquire, read or write the cache, release, compute), and the lock becoming poisoned - in
    whatever order they happen. [pol]: whether the lock lets readers pass waiting writers. [calls_made evs]: the calls, in order. *)
From Coq Require Import Strings.String.
From Coq Require Import List NArith ZArith Bool Lia Strings.Byte.
From Verif Require Import TypeInfo Spec BaseFacts PathSpec Path PathGrammar PathPrint QuerySpec Chains Sizes Follow Offsets Offsets2 OffsetOf OffsetOf2 Cache CacheProps Locks LocksProps LocksMore LoadProps Sample PropPath PropQuery PropOffset.
Import ListNotations.
Open Scope N_scope.

(** ** C40 *)
Theorem C40_cached_results_exact : forall pol c ti evs i k r,
  nth_error (l_threads (lrun pol c ti evs)) i = Some (LDone k r) ->
  nth_error (calls_made evs) i = Some k /\ offset_of_returns c ti (fst k) (snd k) r.
Proof. exact lrun_exact. Qed.
Print Assumptions C40_cached_results_exact.
(** The same when each critical section is one step (Cache.v); and then a call given three turns returns. *)
Theorem C40_atomic_exact : forall c ti evs i k r,
  nth_error (w_threads (run c ti evs)) i = Some (Finished k r) ->
  nth_error (calls_made evs) i = Some k /\ offset_of_returns c ti (fst k) (snd k) r.
Proof. exact run_exact. Qed.
Print Assumptions C40_atomic_exact.
Theorem C40_atomic_progress : forall c ti evs1 evs2 i k fuel r, valid_utf8 (snd k) ->
  nth_error (calls_made evs1) i = Some k -> offset_of_uncached fuel c ti (fst k) (snd k) = r -> r <> Diverge ->
  (3 <= turns i fuel evs2)%nat -> nth_error (w_threads (run c ti (evs1 ++ evs2))) i = Some (Finished k r).
Proof. exact run_progress. Qed.
Print Assumptions C40_atomic_progress.
(** Two threads asking the same, one asking something that fails; the first writes while the others read; the lock
    is poisoned before a fourth call. *)
(** Locks that never keep a reader waiting for a waiting writer, and locks that always do. *)
Definition readers_first (ts : list lthread) : bool := true.
Definition writers_first (ts : list lthread) : bool := negb (existsb waits_to_write ts).
Lemma policies : lock_policy readers_first /\ lock_policy writers_first.
Proof. split; intros ts H; [reflexivity|]. unfold writers_first. rewrite H. reflexivity. Qed.
Definition schedule : list event :=
  let q := (7, s "b") in let bad := (7, s "zzz") in
  [Call q; Call q; Call bad] ++ [Step 0 9; Step 1 9; Step 0 9; Step 0 9; Step 1 9; Step 2 9; Step 0 20; Step 2 9; Step 1 9; Step 1 20; Step 2 9; Step 2 20;
   Step 0 9; Step 1 9; Step 0 9; Step 1 9; Step 0 9; Call q; Step 3 9; Step 3 9; Step 3 9; Poison; Call q; Step 1 9; Step 1 9; Step 1 9; Step 4 9; Step 4 9; Step 4 20; Step 4 9; Step 4 9].
Example C40_met : valid_calls schedule /\
  l_threads (lrun readers_first (build64 true) sample_ti schedule) =
  [LDone (7, s "b") (Ok (3, ByteOffset 8)); LDone (7, s "b") (Ok (3, ByteOffset 8)); LDone (7, s "zzz") (Err InvalidTypePath);
   LDone (7, s "b") (Ok (3, ByteOffset 8)); LDone (7, s "b") (Ok (3, ByteOffset 8))].
Proof.
  split; [|vm_compute; reflexivity]. repeat constructor; literal.
Qed.

(** ** C41 *)
Theorem C41_entries_exact : forall pol c ti evs k v, cache_get k (l_cache (lrun pol c ti evs)) = Some v ->
  offset_of_returns c ti (fst k) (snd k) (Ok v).
Proof. exact lrun_entries. Qed.
Print Assumptions C41_entries_exact.
(** A question whose answer is an error is never in the cache. *)
Theorem C41_errors_not_cached : forall pol c ti evs k e, valid_utf8 (snd k) -> offset_of_returns c ti (fst k) (snd k) (Err e) ->
  cache_get k (l_cache (lrun pol c ti evs)) = None.
Proof.
  intros pol c ti evs k e V E. destruct (cache_get k (l_cache (lrun pol c ti evs))) as [v|] eqn:G; [|reflexivity].
  apply lrun_entries in G. pose proof (offset_of_det _ _ _ _ _ _ V E G). discriminate.
Qed.
Print Assumptions C41_errors_not_cached.
(** A call that returned Ok has left its entry in the cache, if the lock was never poisoned. *)
Theorem C41_successes_cached : forall pol c ti evs k v, valid_calls evs -> ~ In Poison evs ->
  In (LDone k (Ok v)) (l_threads (lrun pol c ti evs)) -> cache_get k (l_cache (lrun pol c ti evs)) = Some v.
Proof.
  intros pol c ti evs k v V P H. pose proof (lrun_cached pol c ti evs V P) as F. rewrite Forall_forall in F. exact (F _ H).
Qed.
Print Assumptions C41_successes_cached.
(** Only what was asked for is in the cache, entries stay as they are, and no step of a call that ends in an error
    (or a panic) changes the cache. *)
Theorem C41_only_asked : forall pol c ti evs k v, cache_get k (l_cache (lrun pol c ti evs)) = Some v -> In k (calls_made evs).
Proof. exact lrun_asked. Qed.
Print Assumptions C41_only_asked.
Theorem C41_entries_stay : forall pol c ti evs1 evs2 k v, valid_utf8 (snd k) ->
  cache_get k (l_cache (lrun pol c ti evs1)) = Some v -> cache_get k (l_cache (lrun pol c ti (evs1 ++ evs2))) = Some v.
Proof. exact lrun_stays. Qed.
Print Assumptions C41_entries_stay.
Theorem C41_failure_keeps_cache : forall pol c ti evs1 i fuel evs2 k r,
  nth_error (l_threads (lrun pol c ti (evs1 ++ [Step i fuel] ++ evs2))) i = Some (LDone k r) ->
  (forall v, r <> Ok v) -> l_cache (lrun pol c ti (evs1 ++ [Step i fuel])) = l_cache (lrun pol c ti evs1).
Proof. exact lrun_failure. Qed.
Print Assumptions C41_failure_keeps_cache.
(** The last two with atomic sections. *)
Theorem C41_atomic_entries_stay : forall c ti evs1 evs2 k v, valid_utf8 (snd k) ->
  cache_get k (w_cache (run c ti evs1)) = Some v -> cache_get k (w_cache (run c ti (evs1 ++ evs2))) = Some v.
Proof. exact entry_stays. Qed.
Print Assumptions C41_atomic_entries_stay.
Theorem C41_atomic_failure_keeps_cache : forall c ti evs i fuel k r,
  nth_error (w_threads (run c ti (evs ++ [Step i fuel]))) i = Some (Finished k r) ->
  (forall v, r <> Ok v) -> w_cache (run c ti (evs ++ [Step i fuel])) = w_cache (run c ti evs).
Proof. exact step_error. Qed.
Print Assumptions C41_atomic_failure_keeps_cache.
Example C41_met : cache_get (7, s "b") (l_cache (lrun readers_first (build64 true) sample_ti (firstn 25 schedule))) = Some (3, ByteOffset 8) /\
  ~ In Poison (firstn 17 schedule) /\ In (LDone (7, s "b") (Ok (3, ByteOffset 8))) (l_threads (lrun readers_first (build64 true) sample_ti (firstn 20 schedule))) /\
  offset_of_returns (build64 true) sample_ti 7 (s "zzz") (Err InvalidTypePath) /\
  nth_error (l_threads (lrun readers_first (build64 true) sample_ti (firstn 8 schedule ++ [Step 2 9] ++ skipn 9 schedule))) 2 = Some (LDone (7, s "zzz") (Err InvalidTypePath)).
Proof.
  split; [vm_compute; reflexivity|]. split; [cbn; intros H; repeat (destruct H as [H|H]; [discriminate|]); exact H|].
  split; [vm_compute; tauto|]. split; [split; [discriminate|exists 20%nat; vm_compute; reflexivity]|]. vm_compute. reflexivity.
Qed.

(** ** C45 *)
(** A thread writing the cache is alone with it; *)
Theorem C45_exclusive : forall pol c ti evs i j a b,
  nth_error (l_threads (lrun pol c ti evs)) i = Some a -> nth_error (l_threads (lrun pol c ti evs)) j = Some b ->
  writes a = true -> reads b = true \/ writes b = true -> i = j.
Proof.
  intros pol c ti evs i j a b Ha Hb Wa H. eapply (lrun_exclusive pol c ti evs i j a b); try assumption. unfold holds. destruct H as [-> | ->]; [reflexivity|apply orb_true_r].
Qed.
Print Assumptions C45_exclusive.
(** no thread holds the lock while it waits for it or computes; *)
Theorem C45_waits_without_lock : forall pol c ti w t fuel, lstep_thread pol c ti fuel w t = None \/ (exists k, t = LComputing k) ->
  reads t = false /\ writes t = false.
Proof.
  intros pol c ti w t fuel [H|(k & ->)]; [|split; reflexivity]. apply waits_without_lock in H. unfold holds in H. apply orb_false_iff in H. exact H.
Qed.
Print Assumptions C45_waits_without_lock.
(** whenever a call has not returned, some thread can go on, in every state, poisoned or not; *)
Theorem C45_no_deadlock : forall pol c ti evs i t, lock_policy pol -> let w := lrun pol c ti evs in
  nth_error (l_threads w) i = Some t -> (forall k r, t <> LDone k r) ->
  exists j t', nth_error (l_threads w) j = Some t' /\ forall fuel, lstep_thread pol c ti fuel w t' <> None.
Proof.
  intros pol c ti evs i t LP w Ht Hd. destruct (no_deadlock pol c ti w i t LP Ht) as (j & t' & H1 & H2); [destruct t; try reflexivity; exfalso; eapply Hd; reflexivity|].
  exists j, t'. auto.
Qed.
Print Assumptions C45_no_deadlock.
(** seven steps per call are enough to return them all (given that their computations end); *)
Theorem C45_all_return : forall pol c ti evs fuel, lock_policy pol ->
  (forall k, In k (calls_made evs) -> offset_of_uncached fuel c ti (fst k) (snd k) <> Diverge) ->
  exists steps, (length steps <= 7 * length (calls_made evs))%nat /\ Forall (fun ev => exists i, ev = Step i fuel) steps /\
    forall i k, nth_error (calls_made evs) i = Some k -> exists r,
      nth_error (l_threads (lrun pol c ti (evs ++ steps))) i = Some (LDone k r) /\ offset_of_returns c ti (fst k) (snd k) r.
Proof.
  intros pol c ti evs fuel LP D. destruct (lrun_ok pol c ti evs) as (_ & _ & M).
  assert (W : (work (lrun pol c ti evs) <= 7 * length (calls_made evs))%nat).
  { rewrite <- M, map_length. unfold work. clear M D. induction (l_threads (lrun pol c ti evs)) as [|t l IH]; [cbn; lia|]. cbn [fold_right length]. assert (left_ t <= 7)%nat by (destruct t; cbn; lia). lia. }
  destruct (completes pol c ti _ fuel LP (lrun pol c ti evs) W) as (steps & HL & HF & HD); [rewrite M; exact D|].
  exists steps. split; [exact HL|]. split; [exact HF|]. intros i k Hk.
  assert (E : fold_left (lstep pol c ti) steps (lrun pol c ti evs) = lrun pol c ti (evs ++ steps)) by (unfold lrun; rewrite fold_left_app; reflexivity).
  rewrite E in HD. destruct (lrun_ok pol c ti (evs ++ steps)) as (_ & OT & M').
  assert (NC : calls_made steps = []).
  { clear -HF. unfold calls_made. induction HF as [|ev l (j & ->) _ IH]; [reflexivity|]. cbn. exact IH. }
  rewrite calls_made_app, NC, app_nil_r in M'. rewrite <- M', nth_error_map in Hk.
  destruct (nth_error (l_threads (lrun pol c ti (evs ++ steps))) i) as [t|] eqn:Et; [|discriminate]. cbn in Hk. injection Hk as <-.
  unfold all_done in HD. rewrite Forall_forall in HD. specialize (HD _ (nth_error_In _ _ Et)). destruct t as [| | | | | | |k r]; try discriminate HD.
  exists r. split; [reflexivity|]. exact (proj2 (lrun_exact pol c ti _ _ _ _ Et)).
Qed.
Print Assumptions C45_all_return.
(** and every fair schedule does: after seven rounds per call, in each of which every thread gets a turn (in any
    order, any number of times, with the lock possibly being poisoned meanwhile), all calls have returned.
    [round n F evs] (LocksMore.v): [evs] has no new calls and a step of each of the first [n] threads with fuel [F] or more. *)
Theorem C45_fair : forall pol c ti evs F rounds, lock_policy pol ->
  (7 * length (calls_made evs) <= length rounds)%nat -> Forall (round (length (calls_made evs)) F) rounds ->
  (forall k, In k (calls_made evs) -> valid_utf8 (snd k) /\ offset_of_uncached F c ti (fst k) (snd k) <> Diverge) ->
  forall i k, nth_error (calls_made evs) i = Some k -> exists r,
    nth_error (l_threads (lrun pol c ti (evs ++ List.concat rounds))) i = Some (LDone k r) /\ offset_of_returns c ti (fst k) (snd k) r.
Proof. exact lrun_fair. Qed.
Print Assumptions C45_fair.
(** After [firstn 16 schedule] (one call writing, others waiting) every call still in flight returns. *)
Example C45_met : l_threads (lrun readers_first (build64 true) sample_ti (firstn 16 schedule)) =
   [LWrite (7, s "b") (3, ByteOffset 8) true; LWait (7, s "b") (3, ByteOffset 8); LDone (7, s "zzz") (Err InvalidTypePath)] /\
  lstep_thread readers_first (build64 true) sample_ti 9 (lrun readers_first (build64 true) sample_ti (firstn 16 schedule)) (LWait (7, s "b") (3, ByteOffset 8)) = None /\
  (forall k, In k (calls_made schedule) -> valid_utf8 (snd k) /\ offset_of_uncached 20 (build64 true) sample_ti (fst k) (snd k) <> Diverge) /\
  round 3 20 [Step 2 20; Poison; Step 1 9; Step 0 20; Step 1 30].
Proof.
  split; [vm_compute; reflexivity|]. split; [vm_compute; reflexivity|]. split.
  - intros k H. cbn in H. repeat (destruct H as [<-|H]; [split; [literal|vm_compute; discriminate]|]). destruct H.
  - split; [repeat constructor|]. intros [|[|[|i]]] Hi; [exists 20%nat|exists 30%nat|exists 20%nat|lia]; cbn; split; try lia; tauto.
Qed.
