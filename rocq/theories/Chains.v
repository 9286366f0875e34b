(** * Chains: following links through a finite table. *)
From Coq Require Import Lia PeanoNat.
From Verif Require Import TypeInfo BaseFacts QuerySpec.

Definition walk (R : N -> N -> Prop) (n : nat) (t : N) : Prop :=
  exists f : nat -> N, f 0%nat = t /\ forall k, (k < n)%nat -> R (f k) (f (S k)).
Lemma walk_O R t : walk R 0 t.
Proof. exists (fun _ => t). split; [reflexivity|]. intros k H. lia. Qed.
Lemma walk_S (R : N -> N -> Prop) n t u : R t u -> walk R n u -> walk R (S n) t.
Proof.
  intros H (f & Hf & Hw). exists (fun k => match k with O => t | S k' => f k' end). split; [reflexivity|].
  intros [|k] Hk; [rewrite Hf; exact H|]. apply Hw. lia.
Qed.
Lemma walk_impl (R R' : N -> N -> Prop) n t : (forall a b, R a b -> R' a b) -> walk R n t -> walk R' n t.
Proof. intros H (f & Hf & Hw). exists f. split; [exact Hf|]. auto. Qed.

Lemma find_dup (f : nat -> N) n : (exists i j, (i < j)%nat /\ (j < n)%nat /\ f i = f j) \/ NoDup (map f (seq 0 n)).
Proof.
  induction n as [|n IH]; [right; constructor|]. destruct IH as [(i & j & Hij & Hj & E)|IH]; [left; exists i, j; repeat split; auto; lia|].
  destruct (in_dec N.eq_dec (f n) (map f (seq 0 n))) as [Hin|Hni].
  - left. apply in_map_iff in Hin. destruct Hin as (i & E & Hi). apply in_seq in Hi. exists i, n. repeat split; auto; lia.
  - right. rewrite seq_S, map_app. cbn [map Nat.add]. apply NoDup_Add with (a := f n) (l := map f (seq 0 n)).
    + pose proof (Add_app (f n) (map f (seq 0 n)) []) as G. rewrite app_nil_r in G. exact G.
    + auto.
Qed.
Lemma endless_of_walk (R : N -> N -> Prop) (keys : list N) n t :
  (forall a b, R a b -> In a keys) -> (length keys < n)%nat -> walk R n t -> endless R t.
Proof.
  intros HK Hn (f & Hf & Hw). destruct (find_dup f n) as [(i & j & Hij & Hj & E)|ND].
  - exists (fun k => if Nat.ltb k i then f k else f (i + (k - i) mod (j - i))%nat). split.
    + destruct (Nat.ltb_spec 0 i); [exact Hf|]. assert (i = 0)%nat by lia. subst i. rewrite Nat.sub_0_r, Nat.mod_0_l by lia. exact Hf.
    + intros k. destruct (Nat.ltb_spec k i) as [Hk|Hk], (Nat.ltb_spec (S k) i) as [Hk'|Hk']; try lia.
      * apply Hw. lia.
      * replace (S k) with i by lia. rewrite Nat.sub_diag, Nat.mod_0_l, Nat.add_0_r by lia.
        assert (Ei : i = S k) by lia. rewrite Ei. apply Hw. lia.
      * pose proof (Nat.mod_upper_bound (k - i) (j - i) ltac:(lia)) as Hm.
        set (r := ((k - i) mod (j - i))%nat) in *.
        assert (Er : ((S k - i) mod (j - i))%nat = if Nat.ltb (S r) (j - i) then S r else 0%nat).
        { replace (S k - i)%nat with (S (k - i)) by lia. pose proof (Nat.div_mod (k - i) (j - i) ltac:(lia)) as D. fold r in D.
          destruct (Nat.ltb_spec (S r) (j - i)) as [Hl|Hl].
          - symmetry. apply (Nat.mod_unique _ _ ((k - i) / (j - i))); lia.
          - symmetry. apply (Nat.mod_unique _ _ (S ((k - i) / (j - i)))); nia. }
        rewrite Er. destruct (Nat.ltb_spec (S r) (j - i)) as [Hl|Hl].
        -- rewrite Nat.add_succ_r. apply Hw. lia.
        -- rewrite Nat.add_0_r, E. replace j with (S (i + r)) by lia. apply Hw. lia.
  - exfalso.
    assert (I : incl (map f (seq 0 n)) keys).
    { intros a Ha. apply in_map_iff in Ha. destruct Ha as (k & <- & Hk). apply in_seq in Hk. eapply HK, Hw. lia. }
    pose proof (NoDup_incl_length ND I) as L. rewrite map_length, seq_length in L. lia.
Qed.

(** The ids a table knows, other than 0 *)
Definition known (ti : type_information) : list N := map fst (id_to_type_map ti).
Lemma bt_get_In {V} k (m : list (N * V)) v : bt_get N.compare k m = Some v -> In k (map fst m).
Proof.
  induction m as [|[k' v'] m IH]; cbn; [discriminate|]. destruct (N.compare_spec k k') as [->|H|H]; auto.
Qed.
Lemma from_id_known ti t ty : from_id ti t = Some ty -> ty <> TVoid -> In t (known ti).
Proof.
  unfold from_id. destruct (N.eqb_spec t 0) as [->|Ht]; [intros [= <-]; congruence|]. intros H _. eapply bt_get_In. exact H.
Qed.

(** A query running with a link budget: [F n t]. *)
Section Query.
  Context {E A : Type} (ti : type_information) (R : N -> N -> Prop) (F : nat -> N -> outcome E A).
  Hypothesis Hkeys : forall a b, R a b -> In a (known ti).
  Hypothesis Hmono : forall n t, F n t <> Diverge -> F (S n) t = F n t.
  Hypothesis Hwalk : forall n t, F n t = Diverge -> walk R n t.
  Hypothesis Hend : forall n t, endless R t -> F n t = Diverge.
  Lemma mono_le n m t : (n <= m)%nat -> F n t <> Diverge -> F m t = F n t.
  Proof.
    intros H Hd. induction H as [|m H IH]; [reflexivity|]. rewrite <- IH. apply Hmono. rewrite IH. exact Hd.
  Qed.
  Lemma diverge_endless t : F (chain_fuel ti) t = Diverge <-> endless R t.
  Proof.
    split; [|apply Hend]. intros H. apply Hwalk in H. eapply endless_of_walk; [exact Hkeys| |exact H].
    unfold chain_fuel, known. rewrite map_length. lia.
  Qed.
  Lemma settled n t r : F n t = r -> r <> Diverge -> F (chain_fuel ti) t = r.
  Proof.
    intros <- Hd. assert (Hc : F (chain_fuel ti) t <> Diverge) by (intros H; apply diverge_endless in H; apply Hd, Hend, H).
    destruct (Nat.le_ge_cases n (chain_fuel ti)) as [H|H]; [apply mono_le; assumption|]. symmetry. apply mono_le; assumption.
  Qed.
End Query.

Lemma chain_end {R} a b c : chain R a b -> R b c -> chain R a c.
Proof. induction 1 as [t|t u v H _ IH]; intros Hr; [eapply chain_step; [exact Hr|constructor]|eapply chain_step; eauto]. Qed.
Lemma chain_app {R} a b c : chain R a b -> chain R b c -> chain R a c.
Proof. induction 1 as [t|t u v H _ IH]; intros Hr; [exact Hr|eapply chain_step; eauto]. Qed.
Lemma endless_step (R : N -> N -> Prop) t u : (forall a b b', R a b -> R a b' -> b = b') -> R t u -> endless R t -> endless R u.
Proof.
  intros Hdet H (f & Hf & Hw). exists (fun k => f (S k)). split; [|intros n; apply Hw].
  eapply Hdet; [|exact H]. rewrite <- Hf. apply Hw.
Qed.
Lemma endless_cons (R : N -> N -> Prop) t u : R t u -> endless R u -> endless R t.
Proof.
  intros H (f & Hf & Hw). exists (fun k => match k with O => t | S k' => f k' end). split; [reflexivity|].
  intros [|k]; [rewrite Hf; exact H|apply Hw].
Qed.
Lemma endless_head (R : N -> N -> Prop) t : endless R t -> exists u, R t u.
Proof. intros (f & <- & H). eauto. Qed.
