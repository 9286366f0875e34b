(** * The three maps built by a load, as functions of the list of types. *)
From Coq Require Import Lia ZifyBool ZifyNat ZifyN.
From Verif Require Import TypeInfo BaseFacts.

Definition tables (ts : list type_variant) : type_information :=
  snd (fold_left (fun (p : N * type_information) t => (fst p + 1, add_type (snd p) (fst p) t))
                 ts (1, maps load_init)).

Lemma tables_fst ts n m :
  fst (fold_left (fun (p : N * type_information) t => (fst p + 1, add_type (snd p) (fst p) t)) ts (n, m))
  = n + N.of_nat (length ts).
Proof.
  revert n m. induction ts as [|t ts IH]; intros n m; cbn [fold_left fst snd length].
  - lia.
  - rewrite IH. lia.
Qed.

Lemma tables_snoc ts t :
  tables (ts ++ [t]) = add_type (tables ts) (1 + N.of_nat (length ts)) t.
Proof.
  unfold tables. rewrite fold_left_app. cbn [fold_left fst snd].
  rewrite tables_fst. reflexivity.
Qed.

(** ids 1..n *)
Definition ids (n : nat) : list N := map N.of_nat (seq 1 n).
Lemma ids_S n : ids (S n) = ids n ++ [N.of_nat (S n)].
Proof. unfold ids. rewrite seq_S, map_app. reflexivity. Qed.
Lemma length_ids n : length (ids n) = n.
Proof. unfold ids. rewrite map_length, seq_length. reflexivity. Qed.
Lemma in_ids x n : In x (ids n) <-> 1 <= x <= N.of_nat n.
Proof.
  unfold ids. rewrite in_map_iff. split.
  - intros (k & <- & Hk). apply in_seq in Hk. lia.
  - intros H. exists (N.to_nat x). split; [lia|]. apply in_seq. lia.
Qed.

Lemma combine_snoc {A B} (l : list A) (l' : list B) a b :
  length l = length l' -> combine (l ++ [a]) (l' ++ [b]) = combine l l' ++ [(a, b)].
Proof.
  revert l'. induction l as [|x l IH]; intros [|y l'] H; cbn in *; try discriminate; [reflexivity|].
  f_equal. apply IH. lia.
Qed.

Lemma map_fst_combine {A B} (l : list A) (l' : list B) : length l = length l' -> map fst (combine l l') = l.
Proof.
  revert l'. induction l as [|x l IH]; intros [|y l'] H; cbn in *; try discriminate; [reflexivity|].
  f_equal. apply IH. lia.
Qed.
Lemma map_snd_combine {A B} (l : list A) (l' : list B) : length l = length l' -> map snd (combine l l') = l'.
Proof.
  revert l'. induction l as [|x l IH]; intros [|y l'] H; cbn in *; try discriminate; [reflexivity|].
  f_equal. apply IH. lia.
Qed.

Lemma get_tables ts : get (tables ts) = combine (ids (length ts)) ts.
Proof.
  induction ts as [|t ts IH] using rev_ind; [reflexivity|].
  rewrite tables_snoc, app_length. cbn [length]. rewrite Nat.add_1_r, ids_S.
  rewrite combine_snoc by (rewrite length_ids; reflexivity). rewrite <- IH.
  replace (N.of_nat (S (length ts))) with (1 + N.of_nat (length ts)) by lia.
  unfold get, add_type.
  assert (L : bt_insert N.compare (1 + N.of_nat (length ts)) t (id_to_type_map (tables ts))
              = id_to_type_map (tables ts) ++ [(1 + N.of_nat (length ts), t)]).
  { apply bt_insert_last. intros k Hk. unfold get in IH. rewrite IH in Hk.
    rewrite map_fst_combine in Hk by apply length_ids. apply in_ids in Hk.
    apply N.compare_gt_iff. lia. }
  destruct (type_name t); cbn [id_to_type_map]; exact L.
Qed.

Lemma types_of_tables ts : map snd (get (tables ts)) = ts.
Proof. rewrite get_tables. apply map_snd_combine. apply length_ids. Qed.
Lemma tables_inj ts ts' : tables ts = tables ts' -> ts = ts'.
Proof. intros E. rewrite <- (types_of_tables ts), <- (types_of_tables ts'). congruence. Qed.

Lemma length_tables ts : length (id_to_type_map (tables ts)) = length ts.
Proof. change (id_to_type_map (tables ts)) with (get (tables ts)). rewrite get_tables, combine_length, length_ids. lia. Qed.

Lemma from_id_tables ts tid :
  from_id (tables ts) tid = if tid =? 0 then Some TVoid else nth_error ts (N.to_nat (tid - 1)).
Proof.
  unfold from_id. destruct (N.eqb_spec tid 0) as [|Hz]; [reflexivity|].
  induction ts as [|t ts IH] using rev_ind.
  - cbn. destruct (N.to_nat (tid - 1)); reflexivity.
  - rewrite tables_snoc. unfold add_type.
    assert (L : bt_get N.compare tid (bt_insert N.compare (1 + N.of_nat (length ts)) t (id_to_type_map (tables ts)))
                = nth_error (ts ++ [t]) (N.to_nat (tid - 1))).
    { destruct (N.eq_dec tid (1 + N.of_nat (length ts))) as [->|D].
      - rewrite bt_get_insert_same by apply N_compare_eq.
        replace (N.to_nat (1 + N.of_nat (length ts) - 1)) with (length ts) by lia.
        rewrite nth_error_app2, Nat.sub_diag by lia. reflexivity.
      - rewrite bt_get_insert_other by (apply N_compare_eq || exact D). rewrite IH.
        destruct (Nat.lt_ge_cases (N.to_nat (tid - 1)) (length ts)) as [Hl|Hl].
        + rewrite nth_error_app1 by exact Hl. reflexivity.
        + rewrite (proj2 (nth_error_None ts _)) by exact Hl.
          symmetry. apply nth_error_None. rewrite app_length. cbn. lia. }
    destruct (type_name t); cbn [id_to_type_map]; exact L.
Qed.

(** the name of a type found at an id *)
Lemma name_of_tables ts tid :
  name_of (tables ts) tid =
  match from_id (tables ts) tid with Some t => type_name t | None => None end.
Proof.
  rewrite from_id_tables. unfold name_of. destruct (N.eqb_spec tid 0) as [|Hz]; [reflexivity|].
  induction ts as [|t ts IH] using rev_ind.
  - cbn. destruct (N.to_nat (tid - 1)); reflexivity.
  - rewrite tables_snoc. unfold add_type.
    destruct (N.eq_dec tid (1 + N.of_nat (length ts))) as [E|D].
    + replace (N.to_nat (tid - 1)) with (length ts) by lia.
      rewrite nth_error_app2, Nat.sub_diag by lia. cbn [nth_error].
      destruct (type_name t) as [nm|] eqn:En; cbn [id_to_name_map].
      * rewrite E. apply bt_get_insert_same, N_compare_eq.
      * rewrite IH. rewrite (proj2 (nth_error_None ts _)) by lia. reflexivity.
    + assert (X : match nth_error (ts ++ [t]) (N.to_nat (tid - 1)) with Some t0 => type_name t0 | None => None end
                = match nth_error ts (N.to_nat (tid - 1)) with Some t0 => type_name t0 | None => None end).
      { destruct (Nat.lt_ge_cases (N.to_nat (tid - 1)) (length ts)) as [Hl|Hl].
        - rewrite nth_error_app1 by exact Hl. reflexivity.
        - rewrite (proj2 (nth_error_None ts _)) by exact Hl.
          rewrite (proj2 (nth_error_None (ts ++ [t]) _)); [reflexivity|]. rewrite app_length. cbn. lia. }
      rewrite X, <- IH.
      destruct (type_name t); cbn [id_to_name_map]; [|reflexivity].
      apply bt_get_insert_other; [apply N_compare_eq|exact D].
Qed.

(** [id_of]: the last id with that name *)
Lemma name_map_tables ts name :
  match bt_get str_compare name (name_to_id_map (tables ts)) with
  | Some id => 1 <= id <= N.of_nat (length ts) /\
               (exists t, nth_error ts (N.to_nat (id - 1)) = Some t /\ type_name t = Some name) /\
               (forall j t, nth_error ts j = Some t -> type_name t = Some name -> N.of_nat j + 1 <= id)
  | None => forall t, In t ts -> type_name t <> Some name
  end.
Proof.
  induction ts as [|t ts IH] using rev_ind; [cbn; easy|].
  rewrite tables_snoc. unfold add_type.
  assert (Keep : type_name t <> Some name ->
    match bt_get str_compare name (name_to_id_map (tables ts)) with
    | Some id => 1 <= id <= N.of_nat (length (ts ++ [t])) /\
               (exists t', nth_error (ts ++ [t]) (N.to_nat (id - 1)) = Some t' /\ type_name t' = Some name) /\
               (forall j t', nth_error (ts ++ [t]) j = Some t' -> type_name t' = Some name -> N.of_nat j + 1 <= id)
    | None => forall t', In t' (ts ++ [t]) -> type_name t' <> Some name
    end).
  { intros Hn. destruct (bt_get str_compare name (name_to_id_map (tables ts))) as [id|].
    - destruct IH as (Hr & (t' & Ht' & Hn') & Hmax). rewrite app_length. cbn [length].
      split; [lia|]. split.
      + exists t'. split; [|exact Hn']. rewrite nth_error_app1 by lia. exact Ht'.
      + intros j t2 Hj Hj2. destruct (Nat.lt_ge_cases j (length ts)) as [Hl|Hl].
        * rewrite nth_error_app1 in Hj by exact Hl. eauto.
        * rewrite nth_error_app2 in Hj by exact Hl.
          destruct (j - length ts)%nat as [|k]; cbn in Hj; [congruence|destruct k; discriminate].
    - intros t' Hin. apply in_app_or in Hin. destruct Hin as [Hin|[<-|[]]]; auto. }
  destruct (type_name t) as [nm|] eqn:En; cbn [name_to_id_map].
  - destruct (list_eq_dec Byte.byte_eq_dec name nm) as [<-|D].
    + rewrite bt_get_insert_same by apply str_compare_eq. rewrite app_length. cbn [length].
      split; [lia|]. split.
      * exists t. split; [|exact En]. rewrite nth_error_app2 by lia.
        replace (N.to_nat (1 + N.of_nat (length ts) - 1) - length ts)%nat with O by lia. reflexivity.
      * intros j t2 Hj _. assert (j < length (ts ++ [t]))%nat by (apply nth_error_Some; congruence).
        rewrite app_length in H. cbn in H. lia.
    + rewrite bt_get_insert_other by (apply str_compare_eq || exact D).
      apply Keep. congruence.
  - apply Keep. congruence.
Qed.
