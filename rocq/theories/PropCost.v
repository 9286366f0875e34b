(** * PropCost: how many type lookups a query makes (C53). [offset_of_lookups] is in Cost.v, the conditions in CostSpec.v. *)
From Coq Require Import Strings.String.
From Coq Require Import List NArith ZArith Bool Lia PeanoNat Strings.Byte.
From Verif Require Import TypeInfo Cost CostSpec Spec BaseFacts PathSpec Path PathGrammar PathPrint QuerySpec Chains Sizes Follow Offsets Offsets2 OffsetOf OffsetOf2 Maps Checker Encode EncodeProof LoadProps Witness Sample
  OutcomeSpec Outcome CostFacts PropPath PropQuery PropOffset.
Import ListNotations.
Open Scope N_scope.

(** ** C53 *)
(** A struct without members, and [n] structs with two anonymous members of the one before. *)
Definition doubling (n : nat) : list decl :=
  DStruct None 0 false [] :: map (fun k => DStruct None 0 false [(None, N.of_nat k, ByteOffset 0); (None, N.of_nat k, ByteOffset 0)]) (seq 1 n).
Lemma doubling_nth n k : (0 < k <= n)%nat -> nth_error (doubling n) k = Some (DStruct None 0 false [(None, N.of_nat k, ByteOffset 0); (None, N.of_nat k, ByteOffset 0)]).
Proof. intros H. destruct k as [|k]; [lia|]. cbn [doubling nth_error]. rewrite nth_error_map, (nth_error_nth' _ 0%nat) by (rewrite seq_length; lia). rewrite seq_nth by lia. reflexivity. Qed.
Lemma doubling_ok n : N.of_nat n < 2 ^ 31 -> Forall decl_ok (doubling n).
Proof.
  intros H. constructor; [split; [constructor|]; cbn; repeat split; constructor|]. apply Forall_forall. intros d Hd. apply in_map_iff in Hd. destruct Hd as (k & <- & Hk). apply in_seq in Hk.
  assert (Hk' : N.of_nat k < 2 ^ 32) by (change (2 ^ 32) with (2 * 2 ^ 31); lia).
  split; [constructor|]. split; [reflexivity|]. split; [reflexivity|]. repeat constructor; exact Hk'.
Qed.
Lemma doubling_names n : flat_map names (doubling n) = [].
Proof. cbn [doubling flat_map names app]. generalize (seq 1 n) as l. induction l as [|k l IH]; [reflexivity|]. cbn. exact IH. Qed.
Lemma doubling_words n table : length (flat_map (words (fun _ => 0) table) (doubling n)) = (3 + 9 * n)%nat.
Proof.
  cbn [doubling flat_map]. rewrite app_length. change (length (words (fun _ => 0) table (DStruct None 0 false []))) with 3%nat. f_equal.
  rewrite <- (seq_length n 1) at 2. generalize (seq 1 n) as l. induction l as [|k l IH]; [reflexivity|]. cbn [map flat_map]. rewrite app_length, IH. cbn [length words app flat_map member_words]. lia.
Qed.
Lemma doubling_len n : len (encode Little (doubling n)) = 37 + 36 * N.of_nat n.
Proof.
  unfold encode, encode_with. rewrite doubling_names. unfold len. rewrite !app_length, !words_bytes_length, doubling_words. cbn [length magic string_table flat_map]. lia.
Qed.
Definition double_ti (ti : type_information) (n : nat) : Prop := forall k, (k <= n)%nat ->
  exists h d, from_id ti (N.of_nat k + 1) = Some (TStruct h d) /\
  member_list d = match k with O => [] | _ => member_list d end /\
  map (fun m => (m_name m, m_tid m, m_offset m)) (member_list d) =
    match k with O => [] | _ => [(None, N.of_nat k, ByteOffset 0); (None, N.of_nat k, ByteOffset 0)] end.
Lemma doubling_loads n : N.of_nat n < 10 ^ 8 -> exists ti, type_information_new (file_env (encode Little (doubling n))) = Ok ti /\ length (get ti) = S n /\ double_ti ti n.
Proof.
  intros H. assert (B : 10 ^ 8 < 2 ^ 31) by reflexivity.
  destruct (load_encoded_same x01 x00 (fun _ => 0) Little (doubling n) (file_env (encode Little (doubling n)))) as (ti & L & K & V).
  - reflexivity.
  - apply file_serves.
  - apply doubling_ok. lia.
  - apply Forall_forall. intros d _. exists 0, 0. repeat split; reflexivity.
  - pose proof (doubling_len n) as X. unfold encode in X. rewrite X. assert (B' : 37 + 36 * 10 ^ 8 < 2 ^ 32) by reflexivity. lia.
  - left. reflexivity.
  - exists ti. split; [exact L|].
    assert (Ln : length (get ti) = S n) by (apply (f_equal (@length _)) in K; rewrite !map_length, seq_length in K; cbn [doubling length] in K; rewrite map_length, seq_length in K; exact K).
    split; [exact Ln|].
    assert (T : ti = tables (types ti)) by (apply (loaded_types (file_env (encode Little (doubling n))) ti eq_refl L)).
    intros k Hk. assert (Vk : nth_error (map view (types ti)) k = nth_error (map Some (doubling n)) k) by (rewrite V; reflexivity).
    rewrite !nth_error_map in Vk.
    destruct (nth_error (types ti) k) as [ty|] eqn:Et.
    2:{ exfalso. apply nth_error_None in Et. unfold types in Et. rewrite map_length in Et. lia. }
    assert (F : from_id ti (N.of_nat k + 1) = Some ty).
    { rewrite T, from_id_tables. destruct (N.eqb_spec (N.of_nat k + 1) 0); [lia|]. rewrite <- Et. f_equal. lia. }
    assert (D : nth_error (doubling n) k = Some (DStruct None 0 false match k with O => [] | _ => [(None, N.of_nat k, ByteOffset 0); (None, N.of_nat k, ByteOffset 0)] end)).
    { destruct k; [reflexivity|]. apply doubling_nth. lia. }
    rewrite D in Vk. cbn [option_map] in Vk. destruct ty; cbn [view] in Vk; try discriminate Vk. injection Vk as E1 E2 E3 E4.
    exists h, d. split; [exact F|]. split; [|exact E4]. destruct k; [|reflexivity]. destruct (member_list d); [reflexivity|discriminate E4].
Qed.
Lemma doubling_cost c ti n e : double_ti ti n -> forall k, (k <= n)%nat -> forall fuel,
  ((fuel <= k)%nat -> fst (follow_counted fuel c ti e (ByteOffset 0) (N.of_nat k + 1) [Name (s "x")]) = Diverge) /\
  ((k < fuel)%nat -> exists x, offset_error_kind x = InvalidTypePath /\ follow_counted fuel c ti e (ByteOffset 0) (N.of_nat k + 1) [Name (s "x")] = (Err x, 2 ^ (N.of_nat k + 1) - 1)).
Proof.
  intros D. induction k as [|k IH]; intros Hk fuel.
  - split; [intros H; replace fuel with 0%nat by lia; reflexivity|]. intros H. destruct fuel as [|fuel]; [lia|].
    destruct (D 0%nat Hk) as (h & d & F & M & _). assert (R : resolve ti (N.of_nat 0 + 1) = Ok (N.of_nat 0 + 1, TStruct h d)) by (apply resolve_opaque, opaque_iff; split; [exact F|exact I]).
    exists OEMemberNotFound. split; [reflexivity|]. cbn [follow_counted]. unfold round_counted. rewrite R. unfold cbind at 1. cbn [fst snd]. rewrite M. cbn [probe_counted find free cbind fst snd].
    assert (RL : resolve_lookups (chain_fuel ti) ti (N.of_nat 0 + 1) = 1) by (unfold chain_fuel; cbn [resolve_lookups]; rewrite F; reflexivity). rewrite RL. reflexivity.
  - destruct (D (S k) Hk) as (h & d & F & _ & M). assert (R : resolve ti (N.of_nat (S k) + 1) = Ok (N.of_nat (S k) + 1, TStruct h d)) by (apply resolve_opaque, opaque_iff; split; [exact F|exact I]).
    assert (RL : resolve_lookups (chain_fuel ti) ti (N.of_nat (S k) + 1) = 1) by (unfold chain_fuel; cbn [resolve_lookups]; rewrite F; reflexivity).
    assert (Ms : exists m1 m2, member_list d = [m1; m2] /\ m_name m1 = None /\ m_name m2 = None /\ m_tid m1 = N.of_nat k + 1 /\ m_tid m2 = N.of_nat k + 1 /\ m_offset m1 = ByteOffset 0 /\ m_offset m2 = ByteOffset 0).
    { destruct (member_list d) as [|m1 [|m2 [|m3 ms]]]; try discriminate M. injection M as A1 A2 A3 A4 A5 A6. exists m1, m2. rewrite A1, A2, A3, A4, A5, A6. replace (N.of_nat (S k)) with (N.of_nat k + 1) by lia. auto 8. }
    destruct Ms as (m1 & m2 & E & N1 & N2 & T1 & T2 & O1 & O2).
    assert (Step : forall fuel, follow_counted (S fuel) c ti e (ByteOffset 0) (N.of_nat (S k) + 1) [Name (s "x")] =
      cbind (Ok (N.of_nat (S k) + 1, TStruct h d), 1) (fun _ => cbind (probe_counted (fun o mt => follow_counted fuel c ti e o mt [Name (s "x")]) (ByteOffset 0) [m1; m2]) (fun found =>
        match found with Some r => free (Ok r) | None => free (Err OEMemberNotFound) end))).
    { intros f. cbn [follow_counted]. unfold round_counted. rewrite R, RL. unfold cbind at 1 3. cbn [fst snd]. rewrite E. cbn [find]. unfold has_name. rewrite N1, N2. reflexivity. }
    specialize (IH ltac:(lia)). split.
    + intros H. destruct fuel as [|fuel]; [reflexivity|]. rewrite Step. destruct (IH fuel) as [IH1 _]. specialize (IH1 ltac:(lia)).
      cbn [probe_counted]. unfold is_anonymous. rewrite N1. rewrite !cbind_fst. cbn [fst obind free]. rewrite O1.
      change (btf_err (offset_add (ByteOffset 0) (ByteOffset 0))) with (@Ok offset_error _ (ByteOffset 0)). cbn [obind]. rewrite T1, IH1. reflexivity.
    + intros H. destruct fuel as [|fuel]; [lia|]. rewrite Step. destruct (IH fuel) as [_ IH2]. destruct (IH2 ltac:(lia)) as (x & _ & Ex).
      exists OEMemberNotFound. split; [reflexivity|]. cbn [probe_counted]. unfold is_anonymous. rewrite N1, N2, O1, O2, T1, T2.
      change (btf_err (offset_add (ByteOffset 0) (ByteOffset 0))) with (@Ok offset_error _ (ByteOffset 0)). unfold free, cbind. cbn [fst snd]. rewrite Ex. cbn [fst snd]. f_equal.
      rewrite Nat2N.inj_succ, <- N.add_1_r. rewrite (N.pow_add_r 2 (N.of_nat k + 1) 1). change (2 ^ 1) with 2.
      assert (2 ^ (N.of_nat k + 1) <> 0) by (apply N.pow_nonzero; discriminate). lia.
Qed.
(** A file of 37 + 36*n bytes, with n + 1 types, for which a lookup that finds nothing makes 2^(n+1) - 1 lookups. *)
Theorem C53_exponential_refuted : forall n, N.of_nat n < 10 ^ 8 -> exists img ti,
  len img = 37 + 36 * N.of_nat n /\ type_information_new (file_env img) = Ok ti /\ length (get ti) = S n /\
  forall c, offset_of_returns c ti (N.of_nat n + 1) (s "x") (Err InvalidTypePath) /\
    forall fuel, offset_of_uncached fuel c ti (N.of_nat n + 1) (s "x") <> Diverge -> offset_of_lookups fuel c ti (N.of_nat n + 1) (s "x") = 2 ^ (N.of_nat n + 1) - 1.
Proof.
  intros n H. destruct (doubling_loads n H) as (ti & L & G & D). exists (encode Little (doubling n)), ti. split; [apply doubling_len|]. split; [exact L|]. split; [exact G|].
  intros c. assert (V : valid_utf8 (s "x")) by literal.
  assert (A : ascripts c (PStart, s "x") [Name (s "x")] None) by (apply accepted_script; [exact V|apply accepted_x]).
  pose proof (doubling_cost c ti n None D n (le_n n)) as X.
  assert (Res : forall fuel, offset_of_uncached fuel c ti (N.of_nat n + 1) (s "x") =
     match fst (follow_counted fuel c ti None (ByteOffset 0) (N.of_nat n + 1) [Name (s "x")]) with Ok r => Ok r | Err k => Err (offset_error_kind k) | Panic q => Panic q | Diverge => Diverge end).
  { intros fuel. unfold offset_of_uncached. rewrite <- offset_of_counted_result, (counted_follow c ti _ V fuel (ByteOffset 0) _ piter_new [Name (s "x")] None (okit_new _ V) A). reflexivity. }
  split.
  - split; [discriminate|]. exists (S n). rewrite Res. destruct (X (S n)) as [_ X2]. destruct (X2 (le_n _)) as (x & Ek & E). rewrite E. cbn [fst]. rewrite Ek. reflexivity.
  - intros fuel Hd. rewrite Res in Hd. rewrite (lookups_follow c ti _ _ _ V A). destruct (X fuel) as [X1 X2]. destruct (Nat.le_gt_cases fuel n) as [Hf|Hf].
    + exfalso. apply Hd. rewrite (X1 Hf). reflexivity.
    + destruct (X2 Hf) as (x & _ & E). rewrite E. reflexivity.
Qed.
Print Assumptions C53_exponential_refuted.

(** In tables without endless chains and ambiguous names, in which nothing is entered in two ways: with [k] components, [n] types and [a]
    anonymous members, k * ((n + 1) * (a + 2) + 1) lookups are enough, whether the path is found or not. *)
Theorem C53_offset_of_partial : forall c ti t p cs bad fuel, valid_utf8 p -> text_is c p cs bad -> acyclic ti -> unambiguous ti -> entered_once ti ->
  offset_of_lookups fuel c ti t p <= N.of_nat (length cs) * ((N.of_nat (length (get ti)) + 1) * (N.of_nat (anonymous_members ti) + 2) + 1).
Proof.
  intros c ti t p cs bad fuel V T AC UN EO. destruct (text_script c p cs bad V T) as (e & A & _ & _). rewrite (lookups_follow c ti p cs e V A).
  pose proof (follow_cost ti AC EO UN c e cs fuel (ByteOffset 0) t) as H. unfold chain_fuel in H. rewrite Nat2N.inj_succ, <- N.add_1_r in H. exact H.
Qed.
Print Assumptions C53_offset_of_partial.
(** This is so if each anonymous member has a type of its own ... *)
Theorem C53_in_place_partial : forall c ti t p cs bad fuel, valid_utf8 p -> text_is c p cs bad -> acyclic ti -> unambiguous ti -> written_in_place ti ->
  offset_of_lookups fuel c ti t p <= N.of_nat (length cs) * ((N.of_nat (length (get ti)) + 1) * (N.of_nat (anonymous_members ti) + 2) + 1).
Proof. intros c ti t p cs bad fuel V T AC UN WP. apply (C53_offset_of_partial c ti t p cs bad fuel V T AC UN). apply in_place_once; assumption. Qed.
Print Assumptions C53_in_place_partial.
(** ... or, where equal anonymous structs are stored once, if in each of them something has a name and no struct has two of the same type. *)
Theorem C53_shared_partial : forall c ti t p cs bad fuel, valid_utf8 p -> text_is c p cs bad -> acyclic ti -> unambiguous ti -> something_named ti -> entered_alone ti ->
  offset_of_lookups fuel c ti t p <= N.of_nat (length cs) * ((N.of_nat (length (get ti)) + 1) * (N.of_nat (anonymous_members ti) + 2) + 1).
Proof. intros c ti t p cs bad fuel V T AC UN SN EA. apply (C53_offset_of_partial c ti t p cs bad fuel V T AC UN). apply named_once; assumption. Qed.
Print Assumptions C53_shared_partial.
(** In any table: whenever size_of returns, it has made at most n + 2 lookups. *)
Theorem C53_size_of : forall c ti t fuel, size_of_fuel fuel c ti t <> Diverge -> size_lookups fuel ti t <= N.of_nat (length (get ti)) + 2.
Proof.
  intros c ti t fuel H.
  assert (Mono : forall n u, size_of_fuel n c ti u <> Diverge -> size_lookups (S n) ti u = size_lookups n ti u).
  { induction n as [|n IH]; intros u Hu; [destruct Hu; reflexivity|]. cbn [size_of_fuel] in Hu. cbn [size_lookups]. cbn [size_lookups] in IH.
    destruct (from_id ti u) as [ty|]; [|reflexivity]. destruct ty; try reflexivity; f_equal; (apply IH; intros E; apply Hu; rewrite E; reflexivity). }
  assert (MonoLe : forall n m u, (n <= m)%nat -> size_of_fuel n c ti u <> Diverge -> size_lookups m ti u = size_lookups n ti u).
  { intros n m u Hle. induction Hle as [|m Hle IH]; intros Hu; [reflexivity|]. rewrite Mono; [auto|].
    rewrite (mono_le (fun k v => size_of_fuel k c ti v) (size_mono c ti) n m u Hle Hu). exact Hu. }
  assert (Hn : N.of_nat (chain_fuel ti) = N.of_nat (length (get ti)) + 1) by (unfold chain_fuel, get; lia).
  pose proof (size_settled c ti fuel t _ eq_refl H) as S. cbv beta in S.
  destruct (Nat.le_ge_cases fuel (chain_fuel ti)) as [Hf|Hf].
  - pose proof (size_lookups_le fuel ti t). lia.
  - rewrite (MonoLe (chain_fuel ti) fuel t Hf) by (rewrite S; exact H). pose proof (size_lookups_le (chain_fuel ti) ti t). lia.
Qed.
Print Assumptions C53_size_of.
(** The sample: no endless chain, no ambiguous name, each anonymous member written in place; and what three lookups cost. *)
Definition entering (ti : type_information) : list (N * nat * N) :=
  flat_map (fun e => flat_map (fun '(i, m) => match m_name m, resolve ti (m_tid m) with None, Ok (r', _) => [(fst e, i, r')] | _, _ => [] end)
    (combine (seq 0 (length (members_list (snd e)))) (members_list (snd e)))) (get ti).
Lemma combine_nth {A} (l : list A) k i x : nth_error l i = Some x -> In ((k + i)%nat, x) (combine (seq k (length l)) l).
Proof.
  revert k i. induction l as [|a l IH]; intros k [|i] H; try discriminate H; cbn [length seq combine].
  - injection H as ->. left. f_equal. lia.
  - right. replace (k + S i)%nat with (S k + i)%nat by lia. apply IH. exact H.
Qed.
Lemma enters_entering ti r i r' : enters ti r i r' -> In (r, i, r') (entering ti).
Proof.
  intros (ty & ms & m & ty' & F & M & H1 & H2 & C & F' & (ms' & M')). apply in_flat_map. exists (r, ty). split.
  - unfold from_id in F. destruct (N.eqb_spec r 0) as [->|Hr]; [injection F as <-; destruct M|]. apply bt_get_pair. exact F.
  - cbn [fst snd]. assert (E : members_list ty = ms) by (destruct ty; try destruct M; exact M || reflexivity). rewrite E.
    apply in_flat_map. exists (i, m). split; [apply (combine_nth ms 0 i m H1)|]. rewrite H2.
    assert (R : resolve ti (m_tid m) = Ok (r', ty')) by (rewrite (resolve_chain _ _ _ C); apply resolve_opaque, opaque_iff; split; [exact F'|destruct ty'; try destruct M'; exact I]).
    rewrite R. left. reflexivity.
Qed.
Lemma sample_in_place : written_in_place sample_ti.
Proof.
  intros r1 i1 r2 i2 r' H1 H2. apply enters_entering in H1, H2. vm_compute in H1, H2.
  repeat (destruct H1 as [H1|H1]; [injection H1 as <- <- <-; repeat (destruct H2 as [H2|H2]; [first [discriminate H2|injection H2 as <- <-; auto]|]); destruct H2|]). destruct H1.
Qed.
(** A fixed file of two structs, [struct S { struct A; struct S x; }] and [struct A { struct S x; }] (sizes and places play no role): [x] can be looked for in two ways
    at each step, so a path of k + 1 components, 2k + 1 bytes, that is not found takes 2^(k+2) - 2 lookups. No chain is endless and no type is shared. *)
Definition forking : list decl := [DStruct (Some (s "S")) 0 false [(None, 2, ByteOffset 0); (Some (s "x"), 1, ByteOffset 0)]; DStruct (Some (s "A")) 0 false [(Some (s "x"), 1, ByteOffset 0)]].
Definition fork_ti : type_information := match type_information_new (file_env (encode Little forking)) with Ok ti => ti | _ => sample_ti end.
Definition forked (k : nat) : str := concat (repeat (s "x.") k) ++ s "y".
Lemma forked_print k : forked k = print (repeat (Name (s "x")) k ++ [Name (s "y")]).
Proof.
  unfold forked. destruct k as [|k]; [reflexivity|]. cbn [repeat app print concat].
  assert (G : forall j, dot ++ concat (repeat (s "x.") j) ++ s "y" = print_rest (repeat (Name (s "x")) j ++ [Name (s "y")])).
  { induction j as [|j IH]; [reflexivity|]. cbn [repeat app print_rest concat]. rewrite <- IH, <- !app_assoc. reflexivity. }
  rewrite <- G. reflexivity.
Qed.
Lemma fork_S c f n cs : follow_counted (S f) c fork_ti None (ByteOffset 0) 1 (Name n :: cs) =
  let p := follow_counted f c fork_ti None (ByteOffset 0) 2 (Name n :: cs) in
  let g := follow_counted f c fork_ti None (ByteOffset 0) 1 cs in
  match fst p with
  | Err _ => if str_eqb (s "x") n then (fst g, 1 + (snd p + snd g)) else (Err OEMemberNotFound, 1 + snd p)
  | Ok r => (Ok r, 1 + snd p) | Panic q => (Panic q, 1 + snd p) | Diverge => (Diverge, 1 + snd p)
  end.
Proof.
  assert (F : exists h d m1 m2, from_id fork_ti 1 = Some (TStruct h d) /\ resolve fork_ti 1 = Ok (1, TStruct h d) /\ resolve_lookups (chain_fuel fork_ti) fork_ti 1 = 1 /\
    member_list d = [m1; m2] /\ m_name m1 = None /\ m_tid m1 = 2 /\ m_offset m1 = ByteOffset 0 /\ m_name m2 = Some (s "x") /\ m_tid m2 = 1 /\ m_offset m2 = ByteOffset 0).
  { eexists _, _, _, _. split; [vm_compute; reflexivity|]. split; [vm_compute; reflexivity|]. split; [vm_compute; reflexivity|]. split; [reflexivity|]. repeat split; reflexivity. }
  destruct F as (h & d & m1 & m2 & _ & R & RL & M & N1 & T1 & O1 & N2 & T2 & O2). cbv zeta. cbn [follow_counted]. unfold round_counted. rewrite R, RL. unfold cbind at 1. cbn [fst snd]. rewrite M.
  cbn [probe_counted find]. unfold is_anonymous, has_name. rewrite N1, N2, O1, T1. change (btf_err (offset_add (ByteOffset 0) (ByteOffset 0))) with (@Ok offset_error _ (ByteOffset 0)).
  destruct (str_eqb (s "x") n); [rewrite O2, T2; change (btf_err (offset_add (ByteOffset 0) (ByteOffset 0))) with (@Ok offset_error _ (ByteOffset 0))|];
    unfold cbind, free; cbn [fst snd]; generalize (follow_counted f c fork_ti None (ByteOffset 0) 2 (Name n :: cs)) as p; generalize (follow_counted f c fork_ti None (ByteOffset 0) 1 cs) as g;
    intros [g gn] [[v|x|q|] pn]; cbn [fst snd]; try (f_equal; lia); destruct g; cbn [fst snd]; f_equal; lia.
Qed.
Lemma fork_S2 c f n cs : follow_counted (S f) c fork_ti None (ByteOffset 0) 2 (Name n :: cs) =
  let g := follow_counted f c fork_ti None (ByteOffset 0) 1 cs in if str_eqb (s "x") n then (fst g, 1 + snd g) else (Err OEMemberNotFound, 1).
Proof.
  assert (F : exists h d m2, resolve fork_ti 2 = Ok (2, TStruct h d) /\ resolve_lookups (chain_fuel fork_ti) fork_ti 2 = 1 /\
    member_list d = [m2] /\ m_name m2 = Some (s "x") /\ m_tid m2 = 1 /\ m_offset m2 = ByteOffset 0).
  { eexists _, _, _. split; [vm_compute; reflexivity|]. split; [vm_compute; reflexivity|]. split; [reflexivity|]. repeat split; reflexivity. }
  destruct F as (h & d & m2 & R & RL & M & N2 & T2 & O2). cbv zeta. cbn [follow_counted]. unfold round_counted. rewrite R, RL. unfold cbind at 1. cbn [fst snd]. rewrite M.
  cbn [probe_counted find]. unfold is_anonymous, has_name. rewrite N2. destruct (str_eqb (s "x") n); [rewrite O2, T2; change (btf_err (offset_add (ByteOffset 0) (ByteOffset 0))) with (@Ok offset_error _ (ByteOffset 0))|];
    unfold cbind, free; cbn [fst snd]; generalize (follow_counted f c fork_ti None (ByteOffset 0) 1 cs) as g; intros [g gn]; cbn [fst snd]; f_equal; lia.
Qed.
Lemma fork_cost c : forall k fuel, let r := follow_counted fuel c fork_ti None (ByteOffset 0) 1 (repeat (Name (s "x")) k ++ [Name (s "y")]) in
  ((fuel < 2 * k + 2)%nat -> fst r = Diverge) /\ ((2 * k + 2 <= fuel)%nat -> r = (Err OEMemberNotFound, 2 ^ (N.of_nat k + 2) - 2)).
Proof.
  assert (X : str_eqb (s "x") (s "x") = true) by reflexivity. assert (Y : str_eqb (s "x") (s "y") = false) by reflexivity.
  induction k as [|k IH]; intros fuel r; subst r.
  - cbn [repeat app]. split; intros H.
    + destruct fuel as [|[|fuel]]; [reflexivity| |lia]. rewrite fork_S. reflexivity.
    + destruct fuel as [|[|fuel]]; try lia. rewrite fork_S. cbv zeta. rewrite fork_S2. cbv zeta. rewrite Y. reflexivity.
  - cbn [repeat app]. split; intros H.
    + destruct fuel as [|[|fuel]]; [reflexivity|rewrite fork_S; reflexivity|]. rewrite fork_S. cbv zeta. rewrite fork_S2. cbv zeta. rewrite X. cbn [fst snd].
      destruct (IH fuel) as [IH1 _]. rewrite IH1 by lia. reflexivity.
    + destruct fuel as [|[|fuel]]; try lia. rewrite fork_S. cbv zeta. rewrite fork_S2. cbv zeta. rewrite X. cbn [fst snd].
      destruct (IH fuel) as [_ IH1]. rewrite IH1 by lia. destruct (IH (S fuel)) as [_ IH2]. rewrite IH2 by lia. cbn [fst snd]. f_equal.
      rewrite Nat2N.inj_succ, <- N.add_1_r. replace (N.of_nat k + 1 + 2) with (N.of_nat k + 2 + 1) by lia. rewrite (N.pow_add_r 2 (N.of_nat k + 2) 1). change (2 ^ 1) with 2.
      rewrite N.pow_add_r. change (2 ^ 2) with 4. assert (2 ^ N.of_nat k <> 0) by (apply N.pow_nonzero; discriminate). lia.
Qed.
Lemma fork_in_place : written_in_place fork_ti.
Proof.
  assert (E : entering fork_ti = [(1, 0%nat, 2)]) by (vm_compute; reflexivity).
  intros r1 i1 r2 i2 r' H1 H2. apply enters_entering in H1, H2. rewrite E in H1, H2. cbn [In] in H1, H2.
  repeat (destruct H1 as [H1|H1]; [injection H1 as <- <- <-; repeat (destruct H2 as [H2|H2]; [first [discriminate H2|injection H2 as <- <-; auto]|]); destruct H2|]). destruct H1.
Qed.
Theorem C53_ambiguous_refuted : exists img ti, len img = 93 /\ type_information_new (file_env img) = Ok ti /\ length (get ti) = 2%nat /\ acyclic ti /\ written_in_place ti /\
  forall k c, len (forked k) = 2 * N.of_nat k + 1 /\ offset_of_returns c ti 1 (forked k) (Err InvalidTypePath) /\
    forall fuel, offset_of_uncached fuel c ti 1 (forked k) <> Diverge -> offset_of_lookups fuel c ti 1 (forked k) = 2 ^ (N.of_nat k + 2) - 2.
Proof.
  exists (encode Little forking), fork_ti. split; [vm_compute; reflexivity|]. split; [vm_compute; reflexivity|]. split; [vm_compute; reflexivity|].
  split; [apply (ranked_acyclic (fun t => 3 - t)); vm_compute; reflexivity|]. split; [exact fork_in_place|].
  intros k c. set (cs := repeat (Name (s "x")) k ++ [Name (s "y")]). assert (OK : Forall (component_ok (usize_max c)) cs).
  { apply Forall_app. split; [apply Forall_forall; intros x Hx; apply repeat_spec in Hx; subst x|constructor; [|constructor]]; (split; [|constructor]; left; right; split; vm_compute; discriminate). }
  split. { unfold forked, len. rewrite app_length. assert (G : length (concat (repeat (s "x.") k)) = (2 * k)%nat) by (clear; induction k as [|j IH]; [reflexivity|]; cbn [repeat concat]; rewrite app_length, IH; cbn; lia). rewrite G. change (length (s "y")) with 1%nat. lia. }
  rewrite forked_print. fold cs. assert (V : valid_utf8 (print cs)) by (apply (print_valid _ _ OK)).
  assert (A : ascripts c (PStart, print cs) cs None) by (apply accepted_script; [exact V|apply print_accepted; exact OK]).
  pose proof (fork_cost c k) as X. fold cs in X. cbv zeta in X.
  assert (Res : forall fuel, offset_of_uncached fuel c fork_ti 1 (print cs) =
     match fst (follow_counted fuel c fork_ti None (ByteOffset 0) 1 cs) with Ok r => Ok r | Err k => Err (offset_error_kind k) | Panic q => Panic q | Diverge => Diverge end).
  { intros fuel. unfold offset_of_uncached. rewrite <- offset_of_counted_result, (counted_follow c fork_ti _ V fuel (ByteOffset 0) _ piter_new cs None (okit_new _ V) A). reflexivity. }
  split.
  - split; [discriminate|]. exists (2 * k + 2)%nat. rewrite Res. destruct (X (2 * k + 2)%nat) as [_ X2]. rewrite X2 by lia. reflexivity.
  - intros fuel Hd. rewrite Res in Hd. rewrite (lookups_follow c fork_ti _ _ _ V A). destruct (X fuel) as [X1 X2]. destruct (Nat.le_gt_cases (2 * k + 2) fuel) as [Hf|Hf].
    + rewrite (X2 Hf). reflexivity.
    + exfalso. apply Hd. rewrite (X1 Hf). reflexivity.
Qed.
Print Assumptions C53_ambiguous_refuted.

Example C53_met : acyclic sample_ti /\ unambiguous sample_ti /\ written_in_place sample_ti /\ anonymous_members sample_ti = 3%nat /\ length (get sample_ti) = 27%nat /\
  text_is (build64 true) (s "tasks[2].b") [Name (s "tasks"); Index 2; Name (s "b")] False /\
  offset_of_lookups 20 (build64 true) sample_ti 24 (s "tasks[2].b") = 9 /\
  offset_of_lookups 20 (build64 true) sample_ti 24 (s "tasks[2].zzz") = 9.
Proof.
  split; [exact sample_acyclic|]. split; [exact sample_unambiguous|]. split; [exact sample_in_place|]. split; [vm_compute; reflexivity|]. split; [vm_compute; reflexivity|].
  split; [left; split; [apply accepted_reads; [literal|vm_compute; reflexivity]|auto]|]. split; vm_compute; reflexivity.
Qed.
(** Two structs that share an anonymous struct (as a file without duplicates has it): not written in place, but the bound applies. *)
Definition sharing : list decl := [DInt (Some (s "int")) 4 true false false 0 32; DStruct None 4 false [(Some (s "x"), 1, ByteOffset 0)];
  DStruct (Some (s "A")) 4 false [(None, 2, ByteOffset 0)]; DStruct (Some (s "B")) 8 false [(None, 2, ByteOffset 0); (Some (s "y"), 1, ByteOffset 4)]].
Definition share_ti : type_information := match type_information_new (file_env (encode Little sharing)) with Ok ti => ti | _ => sample_ti end.
Example C53_shared_met : type_information_new (file_env (encode Little sharing)) = Ok share_ti /\ ~ written_in_place share_ti /\
  acyclic share_ti /\ unambiguous share_ti /\ something_named share_ti /\ entered_alone share_ti /\
  offset_of_lookups 20 (build64 true) share_ti 4 (s "x") = 2 /\ offset_of_uncached 20 (build64 true) share_ti 4 (s "x") = Ok (1, ByteOffset 0).
Proof.
  split; [vm_compute; reflexivity|].
  assert (E3 : enters share_ti 3 0 2) by (eexists _, _, _, _; split; [vm_compute; reflexivity|]; split; [reflexivity|]; split; [reflexivity|]; split; [reflexivity|]; split; [constructor|]; split; [vm_compute; reflexivity|]; eexists; reflexivity).
  assert (E4 : enters share_ti 4 0 2) by (eexists _, _, _, _; split; [vm_compute; reflexivity|]; split; [reflexivity|]; split; [reflexivity|]; split; [reflexivity|]; split; [constructor|]; split; [vm_compute; reflexivity|]; eexists; reflexivity).
  split; [intros WP; destruct (WP _ _ _ _ _ E3 E4) as [X _]; discriminate X|].
  split; [apply (ranked_acyclic (fun t => t)); vm_compute; reflexivity|].
  split; [apply (distinct_unambiguous share_ti (all_offers share_ti)); vm_compute; reflexivity|].
  assert (E : entering share_ti = [(3, 0%nat, 2); (4, 0%nat, 2)]) by (vm_compute; reflexivity).
  split.
  { intros r i r' H. apply enters_entering in H. rewrite E in H. cbn [In] in H. assert (r' = 2) as -> by (repeat (destruct H as [H|H]; [injection H as <- <- <-; reflexivity|]); destruct H).
    exists (s "x"). eapply offers_member; [apply is_resolve; eexists; vm_compute; reflexivity|reflexivity|left; reflexivity|reflexivity]. }
  split; [|split; vm_compute; reflexivity].
  intros r i j r' H1 H2. apply enters_entering in H1, H2. rewrite E in H1, H2. cbn [In] in H1, H2.
  repeat (destruct H1 as [H1|H1]; [injection H1 as <- <- <-; repeat (destruct H2 as [H2|H2]; [first [discriminate H2|injection H2 as <-; auto]|]); destruct H2|]). destruct H1.
Qed.
