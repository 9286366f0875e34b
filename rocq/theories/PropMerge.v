(** * PropMerge: merging equal declarations changes no answer (C80). *)
From Coq Require Import Strings.String.
From Coq Require Import List NArith ZArith Bool Lia Strings.Byte.
From Verif Require Import TypeInfo Spec BaseFacts Maps QuerySpec Chains Sizes Follow Checker Encode EncodeProof Exact LoadProps Final RenumberSpec Renumber Rewrite MergeSpec Witness Sample PropQuery PropOffset PropLoad2 PropSame.
Import ListNotations.
Open Scope N_scope.

Lemma at_det ds t d d' : at_id ds t d -> at_id ds t d' -> d = d'.
Proof. intros [_ A] [_ B]. congruence. Qed.
Lemma at_or_not ds t : (exists d, at_id ds t d) \/ forall d, ~ at_id ds t d.
Proof.
  unfold at_id. destruct (N.leb_spec 1 t) as [H|H]; [|right; intros d [A _]; lia].
  destruct (nth_error ds (N.to_nat (t - 1))) as [d|]; [left; eauto|right; intros d [_ A]; discriminate A].
Qed.
Lemma called_rename f d : called (rename f d) = called d.
Proof. destruct d; reflexivity. Qed.
Lemma called_declared d : called d = declared d.
Proof. destruct d; reflexivity. Qed.

Section Tables.
  Context (ti : type_information) (ds : list decl) (E : ti = tables (types ti)) (V : map view (types ti) = map Some ds).
  Lemma nth_view i : nth_error (map view (types ti)) i = option_map Some (nth_error ds i).
  Proof. rewrite V. apply nth_error_map. Qed.
  Lemma shows_at t d : at_id ds t d -> shows ti t = Shown d.
  Proof.
    intros [H1 H2]. rewrite (shows_nth ti t E). destruct (N.eqb_spec t 0); [lia|]. pose proof (nth_view (N.to_nat (t - 1))) as X. rewrite H2, nth_error_map in X.
    destruct (nth_error (types ti) (N.to_nat (t - 1))) as [ty|]; [|discriminate X]. cbn in X. injection X as ->. reflexivity.
  Qed.
  Lemma shows_not t : t <> 0 -> (forall d, ~ at_id ds t d) -> shows ti t = Unknown.
  Proof.
    intros H1 H2. rewrite (shows_nth ti t E). destruct (N.eqb_spec t 0); [lia|]. pose proof (nth_view (N.to_nat (t - 1))) as X. rewrite nth_error_map in X.
    destruct (nth_error (types ti) (N.to_nat (t - 1))) as [ty|]; [|reflexivity]. destruct (nth_error ds (N.to_nat (t - 1))) as [d|] eqn:Hd; [|discriminate X].
    exfalso. apply (H2 d). split; [lia|exact Hd].
  Qed.
  Lemma shows_0 : shows ti 0 = Void.
  Proof. rewrite (shows_nth ti 0 E). reflexivity. Qed.
  Lemma carries_at t n : carries (types ti) t n <-> exists d, at_id ds t d /\ called d = Some n.
  Proof.
    unfold carries. split.
    - intros (ty & A & B). apply type_at_nth in A. destruct A as [A1 A2]. pose proof (nth_view (N.to_nat (t - 1))) as X. rewrite nth_error_map, A2 in X. cbn in X.
      destruct (nth_error ds (N.to_nat (t - 1))) as [d|] eqn:Hd; [|discriminate X]. injection X as X. exists d. split; [split; [lia|exact Hd]|].
      rewrite called_declared. rewrite declared_view, X in B. exact B.
    - intros (d & (A1 & A2) & B). pose proof (nth_view (N.to_nat (t - 1))) as X. rewrite nth_error_map, A2 in X. destruct (nth_error (types ti) (N.to_nat (t - 1))) as [ty|] eqn:Ht; [|discriminate X].
      cbn in X. injection X as X. exists ty. split; [apply type_at_nth; split; [lia|exact Ht]|]. rewrite declared_view, X, <- called_declared. exact B.
  Qed.
End Tables.

Section Merged.
  Context (f : N -> N) (ds1 ds2 : list decl) (M : merged f ds1 ds2) (ti1 ti2 : type_information).
  Context (E1 : ti1 = tables (types ti1)) (V1 : map view (types ti1) = map Some ds1) (F1 : Forall type_fits (types ti1)).
  Context (E2 : ti2 = tables (types ti2)) (V2 : map view (types ti2) = map Some ds2) (F2 : Forall type_fits (types ti2)).
  Context (NO : forall n, id_of ti1 n = None -> forall i, ~ carries (types ti1) i n).
  Lemma merged_renumbered : renumbered (fun _ => True) f ti1 ti2.
  Proof.
    intros t _. destruct (N.eq_dec t 0) as [->|H0].
    { rewrite (shows_0 ti1 E1), (m_void _ _ _ M). apply shows_0. exact E2. }
    destruct (at_or_not ds1 t) as [(d & A)|A].
    - rewrite (shows_at ti1 ds1 E1 V1 t d A). split; [apply (shows_at ti2 ds2 E2 V2), (m_kept _ _ _ M), A|]. apply Forall_forall. intros; exact I.
    - rewrite (shows_not ti1 ds1 E1 V1 t H0 A). destruct (m_unknown _ _ _ M t H0 A) as [H0' A']. apply (shows_not ti2 ds2 E2 V2 _ H0' A').
  Qed.
  Lemma merged_called t n : (exists d, at_id ds1 t d /\ called d = Some n) -> exists d, at_id ds2 (f t) d /\ called d = Some n.
  Proof. intros (d & A & B). exists (rename f d). split; [apply (m_kept _ _ _ M), A|]. rewrite called_rename. exact B. Qed.
  Lemma called_merged u n : (exists d, at_id ds2 u d /\ called d = Some n) -> exists t d, u = f t /\ at_id ds1 t d /\ called d = Some n.
  Proof.
    intros (d & A & B). destruct (m_nothing_added _ _ _ M u d A) as (t & d0 & A0 & ->). exists t, d0. split; [reflexivity|]. split; [exact A0|].
    pose proof (at_det _ _ _ _ A (m_kept _ _ _ M t d0 A0)) as ->. rewrite called_rename in B. exact B.
  Qed.
  Lemma merged_id_of n : n <> void_str -> becomes_one f ds1 n -> id_of ti2 n = option_map f (id_of ti1 n).
  Proof.
    intros Hn B1. destruct (id_of ti1 n) as [t|] eqn:I1.
    - apply (id_of_spec ti1 n t E1 F1) in I1. destruct I1 as [[X _]|(_ & C & G)]; [contradiction|]. apply (carries_at ti1 ds1 V1) in C. cbn [option_map].
      apply (id_of_spec ti2 n _ E2 F2). right. split; [exact Hn|]. split; [apply (carries_at ti2 ds2 V2), merged_called, C|].
      intros j Cj. apply (carries_at ti2 ds2 V2) in Cj. destruct (called_merged _ _ Cj) as (t' & d' & -> & A' & N'). destruct C as (d & A & N).
      rewrite (B1 _ _ _ _ A' A N' N). lia.
    - cbn [option_map]. destruct (id_of ti2 n) as [u|] eqn:I2; [exfalso|reflexivity]. apply (id_of_spec ti2 n u E2 F2) in I2. destruct I2 as [[X _]|(_ & C & G)]; [contradiction|].
      apply (carries_at ti2 ds2 V2) in C. destruct (called_merged _ _ C) as (t' & d' & -> & A' & N').
      pose proof (proj2 (carries_at ti1 ds1 V1 t' n) (ex_intro _ d' (conj A' N'))) as C1. exact (NO n I1 t' C1).
  Qed.
  Lemma merged_pointer_sized : becomes_one f ds1 list_head_str -> forall z, pointer_sized ti1 z <-> pointer_sized ti2 z.
  Proof.
    intros B z. assert (I2 : id_of ti2 list_head_str = option_map f (id_of ti1 list_head_str)) by (apply merged_id_of; [discriminate|exact B]).
    unfold pointer_sized. rewrite I2. pose proof merged_renumbered as R. split.
    - intros (lh & h & d & A & F & ->). rewrite A. specialize (R lh I). unfold shows in R. rewrite F in R. cbn [view] in R. destruct R as [R _].
      destruct (from_id ti2 (f lh)) as [ty|] eqn:F'; [|discriminate R]. destruct ty; cbn [view] in R; try discriminate R. injection R as R1 R2 R3 R4.
      exists (f lh). do 2 eexists. split; [reflexivity|]. split; [exact F'|]. rewrite R2. reflexivity.
    - intros (u & h & d & A & F & ->). destruct (id_of ti1 list_head_str) as [lh|]; [|discriminate A]. injection A as <-. specialize (R lh I). unfold shows in R. rewrite F in R. cbn [view] in R.
      destruct (from_id ti1 lh) as [ty|] eqn:F'; [|discriminate R]. destruct ty; cbn [view rename] in R; try discriminate R; destruct R as [R _]; try discriminate R. injection R as R1 R2 R3 R4.
      exists lh. do 2 eexists. split; [reflexivity|]. split; [exact F'|]. rewrite R2. reflexivity.
  Qed.
End Merged.

(** ** The answers *)
(** [merged f ds1 ds2] (MergeSpec.v): [ds2] is [ds1] with some equal declarations merged; [f]: the new ids. Two loaded files that show these declarations: *)
Theorem C80_answers : forall e1 e2 ti1 ti2 f ds1 ds2 c, usize_bits (cfg e1) = 64 -> usize_bits (cfg e2) = 64 ->
  type_information_new e1 = Ok ti1 -> type_information_new e2 = Ok ti2 -> map view (map snd (get ti1)) = map Some ds1 -> map view (map snd (get ti2)) = map Some ds2 ->
  merged f ds1 ds2 -> becomes_one f ds1 (s "list_head") ->
  forall t p, size_of c ti2 (f t) = size_of c ti1 t /\ pointee_tid ti2 (f t) = map_ok f (pointee_tid ti1 t) /\
  (forall u o, offset_of_returns c ti1 t p (Ok (u, o)) -> offset_of_returns c ti2 (f t) p (Ok (f u, o))) /\
  (forall v o, offset_of_returns c ti2 (f t) p (Ok (v, o)) -> exists u, v = f u /\ offset_of_returns c ti1 t p (Ok (u, o))) /\
  (forall k, offset_of_returns c ti2 (f t) p (Err k) <-> offset_of_returns c ti1 t p (Err k)) /\
  (forall k, offset_of_returns c ti2 (f t) p (Panic k) <-> offset_of_returns c ti1 t p (Panic k)) /\
  (offset_of_never_returns c ti2 (f t) p <-> offset_of_never_returns c ti1 t p).
Proof.
  intros e1 e2 ti1 ti2 f ds1 ds2 c H1 H2 L1 L2 V1 V2 M B t p. destruct (loaded_types e1 ti1 H1 L1) as (E1 & F1 & _). destruct (loaded_types e2 ti2 H2 L2) as (E2 & F2 & _).
  assert (NO : forall n, id_of ti1 n = None -> forall i, ~ carries (types ti1) i n) by (intros n X; apply (loaded_id_none e1 ti1 H1 L1 n) in X; apply X).
  pose proof (merged_renumbered f ds1 ds2 M ti1 ti2 E1 V1 E2 V2) as R. pose proof (merged_pointer_sized f ds1 ds2 M ti1 ti2 E1 V1 F1 E2 V2 F2 NO B) as P.
  split; [exact (C48_size_of _ f c ti1 ti2 t R P I)|]. split; [exact (C48_pointee _ f ti1 ti2 t R I)|]. exact (C48_offset_of _ f c ti1 ti2 t p R P I).
Qed.
Print Assumptions C80_answers.
(** Names: every type keeps its name, a name is found in one file if and only if it is found in the other, and if all its bearers became one, it leads there. *)
Theorem C80_names : forall e1 e2 ti1 ti2 f ds1 ds2, usize_bits (cfg e1) = 64 -> usize_bits (cfg e2) = 64 ->
  type_information_new e1 = Ok ti1 -> type_information_new e2 = Ok ti2 -> map view (map snd (get ti1)) = map Some ds1 -> map view (map snd (get ti2)) = map Some ds2 ->
  merged f ds1 ds2 ->
  (forall t, name_of ti2 (f t) = name_of ti1 t) /\ (forall n, id_of ti2 n = None <-> id_of ti1 n = None) /\
  forall n, becomes_one f ds1 n -> id_of ti2 n = option_map f (id_of ti1 n).
Proof.
  intros e1 e2 ti1 ti2 f ds1 ds2 H1 H2 L1 L2 V1 V2 M. destruct (loaded_types e1 ti1 H1 L1) as (E1 & F1 & _). destruct (loaded_types e2 ti2 H2 L2) as (E2 & F2 & _).
  assert (NO : forall n, id_of ti1 n = None -> forall i, ~ carries (types ti1) i n) by (intros n X; apply (loaded_id_none e1 ti1 H1 L1 n) in X; apply X).
  pose proof (loaded_id_none e1 ti1 H1 L1) as N1. pose proof (loaded_id_none e2 ti2 H2 L2) as N2.
  split; [|split].
  - assert (G : forall ti t ds, ti = tables (types ti) -> Forall type_fits (types ti) -> map view (types ti) = map Some ds ->
      forall n, name_of ti t = Some n <-> (t = 0 /\ n = void_str) \/ exists d, at_id ds t d /\ called d = Some n).
    { intros ti t ds E F V n. rewrite (name_of_spec ti t n E F). rewrite (carries_at ti ds V). reflexivity. }
    intros t. assert (X : forall n, name_of ti2 (f t) = Some n <-> name_of ti1 t = Some n).
    { intros n. rewrite (G ti1 t ds1 E1 F1 V1), (G ti2 (f t) ds2 E2 F2 V2). destruct (N.eq_dec t 0) as [->|H0].
      - rewrite (m_void _ _ _ M). split; (intros [A|(d & [A _] & _)]; [left; exact A|lia]).
      - destruct (at_or_not ds1 t) as [(d & A)|A].
        + pose proof (m_kept _ _ _ M t d A) as A'. split; (intros [[Z _]|(d' & B & C)]; [destruct A, A'; lia|]); right.
          * exists d. split; [exact A|]. rewrite (at_det _ _ _ _ B A'), called_rename in C. exact C.
          * exists (rename f d). split; [exact A'|]. rewrite called_rename, <- (at_det _ _ _ _ B A). exact C.
        + destruct (m_unknown _ _ _ M t H0 A) as [Z' A']. split; (intros [[Z _]|(d' & B & C)]; [contradiction|]); exfalso; [exact (A' d' B)|exact (A d' B)]. }
    destruct (name_of ti1 t) as [n|]; [apply X; reflexivity|]. destruct (name_of ti2 (f t)) as [n|]; [|reflexivity]. symmetry. apply X. reflexivity.
  - intros n. rewrite N1, N2. split; intros [Z A]; (split; [exact Z|]); intros i C.
    + apply (carries_at ti1 ds1 V1) in C. apply (merged_called f ds1 ds2 M) in C. apply (carries_at ti2 ds2 V2) in C. exact (A _ C).
    + apply (carries_at ti2 ds2 V2) in C. destruct (called_merged f ds1 ds2 M _ _ C) as (t & d & -> & B & D). apply (A t). apply (carries_at ti1 ds1 V1). eauto.
  - intros n B. destruct (str_eqb n void_str) eqn:Z.
    + unfold id_of. rewrite Z. cbn [option_map]. rewrite (m_void _ _ _ M). reflexivity.
    + apply str_eqb_neq in Z. exact (merged_id_of f ds1 ds2 M ti1 ti2 E1 V1 F1 E2 V2 F2 NO n Z B).
Qed.
Print Assumptions C80_names.

(** ** Merging can be done *)
Lemma rename_rename f g d : rename g (rename f d) = rename (fun t => g (f t)) d.
Proof. destruct d; cbn [rename]; rewrite ?map_map; reflexivity. Qed.
Lemma keep_app rep a b t : keep rep t (a ++ b) = keep rep t a ++ keep rep (t + len a) b.
Proof.
  revert t. induction a as [|d a IH]; intros t; [rewrite N.add_0_r; reflexivity|]. cbn [app keep]. rewrite IH. replace (t + 1 + len a) with (t + len (d :: a)) by (unfold len; cbn [length]; lia).
  destruct (rep t =? t); reflexivity.
Qed.
Lemma keep_length rep ds t : (length (keep rep t ds) <= length ds)%nat.
Proof. revert t. induction ds as [|d ds IH]; intros t; [constructor|]. cbn [keep length]. specialize (IH (t + 1)). destruct (rep t =? t); cbn [length]; lia. Qed.
Lemma at_split ds r d : at_id ds r d -> exists a b, ds = a ++ d :: b /\ r = len a + 1 /\ firstn (N.to_nat r) ds = a ++ [d].
Proof.
  intros [H E]. apply nth_error_split in E. destruct E as (a & b & -> & L). exists a, b. split; [reflexivity|]. assert (R : r = len a + 1) by (unfold len; lia). split; [exact R|].
  replace (N.to_nat r) with (length a + 1)%nat by (unfold len in R; lia). rewrite firstn_app_2. reflexivity.
Qed.
Lemma keep_at rep ds r d : at_id ds r d -> rep r = r -> at_id (keep rep 1 ds) (len (keep rep 1 (firstn (N.to_nat r) ds))) d.
Proof.
  intros A R. destruct (at_split ds r d A) as (a & b & E & L & F). rewrite F, E, !keep_app. cbn [keep]. replace (1 + len a) with r by lia. rewrite R, N.eqb_refl.
  assert (X : len (keep rep 1 a ++ [d]) = len (keep rep 1 a) + 1) by (unfold len; rewrite app_length; cbn [length]; lia). rewrite X.
  split; [lia|]. replace (N.to_nat (len (keep rep 1 a) + 1 - 1)) with (length (keep rep 1 a)) by (unfold len; lia). rewrite nth_error_app2, Nat.sub_diag by lia. reflexivity.
Qed.
Lemma at_keep rep : forall ds t k d, nth_error (keep rep t ds) k = Some d ->
  exists i, nth_error ds i = Some d /\ rep (t + N.of_nat i) = t + N.of_nat i /\ length (keep rep t (firstn (S i) ds)) = S k.
Proof.
  induction ds as [|x ds IH]; intros t k d E; [destruct k; discriminate E|]. cbn [keep] in E. destruct (N.eqb_spec (rep t) t) as [R|R].
  - destruct k as [|k].
    + injection E as ->. exists O. rewrite N.add_0_r. cbn [firstn keep]. rewrite R, N.eqb_refl. auto.
    + cbn [nth_error] in E. destruct (IH _ _ _ E) as (i & A & B & C). exists (S i). replace (t + N.of_nat (S i)) with (t + 1 + N.of_nat i) by lia.
      split; [exact A|]. split; [exact B|]. change (firstn (S (S i)) (x :: ds)) with (x :: firstn (S i) ds). cbn [keep]. rewrite R, N.eqb_refl. cbn [length]. rewrite C. reflexivity.
  - destruct (IH _ _ _ E) as (i & A & B & C). exists (S i). replace (t + N.of_nat (S i)) with (t + 1 + N.of_nat i) by lia.
    split; [exact A|]. split; [exact B|]. change (firstn (S (S i)) (x :: ds)) with (x :: firstn (S i) ds). cbn [keep]. destruct (N.eqb_spec (rep t) t); [contradiction|]. exact C.
Qed.
(** Whatever declarations say the same can be merged. *)
Theorem C80_merge : forall rep ds, represents rep ds -> merged (new_id rep ds) ds (merge rep ds).
Proof.
  intros rep ds [RS RO]. unfold merge. set (f := new_id rep ds). set (g := fun u => if u <=? len ds then len (keep rep 1 (firstn (N.to_nat u) ds)) else u).
  assert (FG : forall d, rename f d = rename g (rename rep d)) by (intros d; rewrite rename_rename; reflexivity).
  assert (LE : forall t d, at_id ds t d -> t <= len ds) by (intros t d [A B]; assert (X : (N.to_nat (t - 1) < length ds)%nat) by (apply nth_error_Some; rewrite B; discriminate); unfold len; lia).
  assert (NG : forall t, t <> 0 -> (forall d, ~ at_id ds t d) -> len ds < t).
  { intros t H0 A. destruct (N.ltb_spec (len ds) t) as [H|H]; [exact H|exfalso]. destruct (nth_error ds (N.to_nat (t - 1))) as [d|] eqn:E; [apply (A d); split; [lia|exact E]|].
    apply nth_error_None in E. unfold len in H. lia. }
  split.
  - unfold f, new_id. rewrite (RO 0) by (intros d [A _]; lia). destruct (0 <=? len ds); reflexivity.
  - intros t d A. destruct (RS t d A) as (R & d' & A' & E). rewrite FG, E, <- FG. pose proof (keep_at rep ds (rep t) d' A' R) as [K1 K2].
    assert (Ft : f t = len (keep rep 1 (firstn (N.to_nat (rep t)) ds))) by (unfold f, new_id; pose proof (LE _ _ A'); destruct (N.leb_spec (rep t) (len ds)); [reflexivity|lia]).
    rewrite Ft. split; [exact K1|]. rewrite nth_error_map, K2. reflexivity.
  - intros u d [H1 E]. rewrite nth_error_map in E. destruct (nth_error (keep rep 1 ds) (N.to_nat (u - 1))) as [d0|] eqn:K; [|discriminate E].
    destruct (at_keep rep ds 1 _ _ K) as (i & A & B & C). exists (1 + N.of_nat i), d0. assert (At : at_id ds (1 + N.of_nat i) d0) by (split; [lia|replace (N.to_nat (1 + N.of_nat i - 1)) with i by lia; exact A]).
    split; [exact At|]. unfold f, new_id. rewrite B. pose proof (LE _ _ At). destruct (N.leb_spec (1 + N.of_nat i) (len ds)); [|lia].
    replace (N.to_nat (1 + N.of_nat i)) with (S i) by lia. unfold len. rewrite C. lia.
  - intros t H0 A. pose proof (NG t H0 A) as H. assert (Ft : f t = t) by (unfold f, new_id; rewrite (RO t A); destruct (N.leb_spec t (len ds)); [lia|reflexivity]).
    rewrite Ft. split; [exact H0|]. intros d [_ E]. assert (X : (N.to_nat (t - 1) < length (map (rename f) (keep rep 1 ds)))%nat) by (apply nth_error_Some; rewrite E; discriminate).
    rewrite map_length in X. pose proof (keep_length rep ds 1). unfold len in H. lia.
Qed.
Print Assumptions C80_merge.
(** One merge can follow another. *)
Theorem C80_merge_again : forall f g ds1 ds2 ds3, merged f ds1 ds2 -> merged g ds2 ds3 -> merged (fun t => g (f t)) ds1 ds3.
Proof.
  intros f g ds1 ds2 ds3 M M'. split.
  - rewrite (m_void _ _ _ M). apply (m_void _ _ _ M').
  - intros t d A. rewrite <- rename_rename. apply (m_kept _ _ _ M'), (m_kept _ _ _ M), A.
  - intros u d A. destruct (m_nothing_added _ _ _ M' u d A) as (v & dv & B & ->). destruct (m_nothing_added _ _ _ M v dv B) as (t & dt & C & ->). eauto.
  - intros t H0 A. destruct (m_unknown _ _ _ M t H0 A) as [H1 A1]. exact (m_unknown _ _ _ M' _ H1 A1).
Qed.
Print Assumptions C80_merge_again.

(** Two files with the same types, linked: [int], [struct list_head] and a pointer to it are in it twice; [struct task] uses the second. *)
Definition linked : list decl :=
  [DInt (Some (s "int")) 4 true false false 0 32; DPtr 3; DStruct (Some (s "list_head")) 16 false [(Some (s "next"), 2, ByteOffset 0); (Some (s "prev"), 2, ByteOffset 8)];
   DInt (Some (s "int")) 4 true false false 0 32; DPtr 6; DStruct (Some (s "list_head")) 16 false [(Some (s "next"), 5, ByteOffset 0); (Some (s "prev"), 5, ByteOffset 8)];
   DArray 6 4 3; DStruct (Some (s "task")) 56 false [(Some (s "pid"), 4, ByteOffset 0); (Some (s "lists"), 7, ByteOffset 8)]].
Definition twin (t : N) : N := if t =? 4 then 1 else if t =? 5 then 2 else if t =? 6 then 3 else t.
Definition linked_ti : type_information := match type_information_new (file_env (encode Little linked)) with Ok ti => ti | _ => sample_ti end.
Definition merged_ti : type_information := match type_information_new (file_env (encode Little (merge twin linked))) with Ok ti => ti | _ => sample_ti end.
Example C80_met : let c := build64 true in let f := new_id twin linked in
  represents twin linked /\ merged f linked (merge twin linked) /\ length (merge twin linked) = 5%nat /\ becomes_one f linked (s "list_head") /\ becomes_one f linked (s "int") /\
  type_information_new (file_env (encode Little linked)) = Ok linked_ti /\ map view (map snd (get linked_ti)) = map Some linked /\
  type_information_new (file_env (encode Little (merge twin linked))) = Ok merged_ti /\ map view (map snd (get merged_ti)) = map Some (merge twin linked) /\
  f 8 = 5 /\ f 5 = 2 /\ offset_of_returns c linked_ti 8 (s "lists[1].prev") (Ok (5, ByteOffset 32)) /\ offset_of_returns c merged_ti 5 (s "lists[1].prev") (Ok (2, ByteOffset 32)) /\
  id_of linked_ti (s "list_head") = Some 6 /\ id_of merged_ti (s "list_head") = Some 3 /\ pointee_tid linked_ti 5 = Ok 6 /\ pointee_tid merged_ti 2 = Ok 3.
Proof.
  cbv zeta. assert (IN : forall t d, at_id linked t d -> In t [1; 2; 3; 4; 5; 6; 7; 8]).
  { intros t d [H E]. assert (X : (N.to_nat (t - 1) < length linked)%nat) by (apply nth_error_Some; rewrite E; discriminate). change (length linked) with 8%nat in X.
    assert (Y : t = 1 \/ t = 2 \/ t = 3 \/ t = 4 \/ t = 5 \/ t = 6 \/ t = 7 \/ t = 8) by lia. cbn [In]. intuition. }
  assert (R : represents twin linked).
  { split.
    - intros t d A. pose proof (IN t d A) as I. destruct A as [_ A]. cbn [In] in I. repeat (destruct I as [<-|I]; [injection A as <-; split; [reflexivity|]; eexists; split; [split; [discriminate|reflexivity]|reflexivity]|]). destruct I.
    - intros t A. unfold twin. destruct (N.eqb_spec t 4) as [->|]; [exfalso; eapply A; split; [|reflexivity]; lia|]. destruct (N.eqb_spec t 5) as [->|]; [exfalso; eapply A; split; [|reflexivity]; lia|].
      destruct (N.eqb_spec t 6) as [->|]; [exfalso; eapply A; split; [|reflexivity]; lia|]. reflexivity. }
  split; [exact R|]. split; [apply C80_merge; exact R|]. split; [reflexivity|].
  assert (B : forall n v, (forall t d, at_id linked t d -> called d = Some n -> new_id twin linked t = v) -> becomes_one (new_id twin linked) linked n).
  { intros n v H t t' d d' A A' C C'. rewrite (H t d A C), (H t' d' A' C'). reflexivity. }
  split. { apply (B _ 3). intros t d A C. pose proof (IN t d A) as I. destruct A as [_ A]. cbn [In] in I. repeat (destruct I as [<-|I]; [injection A as <-; first [discriminate C|reflexivity]|]). destruct I. }
  split. { apply (B _ 1). intros t d A C. pose proof (IN t d A) as I. destruct A as [_ A]. cbn [In] in I. repeat (destruct I as [<-|I]; [injection A as <-; first [discriminate C|reflexivity]|]). destruct I. }
  do 6 (split; [vm_compute; reflexivity|]). split; [split; [discriminate|exists 20%nat; vm_compute; reflexivity]|]. split; [split; [discriminate|exists 20%nat; vm_compute; reflexivity]|].
  do 3 (split; [vm_compute; reflexivity|]). vm_compute. reflexivity.
Qed.
