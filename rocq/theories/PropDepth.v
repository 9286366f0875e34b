(** * PropDepth: how deep the calls of a query are nested (C62).  The counts are in Depth.v, [inside] in DepthSpec.v. *)
From Coq Require Import Strings.String.
From Coq Require Import List NArith ZArith Bool Lia PeanoNat Strings.Byte.
From Verif Require Import TypeInfo Depth DepthSpec Spec BaseFacts PathSpec Path PathGrammar PathPrint QuerySpec Chains Sizes Follow Offsets Offsets2 OffsetOf OffsetOf2 Maps Checker Encode EncodeProof LoadProps Witness Sample
  OutcomeSpec Outcome Cost CostFacts DepthFacts PropPath PropQuery PropOffset PropCost.
Import ListNotations.
Open Scope N_scope.

(** ** C62 *)
(** The counting queries are the queries. *)
Theorem C62_same_results : forall c ti,
  (forall fuel t, fst (pointee_tid_deep fuel ti t) = pointee_tid_fuel fuel ti t) /\
  (forall fuel t, fst (size_of_deep fuel c ti t) = size_of_fuel fuel c ti t) /\
  (forall fuel p off t it, fst (offset_of_deep fuel c ti p off t it) = offset_of_impl fuel c ti p off t it).
Proof. intros c ti. split; [|split]; intros; [apply pointee_deep_result|apply size_deep_result|apply offset_of_deep_result]. Qed.
Print Assumptions C62_same_results.
(** In any table.  When size_of (pointee_tid) returns, no more calls were active below it than there are types; when it does
    not, the calls nest without bound - it ends by exhausting the stack. *)
Theorem C62_size_of : forall c ti t,
  (size_of c ti t <> Diverge -> forall fuel, size_nesting fuel c ti t <= N.of_nat (length (get ti))) /\
  (size_of c ti t = Diverge -> forall fuel, size_nesting fuel c ti t = N.of_nat fuel).
Proof.
  intros c ti t. split; intros H fuel.
  - apply (size_nesting_not_walk (size_link ti)); [auto|]. apply not_walk_length; [apply size_link_known|]. intros E. apply H. apply size_diverge. exact E.
  - apply size_deep_diverge. rewrite size_deep_result. apply size_endless. apply size_diverge in H. exact H.
Qed.
Print Assumptions C62_size_of.
Theorem C62_pointee_tid : forall ti t,
  (pointee_tid ti t <> Diverge -> forall fuel, pointee_nesting fuel ti t <= N.of_nat (length (get ti))) /\
  (pointee_tid ti t = Diverge -> forall fuel, pointee_nesting fuel ti t = N.of_nat fuel).
Proof.
  intros ti t. destruct (pointee_spec ti t) as (_ & P & _). split; intros H fuel.
  - unfold pointee_nesting. destruct (N.le_gt_cases (snd (pointee_tid_deep fuel ti t)) (N.of_nat (length (get ti)))) as [L|L]; [exact L|]. exfalso.
    apply (not_walk_length ti (alias ti) t); [apply alias_known|intros E; apply H, P, E|].
    destruct (pointee_deep_walk ti fuel t) as (f & F0 & Fs). exists f. split; [exact F0|]. intros k Hk. apply Fs. lia.
  - apply pointee_deep_diverge. rewrite pointee_deep_result. apply pointee_endless. apply P in H. exact H.
Qed.
Print Assumptions C62_pointee_tid.
(** offset_of, when no type contains itself: as many as there are types, however long the path is, found or not. *)
Theorem C62_offset_of : forall c ti, well_founded_types ti -> forall t p fuel, offset_of_nesting fuel c ti t p <= N.of_nat (length (get ti)).
Proof. intros c ti W t p fuel. apply offset_nesting_inside. apply not_walk_length; [apply inside_known|apply W]. Qed.
Print Assumptions C62_offset_of.
(** When a type may contain itself by a named member, but no chain of links is endless: so many for each component. *)
Theorem C62_offset_of_named_cycles : forall c ti t p cs bad fuel, valid_utf8 p -> text_is c p cs bad -> acyclic ti ->
  offset_of_nesting fuel c ti t p <= N.of_nat (length cs) * N.of_nat (length (get ti)).
Proof.
  intros c ti t p cs bad fuel V T AC. destruct (text_script c p cs bad V T) as (e & A & _ & _). rewrite (nesting_follow c ti p cs e V A).
  assert (HL : forall t, ~ walk (link ti) (S (length (get ti))) t) by (intros u; apply not_walk_length; [apply link_known|apply AC]).
  destruct cs as [|comp cs]; [destruct fuel; [cbn; lia|]; cbn [follow_deep]; destruct e; cbn; lia|].
  pose proof (follow_nesting c ti e _ HL fuel (length (get ti)) (ByteOffset 0) t comp cs (HL t)). cbn [length]. lia.
Qed.
Print Assumptions C62_offset_of_named_cycles.

(** A file of 25 + 12*n bytes whose last type is const const ... const void. *)
Definition consts (n : nat) : list decl := map (fun k => DConst (N.of_nat k)) (seq 0 n).
Lemma consts_names n : flat_map names (consts n) = [].
Proof. unfold consts. generalize (seq 0 n) as l. induction l as [|k l IH]; [reflexivity|]. cbn. exact IH. Qed.
Lemma consts_words n table : length (flat_map (words (fun _ => 0) table) (consts n)) = (3 * n)%nat.
Proof.
  unfold consts. rewrite <- (seq_length n 0) at 2. generalize (seq 0 n) as l. induction l as [|k l IH]; [reflexivity|]. cbn [map flat_map]. rewrite app_length, IH. cbn [length words]. lia.
Qed.
Lemma consts_len n : len (encode Little (consts n)) = 25 + 12 * N.of_nat n.
Proof.
  unfold encode, encode_with. rewrite consts_names. unfold len. rewrite !app_length, !words_bytes_length, consts_words. cbn [length magic string_table flat_map]. lia.
Qed.
Lemma consts_loads n : N.of_nat n < 10 ^ 8 -> exists ti, type_information_new (file_env (encode Little (consts n))) = Ok ti /\ length (get ti) = n /\
  forall k, (k < n)%nat -> exists h d, from_id ti (N.of_nat (S k)) = Some (TConst h d) /\ link_tid d = N.of_nat k.
Proof.
  intros H. assert (B : 10 ^ 8 < 2 ^ 31) by reflexivity.
  destruct (load_encoded_same x01 x00 (fun _ => 0) Little (consts n) (file_env (encode Little (consts n)))) as (ti & L & K & V).
  - reflexivity.
  - apply file_serves.
  - apply Forall_forall. intros d Hd. apply in_map_iff in Hd. destruct Hd as (k & <- & Hk). apply in_seq in Hk.
    split; [constructor|]. assert (N.of_nat k < 2 ^ 32) by (change (2 ^ 32) with (2 * 2 ^ 31); lia). assumption.
  - apply Forall_forall. intros d _. exists 0, 0. repeat split; reflexivity.
  - pose proof (consts_len n) as X. unfold encode in X. rewrite X. assert (B' : 25 + 12 * 10 ^ 8 < 2 ^ 32) by reflexivity. lia.
  - left. reflexivity.
  - exists ti. split; [exact L|].
    assert (Ln : length (get ti) = n) by (apply (f_equal (@length _)) in K; unfold consts in K; rewrite !map_length, !seq_length in K; exact K).
    split; [exact Ln|].
    assert (T : ti = tables (types ti)) by (apply (loaded_types (file_env (encode Little (consts n))) ti eq_refl L)).
    intros k Hk. assert (Vk : nth_error (map view (types ti)) k = nth_error (map Some (consts n)) k) by (rewrite V; reflexivity).
    rewrite !nth_error_map in Vk.
    destruct (nth_error (types ti) k) as [ty|] eqn:Et.
    2:{ exfalso. apply nth_error_None in Et. unfold types in Et. rewrite map_length in Et. lia. }
    assert (F : from_id ti (N.of_nat (S k)) = Some ty).
    { rewrite T, from_id_tables. destruct (N.eqb_spec (N.of_nat (S k)) 0); [lia|]. rewrite <- Et. f_equal. lia. }
    assert (D : nth_error (consts n) k = Some (DConst (N.of_nat k))).
    { unfold consts. rewrite nth_error_map, (nth_error_nth' _ 0%nat) by (rewrite seq_length; lia). rewrite seq_nth by lia. reflexivity. }
    rewrite D in Vk. cbn [option_map] in Vk. destruct ty; cbn [view] in Vk; try discriminate Vk. injection Vk as E1. exists h, d. auto.
Qed.
(** The bounds are reached: so a file can make a query exhaust any stack.  For size_of and pointee_tid by a file of 25 + 12*n
    bytes with n types, for offset_of by one of 37 + 36*n bytes with n + 1 types. *)
Theorem C62_reached : forall n, N.of_nat n < 10 ^ 8 ->
  (exists img ti, len img = 25 + 12 * N.of_nat n /\ type_information_new (file_env img) = Ok ti /\ length (get ti) = n /\
    (forall c, size_of c ti (N.of_nat n) = Err NotSized /\ forall fuel, (n < fuel)%nat -> size_nesting fuel c ti (N.of_nat n) = N.of_nat n) /\
    pointee_tid ti (N.of_nat n) = Err InvalidTypeID /\ forall fuel, (n < fuel)%nat -> pointee_nesting fuel ti (N.of_nat n) = N.of_nat n) /\
  (exists img ti, len img = 37 + 36 * N.of_nat n /\ type_information_new (file_env img) = Ok ti /\ length (get ti) = S n /\
    forall c, offset_of_returns c ti (N.of_nat n + 1) (s "x") (Err InvalidTypePath) /\
      forall fuel, (n < fuel)%nat -> offset_of_nesting fuel c ti (N.of_nat n + 1) (s "x") = N.of_nat n).
Proof.
  intros n H. split.
  - destruct (consts_loads n H) as (ti & L & G & D). exists (encode Little (consts n)), ti. split; [apply consts_len|]. split; [exact L|]. split; [exact G|].
    assert (SZ : forall c k fuel, (k <= n)%nat -> (k < fuel)%nat -> size_of_deep fuel c ti (N.of_nat k) = (Err NotSized, N.of_nat k)).
    { intros c. induction k as [|k IH]; intros fuel Hk Hf; (destruct fuel as [|fuel]; [lia|]); cbn [size_of_deep]; [reflexivity|].
      destruct (D k Hk) as (h & d & F & E). rewrite F, E. rewrite (IH fuel) by lia. unfold call. cbn [fst snd]. f_equal. lia. }
    assert (PT : forall k fuel, (k <= n)%nat -> (k < fuel)%nat -> pointee_tid_deep fuel ti (N.of_nat k) = (Err InvalidTypeID, N.of_nat k)).
    { induction k as [|k IH]; intros fuel Hk Hf; (destruct fuel as [|fuel]; [lia|]); cbn [pointee_tid_deep]; [reflexivity|].
      destruct (D k Hk) as (h & d & F & E). rewrite F, E. rewrite (IH fuel) by lia. unfold call. cbn [fst snd]. f_equal. lia. }
    assert (CF : (n < chain_fuel ti)%nat) by (unfold chain_fuel; unfold get in G; lia).
    split; [intros c; split|split].
    + unfold size_of. rewrite <- size_deep_result, (SZ c n _ (le_n n) CF). reflexivity.
    + intros fuel Hf. unfold size_nesting. rewrite (SZ c n fuel (le_n n) Hf). reflexivity.
    + unfold pointee_tid. rewrite <- pointee_deep_result, (PT n _ (le_n n) CF). reflexivity.
    + intros fuel Hf. unfold pointee_nesting. rewrite (PT n fuel (le_n n) Hf). reflexivity.
  - destruct (doubling_loads n H) as (ti & L & G & D). exists (encode Little (doubling n)), ti. split; [apply doubling_len|]. split; [exact L|]. split; [exact G|].
    intros c. assert (V : valid_utf8 (s "x")) by literal.
    assert (A : ascripts c (PStart, s "x") [Name (s "x")] None) by (apply accepted_script; [exact V|apply accepted_x]).
    assert (X : forall k fuel, (k <= n)%nat -> (k < fuel)%nat -> follow_deep fuel c ti None (ByteOffset 0) (N.of_nat k + 1) [Name (s "x")] = (Err OEMemberNotFound, N.of_nat k)).
    { induction k as [|k IH]; intros fuel Hk Hf; (destruct fuel as [|fuel]; [lia|]); cbn [follow_deep]; unfold round_deep.
      - destruct (D 0%nat Hk) as (h & d & F & M & _). rewrite (resolve_opaque ti _ (TStruct h d)) by (apply opaque_iff; split; [exact F|exact I]).
        unfold dbind at 1. cbn [flat fst snd]. rewrite M. reflexivity.
      - destruct (D (S k) Hk) as (h & d & F & _ & M). rewrite (resolve_opaque ti _ (TStruct h d)) by (apply opaque_iff; split; [exact F|exact I]).
        unfold dbind at 1. cbn [flat fst snd].
        assert (Ms : exists m1 m2, member_list d = [m1; m2] /\ m_name m1 = None /\ m_name m2 = None /\ m_tid m1 = N.of_nat k + 1 /\ m_tid m2 = N.of_nat k + 1 /\ m_offset m1 = ByteOffset 0 /\ m_offset m2 = ByteOffset 0).
        { destruct (member_list d) as [|m1 [|m2 [|m3 ms]]]; try discriminate M. injection M as A1 A2 A3 A4 A5 A6. exists m1, m2. rewrite A1, A2, A3, A4, A5, A6. replace (N.of_nat (S k)) with (N.of_nat k + 1) by lia. auto 8. }
        destruct Ms as (m1 & m2 & E & N1 & N2 & T1 & T2 & O1 & O2). rewrite E. cbn [find]. unfold has_name. rewrite N1, N2.
        cbn [probe_deep]. unfold is_anonymous. rewrite N1, N2, O1, O2, T1, T2.
        change (btf_err (offset_add (ByteOffset 0) (ByteOffset 0))) with (@Ok offset_error _ (ByteOffset 0)). unfold flat, dbind. cbn [fst snd].
        rewrite (IH fuel) by lia. unfold call. cbn [fst snd]. f_equal. lia. }
    split.
    + split; [discriminate|]. exists (S n). unfold offset_of_uncached.
      rewrite <- offset_of_deep_result, (deep_follow c ti _ V (S n) (ByteOffset 0) _ piter_new [Name (s "x")] None (okit_new _ V) A), X by lia. reflexivity.
    + intros fuel Hf. rewrite (nesting_follow c ti _ _ _ V A), X by lia. reflexivity.
Qed.
Print Assumptions C62_reached.

(** The sample: nothing contains itself. *)
Definition insides_of (ty : type_variant) : list N :=
  match ty with TStruct _ d | TUnion _ d => map m_tid (member_list d) | _ => links_of ty end.
Definition ranked_inside (rank : N -> N) (ti : type_information) : bool :=
  forallb (fun t => match from_id ti t with Some ty => forallb (fun u => rank u <? rank t) (insides_of ty) | None => true end) (all_ids ti).
Lemma ranked_well_founded rank ti : ranked_inside rank ti = true -> well_founded_types ti.
Proof.
  intros H t (f & Hf & Hl). unfold ranked_inside in H. rewrite forallb_forall in H.
  assert (D : forall n, rank (f (S n)) < rank (f n)).
  { intros n. assert (X : exists ty, from_id ti (f n) = Some ty /\ In (f (S n)) (insides_of ty)).
    { destruct (Hl n) as [L|(ty & ms & m & F & Hms & Hin & E)].
      - destruct (link_links _ _ _ L) as (ty & E & Hin). exists ty. split; [exact E|]. destruct ty; try exact Hin; cbn [insides_of links_of] in *;
          apply in_map_iff in Hin; destruct Hin as (m & Em & Hm); apply filter_In in Hm; apply in_map_iff; exists m; tauto.
      - exists ty. split; [exact F|]. destruct ty; try destruct Hms; cbn [insides_of]; apply in_map_iff; exists m; auto. }
    destruct X as (ty & E & Hin). specialize (H _ (from_id_all _ _ _ E)). rewrite E, forallb_forall in H. specialize (H _ Hin). lia. }
  assert (B : forall n, rank (f n) + N.of_nat n <= rank (f 0%nat)).
  { induction n as [|n IH]; [lia|]. specialize (D n). lia. }
  specialize (B (S (N.to_nat (rank (f 0%nat))))). lia.
Qed.
Example C62_met : type_information_new (file_env sample_img) = Ok sample_ti /\ well_founded_types sample_ti /\ acyclic sample_ti /\
  size_of (build64 true) sample_ti 9 <> Diverge /\ size_nesting 20 (build64 true) sample_ti 9 = 2 /\
  offset_of_nesting 20 (build64 true) sample_ti 24 (s "tasks[2].b") = 3.
Proof.
  split; [exact sample_loads|]. split; [apply (ranked_well_founded (fun t => if t =? 3 then 1 else t)); vm_compute; reflexivity|]. split; [exact sample_acyclic|].
  split; [vm_compute; discriminate|]. split; vm_compute; reflexivity.
Qed.
(** A struct whose anonymous member, at byte 2^29 - 1, is the struct itself: offset_of returns, but 8 calls were nested. *)
Example C62_cycle : exists ti, type_information_new (file_env (raw_file Little [0; 0x04000001; 0; 0; 1; 0xFFFFFFF8] [x00])) = Ok ti /\ length (get ti) = 1%nat /\
  offset_of_uncached 12 (build64 true) ti 1 (s "x") = Err InvalidTypePath /\ offset_of_nesting 12 (build64 true) ti 1 (s "x") = 8.
Proof. eexists. split; [vm_compute; reflexivity|]. split; [vm_compute; reflexivity|]. split; vm_compute; reflexivity. Qed.
