(** * PropMemory: how much a loaded table holds (C67), and the number of requests of a load that succeeds (C50). *)
From Coq Require Import Strings.String.
From Coq Require Import List NArith ZArith Bool Lia Strings.Byte.
From Verif Require Import TypeInfo Spec MemorySpec BaseFacts Maps Safety Exact LoadProps LoadProps2 Encode EncodeProof Final Witness Count Sample PropLoad.
Import ListNotations.
Open Scope N_scope.

Lemma text_app a b : text (a ++ b) = text a + text b.
Proof. induction a as [|x a IH]; [reflexivity|]. cbn. rewrite IH. lia. Qed.
Lemma text_bound l k : Forall (fun s => N.of_nat (length s) <= k) l -> text l <= k * N.of_nat (length l).
Proof. induction 1 as [|x l Hx Hl IH]; [cbn; lia|]. cbn [text length]. rewrite Nat2N.inj_succ. nia. Qed.
Lemma flat_opt_length {A B} (f : A -> option B) l : (length (flat_map (fun x => opt_list (f x)) l) <= length l)%nat.
Proof. induction l as [|a l IH]; [cbn; lia|]. cbn. rewrite app_length. destruct (f a); cbn; lia. Qed.
Lemma held_count t : N.of_nat (length (held_names t)) <= 1 + item_count t.
Proof.
  unfold held_names, item_count. rewrite !app_length, map_length. pose proof (flat_opt_length m_name (members t)). pose proof (flat_opt_length p_name (parameters t)).
  assert (length (opt_list (declared_name t)) <= 1)%nat by (destruct (declared_name t); cbn; lia). lia.
Qed.
Lemma held_name_in t s : In s (held_names t) -> t <> TVoid -> exists k, name_in t k s.
Proof.
  intros H V. unfold held_names in H. rewrite !in_app_iff in H. destruct H as [H|[H|[H|H]]].
  - destruct (declared_name t) as [x|] eqn:D; [|destruct H]. destruct H as [<-|[]].
    assert (exists h, type_header t = Some h) as (h & Hh) by (destruct t; try congruence; eexists; reflexivity). exists (Some (h_name_offset h)). econstructor; eassumption.
  - apply in_flat_map in H. destruct H as (m & Hm & H). destruct (m_name m) as [x|] eqn:E; [|destruct H]. destruct H as [<-|[]]. eexists. eapply member_name; eassumption.
  - apply in_flat_map in H. destruct H as (m & Hm & H). destruct (p_name m) as [x|] eqn:E; [|destruct H]. destruct H as [<-|[]]. eexists. eapply parameter_name; eassumption.
  - apply in_map_iff in H. destruct H as (v & <- & Hv). exists None. constructor. exact Hv.
Qed.
Lemma latin1_length bs s : latin1 bs s -> (length s <= 2 * length bs)%nat.
Proof.
  intros (parts & F & ->). induction F as [|b p bs parts Hb F IH]; [cbn; lia|]. cbn [concat length]. rewrite app_length.
  assert (length p <= 2)%nat by (destruct Hb as [[_ ->]|[_ (x & y & -> & _)]]; cbn; lia). lia.
Qed.
Lemma u32_end img en off v : u32_at img en off v -> off + 4 <= N.of_nat (length img).
Proof. intros (bs & L & B & _). apply bytes_at_length in B. rewrite L in B. exact B. Qed.
Lemma items_end {A} (item : N -> A -> Prop) off sz n l top k : items_at item off sz n l -> k <= sz ->
  (forall o a, item o a -> o + k <= top) -> off <= top -> off + k * n <= top /\ N.of_nat (length l) = n.
Proof.
  intros [L H] K Hi Ho. split; [|exact L]. destruct (nth_error l (length l - 1)) as [a|] eqn:E.
  - pose proof (Hi _ _ (H _ _ E)) as Q. assert (length l - 1 < length l)%nat by (apply nth_error_Some; congruence). nia.
  - apply nth_error_None in E. assert (length l = 0)%nat by lia. assert (n = 0) as -> by lia. lia.
Qed.
(** A record is long enough for what it holds, and all of it was in the image. *)
Lemma record_room f off t stop : record_at f off t stop ->
  off + 12 + 8 * item_count t <= stop /\ off + 12 + 8 * item_count t <= types_hi f /\ off + 12 + 8 * item_count t <= N.of_nat (length (image f)).
Proof.
  intros (h & (_ & _ & Hz) & Hp & -> & H12 & Hc & _). apply u32_end in Hz. set (top := N.of_nat (length (image f))) in *.
  assert (T : off + 12 <= top) by lia. clear Hz. unfold extra_size, checked_size, extra_size, payload_at in *.
  assert (Z : forall t', members t' = [] -> parameters t' = [] -> enumerators t' = [] -> variables t' = [] -> item_count t' = 0) by (intros t' E1 E2 E3 E4; unfold item_count; rewrite E1, E2, E3, E4; reflexivity).
  assert (W : forall o v, u32_at (image f) (order f) (o + 4) v -> o + 8 <= top) by (intros o v Q; apply u32_end in Q; unfold top; lia).
  assert (Im : forall fl o m, member_at f fl o m -> o + 8 <= top) by (intros fl o m (_ & _ & Q & _); eapply W; exact Q).
  assert (Ie4 : forall fl o v, enumerator_at f 4 fl o v -> o + 8 <= top) by (intros fl o v (_ & w & Q & _); eapply W; exact Q).
  assert (Ie8 : forall fl o v, enumerator_at f 8 fl o v -> o + 8 <= top).
  { intros fl o v (_ & w & (bs & L & B & _) & _). apply bytes_at_length in B. rewrite L in B. change (N.of_nat 8) with 8 in B. unfold top. lia. }
  assert (Ip : forall o p, parameter_at f o p -> o + 8 <= top) by (intros o p (_ & _ & Q); eapply W; exact Q).
  assert (Iv : forall o v, variable_at f o v -> o + 8 <= top) by (intros o v (_ & Q & _); eapply W; exact Q).
  destruct (h_kind h).
  - destruct Hp as (d & w & -> & _). rewrite Z by reflexivity. lia.
  - subst t. rewrite Z by reflexivity. lia.
  - destruct Hp as (d & -> & _). rewrite Z by reflexivity. lia.
  - destruct Hp as (d & -> & _ & _ & Q). destruct (items_end _ _ _ _ _ top 8 Q ltac:(lia) (Im _) T) as [Q1 Q2]. unfold item_count; cbn [members parameters enumerators variables length]. lia.
  - destruct Hp as (d & -> & _ & _ & Q). destruct (items_end _ _ _ _ _ top 8 Q ltac:(lia) (Im _) T) as [Q1 Q2]. unfold item_count; cbn [members parameters enumerators variables length]. lia.
  - destruct Hp as (d & -> & _ & _ & _ & Q). destruct (items_end _ _ _ _ _ top 8 Q ltac:(lia) (Ie4 _) T) as [Q1 Q2]. unfold item_count; cbn [members parameters enumerators variables length]. lia.
  - destruct Hp as (n & -> & _). rewrite Z by reflexivity. lia.
  - destruct Hp as (n & -> & _). rewrite Z by reflexivity. lia.
  - subst t. rewrite Z by reflexivity. lia.
  - subst t. rewrite Z by reflexivity. lia.
  - subst t. rewrite Z by reflexivity. lia.
  - destruct Hp as (n & -> & _). rewrite Z by reflexivity. lia.
  - destruct Hp as (d & -> & _ & Q). destruct (items_end _ _ _ _ _ top 8 Q ltac:(lia) Ip T) as [Q1 Q2]. unfold item_count; cbn [members parameters enumerators variables length]. lia.
  - destruct Hp as (d & -> & _). rewrite Z by reflexivity. lia.
  - destruct Hp as (d & -> & _ & _ & Q). destruct (items_end _ _ _ _ _ top 8 Q ltac:(lia) Iv T) as [Q1 Q2]. unfold item_count; cbn [members parameters enumerators variables length]. lia.
  - destruct Hp as (n & -> & _). rewrite Z by reflexivity. lia.
  - destruct Hp as (d & -> & _). rewrite Z by reflexivity. lia.
  - destruct Hp as (n & -> & _). rewrite Z by reflexivity. lia.
  - destruct Hp as (d & -> & _ & _ & _ & Q). destruct (items_end _ _ _ _ _ top 8 Q ltac:(lia) (Ie8 _) T) as [Q1 Q2]. unfold item_count; cbn [members parameters enumerators variables length]. lia.
Qed.
Lemma records_room f off ts stop : records_at f off ts stop -> ts <> [] ->
  off + total (fun t => 12 + 8 * item_count t) ts <= types_hi f /\ off + total (fun t => 12 + 8 * item_count t) ts <= N.of_nat (length (image f)).
Proof.
  induction 1 as [|off t next ts stop Hlt Hr Hrs IH]; intros Ne; [congruence|]. apply record_room in Hr. cbn [total].
  destruct ts as [|u ts]; [cbn [total]; lia|]. destruct IH as [A B]; [discriminate|]. lia.
Qed.
Lemma records_rooms f off ts stop : records_at f off ts stop ->
  12 * N.of_nat (length ts) + 8 * total item_count ts <= types_hi f - off /\ 12 * N.of_nat (length ts) + 8 * total item_count ts <= N.of_nat (length (image f)).
Proof.
  intros H. assert (E : total (fun t => 12 + 8 * item_count t) ts = 12 * N.of_nat (length ts) + 8 * total item_count ts) by (clear; induction ts as [|t ts IH]; [reflexivity|]; cbn [total length]; rewrite Nat2N.inj_succ; lia).
  destruct ts as [|t ts]; [cbn; lia|]. apply records_room in H; [|discriminate]. lia.
Qed.
Lemma names_total k ts : Forall (fun t => Forall (fun s => N.of_nat (length s) <= k) (held_names t)) ts ->
  text (flat_map held_names ts) <= k * (N.of_nat (length ts) + total item_count ts).
Proof.
  induction 1 as [|t ts Ht H IH]; [cbn; lia|]. cbn [flat_map total length]. rewrite text_app, Nat2N.inj_succ. apply text_bound in Ht. pose proof (held_count t) as Hc.
  apply (N.mul_le_mono_l _ _ k) in Hc. rewrite <- N.add_1_l.
  replace (k * (1 + N.of_nat (length ts) + (item_count t + total item_count ts))) with (k * (1 + item_count t) + k * (N.of_nat (length ts) + total item_count ts)) by ring.
  apply N.add_le_mono; [etransitivity; [exact Ht|exact Hc]|exact IH].
Qed.
(** The two name tables. *)
Lemma insert_total {K V} cmp (w : K * V -> N) k v m : total w (bt_insert cmp k v m) <= total w m + w (k, v).
Proof. induction m as [|[k' v'] m IH]; cbn; [lia|]. destruct (cmp k k'); cbn; lia. Qed.
Lemma name_tables ts : Forall (fun t => t <> TVoid) ts ->
  text (map fst (name_to_id_map (tables ts))) <= text (flat_map held_names ts) /\ text (map snd (id_to_name_map (tables ts))) <= text (flat_map held_names ts).
Proof.
  assert (E : forall {A} (f : A -> str) l, text (map f l) = total (fun a => N.of_nat (length (f a))) l) by (intros A f l; induction l as [|a l IH]; [reflexivity|]; cbn; rewrite IH; reflexivity).
  rewrite !E. induction ts as [|t ts IH] using rev_ind; [cbn; lia|]. intros V. apply Forall_app in V. destruct V as [V Vt]. inversion Vt as [|? ? Nv _]; subst. destruct (IH V) as [A B]. clear IH.
  rewrite tables_snoc, flat_map_app, text_app. cbn [flat_map]. rewrite app_nil_r.
  unfold add_type. destruct (type_name t) as [n|] eqn:N; cbn [name_to_id_map id_to_name_map]; [|lia].
  assert (D : declared_name t = Some n) by (destruct t; try congruence; exact N).
  assert (L : N.of_nat (length n) <= text (held_names t)) by (unfold held_names; rewrite D, text_app; cbn; lia).
  split; (eapply N.le_trans; [apply insert_total|]); cbn [fst snd]; lia.
Qed.

(** ** C67 *)
(** Of [t] bytes of types and [s] bytes of strings announced, and of a file of L bytes: 12 bytes for each type and 8
    for each item; no name has more than 2 * (s - 1) or 2 * (L - 1) bytes; all names together, with repetitions, have
    at most t * (s - 1) / 4 or L * (L - 1) / 4 bytes; and the library keeps at most three copies of each. *)
Theorem C67_bounded_memory : forall e img ti, usize_bits (cfg e) = 64 -> serves (rd e) img -> type_information_new e = Ok ti ->
  let L := N.of_nat (length img) in let ts := map snd (get ti) in let names := flat_map held_names ts in
  exists en hf, file_header_at img en hf /\
  12 * N.of_nat (length ts) + 8 * total item_count ts <= N.min (hf_type_len hf) L /\
  (forall n, In n names -> N.of_nat (length n) <= 2 * (N.min (hf_str_len hf) L - 1)) /\
  4 * text names <= N.min (hf_type_len hf) L * (N.min (hf_str_len hf) L - 1) /\
  text (map fst (name_to_id_map ti)) <= text names /\ text (map snd (id_to_name_map ti)) <= text names.
Proof.
  intros e img ti H Hs E. destruct (loaded_describes e img ti H Hs E) as [Et (en & hf & Hf & Hlo & stop & Hr & _)]. destruct (loaded_types e ti H E) as (_ & F & _).
  cbv zeta. exists en, hf. split; [exact Hf|]. fold (types ti). set (L := N.of_nat (length img)). set (ts := types ti) in *.
  assert (V : Forall (fun t => t <> TVoid) ts) by (eapply Forall_impl; [|exact F]; intros t Ht ->; exact Ht).
  destruct (records_rooms _ _ _ _ Hr) as [A B]. cbn [layout_of types_hi types_lo image] in A, B. fold L in B.
  assert (R : 12 * N.of_nat (length ts) + 8 * total item_count ts <= N.min (hf_type_len hf) L) by lia. clear A B.
  assert (S : Forall (fun t => Forall (fun s => N.of_nat (length s) <= 2 * (N.min (hf_str_len hf) L - 1)) (held_names t)) ts).
  { apply Forall_forall. intros t Ht. apply Forall_forall. intros n Hn. rewrite Forall_forall in V.
    destruct (held_name_in t n Hn (V t Ht)) as (k & Hk). apply In_nth_error in Ht. destruct Ht as (i & Hi).
    destruct (records_split _ _ _ _ Hr _ _ Hi) as (o & _ & stop' & Hrec). pose proof (record_name_in _ _ _ _ _ _ Hrec Hk) as N.
    assert (exists j, string_at (layout_of img en hf) j n) as (j & bs & (Hb & _ & Hhi & _) & Lt) by (destruct k; [eauto|exact N]).
    apply bytes_at_length in Hb. apply latin1_length in Lt. cbn [layout_of strings_lo strings_hi image] in *. rewrite app_length in Hb. cbn [length] in Hb. fold L in Hb. lia. }
  split; [exact R|]. split; [|split].
  - intros n Hn. apply in_flat_map in Hn. destruct Hn as (t & Ht & Hn). rewrite Forall_forall in S. specialize (S t Ht). rewrite Forall_forall in S. exact (S n Hn).
  - apply names_total in S. nia.
  - rewrite Et. exact (name_tables ts V).
Qed.
Print Assumptions C67_bounded_memory.

(** The order is reached: n typedefs that all have the same name of m bytes, in a file of 26 + 12 * n + m bytes. *)
Definition crowd_record : list byte := words_bytes Little [1; 0x08000000; 0].
Definition crowded (n m : nat) : list byte :=
  words_bytes Little [0x1eb9f; 24; 0; 12 * N.of_nat n; 12 * N.of_nat n; 2 + N.of_nat m] ++ concat (repeat crowd_record n) ++ [x00] ++ repeat x61 m ++ [x00].
Definition crowd_type (m : nat) : type_variant :=
  TTypedef {| h_kind := KTypedef; h_name_offset := 1; h_vlen := 0; h_kind_flag := false; h_size_or_type := 0 |} {| nl_name := Some (repeat x61 m); nl_tid := 0 |}.
Lemma concat_repeat_length {A} (l : list A) n : length (concat (repeat l n)) = (n * length l)%nat.
Proof. induction n as [|n IH]; [reflexivity|]. cbn [repeat concat]. rewrite app_length, IH. reflexivity. Qed.
Lemma crowd_record_length : length crowd_record = 12%nat.
Proof. reflexivity. Qed.
Lemma crowded_length n m : length (crowded n m) = (26 + 12 * n + m)%nat.
Proof. unfold crowded. rewrite !app_length, words_bytes_length, concat_repeat_length, crowd_record_length, repeat_length. cbn [length]. lia. Qed.
Lemma crowded_header n m : N.of_nat (length (crowded n m)) < 2 ^ 32 ->
  file_header_at (crowded n m) Little {| hf_hdr_len := 24; hf_type_off := 0; hf_type_len := 12 * N.of_nat n; hf_str_off := 12 * N.of_nat n; hf_str_len := 2 + N.of_nat m |}.
Proof.
  intros B. rewrite crowded_length in B.
  assert (H : bytes_at (crowded n m) 0 (words_bytes Little [0x1eb9f; 24; 0; 12 * N.of_nat n; 12 * N.of_nat n; 2 + N.of_nat m])) by (exists [], (concat (repeat crowd_record n) ++ [x00] ++ repeat x61 m ++ [x00]); split; reflexivity).
  split. { destruct H as (p & q & E & L). destruct p; [|cbn in L; lia]. rewrite E. exists [], (x01 :: x00 :: words_bytes Little [24; 0; 12 * N.of_nat n; 12 * N.of_nat n; 2 + N.of_nat m] ++ q). split; reflexivity. }
  pose proof (fun i w => words_at _ Little 0 _ i w H) as W.
  repeat split; [apply (W 1%nat)|apply (W 2%nat)|apply (W 3%nat)|apply (W 4%nat)|apply (W 5%nat)]; try reflexivity; cbn [hf_type_len hf_str_off hf_str_len]; lia.
Qed.
Lemma crowded_records n m : N.of_nat (length (crowded n m)) < 2 ^ 32 ->
  let f := layout_of (crowded n m) Little {| hf_hdr_len := 24; hf_type_off := 0; hf_type_len := 12 * N.of_nat n; hf_str_off := 12 * N.of_nat n; hf_str_len := 2 + N.of_nat m |} in
  forall k, (k <= n)%nat -> records_at f (24 + 12 * N.of_nat (n - k)) (repeat (crowd_type m) k) (24 + 12 * N.of_nat n).
Proof.
  intros B f. assert (Hi : types_hi f = 24 + 12 * N.of_nat n) by (cbn; lia). rewrite crowded_length in B.
  induction k as [|k IH]; intros K; [rewrite Nat.sub_0_r; constructor|]. cbn [repeat].
  assert (Nx : 24 + 12 * N.of_nat (n - k) = 24 + 12 * N.of_nat (n - S k) + 12) by lia.
  econstructor; [rewrite Hi; lia| |apply IH; lia].
  set (i := (n - S k)%nat) in *. assert (Hn : n = (i + S k)%nat) by lia.
  assert (R : bytes_at (crowded n m) (24 + 12 * N.of_nat i) crowd_record).
  { exists (words_bytes Little [0x1eb9f; 24; 0; 12 * N.of_nat n; 12 * N.of_nat n; 2 + N.of_nat m] ++ concat (repeat crowd_record i)),
      (concat (repeat crowd_record k) ++ [x00] ++ repeat x61 m ++ [x00]). split.
    - unfold crowded. rewrite <- !app_assoc. f_equal. rewrite Hn at 1. rewrite repeat_app, concat_app. cbn [repeat concat]. rewrite <- !app_assoc. reflexivity.
    - rewrite app_length, words_bytes_length, concat_repeat_length, crowd_record_length. cbn [length]. lia. }
  pose proof (fun j w => words_at _ Little _ _ j w R) as W.
  exists {| h_kind := KTypedef; h_name_offset := 1; h_vlen := 0; h_kind_flag := false; h_size_or_type := 0 |}. split; [|split].
  - split; [|split]; cbn [f layout_of image order h_name_offset h_size_or_type].
    + rewrite <- (N.add_0_r (24 + 12 * N.of_nat i)). apply (W 0%nat); [reflexivity|lia].
    + exists 0x08000000. split; [apply (W 1%nat); [reflexivity|lia]|]. repeat split.
    + apply (W 2%nat); [reflexivity|lia].
  - exists (Some (repeat x61 m)). split; [reflexivity|]. split; [discriminate|]. exists (repeat x61 m). split.
    + split; [|split; [|split]].
      * cbn [f layout_of image strings_lo h_name_offset hf_hdr_len hf_str_off]. exists (words_bytes Little [0x1eb9f; 24; 0; 12 * N.of_nat n; 12 * N.of_nat n; 2 + N.of_nat m] ++ concat (repeat crowd_record n) ++ [x00]), []. split.
        -- unfold crowded. rewrite app_nil_r, <- !app_assoc. reflexivity.
        -- rewrite !app_length, words_bytes_length, concat_repeat_length, crowd_record_length. cbn [length]. lia.
      * intros Q. apply repeat_spec in Q. discriminate.
      * rewrite repeat_length. cbn. lia.
      * cbn. lia.
    + exists (map (fun b => [b]) (repeat x61 m)). split; [|clear; induction m as [|m IH]; [reflexivity|]; cbn; f_equal; exact IH].
      clear. induction m as [|m IH]; [constructor|]. cbn. constructor; [left; split; [vm_compute; reflexivity|reflexivity]|exact IH].
  - unfold extra_size, checked_size, extra_size. cbn [h_kind]. rewrite Hi. lia.
Qed.
Lemma text_repeat n m : text (flat_map held_names (repeat (crowd_type m) n)) = N.of_nat n * N.of_nat m.
Proof.
  induction n as [|n IH]; [reflexivity|]. cbn [repeat flat_map]. rewrite text_app, IH.
  unfold held_names. cbn [crowd_type declared_name nl_name members parameters enumerators opt_list flat_map map app text]. rewrite repeat_length. lia.
Qed.
Lemma crowded_loads n m e : usize_bits (cfg e) = 64 -> serves (rd e) (crowded n m) -> N.of_nat (26 + 12 * n + m) < 2 ^ 32 ->
  exists ti, type_information_new e = Ok ti /\ map snd (get ti) = repeat (crowd_type m) n.
Proof.
  intros H Hs B. rewrite <- crowded_length in B. apply (C03_loader_exact e (crowded n m) H Hs).
  left. do 2 eexists. split; [exact (crowded_header n m B)|]. split; [cbn; lia|].
  pose proof (crowded_records n m B n (le_n n)) as R. cbv zeta in R. rewrite Nat.sub_diag in R. cbn [layout_of types_lo types_hi hf_hdr_len hf_type_off hf_type_len] in *. exact R.
Qed.
Theorem C67_order_reached : forall n m e, usize_bits (cfg e) = 64 -> serves (rd e) (crowded n m) -> N.of_nat (26 + 12 * n + m) < 2 ^ 32 ->
  length (crowded n m) = (26 + 12 * n + m)%nat /\
  exists ti, type_information_new e = Ok ti /\ length (get ti) = n /\ text (flat_map held_names (map snd (get ti))) = N.of_nat n * N.of_nat m.
Proof.
  intros n m e H Hs B. split; [apply crowded_length|]. destruct (crowded_loads n m e H Hs B) as (ti & E & Et).
  exists ti. split; [exact E|]. rewrite Et. split; [|apply text_repeat]. rewrite <- (map_length snd), Et. apply repeat_length.
Qed.
Print Assumptions C67_order_reached.
Example C67_met : exists ti, type_information_new (file_env sample_img) = Ok ti /\
  (N.of_nat (length (get ti)), total item_count (map snd (get ti)), text (flat_map held_names (map snd (get ti)))) = (27, 21, 123) /\
  length (requests (file_env sample_img)) = 313%nat /\ N.of_nat (26 + 12 * 1000 + 5000) < 2 ^ 32.
Proof. exists sample_ti. split; [exact sample_loads|]. split; [vm_compute; reflexivity|]. split; vm_compute; reflexivity. Qed.

(** ** C50, again: the number of requests of a load that succeeds *)
(** 8 for the header; 3 for each record and 1, 2 or 3 for each field behind it; and for each name one for each of
    its characters and one for the zero byte. *)
Theorem C50_exact : forall e ti, usize_bits (cfg e) = 64 -> type_information_new e = Ok ti ->
  length (requests e) = (8 + sum type_cost (map snd (get ti)))%nat.
Proof. exact requests_count. Qed.
Print Assumptions C50_exact.
Theorem C50_order_reached : forall n m e, usize_bits (cfg e) = 64 -> serves (rd e) (crowded n m) -> N.of_nat (26 + 12 * n + m) < 2 ^ 32 ->
  length (crowded n m) = (26 + 12 * n + m)%nat /\ length (requests e) = (8 + n * (m + 4))%nat.
Proof.
  intros n m e H Hs B. split; [apply crowded_length|]. destruct (crowded_loads n m e H Hs B) as (ti & E & Et). rewrite (C50_exact e ti H E), Et.
  f_equal. clear. induction n as [|n IH]; [reflexivity|]. cbn [repeat sum Nat.mul]. rewrite IH.
  assert (type_cost (crowd_type m) = m + 4)%nat as ->; [|lia]. unfold type_cost, crowd_type. cbn [declared_name nl_name opt_cost]. unfold name_cost, characters.
  assert (length (filter starts_char (repeat x61 m)) = m) as ->; [|lia]. clear. induction m as [|m IHm]; [reflexivity|]. cbn [repeat filter]. change (starts_char x61) with true. cbn [length]. f_equal. exact IHm.
Qed.
Print Assumptions C50_order_reached.
