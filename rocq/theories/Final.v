(** * Final: what the property theorems still need *)
From Coq Require Import List NArith ZArith Bool Lia Strings.Byte.
From Verif Require Import TypeInfo Spec BaseFacts Bits Maps Safety Local Exact Errors Encode EncodeProof LoadProps LoadProps2 Grow.
Import ListNotations.
Open Scope N_scope.

(** ** C03: where the records end *)
Definition describes_up_to (img : list byte) (en : endianness) (hf : header_fields) (ts : list type_variant) (stop : N) : Prop :=
  file_header_at img en hf /\ types_lo (layout_of img en hf) < 2 ^ 32 /\
  records_at (layout_of img en hf) (types_lo (layout_of img en hf)) ts stop.
(** The records fill the type section exactly. *)
Definition describes_exactly (img : list byte) (ts : list type_variant) : Prop :=
  exists en hf, describes_up_to img en hf ts (types_hi (layout_of img en hf)).
(** All records lie in the type section but for the last one, an array with
    vlen 0 whose header lies in the section and whose data does not. *)
Definition describes_but_tail (img : list byte) (ts : list type_variant) : Prop :=
  exists en hf ts0 o h d, let f := layout_of img en hf in
    ts = ts0 ++ [TArray h d] /\ h_vlen h = 0 /\ describes_up_to img en hf ts0 o /\
    record_at f o (TArray h d) (o + 24) /\ o + 12 <= types_hi f /\ types_hi f < o + 24.

Lemma records_snoc f a ts b : records_at f a ts b -> ts <> [] ->
  exists ts0 t o, ts = ts0 ++ [t] /\ records_at f a ts0 o /\ o < types_hi f /\ record_at f o t b.
Proof.
  induction 1 as [|off t next ts stop Hlt Hr Hrs IH]; intros Hne; [congruence|]. destruct ts as [|t' ts].
  - inversion Hrs; subst. exists [], t, off. repeat split; try assumption. constructor.
  - destruct IH as (ts0 & u & o & E & H1 & H2 & H3); [discriminate|]. exists (t :: ts0), u, o.
    rewrite E. repeat split; try assumption. econstructor; eassumption.
Qed.
Lemma records_app f a ts b t c : records_at f a ts b -> b < types_hi f -> record_at f b t c -> records_at f a (ts ++ [t]) c.
Proof. induction 1; intros; cbn; econstructor; eauto. constructor. Qed.

Lemma describes_cases img ts : file_describes img ts <-> describes_exactly img ts \/ describes_but_tail img ts.
Proof.
  split.
  - intros (en & hf & Hf & Hlo & stop & Hr & Hle). destruct ts as [|t0 ts'] eqn:E.
    + left. exists en, hf. split; [exact Hf|]. split; [exact Hlo|].
      assert (Es : types_hi (layout_of img en hf) = types_lo (layout_of img en hf)) by (inversion Hr; subst; cbn in *; lia).
      rewrite Es. constructor.
    + rewrite <- E in *. destruct (records_snoc _ _ _ _ Hr ltac:(rewrite E; discriminate)) as (ts0 & t & o & Ets & Hr0 & Hlt & Hrec).
      pose proof Hrec as (h & Hh & Hp & Hs & H12 & Hc & _). destruct (N.eq_dec stop (types_hi (layout_of img en hf))) as [Eq|Ne].
      * left. exists en, hf. split; [exact Hf|]. split; [exact Hlo|]. rewrite <- Eq. exact Hr.
      * right. assert (HK : h_kind h = KArray /\ h_vlen h = 0).
        { unfold checked_size in Hc. destruct (h_kind h) eqn:K; try lia.
          assert (extra_size h = 12) by (unfold extra_size; rewrite K; reflexivity). split; [reflexivity|lia]. }
        destruct HK as [HK HV]. assert (Hx : extra_size h = 12) by (unfold extra_size; rewrite HK; reflexivity).
        unfold payload_at in Hp. rewrite HK in Hp. destruct Hp as (d & Et & Hp).
        exists en, hf, ts0, o, h, d. cbn zeta. subst t.
        assert (Es : stop = o + 24) by lia. rewrite Es in Hrec.
        unfold checked_size in Hc. rewrite HK in Hc.
        split; [exact Ets|]. split; [exact HV|]. split; [split; [exact Hf|split; [exact Hlo|exact Hr0]]|]. split; [exact Hrec|]. lia.
  - intros [(en & hf & Hf & Hlo & Hr)|(en & hf & ts0 & o & h & d & -> & HV & (Hf & Hlo & Hr) & Hrec & H12 & Hlt)].
    + exists en, hf. split; [exact Hf|]. split; [exact Hlo|]. eexists. split; [exact Hr|lia].
    + exists en, hf. split; [exact Hf|]. split; [exact Hlo|]. exists (o + 24). split; [|lia]. eapply records_app; [exact Hr|lia|exact Hrec].
Qed.
(** The two cases exclude each other. *)
Lemma header_unique img en hf en' hf' : file_header_at img en hf -> file_header_at img en' hf' -> en = en' /\ hf = hf'.
Proof. apply header_functional. Qed.

(** ** C02: the header of an image *)
Lemma sections_image rd img checks : serves rd img ->
  (forall en hf, file_header_at img en hf -> let f := layout_of img en hf in
     (types_hi f < 2 ^ 32 -> types_hi f <= 2 ^ 32 - 2 ^ 20) /\ (strings_hi f < 2 ^ 32 -> strings_hi f <= 2 ^ 32 - 2 ^ 20)) ->
  forall fh r1, file_header_new {| cfg := build64 checks; rd := rd |} reader_new = (Ok fh, r1) -> sections_below (2 ^ 32 - 2 ^ 20) fh.
Proof.
  intros Hs H fh r1 E. destruct (header_sound {| cfg := build64 checks; rd := rd |} img eq_refl Hs fh r1 E) as (en & _ & Hfh).
  destruct (H en (fields fh) Hfh) as [H1 H2]. cbn in H1, H2. split; assumption.
Qed.
Lemma load_32_64_image rd img checks checks' : serves rd img ->
  (forall en hf, file_header_at img en hf -> let f := layout_of img en hf in
     (types_hi f < 2 ^ 32 -> types_hi f <= 2 ^ 32 - 2 ^ 20) /\ (strings_hi f < 2 ^ 32 -> strings_hi f <= 2 ^ 32 - 2 ^ 20)) ->
  type_information_new {| cfg := build32 checks'; rd := rd |} = type_information_new {| cfg := build64 checks; rd := rd |} /\
  requests {| cfg := build32 checks'; rd := rd |} = requests {| cfg := build64 checks; rd := rd |}.
Proof. intros Hs H. apply load_32_64. eapply sections_image; eassumption. Qed.

Lemma combine_nth_error {A B} (l : list A) (l' : list B) : forall n,
  nth_error (combine l l') n = match nth_error l n, nth_error l' n with Some a, Some b => Some (a, b) | _, _ => None end.
Proof.
  revert l'. induction l as [|a l IH]; intros [|b l'] [|n]; try reflexivity; cbn [combine nth_error].
  - destruct (nth_error l n); reflexivity.
  - apply IH.
Qed.
Lemma nth_error_ids m n : nth_error (map N.of_nat (seq 1 m)) n = if Nat.ltb n m then Some (N.of_nat (S n)) else None.
Proof.
  rewrite nth_error_map. destruct (Nat.ltb_spec n m).
  - rewrite nth_error_nth' with (d := O) by (rewrite seq_length; assumption). rewrite seq_nth by assumption. reflexivity.
  - rewrite (proj2 (nth_error_None _ _)) by (rewrite seq_length; assumption). reflexivity.
Qed.
(** ** C07-C10 on a loaded table *)
Lemma loaded_ids e ti : usize_bits (cfg e) = 64 -> type_information_new e = Ok ti ->
  map fst (get ti) = map N.of_nat (seq 1 (length (get ti))) /\
  (forall i t, i <> 0 -> (from_id ti i = Some t <-> In (i, t) (get ti))) /\
  (forall i t, i <> 0 -> (from_id ti i = Some t <-> type_at (map snd (get ti)) i t)) /\
  from_id ti 0 = Some TVoid.
Proof.
  intros H E. destruct (loaded_types e ti H E) as (Et & _ & _). pose proof (get_spec ti Et) as G.
  assert (L : length (get ti) = length (types ti)) by (unfold types; rewrite map_length; reflexivity).
  assert (F : forall i t, i <> 0 -> (from_id ti i = Some t <-> type_at (map snd (get ti)) i t)).
  { intros i t Hi. fold (types ti). rewrite (from_id_spec ti i t Et). split; [intros [[C _]|C]; [contradiction|exact C]|auto]. }
  split.
  { rewrite L. rewrite G at 1. rewrite map_fst_combine; [reflexivity|]. rewrite map_length, seq_length. reflexivity. }
  split; [|split; [exact F|reflexivity]].
  intros i t Hi. rewrite (F i t Hi). fold (types ti). rewrite G at 1. unfold type_at. split.
  - intros [H1 H2]. eapply nth_error_In with (n := (N.to_nat i - 1)%nat). rewrite combine_nth_error, nth_error_ids, H2.
    assert (HL : (N.to_nat i - 1 < length (types ti))%nat) by (apply nth_error_Some; congruence).
    apply Nat.ltb_lt in HL. rewrite HL. cbn. f_equal. f_equal. lia.
  - intros HI. apply In_nth_error in HI. destruct HI as [n HI]. rewrite combine_nth_error, nth_error_ids in HI.
    destruct (Nat.ltb_spec n (length (types ti))) as [HL|HL]; cbn in HI; [|discriminate].
    destruct (nth_error (types ti) n) as [t'|] eqn:En; [|discriminate]. injection HI as <- <-. split; [lia|].
    replace (N.to_nat (N.of_nat (S n)) - 1)%nat with n by lia. exact En.
Qed.

(** ** Where the record of each type is *)
Definition record_of (img : list byte) (en : endianness) (hf : header_fields) (ts : list type_variant) (i : N) (t : type_variant) (o : N) : Prop :=
  let f := layout_of img en hf in
  records_at f (types_lo f) (firstn (N.to_nat i - 1) ts) o /\ exists stop, record_at f o t stop.

Lemma records_split f a ts b : records_at f a ts b -> forall n t, nth_error ts n = Some t ->
  exists o, records_at f a (firstn n ts) o /\ exists stop, record_at f o t stop.
Proof.
  induction 1 as [|off t next ts stop Hlt Hr Hrs IH]; intros n u Hn; [destruct n; discriminate|]. destruct n as [|n]; cbn in *.
  - injection Hn as <-. exists off. split; [constructor|eauto].
  - destruct (IH n u Hn) as (o & H1 & H2). exists o. split; [econstructor; eassumption|exact H2].
Qed.
Lemma loaded_records e img ti : usize_bits (cfg e) = 64 -> serves (rd e) img -> type_information_new e = Ok ti ->
  exists en hf, file_header_at img en hf /\
    forall i t, type_at (types ti) i t -> exists o, record_of img en hf (types ti) i t o.
Proof.
  intros H Hs E. destruct (loaded_describes e img ti H Hs E) as [_ (en & hf & Hf & _ & stop & Hr & _)].
  exists en, hf. split; [exact Hf|]. intros i t [_ Ht]. exact (records_split _ _ _ _ Hr _ _ Ht).
Qed.
Lemma record_of_header img en hf ts i t o : record_of img en hf ts i t o ->
  exists h, type_header t = Some h /\ header_at (layout_of img en hf) o h /\ payload_at (layout_of img en hf) (o + 12) h t.
Proof. intros [_ (stop & Hr)]. eapply record_header. exact Hr. Qed.

(** C21 *)
Lemma record_member img en hf ts i t o h j m : record_of img en hf ts i t o -> type_header t = Some h ->
  nth_error (members t) j = Some m ->
  exists w, u32_at img en (o + 12 + 12 * N.of_nat j + 8) w /\
    (h_kind_flag h = false -> w mod 8 = 0 /\ m_offset m = ByteOffset (w / 8)) /\
    (h_kind_flag h = true -> w < 2 ^ 24 -> w mod 8 = 0 -> m_offset m = ByteOffset (w / 8)) /\
    (h_kind_flag h = true -> 2 ^ 24 <= w \/ w mod 8 <> 0 -> m_offset m = BitOffsetAndSize (w mod 2 ^ 24) (w / 2 ^ 24)).
Proof.
  intros HR Hh Hj. destruct (record_of_header _ _ _ _ _ _ _ HR) as (h' & Hh' & _ & Hp). rewrite Hh in Hh'. injection Hh' as <-.
  assert (G : member_at (layout_of img en hf) (h_kind_flag h) (o + 12 + 12 * N.of_nat j) m).
  { unfold payload_at in Hp. destruct (h_kind h); repeat match goal with H : exists _, _ |- _ => destruct H end;
      repeat match goal with H : _ /\ _ |- _ => destruct H end; subst t; cbn in Hj; try (destruct j; discriminate).
    - destruct H2 as [_ H2]. apply H2. exact Hj.
    - destruct H2 as [_ H2]. apply H2. exact Hj. }
  destruct G as (_ & _ & _ & w & Hw & Ho). exists w. split; [exact Hw|]. unfold member_offset in Ho. repeat split.
  - rewrite H in Ho. apply Ho.
  - rewrite H in Ho. apply Ho.
  - intros Hk Hlt Hm. rewrite Hk in Ho. rewrite (N.div_small w _ Hlt), Hm in Ho. exact Ho.
  - intros Hk Hor. rewrite Hk in Ho. destruct (N.eqb_spec (w / 2 ^ 24) 0) as [E1|E1]; [|exact Ho].
    destruct (N.eqb_spec (w mod 8) 0) as [E2|E2]; [|exact Ho]. exfalso. destruct Hor as [Hor|Hor]; [|contradiction].
    apply N.div_small_iff in E1; [lia|discriminate].
Qed.

(** C22 *)
Lemma record_int img en hf ts i h d o : record_of img en hf ts i (TInt h d) o ->
  u32_at img en (o + 8) (int_size d) /\ exists w, u32_at img en (o + 12) w /\
    int_signed d = N.testbit w 24 /\ int_char d = N.testbit w 25 /\ int_boolean d = N.testbit w 26 /\
    int_offset d = w / 2 ^ 16 mod 256 /\ int_bits d = w mod 256.
Proof.
  intros HR. destruct (record_of_header _ _ _ _ _ _ _ HR) as (h' & Hh' & Hh & Hp). injection Hh' as <-.
  unfold payload_at in Hp. destruct (h_kind h); repeat match goal with H : exists _, _ |- _ => destruct H end;
      repeat match goal with H : _ /\ _ |- _ => destruct H end; try discriminate.
  injection H as <-. destruct Hh as (_ & _ & Hsz). rewrite H1. split; [exact Hsz|]. exists x0. split; [exact H2|exact H3].
Qed.

(** C23 *)
Definition enumerator_width (t : type_variant) : option nat :=
  match t with TEnum _ _ => Some 4%nat | TEnum64 _ _ => Some 8%nat | _ => None end.
Lemma record_enumerator img en hf ts i t o h n j v : record_of img en hf ts i t o -> type_header t = Some h ->
  enumerator_width t = Some n -> nth_error (enumerators t) j = Some v ->
  exists w, word_at img en n (o + 12 + (4 + N.of_nat n) * N.of_nat j + 4) w /\
    (h_kind_flag h = false -> nv_value v = Unsigned w) /\
    (h_kind_flag h = true -> exists z, nv_value v = Signed z /\ signed_value (8 * N.of_nat n) w z).
Proof.
  intros HR Hh Hn Hj. destruct (record_of_header _ _ _ _ _ _ _ HR) as (h' & Hh' & _ & Hp). rewrite Hh in Hh'. injection Hh' as <-.
  assert (G : enumerator_at (layout_of img en hf) n (h_kind_flag h) (o + 12 + (4 + N.of_nat n) * N.of_nat j) v).
  { unfold payload_at in Hp. destruct (h_kind h); repeat match goal with H : exists _, _ |- _ => destruct H end;
      repeat match goal with H : _ /\ _ |- _ => destruct H end; subst t; try discriminate; cbn in Hj, Hn; injection Hn as <-.
    - destruct H3 as [_ H3]. apply (H3 j v). exact Hj.
    - destruct H3 as [_ H3]. apply (H3 j v). exact Hj. }
  destruct G as (_ & w & Hw & Hv). exists w. split; [exact Hw|]. split; intros Hk; rewrite Hk in Hv; exact Hv.
Qed.

(** ** C18: the magic decides the byte order *)
Lemma loaded_order e img ti en : usize_bits (cfg e) = 64 -> serves (rd e) img -> type_information_new e = Ok ti ->
  bytes_at img 0 (magic en) -> exists hf stop, describes_up_to img en hf (types ti) stop /\ types_hi (layout_of img en hf) <= stop.
Proof.
  intros H Hs E Hm. destruct (loaded_describes e img ti H Hs E) as [_ (en' & hf & Hf & Hlo & stop & Hr & Hle)].
  assert (en' = en) as ->.
  { destruct Hf as (Hm' & _). destruct Hm as (p & q & E1 & L1), Hm' as (p' & q' & E2 & L2).
    destruct p; [|cbn in L1; lia]. destruct p'; [|cbn in L2; lia]. rewrite E1 in E2. cbn [app] in E2.
    destruct en, en'; cbn in E2; try reflexivity; congruence. }
  exists hf, stop. repeat split; try assumption; apply Hf.
Qed.
Lemma loaded_magic e img ti : usize_bits (cfg e) = 64 -> serves (rd e) img -> type_information_new e = Ok ti ->
  bytes_at img 0 (magic Little) \/ bytes_at img 0 (magic Big).
Proof.
  intros H Hs E. destruct (loaded_describes e img ti H Hs E) as [_ (en & hf & Hf & _)].
  destruct Hf as (Hm & _). destruct en; auto.
Qed.

(** ** C19: kinds of accepted records *)
Lemma record_kind img en hf ts i t o : record_of img en hf ts i t o ->
  exists info, u32_at img en (o + 4) info /\ 1 <= info / 2 ^ 24 mod 32 <= 19.
Proof.
  intros HR. destruct (record_of_header _ _ _ _ _ _ _ HR) as (h & _ & (_ & (info & Hi & Hk & _) & _) & _).
  exists info. split; [exact Hi|]. rewrite <- Hk. destruct (h_kind h); cbn; lia.
Qed.
(** ... and their fields. *)
Lemma record_info img en hf ts i t h o : record_of img en hf ts i t o -> type_header t = Some h ->
  exists info, u32_at img en (o + 4) info /\ kind_code (h_kind h) = info / 2 ^ 24 mod 32 /\ h_vlen h = info mod 2 ^ 16 /\
    h_kind_flag h = (2 ^ 31 <=? info).
Proof.
  intros HR Hh. destruct (record_of_header _ _ _ _ _ _ _ HR) as (h' & Hh' & (_ & Hi & _) & _).
  rewrite Hh in Hh'. injection Hh' as <-. exact Hi.
Qed.

(** ** C11, C13: names *)
Lemma loaded_names e img ti : usize_bits (cfg e) = 64 -> serves (rd e) img -> type_information_new e = Ok ti ->
  exists en hf, file_header_at img en hf /\ forall i t k s, type_at (types ti) i t -> name_in t k s ->
    exists k' bs, (forall x, k = Some x -> k' = x) /\ raw_string (layout_of img en hf) k' bs /\ latin1 bs s /\
      valid_utf8 s /\ ~ In x00 s /\ (ascii bs -> s = bs).
Proof.
  intros H Hs E. destruct (located e img ti H Hs E) as (en & hf & Hf & L). exists en, hf. split; [exact Hf|].
  intros i t k s Ht Hk. destruct (L i t Ht) as (o & o' & Hr). pose proof (record_name_in _ _ _ _ _ _ Hr Hk) as N. destruct k as [k|].
  - destruct (string_at_facts _ _ _ N) as (bs & H1 & H2 & _ & H3). exists k, bs. split; [congruence|]. auto.
  - destruct N as [k N]. destruct (string_at_facts _ _ _ N) as (bs & H1 & H2 & _ & H3). exists k, bs. split; [discriminate|]. auto.
Qed.

(** ** C05 *)
Lemma load_both_orders v1 f1 r1 v2 f2 r2 ds e1 e2 :
  let little := encode_with v1 f1 r1 Little ds in let big := encode_with v2 f2 r2 Big ds in
  usize_bits (cfg e1) = 64 -> usize_bits (cfg e2) = 64 -> serves (rd e1) little -> serves (rd e2) big ->
  Forall decl_ok ds -> Forall no_enum64 ds -> Forall (fun d => reserved_ok (r1 d) /\ reserved_ok (r2 d)) ds ->
  len little < 2 ^ 32 -> len big < 2 ^ 32 ->
  exists t1 t2, type_information_new e1 = Ok t1 /\ type_information_new e2 = Ok t2 /\
    map fst (get t1) = map fst (get t2) /\ map view (map snd (get t1)) = map view (map snd (get t2)) /\
    map view (map snd (get t1)) = map Some ds.
Proof.
  intros little big H1 H2 S1 S2 Hd Hn Hr L1 L2.
  destruct (load_encoded_same v1 f1 r1 Little ds e1 H1 S1 Hd) as (t1 & E1 & K1 & V1); [| exact L1 | left; reflexivity |].
  { eapply Forall_impl; [|exact Hr]. intros d [? ?]. assumption. }
  destruct (load_encoded_same v2 f2 r2 Big ds e2 H2 S2 Hd) as (t2 & E2 & K2 & V2); [| exact L2 | right; exact Hn |].
  { eapply Forall_impl; [|exact Hr]. intros d [? ?]. assumption. }
  exists t1, t2. unfold types in *. split; [exact E1|]. split; [exact E2|]. split; [congruence|]. split; [congruence|exact V1].
Qed.

(** ** C08, C09, C10 *)
Lemma loaded_name_of e ti : usize_bits (cfg e) = 64 -> type_information_new e = Ok ti -> forall i n,
  name_of ti i = Some n <-> (i = 0 /\ n = void_str) \/ (exists t, type_at (map snd (get ti)) i t /\ declared_name t = Some n).
Proof. intros H E i n. destruct (loaded_types e ti H E) as (Et & Hf & _). exact (name_of_spec ti i n Et Hf). Qed.
Lemma loaded_id_of e ti : usize_bits (cfg e) = 64 -> type_information_new e = Ok ti -> forall n i,
  id_of ti n = Some i <-> (n = void_str /\ i = 0) \/
    (n <> void_str /\ carries (map snd (get ti)) i n /\ forall j, carries (map snd (get ti)) j n -> j <= i).
Proof. intros H E n i. destruct (loaded_types e ti H E) as (Et & Hf & _). exact (id_of_spec ti n i Et Hf). Qed.
Lemma loaded_id_none e ti : usize_bits (cfg e) = 64 -> type_information_new e = Ok ti -> forall n,
  id_of ti n = None <-> n <> void_str /\ forall i, ~ carries (map snd (get ti)) i n.
Proof.
  intros H E n. destruct (loaded_types e ti H E) as (Et & Hf & _). split.
  - intros Hn. assert (Hv : n <> void_str).
    { intros ->. assert (X : id_of ti void_str = Some 0) by (apply (id_of_spec ti _ _ Et Hf); auto). congruence. }
    split; [exact Hv|]. intros i Hc. destruct (carries_id ti n i Et Hf Hv Hc) as (j & Hj & _). congruence.
  - intros [Hv Hn]. destruct (id_of ti n) as [i|] eqn:Ei; [|reflexivity]. apply (id_of_spec ti n i Et Hf) in Ei.
    destruct Ei as [[C _]|(_ & C & _)]; [contradiction|]. destruct (Hn i C).
Qed.
Lemma loaded_names_ids e ti : usize_bits (cfg e) = 64 -> type_information_new e = Ok ti ->
  (forall n t, id_of ti n = Some t -> name_of ti t = Some n) /\
  (forall n t, name_of ti t = Some n -> n <> void_str -> exists t', id_of ti n = Some t' /\ t <= t' /\ name_of ti t' = Some n) /\
  id_of ti void_str = Some 0 /\ name_of ti 0 = Some void_str.
Proof.
  intros H E. destruct (loaded_types e ti H E) as (Et & Hf & _). split; [|split; [|split]].
  - intros n t Ht. apply (id_of_spec ti n t Et Hf) in Ht. apply (name_of_spec ti t n Et Hf). destruct Ht as [[-> ->]|(_ & C & _)]; auto.
  - intros n t Ht Hv. apply (name_of_spec ti t n Et Hf) in Ht. destruct Ht as [[_ C]|C]; [contradiction|].
    destruct (carries_id ti n t Et Hf Hv C) as (j & Hj & Hle & Hc). exists j. split; [exact Hj|]. split; [exact Hle|].
    apply (name_of_spec ti j n Et Hf). auto.
  - apply (id_of_spec ti _ _ Et Hf). auto.
  - reflexivity.
Qed.

(** ** C13 *)
Lemma bad_reference_fails e img en hf ts o h x : let f := layout_of img en hf in
  usize_bits (cfg e) = 64 -> serves (rd e) img -> describes_up_to img en hf ts o ->
  o + 12 <= types_hi f -> types_hi f < 2 ^ 32 -> header_at f o h -> o + 12 + checked_size h <= types_hi f ->
  defect_at f (o + 12) h x -> type_information_new e = Err x.
Proof.
  intros f H Hs (Hf & Hlo & Hr) H12 H32 Hh Hc Hd. eapply (errs_defect e img H Hs en hf ts o); eauto. subst f. lia.
Qed.
Lemma loaded_no_bad e img ti : usize_bits (cfg e) = 64 -> serves (rd e) img -> type_information_new e = Ok ti ->
  forall en hf, file_header_at img en hf -> forall i t k s, type_at (types ti) i t -> name_in t (Some k) s ->
    forall x, ~ bad_string (layout_of img en hf) k x.
Proof.
  intros H Hs E en hf Hf i t k s Ht Hn x Hb. destruct (located e img ti H Hs E) as (en' & hf' & Hf' & L).
  destruct (header_unique _ _ _ _ _ Hf Hf') as [<- <-]. destruct (L i t Ht) as (o & o' & Hr).
  pose proof (record_name_in _ _ _ _ _ _ Hr Hn) as N. exact (bad_string_no_string _ _ _ _ Hb N).
Qed.

(** ** C15, C19 *)
Lemma header_past_end e img en hf ts o : let f := layout_of img en hf in
  usize_bits (cfg e) = 64 -> serves (rd e) img -> describes_up_to img en hf ts o ->
  o < types_hi f -> types_hi f < 2 ^ 32 -> types_hi f < o + 12 -> type_information_new e = Err InvalidTypeSectionOffset.
Proof. intros f H Hs (Hf & Hlo & Hr) Hin H32 Hp. eapply (err_header_fits e img H Hs en hf ts o); eauto. Qed.
Lemma extra_past_end e img en hf ts o h : let f := layout_of img en hf in
  usize_bits (cfg e) = 64 -> serves (rd e) img -> describes_up_to img en hf ts o ->
  o + 12 <= types_hi f -> types_hi f < 2 ^ 32 -> header_at f o h -> types_hi f < o + 12 + checked_size h ->
  type_information_new e = Err InvalidTypeSectionOffset.
Proof.
  intros f H Hs (Hf & Hlo & Hr) H12 H32 Hh Hp. eapply (err_extra_fits e img H Hs en hf ts o); eauto. subst f. lia.
Qed.
Lemma extra_past_end_not_array e img en hf ts o h : let f := layout_of img en hf in
  usize_bits (cfg e) = 64 -> serves (rd e) img -> describes_up_to img en hf ts o ->
  o + 12 <= types_hi f -> types_hi f < 2 ^ 32 -> header_at f o h -> h_kind h <> KArray -> types_hi f < o + 12 + extra_size h ->
  type_information_new e = Err InvalidTypeSectionOffset.
Proof.
  intros f H Hs Hd H12 H32 Hh Hk Hp. eapply extra_past_end; eauto. unfold checked_size. destruct (h_kind h); try exact Hp. congruence.
Qed.
Lemma unknown_kind e img en hf ts o no info : let f := layout_of img en hf in
  usize_bits (cfg e) = 64 -> serves (rd e) img -> describes_up_to img en hf ts o ->
  o + 12 <= types_hi f -> types_hi f < 2 ^ 32 -> u32_at img en o no -> u32_at img en (o + 4) info ->
  info / 2 ^ 24 mod 32 = 0 \/ 19 < info / 2 ^ 24 mod 32 -> type_information_new e = Err InvalidBTFKind.
Proof.
  intros f H Hs (Hf & Hlo & Hr) H12 H32 Hn Hi Hk. eapply (err_kind e img H Hs en hf ts o); eauto. subst f. lia.
Qed.

(** ** C09, C10: which types carry a name *)
Lemma loaded_name_field e ti : usize_bits (cfg e) = 64 -> type_information_new e = Ok ti -> forall i t,
  i <> 0 -> from_id ti i = Some t -> name_of ti i = declared_name t.
Proof.
  intros H E i t Hi Ht. destruct (loaded_ids e ti H E) as (_ & _ & Hat & _). apply (Hat i t Hi) in Ht.
  pose proof (loaded_name_of e ti H E i) as N1.
  destruct (name_of ti i) as [n|].
  - destruct (proj1 (N1 n) eq_refl) as [[? _]|(t' & Ht' & Hd)]; [contradiction|].
    destruct Ht as [_ A], Ht' as [_ B]. congruence.
  - destruct (declared_name t) as [n|] eqn:D; [|reflexivity]. apply (N1 n). right. exists t. auto.
Qed.
Lemma payload_named f o h t : payload_at f o h t -> (exists n, declared_name t = Some n) <-> kind_has_name (h_kind h) = true /\ h_name_offset h <> 0.
Proof.
  intros Hp.
  assert (X : forall n, name_at f (h_name_offset h) n -> ((exists s, n = Some s) <-> h_name_offset h <> 0)).
  { intros [n|] Hn; [destruct Hn as [Hn _]; split; eauto|]. cbn in Hn. split; [intros [? ?]; discriminate|intros C; contradiction]. }
  unfold payload_at in Hp. unfold h_name in Hp.
  destruct (h_kind h); repeat match goal with H : exists _, _ |- _ => destruct H | H : _ /\ _ |- _ => destruct H end; subst; cbn [declared_name kind_has_name];
    try (split; [intros [? ?]; discriminate|intros [? _]; discriminate]);
    match goal with H : name_at f (h_name_offset h) ?n |- _ => specialize (X n H) end; cbn [nl_name nl_tid float_name]; rewrite X; tauto.
Qed.
Lemma loaded_payload e img ti : usize_bits (cfg e) = 64 -> serves (rd e) img -> type_information_new e = Ok ti ->
  forall i t h, type_at (types ti) i t -> type_header t = Some h -> exists f o, payload_at f o h t.
Proof.
  intros H Hs E i t h Ht Hh. destruct (loaded_records e img ti H Hs E) as (en & hf & _ & R). destruct (R i t Ht) as [o Ho].
  destruct (record_of_header _ _ _ _ _ _ _ Ho) as (h' & Eh & _ & Hp). rewrite Hh in Eh. injection Eh as <-. eauto.
Qed.
Lemma loaded_named_iff e img ti : usize_bits (cfg e) = 64 -> serves (rd e) img -> type_information_new e = Ok ti ->
  forall i t h, i <> 0 -> from_id ti i = Some t -> type_header t = Some h ->
    ((exists n, name_of ti i = Some n) <-> kind_has_name (h_kind h) = true /\ h_name_offset h <> 0).
Proof.
  intros H Hs E i t h Hi Ht Hh. rewrite (loaded_name_field e ti H E i t Hi Ht).
  destruct (loaded_ids e ti H E) as (_ & _ & Hat & _). apply (Hat i t Hi) in Ht.
  destruct (loaded_payload e img ti H Hs E i t h Ht Hh) as (f & o & Hp). exact (payload_named f o h t Hp).
Qed.
Lemma loaded_unnamed e img ti : usize_bits (cfg e) = 64 -> serves (rd e) img -> type_information_new e = Ok ti ->
  forall i t h, type_at (map snd (get ti)) i t -> type_header t = Some h ->
    kind_has_name (h_kind h) = false \/ h_name_offset h = 0 -> declared_name t = None /\ name_of ti i = None /\ forall n, id_of ti n <> Some i.
Proof.
  intros H Hs E i t h Ht Hh Hn. destruct (loaded_payload e img ti H Hs E i t h Ht Hh) as (f & o & Hp).
  pose proof (payload_named f o h t Hp) as P.
  assert (D : declared_name t = None).
  { destruct (declared_name t) as [n|]; [|reflexivity]. destruct (proj1 P (ex_intro _ n eq_refl)) as [A B]. destruct Hn; congruence. }
  assert (Hi : i <> 0) by (destruct Ht; lia).
  assert (N0 : name_of ti i = None).
  { rewrite (loaded_name_field e ti H E i t Hi); [exact D|]. apply (loaded_ids e ti H E); assumption. }
  split; [exact D|]. split; [exact N0|]. intros n C. apply (proj1 (loaded_names_ids e ti H E)) in C. congruence.
Qed.

(** ** C12 *)
Lemma latin1_ascii_iff bs s : latin1 bs s -> (s = bs <-> ascii bs).
Proof.
  intros H. split; [|apply latin1_ascii; exact H].
  destruct H as (parts & F & ->). intros E. unfold ascii.
  assert (G : (length bs <= length (concat parts))%nat /\ (length (concat parts) = length bs -> Forall (fun b => Byte.to_N b < 128) bs)).
  { clear E. induction F as [|b p bs ps Hb F [IH1 IH2]]; cbn [concat]; [split; [lia|constructor]|].
    rewrite app_length. destruct Hb as [[Hb ->]|(Hb & b1 & b2 & -> & _)]; cbn [length]; split; try lia; intros El.
    - constructor; [exact Hb|]. apply IH2. lia. }
  apply G. congruence.
Qed.
Lemma loaded_ascii_iff e img ti : usize_bits (cfg e) = 64 -> serves (rd e) img -> type_information_new e = Ok ti ->
  forall en hf, file_header_at img en hf -> forall i t k s bs, type_at (map snd (get ti)) i t -> name_in t (Some k) s ->
    raw_string (layout_of img en hf) k bs -> (s = bs <-> ascii bs).
Proof.
  intros H Hs E en hf Hfh i t k s bs Ht Hn Hraw. destruct (loaded_names e img ti H Hs E) as (en' & hf' & Hfh' & X).
  destruct (header_unique _ _ _ _ _ Hfh' Hfh) as [-> ->]. destruct (X i t (Some k) s Ht Hn) as (k' & bs' & Hk & Hraw' & Hl & _).
  rewrite (Hk k eq_refl) in Hraw'. rewrite (raw_string_unique _ _ _ _ Hraw Hraw'). apply latin1_ascii_iff. exact Hl.
Qed.

(** ** C19, C21, C22, C23: read at the record's position *)
Lemma loaded_info e img ti : usize_bits (cfg e) = 64 -> serves (rd e) img -> type_information_new e = Ok ti ->
  exists en hf, file_header_at img en hf /\ forall i t, type_at (map snd (get ti)) i t ->
    exists o h info, record_of img en hf (map snd (get ti)) i t o /\ type_header t = Some h /\ u32_at img en (o + 4) info /\
      1 <= info / 2 ^ 24 mod 32 <= 19 /\ kind_code (h_kind h) = info / 2 ^ 24 mod 32 /\
      h_vlen h = info mod 2 ^ 16 /\ h_kind_flag h = (2 ^ 31 <=? info).
Proof.
  intros H Hs E. destruct (loaded_records e img ti H Hs E) as (en & hf & Hfh & R). exists en, hf. split; [exact Hfh|].
  intros i t Ht. destruct (R i t Ht) as [o Ho]. destruct (record_of_header _ _ _ _ _ _ _ Ho) as (h & Eh & _).
  destruct (record_info _ _ _ _ _ _ _ _ Ho Eh) as (info & Hi & A & B & C). exists o, h, info.
  split; [exact Ho|]. split; [exact Eh|]. split; [exact Hi|]. rewrite <- A. split; [|split; [reflexivity|split; [exact B|exact C]]].
  destruct (h_kind h); cbn [kind_code]; lia.
Qed.
Lemma loaded_members e img ti : usize_bits (cfg e) = 64 -> serves (rd e) img -> type_information_new e = Ok ti ->
  exists en hf, file_header_at img en hf /\ forall i t, type_at (map snd (get ti)) i t ->
    exists o h, record_of img en hf (map snd (get ti)) i t o /\ type_header t = Some h /\
      forall j m, nth_error (members t) j = Some m ->
        exists w, u32_at img en (o + 12 + 12 * N.of_nat j + 8) w /\
          (h_kind_flag h = false -> w mod 8 = 0 /\ m_offset m = ByteOffset (w / 8)) /\
          (h_kind_flag h = true -> w < 2 ^ 24 -> w mod 8 = 0 -> m_offset m = ByteOffset (w / 8)) /\
          (h_kind_flag h = true -> 2 ^ 24 <= w \/ w mod 8 <> 0 -> m_offset m = BitOffsetAndSize (w mod 2 ^ 24) (w / 2 ^ 24)).
Proof.
  intros H Hs E. destruct (loaded_records e img ti H Hs E) as (en & hf & Hfh & R). exists en, hf. split; [exact Hfh|].
  intros i t Ht. destruct (R i t Ht) as [o Ho]. destruct (record_of_header _ _ _ _ _ _ _ Ho) as (h & Eh & _).
  exists o, h. split; [exact Ho|]. split; [exact Eh|]. intros j m Hm. exact (record_member _ _ _ _ _ _ _ _ _ _ Ho Eh Hm).
Qed.
Lemma loaded_ints e img ti : usize_bits (cfg e) = 64 -> serves (rd e) img -> type_information_new e = Ok ti ->
  exists en hf, file_header_at img en hf /\ forall i h d, type_at (map snd (get ti)) i (TInt h d) ->
    exists o w, record_of img en hf (map snd (get ti)) i (TInt h d) o /\
      u32_at img en (o + 8) (int_size d) /\ u32_at img en (o + 12) w /\
      int_signed d = N.testbit w 24 /\ int_char d = N.testbit w 25 /\ int_boolean d = N.testbit w 26 /\
      int_offset d = w / 2 ^ 16 mod 256 /\ int_bits d = w mod 256.
Proof.
  intros H Hs E. destruct (loaded_records e img ti H Hs E) as (en & hf & Hfh & R). exists en, hf. split; [exact Hfh|].
  intros i h d Ht. destruct (R i _ Ht) as [o Ho]. destruct (record_int _ _ _ _ _ _ _ _ Ho) as (A & w & B).
  exists o, w. split; [exact Ho|]. split; [exact A|exact B].
Qed.
Lemma loaded_enumerators e img ti : usize_bits (cfg e) = 64 -> serves (rd e) img -> type_information_new e = Ok ti ->
  exists en hf, file_header_at img en hf /\ forall i t n, type_at (map snd (get ti)) i t -> enumerator_width t = Some n ->
    exists o h, record_of img en hf (map snd (get ti)) i t o /\ type_header t = Some h /\
      forall j v, nth_error (enumerators t) j = Some v ->
        exists w, word_at img en n (o + 12 + (4 + N.of_nat n) * N.of_nat j + 4) w /\
          (h_kind_flag h = false -> nv_value v = Unsigned w) /\
          (h_kind_flag h = true -> exists z, nv_value v = Signed z /\ signed_value (8 * N.of_nat n) w z).
Proof.
  intros H Hs E. destruct (loaded_records e img ti H Hs E) as (en & hf & Hfh & R). exists en, hf. split; [exact Hfh|].
  intros i t n Ht Hn. destruct (R i t Ht) as [o Ho]. destruct (record_of_header _ _ _ _ _ _ _ Ho) as (h & Eh & _).
  exists o, h. split; [exact Ho|]. split; [exact Eh|]. intros j v Hv. exact (record_enumerator _ _ _ _ _ _ _ _ _ _ _ Ho Eh Hn Hv).
Qed.

(** ** C42 *)
Lemma loaded_growth e1 e2 i1 i2 t1 t2 : usize_bits (cfg e1) = 64 -> usize_bits (cfg e2) = 64 ->
  serves (rd e1) i1 -> serves (rd e2) i2 -> extends i1 i2 ->
  type_information_new e1 = Ok t1 -> type_information_new e2 = Ok t2 ->
  exists more, map snd (get t2) = map snd (get t1) ++ more /\
  (forall i t, from_id t1 i = Some t -> from_id t2 i = Some t) /\
  (forall i n, name_of t1 i = Some n -> name_of t2 i = Some n) /\
  (forall n, (forall t, In t more -> declared_name t <> Some n) -> id_of t2 n = id_of t1 n) /\
  (forall n t, In t more -> declared_name t = Some n -> n <> void_str ->
     exists i, id_of t2 n = Some i /\ N.of_nat (length (get t1)) < i).
Proof.
  intros H1 H2 S1 S2 X E1 E2.
  destruct (loaded_describes e1 i1 t1 H1 S1 E1) as [T1 D1]. destruct (loaded_describes e2 i2 t2 H2 S2 E2) as [T2 D2].
  destruct (loaded_types e1 t1 H1 E1) as (_ & F1 & _). destruct (loaded_types e2 t2 H2 E2) as (_ & F2 & _).
  destruct (grown i1 i2 _ _ X D1 D2) as [more Em]. exists more. split; [exact Em|].
  destruct (lookups_grow t1 t2 more T1 T2 F1 F2 Em) as (A & B & C & D). split; [exact A|]. split; [exact B|]. split; [exact C|].
  intros n t Hin Hd Hv. destruct (D n t Hin Hd Hv) as (i & Hi & L). exists i. split; [exact Hi|].
  unfold types in L. rewrite map_length in L. exact L.
Qed.
