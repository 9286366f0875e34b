(** * LoadProps: the loader and lookup properties, derived from Safety, Local,
    Exact, Errors and EncodeProof. *)
From Coq Require Import Lia ZifyBool ZifyNat ZifyN.
From Verif Require Import TypeInfo BaseFacts Spec Bits Maps Safety Local Exact Errors Encode EncodeProof.
From Coq Require Import Strings.Byte.

Definition build64 (checks : bool) : build := {| usize_bits := 64; overflow_checks := checks |}.
Definition build32 (checks : bool) : build := {| usize_bits := 32; overflow_checks := checks |}.
(** All types of a loaded file, in id order. *)
Definition types (ti : type_information) : list type_variant := map snd (get ti).
(** The requests a load makes, most recent first. *)
Definition requests (e : env) : list request := r_trace (snd (load e reader_new)).

(** ** C01 *)
Lemma load_total e : usize_bits (cfg e) = 64 ->
  (exists ti, type_information_new e = Ok ti) \/ (exists k, type_information_new e = Err k).
Proof.
  intros H. destruct (load_good e H) as [G _]. unfold type_information_new.
  destruct (fst (load e reader_new)); eauto; destruct G.
Qed.
Lemma load_profile rd : type_information_new {| cfg := build64 true; rd := rd |} = type_information_new {| cfg := build64 false; rd := rd |}.
Proof.
  unfold type_information_new. f_equal. symmetry.
  apply (load_like {| cfg := build64 true; rd := rd |} {| cfg := build64 false; rd := rd |}); try reflexivity.
  - left. split; [reflexivity|]. cbn. lia.
  - destruct (load_total {| cfg := build64 true; rd := rd |} eq_refl) as [[ti E]|[k E]]; unfold type_information_new in E; rewrite E; exact I.
Qed.

(** ** Loaded tables *)
Lemma loaded_types e ti : usize_bits (cfg e) = 64 -> type_information_new e = Ok ti ->
  ti = tables (types ti) /\ Forall type_fits (types ti) /\ N.of_nat (length (types ti)) < 2 ^ 32.
Proof.
  intros H E. destruct (load_good e H) as [G _]. unfold type_information_new in E. rewrite E in G.
  destruct G as [(ts & -> & Hf & Hl) _]. unfold types. rewrite types_of_tables. auto.
Qed.
Lemma loaded_describes e img ti : usize_bits (cfg e) = 64 -> serves (rd e) img -> type_information_new e = Ok ti ->
  ti = tables (types ti) /\ file_describes img (types ti).
Proof.
  intros H Hs E. apply (load_exact e img H Hs) in E. destruct E as (ts & -> & D). unfold types. rewrite types_of_tables. auto.
Qed.
(** every id was read from a record of the file *)
Lemma records_in f off ts stop : records_at f off ts stop -> forall t, In t ts -> exists o o', record_at f o t o'.
Proof. induction 1 as [|off t n ts stop Hin Hr _ IH]; intros t' H'; [destruct H'|]. destruct H' as [<-|H']; eauto. Qed.
Lemma type_at_In ts i t : type_at ts i t -> In t ts.
Proof. intros [_ H]. eapply nth_error_In. exact H. Qed.

Lemma load_iff e img : usize_bits (cfg e) = 64 -> serves (rd e) img -> forall ts,
  (exists ti, type_information_new e = Ok ti /\ types ti = ts) <-> file_describes img ts.
Proof.
  intros H Hs ts. split.
  - intros (ti & E & <-). eapply loaded_describes; eassumption.
  - intros D. exists (tables ts). split; [|apply types_of_tables]. apply (load_exact e img H Hs). eauto.
Qed.

(** ** C04, C05, C06 *)
Lemma load_encoded ver fl reserved en ds e :
  usize_bits (cfg e) = 64 -> serves (rd e) (encode_with ver fl reserved en ds) ->
  Forall decl_ok ds -> Forall (fun d => reserved_ok (reserved d)) ds -> len (encode_with ver fl reserved en ds) < 2 ^ 32 ->
  exists ti, type_information_new e = Ok ti /\
    map fst (get ti) = map N.of_nat (seq 1 (length ds)) /\
    map view (types ti) = map (fun d => Some (as_loaded en d)) ds.
Proof.
  intros H Hs Hok HR Hl. destruct (encode_describes ver fl reserved en ds Hok HR Hl) as (ts & D & V).
  exists (tables ts). split; [apply (load_exact e _ H Hs); eauto|]. split.
  - rewrite get_tables. assert (L : length ts = length ds) by (apply (f_equal (@length _)) in V; rewrite !map_length in V; exact V).
    rewrite map_fst_combine by (rewrite length_ids; reflexivity). rewrite L. reflexivity.
  - unfold types. rewrite types_of_tables. exact V.
Qed.
Lemma as_loaded_same en d : en = Little \/ no_enum64 d -> as_loaded en d = d.
Proof. destruct en; [reflexivity|]. intros [H|H]; [discriminate|]. destruct d; try reflexivity. destruct values; [reflexivity|destruct H]. Qed.
Lemma load_encoded_same ver fl reserved en ds e :
  usize_bits (cfg e) = 64 -> serves (rd e) (encode_with ver fl reserved en ds) ->
  Forall decl_ok ds -> Forall (fun d => reserved_ok (reserved d)) ds -> len (encode_with ver fl reserved en ds) < 2 ^ 32 ->
  en = Little \/ Forall no_enum64 ds ->
  exists ti, type_information_new e = Ok ti /\
    map fst (get ti) = map N.of_nat (seq 1 (length ds)) /\ map view (types ti) = map Some ds.
Proof.
  intros H Hs Hok HR Hl Hen. destruct (load_encoded _ _ _ _ _ _ H Hs Hok HR Hl) as (ti & E & K & V).
  exists ti. split; [exact E|]. split; [exact K|]. rewrite V. apply map_ext_in. intros d Hd. f_equal. apply as_loaded_same.
  destruct Hen as [->|Hen]; [auto|]. right. rewrite Forall_forall in Hen. auto.
Qed.

(** ** C07 *)
Lemma type_at_nth ts i t : type_at ts i t <-> i <> 0 /\ nth_error ts (N.to_nat (i - 1)) = Some t.
Proof. unfold type_at. replace (N.to_nat i - 1)%nat with (N.to_nat (i - 1)) by lia. split; intros [? ?]; split; auto; lia. Qed.
Lemma from_id_spec ti i t : ti = tables (types ti) ->
  (from_id ti i = Some t <-> (i = 0 /\ t = TVoid) \/ type_at (types ti) i t).
Proof.
  intros E. rewrite E at 1. rewrite from_id_tables, type_at_nth. destruct (N.eqb_spec i 0) as [->|Hi].
  - split; [intros [= <-]; auto|intros [[_ ->]|[? _]]; [reflexivity|contradiction]].
  - split; [auto|]. intros [[? _]|[_ ?]]; [contradiction|assumption].
Qed.
Lemma get_spec ti : ti = tables (types ti) -> get ti = combine (map N.of_nat (seq 1 (length (types ti)))) (types ti).
Proof. intros E. rewrite E at 1. apply get_tables. Qed.

(** ** C08 - C10 *)
Lemma declared_name_eq t : type_name t = match t with TVoid => Some void_str | _ => declared_name t end.
Proof. destruct t; reflexivity. Qed.
Lemma fits_declared t : type_fits t -> type_name t = declared_name t.
Proof. destruct t; [intros []|..]; reflexivity. Qed.
Lemma name_of_spec ti i n : ti = tables (types ti) -> Forall type_fits (types ti) ->
  (name_of ti i = Some n <-> (i = 0 /\ n = void_str) \/ carries (types ti) i n).
Proof.
  intros E Hf. rewrite E at 1. rewrite name_of_tables, from_id_tables. unfold carries.
  setoid_rewrite type_at_nth. destruct (N.eqb_spec i 0) as [->|Hi].
  - cbn. split; [intros [= <-]; auto|intros [[_ ->]|(t & [? _] & _)]; [reflexivity|contradiction]].
  - destruct (nth_error (types ti) (N.to_nat (i - 1))) as [t|] eqn:En.
    + rewrite fits_declared by (rewrite Forall_forall in Hf; eapply Hf, nth_error_In, En). split.
      * intros Hn. right. eauto.
      * intros [[? _]|(t' & [_ [= <-]] & Hn)]; [contradiction|exact Hn].
    + split; [discriminate|]. intros [[? _]|(t' & [_ ?] & _)]; [contradiction|discriminate].
Qed.
Lemma id_of_spec ti n i : ti = tables (types ti) -> Forall type_fits (types ti) ->
  (id_of ti n = Some i <->
   (n = void_str /\ i = 0) \/
   (n <> void_str /\ carries (types ti) i n /\ forall j, carries (types ti) j n -> j <= i)).
Proof.
  intros E Hf. unfold id_of. destruct (str_eqb n void_str) eqn:Ev.
  - apply str_eqb_eq in Ev. split; [intros [= <-]; auto|intros [[_ ->]|[? _]]; [reflexivity|contradiction]].
  - apply str_eqb_neq in Ev. rewrite E at 1. pose proof (name_map_tables (types ti) n) as H.
    assert (CN : forall j, carries (types ti) j n <-> j <> 0 /\ exists t, nth_error (types ti) (N.to_nat (j - 1)) = Some t /\ type_name t = Some n).
    { intros j. unfold carries. split.
      - intros (t & Ht & Hn). apply type_at_nth in Ht. destruct Ht as [Hz Ht]. split; [exact Hz|]. exists t. split; [exact Ht|].
        rewrite fits_declared; [exact Hn|]. rewrite Forall_forall in Hf. eapply Hf, nth_error_In, Ht.
      - intros (Hz & t & Ht & Hn). exists t. split; [apply type_at_nth; auto|].
        rewrite <- fits_declared; [exact Hn|]. rewrite Forall_forall in Hf. eapply Hf, nth_error_In, Ht. }
    destruct (bt_get str_compare n (name_to_id_map (tables (types ti)))) as [k|].
    + destruct H as (Hr & (t & Ht & Hn) & Hmax).
      assert (Ck : carries (types ti) k n) by (apply CN; split; [lia|eauto]).
      assert (Mk : forall j, carries (types ti) j n -> j <= k).
      { intros j Hj. apply CN in Hj. destruct Hj as (Hz & t' & Ht' & Hn'). specialize (Hmax _ _ Ht' Hn'). lia. }
      split.
      * intros [= <-]. right. auto.
      * intros [[? _]|(_ & Ci & Mi)]; [contradiction|]. f_equal. apply N.le_antisymm; auto.
    + split; [discriminate|]. intros [[? _]|(_ & Ci & _)]; [contradiction|].
      apply CN in Ci. destruct Ci as (_ & t & Ht & Hn). exfalso. eapply H; [eapply nth_error_In; exact Ht|exact Hn].
Qed.
Lemma carries_id ti n i : ti = tables (types ti) -> Forall type_fits (types ti) -> n <> void_str ->
  carries (types ti) i n -> exists j, id_of ti n = Some j /\ i <= j /\ carries (types ti) j n.
Proof.
  intros E Hf Hv Hc. destruct (id_of ti n) as [j|] eqn:Ej.
  - apply (id_of_spec ti n j E Hf) in Ej. destruct Ej as [[? _]|(_ & Cj & Mj)]; [contradiction|]. eauto.
  - exfalso. unfold id_of in Ej. destruct (str_eqb n void_str); [discriminate|].
    rewrite E in Ej. pose proof (name_map_tables (types ti) n) as H. rewrite Ej in H.
    destruct Hc as (t & Ht & Hn). apply type_at_In in Ht as HI. apply (H t HI).
    rewrite fits_declared; [exact Hn|]. rewrite Forall_forall in Hf. auto.
Qed.

(** ** C11 *)
Lemma latin1_utf8 bs s : latin1 bs s -> ~ In x00 bs -> valid_utf8 s /\ ~ In x00 s.
Proof.
  intros (parts & HF & ->) Hz. split.
  - exists parts. split; [|reflexivity]. clear Hz. induction HF as [|b p bs parts Hb _ IH]; constructor; [|exact IH].
    pose proof (bval_lt b) as Hlt. unfold bval in Hlt. destruct Hb as [[Hs ->]|(Hs & b1 & b2 & -> & E1 & E2)].
    + constructor. unfold in_bytes. lia.
    + apply utf8_2; unfold in_bytes; rewrite ?E1, ?E2; zify; Z.div_mod_to_equations; lia.
  - intros Hin. induction HF as [|b p bs parts Hb _ IH]; [destruct Hin|]. cbn in Hin. apply in_app_or in Hin.
    destruct Hin as [Hin|Hin]; [|apply IH; [intros X; apply Hz; right; exact X|exact Hin]].
    destruct Hb as [[Hs ->]|(Hs & b1 & b2 & -> & E1 & E2)].
    + destruct Hin as [->|[]]. apply Hz. left. reflexivity.
    + destruct Hin as [->|[->|[]]]; cbn in E1, E2; lia.
Qed.
Lemma latin1_ascii bs s : latin1 bs s -> ascii bs -> s = bs.
Proof.
  intros (parts & HF & ->) Ha. unfold ascii in Ha. induction HF as [|b p bs parts Hb _ IH]; [reflexivity|].
  inversion Ha as [|? ? Hb' Ha']; subst. cbn. destruct Hb as [[_ ->]|(Hs & _)]; [|lia]. cbn. f_equal. apply IH. exact Ha'.
Qed.
Lemma first_zero b1 b2 r1 r2 : ~ In x00 b1 -> ~ In x00 b2 -> b1 ++ x00 :: r1 = b2 ++ x00 :: r2 -> b1 = b2.
Proof.
  revert b2. induction b1 as [|x b1 IH]; intros [|y b2] H1 H2 E.
  - reflexivity.
  - injection E as <- _. exfalso. apply H2. left. reflexivity.
  - injection E as -> _. exfalso. apply H1. left. reflexivity.
  - injection E as -> E. f_equal. apply IH; [intros X; apply H1; right; exact X|intros X; apply H2; right; exact X|exact E].
Qed.
Lemma raw_string_unique f k b1 b2 : raw_string f k b1 -> raw_string f k b2 -> b1 = b2.
Proof.
  intros ((p1 & q1 & E1 & L1) & Z1 & _) ((p2 & q2 & E2 & L2) & Z2 & _).
  assert (L : length p1 = length p2) by lia. rewrite E1 in E2. destruct (app_inj_len _ _ _ _ E2 L) as [_ E].
  rewrite <- !app_assoc in E. eapply first_zero; eauto.
Qed.
Lemma string_at_facts f k s : string_at f k s ->
  exists bs, raw_string f k bs /\ latin1 bs s /\ (forall bs', raw_string f k bs' -> bs' = bs) /\
    valid_utf8 s /\ ~ In x00 s /\ (ascii bs -> s = bs).
Proof.
  intros (bs & Hr & Hl). exists bs. split; [exact Hr|]. split; [exact Hl|]. split.
  - intros bs' H. eapply raw_string_unique; eassumption.
  - destruct (latin1_utf8 bs s Hl) as [U Z]; [apply Hr|]. repeat split; auto. intros A. eapply latin1_ascii; eassumption.
Qed.

Lemma items_In {A} (item : N -> A -> Prop) o sz n l a : items_at item o sz n l -> In a l -> exists p, item p a.
Proof. intros [_ H] Hin. apply In_nth_error in Hin. destruct Hin as [i Hi]. eauto. Qed.
Lemma name_at_string f k n s : name_at f k n -> n = Some s -> string_at f k s.
Proof. intros H ->. apply H. Qed.
Lemma record_header f o t o' : record_at f o t o' -> exists h, type_header t = Some h /\ header_at f o h /\ payload_at f (o + 12) h t.
Proof.
  intros (h & Hh & Hp & _). exists h. split; [|auto]. unfold payload_at in Hp.
  destruct (h_kind h); repeat match goal with H : exists _, _ |- _ => destruct H end; 
    repeat match goal with H : _ /\ _ |- _ => destruct H end; subst; reflexivity.
Qed.
Lemma record_name_in f o t o' k s : record_at f o t o' -> name_in t k s ->
  match k with Some k => string_at f k s | None => exists k, string_at f k s end.
Proof.
  intros Hr Hn. destruct (record_header _ _ _ _ Hr) as (h & Eh & _ & Hp). unfold payload_at in Hp.
  destruct Hn as [h' s Eh' Hd | m s Hm Hd | p s Hm Hd | v Hv].
  - rewrite Eh in Eh'. injection Eh' as <-.
    destruct (h_kind h); repeat match goal with H : exists _, _ |- _ => destruct H end; 
    repeat match goal with H : _ /\ _ |- _ => destruct H end; subst; cbn in Hd; try discriminate; 
    eapply name_at_string; eassumption.
  - destruct (h_kind h); repeat match goal with H : exists _, _ |- _ => destruct H end; 
    repeat match goal with H : _ /\ _ |- _ => destruct H end; subst; try destruct Hm;
    match goal with H : items_at _ _ _ _ _ |- _ => destruct (items_In _ _ _ _ _ _ H Hm) as (q & _ & Hq & _) end;
    eapply name_at_string; eassumption.
  - destruct (h_kind h); repeat match goal with H : exists _, _ |- _ => destruct H end; 
    repeat match goal with H : _ /\ _ |- _ => destruct H end; subst; try destruct Hm;
    match goal with H : items_at _ _ _ _ _ |- _ => destruct (items_In _ _ _ _ _ _ H Hm) as (q & _ & Hq & _) end;
    eapply name_at_string; eassumption.
  - destruct (h_kind h); repeat match goal with H : exists _, _ |- _ => destruct H end; 
    repeat match goal with H : _ /\ _ |- _ => destruct H end; subst; try destruct Hv;
    match goal with H : items_at _ _ _ _ _ |- _ => destruct (items_In _ _ _ _ _ _ H Hv) as (q & (kk & _ & Hq) & _) end; eauto.
Qed.

(** where a loaded type comes from *)
Lemma located e img ti : usize_bits (cfg e) = 64 -> serves (rd e) img -> type_information_new e = Ok ti ->
  exists en hf, file_header_at img en hf /\
    forall i t, type_at (types ti) i t -> exists o o', record_at (layout_of img en hf) o t o'.
Proof.
  intros H Hs E. destruct (loaded_describes e img ti H Hs E) as [_ (en & hf & Hh & _ & stop & Hr & _)].
  exists en, hf. split; [exact Hh|]. intros i t Ht. eapply records_in; [exact Hr|]. eapply type_at_In. exact Ht.
Qed.

(** ** C13: any bad reference makes the load fail *)
Lemma bad_string_no_string f k x s : bad_string f k x -> string_at f k s -> False.
Proof.
  intros Hb (bs & (Hat & Hz & Hend & H32) & _). destruct Hb as [[_ [H|H]]|(_ & _ & bs' & Hat' & Hne & Hz' & Hlen)]; try lia.
  apply Hz'. destruct Hat as (p & q & E & L), Hat' as (p' & q' & E' & L').
  assert (LL : length p = length p') by lia. rewrite E in E'. destruct (app_inj_len _ _ _ _ E' LL) as [_ E2].
  rewrite <- app_assoc in E2. assert (LE : (length bs + 1 <= length bs')%nat) by lia.
  apply (f_equal (fun l => nth_error l (length bs))) in E2.
  rewrite nth_error_app2, Nat.sub_diag in E2 by lia. cbn in E2. rewrite nth_error_app1 in E2 by lia.
  symmetry in E2. eapply nth_error_In. exact E2.
Qed.

(** ** C14, C16: the requests of a load *)
(** inside the 24 bytes of the header *)
Definition header_range (off n : N) : Prop := 0 < n /\ off + n <= 24.
(** inside the type section (plus [slack] bytes) or the string section *)
Definition sections_range (slack tlo thi slo shi off n : N) : Prop :=
  0 < n /\ ((tlo <= off /\ off + n <= thi + slack) \/ (slo <= off /\ off + n <= shi)).

Lemma load_requests e : usize_bits (cfg e) = 64 ->
  exists sections header, requests e = sections ++ header /\
    Forall (fun q => header_range (q_off q) (q_len q)) header /\
    (sections = [] \/ exists fh r1, file_header_new e reader_new = (Ok fh, r1) /\
       Forall (fun q => sections_range 12
         (hdr_len fh + type_off fh) (hdr_len fh + type_off fh + type_len fh)
         (hdr_len fh + str_off fh) (hdr_len fh + str_off fh + str_len fh) (q_off q) (q_len q)) sections).
Proof.
  intros H. destruct (load_good e H) as [_ (t2 & t1 & E & H1 & _ & H2)]. exists t2, t1.
  split; [exact E|]. split; [exact H1|]. destruct H2 as [H2|(fh & r1 & Hf & _ & H2)]; [auto|]. right. exists fh, r1. split; [exact Hf|].
  eapply Forall_impl; [|exact H2]. intros q [Hn Hq]. split; [exact Hn|].
  destruct Hq as [(_ & ? & ?)|[(_ & ? & ?)|(_ & o & _ & ? & ? & ? & ?)]]; [left; lia|right; lia|left; lia].
Qed.

(** Among the 12 data bytes of an array record with vlen 0, whose header lies
    in the type section and which follows the records of [ts]. *)
Definition array_tail (f : layout) (ts : list type_variant) (o : N) : Prop :=
  records_at f (types_lo f) ts o /\ exists h, header_at f o h /\ h_kind h = KArray /\ h_vlen h = 0 /\ o + 12 <= types_hi f.
Definition tail_range (f : layout) (off n : N) : Prop :=
  exists ts o, array_tail f ts o /\ o + 12 <= off /\ off + n <= o + 24.
Definition exact_range (f : layout) (off n : N) : Prop :=
  0 < n /\ ((types_lo f <= off /\ off + n <= types_hi f) \/ (strings_lo f <= off /\ off + n <= strings_hi f) \/ tail_range f off n).

Lemma records_from f a ts b : records_at f a ts b -> a <= b.
Proof. intros H. induction H as [|o t nx ts stop _ (h & _ & _ & -> & _) _ IH]; lia. Qed.
Lemma records_add f a ts b t c : records_at f a ts b -> b < types_hi f -> record_at f b t c -> records_at f a (ts ++ [t]) c.
Proof. intros H Hb Ht. induction H; cbn; econstructor; eauto. constructor. Qed.
Lemma image_tracks e img fh en : usize_bits (cfg e) = 64 -> serves (rd e) img -> hdr_len fh + type_off fh < 2 ^ 32 -> type_len fh < 2 ^ 32 ->
  let f := layout_of img en (fields fh) in
  tracks e fh en (records_at f (types_lo f)) (fun o => exists ts p, array_tail f ts p /\ o = p + 12).
Proof.
  intros H Hs Hlo Hlen f. split; [constructor|].
  intros ts o r h r1 HJ Ho Hin Hr Eh.
  destruct (ex_header e img H Hs fh en o ltac:(lia) r Hr) as [X _]. destruct (X h r1 Eh) as [He (Hh & Hend & H32 & Ho1)]. clear X.
  split.
  - intros HK Hv. exists ts, o. split; [|reflexivity]. split; [exact HJ|]. exists h. auto.
  - intros t r2 E2. destruct (ex_parse_type e img H Hs fh en h (o + 12)) with (r := r1) as [Y _]; try lia.
    { destruct Hh as (_ & (info & _ & _ & -> & _) & _). apply N.mod_lt. discriminate. }
    { split; [exact Ho1|exact He]. }
    destruct (Y t r2 E2) as [_ (Hp & -> & Hc)]. eapply records_add; [exact HJ|exact Hin|].
    exists h. split; [exact Hh|]. split; [exact Hp|]. split; [reflexivity|]. split; [exact Hend|]. split; [exact Hc|exact H32].
Qed.
Lemma image_requests e img : usize_bits (cfg e) = 64 -> serves (rd e) img ->
  forall q, In q (requests e) -> header_range (q_off q) (q_len q) \/
    exists en hf, file_header_at img en hf /\ exact_range (layout_of img en hf) (q_off q) (q_len q).
Proof.
  intros H Hs q Hq.
  destruct (load_good_room e) with (J := fun fh ts o => forall en, file_header_at img en (fields fh) ->
        records_at (layout_of img en (fields fh)) (hdr_len fh + type_off fh) ts o)
      (T := fun fh o => forall en, file_header_at img en (fields fh) -> exists ts p, array_tail (layout_of img en (fields fh)) ts p /\ o = p + 12)
    as [_ (t2 & t1 & E & H1 & _ & H2)].
  - rewrite H. lia.
  - intros fh r1 _. split; rewrite H; lia.
  - intros fh r1 Eh Hlo. destruct (header_sound e img H Hs fh r1 Eh) as (en & [_ ->] & Hfh).
    assert (U : forall en', file_header_at img en' (fields fh) -> en' = en).
    { intros en' Hen'. apply (header_functional img en' (fields fh) en (fields fh) Hen' Hfh). }
    assert (Hlen : type_len fh < 2 ^ 32) by (destruct Hfh as (_ & _ & _ & Hl & _); exact (u32_at_lt _ _ _ _ Hl)).
    destruct (image_tracks e img fh en H Hs Hlo Hlen) as [J0 J1]. split.
    + intros en' Hen'. constructor.
    + intros ts o r h r1' HJ Ho Hin Hr Eh'. specialize (HJ en Hfh). destruct (J1 ts o r h r1' HJ Ho Hin Hr Eh') as [A B]. split.
      * intros HK Hv en' Hen'. rewrite (U en' Hen'). exact (A HK Hv).
      * intros t r2 E2 en' Hen'. rewrite (U en' Hen'). exact (B t r2 E2).
  - unfold requests in Hq. rewrite E in Hq. apply in_app_or in Hq.
    rewrite Forall_forall in H1. destruct Hq as [Hq|Hq]; [|left; exact (H1 q Hq)].
    destruct H2 as [->|(fh & r1 & Eh & _ & H2)]; [destruct Hq|]. right.
    destruct (header_sound e img H Hs fh r1 Eh) as (en & _ & Hfh). exists en, (fields fh). split; [exact Hfh|].
    rewrite Forall_forall in H2. destruct (H2 q Hq) as [Hn Hr]. split; [exact Hn|].
    destruct Hr as [[_ Hr]|[[_ Hr]|(_ & o & HT & _ & _ & Hr)]]; [left; exact Hr|right; left; exact Hr|].
    right. right. destruct (HT en Hfh) as (ts & p & Ha & ->). exists ts, p. split; [exact Ha|]. lia.
Qed.
Lemma load_failures e : usize_bits (cfg e) = 64 ->
  forall newer off n k older, requests e = newer ++ (off, n, Fails k) :: older ->
    newer = [] /\ type_information_new e = Err k.
Proof.
  intros H newer off n k older E. destruct (load_good e H) as [G _]. unfold requests in E. unfold type_information_new.
  destruct (fst (load e reader_new)) as [ti|k'|p|]; try destruct G.
  - rewrite E in H1. apply Forall_app in H1. destruct H1 as [_ H1]. inversion H1 as [|? ? HA]. destruct HA.
  - rewrite E in H0. apply Forall_app in H0. destruct H0 as [_ H1]. inversion H1 as [|? ? HA]. destruct HA.
  - destruct H0 as (q & rest & Eq & Hq & HA). rewrite E in Eq. destruct newer as [|q' newer].
    + injection Eq as <- <-. cbn in Hq. injection Hq as ->. auto.
    + injection Eq as -> <-. apply Forall_app in HA. destruct HA as [_ HA]. inversion HA as [|? ? HB]. destruct HB.
Qed.
Lemma load_ok_answered e ti : usize_bits (cfg e) = 64 -> type_information_new e = Ok ti ->
  Forall (fun q => exists bs, snd q = Bytes bs) (requests e).
Proof.
  intros H E. destruct (load_good e H) as [G _]. unfold type_information_new in E. rewrite E in G. destruct G as [_ G].
  eapply Forall_impl; [|exact G]. intros q Hq. unfold answered in Hq. destruct (snd q); [eauto|destruct Hq].
Qed.
(** the recorded answers are those of the Readable *)
Lemma requests_honest e newer off n a older : requests e = newer ++ (off, n, a) :: older -> rd e older off n = a.
Proof. apply (load_trace_honest e). Qed.

(** ** C17 *)
Lemma load_local e1 e2 : usize_bits (cfg e1) = 64 -> usize_bits (cfg e2) = 64 ->
  (forall newer off n a older, requests e1 = newer ++ (off, n, a) :: older -> rd e2 older off n = a) ->
  type_information_new e2 = type_information_new e1 /\ requests e2 = requests e1.
Proof.
  intros H1 H2 HA.
  assert (E : load {| cfg := build64 true; rd := rd e2 |} reader_new = load {| cfg := build64 true; rd := rd e1 |} reader_new /\
     forall e, usize_bits (cfg e) = 64 -> load e reader_new = load {| cfg := build64 true; rd := rd e |} reader_new).
  { assert (P : forall e, usize_bits (cfg e) = 64 -> load e reader_new = load {| cfg := build64 true; rd := rd e |} reader_new).
    { intros e H. apply (load_like {| cfg := build64 true; rd := rd e |} e); try (cbn; congruence).
      - left. split; [reflexivity|]. cbn. lia.
      - destruct (load_total {| cfg := build64 true; rd := rd e |} eq_refl) as [[ti E]|[k E]]; unfold type_information_new in E; rewrite E; exact I. }
    split; [|exact P].
    apply (load_like {| cfg := build64 true; rd := rd e1 |} {| cfg := build64 true; rd := rd e2 |}); try reflexivity.
    - left. split; [reflexivity|]. cbn. lia.
    - destruct (load_total {| cfg := build64 true; rd := rd e1 |} eq_refl) as [[ti E]|[k E]]; unfold type_information_new in E; rewrite E; exact I.
    - intros newer off n a older Eq. cbn [rd]. rewrite <- (P e1 H1) in Eq. rewrite (HA _ _ _ _ _ Eq).
      symmetry. exact (requests_honest e1 _ _ _ _ _ Eq). }
  destruct E as [E P]. unfold type_information_new, requests. rewrite (P e1 H1), (P e2 H2), E. auto.
Qed.

(** same bytes at the offsets from [lo] to [hi] *)
Definition same_bytes (i1 i2 : list byte) (lo hi : N) : Prop :=
  forall k, lo <= k -> k < hi -> nth_error i1 (N.to_nat k) = nth_error i2 (N.to_nat k).
Lemma same_slice i1 i2 lo n : same_bytes i1 i2 lo (lo + n) -> slice i1 lo n = slice i2 lo n.
Proof.
  intros H. unfold slice. assert (G : forall m, (m <= N.to_nat n)%nat -> firstn m (skipn (N.to_nat lo) i1) = firstn m (skipn (N.to_nat lo) i2)).
  { induction m as [|m IH]; intros Hm; [reflexivity|].
    assert (Hn : forall (l : list byte), nth_error (skipn (N.to_nat lo) l) m = nth_error l (N.to_nat (lo + N.of_nat m))).
    { intros l. replace (N.to_nat (lo + N.of_nat m)) with (N.to_nat lo + m)%nat by lia.
      clear. revert l. induction (N.to_nat lo) as [|k IHk]; intros l; [reflexivity|]. destruct l; [destruct m; reflexivity|apply IHk]. }
    assert (Hs : forall (l : list byte), firstn (S m) l = firstn m l ++ match nth_error l m with Some b => [b] | None => [] end).
    { clear. induction m as [|m IH]; intros [|b l]; cbn; try reflexivity. f_equal. apply IH. }
    rewrite !Hs, IH, !Hn by lia. rewrite H by lia. reflexivity. }
  apply G. lia.
Qed.
Lemma slice_length img off n : length (slice img off n) = Nat.min (N.to_nat n) (length img - N.to_nat off).
Proof. unfold slice. rewrite firstn_length, skipn_length. reflexivity. Qed.

Lemma readable_file_same i1 i2 tr off n : 0 < n -> same_bytes i1 i2 off (off + n) ->
  readable_file i2 tr off n = readable_file i1 tr off n.
Proof.
  intros Hn H. unfold readable_file. rewrite (same_slice _ _ _ _ H).
  assert (L : (off + n <=? N.of_nat (length i1)) = (off + n <=? N.of_nat (length i2))).
  { specialize (H (off + n - 1) ltac:(lia) ltac:(lia)).
    destruct (nth_error i1 (N.to_nat (off + n - 1))) eqn:E1.
    - assert (A1 : (N.to_nat (off + n - 1) < length i1)%nat) by (apply nth_error_Some; congruence).
      assert (A2 : (N.to_nat (off + n - 1) < length i2)%nat) by (apply nth_error_Some; congruence). lia.
    - symmetry in H. apply nth_error_None in E1, H. lia. }
  rewrite L. reflexivity.
Qed.

(** images that agree on the header and on the two sections *)
Lemma image_local c i1 i2 : usize_bits c = 64 ->
  same_bytes i1 i2 0 24 ->
  (forall en hf, file_header_at i1 en hf -> let f := layout_of i1 en hf in
     same_bytes i1 i2 (types_lo f) (types_hi f) /\ same_bytes i1 i2 (strings_lo f) (strings_hi f) /\
     forall ts o, array_tail f ts o -> same_bytes i1 i2 (types_hi f) (o + 24)) ->
  type_information_new {| cfg := c; rd := readable_file i2 |} = type_information_new {| cfg := c; rd := readable_file i1 |} /\
  requests {| cfg := c; rd := readable_file i2 |} = requests {| cfg := c; rd := readable_file i1 |}.
Proof.
  intros Hc Hh Hsec. apply load_local; try exact Hc. intros newer off n a older E.
  rewrite <- (requests_honest _ _ _ _ _ _ E). cbn [rd].
  destruct (image_requests {| cfg := c; rd := readable_file i1 |} i1 Hc (readable_file_serves i1) (off, n, a)) as [[Hn Hr]|(en & hf & Hfh & Hn & Hr)].
  - rewrite E. apply in_or_app. right. left. reflexivity.
  - cbn in Hn, Hr. apply readable_file_same; [exact Hn|]. intros k Hk1 Hk2. apply Hh; lia.
  - cbn in Hn. destruct (Hsec en hf Hfh) as (Ht & Hs' & Ha). apply readable_file_same; [exact Hn|]. unfold q_off, q_len in Hr. cbn [fst snd] in Hr.
    intros k Hk1 Hk2. destruct Hr as [Hr|[Hr|(ts & o & HA & Hr1 & Hr2)]]; [apply Ht; lia|apply Hs'; lia|].
    destruct (N.lt_ge_cases k (types_hi (layout_of i1 en hf))) as [Hlt|Hge].
    + apply Ht; [|exact Hlt]. destruct HA as [Hrec _]. pose proof (records_from _ _ _ _ Hrec). lia.
    + apply (Ha ts o HA); lia.
Qed.
