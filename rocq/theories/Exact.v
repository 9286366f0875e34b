(** * Exact: on an unchanging image, the loader accepts exactly what Spec.v
    describes, and returns exactly that. *)
From Coq Require Import Lia ZifyBool ZifyNat ZifyN.
From Verif Require Import TypeInfo BaseFacts Spec Bits Maps.
From Coq Require Import Strings.Byte.

(** ** bytes_at *)
Lemma app_inj_len {A} (l1 l2 r1 r2 : list A) :
  l1 ++ r1 = l2 ++ r2 -> length l1 = length l2 -> l1 = l2 /\ r1 = r2.
Proof.
  revert l2. induction l1 as [|x l1 IH]; intros [|y l2] E L; cbn in *; try discriminate; [auto|].
  injection E as -> E. destruct (IH l2 E) as [-> ->]; [lia|auto].
Qed.
Lemma bytes_at_inj img off b1 b2 :
  bytes_at img off b1 -> bytes_at img off b2 -> length b1 = length b2 -> b1 = b2.
Proof.
  intros (p1 & q1 & E1 & L1) (p2 & q2 & E2 & L2) L. rewrite E1 in E2.
  apply app_inj_len in E2; [|lia]. destruct E2 as [_ E2].
  apply app_inj_len in E2; [|exact L]. apply E2.
Qed.
Lemma bytes_at_length img off bs : bytes_at img off bs -> off + N.of_nat (length bs) <= N.of_nat (length img).
Proof. intros (p & q & -> & L). rewrite !app_length. lia. Qed.
Lemma bytes_at_slice img off n : off + n <= N.of_nat (length img) ->
  bytes_at img off (slice img off n) /\ N.of_nat (length (slice img off n)) = n.
Proof.
  intros H. unfold slice. split.
  - exists (firstn (N.to_nat off) img), (skipn (N.to_nat n) (skipn (N.to_nat off) img)). split.
    + rewrite firstn_skipn, firstn_skipn. reflexivity.
    + rewrite firstn_length. lia.
  - rewrite firstn_length, skipn_length. lia.
Qed.
Lemma bytes_at_app img off b1 b2 :
  bytes_at img off (b1 ++ b2) <-> bytes_at img off b1 /\ bytes_at img (off + N.of_nat (length b1)) b2.
Proof.
  split.
  - intros (p & q & E & L). split.
    + exists p, (b2 ++ q). rewrite E, <- !app_assoc. auto.
    + exists (p ++ b1), q. rewrite E, <- !app_assoc, app_length. split; [reflexivity|lia].
  - intros [H1 (p2 & q2 & E2 & L2)]. pose proof (bytes_at_length _ _ _ H1) as Hl.
    destruct H1 as (p1 & q1 & E1 & L1). exists p1, q2. split; [|exact L1].
    assert (p2 = p1 ++ b1).
    { rewrite E1, app_assoc in E2. apply app_inj_len in E2; [symmetry; apply E2|]. rewrite app_length. lia. }
    subst p2. rewrite E2, <- !app_assoc. reflexivity.
Qed.

(** ** integers *)
Lemma little_value_eq bs : little_value bs = from_le_bytes bs.
Proof. induction bs as [|b bs IH]; cbn; [reflexivity|]. rewrite IH. reflexivity. Qed.
Lemma from_le_bytes_app a b :
  from_le_bytes (a ++ b) = from_le_bytes a + 256 ^ N.of_nat (length a) * from_le_bytes b.
Proof.
  induction a as [|x a IH]; cbn [from_le_bytes app length].
  - change (N.of_nat 0) with 0. rewrite N.pow_0_r. lia.
  - rewrite IH, Nat2N.inj_succ, N.pow_succ_r'. nia.
Qed.
Lemma big_value_eq bs : big_value bs = from_be_bytes bs.
Proof.
  unfold big_value, from_be_bytes.
  assert (G : forall acc, fold_left (fun acc b => 256 * acc + Byte.to_N b) bs acc
               = acc * 256 ^ N.of_nat (length bs) + from_le_bytes (rev bs)).
  { induction bs as [|b bs IH]; intros acc; cbn [fold_left rev length from_le_bytes].
    - change (N.of_nat 0) with 0. rewrite N.pow_0_r. lia.
    - rewrite IH, from_le_bytes_app, rev_length. cbn [from_le_bytes]. unfold bval.
      rewrite Nat2N.inj_succ, N.pow_succ_r'. nia. }
  rewrite G. lia.
Qed.
Lemma value_eq en bs : value en bs = match en with Little => from_le_bytes bs | Big => from_be_bytes bs end.
Proof. destruct en; [apply little_value_eq|apply big_value_eq]. Qed.
Lemma value_lt en bs : value en bs < 256 ^ N.of_nat (length bs).
Proof. rewrite value_eq. destruct en; [apply from_le_bytes_lt|apply from_be_bytes_lt]. Qed.
Lemma word_at_lt img en n off v : word_at img en n off v -> v < 256 ^ N.of_nat n.
Proof. intros (bs & <- & _ & <-). apply value_lt. Qed.
Lemma u32_at_lt img en off v : u32_at img en off v -> v < 2 ^ 32.
Proof. apply word_at_lt. Qed.
Lemma word_at_fun img en n off v1 v2 : word_at img en n off v1 -> word_at img en n off v2 -> v1 = v2.
Proof.
  intros (b1 & L1 & H1 & <-) (b2 & L2 & H2 & <-). f_equal. eapply bytes_at_inj; eauto. congruence.
Qed.

(** ** Latin-1 *)
Lemma latin1_char_eq b out : latin1_char b out <-> out = utf8_of_latin1 b.
Proof.
  unfold latin1_char, utf8_of_latin1. fold (bval b).
  destruct (N.ltb_spec (bval b) 128) as [L|L].
  - split; [intros [[_ H]|[H _]]; [exact H|lia]|auto].
  - pose proof (bval_lt b). split.
    + intros [[H' _]|(_ & b1 & b2 & -> & H1 & H2)]; [lia|].
      change (Byte.to_N b1) with (bval b1) in H1. change (Byte.to_N b2) with (bval b2) in H2.
      f_equal; [|f_equal].
      * apply bval_inj. rewrite bval_byte_of, H1. symmetry. apply N.mod_small. lia.
      * apply bval_inj. rewrite bval_byte_of, H2. symmetry. apply N.mod_small. lia.
    + intros ->. right. split; [exact L|]. eexists _, _. split; [reflexivity|].
      change Byte.to_N with bval. rewrite !bval_byte_of. split; apply N.mod_small; lia.
Qed.
Lemma latin1_eq bs s : latin1 bs s <-> s = flat_map utf8_of_latin1 bs.
Proof.
  unfold latin1. rewrite flat_map_concat_map. split.
  - intros (parts & HF & ->). f_equal. induction HF as [|b out bs parts Hb HF IH]; [reflexivity|].
    cbn. f_equal; [apply latin1_char_eq; exact Hb|exact IH].
  - intros ->. exists (map utf8_of_latin1 bs). split; [|reflexivity].
    induction bs as [|b bs IH]; cbn; constructor; [apply latin1_char_eq; reflexivity|exact IH].
Qed.

(** ** Exact behaviour of a parser started at a given place *)
Definition placed (o : N) (en : endianness) (r : reader) : Prop := r_off r = o /\ r_end r = en.
Definition exactly {A} (o : N) (en : endianness) (m : M A) (S : A -> N -> Prop) : Prop :=
  forall r, placed o en r ->
    (forall a r', m r = (Ok a, r') -> r_end r' = en /\ S a (r_off r')) /\
    (forall a o', S a o' -> exists r', m r = (Ok a, r') /\ placed o' en r').

Section Rules.
  Context (o : N) (en : endianness).
  Lemma ex_iff {A} (m : M A) (S S' : A -> N -> Prop) :
    exactly o en m S -> (forall a o', S a o' <-> S' a o') -> exactly o en m S'.
  Proof.
    intros H HS r Hr. destruct (H r Hr) as [H1 H2]. split.
    - intros a r' E. destruct (H1 a r' E) as [He Hs]. split; [exact He|]. apply HS. exact Hs.
    - intros a o' Hs. apply H2. apply HS. exact Hs.
  Qed.
  Lemma ex_ext {A} (m m' : M A) S : (forall r, m r = m' r) -> exactly o en m' S -> exactly o en m S.
  Proof. intros E H r Hr. rewrite E. apply H. exact Hr. Qed.
  Lemma ex_ret {A} (a : A) : exactly o en (ret a) (fun x o' => x = a /\ o' = o).
  Proof.
    intros r [Ho He]. split.
    - intros a' r' E. injection E as <- <-. auto.
    - intros a' o' [-> ->]. exists r. split; [reflexivity|split; assumption].
  Qed.
  Lemma ex_fail {A} k : exactly o en (@fail A k) (fun _ _ => False).
  Proof. intros r Hr. split; [discriminate|intros ? ? []]. Qed.
  Lemma ex_lift {A} (x : outcome error_kind A) : exactly o en (lift x) (fun a o' => x = Ok a /\ o' = o).
  Proof.
    intros r [Ho He]. split.
    - intros a r' E. injection E as -> <-. auto.
    - intros a o' [-> ->]. exists r. split; [reflexivity|split; assumption].
  Qed.
  Lemma ex_get_offset : exactly o en get_offset (fun x o' => x = o /\ o' = o).
  Proof.
    intros r [Ho He]. split.
    - intros a r' E. injection E as <- <-. auto.
    - intros a o' [-> ->]. exists r. unfold get_offset. rewrite Ho. split; [reflexivity|split; assumption].
  Qed.
  Lemma ex_set_offset p : exactly o en (set_offset p) (fun _ o' => o' = p).
  Proof.
    intros r [Ho He]. split.
    - intros a r' E. injection E as <- <-. auto.
    - intros [] o' ->. exists (with_offset p r). split; [reflexivity|split; [reflexivity|exact He]].
  Qed.
  Lemma ex_bind {A B} (m : M A) (k : A -> M B) (S : A -> N -> Prop) (T : A -> N -> B -> N -> Prop) :
    exactly o en m S -> (forall a o', S a o' -> exactly o' en (k a) (T a o')) ->
    exactly o en (bind m k) (fun b o'' => exists a o', S a o' /\ T a o' b o'').
  Proof.
    intros Hm Hk r Hr. destruct (Hm r Hr) as [H1 H2]. split.
    - intros b r2 E. apply bind_Ok in E. destruct E as (a & r1 & E1 & E2).
      destruct (H1 a r1 E1) as [He Hs]. destruct (Hk a _ Hs r1) as [K1 _]; [split; auto|].
      destruct (K1 b r2 E2) as [He2 Ht]. split; [exact He2|]. eauto.
    - intros b o'' (a & o' & Hs & Ht). destruct (H2 a o' Hs) as (r1 & E1 & P1).
      destruct (Hk a o' Hs r1 P1) as [_ K2]. destruct (K2 b o'' Ht) as (r2 & E2 & P2).
      exists r2. split; [|exact P2]. rewrite (bind_eq _ _ _ _ _ E1). exact E2.
  Qed.
  (** the first part returns one value at one place *)
  Lemma ex_bind1 {A B} (m : M A) (k : A -> M B) a0 o0 (phi : Prop) (T : B -> N -> Prop) :
    exactly o en m (fun a o' => phi /\ a = a0 /\ o' = o0) -> (phi -> exactly o0 en (k a0) T) ->
    exactly o en (bind m k) (fun b o'' => phi /\ T b o'').
  Proof.
    intros Hm Hk. eapply ex_iff.
    - eapply ex_bind with (T := fun _ _ => T); [exact Hm|]. intros a o' (Hp & -> & ->). auto.
    - intros b o''. split; [intros (a & o' & (Hp & _ & _) & Ht); auto|]. intros [Hp Ht]. eauto 7.
  Qed.
  Lemma ex_inspect_err {A} (m : M A) h S : exactly o en m S -> exactly o en (inspect_err m h) S.
  Proof.
    intros H r Hr. destruct (H r Hr) as [H1 H2]. unfold inspect_err. split.
    - intros a r' E. destruct (m r) as [[x|k|p|] r1]; try discriminate. apply H1. exact E.
    - intros a o' Hs. destruct (H2 a o' Hs) as (r' & E & P). rewrite E. eauto.
  Qed.
End Rules.

Lemma exactly_o {A} o1 o2 en (m : M A) S : o1 = o2 -> exactly o1 en m S -> exactly o2 en m S.
Proof. intros ->. auto. Qed.

Lemma items_at_cons {A} (item : N -> A -> Prop) o sz n a l :
  items_at item o sz (N.of_nat (S n)) (a :: l) <-> item o a /\ items_at item (o + sz) sz (N.of_nat n) l.
Proof.
  unfold items_at. cbn [length]. split.
  - intros [L H]. split.
    + specialize (H O a eq_refl). replace (o + sz * N.of_nat 0) with o in H by lia. exact H.
    + split; [lia|]. intros i b E. specialize (H (S i) b E).
      replace (o + sz * N.of_nat (S i)) with (o + sz + sz * N.of_nat i) in H by lia. exact H.
  - intros [Ha [L H]]. split; [lia|]. intros [|i] b E.
    + cbn in E. injection E as <-. replace (o + sz * N.of_nat 0) with o by lia. exact Ha.
    + cbn in E. specialize (H i b E).
      replace (o + sz * N.of_nat (S i)) with (o + sz + sz * N.of_nat i) by lia. exact H.
Qed.

Lemma ex_repeat {A} en (m : M A) (sz : N) (item : N -> A -> Prop) n o :
  (forall i, (i < n)%nat ->
     exactly (o + sz * N.of_nat i) en m (fun a o' => item (o + sz * N.of_nat i) a /\ o' = o + sz * N.of_nat i + sz)) ->
  exactly o en (repeat_M n m) (fun l o' => items_at item o sz (N.of_nat n) l /\ o' = o + sz * N.of_nat n).
Proof.
  revert o. induction n as [|n IH]; intros o H; cbn [repeat_M].
  - eapply ex_iff; [apply ex_ret|]. intros l o'. split.
    + intros [-> ->]. split; [|lia]. split; [reflexivity|]. intros [|i] a E; discriminate.
    + intros [[L _] ->]. split; [|lia]. destruct l; [reflexivity|cbn in L; lia].
  - eapply ex_iff.
    + eapply ex_bind with (S := fun a o' => item o a /\ o' = o + sz)
        (T := fun a o' l o'' => exists l0, l = a :: l0 /\ items_at item (o + sz) sz (N.of_nat n) l0 /\ o'' = o + sz * N.of_nat (S n)).
      * specialize (H O ltac:(lia)). replace (o + sz * N.of_nat 0) with o in H by lia. exact H.
      * intros a o' [Ha ->]. eapply ex_iff.
        -- eapply ex_bind with (T := fun l o' l2 o'' => l2 = a :: l /\ o'' = o'); [apply IH|].
           ++ intros i Hi. specialize (H (S i) ltac:(lia)).
              replace (o + sz * N.of_nat (S i)) with (o + sz + sz * N.of_nat i) in H by lia. exact H.
           ++ intros l o' _. apply ex_ret.
        -- intros l o''. split.
           ++ intros (l0 & o1 & (Hi & ->) & -> & ->). exists l0. split; [reflexivity|]. split; [exact Hi|lia].
           ++ intros (l0 & -> & Hi & ->). exists l0, (o + sz + sz * N.of_nat n). split; [auto|]. split; [reflexivity|lia].
    + intros l o''. split.
      * intros (a & o' & (Ha & ->) & l0 & -> & Hi & ->). split; [|reflexivity]. apply items_at_cons. auto.
      * intros [Hi ->]. destruct l as [|a l]; [destruct Hi as [L _]; cbn in L; lia|].
        apply items_at_cons in Hi. destruct Hi as [Ha Hi]. exists a, (o + sz). eauto 8.
Qed.

(** the first part ends at a known place *)
Lemma ex_bindp {A B} o en (m : M A) (k : A -> M B) (phi : A -> Prop) o0 (T : A -> B -> N -> Prop) :
  exactly o en m (fun a o' => phi a /\ o' = o0) -> (forall a, phi a -> exactly o0 en (k a) (T a)) ->
  exactly o en (bind m k) (fun b o'' => exists a, phi a /\ T a b o'').
Proof.
  intros Hm Hk. eapply ex_iff.
  - eapply ex_bind with (T := fun a _ => T a); [exact Hm|]. intros a o' [Hp ->]. auto.
  - intros b o''. split.
    + intros (a & o' & (Hp & ->) & Ht). eauto.
    + intros (a & Hp & Ht). exists a, o0. auto.
Qed.
(** the first part is a fixed value that may be refused *)
Lemma ex_bind_opt {A B} o en k0 (x : option A) (k : A -> M B) (T : B -> N -> Prop) (a0 : A) (phi : Prop) :
  (forall a, x = Some a <-> phi /\ a = a0) -> (phi -> exactly o en (k a0) T) ->
  exactly o en (bind (lift (ok_or k0 x)) k) (fun b o'' => phi /\ T b o'').
Proof.
  intros Hx Hk. eapply ex_bind1 with (a0 := a0) (o0 := o); [|exact Hk].
  eapply ex_iff; [apply ex_lift|]. intros a o'. specialize (Hx a).
  destruct x as [b|]; cbn [ok_or]; split.
  - intros [E ->]. injection E as ->. destruct (proj1 Hx eq_refl) as [Hp ->]. auto.
  - intros (Hp & -> & ->). injection (proj2 Hx (conj Hp eq_refl)) as ->. auto.
  - intros [E _]. discriminate.
  - intros (Hp & -> & ->). discriminate (proj2 Hx (conj Hp eq_refl)).
Qed.
(** the first part always succeeds with a known value *)
Lemma ex_bind_ok {A B} o en (x : outcome error_kind A) a (k : A -> M B) (T : B -> N -> Prop) :
  x = Ok a -> exactly o en (k a) T -> exactly o en (bind (lift x) k) T.
Proof. intros -> H. exact H. Qed.
Lemma ex_bind_off {B} o en (k : N -> M B) (T : B -> N -> Prop) :
  exactly o en (k o) T -> exactly o en (bind get_offset k) T.
Proof.
  intros H r Hr. unfold bind, get_offset. destruct Hr as [Ho He]. rewrite Ho. apply H. split; assumption.
Qed.
Lemma ex_bind_set {B} o en p (k : unit -> M B) (T : B -> N -> Prop) :
  exactly p en (k tt) T -> exactly o en (bind (set_offset p) k) T.
Proof. intros H r [Ho He]. unfold bind, set_offset. apply H. split; [reflexivity|exact He]. Qed.
Lemma ex_none {A} o en k : exactly o en (@lift A (Err k)) (fun _ _ => False).
Proof. intros r Hr. split; [discriminate|intros ? ? []]. Qed.
Lemma ex_refused {A B} o en k0 (k : A -> M B) : exactly o en (bind (lift (Err k0)) k) (fun _ _ => False).
Proof. intros r Hr. split; [discriminate|intros ? ? []]. Qed.

Section Image.
  Context (e : env) (img : list byte).
  Hypothesis H64 : usize_bits (cfg e) = 64.
  Hypothesis Hs : serves (rd e) img.

  Lemma ex_read o en n : 0 < n -> o + n < 2 ^ 64 ->
    exactly o en (read e n) (fun bs o' => (bytes_at img o bs /\ N.of_nat (length bs) = n) /\ o' = o + n).
  Proof.
    intros Hn Hb r [Ho He]. unfold read. rewrite Ho.
    destruct (Hs (r_trace r) o n Hn Hb) as [Hin Hout].
    destruct (N.le_gt_cases (o + n) (N.of_nat (length img))) as [L|L].
    - destruct (Hin L) as (bs & -> & Hbs & Hl).
      unfold add_usize. rewrite H64, wrap_small by exact Hb.
      rewrite fit_exact by lia. split.
      + intros a r' E. injection E as <- <-. auto.
      + intros a o' ((Ha & La) & ->).
        assert (a = bs) as -> by (eapply bytes_at_inj; eauto; lia).
        eexists. split; [reflexivity|]. split; [reflexivity|exact He].
    - destruct (Hout L) as (k & ->). split; [discriminate|].
      intros a o' ((Ha & La) & ->). apply bytes_at_length in Ha. lia.
  Qed.
  Lemma ex_word o en n : 0 < n -> o + n < 2 ^ 64 ->
    exactly o en (read_uint e n) (fun v o' => word_at img en (N.to_nat n) o v /\ o' = o + n).
  Proof.
    intros Hn Hb. unfold read_uint.
    assert (T : exactly o en
       (x <- read e n ;; (fun r' => (Ok match r_end r' with Little => from_le_bytes x | Big => from_be_bytes x end, r')))
       (fun v o' => word_at img en (N.to_nat n) o v /\ o' = o + n)).
    { eapply ex_iff.
      - eapply ex_bindp with (T := fun bs v o' => v = value en bs /\ o' = o + n); [apply ex_read; assumption|].
        intros bs [Hbs Hl] r [Ho He]. cbn. rewrite He, <- value_eq. split.
        + intros a r' E. injection E as <- <-. auto.
        + intros a o' [-> ->]. exists r. split; [reflexivity|split; assumption].
      - intros v o'. unfold word_at. split.
        + intros (bs & (Hbs & Hl) & -> & ->). split; [|reflexivity]. exists bs. repeat split; [lia|exact Hbs].
        + intros ((bs & Hl & Hbs & <-) & ->). exists bs. repeat split; [exact Hbs|lia]. }
    exact T.
  Qed.
  Lemma ex_u32 o en : o + 4 < 2 ^ 64 ->
    exactly o en (read_u32 e) (fun v o' => u32_at img en o v /\ o' = o + 4).
  Proof. intros. apply (ex_word o en 4); lia. Qed.
  Lemma ex_u64 o en : o + 8 < 2 ^ 64 ->
    exactly o en (read_u64 e) (fun v o' => u64_at img en o v /\ o' = o + 8).
  Proof. intros. apply (ex_word o en 8); lia. Qed.
  Lemma ex_u8 o en : o + 1 < 2 ^ 64 ->
    exactly o en (read_u8 e) (fun b o' => bytes_at img o [b] /\ o' = o + 1).
  Proof.
    intros Hb. unfold read_u8. eapply ex_iff.
    - eapply ex_bindp with (T := fun bs b o' => bs = [b] /\ o' = o + 1); [apply ex_read; [lia|exact Hb]|].
      intros bs [Hbs Hl]. destruct bs as [|b [|? ?]]; cbn in Hl; try lia.
      eapply ex_iff; [apply ex_ret|]. intros x o'. split; intros [E1 ->]; split; congruence.
    - intros b o'. split.
      + intros (bs & (Hbs & _) & -> & ->). auto.
      + intros [Hbs ->]. exists [b]. auto.
  Qed.

  Section File.
    Context (fh : file_header) (en : endianness).
    Let hf := {| hf_hdr_len := hdr_len fh; hf_type_off := type_off fh; hf_type_len := type_len fh;
                 hf_str_off := str_off fh; hf_str_len := str_len fh |}.
    Let f := layout_of img en hf.
    Notation tlo := (hdr_len fh + type_off fh).
    Notation thi := (hdr_len fh + type_off fh + type_len fh).
    Notation slo := (hdr_len fh + str_off fh).
    Notation shi := (hdr_len fh + str_off fh + str_len fh).

    Lemma ex_string o k : exactly o en (parse_string e fh k) (fun s o' => string_at f k s /\ o' = o).
    Proof.
      unfold parse_string. eapply ex_iff.
      - eapply ex_bind_opt with (a0 := slo) (phi := slo < 2 ^ 32).
        { intros a. rewrite checked_Some. split; intros [? ?]; split; congruence || lia. }
        intros B1. eapply ex_bind_opt with (a0 := shi) (phi := shi < 2 ^ 32).
        { intros a. rewrite checked_Some. split; intros [? ?]; split; congruence || lia. }
        intros B2. eapply ex_bind_opt with (a0 := slo + k) (phi := slo + k < 2 ^ 32).
        { intros a. rewrite checked_Some. split; intros [? ?]; split; congruence || lia. }
        intros B3. instantiate (1 := fun s o' => string_at f k s /\ o' = o).
        destruct (N.leb_spec shi (slo + k)) as [Hge|Hlt].
        { eapply ex_iff; [apply ex_fail|]. intros s o'. split; [intros []|].
          intros ((bs & (Hb & Hn & Hend & _) & _) & _). cbn [f layout_of strings_lo strings_hi hf hf_hdr_len hf_str_off hf_str_len] in Hend. lia. }
        apply ex_bind_off, ex_bind_set.
        eapply ex_iff.
        + eapply ex_bind with
            (S := fun s p => exists bs, bytes_at img (slo + k) (bs ++ [x00]) /\ ~ In x00 bs /\
                     slo + k + N.of_nat (length bs) + 1 <= shi /\ s = flat_map utf8_of_latin1 bs /\
                     p = slo + k + N.of_nat (length bs) + 1)
            (T := fun s p s' o' => s' = s /\ o' = o).
          2:{ intros s p _. apply ex_bind_set, ex_ret. }
          assert (G : forall n acc y, shi - y < N.of_nat n -> y <= shi ->
             exactly y en (while_nat n (fun s0 : str =>
               o0 <- get_offset ;; o1 <- lift (add_usize (cfg e) o0 1) ;;
               (if shi <? o1 then fail InvalidString else
                 c <- inspect_err (read_u8 e) (with_offset o) ;;
                 (if bval c =? 0 then ret (inr s0) else ret (inl (push_char s0 c))))) acc)
              (fun s p => exists bs, bytes_at img y (bs ++ [x00]) /\ ~ In x00 bs /\
                  y + N.of_nat (length bs) + 1 <= shi /\ s = acc ++ flat_map utf8_of_latin1 bs /\
                  p = y + N.of_nat (length bs) + 1)).
          { induction n as [|n IH]; intros acc y Hm Hy; [lia|]. cbn [while_nat].
            eapply ex_iff.
            - eapply ex_bind with
                (S := fun (x : str + str) p => y + 1 <= shi /\ p = y + 1 /\
                       match x with inr s => s = acc /\ bytes_at img y [x00]
                       | inl s => exists c, c <> x00 /\ bytes_at img y [c] /\ s = acc ++ utf8_of_latin1 c end)
                (T := fun x p s p' => match x with
                    | inr s0 => s = s0 /\ p' = p
                    | inl s0 => exists bs, bytes_at img p (bs ++ [x00]) /\ ~ In x00 bs /\
                       p + N.of_nat (length bs) + 1 <= shi /\ s = s0 ++ flat_map utf8_of_latin1 bs /\
                       p' = p + N.of_nat (length bs) + 1 end).
              + apply ex_bind_off. eapply ex_bind_ok.
                { unfold add_usize. rewrite H64. apply wrap_small. lia. }
                destruct (N.ltb_spec shi (y + 1)) as [Hx|Hx].
                { eapply ex_iff; [apply ex_fail|]. intros x p. split; [intros []|]. intros (? & _). lia. }
                eapply ex_iff.
                * eapply ex_bindp with (T := fun c x p => p = y + 1 /\
                     match x with inr s => s = acc /\ c = x00 | inl s => c <> x00 /\ s = acc ++ utf8_of_latin1 c end).
                  { apply ex_inspect_err, ex_u8. lia. }
                  intros c Hc. destruct (N.eqb_spec (bval c) 0) as [Ec|Ec].
                  -- assert (c = x00) as -> by (apply bval_inj; exact Ec).
                     eapply ex_iff; [apply ex_ret|]. intros x p. split.
                     ++ intros [-> ->]. auto.
                     ++ intros [-> Hx']. destruct x as [s|s]; [destruct Hx'; contradiction|].
                        destruct Hx' as [-> _]. auto.
                  -- assert (c <> x00) by (intros ->; apply Ec; reflexivity).
                     eapply ex_iff; [apply ex_ret|]. intros x p. split.
                     ++ intros [-> ->]. auto.
                     ++ intros [-> Hx']. destruct x as [s|s]; [|destruct Hx'; contradiction].
                        destruct Hx' as [_ ->]. auto.
                * intros x p. split.
                  -- intros (c & Hc & -> & Hx'). split; [exact Hx|]. split; [reflexivity|].
                     destruct x as [s|s].
                     ++ destruct Hx' as [Hne ->]. eauto.
                     ++ destruct Hx' as [-> ->]. auto.
                  -- intros (_ & -> & Hx'). destruct x as [s|s].
                     ++ destruct Hx' as (c & Hne & Hc & ->). exists c. auto.
                     ++ destruct Hx' as (-> & Hc). exists x00. auto.
              + intros x p (Hle & -> & _). destruct x as [s|s]; [apply IH; lia|apply ex_ret].
            - intros s p. split.
              + intros (x & p0 & (Hle & -> & Hx) & HT). destruct x as [s0|s0].
                * destruct Hx as (c & Hne & Hc & ->). destruct HT as (bs & Hb & Hn & Hend & -> & ->).
                  exists (c :: bs). cbn [app length flat_map In].
                  split; [change (c :: bs ++ [x00]) with ([c] ++ (bs ++ [x00])); apply bytes_at_app; auto|].
                  split; [intros [E|E]; [apply Hne; exact E|apply Hn; exact E]|].
                  split; [lia|]. rewrite <- app_assoc. split; [reflexivity|lia].
                * destruct Hx as [-> Hc]. destruct HT as [-> ->]. exists []. cbn [app length flat_map In].
                  rewrite app_nil_r. repeat split; auto; lia.
              + intros (bs & Hb & Hn & Hend & -> & ->). destruct bs as [|c bs].
                * exists (inr acc), (y + 1). cbn [app length flat_map] in *. rewrite app_nil_r.
                  repeat split; auto; lia.
                * cbn [app length flat_map In] in *.
                  change (c :: bs ++ [x00]) with ([c] ++ (bs ++ [x00])) in Hb. apply bytes_at_app in Hb. destruct Hb as [Hc Hb].
                  exists (inl (acc ++ utf8_of_latin1 c)), (y + 1).
                  split; [split; [lia|]; split; [reflexivity|]; exists c; auto|].
                  exists bs. rewrite <- app_assoc. repeat split; auto; lia. }
          intros r Hr. rewrite while_M_nat. apply (G _ [] (slo + k)); [lia|lia|exact Hr].
        + intros s o'. split.
          * intros (s0 & p & (bs & H1 & H2 & H3 & H4 & _) & -> & ->). split; [|reflexivity].
            exists bs. split; [repeat split; assumption|]. apply latin1_eq. exact H4.
          * intros [(bs & (H1 & H2 & H3 & _) & H4) ->]. apply latin1_eq in H4.
            exists s, (slo + k + N.of_nat (length bs) + 1). split; [|auto]. exists bs. repeat split; auto.
      - intros s o'. cbn beta. split; [intros (_ & _ & _ & H); exact H|]. intros H. repeat split; try apply H.
        all: destruct H as [(bs & (H1 & H2 & H3 & H4) & _) _];
             cbn [f layout_of strings_lo strings_hi hf hf_hdr_len hf_str_off hf_str_len] in H3, H4; lia.
    Qed.

    Lemma ex_name o k : exactly o en (parse_name_opt e fh k) (fun n o' => name_at f k n /\ o' = o).
    Proof.
      unfold parse_name_opt. destruct (N.eqb_spec k 0) as [->|Hk]; cbn [negb].
      - eapply ex_iff; [apply ex_ret|]. intros n o'. split.
        + intros [-> ->]. split; reflexivity.
        + intros [Hn ->]. destruct n as [s|]; [destruct Hn as [Hn _]; contradiction|auto].
      - eapply ex_iff.
        + eapply ex_bindp with (T := fun s n o' => n = Some s /\ o' = o); [apply ex_string|]. intros s _. apply ex_ret.
        + intros n o'. split.
          * intros (s & Hs' & -> & ->). split; [split; assumption|reflexivity].
          * intros [Hn ->]. destruct n as [s|]; [|contradiction]. destruct Hn as [_ Hn]. eauto.
    Qed.

    Lemma ex_header o : o + 12 < 2 ^ 64 ->
      exactly o en (header_new e fh)
        (fun h o' => header_at f o h /\ o + 12 <= thi /\ thi < 2 ^ 32 /\ o' = o + 12).
    Proof.
      intros Hb. unfold header_new. eapply ex_iff.
      - eapply ex_bind_opt with (a0 := tlo) (phi := tlo < 2 ^ 32).
        { intros a. rewrite checked_Some. split; intros [? ?]; split; congruence || lia. }
        intros B1. eapply ex_bind_opt with (a0 := thi) (phi := thi < 2 ^ 32).
        { intros a. rewrite checked_Some. split; intros [? ?]; split; congruence || lia. }
        intros B2. apply ex_bind_off. eapply ex_bind_ok.
        { unfold add_usize, TYPE_HEADER_SIZE. rewrite H64. apply wrap_small. exact Hb. }
        instantiate (1 := fun h o' => header_at f o h /\ o + 12 <= thi /\ o' = o + 12).
        destruct (N.ltb_spec thi (o + 12)) as [Ht|Ht].
        { eapply ex_iff; [apply ex_fail|]. intros h o'. split; [intros []|]. intros (_ & ? & _). lia. }
        eapply ex_iff.
        + eapply ex_bindp; [apply ex_u32; lia|]. intros no Hno.
          eapply ex_bindp; [apply ex_u32; lia|]. intros info Hinfo.
          eapply ex_bindp with (o0 := o + 4 + 4) (phi := fun k => kind_code k = info / 2 ^ 24 mod 32).
          { eapply ex_iff; [apply ex_lift|]. intros k o'. cbn beta. rewrite kind_new_spec, field_kind. reflexivity. }
          intros k Hk. eapply ex_bindp; [apply ex_u32; lia|]. intros st Hst. apply ex_ret.
        + intros h o'. cbn beta. unfold header_at. cbn [f layout_of image order].
          replace (o + 4 + 4) with (o + 8) by lia. split.
          * intros (no & Hno & info & Hinfo & k & Hk & st & Hst & -> & ->).
            cbn [h_kind h_name_offset h_vlen h_kind_flag h_size_or_type].
            repeat split; try assumption; try lia. exists info. split; [exact Hinfo|]. split; [exact Hk|].
            split; [apply land_ffff|]. apply field_flag. eapply u32_at_lt. exact Hinfo.
          * intros ((Hno & (info & Hinfo & Hk & Hv & Hf) & Hst) & _ & ->).
            exists (h_name_offset h). split; [exact Hno|]. exists info. split; [exact Hinfo|].
            exists (h_kind h). split; [exact Hk|]. exists (h_size_or_type h). split; [exact Hst|].
            split; [|lia]. rewrite land_ffff, field_flag by (eapply u32_at_lt; exact Hinfo).
            rewrite <- Hv, <- Hf. destruct h; reflexivity.
      - intros h o'. cbn beta. split; [intros (? & ? & ? & ? & ?); auto|].
        intros (? & ? & ? & ?). split; [lia|]. auto.
    Qed.

    Lemma ex_define {D} K size (dn : env -> file_header -> header -> M D) h o n (S : D -> N -> Prop) :
      size (cfg e) h = Ok n -> h_kind h = K -> tlo <= o -> o <= thi -> thi < 2 ^ 32 -> n < 2 ^ 32 ->
      (o + n <= thi -> exactly o en (dn e fh h) S) ->
      exactly o en (define_type_new K size dn e fh h) (fun d o' => o + n <= thi /\ S d o').
    Proof.
      intros Hsize HK Hlo Hhi Hb Hn Hd. unfold define_type_new.
      replace (kind_eqb (h_kind h) K) with true by (rewrite HK; destruct K; reflexivity). cbn [negb].
      eapply ex_bind_ok; [exact Hsize|].
      destruct (N.ltb_spec 0 n) as [Hp|Hz].
      - apply ex_bind1 with (a0 := tt) (o0 := o); [|exact Hd].
        eapply ex_bind_ok; [apply wrap_small; lia|].
        eapply ex_bind_ok; [apply wrap_small; lia|].
        apply ex_bind_off.
        destruct (N.ltb_spec o tlo); [lia|].
        eapply ex_bind_ok; [unfold add_usize; rewrite H64; apply wrap_small; lia|].
        destruct (N.ltb_spec thi (o + n)).
        + eapply ex_iff; [apply ex_fail|]. intros a o'. split; [intros []|]. intros (? & _). lia.
        + eapply ex_iff; [apply ex_ret|]. intros a o'. split; [intros [-> ->]; auto|intros (_ & -> & ->); auto].
      - apply ex_bind1 with (a0 := tt) (o0 := o); [|exact Hd].
        eapply ex_iff; [apply ex_ret|]. intros a o'. split; [intros [-> ->]; repeat split; lia|intros (_ & -> & ->); auto].
    Qed.

    Lemma ex_member kf h o : h_kind_flag h = kf -> o + 12 < 2 ^ 64 ->
      exactly o en (parse_member e fh h) (fun m o' => member_at f kf o m /\ o' = o + 12).
    Proof.
      intros Hkf Hb. unfold parse_member. rewrite Hkf. eapply ex_iff.
      - eapply ex_bindp; [apply ex_u32; lia|]. intros no Hno.
        eapply ex_bindp; [apply ex_u32; lia|]. intros tid Htid.
        eapply ex_bindp; [apply ex_u32; lia|]. intros raw Hraw.
        eapply ex_bindp; [apply ex_name|]. intros name Hname.
        eapply ex_bindp with (o0 := o + 4 + 4 + 4) (phi := fun off => member_offset kf raw off).
        { eapply ex_iff; [apply ex_lift|]. intros x o'. cbn beta.
          rewrite decode_member_offset_spec by (eapply u32_at_lt; exact Hraw). reflexivity. }
        intros off Hoff. apply ex_ret.
      - intros m o'. unfold member_at. cbn [f layout_of image order]. replace (o + 4 + 4) with (o + 8) by lia. split.
        + intros (no & Hno & tid & Htid & raw & Hraw & name & Hname & off & Hoff & -> & ->).
          cbn [m_name_offset m_name m_tid m_offset]. split; [|lia]. eauto 8.
        + intros ((Hno & Hname & Htid & raw & Hraw & Hoff) & ->).
          do 5 (eexists; split; [eassumption|]). split; [destruct m; reflexivity|lia].
    Qed.

    Lemma ex_value32 o sg : o + 8 < 2 ^ 64 ->
      exactly o en (parse_named_value32 e fh sg) (fun nv o' => enumerator_at f 4 sg o nv /\ o' = o + 8).
    Proof.
      intros Hb. unfold parse_named_value32, read_i32. destruct sg.
      - eapply ex_iff.
        + eapply ex_bindp; [apply ex_u32; lia|]. intros no Hno.
          eapply ex_bindp; [apply ex_string|]. intros name Hname.
          eapply ex_bindp with (o0 := o + 4 + 4) (phi := fun z => exists w, u32_at img en (o + 4) w /\ signed_value 32 w z).
          { eapply ex_iff; [eapply ex_bindp; [apply ex_u32; lia|]; intros w Hw; apply ex_ret|].
            intros z o'. cbn beta. split.
            - intros (w & Hw & -> & ->). split; [|reflexivity]. exists w. split; [exact Hw|].
              apply as_signed_spec; [lia|]. eapply u32_at_lt. exact Hw.
            - intros ((w & Hw & Hz) & ->). exists w. split; [exact Hw|]. split; [|reflexivity].
              eapply signed_value_unique; [|exact Hz|]; [lia|].
              apply as_signed_spec; [lia|]. eapply u32_at_lt. exact Hw. }
          intros z Hz. apply ex_ret.
        + intros nv o'. unfold enumerator_at. cbn [f layout_of image order]. split.
          * intros (no & Hno & name & Hname & z & (w & Hw & Hz) & -> & ->). cbn [nv_name nv_value].
            split; [|lia]. split; [eauto|]. exists w. split; [exact Hw|]. exists z. split; [reflexivity|exact Hz].
          * intros (((no & Hno & Hname) & w & Hw & z & Hv & Hz) & ->).
            do 2 (eexists; split; [eassumption|]). exists z. split; [eauto|]. split; [|lia].
            destruct nv. cbn in Hv. subst. reflexivity.
      - eapply ex_iff.
        + eapply ex_bindp; [apply ex_u32; lia|]. intros no Hno.
          eapply ex_bindp; [apply ex_string|]. intros name Hname.
          eapply ex_bindp; [apply ex_u32; lia|]. intros w Hw. apply ex_ret.
        + intros nv o'. unfold enumerator_at. cbn [f layout_of image order]. split.
          * intros (no & Hno & name & Hname & w & Hw & -> & ->). cbn [nv_name nv_value].
            split; [|lia]. split; [eauto|]. exists w. split; [exact Hw|]. reflexivity.
          * intros (((no & Hno & Hname) & w & Hw & Hv) & ->).
            do 2 (eexists; split; [eassumption|]). exists w. split; [eauto|]. split; [|lia].
            destruct nv. cbn in Hv. subst. reflexivity.
    Qed.
    Lemma ex_value64 o sg : o + 12 < 2 ^ 64 ->
      exactly o en (parse_named_value64 e fh sg) (fun nv o' => enumerator_at f 8 sg o nv /\ o' = o + 12).
    Proof.
      intros Hb. unfold parse_named_value64, read_i64. destruct sg.
      - eapply ex_iff.
        + eapply ex_bindp; [apply ex_u32; lia|]. intros no Hno.
          eapply ex_bindp; [apply ex_string|]. intros name Hname.
          eapply ex_bindp with (o0 := o + 4 + 8) (phi := fun z => exists w, u64_at img en (o + 4) w /\ signed_value 64 w z).
          { eapply ex_iff; [eapply ex_bindp; [apply ex_u64; lia|]; intros w Hw; apply ex_ret|].
            intros z o'. cbn beta. split.
            - intros (w & Hw & -> & ->). split; [|reflexivity]. exists w. split; [exact Hw|].
              apply as_signed_spec; [lia|]. eapply word_at_lt in Hw. exact Hw.
            - intros ((w & Hw & Hz) & ->). exists w. split; [exact Hw|]. split; [|reflexivity].
              eapply signed_value_unique; [|exact Hz|]; [lia|].
              apply as_signed_spec; [lia|]. eapply word_at_lt in Hw. exact Hw. }
          intros z Hz. apply ex_ret.
        + intros nv o'. unfold enumerator_at. cbn [f layout_of image order]. split.
          * intros (no & Hno & name & Hname & z & (w & Hw & Hz) & -> & ->). cbn [nv_name nv_value].
            split; [|lia]. split; [eauto|]. exists w. split; [exact Hw|]. exists z. split; [reflexivity|exact Hz].
          * intros (((no & Hno & Hname) & w & Hw & z & Hv & Hz) & ->).
            do 2 (eexists; split; [eassumption|]). exists z. split; [eauto|]. split; [|lia].
            destruct nv. cbn in Hv. subst. reflexivity.
      - eapply ex_iff.
        + eapply ex_bindp; [apply ex_u32; lia|]. intros no Hno.
          eapply ex_bindp; [apply ex_string|]. intros name Hname.
          eapply ex_bindp; [apply ex_u64; lia|]. intros w Hw. apply ex_ret.
        + intros nv o'. unfold enumerator_at. cbn [f layout_of image order]. split.
          * intros (no & Hno & name & Hname & w & Hw & -> & ->). cbn [nv_name nv_value].
            split; [|lia]. split; [eauto|]. exists w. split; [exact Hw|]. reflexivity.
          * intros (((no & Hno & Hname) & w & Hw & Hv) & ->).
            do 2 (eexists; split; [eassumption|]). exists w. split; [eauto|]. split; [|lia].
            destruct nv. cbn in Hv. subst. reflexivity.
    Qed.
    Lemma ex_parameter o : o + 8 < 2 ^ 64 ->
      exactly o en (parse_parameter e fh) (fun p o' => parameter_at f o p /\ o' = o + 8).
    Proof.
      intros Hb. unfold parse_parameter. eapply ex_iff.
      - eapply ex_bindp; [apply ex_u32; lia|]. intros no Hno.
        eapply ex_bindp; [apply ex_u32; lia|]. intros tid Htid.
        eapply ex_bindp; [apply ex_name|]. intros name Hname. apply ex_ret.
      - intros p o'. unfold parameter_at. cbn [f layout_of image order]. split.
        + intros (no & Hno & tid & Htid & name & Hname & -> & ->). cbn. split; [auto|lia].
        + intros ((Hno & Hname & Htid) & ->). do 3 (eexists; split; [eassumption|]). split; [destruct p; reflexivity|lia].
    Qed.
    Lemma ex_variable o : o + 12 < 2 ^ 64 ->
      exactly o en (parse_variable e) (fun p o' => variable_at f o p /\ o' = o + 12).
    Proof.
      intros Hb. unfold parse_variable. eapply ex_iff.
      - eapply ex_bindp; [apply ex_u32; lia|]. intros a Ha.
        eapply ex_bindp; [apply ex_u32; lia|]. intros b Hb'.
        eapply ex_bindp; [apply ex_u32; lia|]. intros c Hc. apply ex_ret.
      - intros p o'. unfold variable_at. cbn [f layout_of image order]. replace (o + 4 + 4) with (o + 8) by lia. split.
        + intros (a & Ha & b & Hb' & c & Hc & -> & ->). cbn. split; [auto|lia].
        + intros ((Ha & Hb' & Hc) & ->). do 3 (eexists; split; [eassumption|]). split; [destruct p; reflexivity|lia].
    Qed.

    Lemma ex_rec {D} K size (dn : env -> file_header -> header -> M D) (mk : D -> type_variant) h o n x (phi : D -> Prop) :
      size (cfg e) h = Ok n -> h_kind h = K -> tlo <= o -> o <= thi -> thi < 2 ^ 32 -> n < 2 ^ 32 ->
      (o + n <= thi -> exactly o en (dn e fh h) (fun d o' => phi d /\ o' = o + x)) ->
      exactly o en (d <- define_type_new K size dn e fh h ;; ret (mk d))
        (fun t o' => (exists d, t = mk d /\ phi d) /\ o' = o + x /\ o + n <= thi).
    Proof.
      intros. eapply ex_iff.
      - eapply ex_bind with (T := fun d o' t o'' => t = mk d /\ o'' = o');
          [eapply ex_define; eassumption|]. intros d o' _. apply ex_ret.
      - intros t o'. cbn beta. split.
        + intros (d & o1 & (Hf & Hp & ->) & -> & ->). eauto.
        + intros ((d & -> & Hp) & -> & Hf). eauto 8.
    Qed.

    Lemma ex_link_data h o :
      exactly o en (link_data_new e fh h) (fun d o' => d = {| link_tid := h_size_or_type h |} /\ o' = o + 0).
    Proof.
      unfold link_data_new. eapply ex_iff; [apply ex_ret|]. intros d o'. rewrite N.add_0_r. reflexivity.
    Qed.
    Lemma ex_named_link_data h o :
      exactly o en (named_link_data_new e fh h)
        (fun d o' => (nl_tid d = h_size_or_type h /\ h_name f h (nl_name d)) /\ o' = o + 0).
    Proof.
      unfold named_link_data_new. eapply ex_iff.
      - eapply ex_bindp; [apply ex_name|]. intros n Hn. apply ex_ret.
      - intros d o'. rewrite N.add_0_r. unfold h_name. split.
        + intros (n & Hn & -> & ->). auto.
        + intros ((Ht & Hn) & ->). eexists. split; [exact Hn|]. split; [|reflexivity]. destruct d; cbn in *; congruence.
    Qed.
    Lemma ex_struct_data h o : o + h_vlen h * 12 <= thi -> thi < 2 ^ 32 ->
      exactly o en (struct_data_new e fh h)
        (fun d o' => (h_name f h (struct_name d) /\ struct_size d = h_size_or_type h /\
           items_at (member_at f (h_kind_flag h)) o 12 (h_vlen h) (member_list d)) /\ o' = o + 12 * h_vlen h).
    Proof.
      intros Hf Hb. unfold struct_data_new. eapply ex_iff.
      - eapply ex_bindp.
        { apply ex_repeat with (sz := 12) (item := member_at f (h_kind_flag h)).
          intros i Hi. apply ex_member; [reflexivity|lia]. }
        intros l Hl. eapply ex_bindp; [apply ex_name|]. intros n Hn. apply ex_ret.
      - intros d o'. rewrite N2Nat.id. unfold h_name. split.
        + intros (l & Hl & n & Hn & -> & ->). cbn. auto.
        + intros ((Hn & Hs' & Hl) & ->). exists (member_list d). split; [exact Hl|].
          eexists. split; [exact Hn|]. split; [destruct d; cbn in *; congruence|reflexivity].
    Qed.

    Lemma ex_parse_type h o :
      h_vlen h < 2 ^ 16 -> tlo <= o -> o <= thi -> thi < 2 ^ 32 ->
      exactly o en (parse_type (h_kind h) e fh h)
        (fun t o' => payload_at f o h t /\ o' = o + extra_size h /\ o + checked_size h <= thi).
    Proof.
      intros Hv Hlo Hhi Hb.
      assert (C12 : mul_usize (cfg e) (h_vlen h) 12 = @Ok error_kind _ (h_vlen h * 12))
        by (unfold mul_usize; rewrite H64; apply wrap_small; lia).
      assert (C8 : mul_usize (cfg e) (h_vlen h) 8 = @Ok error_kind _ (h_vlen h * 8))
        by (unfold mul_usize; rewrite H64; apply wrap_small; lia).
      enough (G : forall K, h_kind h = K -> exactly o en (parse_type K e fh h)
        (fun t o' => payload_at f o h t /\ o' = o + extra_size h /\ o + checked_size h <= thi)) by (apply G; reflexivity).
      intros K HK. unfold payload_at, extra_size, checked_size. unfold extra_size. rewrite HK. unfold parse_type.
      destruct K; cbn iota.
      - (* Int *)
        eapply ex_iff; [eapply ex_rec with (n := 4) (x := 4)
          (phi := fun d => exists w, h_name f h (int_name d) /\ int_size d = h_size_or_type h /\ u32_at img en o w /\ int_encoding w d);
          try reflexivity; try assumption; try lia|].
        + intros Hf. unfold int_data_new. eapply ex_iff.
          * eapply ex_bindp; [apply ex_u32; lia|]. intros w Hw.
            eapply ex_bindp; [apply ex_name|]. intros n Hn. apply ex_ret.
          * intros d o'. cbn beta zeta.
            split.
            -- intros (w & Hw & n & Hn & -> & ->). split; [|reflexivity]. exists w.
               cbn [int_name int_size]. repeat split; try assumption; cbn.
               ++ apply (encoding_bit w 0); [lia|reflexivity].
               ++ apply (encoding_bit w 1); [lia|reflexivity].
               ++ apply (encoding_bit w 2); [lia|reflexivity].
               ++ apply field_int_offset.
               ++ apply land_ff.
            -- intros ((w & Hn & Hsz & Hw & E1 & E2 & E3 & E4 & E5) & ->).
               exists w. split; [exact Hw|]. eexists. split; [exact Hn|]. split; [|reflexivity].
               rewrite (encoding_bit w 0), (encoding_bit w 1), (encoding_bit w 2), field_int_offset, land_ff by (lia || reflexivity).
               destruct d; cbn in *. subst. reflexivity.
        + intros t o'. cbn beta. split.
          * intros ((d & -> & w & H) & -> & Hf). repeat split; try lia. exists d, w. tauto.
          * intros ((d & w & -> & H) & -> & Hf). repeat split; try lia. exists d. split; [reflexivity|]. exists w. tauto.
      - eapply ex_iff; [eapply ex_rec with (n := 0) (x := 0); try reflexivity; try assumption; try lia; intros _; apply ex_link_data|].
        intros t o'. cbn beta. split; [intros ((d & -> & ->) & -> & Hf); auto|intros (-> & -> & Hf); eauto 8].
      - (* Array *)
        eapply ex_iff; [eapply ex_rec with (n := h_vlen h * 12) (x := 12)
          (phi := fun d => u32_at img en o (element_tid d) /\ u32_at img en (o + 4) (index_tid d) /\ u32_at img en (o + 8) (element_count d));
          try assumption; try lia|].
        + intros Hf. unfold array_data_new. eapply ex_iff.
          * eapply ex_bindp; [apply ex_u32; lia|]. intros a Ha.
            eapply ex_bindp; [apply ex_u32; lia|]. intros b Hb'.
            eapply ex_bindp; [apply ex_u32; lia|]. intros c Hc. apply ex_ret.
          * intros d o'. cbn beta. replace (o + 4 + 4) with (o + 8) by lia. split.
            -- intros (a & Ha & b & Hb' & c & Hc & -> & ->). cbn. split; [auto|lia].
            -- intros ((Ha & Hb' & Hc) & ->). do 3 (eexists; split; [eassumption|]). split; [destruct d; reflexivity|lia].
        + intros t o'. cbn beta. rewrite N.mul_comm. cbn [f layout_of image order]. split.
          * intros ((d & -> & H) & -> & Hf). repeat split; try lia. eauto.
          * intros ((d & -> & H) & -> & Hf). repeat split; try lia. eauto.
      - (* Struct *)
        eapply ex_iff; [eapply ex_rec with (n := h_vlen h * 12) (x := 12 * h_vlen h); try assumption; try lia; intros Hf; apply ex_struct_data; assumption|].
        intros t o'. cbn beta. rewrite (N.mul_comm (h_vlen h)). split.
        + intros ((d & -> & H) & -> & Hf). split; [|auto]. exists d. auto.
        + intros ((d & -> & H) & -> & Hf). split; [|auto]. exists d. auto.
      - (* Union *)
        eapply ex_iff; [eapply ex_rec with (n := h_vlen h * 12) (x := 12 * h_vlen h); try assumption; try lia; intros Hf; apply ex_struct_data; assumption|].
        intros t o'. cbn beta. rewrite (N.mul_comm (h_vlen h)). split.
        + intros ((d & -> & H) & -> & Hf). split; [|auto]. exists d. auto.
        + intros ((d & -> & H) & -> & Hf). split; [|auto]. exists d. auto.
      - (* Enum *)
        eapply ex_iff; [eapply ex_rec with (n := h_vlen h * 8) (x := 8 * h_vlen h)
          (phi := fun d => h_name f h (enum_name d) /\ enum_size d = h_size_or_type h /\ enum_signed d = h_kind_flag h /\
             items_at (enumerator_at f 4 (h_kind_flag h)) o 8 (h_vlen h) (named_value_list d)); try assumption; try lia|].
        + intros Hf. unfold enum_data_new. eapply ex_iff.
          * eapply ex_bindp.
            { apply ex_repeat with (sz := 8) (item := enumerator_at f 4 (h_kind_flag h)). intros i Hi. apply ex_value32. lia. }
            intros l Hl. eapply ex_bindp; [apply ex_name|]. intros n Hn. apply ex_ret.
          * intros d o'. cbn beta zeta. rewrite N2Nat.id. unfold h_name. split.
            -- intros (l & Hl & n & Hn & -> & ->). cbn. auto.
            -- intros ((Hn & Hs' & Hsg & Hl) & ->). exists (named_value_list d). split; [exact Hl|].
               eexists. split; [exact Hn|]. split; [destruct d; cbn in *; congruence|reflexivity].
        + intros t o'. cbn beta. rewrite (N.mul_comm (h_vlen h)). split.
          * intros ((d & -> & H) & -> & Hf). split; [|auto]. exists d. auto.
          * intros ((d & -> & H) & -> & Hf). split; [|auto]. exists d. auto.
      - eapply ex_iff; [eapply ex_rec with (n := 0) (x := 0); try reflexivity; try assumption; try lia; intros _; apply ex_named_link_data|].
        intros t o'. cbn beta. split; [intros ((d & -> & Ht & Hn) & -> & Hf); split; [|auto]; exists (nl_name d); split; [destruct d; cbn in *; congruence|exact Hn]
          |intros ((n & -> & Hn) & -> & Hf); split; [|auto]; eexists; split; [reflexivity|auto]].
      - eapply ex_iff; [eapply ex_rec with (n := 0) (x := 0); try reflexivity; try assumption; try lia; intros _; apply ex_named_link_data|].
        intros t o'. cbn beta. split; [intros ((d & -> & Ht & Hn) & -> & Hf); split; [|auto]; exists (nl_name d); split; [destruct d; cbn in *; congruence|exact Hn]
          |intros ((n & -> & Hn) & -> & Hf); split; [|auto]; eexists; split; [reflexivity|auto]].
      - eapply ex_iff; [eapply ex_rec with (n := 0) (x := 0); try reflexivity; try assumption; try lia; intros _; apply ex_link_data|].
        intros t o'. cbn beta. split; [intros ((d & -> & ->) & -> & Hf); auto|intros (-> & -> & Hf); eauto 8].
      - eapply ex_iff; [eapply ex_rec with (n := 0) (x := 0); try reflexivity; try assumption; try lia; intros _; apply ex_link_data|].
        intros t o'. cbn beta. split; [intros ((d & -> & ->) & -> & Hf); auto|intros (-> & -> & Hf); eauto 8].
      - eapply ex_iff; [eapply ex_rec with (n := 0) (x := 0); try reflexivity; try assumption; try lia; intros _; apply ex_link_data|].
        intros t o'. cbn beta. split; [intros ((d & -> & ->) & -> & Hf); auto|intros (-> & -> & Hf); eauto 8].
      - eapply ex_iff; [eapply ex_rec with (n := 0) (x := 0); try reflexivity; try assumption; try lia; intros _; apply ex_named_link_data|].
        intros t o'. cbn beta. split; [intros ((d & -> & Ht & Hn) & -> & Hf); split; [|auto]; exists (nl_name d); split; [destruct d; cbn in *; congruence|exact Hn]
          |intros ((n & -> & Hn) & -> & Hf); split; [|auto]; eexists; split; [reflexivity|auto]].
      - (* FuncProto *)
        eapply ex_iff; [eapply ex_rec with (n := h_vlen h * 8) (x := 8 * h_vlen h)
          (phi := fun d => return_tid d = h_size_or_type h /\ items_at (parameter_at f) o 8 (h_vlen h) (parameter_list d)); try assumption; try lia|].
        + intros Hf. unfold func_proto_data_new. eapply ex_iff.
          * eapply ex_bindp.
            { apply ex_repeat with (sz := 8) (item := parameter_at f). intros i Hi. apply ex_parameter. lia. }
            intros l Hl. apply ex_ret.
          * intros d o'. cbn beta zeta. rewrite N2Nat.id. split.
            -- intros (l & Hl & -> & ->). cbn. auto.
            -- intros ((Hs' & Hl) & ->). exists (parameter_list d). split; [exact Hl|].
               split; [destruct d; cbn in *; congruence|reflexivity].
        + intros t o'. cbn beta. rewrite (N.mul_comm (h_vlen h)). split.
          * intros ((d & -> & H) & -> & Hf). split; [|auto]. exists d. auto.
          * intros ((d & -> & H) & -> & Hf). split; [|auto]. exists d. auto.
      - (* Var *)
        eapply ex_iff; [eapply ex_rec with (n := 4) (x := 4)
          (phi := fun d => h_name f h (var_name d) /\ var_tid d = h_size_or_type h /\ u32_at img en o (linkage d) /\
              var_linkage_type d = (if linkage d =? 0 then LinkStatic else LinkGlobal));
          try reflexivity; try assumption; try lia|].
        + intros Hf. unfold var_data_new. eapply ex_iff.
          * eapply ex_bindp; [apply ex_u32; lia|]. intros w Hw.
            eapply ex_bindp; [apply ex_name|]. intros n Hn. apply ex_ret.
          * intros d o'. cbn beta. unfold h_name. split.
            -- intros (w & Hw & n & Hn & -> & ->). cbn. auto.
            -- intros ((Hn & Ht & Hw & Hl) & ->). do 2 (eexists; split; [eassumption|]).
               split; [destruct d; cbn in *; congruence|reflexivity].
        + intros t o'. cbn beta. split.
          * intros ((d & -> & H) & -> & Hf). split; [|auto]. exists d. auto.
          * intros ((d & -> & H) & -> & Hf). split; [|auto]. exists d. auto.
      - (* DataSec *)
        eapply ex_iff; [eapply ex_rec with (n := h_vlen h * 12) (x := 12 * h_vlen h)
          (phi := fun d => h_name f h (ds_name d) /\ ds_size d = h_size_or_type h /\ items_at (variable_at f) o 12 (h_vlen h) (variable_list d)); try assumption; try lia|].
        + intros Hf. unfold data_sec_data_new. eapply ex_iff.
          * eapply ex_bindp.
            { apply ex_repeat with (sz := 12) (item := variable_at f). intros i Hi. apply ex_variable. lia. }
            intros l Hl. eapply ex_bindp; [apply ex_name|]. intros n Hn. apply ex_ret.
          * intros d o'. cbn beta zeta. rewrite N2Nat.id. unfold h_name. split.
            -- intros (l & Hl & n & Hn & -> & ->). cbn. auto.
            -- intros ((Hn & Hs' & Hl) & ->). exists (variable_list d). split; [exact Hl|].
               eexists. split; [exact Hn|]. split; [destruct d; cbn in *; congruence|reflexivity].
        + intros t o'. cbn beta. rewrite (N.mul_comm (h_vlen h)). split.
          * intros ((d & -> & H) & -> & Hf). split; [|auto]. exists d. auto.
          * intros ((d & -> & H) & -> & Hf). split; [|auto]. exists d. auto.
      - (* Float *)
        eapply ex_iff; [eapply ex_rec with (n := 0) (x := 0)
          (phi := fun d => float_size d = h_size_or_type h /\ h_name f h (float_name d)); try reflexivity; try assumption; try lia|].
        + intros Hf. unfold float_data_new. eapply ex_iff.
          * eapply ex_bindp; [apply ex_name|]. intros n Hn. apply ex_ret.
          * intros d o'. rewrite N.add_0_r. unfold h_name. split.
            -- intros (n & Hn & -> & ->). cbn. auto.
            -- intros ((Ht & Hn) & ->). eexists. split; [exact Hn|]. split; [|reflexivity]. destruct d; cbn in *; congruence.
        + intros t o'. cbn beta. split.
          * intros ((d & -> & Ht & Hn) & -> & Hf); split; [|auto]. exists (float_name d). split; [destruct d; cbn in *; congruence|exact Hn].
          * intros ((n & -> & Hn) & -> & Hf). split; [|auto]. eexists; split; [reflexivity|auto].
      - (* DeclTag *)
        eapply ex_iff; [eapply ex_rec with (n := 4) (x := 4)
          (phi := fun d => h_name f h (dt_name d) /\ dt_tid d = h_size_or_type h /\ u32_at img en o (component_index d));
          try reflexivity; try assumption; try lia|].
        + intros Hf. unfold decl_tag_data_new. eapply ex_iff.
          * eapply ex_bindp; [apply ex_u32; lia|]. intros w Hw.
            eapply ex_bindp; [apply ex_name|]. intros n Hn. apply ex_ret.
          * intros d o'. cbn beta. unfold h_name. split.
            -- intros (w & Hw & n & Hn & -> & ->). cbn. auto.
            -- intros ((Hn & Ht & Hw) & ->). do 2 (eexists; split; [eassumption|]).
               split; [destruct d; cbn in *; congruence|reflexivity].
        + intros t o'. cbn beta. split.
          * intros ((d & -> & H) & -> & Hf). split; [|auto]. exists d. auto.
          * intros ((d & -> & H) & -> & Hf). split; [|auto]. exists d. auto.
      - eapply ex_iff; [eapply ex_rec with (n := 0) (x := 0); try reflexivity; try assumption; try lia; intros _; apply ex_named_link_data|].
        intros t o'. cbn beta. split; [intros ((d & -> & Ht & Hn) & -> & Hf); split; [|auto]; exists (nl_name d); split; [destruct d; cbn in *; congruence|exact Hn]
          |intros ((n & -> & Hn) & -> & Hf); split; [|auto]; eexists; split; [reflexivity|auto]].
      - (* Enum64 *)
        eapply ex_iff; [eapply ex_rec with (n := h_vlen h * 12) (x := 12 * h_vlen h)
          (phi := fun d => h_name f h (enum_name d) /\ enum_size d = h_size_or_type h /\ enum_signed d = h_kind_flag h /\
             items_at (enumerator_at f 8 (h_kind_flag h)) o 12 (h_vlen h) (named_value_list d)); try assumption; try lia|].
        + intros Hf. unfold enum64_data_new. eapply ex_iff.
          * eapply ex_bindp.
            { apply ex_repeat with (sz := 12) (item := enumerator_at f 8 (h_kind_flag h)). intros i Hi. apply ex_value64. lia. }
            intros l Hl. eapply ex_bindp; [apply ex_name|]. intros n Hn. apply ex_ret.
          * intros d o'. cbn beta zeta. rewrite N2Nat.id. unfold h_name. split.
            -- intros (l & Hl & n & Hn & -> & ->). cbn. auto.
            -- intros ((Hn & Hs' & Hsg & Hl) & ->). exists (named_value_list d). split; [exact Hl|].
               eexists. split; [exact Hn|]. split; [destruct d; cbn in *; congruence|reflexivity].
        + intros t o'. cbn beta. rewrite (N.mul_comm (h_vlen h)). split.
          * intros ((d & -> & H) & -> & Hf). split; [|auto]. exists d. auto.
          * intros ((d & -> & H) & -> & Hf). split; [|auto]. exists d. auto.
    Qed.

    (** one round of the loop, and the loop *)
    Definition load_body (tse : N) (st : load_state) : M (load_state + type_information) :=
      o <- get_offset ;;
      if o <? tse then
        h <- header_new e fh ;;
        t <- parse_type (h_kind h) e fh h ;;
        let tid := tid_generator st in
        next <- lift (add_u32 (cfg e) tid 1) ;;
        ret (inl {| tid_generator := next; maps := add_type (maps st) tid t |})
      else ret (inr (maps st)).

    Lemma header_vlen o h : header_at f o h -> h_vlen h < 2 ^ 16.
    Proof. intros (_ & (info & _ & _ & -> & _) & _). apply N.mod_lt. discriminate. Qed.

    (** a record parsed at [o] *)
    Lemma ex_record o : tlo <= o -> o <= thi -> o + 12 < 2 ^ 64 ->
      exactly o en (h <- header_new e fh ;; parse_type (h_kind h) e fh h)
        (fun t o' => record_at f o t o').
    Proof.
      intros Hlo Hhi Hb. eapply ex_iff.
      - eapply ex_bind with
          (T := fun h o1 t o' => payload_at f (o + 12) h t /\ o' = o + 12 + extra_size h /\ o + 12 + checked_size h <= thi);
          [apply ex_header; exact Hb|].
        intros h o1 (Hh & Hend & H32 & ->). apply ex_parse_type; try lia. eapply header_vlen. exact Hh.
      - intros t o'. unfold record_at. split.
        + intros (h & o1 & (Hh & Hend & H32 & ->) & Hp & -> & Hc). exists h. auto 8.
        + intros (h & Hh & Hp & -> & Hend & Hc & H32). exists h, (o + 12). auto 8.
    Qed.

    Lemma record_stop o t o' : record_at f o t o' -> o + 12 <= o' /\ o' <= thi + 12.
    Proof.
      intros (h & Hh & Hp & -> & Hend & Hc & H32). unfold checked_size in Hc.
      change (types_hi f) with thi in *.
      destruct (h_kind h) eqn:EK; try lia. unfold extra_size in *. rewrite EK in *. lia.
    Qed.

    Lemma ex_loop n : forall ts0 st o,
      thi - o < N.of_nat n -> tlo <= o -> o <= thi + 12 -> thi < 2 ^ 33 ->
      tid_generator st = 1 + N.of_nat (length ts0) -> maps st = tables ts0 -> 12 * N.of_nat (length ts0) <= o - tlo ->
      exactly o en (while_nat n (load_body thi) st)
        (fun ti o' => exists ts, ti = tables (ts0 ++ ts) /\ records_at f o ts o' /\ thi <= o').
    Proof.
      induction n as [|n IH]; intros ts0 st o Hm Hlo Hhi H33 Htid Hmaps Hlen; [lia|].
      cbn [while_nat]. eapply ex_iff.
      - eapply ex_bind with
          (S := fun x o' => match x with
              | inl st' => o < thi /\ exists t, record_at f o t o' /\
                   st' = {| tid_generator := tid_generator st + 1; maps := add_type (maps st) (tid_generator st) t |}
              | inr ti => thi <= o /\ o' = o /\ ti = maps st end)
          (T := fun x o1 ti o' => match x with
              | inl st' => exists t ts, st' = {| tid_generator := tid_generator st + 1; maps := add_type (maps st) (tid_generator st) t |} /\
                  ti = tables ((ts0 ++ [t]) ++ ts) /\ records_at f o1 ts o' /\ thi <= o'
              | inr ti' => ti = ti' /\ o' = o1 end).
        + unfold load_body. apply ex_bind_off. destruct (N.ltb_spec o thi) as [Hin|Hout].
          * eapply ex_iff.
            -- eapply ex_ext with (m' := t <- (h <- header_new e fh ;; parse_type (h_kind h) e fh h) ;;
                     next <- lift (add_u32 (cfg e) (tid_generator st) 1) ;;
                    ret (@inl load_state type_information {| tid_generator := next; maps := add_type (maps st) (tid_generator st) t |})).
               { intros r0. unfold bind. destruct (header_new e fh r0) as [[h|k|p|] r1]; reflexivity. }
               eapply ex_bind with (T := fun t o1 x o' => x = inl {| tid_generator := tid_generator st + 1; maps := add_type (maps st) (tid_generator st) t |} /\ o' = o1);
                 [apply ex_record; lia|].
               intros t o1 Hrec. assert (thi < 2 ^ 32) by (destruct Hrec as (h & _ & _ & _ & _ & _ & ?); assumption).
               eapply ex_bind_ok; [apply wrap_small; lia|]. apply ex_ret.
            -- intros x o'. cbn beta. split.
               ++ intros (t & o1 & Hrec & -> & ->). split; [exact Hin|]. eauto.
               ++ destruct x as [st'|ti]; [|intros (? & _); lia].
                  intros (_ & t & Hrec & ->). exists t, o'. auto.
          * eapply ex_iff; [apply ex_ret|]. intros x o'. split.
            -- intros [-> ->]. auto.
            -- destruct x as [st'|ti]; [intros (? & _); lia|]. intros (_ & -> & ->). auto.
        + intros [st'|ti] o1.
          * intros (Hin & t & Hrec & ->). pose proof (record_stop _ _ _ Hrec).
            eapply ex_iff; [apply (IH (ts0 ++ [t]))|]; cbn [tid_generator maps]; rewrite ?app_length; cbn [length]; try lia.
            -- rewrite tables_snoc, Hmaps, Htid. reflexivity.
            -- intros ti o'. split.
               ++ intros (ts & -> & Hr & Ho). eauto 8.
               ++ intros (t' & ts & E & -> & Hr & Ho). exists ts. split; [|auto].
                  (* the state determines the type *)
                  injection E as E. rewrite Hmaps, Htid, <- !tables_snoc in E. apply tables_inj in E.
                  apply app_inv_head in E. congruence.
          * intros (Hout & -> & ->). apply ex_ret.
      - intros ti o'. split.
        + intros ([st'|ti'] & o1 & HS & HT).
          * destruct HS as (Hin & t & Hrec & ->). destruct HT as (t' & ts & E & -> & Hr & Ho).
            injection E as E. rewrite Hmaps, Htid, <- !tables_snoc in E. apply tables_inj in E.
            apply app_inv_head in E. injection E as <-.
            exists (t :: ts). rewrite <- app_assoc. split; [reflexivity|]. split; [|exact Ho].
            econstructor; eassumption.
          * destruct HS as (Hout & -> & ->). destruct HT as [-> ->]. exists []. rewrite app_nil_r.
            repeat split; [exact Hmaps|constructor|exact Hout].
        + intros (ts & -> & Hr & Ho). inversion Hr as [|o0 t next ts' stop Hin Hrec Hrest]; subst.
          * exists (inr (maps st)), o'. rewrite app_nil_r. split; [repeat split; assumption|]. split; [congruence|reflexivity].
          * exists (inl {| tid_generator := tid_generator st + 1; maps := add_type (maps st) (tid_generator st) t |}), next.
            split; [split; [exact Hin|]; eauto|]. exists t, ts'. rewrite <- app_assoc. auto.
    Qed.

    Lemma ex_load_types : thi < 2 ^ 33 -> 
      exactly tlo en (load_types e fh thi) (fun ti o' => exists ts, ti = tables ts /\ records_at f tlo ts o' /\ thi <= o').
    Proof.
      intros H33 r Hr. unfold load_types. rewrite while_M_nat.
      apply (ex_loop (N.to_nat (type_len fh + 1)) [] load_init tlo); cbn [length load_init tid_generator maps]; try lia; auto.
    Qed.
  End File.

  (** the file header *)
  Definition fields (fh : file_header) : header_fields :=
    {| hf_hdr_len := hdr_len fh; hf_type_off := type_off fh; hf_type_len := type_len fh;
       hf_str_off := str_off fh; hf_str_len := str_len fh |}.
  Definition magic_bytes (en : endianness) : list byte :=
    match en with Little => [x9f; xeb] | Big => [xeb; x9f] end.

  Definition header_rest : M file_header :=
    v <- read_u8 e ;; f <- read_u8 e ;; hl <- read_u32 e ;; toff <- read_u32 e ;; tlen <- read_u32 e ;;
    soff <- read_u32 e ;; slen <- read_u32 e ;;
    ret {| version := bval v; flags := bval f; hdr_len := hl; type_off := toff;
           type_len := tlen; str_off := soff; str_len := slen |}.

  Lemma ex_header_rest en :
    exactly 2 en header_rest (fun fh o' => (exists v f, bytes_at img 2 [v; f] /\ version fh = bval v /\ flags fh = bval f) /\
      u32_at img en 4 (hdr_len fh) /\ u32_at img en 8 (type_off fh) /\ u32_at img en 12 (type_len fh) /\
      u32_at img en 16 (str_off fh) /\ u32_at img en 20 (str_len fh) /\ o' = 24).
  Proof.
    unfold header_rest. eapply ex_iff.
    - eapply ex_bindp; [apply ex_u8; lia|]. intros v Hv.
      eapply ex_bindp; [apply ex_u8; lia|]. intros f Hf.
      eapply ex_bindp; [apply ex_u32; lia|]. intros a Ha.
      eapply ex_bindp; [apply ex_u32; lia|]. intros b Hb.
      eapply ex_bindp; [apply ex_u32; lia|]. intros c Hc.
      eapply ex_bindp; [apply ex_u32; lia|]. intros d Hd.
      eapply ex_bindp; [apply ex_u32; lia|]. intros g Hg. apply ex_ret.
    - intros fh o'.
      change (2 + 1) with 3. change (3 + 1) with 4. change (4 + 4) with 8. change (8 + 4) with 12. change (12 + 4) with 16.
      change (16 + 4) with 20. change (20 + 4) with 24. split.
      + intros (v & Hv & f & Hf & a & Ha & b & Hb & c & Hc & d & Hd & g & Hg & -> & ->).
        cbn. repeat split; try assumption. exists v, f. repeat split.
        change [v; f] with ([v] ++ [f]). apply bytes_at_app. auto.
      + intros ((v & f & Hvf & Ev & Ef) & Ha & Hb & Hc & Hd & Hg & ->).
        change [v; f] with ([v] ++ [f]) in Hvf. apply bytes_at_app in Hvf. destruct Hvf as [Hv Hf].
        exists v. split; [exact Hv|]. exists f. split; [exact Hf|].
        do 5 (eexists; split; [eassumption|]). split; [|reflexivity]. destruct fh; cbn in *; congruence.
  Qed.

  (** detection *)
  Lemma magic_word bs : length bs = 2%nat -> 
    (from_le_bytes bs = BTF_LITTLE_ENDIAN_MAGIC <-> bs = magic_bytes Little) /\
    (from_le_bytes bs = BTF_BIG_ENDIAN_MAGIC <-> bs = magic_bytes Big).
  Proof.
    intros L. destruct bs as [|a [|b [|? ?]]]; try discriminate. cbn [from_le_bytes magic_bytes].
    pose proof (bval_lt a). pose proof (bval_lt b).
    unfold BTF_LITTLE_ENDIAN_MAGIC, BTF_BIG_ENDIAN_MAGIC.
    split; split; intros E.
    - assert (bval a = bval x9f /\ bval b = bval xeb) as [Ea Eb]
        by (change (bval x9f) with 0x9f; change (bval xeb) with 0xeb; lia).
      apply bval_inj in Ea, Eb. congruence.
    - injection E as -> ->. reflexivity.
    - assert (bval a = bval xeb /\ bval b = bval x9f) as [Ea Eb]
        by (change (bval x9f) with 0x9f; change (bval xeb) with 0xeb; lia).
      apply bval_inj in Ea, Eb. congruence.
    - injection E as -> ->. reflexivity.
  Qed.

  Lemma header_sound fh r' : file_header_new e reader_new = (Ok fh, r') ->
    exists en, placed 24 en r' /\ file_header_at img en (fields fh).
  Proof.
    unfold file_header_new. intros E.
    apply bind_Ok in E. destruct E as ([] & r0 & E0 & E). injection E0 as <-.
    apply bind_Ok in E. destruct E as ([] & r1 & E1 & E).
    unfold detect_endianness in E1. apply bind_Ok in E1. destruct E1 as (m & r2 & Em & E1).
    destruct (ex_word 0 Little 2 ltac:(lia) ltac:(lia) (with_offset 0 reader_new) ltac:(split; reflexivity)) as [Hm _].
    destruct (Hm m r2 Em) as [He [(bs & Hl & Hb & Hv) Ho]]. cbn [value] in Hv. rewrite little_value_eq in Hv.
    destruct (magic_word bs Hl) as [ML MB].
    assert (P : exists en, placed 2 en r1 /\ bs = magic_bytes en).
    { destruct (N.eqb_spec m BTF_LITTLE_ENDIAN_MAGIC) as [C|C].
      - injection E1 as <-. exists Little. split; [split; [exact Ho|reflexivity]|apply ML; congruence].
      - destruct (N.eqb_spec m BTF_BIG_ENDIAN_MAGIC) as [C'|C']; [|discriminate].
        injection E1 as <-. exists Big. split; [split; [exact Ho|reflexivity]|apply MB; congruence]. }
    destruct P as (en & P & Ebs). exists en.
    destruct (ex_header_rest en r1 P) as [H1 _].
    destruct (H1 fh r' E) as [He' (_ & Ha & Hb' & Hc & Hd & Hg & Ho')].
    split; [split; assumption|]. unfold file_header_at. cbn [fields hf_hdr_len hf_type_off hf_type_len hf_str_off hf_str_len].
    repeat split; try assumption. rewrite Ebs in Hb. destruct en; exact Hb.
  Qed.

  Lemma header_complete en hf : file_header_at img en hf ->
    exists fh r', file_header_new e reader_new = (Ok fh, r') /\ fields fh = hf /\ placed 24 en r'.
  Proof.
    intros (Hmagic & Ha & Hb & Hc & Hd & Hg). unfold file_header_new.
    destruct (ex_word 0 Little 2 ltac:(lia) ltac:(lia) (with_offset 0 reader_new) ltac:(split; reflexivity)) as [_ Hm].
    destruct (Hm (from_le_bytes (magic_bytes en)) 2) as (r2 & Em & P2).
    { split; [|lia]. exists (magic_bytes en). split; [destruct en; reflexivity|]. split; [destruct en; exact Hmagic|].
      apply little_value_eq. }
    assert (D : exists r1, detect_endianness e (with_offset 0 reader_new) = (Ok tt, r1) /\ placed 2 en r1).
    { unfold detect_endianness, read_u16. rewrite (bind_eq _ _ _ _ _ Em).
      destruct en; cbn [magic_bytes from_le_bytes]; (eexists; split; [reflexivity|]; split; [apply P2|reflexivity]). }
    destruct D as (r1 & E1 & P1).
    destruct (ex_header_rest en r1 P1) as [_ H2].
    assert (V : exists v f, bytes_at img 2 [v; f]).
    { destruct Ha as (bs & Hl & Hbs & _). pose proof (bytes_at_length _ _ _ Hbs) as HL.
      destruct (bytes_at_slice img 2 2) as [Hsl Hsn]; [lia|].
      destruct (slice img 2 2) as [|v [|f [|? ?]]]; cbn in Hsn; try lia. eauto. }
    destruct V as (v & f & Hvf).
    destruct (H2 {| version := bval v; flags := bval f; hdr_len := hf_hdr_len hf; type_off := hf_type_off hf;
                    type_len := hf_type_len hf; str_off := hf_str_off hf; str_len := hf_str_len hf |} 24) as (r' & E2 & P').
    { cbn. repeat split; try assumption. eauto 6. }
    exists {| version := bval v; flags := bval f; hdr_len := hf_hdr_len hf; type_off := hf_type_off hf;
              type_len := hf_type_len hf; str_off := hf_str_off hf; str_len := hf_str_len hf |}, r'.
    split; [|split; [destruct hf; reflexivity|exact P']].
    rewrite (bind_eq (set_offset 0) _ _ tt (with_offset 0 reader_new)) by reflexivity.
    rewrite (bind_eq _ _ _ _ _ E1). exact E2.
  Qed.

  Lemma header_functional en hf en' hf' : file_header_at img en hf -> file_header_at img en' hf' -> en = en' /\ hf = hf'.
  Proof.
    intros (M & A & B & C & D & E) (M' & A' & B' & C' & D' & E').
    assert (en = en') as ->.
    { pose proof (bytes_at_inj _ _ _ _ M M') as X. destruct en, en'; try reflexivity; specialize (X eq_refl); discriminate. }
    split; [reflexivity|]. destruct hf, hf'; cbn in *.
    f_equal; eapply word_at_fun; eassumption.
  Qed.

  (** The whole load: exactly what the file describes. *)
  Theorem load_exact ti : type_information_new e = Ok ti <-> exists ts, ti = tables ts /\ file_describes img ts.
  Proof.
    unfold type_information_new. split.
    - intros E. destruct (load e reader_new) as [o r'] eqn:EL. cbn [fst] in E. subst o.
      unfold load in EL. apply bind_Ok in EL. destruct EL as (fh & r1 & Eh & EL).
      destruct (header_sound fh r1 Eh) as (en & P1 & Hfh).
      apply bind_Ok in EL. destruct EL as (tss & r2 & E2 & EL). injection E2 as E2 <-.
      destruct (checked 32 (hdr_len fh + type_off fh)) as [x|] eqn:Ck; [|discriminate].
      injection E2 as ->. apply checked_Some in Ck. destruct Ck as [<- Hlo].
      apply bind_Ok in EL. destruct EL as (tse & r3 & E3 & EL). injection E3 as E3 <-.
      destruct (checked (usize_bits (cfg e)) _) as [x|] eqn:Ck; [|discriminate].
      injection E3 as ->. apply checked_Some in Ck. destruct Ck as [<- Hhi].
      apply bind_Ok in EL. destruct EL as ([] & r4 & E4 & EL). injection E4 as <-.
      assert (type_len fh < 2 ^ 32) by (destruct Hfh as (_ & _ & _ & Hc & _); eapply u32_at_lt; exact Hc).
      destruct (ex_load_types fh en ltac:(lia) (with_offset (hdr_len fh + type_off fh) r1)) as [HL _].
      { split; [reflexivity|apply P1]. }
      destruct (HL ti r' EL) as [_ (ts & -> & Hr & Hend)].
      exists ts. split; [reflexivity|]. exists en, (fields fh). split; [exact Hfh|]. split; [exact Hlo|].
      exists (r_off r'). auto.
    - intros (ts & -> & en & hf & Hfh & Hlo & stop & Hr & Hend).
      destruct (header_complete en hf Hfh) as (fh & r1 & Eh & <- & P1).
      assert (type_len fh < 2 ^ 32) by (destruct Hfh as (_ & _ & _ & Hc & _); eapply u32_at_lt; exact Hc).
      cbn [layout_of types_lo fields hf_hdr_len hf_type_off] in Hlo.
      destruct (ex_load_types fh en ltac:(lia) (with_offset (hdr_len fh + type_off fh) r1)) as [_ HL].
      { split; [reflexivity|apply P1]. }
      destruct (HL (tables ts) stop) as (r' & EL & _).
      { exists ts. auto. }
      unfold load. rewrite (bind_eq _ _ _ _ _ Eh).
      rewrite (bind_eq _ _ r1 (hdr_len fh + type_off fh) r1).
      2:{ unfold lift. rewrite (proj2 (checked_Some 32 (hdr_len fh + type_off fh) _)) by (split; [reflexivity|exact Hlo]). reflexivity. }
      rewrite (bind_eq _ _ r1 (hdr_len fh + type_off fh + type_len fh) r1).
      2:{ unfold lift. rewrite H64, (proj2 (checked_Some 64 (hdr_len fh + type_off fh + type_len fh) _)) by (split; [reflexivity|lia]). reflexivity. }
      rewrite (bind_eq _ _ r1 tt (with_offset (hdr_len fh + type_off fh) r1)) by reflexivity.
      rewrite EL. reflexivity.
  Qed.
End Image.

(** The Readables of the crate serve their image. *)
Lemma readable_buffer_serves img : serves (readable_buffer img) img.
Proof.
  intros tr off n Hn Hb. unfold readable_buffer. split; intros H.
  - destruct (N.eqb_spec off (N.of_nat (length img))); [lia|].
    rewrite (proj2 (checked_Some 64 (off + n) _)) by (split; [reflexivity|exact Hb]).
    destruct (N.leb_spec (off + n) (N.of_nat (length img))); [|lia].
    eexists. split; [reflexivity|]. apply bytes_at_slice. exact H.
  - destruct (off =? N.of_nat (length img)); [eauto|].
    destruct (checked 64 (off + n)) as [s|] eqn:C; [|eauto]. apply checked_Some in C. destruct C as [<- _].
    destruct (N.leb_spec (off + n) (N.of_nat (length img))); [lia|eauto].
Qed.
Lemma readable_file_serves img : serves (readable_file img) img.
Proof.
  intros tr off n Hn Hb. unfold readable_file. destruct (N.leb_spec (off + n) (N.of_nat (length img))); split; intros H'; try lia; eauto.
  eexists. split; [reflexivity|]. apply bytes_at_slice. exact H'.
Qed.
