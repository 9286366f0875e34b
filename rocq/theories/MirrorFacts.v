(** * MirrorFacts: the two loads in step (C60). *)
From Coq Require Import List NArith Bool Lia ZifyBool ZifyNat ZifyN Strings.Byte.
From Verif Require Import TypeInfo Spec BaseFacts Bits Maps LoadProps Exact MirrorSpec.
Import ListNotations.
Open Scope N_scope.

(** Results in step: the same error, or related values. *)
Definition both {A B} (R : A -> B -> Prop) (o1 : outcome error_kind A) (o2 : outcome error_kind B) : Prop :=
  match o1, o2 with
  | Ok a, Ok b => R a b
  | Err k, Err k' => k = k'
  | Panic p, Panic p' => p = p'
  | Diverge, Diverge => True
  | _, _ => False
  end.
Definition twins (o : N) (r1 r2 : reader) : Prop := r_off r1 = o /\ r_off r2 = o /\ r_end r1 = Little /\ r_end r2 = Big.
Definition step_to {A B} (R : A -> B -> Prop) (o : N) (x1 : outcome error_kind A * reader) (x2 : outcome error_kind B * reader) : Prop :=
  both R (fst x1) (fst x2) /\ (forall a, fst x1 = Ok a -> twins o (snd x1) (snd x2)).

(** ** Steps of two readers *)
Definition pair {A B} (P : reader -> reader -> Prop) (R : A -> B -> Prop) (Q : reader -> reader -> Prop) (m1 : M A) (m2 : M B) : Prop :=
  forall r1 r2, P r1 r2 -> both R (fst (m1 r1)) (fst (m2 r2)) /\ (forall a, fst (m1 r1) = Ok a -> Q (snd (m1 r1)) (snd (m2 r2))).
Lemma pair_bind {A B C D} P (R : A -> B -> Prop) Q (R' : C -> D -> Prop) Q' m1 m2 k1 k2 :
  pair P R Q m1 m2 -> (forall a c, R a c -> pair Q R' Q' (k1 a) (k2 c)) -> pair P R' Q' (bind m1 k1) (bind m2 k2).
Proof.
  intros Hm Hk r1 r2 T. destruct (Hm r1 r2 T) as [B0 N0]. unfold bind.
  destruct (m1 r1) as [[a|x|p|] r1'], (m2 r2) as [[a2|x2|p2|] r2']; cbn [fst snd both] in *; try contradiction; try (split; [assumption|discriminate]).
  exact (Hk a a2 B0 r1' r2' (N0 a eq_refl)).
Qed.
Lemma pair_ret {A B} (P : reader -> reader -> Prop) (R : A -> B -> Prop) a c : R a c -> pair P R P (ret a) (ret c).
Proof. intros H r1 r2 T. split; [exact H|]. intros _ _. exact T. Qed.
Lemma pair_lift {A} P (o : outcome error_kind A) : pair P eq P (lift o) (lift o).
Proof. intros r1 r2 T. split; [destruct o; cbn; auto|]. intros _ _. exact T. Qed.
Lemma pair_fail {A B} P (R : A -> B -> Prop) Q k : pair P R Q (fail k) (fail k). Proof. intros r1 r2 _. split; [reflexivity|discriminate]. Qed.
Lemma pair_offset o : pair (twins o) (fun a c => a = o /\ c = o) (twins o) get_offset get_offset.
Proof. intros r1 r2 T. split; [|intros _ _; exact T]. destruct T as (O1 & O2 & _). split; assumption. Qed.
Definition orders (r1 r2 : reader) : Prop := r_end r1 = Little /\ r_end r2 = Big.
Lemma pair_set o : pair orders eq (twins o) (set_offset o) (set_offset o).
Proof. intros r1 r2 [E1 E2]. split; [reflexivity|]. intros _ _. repeat split; assumption. Qed.
Lemma pair_pre {A B} (P P' : reader -> reader -> Prop) (R : A -> B -> Prop) Q m1 m2 : (forall r1 r2, P' r1 r2 -> P r1 r2) -> pair P R Q m1 m2 -> pair P' R Q m1 m2.
Proof. intros H X r1 r2 T. exact (X r1 r2 (H r1 r2 T)). Qed.
Lemma pair_post {A B} (P Q Q' : reader -> reader -> Prop) (R : A -> B -> Prop) m1 m2 : (forall r1 r2, Q r1 r2 -> Q' r1 r2) -> pair P R Q m1 m2 -> pair P R Q' m1 m2.
Proof. intros H X r1 r2 T. destruct (X r1 r2 T) as [Y Z]. split; [exact Y|]. intros a E. exact (H _ _ (Z a E)). Qed.
Lemma twins_orders o r1 r2 : twins o r1 r2 -> orders r1 r2. Proof. intros (_ & _ & E1 & E2). split; assumption. Qed.
Lemma pair_ok {A C D} P (R : C -> D -> Prop) Q (a : A) k1 k2 : pair P R Q (k1 a) (k2 a) -> pair P R Q (bind (lift (Ok a)) k1) (bind (lift (Ok a)) k2). Proof. exact (fun x => x). Qed.
Lemma le_rev bs : from_be_bytes (rev bs) = from_le_bytes bs. Proof. unfold from_be_bytes. rewrite rev_involutive. reflexivity. Qed.
Lemma read_answer i o n : readable_file i [] o n = match bytes_of i o n with Some bs => Bytes bs | None => Fails IOError end.
Proof. unfold readable_file, bytes_of. destruct (_ <=? _); reflexivity. Qed.
Lemma bytes_of_len i o n bs : bytes_of i o n = Some bs -> length bs = N.to_nat n.
Proof. unfold bytes_of. destruct (N.leb_spec (o + n) (N.of_nat (length i))) as [L|L]; [|discriminate]. intros X. injection X as <-. unfold slice. rewrite firstn_length, skipn_length. lia. Qed.

Section Steps.
  Context (b : build) (img img' : list byte) (H64 : usize_bits b = 64).
  Let e1 := {| cfg := b; rd := readable_file img |}.
  Let e2 := {| cfg := b; rd := readable_file img' |}.
  Lemma pair_word o : reversed img img' o -> o + 4 < 2 ^ 64 -> pair (twins o) eq (twins (o + 4)) (read_u32 e1) (read_u32 e2).
  Proof.
    intros W L r1 r2 (O1 & O2 & E1 & E2). unfold reversed in W.
    assert (Ad : @add_usize error_kind b o 4 = Ok (o + 4)) by (unfold add_usize; rewrite H64, wrap_small; [reflexivity|lia]).
    unfold read_u32, read_uint, bind, read. rewrite O1, O2. change (cfg e1) with b. change (cfg e2) with b. rewrite Ad.
    change (rd e1 (r_trace r1) o 4) with (readable_file img [] o 4). change (rd e2 (r_trace r2) o 4) with (readable_file img' [] o 4). rewrite !read_answer, W.
    destruct (bytes_of img o 4) as [bs|] eqn:Eb; cbn [option_map].
    - pose proof (bytes_of_len _ _ _ _ Eb) as Lb. rewrite fit_exact by exact Lb. rewrite fit_exact by (rewrite rev_length; exact Lb).
      cbn [r_end with_offset]. rewrite E1, E2, le_rev. split; [reflexivity|]. intros _ _. repeat split.
    - split; [reflexivity|discriminate].
  Qed.
  Lemma pair_u8 o : bytes_of img o 1 = bytes_of img' o 1 -> o + 1 < 2 ^ 64 -> pair (twins o) eq (twins (o + 1)) (read_u8 e1) (read_u8 e2).
  Proof.
    intros W L r1 r2 (O1 & O2 & E1 & E2).
    assert (Ad : @add_usize error_kind b o 1 = Ok (o + 1)) by (unfold add_usize; rewrite H64, wrap_small; [reflexivity|lia]).
    unfold read_u8, bind, read. rewrite O1, O2. change (cfg e1) with b. change (cfg e2) with b. rewrite Ad.
    change (rd e1 (r_trace r1) o 1) with (readable_file img [] o 1). change (rd e2 (r_trace r2) o 1) with (readable_file img' [] o 1). rewrite !read_answer, <- W.
    destruct (bytes_of img o 1) as [bs|] eqn:Eb; [|split; [reflexivity|discriminate]].
    rewrite fit_exact by (exact (bytes_of_len _ _ _ _ Eb)). destruct bs as [|c bs]; [split; [reflexivity|discriminate]|].
    split; [reflexivity|]. intros _ _. repeat split; assumption.
  Qed.
End Steps.

Section Mirror.
  Context (b : build) (img img' : list byte) (H64 : usize_bits b = 64) (fh : file_header).
  Let tss := hdr_len fh + type_off fh.
  Let tse := hdr_len fh + type_off fh + type_len fh.
  Let sss := hdr_len fh + str_off fh.
  Let sse := hdr_len fh + str_off fh + str_len fh.
  Let e1 := {| cfg := b; rd := readable_file img |}.
  Let e2 := {| cfg := b; rd := readable_file img' |}.
  Context (Hlen : length img = length img') (Htse32 : tse < 2 ^ 32).
  Context (Hw : forall k, tss + 4 * k + 4 <= tse -> reversed img img' (tss + 4 * k)).
  Context (Hs : forall o, sss <= o < sse -> bytes_of img o 1 = bytes_of img' o 1).

  (** [w] words are read, from a place with room for them. *)
  Definition reads {A B} (w : N) (R : A -> B -> Prop) (m1 : M A) (m2 : M B) : Prop :=
    forall k r1 r2, tss + 4 * (k + w) <= tse -> twins (tss + 4 * k) r1 r2 -> step_to R (tss + 4 * (k + w)) (m1 r1) (m2 r2).
  Lemma reads_ret {A B} (R : A -> B -> Prop) a c : R a c -> reads 0 R (ret a) (ret c).
  Proof. intros H k r1 r2 _ T. split; [exact H|]. intros _ _. rewrite N.add_0_r. exact T. Qed.
  Lemma reads_lift {A} (o : outcome error_kind A) : reads 0 eq (lift o) (lift o).
  Proof. intros k r1 r2 _ T. split; [destruct o; cbn; auto|]. intros _ _. rewrite N.add_0_r. exact T. Qed.
  Lemma reads_fail {A B} w (R : A -> B -> Prop) k : reads w R (fail k) (fail k).
  Proof. intros n r1 r2 _ T. split; [reflexivity|]. discriminate. Qed.
  Lemma reads_bind {A B C D} w1 w2 (R : A -> B -> Prop) (Q : C -> D -> Prop) m1 m2 k1 k2 :
    reads w1 R m1 m2 -> (forall a b, R a b -> reads w2 Q (k1 a) (k2 b)) -> reads (w1 + w2) Q (bind m1 k1) (bind m2 k2).
  Proof.
    intros Hm Hk k r1 r2 L T. destruct (Hm k r1 r2 ltac:(lia) T) as [B0 N0]. unfold bind.
    destruct (m1 r1) as [[a|x|p|] r1'], (m2 r2) as [[a2|x2|p2|] r2']; cbn [fst snd both] in *; try contradiction; try (split; [assumption|discriminate]).
    specialize (Hk a a2 B0 (k + w1) r1' r2'). rewrite N.add_assoc. apply Hk; [lia|]. exact (N0 a eq_refl).
  Qed.
  Lemma reads_eq {A B} w w' (R : A -> B -> Prop) m1 m2 : w = w' -> reads w R m1 m2 -> reads w' R m1 m2. Proof. intros ->. auto. Qed.
  Lemma reads_impl {A B} w (R Q : A -> B -> Prop) m1 m2 : (forall a c, R a c -> Q a c) -> reads w R m1 m2 -> reads w Q m1 m2.
  Proof.
    intros H X k r1 r2 L T. destruct (X k r1 r2 L T) as [B0 N0]. split; [|exact N0]. destruct (fst (m1 r1)), (fst (m2 r2)); cbn [both] in *; auto.
  Qed.
  Lemma reads_repeat {A B} w n (R : A -> B -> Prop) m1 m2 : reads w R m1 m2 -> reads (N.of_nat n * w) (Forall2 R) (repeat_M n m1) (repeat_M n m2).
  Proof.
    intros H. induction n as [|n IH]; cbn [repeat_M]; [apply (reads_eq 0); [lia|]; apply reads_ret; constructor|].
    apply (reads_eq (w + (N.of_nat n * w + 0))); [lia|]. eapply reads_bind; [exact H|]. intros a c Hac. eapply reads_bind; [exact IH|]. intros l l' Hl. apply reads_ret. constructor; assumption.
  Qed.

  (** ** One word *)
  Lemma reads_word : reads 1 eq (read_u32 e1) (read_u32 e2).
  Proof.
    intros k r1 r2 L T. replace (tss + 4 * (k + 1)) with (tss + 4 * k + 4) by lia. apply (pair_word b img img' H64); [apply Hw; lia|lia|exact T].
  Qed.
  Definition exchanged (v v' : N) : Prop := exists lo hi, lo < 2 ^ 32 /\ hi < 2 ^ 32 /\ v = lo + 2 ^ 32 * hi /\ v' = hi + 2 ^ 32 * lo.
  Lemma skip_4 {A} n (l : list A) : skipn (4 + n) l = skipn 4 (skipn n l).
  Proof. revert l. induction n as [|n IH]; intros l; [reflexivity|]. destruct l as [|a l]; [reflexivity|]. replace (4 + S n)%nat with (S (4 + n)) by lia. apply (IH l). Qed.
  Lemma slice_8 i o : slice i o 8 = slice i o 4 ++ slice i (o + 4) 4.
  Proof.
    unfold slice. replace (N.to_nat (o + 4)) with (4 + N.to_nat o)%nat by lia. change (N.to_nat 8) with (4 + 4)%nat. change (N.to_nat 4) with 4%nat.
    rewrite skip_4. generalize (skipn (N.to_nat o) i). intros l. rewrite <- (firstn_skipn 4 l) at 1.
    rewrite firstn_app, firstn_firstn. change (Nat.min (4 + 4) 4) with 4%nat. f_equal. rewrite firstn_length.
    destruct (Nat.le_gt_cases 4 (length l)); [replace (4 + 4 - Nat.min 4 (length l))%nat with 4%nat by lia; reflexivity|].
    rewrite (skipn_all2 l) by lia. rewrite !firstn_nil. reflexivity.
  Qed.
  Lemma reads_long : reads 2 exchanged (read_u64 e1) (read_u64 e2).
  Proof.
    intros k r1 r2 L (O1 & O2 & E1 & E2). pose proof (Hw k ltac:(lia)) as W. pose proof (Hw (k + 1) ltac:(lia)) as W'.
    unfold reversed, bytes_of in W, W'. rewrite <- Hlen in W, W'.
    assert (Ad : @add_usize error_kind b (tss + 4 * k) 8 = Ok (tss + 4 * (k + 2))).
    { unfold add_usize. rewrite H64. rewrite wrap_small; [f_equal; lia|]. lia. }
    unfold read_u64, read_uint, bind, read. rewrite O1, O2. change (cfg e1) with b. change (cfg e2) with b. rewrite Ad.
    cbn [rd e1 e2]. unfold readable_file. rewrite <- Hlen. destruct (N.leb_spec (tss + 4 * k + 8) (N.of_nat (length img))) as [L8|L8].
    - split; [|intros _ _; repeat split; assumption]. cbn [fst both with_offset r_end]. rewrite E1, E2.
      destruct (N.leb_spec (tss + 4 * k + 4) (N.of_nat (length img))) as [La|La]; [|lia].
      destruct (N.leb_spec (tss + 4 * (k + 1) + 4) (N.of_nat (length img))) as [Lb|Lb]; [|lia]. cbn [option_map] in W, W'. injection W as W. injection W' as W'.
      replace (tss + 4 * (k + 1)) with (tss + 4 * k + 4) in W', Lb by lia. set (o := tss + 4 * k) in *.
      assert (Q1 : length (slice img o 4) = 4%nat) by (rewrite slice_length; lia).
      assert (Q2 : length (slice img (o + 4) 4) = 4%nat) by (rewrite slice_length; lia).
      rewrite !fit_exact by (rewrite slice_length; lia). rewrite !slice_8, W, W', <- rev_app_distr, le_rev, !from_le_bytes_app, Q1, Q2.
      exists (from_le_bytes (slice img o 4)), (from_le_bytes (slice img (o + 4) 4)).
      pose proof (from_le_bytes_lt (slice img o 4)) as X. pose proof (from_le_bytes_lt (slice img (o + 4) 4)) as X'. rewrite Q1 in X. rewrite Q2 in X'.
      change (256 ^ N.of_nat 4) with (2 ^ 32) in *. auto.
    - split; [reflexivity|discriminate].
  Qed.

  (** ** Strings *)
  Lemma pair_byte o orig : sss <= o < sse -> sse < 2 ^ 32 ->
    pair (twins o) eq (twins (o + 1)) (inspect_err (read_u8 e1) (with_offset orig)) (inspect_err (read_u8 e2) (with_offset orig)).
  Proof.
    intros Lo H32 r1 r2 T. destruct (pair_u8 b img img' H64 o (Hs o Lo) ltac:(lia) r1 r2 T) as [B0 N0]. fold e1 e2 in B0, N0. unfold inspect_err.
    destruct (read_u8 e1 r1) as [[c|x|p|] r1'], (read_u8 e2 r2) as [[c2|x2|p2|] r2']; cbn [fst snd both] in *; try contradiction; try (split; [assumption|discriminate]).
    split; assumption.
  Qed.
  Definition text_loop (e : env) (orig : N) := fun s : str =>
         o <- get_offset ;;
         o1 <- lift (add_usize (cfg e) o 1) ;;
         if sse <? o1 then fail InvalidString else
         c <- inspect_err (read_u8 e) (with_offset orig) ;;
         if bval c =? 0 then ret (inr s) else ret (inl (push_char s c)).
  Lemma pair_loop orig n : sse < 2 ^ 32 -> forall s o, sss <= o -> o <= sse ->
    pair (twins o) eq orders (while_nat n (text_loop e1 orig) s) (while_nat n (text_loop e2 orig) s).
  Proof.
    intros H32. induction n as [|n IH]; intros s o Lo Hi; cbn [while_nat]; [intros r1 r2 _; split; [exact I|discriminate]|].
    assert (Ad : @add_usize error_kind b o 1 = Ok (o + 1)) by (unfold add_usize; rewrite H64, wrap_small; [reflexivity|lia]).
    apply (pair_bind (twins o) (fun x y => x = y /\ o + 1 <= sse) (twins (o + 1))).
    - unfold text_loop. eapply pair_bind; [apply pair_offset|]. intros a c [-> ->]. change (cfg e1) with b. change (cfg e2) with b. rewrite Ad.
      apply pair_ok. destruct (N.ltb_spec sse (o + 1)) as [B0|B0]; [apply pair_fail|].
      eapply pair_bind; [apply pair_byte; [lia|exact H32]|]. intros c c' <-. destruct (bval c =? 0); apply pair_ret; split; (reflexivity || exact B0).
    - intros x y [<- B0]. destruct x as [s'|s']; [apply IH; lia|]. eapply pair_post; [apply twins_orders|apply pair_ret; reflexivity].
  Qed.
  Lemma reads_pair {A B} w (R : A -> B -> Prop) m1 m2 :
    reads w R m1 m2 <-> (forall k, tss + 4 * (k + w) <= tse -> pair (twins (tss + 4 * k)) R (twins (tss + 4 * (k + w))) m1 m2).
  Proof. split; [intros H k L r1 r2 T; exact (H k r1 r2 L T)|intros H k r1 r2 L T; exact (H k L r1 r2 T)]. Qed.
  Lemma reads_string k0 : reads 0 eq (parse_string e1 fh k0) (parse_string e2 fh k0).
  Proof.
    apply reads_pair. intros k _. rewrite N.add_0_r. unfold parse_string, checked. change (2 ^ 32) with (two_pow 32) in *.
    fold sss. destruct (N.ltb_spec sss (two_pow 32)) as [C0|C0]; [|exact (pair_fail _ _ _ _)]. apply pair_ok.
    change (sss + str_len fh) with sse. destruct (N.ltb_spec sse (two_pow 32)) as [C1|C1]; [|exact (pair_fail _ _ _ _)]. apply pair_ok.
    destruct (N.ltb_spec (sss + k0) (two_pow 32)) as [C2|C2]; [|exact (pair_fail _ _ _ _)]. apply pair_ok.
    destruct (N.leb_spec sse (sss + k0)) as [C3|C3]; [exact (pair_fail _ _ _ _)|].
    eapply pair_bind; [apply pair_offset|]. intros a c [-> ->].
    eapply pair_bind; [eapply pair_pre; [apply twins_orders|apply pair_set]|]. intros _ _ _.
    eapply (pair_bind _ eq orders).
    { intros r1 r2 T. rewrite !while_M_nat. apply (pair_loop (tss + 4 * k) (N.to_nat (sse - (sss + k0) + 1)) C1 [] (sss + k0)); [lia|lia|exact T]. }
    intros s s' <-. eapply pair_bind; [apply pair_set|]. intros _ _ _. apply pair_ret. reflexivity.
  Qed.
  Lemma reads_name k0 : reads 0 eq (parse_name_opt e1 fh k0) (parse_name_opt e2 fh k0).
  Proof.
    unfold parse_name_opt. destruct (negb _); [|apply reads_ret; reflexivity].
    apply (reads_eq (0 + 0)); [reflexivity|]. eapply reads_bind; [apply reads_string|]. intros a c <-. apply reads_ret. reflexivity.
  Qed.

  (** ** Records *)
  Lemma reads_last {A B C D} w (R : A -> B -> Prop) (Q : C -> D -> Prop) m1 m2 f g :
    reads w R m1 m2 -> (forall a b, R a b -> Q (f a) (g b)) -> reads w Q (a <- m1 ;; ret (f a)) (a <- m2 ;; ret (g a)).
  Proof. intros H K. apply (reads_eq (w + 0)); [lia|]. eapply reads_bind; [exact H|]. intros a c Hac. apply reads_ret. auto. Qed.
  Lemma reads_then {A C D} w1 w2 w (Q : C -> D -> Prop) (m1 m2 : M A) k1 k2 : w = w1 + w2 ->
    reads w1 eq m1 m2 -> (forall a, reads w2 Q (k1 a) (k2 a)) -> reads w Q (bind m1 k1) (bind m2 k2).
  Proof. intros -> H K. eapply reads_bind; [exact H|]. intros a c <-. apply K. Qed.
  Ltac word := eapply (reads_then 1 0); [reflexivity|apply reads_word|intros ?].
  Ltac done := apply reads_ret; reflexivity.

  Lemma header_twins k r1 r2 : tss + 4 * k <= tse -> twins (tss + 4 * k) r1 r2 ->
    step_to (fun a c => a = c /\ tss + 4 * (k + 3) <= tse /\ h_vlen a < 2 ^ 16) (tss + 4 * (k + 3)) (header_new e1 fh r1) (header_new e2 fh r2).
  Proof.
    intros L. revert r1 r2. change (pair (twins (tss + 4 * k)) (fun a c => a = c /\ tss + 4 * (k + 3) <= tse /\ h_vlen a < 2 ^ 16) (twins (tss + 4 * (k + 3))) (header_new e1 fh) (header_new e2 fh)).
    unfold header_new, checked. fold tss. destruct (N.ltb_spec tss (two_pow 32)) as [C0|C0]; [|exact (pair_fail _ _ _ _)]. apply pair_ok.
    change (tss + type_len fh) with tse. destruct (N.ltb_spec tse (two_pow 32)) as [C1|C1]; [|exact (pair_fail _ _ _ _)]. apply pair_ok.
    eapply pair_bind; [apply pair_offset|]. intros a c [-> ->]. change (cfg e1) with b. change (cfg e2) with b.
    assert (Ad : @add_usize error_kind b (tss + 4 * k) TYPE_HEADER_SIZE = Ok (tss + 4 * (k + 3))) by (unfold add_usize, TYPE_HEADER_SIZE; rewrite H64, wrap_small; [f_equal; lia|lia]).
    rewrite Ad. apply pair_ok. destruct (N.ltb_spec tse (tss + 4 * (k + 3))) as [C2|C2]; [apply pair_fail|].
    revert k L Ad C2. intros k L _ C2. 
    assert (X : reads 3 (fun a c => a = c /\ h_vlen a < 2 ^ 16)
      (name_offset <- read_u32 e1 ;; info_flags <- read_u32 e1 ;; k0 <- lift (kind_new (N.shiftr (N.land info_flags 0x1F000000) 24)) ;; size_or_type <- read_u32 e1 ;;
       ret {| h_kind := k0; h_name_offset := name_offset; h_vlen := N.land info_flags 0xFFFF; h_kind_flag := negb (N.land info_flags 0x80000000 =? 0); h_size_or_type := size_or_type |})
      (name_offset <- read_u32 e2 ;; info_flags <- read_u32 e2 ;; k0 <- lift (kind_new (N.shiftr (N.land info_flags 0x1F000000) 24)) ;; size_or_type <- read_u32 e2 ;;
       ret {| h_kind := k0; h_name_offset := name_offset; h_vlen := N.land info_flags 0xFFFF; h_kind_flag := negb (N.land info_flags 0x80000000 =? 0); h_size_or_type := size_or_type |})).
    { eapply (reads_then 1 2); [reflexivity|apply reads_word|intros no]. eapply (reads_then 1 1); [reflexivity|apply reads_word|intros fl].
      eapply (reads_then 0 1); [reflexivity|apply reads_lift|intros kd]. apply (reads_last 1 eq); [apply reads_word|]. intros x y <-. split; [reflexivity|]. cbn [h_vlen]. rewrite land_ffff. apply N.mod_lt. discriminate. }
    intros r1 r2 T. destruct (X k r1 r2 ltac:(lia) T) as [Y Z]. split; [|exact Z]. destruct (fst _), (fst _); cbn [both] in *; auto. destruct Y. auto.
  Qed.

  Lemma name_last {C D} (Q : C -> D -> Prop) k0 f g : (forall s, Q (f s) (g s)) -> reads 0 Q (s <- parse_name_opt e1 fh k0 ;; ret (f s)) (s <- parse_name_opt e2 fh k0 ;; ret (g s)).
  Proof. intros H. apply (reads_last 0 eq); [apply reads_name|]. intros s s' <-. apply H. Qed.
  Lemma reads_int h : reads 1 eq (int_data_new e1 fh h) (int_data_new e2 fh h).
  Proof. unfold int_data_new. word. apply name_last. reflexivity. Qed.
  Lemma reads_link h : reads 0 eq (link_data_new e1 fh h) (link_data_new e2 fh h). Proof. done. Qed.
  Lemma reads_named_link h : reads 0 eq (named_link_data_new e1 fh h) (named_link_data_new e2 fh h). Proof. apply name_last. reflexivity. Qed.
  Lemma reads_float h : reads 0 eq (float_data_new e1 fh h) (float_data_new e2 fh h). Proof. apply name_last. reflexivity. Qed.
  Lemma reads_var h : reads 1 eq (var_data_new e1 fh h) (var_data_new e2 fh h). Proof. unfold var_data_new. word. apply name_last. reflexivity. Qed.
  Lemma reads_decl_tag h : reads 1 eq (decl_tag_data_new e1 fh h) (decl_tag_data_new e2 fh h). Proof. unfold decl_tag_data_new. word. apply name_last. reflexivity. Qed.
  Lemma pair_any k : tss + 4 * k <= tse + 8 -> pair (twins (tss + 4 * k)) (fun x y => tss + 4 * (k + 1) <= tse -> x = y) (twins (tss + 4 * (k + 1))) (read_u32 e1) (read_u32 e2).
  Proof.
    intros L. destruct (N.le_gt_cases (tss + 4 * (k + 1)) tse) as [C|C].
    - intros r1 r2 T. destruct (reads_word k r1 r2 C T) as [B0 N0]. split; [|exact N0]. destruct (fst _), (fst _); cbn [both] in *; auto.
    - intros r1 r2 (O1 & O2 & E1 & E2).
      assert (Ad : @add_usize error_kind b (tss + 4 * k) 4 = Ok (tss + 4 * (k + 1))) by (unfold add_usize; rewrite H64, wrap_small; [f_equal; lia|lia]).
      unfold read_u32, read_uint, bind, read. rewrite O1, O2. change (cfg e1) with b. change (cfg e2) with b. rewrite Ad. cbn [rd e1 e2]. unfold readable_file. rewrite <- Hlen.
      destruct (_ <=? _); [split; [intros X; lia|]; intros _ _; repeat split; assumption|split; [reflexivity|discriminate]].
  Qed.
  Lemma pair_array k h : tss + 4 * k <= tse ->
    pair (twins (tss + 4 * k)) (fun d d' => tss + 4 * (k + 3) <= tse -> d = d') (twins (tss + 4 * (k + 3))) (array_data_new e1 fh h) (array_data_new e2 fh h).
  Proof.
    intros L. unfold array_data_new. eapply pair_bind; [apply pair_any; lia|]. intros x x' X. eapply pair_bind; [apply pair_any; lia|]. intros y y' Y.
    replace (k + 3) with (k + 1 + 1 + 1) by lia. eapply pair_bind; [apply pair_any; lia|]. intros z z' Z. apply pair_ret. intros C. f_equal; [apply X|apply Y|apply Z]; lia.
  Qed.
  Lemma eq_list {A} (l l' : list A) : Forall2 eq l l' -> l = l'. Proof. induction 1; congruence. Qed.
  Lemma reads_many {A C D} w n (R : A -> A -> Prop) (Q : C -> D -> Prop) m1 m2 k1 k2 : reads w R m1 m2 -> (forall l l', Forall2 R l l' -> reads 0 Q (k1 l) (k2 l')) ->
    reads (n * w) Q (bind (repeat_M (N.to_nat n) m1) k1) (bind (repeat_M (N.to_nat n) m2) k2).
  Proof. intros H K. apply (reads_eq (N.of_nat (N.to_nat n) * w + 0)); [lia|]. eapply reads_bind; [apply reads_repeat; exact H|exact K]. Qed.
  Lemma reads_struct h : reads (h_vlen h * 3) eq (struct_data_new e1 fh h) (struct_data_new e2 fh h).
  Proof.
    unfold struct_data_new. apply (reads_many 3 (h_vlen h) eq).
    - unfold parse_member. eapply (reads_then 1 2); [reflexivity|apply reads_word|intros x]. eapply (reads_then 1 1); [reflexivity|apply reads_word|intros y].
      eapply (reads_then 1 0); [reflexivity|apply reads_word|intros z]. eapply (reads_then 0 0); [reflexivity|apply reads_name|intros s].
      apply (reads_last 0 eq); [apply reads_lift|]. intros o o' <-. reflexivity.
    - intros l l' E. apply eq_list in E as <-. apply name_last. reflexivity.
  Qed.
  Lemma reads_data_sec h : reads (h_vlen h * 3) eq (data_sec_data_new e1 fh h) (data_sec_data_new e2 fh h).
  Proof.
    unfold data_sec_data_new. apply (reads_many 3 (h_vlen h) eq).
    - unfold parse_variable. eapply (reads_then 1 2); [reflexivity|apply reads_word|intros x]. eapply (reads_then 1 1); [reflexivity|apply reads_word|intros y].
      apply (reads_last 1 eq); [apply reads_word|]. intros z z' <-. reflexivity.
    - intros l l' E. apply eq_list in E as <-. apply name_last. reflexivity.
  Qed.
  Lemma reads_func_proto h : reads (h_vlen h * 2) eq (func_proto_data_new e1 fh h) (func_proto_data_new e2 fh h).
  Proof.
    unfold func_proto_data_new. apply (reads_many 2 (h_vlen h) eq).
    - unfold parse_parameter. eapply (reads_then 1 1); [reflexivity|apply reads_word|intros x]. eapply (reads_then 1 0); [reflexivity|apply reads_word|intros y]. apply name_last. reflexivity.
    - intros l l' E. apply eq_list in E as <-. done.
  Qed.
  Lemma reads_enum h : reads (h_vlen h * 2) eq (enum_data_new e1 fh h) (enum_data_new e2 fh h).
  Proof.
    unfold enum_data_new. apply (reads_many 2 (h_vlen h) eq).
    - unfold parse_named_value32. eapply (reads_then 1 1); [reflexivity|apply reads_word|intros x]. eapply (reads_then 0 1); [reflexivity|apply reads_string|intros y].
      destruct (h_kind_flag h); [apply (reads_last 1 eq); [unfold read_i32; apply (reads_last 1 eq); [apply reads_word|]|]|apply (reads_last 1 eq); [apply reads_word|]]; intros z z' <-; reflexivity.
    - intros l l' E. apply eq_list in E as <-. apply name_last. reflexivity.
  Qed.
  Lemma exchanged_64 v v' : exchanged v v' -> exists a c, a < 2 ^ 32 /\ c < 2 ^ 32 /\ v = a + 2 ^ 32 * c /\ v' = c + 2 ^ 32 * a /\ v < 2 ^ 64 /\ v' < 2 ^ 64.
  Proof. intros (lo & hi & H1 & H2 & -> & ->). exists lo, hi. change (2 ^ 64) with (2 ^ 32 * 2 ^ 32). repeat split; nia. Qed.
  Lemma reads_enum64 h : reads (h_vlen h * 3) same_but_halves (enum64_data_new e1 fh h) (enum64_data_new e2 fh h).
  Proof.
    unfold enum64_data_new. apply (reads_many 3 (h_vlen h) (halves_exchanged (h_kind_flag h))).
    - unfold parse_named_value64. eapply (reads_then 1 2); [reflexivity|apply reads_word|intros x]. eapply (reads_then 0 2); [reflexivity|apply reads_string|intros y].
      destruct (h_kind_flag h).
      + apply (reads_last 2 (fun z z' => exists v v', exchanged v v' /\ z = as_signed 64 v /\ z' = as_signed 64 v')).
        * unfold read_i64. apply (reads_last 2 exchanged); [apply reads_long|]. intros v v' X. exists v, v'. auto.
        * intros z z' (v & v' & X & -> & ->). apply exchanged_64 in X as (a & c & A0 & C0 & -> & -> & X1 & X2). split; [reflexivity|]. exists a, c.
          split; [exact A0|]. split; [exact C0|]. split; (split; [reflexivity|]; apply as_signed_spec; [reflexivity|assumption]).
      + apply (reads_last 2 exchanged); [apply reads_long|]. intros v v' (a & c & A0 & C0 & -> & ->). split; [reflexivity|]. exists a, c. repeat split; assumption.
    - intros l l' F. apply name_last. intros s. repeat split. exact F.
  Qed.

  (** ** Records: in step, until an array crosses the end of the section *)
  Definition crosses (o : N) (t t' : type_variant) : Prop := tse < o /\ exists h d d', t = TArray h d /\ t' = TArray h d'.
  Definition record_twins (k : N) (m1 m2 : M type_variant) : Prop := exists w,
    pair (twins (tss + 4 * k)) (fun t t' => tss + 4 * (k + w) <= tse + 12 /\ ((tss + 4 * (k + w) <= tse /\ same_type t t') \/ crosses (tss + 4 * (k + w)) t t')) (twins (tss + 4 * (k + w))) m1 m2.
  Lemma pair_define {D} kd size (dn : env -> file_header -> header -> M D) (R : D -> D -> Prop) Q (f g : D -> type_variant) h n k (P : type_variant -> type_variant -> Prop) :
    size b h = Ok n -> n < 2 ^ 32 -> tss + 4 * k <= tse ->
    (tss + 4 * k + n <= tse -> pair (twins (tss + 4 * k)) R Q (dn e1 fh h) (dn e2 fh h)) -> (forall d d', tss + 4 * k + n <= tse -> R d d' -> P (f d) (g d')) ->
    pair (twins (tss + 4 * k)) P Q (d <- define_type_new kd size dn e1 fh h ;; ret (f d)) (d <- define_type_new kd size dn e2 fh h ;; ret (g d)).
  Proof.
    intros Hsz Hn Hk X Y. apply (pair_bind _ (fun d d' => tss + 4 * k + n <= tse /\ R d d') Q); [|intros d d' [B1 Hd]; apply pair_ret; apply Y; assumption].
    unfold define_type_new. destruct (negb _); [apply pair_fail|]. change (cfg e1) with b. change (cfg e2) with b. rewrite Hsz. apply pair_ok.
    apply (pair_bind _ (fun _ _ => tss + 4 * k + n <= tse) (twins (tss + 4 * k))).
    - destruct (N.ltb_spec 0 n) as [P0|P0]; [|apply pair_ret; lia].
      assert (A1 : @add_u32 error_kind b (hdr_len fh) (type_off fh) = Ok tss) by (unfold add_u32; apply wrap_small; lia). rewrite A1. apply pair_ok.
      assert (A2 : @add_u32 error_kind b tss (type_len fh) = Ok tse) by (unfold add_u32; apply wrap_small; lia). rewrite A2. apply pair_ok.
      eapply pair_bind; [apply pair_offset|]. intros a c [-> ->]. destruct (N.ltb_spec (tss + 4 * k) tss) as [B0|B0]; [lia|].
      assert (A3 : @add_usize error_kind b (tss + 4 * k) n = Ok (tss + 4 * k + n)) by (unfold add_usize; rewrite H64; apply wrap_small; lia). rewrite A3. apply pair_ok.
      destruct (N.ltb_spec tse (tss + 4 * k + n)) as [B1|B1]; [apply pair_fail|apply pair_ret; exact B1].
    - intros _ _ B1 r1 r2 T. destruct (X B1 r1 r2 T) as [B0 N0]. split; [|exact N0]. destruct (fst _), (fst _); cbn [both] in *; auto.
  Qed.
  Lemma record_define {D} kd size (dn : env -> file_header -> header -> M D) (R : D -> D -> Prop) f g h n w k :
    size b h = Ok n -> n < 2 ^ 32 -> tss + 4 * k <= tse -> n = 4 * w -> reads w R (dn e1 fh h) (dn e2 fh h) -> (forall d d', R d d' -> same_type (f d) (g d')) ->
    record_twins k (d <- define_type_new kd size dn e1 fh h ;; ret (f d)) (d <- define_type_new kd size dn e2 fh h ;; ret (g d)).
  Proof.
    intros Hsz Hn Hk -> X Y. exists w. apply (pair_define kd size dn R _ f g h (4 * w)); try assumption.
    - intros L. apply reads_pair; [exact X|lia].
    - intros d d' L Hd. split; [lia|]. left. split; [lia|auto].
  Qed.
  Lemma mul_twins v n : v < 2 ^ 16 -> n <= 12 -> @mul_usize error_kind b v n = Ok (v * n).
  Proof. intros. unfold mul_usize. rewrite H64. apply wrap_small. nia. Qed.
  Lemma record_array k h : tss + 4 * k <= tse -> h_vlen h < 2 ^ 16 ->
    record_twins k (d <- define_type_new KArray array_data_size array_data_new e1 fh h ;; ret (TArray h d)) (d <- define_type_new KArray array_data_size array_data_new e2 fh h ;; ret (TArray h d)).
  Proof.
    intros Hk Hv. exists 3. eapply (pair_define KArray array_data_size array_data_new (fun d d' => tss + 4 * (k + 3) <= tse -> d = d') _ (TArray h) (TArray h) h (h_vlen h * 12)).
    - apply mul_twins; [exact Hv|lia].
    - nia.
    - exact Hk.
    - intros _. apply pair_array. exact Hk.
    - intros d d' _ Hd. split; [lia|]. destruct (N.le_gt_cases (tss + 4 * (k + 3)) tse) as [C|C]; [left; split; [exact C|]; rewrite (Hd C); reflexivity|].
      right. split; [exact C|]. exists h, d, d'. split; reflexivity.
  Qed.
  Lemma pair_parse k kd h : tss + 4 * k <= tse -> h_vlen h < 2 ^ 16 -> record_twins k (parse_type kd e1 fh h) (parse_type kd e2 fh h).
  Proof.
    intros Hk Hv. pose proof (mul_twins _ 12 Hv ltac:(lia)) as M12. pose proof (mul_twins _ 8 Hv ltac:(lia)) as M8.
    destruct kd; cbn [parse_type];
      [ eapply (record_define _ _ _ eq _ _ _ 4 1); [reflexivity|reflexivity|exact Hk|lia|apply reads_int|intros d d' <-; reflexivity]
      | eapply (record_define _ _ _ eq _ _ _ 0 0); [reflexivity|reflexivity|exact Hk|lia|apply reads_link|intros d d' <-; reflexivity]
      | apply record_array; assumption
      | eapply (record_define _ _ _ eq _ _ _ (h_vlen h * 12) (h_vlen h * 3)); [exact M12|nia|exact Hk|lia|apply reads_struct|intros d d' <-; reflexivity]
      | eapply (record_define _ _ _ eq _ _ _ (h_vlen h * 12) (h_vlen h * 3)); [exact M12|nia|exact Hk|lia|apply reads_struct|intros d d' <-; reflexivity]
      | eapply (record_define _ _ _ eq _ _ _ (h_vlen h * 8) (h_vlen h * 2)); [exact M8|nia|exact Hk|lia|apply reads_enum|intros d d' <-; reflexivity]
      | eapply (record_define _ _ _ eq _ _ _ 0 0); [reflexivity|reflexivity|exact Hk|lia|apply reads_named_link|intros d d' <-; reflexivity]
      | eapply (record_define _ _ _ eq _ _ _ 0 0); [reflexivity|reflexivity|exact Hk|lia|apply reads_named_link|intros d d' <-; reflexivity]
      | eapply (record_define _ _ _ eq _ _ _ 0 0); [reflexivity|reflexivity|exact Hk|lia|apply reads_link|intros d d' <-; reflexivity]
      | eapply (record_define _ _ _ eq _ _ _ 0 0); [reflexivity|reflexivity|exact Hk|lia|apply reads_link|intros d d' <-; reflexivity]
      | eapply (record_define _ _ _ eq _ _ _ 0 0); [reflexivity|reflexivity|exact Hk|lia|apply reads_link|intros d d' <-; reflexivity]
      | eapply (record_define _ _ _ eq _ _ _ 0 0); [reflexivity|reflexivity|exact Hk|lia|apply reads_named_link|intros d d' <-; reflexivity]
      | eapply (record_define _ _ _ eq _ _ _ (h_vlen h * 8) (h_vlen h * 2)); [exact M8|nia|exact Hk|lia|apply reads_func_proto|intros d d' <-; reflexivity]
      | eapply (record_define _ _ _ eq _ _ _ 4 1); [reflexivity|reflexivity|exact Hk|lia|apply reads_var|intros d d' <-; reflexivity]
      | eapply (record_define _ _ _ eq _ _ _ (h_vlen h * 12) (h_vlen h * 3)); [exact M12|nia|exact Hk|lia|apply reads_data_sec|intros d d' <-; reflexivity]
      | eapply (record_define _ _ _ eq _ _ _ 0 0); [reflexivity|reflexivity|exact Hk|lia|apply reads_float|intros d d' <-; reflexivity]
      | eapply (record_define _ _ _ eq _ _ _ 4 1); [reflexivity|reflexivity|exact Hk|lia|apply reads_decl_tag|intros d d' <-; reflexivity]
      | eapply (record_define _ _ _ eq _ _ _ 0 0); [reflexivity|reflexivity|exact Hk|lia|apply reads_named_link|intros d d' <-; reflexivity]
      | eapply (record_define _ _ _ same_but_halves _ _ _ (h_vlen h * 12) (h_vlen h * 3)); [exact M12|nia|exact Hk|lia|apply reads_enum64|intros d d' Hd; split; [reflexivity|exact Hd]] ].
  Qed.

  (** ** The table *)
  Definition list_twins (o : N) (ts ts' : list type_variant) : Prop :=
    (o <= tse /\ Forall2 same_type ts ts') \/ exists us us' t t', ts = us ++ [t] /\ ts' = us' ++ [t'] /\ Forall2 same_type us us' /\ crosses o t t'.
  Definition table_at (o : N) (ti ti' : type_information) : Prop := exists ts ts', ti = tables ts /\ ti' = tables ts' /\ list_twins o ts ts'.
  Definition state_at (o : N) (s s' : load_state) : Prop := exists ts ts', maps s = tables ts /\ maps s' = tables ts' /\ list_twins o ts ts' /\
    tid_generator s = 1 + N.of_nat (length ts) /\ tid_generator s' = 1 + N.of_nat (length ts) /\ tss + 12 * N.of_nat (length ts) <= o.
  Lemma twins_length ts ts' : Forall2 same_type ts ts' -> length ts = length ts'. Proof. induction 1; cbn [length]; congruence. Qed.
  (** Any number of rounds from offset [o]. *)
  Definition rounds (o : N) (m1 m2 : M type_information) : Prop := forall r1 r2, twins o r1 r2 ->
    both (fun _ _ => True) (fst (m1 r1)) (fst (m2 r2)) /\
    forall ti ti', fst (m1 r1) = Ok ti -> fst (m2 r2) = Ok ti' -> exists o', twins o' (snd (m1 r1)) (snd (m2 r2)) /\ tse <= o' /\ table_at o' ti ti'.
  Definition type_loop (e : env) := fun st : load_state =>
    o <- get_offset ;;
    if o <? tse then
      h <- header_new e fh ;;
      t <- parse_type (h_kind h) e fh h ;;
      let tid := tid_generator st in
      next <- lift (add_u32 (cfg e) tid 1) ;;
      ret (inl {| tid_generator := next; maps := add_type (maps st) tid t |})
    else ret (inr (maps st)).
  Lemma rounds_fail o k : rounds o (fail k) (fail k). Proof. intros r1 r2 _. split; [reflexivity|discriminate]. Qed.
  Lemma rounds_bind {A} o (Q : A -> A -> Prop) o' m1 m2 k1 k2 : pair (twins o) Q (twins o') m1 m2 -> (forall a c, Q a c -> rounds o' (k1 a) (k2 c)) -> rounds o (bind m1 k1) (bind m2 k2).
  Proof.
    intros Hm Hk r1 r2 T. destruct (Hm r1 r2 T) as [B0 N0]. unfold bind.
    destruct (m1 r1) as [[a|x|p|] r1'], (m2 r2) as [[a2|x2|p2|] r2']; cbn [fst snd both] in *; try contradiction; try (split; [assumption|discriminate]).
    exact (Hk a a2 B0 r1' r2' (N0 a eq_refl)).
  Qed.
  Lemma bind_bind {A B C} (m : M A) (k : A -> M B) (l : B -> M C) r : bind (bind m k) l r = bind m (fun a => bind (k a) l) r.
  Proof. unfold bind. destruct (m r) as [[a|x|p|] r']; reflexivity. Qed.
  Lemma rounds_ext o m1 m2 m1' m2' : (forall r, m1 r = m1' r) -> (forall r, m2 r = m2' r) -> rounds o m1' m2' -> rounds o m1 m2.
  Proof. intros E1 E2 H r1 r2 T. rewrite E1, E2. exact (H r1 r2 T). Qed.
  Lemma rounds_loop n : forall k s s', tss + 4 * k <= tse + 12 -> state_at (tss + 4 * k) s s' -> rounds (tss + 4 * k) (while_nat n (type_loop e1) s) (while_nat n (type_loop e2) s').
  Proof.
    induction n as [|n IH]; intros k s s' L (ts & ts' & Em & Em' & LT & Et & Et' & Ln); cbn [while_nat]; [intros r1 r2 _; split; [exact I|discriminate]|].
    unfold type_loop at 1 3. eapply rounds_ext; [intros r; apply bind_bind|intros r; apply bind_bind|].
    eapply rounds_bind; [apply pair_offset|]. intros a c [-> ->]. destruct (N.ltb_spec (tss + 4 * k) tse) as [B0|B0].
    2:{ intros r1 r2 T. unfold bind, ret. cbn [fst snd]. split; [exact I|]. intros ti ti' X Y. injection X as <-. injection Y as <-. exists (tss + 4 * k). split; [exact T|]. split; [exact B0|].
        exists ts, ts'. auto. }
    destruct LT as [[_ F]|(us & us' & t & t' & _ & _ & _ & C & _)]; [|lia].
    eapply rounds_ext; [intros r; apply bind_bind|intros r; apply bind_bind|].
    eapply rounds_bind; [intros r1 r2 T; exact (header_twins k r1 r2 ltac:(lia) T)|]. intros h h' (<- & L3 & Lv).
    eapply rounds_ext; [intros r; apply bind_bind|intros r; apply bind_bind|].
    destruct (pair_parse (k + 3) (h_kind h) h L3 Lv) as (w & PP). eapply rounds_bind; [exact PP|]. intros t t' (Lw & S).
    change (cfg e1) with b. change (cfg e2) with b. cbv zeta. rewrite Et, Et'.
    assert (A1 : @add_u32 error_kind b (1 + N.of_nat (length ts)) 1 = Ok (1 + N.of_nat (length ts) + 1)) by (unfold add_u32; apply wrap_small; lia). rewrite A1.
    intros r1 r2 T. unfold bind, lift, ret. apply (IH (k + 3 + w)); [exact Lw| |exact T]. exists (ts ++ [t]), (ts' ++ [t']). cbn [maps tid_generator].
    rewrite !tables_snoc, Em, Em', app_length, <- (twins_length _ _ F). cbn [length]. split; [reflexivity|]. split; [reflexivity|].
    split; [|split; [lia|split; lia]]. destruct S as [[Lt S]|C].
    - left. split; [exact Lt|]. apply Forall2_app; [exact F|constructor; [exact S|constructor]].
    - right. exists ts, ts', t, t'. auto.
  Qed.
  Lemma rounds_types : rounds tss (load_types e1 fh tse) (load_types e2 fh tse).
  Proof.
    intros r1 r2 T. unfold load_types. rewrite !while_M_nat. replace tss with (tss + 4 * 0) in T by lia. apply (rounds_loop (N.to_nat (type_len fh + 1)) 0 load_init load_init); [lia| |exact T].
    exists [], []. split; [reflexivity|]. split; [reflexivity|]. split; [left; split; [lia|constructor]|]. cbn. repeat split; lia.
  Qed.
End Mirror.

(** ** The header *)
Section Header.
  Context (b : build) (img img' : list byte) (H64 : usize_bits b = 64) (HM : mirrored img img').
  Let e1 := {| cfg := b; rd := readable_file img |}.
  Let e2 := {| cfg := b; rd := readable_file img' |}.
  Definition starts (r1 r2 : reader) : Prop := r_end r1 = Little /\ r_end r2 = Little /\ r_off r1 = 0 /\ r_off r2 = 0.
  Lemma magic_answer i x y tr : bytes_at i 0 [x; y] -> readable_file i tr 0 2 = Bytes [x; y].
  Proof.
    intros (pre & post & -> & L). destruct pre; [|cbn in L; lia]. unfold readable_file. cbn [app length]. destruct (N.leb_spec (0 + 2) (N.of_nat (S (S (length post))))); [reflexivity|lia].
  Qed.
  Lemma pair_magic : pair starts eq (twins 2) (detect_endianness e1) (detect_endianness e2).
  Proof.
    intros r1 r2 (E1 & E2 & O1 & O2). unfold detect_endianness, bind, read_u16, read_uint, bind, read. rewrite O1, O2.
    cbn [rd cfg e1 e2]. rewrite (magic_answer _ _ _ _ (magic_little _ _ HM)), (magic_answer _ _ _ _ (magic_big _ _ HM)).
    assert (Ad : @add_usize error_kind b 0 2 = Ok 2) by (unfold add_usize; rewrite H64; reflexivity). rewrite Ad. cbn [with_offset r_end]. rewrite E1, E2.
    split; [reflexivity|]. intros _ _. repeat split.
  Qed.
  Lemma pair_header : pair (fun r1 r2 => r1 = reader_new /\ r2 = reader_new) eq (twins 24) (file_header_new e1) (file_header_new e2).
  Proof.
    unfold file_header_new. apply (pair_bind _ eq starts); [intros r1 r2 [-> ->]; split; [reflexivity|]; intros _ _; repeat split|]. intros _ _ _.
    eapply pair_bind; [apply pair_magic|]. intros _ _ _.
    eapply pair_bind; [apply (pair_u8 b img img' H64 2); [apply (same_version _ _ HM)|reflexivity]|]. intros v v' <-.
    eapply pair_bind; [apply (pair_u8 b img img' H64 3); [apply (same_flags _ _ HM)|reflexivity]|]. intros f f' <-.
    pose proof (header_words _ _ HM) as HW.
    eapply pair_bind; [apply (pair_word b img img' H64 4); [apply HW; cbn; tauto|reflexivity]|]. intros a1 a1' <-.
    eapply pair_bind; [apply (pair_word b img img' H64 8); [apply HW; cbn; tauto|reflexivity]|]. intros a2 a2' <-.
    eapply pair_bind; [apply (pair_word b img img' H64 12); [apply HW; cbn; tauto|reflexivity]|]. intros a3 a3' <-.
    eapply pair_bind; [apply (pair_word b img img' H64 16); [apply HW; cbn; tauto|reflexivity]|]. intros a4 a4' <-.
    eapply pair_bind; [apply (pair_word b img img' H64 20); [apply HW; cbn; tauto|reflexivity]|]. intros a5 a5' <-.
    apply pair_ret. reflexivity.
  Qed.
End Header.

(** ** Queries on the two tables *)
Definition entry_twins (p q : N * type_variant) : Prop := fst p = fst q /\ same_type (snd p) (snd q).
Definition maps_twins (m m' : type_information) : Prop :=
  Forall2 entry_twins (id_to_type_map m) (id_to_type_map m') /\ name_to_id_map m = name_to_id_map m' /\ id_to_name_map m = id_to_name_map m'.
Lemma insert_twins t ty ty' l l' : same_type ty ty' -> Forall2 entry_twins l l' -> Forall2 entry_twins (bt_insert N.compare t ty l) (bt_insert N.compare t ty' l').
Proof.
  intros H F. induction F as [|[a x] [a' x'] l l' [E S] F IH]; cbn [bt_insert]; [repeat constructor; exact H|].
  cbn [fst snd] in E, S. subst a'. destruct (N.compare t a); constructor; try (split; [reflexivity|assumption]); try exact F; try exact IH.
  constructor; [split; [reflexivity|exact S]|exact F].
Qed.
Lemma name_twins t t' : same_type t t' -> type_name t = type_name t'.
Proof. destruct t, t'; cbn [same_type]; intros H; try congruence. destruct H as (_ & H & _). exact H. Qed.
Lemma add_twins m m' n t t' : maps_twins m m' -> same_type t t' -> maps_twins (add_type m n t) (add_type m' n t').
Proof.
  intros (A & B & C) H. unfold add_type. rewrite <- (name_twins _ _ H). destruct (type_name t); unfold maps_twins; cbn [id_to_type_map name_to_id_map id_to_name_map]; rewrite <- B, <- C;
    (split; [apply insert_twins; assumption|split; reflexivity]).
Qed.
Lemma tables_twins ts : forall ts', Forall2 same_type ts ts' -> maps_twins (tables ts) (tables ts').
Proof.
  induction ts as [|t ts IH] using rev_ind; intros ts' F.
  - inversion F; subst. split; [constructor|split; reflexivity].
  - apply Forall2_app_inv_l in F as (l1 & l2 & F1 & F2 & ->). inversion F2 as [|? t' ? ? S F3]; subst. inversion F3; subst.
    rewrite !tables_snoc, <- (twins_length _ _ F1). apply add_twins; [apply IH; exact F1|exact S].
Qed.
Section Queries.
  Context (c : build) (ti ti' : type_information) (HT : maps_twins ti ti').
  Lemma from_twins t : match from_id ti t, from_id ti' t with Some x, Some y => same_type x y | None, None => True | _, _ => False end.
  Proof.
    unfold from_id. destruct (t =? 0); [reflexivity|]. destruct HT as (F & _). induction F as [|[a x] [a' x'] l l' [E S] F IH]; cbn [bt_get]; [exact I|].
    cbn [fst snd] in E, S. subst a'. destruct (N.compare t a); assumption.
  Qed.
  Lemma fuel_twins : chain_fuel ti = chain_fuel ti'.
  Proof. unfold chain_fuel. destruct HT as (F & _). f_equal. induction F; cbn [length]; congruence. Qed.
  Lemma id_twins n : id_of ti n = id_of ti' n. Proof. unfold id_of. destruct HT as (_ & -> & _). reflexivity. Qed.
  Lemma name_of_twins n : name_of ti n = name_of ti' n. Proof. unfold name_of. destruct HT as (_ & _ & ->). reflexivity. Qed.
  Ltac twin t := pose proof (from_twins t) as FT; destruct (from_id ti t) as [x|], (from_id ti' t) as [y|]; try contradiction; try reflexivity.
  Lemma pointee_twins n : forall t, pointee_tid_fuel n ti t = pointee_tid_fuel n ti' t.
  Proof. induction n as [|n IH]; intros t; cbn [pointee_tid_fuel]; [reflexivity|]. twin t. destruct x, y; cbn [same_type] in FT; try discriminate FT; try reflexivity; injection FT as <- <-; apply IH || reflexivity. Qed.
  Lemma pointer_twins : pointer_size ti = pointer_size ti'.
  Proof. unfold pointer_size. rewrite id_twins. destruct (id_of ti' _) as [n|]; [|reflexivity]. twin n. destruct x, y; cbn [same_type] in FT; try discriminate FT; try reflexivity; injection FT as <- <-; reflexivity. Qed.
  Lemma size_twins n : forall t, size_of_fuel n c ti t = size_of_fuel n c ti' t.
  Proof.
    induction n as [|n IH]; intros t; cbn [size_of_fuel]; [reflexivity|]. twin t. destruct x, y; cbn [same_type] in FT; try discriminate FT; try reflexivity;
      try (injection FT as <- <-); try apply IH; try apply pointer_twins; try reflexivity; [rewrite IH; reflexivity|]. destruct FT as (_ & _ & -> & _). reflexivity.
  Qed.
  Definition resolved_twins (x y : outcome offset_error (N * type_variant)) : Prop :=
    match x, y with Ok (n, t), Ok (n', t') => n = n' /\ same_type t t' | Err k, Err k' => k = k' | Diverge, Diverge => True | _, _ => False end.
  Lemma resolve_twins n : forall t, resolved_twins (resolve_fuel n ti t) (resolve_fuel n ti' t).
  Proof.
    induction n as [|n IH]; intros t; cbn [resolve_fuel]; [exact I|]. twin t. destruct x, y; cbn [same_type] in FT; try discriminate FT;
      try (injection FT as <- <-; first [apply IH | split; reflexivity]); try (split; [reflexivity|exact FT]).
  Qed.
  Lemma step_twins d o i : array_step c ti d o i = array_step c ti' d o i.
  Proof. unfold array_step, size_of. rewrite size_twins, fuel_twins. reflexivity. Qed.
  Lemma probe_twins p p' : (forall o t, p o t = p' o t) -> forall o ms, probe_anonymous p o ms = probe_anonymous p' o ms.
  Proof.
    intros H o ms. induction ms as [|m ms IH]; cbn [probe_anonymous]; [reflexivity|]. rewrite IH. destruct (is_anonymous m); [|reflexivity].
    destruct (btf_err (offset_add (m_offset m) o)); cbn [obind]; try reflexivity. rewrite H. reflexivity.
  Qed.
  Lemma offset_twins n path : forall o t it, offset_of_impl n c ti path o t it = offset_of_impl n c ti' path o t it.
  Proof.
    induction n as [|n IH]; intros o t it; cbn [offset_of_impl]; [reflexivity|]. destruct (next c path it) as [[[comp|]|k|q|] it']; try reflexivity.
    unfold resolve. pose proof (resolve_twins (chain_fuel ti) t) as R. rewrite <- fuel_twins. unfold resolved_twins in R.
    destruct (resolve_fuel (chain_fuel ti) ti t) as [[u x]|k|q|], (resolve_fuel (chain_fuel ti) ti' t) as [[u' y]|k'|q'|]; try contradiction; try (f_equal; exact R); try reflexivity.
    destruct R as [<- S]. destruct x, y; cbn [same_type] in S; try discriminate S; try reflexivity; try (injection S as <- <-); try reflexivity; destruct comp as [i|nm]; try reflexivity.
    - rewrite step_twins. destruct (array_step c ti' d o i); cbn [obind]; try reflexivity. apply IH.
    - rewrite (probe_twins _ (fun o mt => offset_of_impl n c ti' path o mt it)) by (intros; apply IH). destruct (probe_anonymous _ o (member_list d)) as [[r|]|k|q|]; cbn [obind]; try reflexivity.
      destruct (find _ _) as [m|]; [|reflexivity]. destruct (btf_err _); cbn [obind]; try reflexivity. apply IH.
    - rewrite (probe_twins _ (fun o mt => offset_of_impl n c ti' path o mt it)) by (intros; apply IH). destruct (probe_anonymous _ o (member_list d)) as [[r|]|k|q|]; cbn [obind]; try reflexivity.
      destruct (find _ _) as [m|]; [|reflexivity]. destruct (btf_err _); cbn [obind]; try reflexivity. apply IH.
  Qed.
  Lemma table_twins : same_table ti ti'.
  Proof.
    destruct HT as (F & _). split; [|split; [|split; [exact id_twins|exact name_of_twins]]]; unfold get.
    - induction F as [|? ? ? ? [E _] F IH]; cbn [map]; congruence.
    - induction F as [|? ? ? ? [_ S] F IH]; cbn [map]; constructor; assumption.
  Qed.
End Queries.
