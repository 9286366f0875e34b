(** * Release32: 32-bit builds without overflow checks (C59): no panic, and a file of 4 GiB whose loading never ends. *)
From Coq Require Import List NArith Bool Lia ZifyBool ZifyNat ZifyN Strings.Byte.
From Verif Require Import TypeInfo Spec BaseFacts LoadProps.
Import ListNotations.
Open Scope N_scope.

(** ** No panic without overflow checks *)
Definition calm {A} (m : M A) : Prop := forall r p, fst (m r) <> Panic p.
Lemma calm_ret {A} (a : A) : calm (ret a). Proof. intros r p. discriminate. Qed.
Lemma calm_fail {A} k : calm (@fail A k). Proof. intros r p. discriminate. Qed.
Lemma calm_bind {A B} (m : M A) (k : A -> M B) : calm m -> (forall a, calm (k a)) -> calm (bind m k).
Proof. intros Hm Hk r p. unfold bind. specialize (Hm r). destruct (m r) as [[a|e|q|] r1]; cbn [fst] in *; try discriminate; [apply Hk|intros H; injection H as ->; exact (Hm p eq_refl)]. Qed.
Lemma calm_inspect {A} (m : M A) h : calm m -> calm (inspect_err m h).
Proof. intros H r p. unfold inspect_err. specialize (H r p). destruct (m r) as [[a|e|q|] r1]; cbn [fst] in *; try discriminate. exact H. Qed.
Lemma calm_get_offset : calm get_offset. Proof. intros r p. discriminate. Qed.
Lemma calm_set_offset o : calm (set_offset o). Proof. intros r p. discriminate. Qed.
Lemma calm_set_endianness o : calm (set_endianness o). Proof. intros r p. discriminate. Qed.
Lemma calm_while {S A} n (body : S -> M (S + A)) : (forall s, calm (body s)) -> forall s, calm (while_M n body s).
Proof.
  intros H s r p. rewrite while_M_nat. revert s r p. change (forall s, calm (while_nat (N.to_nat n) body s)).
  induction (N.to_nat n) as [|k IH]; intros s; [intros r p; discriminate|]. apply calm_bind; [apply H|]. intros [s'|a]; [apply IH|apply calm_ret].
Qed.
Lemma calm_repeat {A} n (m : M A) : calm m -> calm (repeat_M n m).
Proof. intros H. induction n as [|n IH]; [apply calm_ret|]. apply calm_bind; [exact H|]. intros a. apply calm_bind; [exact IH|]. intros l. apply calm_ret. Qed.
Lemma calm_lift {A} (o : outcome error_kind A) : (forall p, o <> Panic p) -> calm (lift o).
Proof. intros H r p. apply H. Qed.
Lemma calm_ok_or {A} k (o : option A) : calm (lift (ok_or k o)). Proof. apply calm_lift. destruct o; discriminate. Qed.

Section Calm.
  Context (e : env) (Hc : overflow_checks (cfg e) = false).
  Lemma wrap_calm bits v p : @wrap_or_panic error_kind (cfg e) bits v <> Panic p.
  Proof. unfold wrap_or_panic. rewrite Hc. destruct (v <? two_pow bits); discriminate. Qed.
  Lemma calm_wrap bits v : calm (lift (wrap_or_panic (cfg e) bits v)). Proof. apply calm_lift. apply wrap_calm. Qed.
  Lemma calm_read n : calm (read e n).
  Proof.
    intros r p. unfold read. destruct (rd e (r_trace r) (r_off r) n); [|discriminate]. pose proof (wrap_calm (usize_bits (cfg e)) (r_off r + n)) as W. unfold add_usize.
    destruct (wrap_or_panic (cfg e) (usize_bits (cfg e)) (r_off r + n)) as [o|k|q|]; cbn [fst]; try discriminate. intros X. injection X as ->. exact (W _ eq_refl).
  Qed.
  Lemma calm_read_uint n : calm (read_uint e n).
  Proof. unfold read_uint. intros r p. apply (calm_bind (read e n) (fun bs r' => (Ok (match r_end r' with Little => from_le_bytes bs | Big => from_be_bytes bs end), r'))); [apply calm_read|]. intros a r' q. discriminate. Qed.
  Lemma calm_read_u8 : calm (read_u8 e).
  Proof.
    intros r p. unfold read_u8, bind. pose proof (calm_read 1 r) as R. unfold read in *. destruct (rd e (r_trace r) (r_off r) 1) as [bs|k]; [|discriminate].
    destruct (add_usize (cfg e) (r_off r) 1) as [o|k|q|]; cbn [fst] in *; try discriminate.
    - pose proof (length_fit (N.to_nat 1) bs) as L. destruct (fit (N.to_nat 1) bs); [discriminate L|discriminate].
    - intros _. exact (R q eq_refl).
  Qed.
  Ltac calm := repeat first
    [ progress intros | apply calm_ret | apply calm_fail | apply calm_get_offset | apply calm_set_offset | apply calm_set_endianness | apply calm_inspect
    | apply calm_ok_or | apply calm_read_uint | apply calm_read_u8 | apply calm_wrap | apply calm_bind | apply calm_repeat | apply calm_while
    | match goal with |- calm (if ?b then _ else _) => destruct b | |- calm (match ?x with _ => _ end) => destruct x end ].
  Lemma calm_parse_string fh o : calm (parse_string e fh o). Proof. unfold parse_string, add_usize. calm. Qed.
  Lemma calm_name fh o : calm (parse_name_opt e fh o). Proof. unfold parse_name_opt. destruct (negb (o =? 0)); [|apply calm_ret]. apply calm_bind; [apply calm_parse_string|]. calm. Qed.
  Lemma calm_decode kf raw : calm (lift (decode_member_offset kf raw)).
  Proof. apply calm_lift. intros p. unfold decode_member_offset. destruct kf; [destruct (_ && _)|destruct (_ =? _)]; discriminate. Qed.
  Lemma calm_kind n : calm (lift (kind_new n)).
  Proof. apply calm_lift. intros p. unfold kind_new. repeat (match goal with |- context [match ?x with _ => _ end] => destruct x end; try discriminate). Qed.
  Ltac calm2 := repeat first [ apply calm_name | apply calm_parse_string | apply calm_decode | apply calm_kind | progress calm ].
  Lemma calm_define {D} k (size : build -> header -> outcome error_kind N) (new : env -> file_header -> header -> M D) fh h :
    (forall p, size (cfg e) h <> Panic p) -> calm (new e fh h) -> calm (define_type_new k size new e fh h).
  Proof. intros Hs Hn. unfold define_type_new, add_u32, add_usize. destruct (negb _); [apply calm_fail|]. apply calm_bind; [apply calm_lift, Hs|]. intros a. apply calm_bind; [calm|]. intros _. exact Hn. Qed.
  Lemma calm_parse_type k fh h : calm (parse_type k e fh h).
  Proof.
    destruct k; unfold parse_type; (apply calm_bind; [|intros d; apply calm_ret]); (apply calm_define; [intros p; try discriminate; apply wrap_calm|]);
    unfold int_data_new, named_link_data_new, link_data_new, enum_data_new, enum64_data_new, array_data_new, func_proto_data_new, struct_data_new, var_data_new, float_data_new, data_sec_data_new, decl_tag_data_new,
      parse_named_value32, parse_named_value64, parse_member, parse_parameter, parse_variable, read_i32, read_i64, read_u32, read_u64; cbv zeta; calm2.
  Qed.
  Lemma calm_load : calm (load e).
  Proof.
    unfold load, file_header_new, detect_endianness, load_types, header_new, read_u16, read_u32, add_usize, add_u32. calm2. apply calm_parse_type.
  Qed.
End Calm.

(** ** A file of 4 GiB, and a 32-bit build that reads it round and round *)
(** Words as they are stored, little endian.  As a header: version 1, flags 2, hdr_len = type_off = 0x0A000000, type_len = 0xEBFFFFFF
    (so that the type section ends at 2^32 - 1); as info words: Ptr, Const, Const, Restrict, Ptr, Ptr. *)
Definition giant_head : list (list byte) :=
  [[x9f; xeb; x01; x02]; [x00; x00; x00; x0a]; [x00; x00; x00; x0a]; [xff; xff; xff; xeb]; [x00; x00; x00; x02]; [x00; x00; x00; x02]].
Definition giant_words (n : nat) : list (list byte) := giant_head ++ repeat [x00; x00; x00; x02] n.
Definition giant_of (n : nat) : list byte := concat (giant_words n).
Definition giant : list byte := giant_of (N.to_nat (2 ^ 30 - 6)).
Lemma concat_slice (ws : list (list byte)) j w : Forall (fun x => length x = 4%nat) ws -> nth_error ws j = Some w ->
  exists post, skipn (4 * j) (concat ws) = w ++ post.
Proof.
  revert j. induction ws as [|x ws IH]; intros j F H; [destruct j; discriminate|]. inversion F as [|? ? Hx F']; subst. destruct j as [|j].
  - injection H as ->. exists (concat ws). reflexivity.
  - cbn [nth_error] in H. destruct (IH j F' H) as (post & E). exists post. rewrite <- E. cbn [concat]. rewrite skipn_app, Hx. rewrite skipn_all2 by lia. cbn [app]. f_equal. lia.
Qed.
Lemma giant_four n : Forall (fun x : list byte => length x = 4%nat) (giant_words n).
Proof. apply Forall_app. split; [repeat constructor|]. apply Forall_forall. intros x H. apply repeat_spec in H. subst. reflexivity. Qed.
Lemma concat_len (ws : list (list byte)) : Forall (fun x => length x = 4%nat) ws -> length (concat ws) = (4 * length ws)%nat.
Proof. induction 1 as [|x ws Hx F IH]; [reflexivity|]. cbn [concat length]. rewrite app_length, IH, Hx. lia. Qed.
Lemma giant_of_len n : length (giant_of n) = (4 * (6 + n))%nat.
Proof. unfold giant_of. rewrite concat_len by apply giant_four. unfold giant_words. rewrite app_length, repeat_length. reflexivity. Qed.
Lemma giant_len : N.of_nat (length giant) = 2 ^ 32.
Proof.
  unfold giant. rewrite giant_of_len. rewrite Nat2N.inj_mul, Nat2N.inj_add, N2Nat.id. reflexivity.
Qed.
Lemma giant_slice j w k n : nth_error (giant_words n) j = Some w -> (k <= 4)%nat -> firstn k (skipn (4 * j) (giant_of n)) = firstn k w.
Proof.
  intros H L. destruct (concat_slice _ _ _ (giant_four n) H) as (post & E). unfold giant_of. rewrite E.
  assert (W : length w = 4%nat) by (eapply (proj1 (Forall_forall _ _) (giant_four n)); eapply nth_error_In; exact H).
  rewrite firstn_app, W. replace (k - 4)%nat with 0%nat by lia. rewrite firstn_O, app_nil_r. reflexivity.
Qed.
Definition giant_kinds (w : list byte) : Prop := In (N.shiftr (N.land (from_le_bytes w) 0x1F000000) 24) [2; 10; 11].
Lemma giant_word n j : (j < 6 + n)%nat -> exists w, nth_error (giant_words n) j = Some w /\ length w = 4%nat /\ giant_kinds w.
Proof.
  intros L. destruct (nth_error (giant_words n) j) as [w|] eqn:E.
  - exists w. split; [reflexivity|]. assert (I : In w (giant_words n)) by (eapply nth_error_In; exact E). split; [eapply (proj1 (Forall_forall _ _) (giant_four n)); exact I|].
    apply in_app_or in I. destruct I as [I|I]; [|apply repeat_spec in I; subst; vm_compute; auto].
    repeat (destruct I as [<-|I]; [vm_compute; auto|]). destruct I.
  - apply nth_error_None in E. unfold giant_words in E. rewrite app_length, repeat_length in E. cbn [length giant_head] in E. lia.
Qed.
Opaque giant.
Definition release32 : env := {| cfg := build32 false; rd := readable_file giant |}.
Lemma giant_answer tr j : j < 2 ^ 30 -> exists w, rd release32 tr (4 * j) 4 = Bytes w /\ length w = 4%nat /\ giant_kinds w.
Proof.
  intros L. set (n := N.to_nat (2 ^ 30 - 6)). assert (Ln : N.of_nat n = 2 ^ 30 - 6) by (unfold n; apply N2Nat.id).
  destruct (giant_word n (N.to_nat j)) as (w & E & W & K); [clearbody n; lia|]. exists w. split; [|auto].
  cbn [rd release32]. unfold readable_file. rewrite giant_len. destruct (N.leb_spec (4 * j + 4) (2 ^ 32)) as [_|X]; [|lia]. f_equal. unfold slice.
  replace (N.to_nat (4 * j)) with (4 * N.to_nat j)%nat by lia. Transparent giant. unfold giant. fold n. clearbody n. Opaque giant.
  change (N.to_nat 4) with 4%nat. rewrite (giant_slice _ _ 4 n E) by lia. rewrite <- W. apply firstn_all.
Qed.
Definition giant_first : list byte := concat giant_head.
Lemma giant_begins : exists rest, giant = giant_first ++ rest.
Proof. Transparent giant. unfold giant, giant_of, giant_words. Opaque giant. rewrite concat_app. eexists. reflexivity. Qed.
Lemma head_answer tr o n : o + n <= 24 -> rd release32 tr o n = Bytes (slice giant_first o n).
Proof.
  intros L. destruct giant_begins as (rest & E). cbn [rd release32]. unfold readable_file. rewrite giant_len. destruct (N.leb_spec (o + n) (2 ^ 32)) as [_|X]; [|lia]. f_equal.
  unfold slice. rewrite E, skipn_app, firstn_app. change (length giant_first) with 24%nat.
  replace (N.to_nat n - length (skipn (N.to_nat o) giant_first))%nat with 0%nat; [rewrite firstn_O, app_nil_r; reflexivity|].
  rewrite skipn_length. change (length giant_first) with 24%nat. lia.
Qed.
Definition small32 : env := {| cfg := build32 false; rd := readable_file giant_first |}.
Lemma small_answer tr o n : o + n <= 24 -> rd small32 tr o n = Bytes (slice giant_first o n).
Proof. intros L. cbn [rd small32]. unfold readable_file. change (N.of_nat (length giant_first)) with 24. destruct (N.leb_spec (o + n) 24); [reflexivity|lia]. Qed.
Lemma head_read n r : r_off r + n <= 24 -> read release32 n r = read small32 n r.
Proof. intros L. unfold read. rewrite head_answer, small_answer by exact L. reflexivity. Qed.
Lemma head_uint n r : r_off r + n <= 24 -> read_uint release32 n r = read_uint small32 n r.
Proof. intros L. unfold read_uint, bind. rewrite (head_read n r L). reflexivity. Qed.
Lemma head_u8 r : r_off r + 1 <= 24 -> read_u8 release32 r = read_u8 small32 r.
Proof. intros L. unfold read_u8, bind. rewrite (head_read 1 r L). reflexivity. Qed.
Ltac step_head := erewrite bind_eq; [|first [rewrite head_uint by (vm_compute; discriminate)|rewrite head_u8 by (vm_compute; discriminate)]; vm_compute; reflexivity].
Definition giant_fh : file_header := {| version := 1; flags := 2; hdr_len := 0x0A000000; type_off := 0x0A000000; type_len := 0xEBFFFFFF; str_off := 0x02000000; str_len := 0x02000000 |}.
Lemma giant_header : exists r, file_header_new release32 reader_new = (Ok giant_fh, r) /\ r_end r = Little.
Proof.
  unfold file_header_new. erewrite bind_eq; [|reflexivity]. unfold detect_endianness, read_u16, read_u32.
  erewrite bind_eq; [|step_head; vm_compute; reflexivity]. do 7 step_head. eexists. split; [vm_compute; reflexivity|reflexivity].
Qed.

(** One word, and one round of the loop *)
Definition at_word (j : N) (r : reader) : Prop := j < 2 ^ 30 /\ r_off r = 4 * j /\ r_end r = Little.
Lemma giant_read j r : at_word j r -> exists v r', read_u32 release32 r = (Ok v, r') /\ at_word ((j + 1) mod 2 ^ 30) r' /\ In (N.shiftr (N.land v 0x1F000000) 24) [2; 10; 11].
Proof.
  intros (L & O & E). destruct (giant_answer (r_trace r) j L) as (w & A & W & K). exists (from_le_bytes w).
  unfold read_u32, read_uint, bind, read. rewrite O, A. unfold add_usize, wrap_or_panic. cbn [cfg release32 build32 usize_bits overflow_checks]. unfold two_pow.
  assert (M : (if 4 * j + 4 <? 2 ^ 32 then @Ok error_kind N (4 * j + 4) else Ok ((4 * j + 4) mod 2 ^ 32)) = Ok (4 * ((j + 1) mod 2 ^ 30))).
  { destruct (N.ltb_spec (4 * j + 4) (2 ^ 32)) as [X|X]; f_equal.
    - rewrite N.mod_small by lia. lia.
    - replace (4 * j + 4) with (2 ^ 32) by lia. replace (j + 1) with (2 ^ 30) by lia. reflexivity. }
  rewrite M. rewrite fit_exact by (rewrite W; reflexivity). cbn [r_end with_offset]. rewrite E. eexists. split; [reflexivity|]. split; [|exact K].
  split; [apply N.mod_lt; discriminate|]. split; reflexivity.
Qed.
Definition round (e : env) (fh : file_header) (st : load_state) : M (load_state + type_information) :=
  h <- header_new e fh ;; t <- parse_type (h_kind h) e fh h ;; let tid := tid_generator st in
  next <- lift (add_u32 (cfg e) tid 1) ;; ret (inl {| tid_generator := next; maps := add_type (maps st) tid t |}).
Lemma giant_round j r st : at_word j r -> exists j' st' r', round release32 giant_fh st r = (Ok (inl st'), r') /\ at_word j' r'.
Proof.
  unfold round. intros A. pose proof A as (L & O & E).
  destruct (giant_read j r A) as (v1 & r1 & R1 & A1 & _). destruct (giant_read _ r1 A1) as (v2 & r2 & R2 & A2 & K2). destruct (giant_read _ r2 A2) as (v3 & r3 & R3 & A3 & _).
  assert (H : exists h, header_new release32 giant_fh r = (Ok h, r3) /\ In (h_kind h) [KPtr; KConst; KRestrict]).
  { unfold header_new. change (checked 32 (hdr_len giant_fh + type_off giant_fh)) with (Some 0x14000000). erewrite bind_eq; [|reflexivity].
    change (checked 32 (0x14000000 + type_len giant_fh)) with (Some 0xFFFFFFFF). erewrite bind_eq; [|reflexivity]. erewrite bind_eq; [|reflexivity]. rewrite O.
    assert (S : exists stop, @add_usize error_kind (cfg release32) (4 * j) TYPE_HEADER_SIZE = Ok stop /\ stop <= 0xFFFFFFFF).
    { unfold add_usize, wrap_or_panic, TYPE_HEADER_SIZE. cbn [cfg release32 build32 usize_bits overflow_checks]. unfold two_pow. destruct (N.ltb_spec (4 * j + 12) (2 ^ 32)); eexists; (split; [reflexivity|]); [lia|].
      assert ((4 * j + 12) mod 2 ^ 32 < 2 ^ 32) by (apply N.mod_lt; discriminate). lia. }
    destruct S as (stop & Es & Ls). rewrite Es. erewrite bind_eq; [|reflexivity]. destruct (N.ltb_spec 0xFFFFFFFF stop); [lia|].
    rewrite (bind_eq _ _ _ _ _ R1), (bind_eq _ _ _ _ _ R2).
    destruct K2 as [K|[K|[K|[]]]]; rewrite <- K; (erewrite bind_eq; [|reflexivity]); rewrite (bind_eq _ _ _ _ _ R3); eexists; (split; [reflexivity|]); cbn [h_kind In]; auto. }
  destruct H as (h & Eh & Kh).
  assert (T : exists t, parse_type (h_kind h) release32 giant_fh h r3 = (Ok t, r3)).
  { assert (X : kind_eqb (h_kind h) (h_kind h) = true) by (destruct (h_kind h); reflexivity).
    destruct Kh as [K|[K|[K|[]]]]; rewrite <- K in *; unfold parse_type, bind, define_type_new; rewrite <- K; eexists; reflexivity. }
  destruct T as (t & Et).
  assert (Nx : exists nx, @add_u32 error_kind (cfg release32) (tid_generator st) 1 = Ok nx).
  { unfold add_u32, wrap_or_panic. cbn [cfg release32 build32 overflow_checks]. destruct (_ <? _); eauto. }
  destruct Nx as (nx & En). rewrite (bind_eq _ _ _ _ _ Eh), (bind_eq _ _ _ _ _ Et). cbv zeta. rewrite En. do 3 eexists. split; [reflexivity|exact A3].
Qed.
(** [load] with another bound on the number of rounds *)
Definition load_with (bound : file_header -> N) (e : env) : M type_information :=
  fh <- file_header_new e ;;
  tss <- lift (ok_or InvalidTypeSectionOffset (checked 32 (hdr_len fh + type_off fh))) ;;
  tse <- lift (ok_or InvalidTypeSectionOffset (checked (usize_bits (cfg e)) (tss + type_len fh))) ;;
  set_offset tss ;;;
  while_M (bound fh) (fun st =>
    o <- get_offset ;;
    if o <? tse then
      h <- header_new e fh ;;
      t <- parse_type (h_kind h) e fh h ;;
      let tid := tid_generator st in
      next <- lift (add_u32 (cfg e) tid 1) ;;
      ret (inl {| tid_generator := next; maps := add_type (maps st) tid t |})
    else ret (inr (maps st))) load_init.
Lemma load_is_with e : load e = load_with (fun fh => type_len fh + 1) e. Proof. reflexivity. Qed.
Lemma endless_if e bound : cfg e = build32 false -> (exists r, file_header_new e reader_new = (Ok giant_fh, r) /\ r_end r = Little) ->
  (forall j r st, at_word j r -> exists j' st' r', round e giant_fh st r = (Ok (inl st'), r') /\ at_word j' r') -> fst (load_with bound e reader_new) = Diverge.
Proof.
  intros Hc (r & Eh & En) Round. unfold load_with. rewrite (bind_eq _ _ _ _ _ Eh). rewrite Hc.
  change (checked 32 (hdr_len giant_fh + type_off giant_fh)) with (Some 0x14000000). erewrite bind_eq; [|reflexivity].
  change (checked (usize_bits (build32 false)) (0x14000000 + type_len giant_fh)) with (Some 0xFFFFFFFF). erewrite bind_eq; [|reflexivity]. erewrite bind_eq; [|reflexivity].
  assert (A : at_word 0x05000000 (with_offset 0x14000000 r)) by (split; [reflexivity|]; split; [reflexivity|exact En]).
  rewrite while_M_nat. revert A. generalize load_init, 0x05000000, (with_offset 0x14000000 r). clear Eh En r.
  induction (N.to_nat (bound giant_fh)) as [|n IH]; intros st j r A; [reflexivity|]. cbn [while_nat].
  destruct (Round j r st A) as (j' & st' & r' & E & A'). unfold round in E. rewrite Hc in E.
  rewrite (bind_eq _ _ r (inl st') r'); [apply (IH st' j' r' A')|]. erewrite bind_eq; [|reflexivity]. destruct A as (L & O & _). destruct (N.ltb_spec (r_off r) 0xFFFFFFFF) as [_|X]; [exact E|]. rewrite O in X. lia.
Qed.
Lemma giant_endless bound : fst (load_with bound release32 reader_new) = Diverge.
Proof. apply endless_if; [reflexivity|exact giant_header|exact giant_round]. Qed.
Lemma giant_new : type_information_new release32 = Diverge.
Proof. unfold type_information_new. rewrite load_is_with. apply giant_endless. Qed.
Lemma giant_all e : e = release32 -> type_information_new e = Diverge /\ load e = load_with (fun fh => type_len fh + 1) e /\ forall bound, fst (load_with bound e reader_new) = Diverge.
Proof. intros ->. split; [exact giant_new|]. split; [apply load_is_with|exact giant_endless]. Qed.
