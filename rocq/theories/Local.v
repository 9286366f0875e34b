(** * Locality: what a load does depends only on the answers it received, and
    (when it does not panic) not on the build profile. *)
From Coq Require Import Lia.
From Verif Require Import TypeInfo BaseFacts.

(** [rd] gives the answers recorded in [new], made on top of [base]. *)
Definition answers_like (rd : readable) (new base : list request) : Prop :=
  forall pre off n a post, new = pre ++ (off, n, a) :: post -> rd (post ++ base) off n = a.

Lemma answers_like_app rd new2 new1 base :
  answers_like rd (new2 ++ new1) base -> answers_like rd new1 base /\ answers_like rd new2 (new1 ++ base).
Proof.
  intros H. split; intros pre off n a post E; subst.
  - apply (H (new2 ++ pre)). rewrite <- app_assoc. reflexivity.
  - rewrite app_assoc. apply (H pre). rewrite <- app_assoc. reflexivity.
Qed.

Lemma answers_like_nil rd base : answers_like rd [] base.
Proof. intros pre off n a post E. destruct pre; discriminate. Qed.
Lemma answers_like_app_intro rd new2 new1 base :
  answers_like rd new1 base -> answers_like rd new2 (new1 ++ base) -> answers_like rd (new2 ++ new1) base.
Proof.
  intros HA1 HA2 pre off n a post E.
  destruct (app_eq_app new2 new1 pre ((off, n, a) :: post) E) as (l & [[E1 E2]|[E1 E2]]).
  - destruct l as [|q l].
    + cbn in E2. apply (HA1 []). symmetry. exact E2.
    + injection E2 as <- ->. rewrite app_assoc_reverse. apply (HA2 pre). exact E1.
  - apply (HA1 l). exact E2.
Qed.

Definition not_panic {E A} (o : outcome E A) : Prop := match o with Panic _ => False | _ => True end.

Section Sim.
  Context (e1 e2 : env).
  (** [e1] checks for overflow and its usize is no wider, or it is the same build *)
  Hypothesis profile : (overflow_checks (cfg e1) = true /\ usize_bits (cfg e1) <= usize_bits (cfg e2)) \/ cfg e1 = cfg e2.

  Definition sim {A} (m1 m2 : M A) : Prop :=
    forall r, exists new, r_trace (snd (m1 r)) = new ++ r_trace r /\
      answers_like (rd e1) new (r_trace r) /\
      (not_panic (fst (m1 r)) -> answers_like (rd e2) new (r_trace r) -> m2 r = m1 r).

  (** a program that makes no request *)
  Lemma sim_quiet {A} (m : M A) : (forall r, r_trace (snd (m r)) = r_trace r) -> sim m m.
  Proof. intros H r. exists []. rewrite H. split; [reflexivity|]. split; [apply answers_like_nil|auto]. Qed.
  Lemma sim_ret {A} (a : A) : sim (ret a) (ret a).
  Proof. apply sim_quiet. reflexivity. Qed.
  Lemma sim_fail {A} k : sim (@fail A k) (fail k).
  Proof. apply sim_quiet. reflexivity. Qed.
  Lemma sim_lift {A} (o : outcome error_kind A) : sim (lift o) (lift o).
  Proof. apply sim_quiet. reflexivity. Qed.
  Lemma sim_get_offset : sim get_offset get_offset.
  Proof. apply sim_quiet. reflexivity. Qed.
  Lemma sim_set_offset o : sim (set_offset o) (set_offset o).
  Proof. apply sim_quiet. reflexivity. Qed.
  Lemma sim_set_endianness en : sim (set_endianness en) (set_endianness en).
  Proof. apply sim_quiet. reflexivity. Qed.
  Lemma sim_lift_arith (f : build -> outcome error_kind N) :
    (not_panic (f (cfg e1)) -> f (cfg e2) = f (cfg e1)) -> sim (lift (f (cfg e1))) (lift (f (cfg e2))).
  Proof. intros H r. exists []. cbn. split; [reflexivity|]. split; [apply answers_like_nil|]. intros Hp _. unfold lift. rewrite H by exact Hp. reflexivity. Qed.

  Lemma wrap_sim {E} b1 b2 v : b1 = b2 \/ (b1 = usize_bits (cfg e1) /\ b2 = usize_bits (cfg e2)) ->
    not_panic (@wrap_or_panic E (cfg e1) b1 v) ->
    @wrap_or_panic E (cfg e2) b2 v = wrap_or_panic (cfg e1) b1 v.
  Proof.
    unfold wrap_or_panic, two_pow. intros Hb Hp. destruct profile as [[Hc Hw]|HE].
    - rewrite Hc in Hp. destruct (N.ltb_spec v (2 ^ b1)) as [Hlt|Hge]; [|destruct Hp].
      assert (Hle : 2 ^ b1 <= 2 ^ b2) by (destruct Hb as [->|[-> ->]]; [lia|apply N.pow_le_mono_r; lia]).
      destruct (N.ltb_spec v (2 ^ b2)); [reflexivity|lia].
    - rewrite <- HE in *. assert (b1 = b2) as -> by (destruct Hb as [Hb|[-> ->]]; congruence). reflexivity.
  Qed.
  Lemma sim_add_usize x y : sim (lift (add_usize (cfg e1) x y)) (lift (add_usize (cfg e2) x y)).
  Proof. apply (sim_lift_arith (fun c => add_usize c x y)). apply wrap_sim. auto. Qed.
  Lemma sim_mul_usize x y : sim (lift (mul_usize (cfg e1) x y)) (lift (mul_usize (cfg e2) x y)).
  Proof. apply (sim_lift_arith (fun c => mul_usize c x y)). apply wrap_sim. auto. Qed.
  Lemma sim_add_u32 x y : sim (lift (add_u32 (cfg e1) x y)) (lift (add_u32 (cfg e2) x y)).
  Proof. apply (sim_lift_arith (fun c => add_u32 c x y)). apply wrap_sim. auto. Qed.

  Lemma sim_bind {A B} (m1 m2 : M A) (k1 k2 : A -> M B) :
    sim m1 m2 -> (forall a, sim (k1 a) (k2 a)) -> sim (bind m1 k1) (bind m2 k2).
  Proof.
    intros Hm Hk r. destruct (Hm r) as (new1 & Ht1 & Ha1 & He1). unfold bind.
    destruct (m1 r) as [o1 r1]. cbn [fst snd] in *. destruct o1 as [a|k|p|].
    - destruct (Hk a r1) as (new2 & Ht2 & Ha2 & He2).
      exists (new2 ++ new1). split; [rewrite Ht2, Ht1, app_assoc; reflexivity|].
      split; [apply answers_like_app_intro; [exact Ha1|rewrite Ht1 in Ha2; exact Ha2]|].
      intros Hp HA. apply answers_like_app in HA. destruct HA as [HA1 HA2].
      rewrite (He1 I HA1). apply He2; [exact Hp|]. rewrite Ht1. exact HA2.
    - exists new1. split; [exact Ht1|]. split; [exact Ha1|]. intros _ HA. rewrite (He1 I HA). reflexivity.
    - exists new1. split; [exact Ht1|]. split; [exact Ha1|]. intros [].
    - exists new1. split; [exact Ht1|]. split; [exact Ha1|]. intros _ HA. rewrite (He1 I HA). reflexivity.
  Qed.

  Lemma sim_inspect_err {A} (m1 m2 : M A) h : (forall r, r_trace (h r) = r_trace r) ->
    sim m1 m2 -> sim (inspect_err m1 h) (inspect_err m2 h).
  Proof.
    intros Hh Hm r. destruct (Hm r) as (new & Ht & Ha & He). unfold inspect_err. exists new.
    destruct (m1 r) as [[a|k|p|] r1]; cbn [fst snd] in *; rewrite ?Hh; (split; [exact Ht|]); (split; [exact Ha|]);
      intros Hp HA; try destruct Hp; rewrite (He I HA); reflexivity.
  Qed.

  Lemma sim_read n : sim (read e1 n) (read e2 n).
  Proof.
    intros r. set (a := rd e1 (r_trace r) (r_off r) n).
    exists [(r_off r, n, a)]. split.
    - unfold read. fold a. destruct a; [|reflexivity]. destruct (add_usize (cfg e1) (r_off r) n); reflexivity.
    - split.
      { intros pre off n' a' post E. destruct pre as [|q [|? ?]]; try discriminate.
        injection E as <- <- <- <-. reflexivity. }
      intros Hp HA. specialize (HA [] (r_off r) n a [] eq_refl). cbn [app] in HA.
      unfold read in *. fold a in Hp |- *. rewrite HA. destruct a as [bs|k]; [|reflexivity].
      unfold add_usize in *. rewrite (wrap_sim (usize_bits (cfg e1))); [reflexivity|auto|].
      destruct (wrap_or_panic (cfg e1) _ _); exact I || exact Hp.
  Qed.

  Lemma sim_read_uint n : sim (read_uint e1 n) (read_uint e2 n).
  Proof. apply sim_bind; [apply sim_read|]. intros bs. apply sim_quiet. reflexivity. Qed.
  Lemma sim_read_u8 : sim (read_u8 e1) (read_u8 e2).
  Proof. apply sim_bind; [apply sim_read|]. intros [|b bs]; [apply sim_lift|apply sim_ret]. Qed.

  Lemma sim_while {S A} bound (b1 b2 : S -> M (S + A)) s :
    (forall s, sim (b1 s) (b2 s)) -> sim (while_M bound b1 s) (while_M bound b2 s).
  Proof.
    intros H.
    assert (G : forall n s, sim (while_nat n b1 s) (while_nat n b2 s)).
    { induction n as [|n IH]; intros s'; cbn [while_nat]; [apply sim_lift|].
      apply sim_bind; [apply H|]. intros [s2|a]; [apply IH|apply sim_ret]. }
    intros r. rewrite !while_M_nat. apply (G (N.to_nat bound) s r).
  Qed.
  Lemma sim_repeat {A} n (m1 m2 : M A) : sim m1 m2 -> sim (repeat_M n m1) (repeat_M n m2).
  Proof.
    intros H. induction n as [|n IH]; cbn [repeat_M]; [apply sim_ret|].
    apply sim_bind; [exact H|]. intros a. apply sim_bind; [exact IH|]. intros l. apply sim_ret.
  Qed.

  Ltac sim_step := first
    [ apply sim_ret | apply sim_fail | apply sim_get_offset | apply sim_set_offset
    | apply sim_set_endianness | apply sim_add_usize | apply sim_add_u32 | apply sim_mul_usize
    | apply sim_read_uint | apply sim_read_u8 | apply sim_lift
    | apply sim_bind; [|intros ?] | apply sim_repeat | apply sim_while; intros ?
    | apply sim_inspect_err; [reflexivity|]
    | match goal with |- sim (if ?b then _ else _) (if ?b then _ else _) => destruct b end ].
  Ltac sim_auto := repeat (cbn beta iota zeta; sim_step).

  Lemma sim_file_header : sim (file_header_new e1) (file_header_new e2).
  Proof. unfold file_header_new, detect_endianness, read_u16, read_u32. sim_auto. Qed.
  Lemma sim_header fh : sim (header_new e1 fh) (header_new e2 fh).
  Proof. unfold header_new, read_u32. sim_auto. Qed.
  Lemma sim_string fh k : sim (parse_string e1 fh k) (parse_string e2 fh k).
  Proof. unfold parse_string. sim_auto. Qed.
  Lemma sim_name fh k : sim (parse_name_opt e1 fh k) (parse_name_opt e2 fh k).
  Proof. unfold parse_name_opt. sim_auto; apply sim_string. Qed.

  Lemma sim_define {D} K size dn fh h :
    (sim (lift (size (cfg e1) h)) (lift (size (cfg e2) h))) ->
    sim (dn e1 fh h) (dn e2 fh h) ->
    sim (@define_type_new D K size dn e1 fh h) (define_type_new K size dn e2 fh h).
  Proof. intros Hs Hd. unfold define_type_new. sim_auto; assumption. Qed.

  Lemma sim_parse_type k fh h : sim (parse_type k e1 fh h) (parse_type k e2 fh h).
  Proof.
    unfold parse_type. destruct k; (apply sim_bind; [|intros ?; apply sim_ret]);
      apply sim_define;
      unfold int_data_size, no_extra_size, enum_data_size, enum64_data_size, array_data_size, struct_data_size,
        func_proto_data_size, var_data_size, data_sec_data_size, decl_tag_data_size,
        int_data_new, link_data_new, named_link_data_new, float_data_new, array_data_new, struct_data_new,
        enum_data_new, enum64_data_new, func_proto_data_new, var_data_new, data_sec_data_new, decl_tag_data_new,
        parse_member, parse_named_value32, parse_named_value64, parse_parameter, parse_variable,
        read_i32, read_i64, read_u32, read_u64;
      sim_auto; first [apply sim_name | apply sim_string].
  Qed.

  Lemma sim_load_types fh tse : sim (load_types e1 fh tse) (load_types e2 fh tse).
  Proof. unfold load_types. sim_auto; first [apply sim_header | apply sim_parse_type]. Qed.
  Lemma sim_load : usize_bits (cfg e1) = usize_bits (cfg e2) -> sim (load e1) (load e2).
  Proof.
    intros same_width. unfold load. rewrite same_width. sim_auto; first [apply sim_file_header | apply sim_header | apply sim_parse_type | apply sim_load_types].
  Qed.

  (** Run from a fresh reader. *)
  Lemma load_like : usize_bits (cfg e1) = usize_bits (cfg e2) ->
    not_panic (fst (load e1 reader_new)) ->
    (forall pre off n a post, r_trace (snd (load e1 reader_new)) = pre ++ (off, n, a) :: post ->
       rd e2 post off n = rd e1 post off n) ->
    load e2 reader_new = load e1 reader_new.
  Proof.
    intros Hw Hp HA. destruct (sim_load Hw reader_new) as (new & Ht & Ha & He).
    cbn [reader_new r_trace] in Ht, Ha, He. rewrite app_nil_r in Ht. apply He; [exact Hp|].
    intros pre off n a post E. rewrite app_nil_r. rewrite (HA pre off n a post) by congruence.
    specialize (Ha pre off n a post E). rewrite app_nil_r in Ha. exact Ha.
  Qed.
End Sim.

(** The trace is honest. *)
Lemma load_trace_honest e pre off n a post :
  r_trace (snd (load e reader_new)) = pre ++ (off, n, a) :: post -> rd e post off n = a.
Proof.
  intros E. destruct (sim_load e e (or_intror eq_refl) eq_refl reader_new) as (new & Ht & Ha & _).
  cbn [reader_new r_trace] in Ht, Ha. rewrite app_nil_r in Ht. rewrite Ht in E.
  specialize (Ha _ _ _ _ _ E). rewrite app_nil_r in Ha. exact Ha.
Qed.
