(** * LocalSame: two loads by the same build do the same as long as they get the same answers, also where the build panics or wraps around. *)
From Coq Require Import List NArith Bool Lia Strings.Byte.
From Verif Require Import TypeInfo Spec BaseFacts Safety Local Exact Errors LoadProps Transport.
Import ListNotations.
Open Scope N_scope.

Section Sim.
  Context (e1 e2 : env).
  Hypothesis same_build : cfg e2 = cfg e1.

  Definition sim {A} (m1 m2 : M A) : Prop :=
    forall r, exists new, r_trace (snd (m1 r)) = new ++ r_trace r /\
      answers_like (rd e1) new (r_trace r) /\
      (answers_like (rd e2) new (r_trace r) -> m2 r = m1 r).

  (** a program that makes no request *)
  Lemma sim_quiet {A} (m : M A) : (forall r, r_trace (snd (m r)) = r_trace r) -> sim m m.
  Proof. intros H r. exists []. rewrite H. split; [reflexivity|]. split; [apply answers_like_nil|auto]. Qed.
  Lemma sim_ret {A} (a : A) : sim (ret a) (ret a).
  Proof. apply sim_quiet. reflexivity. Qed.
  Lemma sim_fail {A} k : sim (@fail A k) (fail k).
  Proof. apply sim_quiet. reflexivity. Qed.
  Lemma sim_lift {A} (o : outcome error_kind A) : sim (lift o) (lift o).
  Proof. apply sim_quiet. reflexivity. Qed.
  Lemma sim_get_offset : sim get_offset get_offset.
  Proof. apply sim_quiet. reflexivity. Qed.
  Lemma sim_set_offset o : sim (set_offset o) (set_offset o).
  Proof. apply sim_quiet. reflexivity. Qed.
  Lemma sim_set_endianness en : sim (set_endianness en) (set_endianness en).
  Proof. apply sim_quiet. reflexivity. Qed.
  Lemma sim_add_usize x y : sim (lift (add_usize (cfg e1) x y)) (lift (add_usize (cfg e2) x y)).
  Proof. rewrite same_build. apply sim_lift. Qed.
  Lemma sim_mul_usize x y : sim (lift (mul_usize (cfg e1) x y)) (lift (mul_usize (cfg e2) x y)).
  Proof. rewrite same_build. apply sim_lift. Qed.
  Lemma sim_add_u32 x y : sim (lift (add_u32 (cfg e1) x y)) (lift (add_u32 (cfg e2) x y)).
  Proof. rewrite same_build. apply sim_lift. Qed.

  Lemma sim_bind {A B} (m1 m2 : M A) (k1 k2 : A -> M B) :
    sim m1 m2 -> (forall a, sim (k1 a) (k2 a)) -> sim (bind m1 k1) (bind m2 k2).
  Proof.
    intros Hm Hk r. destruct (Hm r) as (new1 & Ht1 & Ha1 & He1). unfold bind.
    destruct (m1 r) as [o1 r1]. cbn [fst snd] in *. destruct o1 as [a|k|p|].
    - destruct (Hk a r1) as (new2 & Ht2 & Ha2 & He2).
      exists (new2 ++ new1). split; [rewrite Ht2, Ht1, app_assoc; reflexivity|].
      split; [apply answers_like_app_intro; [exact Ha1|rewrite Ht1 in Ha2; exact Ha2]|].
      intros HA. apply answers_like_app in HA. destruct HA as [HA1 HA2].
      rewrite (He1 HA1). apply He2. rewrite Ht1. exact HA2.
    - exists new1. split; [exact Ht1|]. split; [exact Ha1|]. intros HA. rewrite (He1 HA). reflexivity.
    - exists new1. split; [exact Ht1|]. split; [exact Ha1|]. intros HA. rewrite (He1 HA). reflexivity.
    - exists new1. split; [exact Ht1|]. split; [exact Ha1|]. intros HA. rewrite (He1 HA). reflexivity.
  Qed.

  Lemma sim_inspect_err {A} (m1 m2 : M A) h : (forall r, r_trace (h r) = r_trace r) ->
    sim m1 m2 -> sim (inspect_err m1 h) (inspect_err m2 h).
  Proof.
    intros Hh Hm r. destruct (Hm r) as (new & Ht & Ha & He). unfold inspect_err. exists new.
    destruct (m1 r) as [[a|k|p|] r1]; cbn [fst snd] in *; rewrite ?Hh; (split; [exact Ht|]); (split; [exact Ha|]);
      intros HA; rewrite (He HA); reflexivity.
  Qed.

  Lemma sim_read n : sim (read e1 n) (read e2 n).
  Proof.
    intros r. set (a := rd e1 (r_trace r) (r_off r) n).
    exists [(r_off r, n, a)]. split.
    - unfold read. fold a. destruct a; [|reflexivity]. destruct (add_usize (cfg e1) (r_off r) n); reflexivity.
    - split.
      { intros pre off n' a' post E. destruct pre as [|q [|? ?]]; try discriminate.
        injection E as <- <- <- <-. reflexivity. }
      intros HA. specialize (HA [] (r_off r) n a [] eq_refl). cbn [app] in HA.
      unfold read. fold a. rewrite HA, same_build. reflexivity.
  Qed.

  Lemma sim_read_uint n : sim (read_uint e1 n) (read_uint e2 n).
  Proof. apply sim_bind; [apply sim_read|]. intros bs. apply sim_quiet. reflexivity. Qed.
  Lemma sim_read_u8 : sim (read_u8 e1) (read_u8 e2).
  Proof. apply sim_bind; [apply sim_read|]. intros [|b bs]; [apply sim_lift|apply sim_ret]. Qed.

  Lemma sim_while {S A} bound (b1 b2 : S -> M (S + A)) s :
    (forall s, sim (b1 s) (b2 s)) -> sim (while_M bound b1 s) (while_M bound b2 s).
  Proof.
    intros H.
    assert (G : forall n s, sim (while_nat n b1 s) (while_nat n b2 s)).
    { induction n as [|n IH]; intros s'; cbn [while_nat]; [apply sim_lift|].
      apply sim_bind; [apply H|]. intros [s2|a]; [apply IH|apply sim_ret]. }
    intros r. rewrite !while_M_nat. apply (G (N.to_nat bound) s r).
  Qed.
  Lemma sim_repeat {A} n (m1 m2 : M A) : sim m1 m2 -> sim (repeat_M n m1) (repeat_M n m2).
  Proof.
    intros H. induction n as [|n IH]; cbn [repeat_M]; [apply sim_ret|].
    apply sim_bind; [exact H|]. intros a. apply sim_bind; [exact IH|]. intros l. apply sim_ret.
  Qed.

  Ltac sim_step := first
    [ apply sim_ret | apply sim_fail | apply sim_get_offset | apply sim_set_offset
    | apply sim_set_endianness | apply sim_add_usize | apply sim_add_u32 | apply sim_mul_usize
    | apply sim_read_uint | apply sim_read_u8 | apply sim_lift
    | apply sim_bind; [|intros ?] | apply sim_repeat | apply sim_while; intros ?
    | apply sim_inspect_err; [reflexivity|]
    | match goal with |- sim (if ?b then _ else _) (if ?b then _ else _) => destruct b end ].
  Ltac sim_auto := repeat (cbn beta iota zeta; sim_step).

  Lemma sim_file_header : sim (file_header_new e1) (file_header_new e2).
  Proof. unfold file_header_new, detect_endianness, read_u16, read_u32. sim_auto. Qed.
  Lemma sim_header fh : sim (header_new e1 fh) (header_new e2 fh).
  Proof. unfold header_new, read_u32. sim_auto. Qed.
  Lemma sim_string fh k : sim (parse_string e1 fh k) (parse_string e2 fh k).
  Proof. unfold parse_string. sim_auto. Qed.
  Lemma sim_name fh k : sim (parse_name_opt e1 fh k) (parse_name_opt e2 fh k).
  Proof. unfold parse_name_opt. sim_auto; apply sim_string. Qed.

  Lemma sim_define {D} K size dn fh h :
    (sim (lift (size (cfg e1) h)) (lift (size (cfg e2) h))) ->
    sim (dn e1 fh h) (dn e2 fh h) ->
    sim (@define_type_new D K size dn e1 fh h) (define_type_new K size dn e2 fh h).
  Proof. intros Hs Hd. unfold define_type_new. sim_auto; assumption. Qed.

  Lemma sim_parse_type k fh h : sim (parse_type k e1 fh h) (parse_type k e2 fh h).
  Proof.
    unfold parse_type. destruct k; (apply sim_bind; [|intros ?; apply sim_ret]);
      apply sim_define;
      unfold int_data_size, no_extra_size, enum_data_size, enum64_data_size, array_data_size, struct_data_size,
        func_proto_data_size, var_data_size, data_sec_data_size, decl_tag_data_size,
        int_data_new, link_data_new, named_link_data_new, float_data_new, array_data_new, struct_data_new,
        enum_data_new, enum64_data_new, func_proto_data_new, var_data_new, data_sec_data_new, decl_tag_data_new,
        parse_member, parse_named_value32, parse_named_value64, parse_parameter, parse_variable,
        read_i32, read_i64, read_u32, read_u64;
      sim_auto; first [apply sim_name | apply sim_string].
  Qed.

  Lemma sim_load_types fh tse : sim (load_types e1 fh tse) (load_types e2 fh tse).
  Proof. unfold load_types. sim_auto; first [apply sim_header | apply sim_parse_type]. Qed.
  Lemma sim_load : sim (load e1) (load e2).
  Proof.
    unfold load. rewrite same_build. sim_auto; first [apply sim_file_header | apply sim_header | apply sim_parse_type | apply sim_load_types].
  Qed.

  Lemma load_same : (forall newer off n a older, requests e1 = newer ++ (off, n, a) :: older -> rd e2 older off n = a) ->
    type_information_new e2 = type_information_new e1 /\ requests e2 = requests e1.
  Proof.
    intros HA. assert (load e2 reader_new = load e1 reader_new) as E; [|unfold type_information_new, requests; rewrite E; auto].
    destruct (sim_load reader_new) as (new & Ht & Ha & He). cbn [reader_new r_trace] in Ht, Ha, He. rewrite app_nil_r in Ht. apply He.
    intros pre off n a post E. rewrite app_nil_r. apply (HA pre off n a post). unfold requests. rewrite Ht. exact E.
  Qed.
End Sim.

Lemma next_request_same e1 e2 : cfg e2 = cfg e1 ->
  forall newer off n a older, requests e1 = newer ++ (off, n, a) :: older ->
  (forall l off' n' a' l', older = l ++ (off', n', a') :: l' -> rd e2 l' off' n' = a') ->
  exists newer', requests e2 = newer' ++ (off, n, rd e2 older off n) :: older.
Proof.
  intros C newer off n a older E HA.
  set (h := fun tr off' n' =>
    if extendsb ((off, n, a) :: older) tr then rd e1 tr off' n'
    else if trace_eq_dec tr older then (if N.eq_dec off' off then if N.eq_dec n' n then a else rd e2 tr off' n' else rd e2 tr off' n')
    else rd e2 tr off' n').
  set (eh := {| cfg := cfg e1; rd := h |}).
  destruct (load_same e1 eh eq_refl) as [_ T1].
  { intros nw o m b l Eq. cbn [rd eh]. unfold h. rewrite E in Eq. destruct (suffix_cases _ _ _ _ _ _ Eq) as [[X Y]|[(l0 & X)|(l0 & X)]].
    - injection X as -> -> ->. subst l. destruct (extendsb ((o, m, b) :: older) older) eqn:Ex.
      { apply extendsb_true in Ex. destruct Ex as (l & Ex). exfalso. symmetry in Ex. exact (app_cons_not _ _ _ Ex). }
      destruct (trace_eq_dec older older); [|congruence]. destruct (N.eq_dec o o); [|congruence]. destruct (N.eq_dec m m); congruence.
    - destruct (extendsb ((off, n, a) :: older) l) eqn:Ex.
      { apply extendsb_true in Ex. destruct Ex as (l1 & Ex). exfalso. rewrite Ex in X.
        apply (f_equal (@length _)) in X. rewrite !app_length in X. cbn in X. rewrite app_length in X. cbn in X. lia. }
      destruct (trace_eq_dec l older) as [->|_]; [exfalso; symmetry in X; exact (app_cons_not _ _ _ X)|]. exact (HA _ _ _ _ _ X).
    - rewrite X, extendsb_app. rewrite <- X. apply (requests_honest e1 nw). rewrite E. exact Eq. }
  destruct (in_dec trace_eq_dec ((off, n, rd e2 older off n) :: older)
    (map (fun k => skipn k (requests e2)) (seq 0 (S (length (requests e2)))))) as [In|Out].
  { apply in_map_iff in In. destruct In as (k & Ek & _). exists (firstn k (requests e2)). rewrite <- Ek. symmetry. apply firstn_skipn. }
  exfalso.
  assert (NO : forall nw b, requests e2 <> nw ++ (off, n, b) :: older).
  { intros nw b Eq. pose proof (requests_honest e2 _ _ _ _ _ Eq) as <-. apply Out. apply in_map_iff. exists (length nw).
    rewrite Eq, skipn_app, skipn_all, Nat.sub_diag. cbn [skipn app]. split; [reflexivity|]. apply in_seq. rewrite app_length. cbn. lia. }
  destruct (load_same e2 eh (eq_sym C)) as [_ T2].
  { intros nw o m b l Eq. cbn [rd eh]. unfold h. destruct (extendsb ((off, n, a) :: older) l) eqn:Ex.
    { exfalso. apply extendsb_true in Ex. destruct Ex as (l1 & ->). apply (NO (nw ++ (o, m, b) :: l1) a). rewrite Eq, <- app_assoc. reflexivity. }
    destruct (trace_eq_dec l older) as [->|_]; [|exact (requests_honest e2 _ _ _ _ _ Eq)].
    destruct (N.eq_dec o off) as [->|_]; [|exact (requests_honest e2 _ _ _ _ _ Eq)].
    destruct (N.eq_dec m n) as [->|_]; [|exact (requests_honest e2 _ _ _ _ _ Eq)]. exfalso. exact (NO _ _ Eq). }
  apply (NO newer a). rewrite <- T2, T1. exact E.
Qed.

(** No request asks for nothing. *)
Section Positive.
  Context (e : env).
  Definition pos {A} (m : M A) : Prop := forall r, exists new, r_trace (snd (m r)) = new ++ r_trace r /\ Forall (fun q => 0 < snd (fst q)) new.
  Lemma pos_quiet {A} (m : M A) : (forall r, r_trace (snd (m r)) = r_trace r) -> pos m.
  Proof. intros H r. exists []. rewrite H. split; [reflexivity|constructor]. Qed.
  Lemma pos_bind {A B} (m : M A) (k : A -> M B) : pos m -> (forall a, pos (k a)) -> pos (bind m k).
  Proof.
    intros Hm Hk r. destruct (Hm r) as (new1 & Ht1 & Hp1). unfold bind. destruct (m r) as [o1 r1]. cbn [fst snd] in *. destruct o1 as [a|k1|p|]; [|eauto..].
    destruct (Hk a r1) as (new2 & Ht2 & Hp2). exists (new2 ++ new1). split; [rewrite Ht2, Ht1, app_assoc; reflexivity|apply Forall_app; auto].
  Qed.
  Lemma pos_inspect_err {A} (m : M A) h : (forall r, r_trace (h r) = r_trace r) -> pos m -> pos (inspect_err m h).
  Proof. intros Hh Hm r. destruct (Hm r) as (new & Ht & Hp). unfold inspect_err. exists new. destruct (m r) as [[a|k|p|] r1]; cbn [fst snd] in *; rewrite ?Hh; auto. Qed.
  Lemma pos_read n : 0 < n -> pos (read e n).
  Proof.
    intros Hn r. exists [(r_off r, n, rd e (r_trace r) (r_off r) n)]. split; [|constructor; [exact Hn|constructor]].
    unfold read. destruct (rd e _ _ _); [|reflexivity]. destruct (add_usize _ _ _); reflexivity.
  Qed.
  Lemma pos_read_uint n : 0 < n -> pos (read_uint e n).
  Proof. intros Hn. apply pos_bind; [apply pos_read; lia|]. intros bs. apply pos_quiet. reflexivity. Qed.
  Lemma pos_read_u8 : pos (read_u8 e).
  Proof. apply pos_bind; [apply pos_read; lia|]. intros [|b bs]; apply pos_quiet; reflexivity. Qed.
  Lemma pos_while {S A} bound (b : S -> M (S + A)) s : (forall s, pos (b s)) -> pos (while_M bound b s).
  Proof.
    intros H. assert (G : forall n s, pos (while_nat n b s)).
    { induction n as [|n IH]; intros s'; cbn [while_nat]; [apply pos_quiet; reflexivity|]. apply pos_bind; [apply H|]. intros [s2|a]; [apply IH|apply pos_quiet; reflexivity]. }
    intros r. rewrite while_M_nat. apply (G (N.to_nat bound) s r).
  Qed.
  Lemma pos_repeat {A} n (m : M A) : pos m -> pos (repeat_M n m).
  Proof.
    intros H. induction n as [|n IH]; cbn [repeat_M]; [apply pos_quiet; reflexivity|].
    apply pos_bind; [exact H|]. intros a. apply pos_bind; [exact IH|]. intros l. apply pos_quiet; reflexivity.
  Qed.
  Ltac pos_step := first
    [ apply pos_read_uint; lia | apply pos_read_u8 | apply pos_bind; [|intros ?] | apply pos_repeat | apply pos_while; intros ?
    | apply pos_inspect_err; [reflexivity|]
    | match goal with |- pos (if ?b then _ else _) => destruct b end | apply pos_quiet; reflexivity ].
  Ltac pos_auto := repeat (cbn beta iota zeta; pos_step).
  Lemma pos_file_header : pos (file_header_new e).
  Proof. unfold file_header_new, detect_endianness, read_u16, read_u32. pos_auto. Qed.
  Lemma pos_header fh : pos (header_new e fh).
  Proof. unfold header_new, read_u32. pos_auto. Qed.
  Lemma pos_string fh k : pos (parse_string e fh k).
  Proof. unfold parse_string. pos_auto. Qed.
  Lemma pos_name fh k : pos (parse_name_opt e fh k).
  Proof. unfold parse_name_opt. pos_auto; apply pos_string. Qed.
  Lemma pos_define {D} K size dn fh h : pos (dn e fh h) -> pos (@define_type_new D K size dn e fh h).
  Proof. intros Hd. unfold define_type_new. pos_auto; assumption. Qed.
  Lemma pos_parse_type k fh h : pos (parse_type k e fh h).
  Proof.
    unfold parse_type. destruct k; (apply pos_bind; [|intros ?; apply pos_quiet; reflexivity]); apply pos_define;
      unfold int_data_new, link_data_new, named_link_data_new, float_data_new, array_data_new, struct_data_new,
        enum_data_new, enum64_data_new, func_proto_data_new, var_data_new, data_sec_data_new, decl_tag_data_new,
        parse_member, parse_named_value32, parse_named_value64, parse_parameter, parse_variable, read_i32, read_i64, read_u32, read_u64;
      pos_auto; first [apply pos_name | apply pos_string].
  Qed.
  Lemma pos_load : pos (load e).
  Proof. unfold load, load_types. pos_auto; first [apply pos_file_header | apply pos_header | apply pos_parse_type]. Qed.
  Lemma requests_positive off n a : In (off, n, a) (requests e) -> 0 < n.
  Proof.
    intros H. destruct (pos_load reader_new) as (new & Ht & Hp). unfold requests in H. rewrite Ht in H. cbn [reader_new r_trace] in H. rewrite app_nil_r in H.
    rewrite Forall_forall in Hp. exact (Hp _ H).
  Qed.
End Positive.
