(** * Count: how many requests a successful load makes, exactly.
    Support for C50 (PropMemory.v). *)
From Coq Require Import List NArith ZArith Bool Lia Strings.Byte.
From Verif Require Import TypeInfo Spec MemorySpec BaseFacts Maps Safety Local LoadProps.
Import ListNotations.
Open Scope nat_scope.

Definition asks {A} (m : M A) (P : A -> nat -> Prop) : Prop :=
  forall r a r', m r = (Ok a, r') -> exists n, length (r_trace r') = length (r_trace r) + n /\ P a n.
Lemma asks_bind {A B} (m : M A) (k : A -> M B) P Q : asks m P -> (forall a n, P a n -> asks (k a) (fun b n' => Q b (n + n'))) -> asks (bind m k) Q.
Proof.
  intros Hm Hk r b r' E. apply bind_Ok in E. destruct E as (a & r1 & E1 & E2). destruct (Hm _ _ _ E1) as (n & L & Hn). destruct (Hk a n Hn _ _ _ E2) as (n' & L' & Hq).
  exists (n + n'). split; [lia|exact Hq].
Qed.
Lemma asks_ret {A} (a : A) (P : A -> nat -> Prop) : P a 0 -> asks (ret a) P.
Proof. intros H r b r' E. injection E as <- <-. exists 0. split; [lia|exact H]. Qed.
Lemma asks_lift {A} (o : outcome error_kind A) : asks (lift o) (fun _ n => n = 0).
Proof. intros r b r' E. injection E as _ <-. exists 0. split; [lia|reflexivity]. Qed.
Lemma asks_fail {A} k (P : A -> nat -> Prop) : asks (fail k) P.
Proof. intros r b r' E. discriminate. Qed.
Lemma asks_get_offset : asks get_offset (fun _ n => n = 0).
Proof. intros r b r' E. injection E as _ <-. exists 0. split; [lia|reflexivity]. Qed.
Lemma asks_set_offset o : asks (set_offset o) (fun _ n => n = 0).
Proof. intros r b r' E. injection E as _ <-. exists 0. split; [cbn; lia|reflexivity]. Qed.
Lemma asks_read e n : asks (read e n) (fun _ k => k = 1).
Proof.
  intros r b r' E. unfold read in E. destruct (rd e (r_trace r) (r_off r) n); [|discriminate].
  destruct (add_usize (cfg e) (r_off r) n); try discriminate. injection E as _ <-. exists 1. split; [cbn; lia|reflexivity].
Qed.
Lemma asks_read_uint e n : asks (read_uint e n) (fun _ k => k = 1).
Proof.
  intros r b r' E. unfold read_uint in E. apply bind_Ok in E. destruct E as (bs & r1 & E1 & E2). injection E2 as _ <-. exact (asks_read e n r bs r1 E1).
Qed.
Lemma asks_read_u8 e : asks (read_u8 e) (fun _ k => k = 1).
Proof.
  eapply asks_bind; [apply asks_read|]. intros [|b bs] n ->; [|apply asks_ret; reflexivity]. intros r b r' E. discriminate.
Qed.
Lemma asks_inspect {A} (m : M A) h P : asks m P -> asks (inspect_err m h) P.
Proof. intros H r a r' E. unfold inspect_err in E. destruct (m r) as [[x|k|p|] r1] eqn:Em; try discriminate. injection E as <- <-. exact (H _ _ _ Em). Qed.
Lemma asks_while {S A} bound (body : S -> M (S + A)) (I : S -> nat -> Prop) (P : A -> nat -> Prop) s0 : I s0 0 ->
  (forall s k, I s k -> asks (body s) (fun x n => match x with inl s' => I s' (k + n) | inr a => P a (k + n) end)) -> asks (while_M bound body s0) P.
Proof.
  intros H0 Hb r a r' E. rewrite while_M_nat in E. assert (G : forall f s k r, I s k -> while_nat f body s r = (Ok a, r') -> exists n, length (r_trace r') = length (r_trace r) + n /\ P a (k + n)).
  { clear r E H0. induction f as [|f IH]; intros s k r Hi E; [discriminate|]. cbn [while_nat] in E. apply bind_Ok in E. destruct E as (x & r1 & E1 & E2).
    destruct (Hb s k Hi _ _ _ E1) as (n & L & Hx). destruct x as [s'|a'].
    - destruct (IH s' (k + n) r1 Hx E2) as (n' & L' & Hp). exists (n + n'). split; [lia|]. rewrite Nat.add_assoc. exact Hp.
    - injection E2 as <- <-. exists n. split; [lia|exact Hx]. }
  exact (G _ _ 0 r H0 E).
Qed.
Lemma asks_repeat {A} n (m : M A) (f : A -> nat) : asks m (fun a k => k = f a) -> asks (repeat_M n m) (fun l k => k = sum f l).
Proof.
  intros H. induction n as [|n IH]; cbn [repeat_M]; [apply asks_ret; reflexivity|].
  eapply asks_bind; [exact H|]. intros a k ->. eapply asks_bind; [exact IH|]. intros l k' ->. apply asks_ret. cbn. lia.
Qed.
Lemma chars_push s b : characters (push_char s b) = S (characters s).
Proof.
  unfold characters, push_char. rewrite filter_app, app_length. assert (E : length (filter starts_char (utf8_of_latin1 b)) = 1) by (destruct b; vm_compute; reflexivity). lia.
Qed.
Lemma asks_string e fh k : asks (parse_string e fh k) (fun s n => n = name_cost s).
Proof.
  unfold parse_string. do 3 (eapply asks_bind; [apply asks_lift|]; intros ? ? ->). match goal with |- asks (if ?b then _ else _) _ => destruct b end; [apply asks_fail|].
  eapply asks_bind; [apply asks_get_offset|]. intros o ? ->. eapply asks_bind; [apply asks_set_offset|]. intros _ ? ->.
  eapply asks_bind; [apply (asks_while _ _ (fun s k => k = characters s) (fun s k => k = name_cost s)); [reflexivity|]|].
  - intros s j ->. eapply asks_bind; [apply asks_get_offset|]. intros o1 ? ->. eapply asks_bind; [apply asks_lift|]. intros o2 ? ->.
    match goal with |- asks (if ?b then _ else _) _ => destruct b end; [apply asks_fail|]. eapply asks_bind; [apply asks_inspect, asks_read_u8|]. intros c ? ->.
    destruct (bval c =? 0)%N; apply asks_ret; [unfold name_cost|rewrite chars_push]; lia.
  - intros s ? ->. eapply asks_bind; [apply asks_set_offset|]. intros _ ? ->. apply asks_ret. unfold name_cost. lia.
Qed.
Lemma asks_name e fh k : asks (parse_name_opt e fh k) (fun o n => n = opt_cost o).
Proof.
  unfold parse_name_opt. destruct (negb (k =? 0)%N); [|apply asks_ret; reflexivity]. eapply asks_bind; [apply asks_string|]. intros s n ->. apply asks_ret. cbn [opt_cost]. lia.
Qed.
Ltac asks1 := eapply asks_bind; [first [apply asks_read_uint|apply asks_name|apply asks_string|apply asks_lift|apply asks_get_offset|apply asks_set_offset]|intros ? ? ->].
Lemma asks_member e fh h : asks (parse_member e fh h) (fun m n => n = 3 + opt_cost (m_name m)).
Proof. unfold parse_member. do 5 asks1. apply asks_ret. cbn [m_name]. lia. Qed.
Lemma asks_parameter e fh : asks (parse_parameter e fh) (fun m n => n = 2 + opt_cost (p_name m)).
Proof. unfold parse_parameter. do 3 asks1. apply asks_ret. cbn [p_name]. lia. Qed.
Lemma asks_variable e : asks (parse_variable e) (fun m n => n = 3).
Proof. unfold parse_variable. do 3 asks1. apply asks_ret. lia. Qed.
Lemma asks_i32 e : asks (read_i32 e) (fun _ n => n = 1).
Proof. unfold read_i32. asks1. apply asks_ret. lia. Qed.
Lemma asks_i64 e : asks (read_i64 e) (fun _ n => n = 1).
Proof. unfold read_i64. asks1. apply asks_ret. lia. Qed.
Lemma asks_value32 e fh sg : asks (parse_named_value32 e fh sg) (fun m n => n = 2 + name_cost (nv_name m)).
Proof.
  unfold parse_named_value32. do 2 asks1. destruct sg.
  - eapply asks_bind; [apply asks_i32|]. intros v ? ->. apply asks_ret. cbn [nv_name]. lia.
  - asks1. apply asks_ret. cbn [nv_name]. lia.
Qed.
Lemma asks_value64 e fh sg : asks (parse_named_value64 e fh sg) (fun m n => n = 2 + name_cost (nv_name m)).
Proof.
  unfold parse_named_value64. do 2 asks1. destruct sg.
  - eapply asks_bind; [apply asks_i64|]. intros v ? ->. apply asks_ret. cbn [nv_name]. lia.
  - asks1. apply asks_ret. cbn [nv_name]. lia.
Qed.
Lemma asks_define {D} k sz (new : env -> file_header -> header -> M D) e fh h P : asks (new e fh h) P -> asks (define_type_new k sz new e fh h) P.
Proof.
  intros H. unfold define_type_new. match goal with |- asks (if ?b then _ else _) _ => destruct b end; [apply asks_fail|]. asks1. apply (asks_bind _ _ (fun _ n => n = 0)); [|intros _ ? ->; exact H].
  match goal with |- asks (if ?b then _ else _) _ => destruct b end; [|apply asks_ret; reflexivity]. do 3 asks1.
  match goal with |- asks (if ?b then _ else _) _ => destruct b end; [apply asks_fail|]. asks1. match goal with |- asks (if ?b then _ else _) _ => destruct b end; [apply asks_fail|apply asks_ret; reflexivity].
Qed.
Lemma asks_type k e fh h : asks (parse_type k e fh h) (fun t n => 3 + n = type_cost t).
Proof.
  assert (Lk : asks (link_data_new e fh h) (fun _ n => n = 0)) by (apply asks_ret; reflexivity).
  assert (Nl : asks (named_link_data_new e fh h) (fun d n => n = opt_cost (nl_name d))) by (unfold named_link_data_new; asks1; apply asks_ret; cbn [nl_name]; lia).
  assert (St : asks (struct_data_new e fh h) (fun d n => n = opt_cost (struct_name d) + sum (fun m => 3 + opt_cost (m_name m)) (member_list d))).
  { unfold struct_data_new. eapply asks_bind; [apply asks_repeat, asks_member|]. intros ms ? ->. asks1. apply asks_ret. cbn [struct_name member_list]. lia. }
  unfold parse_type. destruct k.
  - eapply asks_bind; [apply asks_define with (P := fun d n => n = 1 + opt_cost (int_name d)); unfold int_data_new; do 2 asks1; apply asks_ret; cbn [int_name]; lia|]. intros d ? ->. apply asks_ret. cbn [type_cost declared_name Nat.add]. lia.
  - eapply asks_bind; [apply asks_define; exact Lk|]. intros d ? ->. apply asks_ret. reflexivity.
  - eapply asks_bind; [apply asks_define with (P := fun d n => n = 3); unfold array_data_new; do 3 asks1; apply asks_ret; lia|]. intros d ? ->. apply asks_ret. reflexivity.
  - eapply asks_bind; [apply asks_define; exact St|]. intros d ? ->. apply asks_ret. cbn [type_cost declared_name Nat.add]. lia.
  - eapply asks_bind; [apply asks_define; exact St|]. intros d ? ->. apply asks_ret. cbn [type_cost declared_name Nat.add]. lia.
  - eapply asks_bind; [apply asks_define with (P := fun d n => n = opt_cost (enum_name d) + sum (fun v => 2 + name_cost (nv_name v)) (named_value_list d))|].
    { unfold enum_data_new. eapply asks_bind; [apply asks_repeat, asks_value32|]. intros ms ? ->. asks1. apply asks_ret. cbn [enum_name named_value_list]. lia. }
    intros d ? ->. apply asks_ret. cbn [type_cost declared_name Nat.add]. lia.
  - eapply asks_bind; [apply asks_define; exact Nl|]. intros d ? ->. apply asks_ret. cbn [type_cost declared_name Nat.add]. lia.
  - eapply asks_bind; [apply asks_define; exact Nl|]. intros d ? ->. apply asks_ret. cbn [type_cost declared_name Nat.add]. lia.
  - eapply asks_bind; [apply asks_define; exact Lk|]. intros d ? ->. apply asks_ret. reflexivity.
  - eapply asks_bind; [apply asks_define; exact Lk|]. intros d ? ->. apply asks_ret. reflexivity.
  - eapply asks_bind; [apply asks_define; exact Lk|]. intros d ? ->. apply asks_ret. reflexivity.
  - eapply asks_bind; [apply asks_define; exact Nl|]. intros d ? ->. apply asks_ret. cbn [type_cost declared_name Nat.add]. lia.
  - eapply asks_bind; [apply asks_define with (P := fun d n => n = sum (fun p => 2 + opt_cost (p_name p)) (parameter_list d))|].
    { unfold func_proto_data_new. eapply asks_bind; [apply asks_repeat, asks_parameter|]. intros ms ? ->. apply asks_ret. cbn [parameter_list]. lia. }
    intros d ? ->. apply asks_ret. cbn [type_cost declared_name opt_cost Nat.add]. lia.
  - eapply asks_bind; [apply asks_define with (P := fun d n => n = 1 + opt_cost (var_name d)); unfold var_data_new; do 2 asks1; apply asks_ret; cbn [var_name]; lia|]. intros d ? ->. apply asks_ret. cbn [type_cost declared_name Nat.add]. lia.
  - eapply asks_bind; [apply asks_define with (P := fun d n => n = opt_cost (ds_name d) + sum (fun _ => 3) (variable_list d))|].
    { unfold data_sec_data_new. eapply asks_bind; [apply asks_repeat, asks_variable|]. intros ms ? ->. asks1. apply asks_ret. cbn [ds_name variable_list]. lia. }
    intros d ? ->. apply asks_ret. cbn [type_cost declared_name Nat.add]. lia.
  - eapply asks_bind; [apply asks_define with (P := fun d n => n = opt_cost (float_name d)); unfold float_data_new; asks1; apply asks_ret; cbn [float_name]; lia|]. intros d ? ->. apply asks_ret. cbn [type_cost declared_name Nat.add]. lia.
  - eapply asks_bind; [apply asks_define with (P := fun d n => n = 1 + opt_cost (dt_name d)); unfold decl_tag_data_new; do 2 asks1; apply asks_ret; cbn [dt_name]; lia|]. intros d ? ->. apply asks_ret. cbn [type_cost declared_name Nat.add]. lia.
  - eapply asks_bind; [apply asks_define; exact Nl|]. intros d ? ->. apply asks_ret. cbn [type_cost declared_name Nat.add]. lia.
  - eapply asks_bind; [apply asks_define with (P := fun d n => n = opt_cost (enum_name d) + sum (fun v => 2 + name_cost (nv_name v)) (named_value_list d))|].
    { unfold enum64_data_new. eapply asks_bind; [apply asks_repeat, asks_value64|]. intros ms ? ->. asks1. apply asks_ret. cbn [enum_name named_value_list]. lia. }
    intros d ? ->. apply asks_ret. cbn [type_cost declared_name Nat.add]. lia.
Qed.
Lemma asks_header e fh : asks (header_new e fh) (fun _ n => n = 3).
Proof.
  unfold header_new. do 4 asks1. match goal with |- asks (if ?b then _ else _) _ => destruct b end; [apply asks_fail|]. do 4 asks1. apply asks_ret. lia.
Qed.
Lemma sum_app {A} (f : A -> nat) a b : sum f (a ++ b) = sum f a + sum f b.
Proof. induction a as [|x a IH]; [reflexivity|]. cbn. lia. Qed.
Lemma asks_file_header e : asks (file_header_new e) (fun _ n => n = 8).
Proof.
  unfold file_header_new, detect_endianness. asks1. apply (asks_bind _ _ (fun _ n => n = 1)).
  - asks1. match goal with |- asks (if ?b then _ else _) _ => destruct b end; [|match goal with |- asks (if ?b then _ else _) _ => destruct b end; [|apply asks_fail]];
    intros r b r' E; injection E as _ <-; exists 0; split; cbn; lia.
  - intros _ ? ->. do 2 (eapply asks_bind; [apply asks_read_u8|]; intros ? ? ->). do 5 asks1. apply asks_ret. lia.
Qed.
Lemma asks_load e : overflow_checks (cfg e) = true -> asks (load e) (fun ti n => exists ts, ti = tables ts /\ n = 8 + sum type_cost ts).
Proof.
  intros C. unfold load. eapply asks_bind; [apply asks_file_header|]. intros fh ? ->. do 3 asks1. unfold load_types.
  apply (asks_while _ _ (fun st k => exists ts, maps st = tables ts /\ tid_generator st = (1 + N.of_nat (length ts))%N /\ k = sum type_cost ts)
    (fun ti n => exists ts, ti = tables ts /\ 8 + (0 + (0 + (0 + n))) = 8 + sum type_cost ts)); [exists []; repeat split|].
  intros st k (ts & Em & Eg & ->). asks1. match goal with |- asks (if ?b then _ else _) _ => destruct b end; [|apply asks_ret; exists ts; split; [exact Em|lia]].
  eapply asks_bind; [apply asks_header|]. intros h ? ->. eapply asks_bind; [apply asks_type|]. intros t n Hn.
  apply (asks_bind _ _ (fun v j => v = (tid_generator st + 1)%N /\ j = 0)).
  - intros r v r' E. exists 0. unfold lift in E. assert (E1 := f_equal fst E). assert (E2 := f_equal snd E). cbn [fst snd] in E1, E2. subst r'. clear E. rename E1 into E. split; [lia|]. split; [|reflexivity]. unfold add_u32, wrap_or_panic in E.
    destruct (tid_generator st + 1 <? two_pow 32)%N; [injection E as <-; reflexivity|]. rewrite C in E. discriminate.
  - intros v j [-> ->]. apply asks_ret. exists (ts ++ [t]). cbn [maps tid_generator]. rewrite Em, Eg, tables_snoc, app_length, sum_app. cbn [length sum]. split; [reflexivity|]. split; [lia|]. cbv beta in Hn. lia.
Qed.
Lemma requests_count e ti : usize_bits (cfg e) = 64%N -> type_information_new e = Ok ti -> length (requests e) = 8 + sum type_cost (map snd (get ti)).
Proof.
  intros H E. set (e' := {| cfg := {| usize_bits := 64; overflow_checks := true |}; rd := rd e |}).
  assert (L : load e reader_new = load e' reader_new).
  { apply (load_like e' e); [left; split; [reflexivity|cbn; lia]|exact (eq_sym H)| |reflexivity].
    destruct (load_total e' eq_refl) as [[ti' E']|[k E']]; unfold type_information_new in E'; rewrite E'; exact I. }
  unfold type_information_new in E. unfold requests. rewrite L in *. destruct (load e' reader_new) as [x r'] eqn:El. cbn [fst snd] in *. subst x.
  destruct (asks_load e' eq_refl _ _ _ El) as (n & Ln & ts & -> & ->). rewrite types_of_tables. exact Ln.
Qed.
