(** * FetchFacts: the requests for records are consecutive (C73). *)
From Coq Require Import List NArith ZArith Bool Lia ZifyBool ZifyNat ZifyN Strings.Byte.
From Verif Require Import TypeInfo Spec BaseFacts Safety Exact LoadProps LoadProps2 Encode Work FetchSpec.
From Verif Require RelocateSpec RelocateFacts.
Import ListNotations.
Open Scope N_scope.

Fixpoint total (l : list (N * N)) : N := match l with [] => 0 | q :: l' => snd q + total l' end.
Lemma consecutive_app a : forall b o, consecutive o a -> consecutive (o + total a) b -> consecutive o (a ++ b).
Proof.
  induction a as [|[x n] a IH]; intros b o A B; cbn [app consecutive total snd] in *; [rewrite N.add_0_r in B; exact B|].
  destruct A as [A1 A2]. split; [exact A1|]. apply IH; [exact A2|]. replace (o + n + total a) with (o + (n + total a)) by lia. exact B.
Qed.
Lemma total_app a b : total (a ++ b) = total a + total b.
Proof. induction a as [|q a IH]; cbn [app total]; [reflexivity|]. rewrite IH. lia. Qed.
Definition places (l : list request) : list (N * N) := map place (fields l).
Lemma places_app a b : places (a ++ b) = places b ++ places a.
Proof. unfold places, fields. rewrite rev_app_distr, filter_app, map_app. reflexivity. Qed.

Definition small (q : request) : Prop := q_off q + q_len q < 2 ^ 64.
Section Fetch.
  Context (e : env) (fh : file_header).
  Hypothesis H64 : usize_bits (cfg e) = 64.
  Definition fetches {A} (m : M A) : Prop := forall r, exists new,
    r_trace (snd (m r)) = new ++ r_trace r /\
    (Forall small new -> consecutive (r_off r) (places new) /\
       match fst (m r) with Ok _ => r_off (snd (m r)) = r_off r + total (places new) | _ => True end).

  Lemma f_bind {A B} (m : M A) (k : A -> M B) : fetches m -> (forall x, fetches (k x)) -> fetches (bind m k).
  Proof.
    intros Hm Hk r. destruct (Hm r) as (new & E & H). unfold bind. destruct (m r) as [[x|k'|p|] r1] eqn:Em; cbn [fst snd] in *;
      try (exists new; split; [exact E|]; intros F; destruct (H F) as [H1 _]; auto; fail).
    destruct (Hk x r1) as (new2 & E2 & H2). exists (new2 ++ new). rewrite E2, E, app_assoc. split; [reflexivity|]. intros F. apply Forall_app in F. destruct F as [F2 F].
    destruct (H F) as [H1 H3]. destruct (H2 F2) as [K1 K3]. rewrite places_app, total_app. rewrite H3 in K1, K3. split; [apply consecutive_app; assumption|].
    destruct (fst (k x r1)); auto. rewrite K3. lia.
  Qed.
  Lemma f_still {A} (m : M A) : (forall r, r_trace (snd (m r)) = r_trace r /\ match fst (m r) with Ok _ => r_off (snd (m r)) = r_off r | _ => True end) -> fetches m.
  Proof.
    intros H r. destruct (H r) as [E H']. exists []. split; [exact E|]. intros _. split; [exact I|]. destruct (fst (m r)); auto. rewrite H'. cbn. lia.
  Qed.
  Lemma f_ret {A} (x : A) : fetches (ret x). Proof. apply f_still. intros r. cbn. auto. Qed.
  Lemma f_fail {A} k : fetches (@fail A k). Proof. apply f_still. intros r. cbn. auto. Qed.
  Lemma f_lift {A} (o : outcome error_kind A) : fetches (lift o). Proof. apply f_still. intros r. cbn. destruct o; auto. Qed.
  Lemma f_get_offset : fetches get_offset. Proof. apply f_still. intros r. cbn. auto. Qed.
  Lemma f_word n : 1 < n -> fetches (read_uint e n).
  Proof.
    intros Hn r. assert (P : forall a, places [(r_off r, n, a)] = [(r_off r, n)]).
    { intros a. unfold places, fields. cbn [rev app filter]. unfold byte_count. cbn [fst snd]. destruct (N.ltb_spec 1 n); [reflexivity|lia]. }
    unfold read_uint, bind, read. destruct (rd e (r_trace r) (r_off r) n) as [bs|k].
    - exists [(r_off r, n, Bytes bs)]. rewrite P. split; [destruct (add_usize (cfg e) (r_off r) n); reflexivity|].
      intros F. inversion F as [|? ? Q _]. subst. unfold small, q_off, q_len in Q. cbn [fst snd] in Q.
      unfold add_usize. rewrite H64, wrap_small by exact Q. cbn [fst snd r_off with_offset consecutive total]. split; [auto|]. lia.
    - exists [(r_off r, n, Fails k)]. rewrite P. split; [reflexivity|]. intros _. cbn. auto.
  Qed.
  Lemma f_u32 : fetches (read_u32 e). Proof. apply f_word. lia. Qed.
  Lemma f_u64 : fetches (read_u64 e). Proof. apply f_word. lia. Qed.

  (** Names are read byte by byte. *)
  Definition bytewise {A} (m : M A) : Prop := forall r, exists new, r_trace (snd (m r)) = new ++ r_trace r /\ Forall (fun q => byte_count q = 1) new.
  Lemma bytewise_places new : Forall (fun q : request => byte_count q = 1) new -> places new = [].
  Proof.
    intros F. unfold places, fields. apply Forall_rev in F. induction (rev new) as [|q l IH]; [reflexivity|]. inversion F as [|? ? Q F']. subst. cbn [filter].
    rewrite Q. cbn. exact (IH F').
  Qed.
  Lemma b_bind {A B} (m : M A) (k : A -> M B) : bytewise m -> (forall x, bytewise (k x)) -> bytewise (bind m k).
  Proof.
    intros Hm Hk r. destruct (Hm r) as (new & E & H). unfold bind. destruct (m r) as [[x|k'|p|] r1] eqn:Em; cbn [fst snd] in *; try (exists new; auto; fail).
    destruct (Hk x r1) as (new2 & E2 & H2). exists (new2 ++ new). rewrite E2, E, app_assoc. split; [reflexivity|]. apply Forall_app. auto.
  Qed.
  Lemma b_still {A} (m : M A) : (forall r, r_trace (snd (m r)) = r_trace r) -> bytewise m.
  Proof. intros H r. exists []. split; [exact (H r)|constructor]. Qed.
  Lemma b_scan sse back acc : bytewise (scan e sse back acc).
  Proof.
    unfold scan. apply b_bind; [apply b_still; reflexivity|]. intros o. apply b_bind; [apply b_still; reflexivity|]. intros o1.
    destruct (sse <? o1); [apply b_still; reflexivity|]. apply b_bind.
    - intros r. unfold inspect_err, read_u8, bind, read. destruct (rd e (r_trace r) (r_off r) 1) as [bs|k].
      + exists [(r_off r, 1, Bytes bs)]. split; [|repeat constructor]. destruct (add_usize (cfg e) (r_off r) 1); try reflexivity.
        destruct (fit (N.to_nat 1) bs); reflexivity.
      + exists [(r_off r, 1, Fails k)]. split; [reflexivity|repeat constructor].
    - intros c. destruct (bval c =? 0); apply b_still; reflexivity.
  Qed.
  Lemma b_while {St A} (body : St -> M (St + A)) : (forall s, bytewise (body s)) -> forall n s, bytewise (while_nat n body s).
  Proof.
    intros H. induction n as [|n IH]; intros s; cbn [while_nat]; [apply b_still; reflexivity|]. apply b_bind; [apply H|]. intros [s'|x]; [apply IH|apply b_still; reflexivity].
  Qed.
  Lemma f_string k : fetches (parse_string e fh k).
  Proof.
    unfold parse_string. apply f_bind; [apply f_lift|]. intros sss. apply f_bind; [apply f_lift|]. intros sse. apply f_bind; [apply f_lift|]. intros so.
    destruct (sse <=? so); [apply f_fail|]. intros r.
    match goal with |- exists new, r_trace (snd (?m r)) = _ /\ _ => assert (EQ : m r =
      match while_nat (N.to_nat (sse - so + 1)) (scan e sse (r_off r)) [] (with_offset so r) with
      | (Ok x, r1) => (Ok x, with_offset (r_off r) r1) | (Err k, r1) => (Err k, r1) | (Panic p, r1) => (Panic p, r1) | (Diverge, r1) => (Diverge, r1) end) end.
    { unfold bind at 1. cbn [get_offset]. unfold bind at 1. cbn [set_offset]. unfold bind at 1. rewrite while_M_nat. unfold scan.
      destruct (while_nat _ _ _ _) as [[x|k'|p|] r1]; reflexivity. }
    rewrite EQ. clear EQ.
    destruct (b_while (scan e sse (r_off r)) (b_scan sse (r_off r)) (N.to_nat (sse - so + 1)) [] (with_offset so r)) as (new & E & F).
    destruct (while_nat _ _ _ _) as [o r1]. cbn [fst snd] in E. cbn [with_offset r_trace] in E.
    exists new. split; [destruct o; exact E|]. intros _. rewrite (bytewise_places new F). split; [exact I|].
    destruct o; try exact I. cbn [fst snd with_offset r_off total]. lia.
  Qed.
  Lemma f_name k : fetches (parse_name_opt e fh k).
  Proof. unfold parse_name_opt. destruct (negb (k =? 0)); [apply f_bind; [apply f_string|]; intros s|]; apply f_ret. Qed.
  Lemma f_repeat {A} n (m : M A) : fetches m -> fetches (repeat_M n m).
  Proof. intros H. induction n as [|n IH]; cbn [repeat_M]; [apply f_ret|]. apply f_bind; [exact H|]. intros x. apply f_bind; [exact IH|]. intros l. apply f_ret. Qed.
  Lemma f_while {St A} (body : St -> M (St + A)) : (forall s, fetches (body s)) -> forall n s, fetches (while_nat n body s).
  Proof.
    intros H. induction n as [|n IH]; intros s; cbn [while_nat]; [apply f_lift|]. apply f_bind; [apply H|]. intros [s'|x]; [apply IH|apply f_ret].
  Qed.

  Ltac fetch := repeat first
    [ match goal with |- fetches (bind _ _) => apply f_bind; [|intros ?] end | apply f_ret | apply f_fail | apply f_lift | apply f_get_offset | apply f_u32 | apply f_u64 | apply f_string | apply f_name | apply f_repeat
    | match goal with |- fetches (if ?b then _ else _) => destruct b end ].
  Lemma f_header : fetches (header_new e fh). Proof. unfold header_new. fetch. Qed.
  Lemma f_define {D} K size (dn : env -> file_header -> header -> M D) h : fetches (dn e fh h) -> fetches (define_type_new K size dn e fh h).
  Proof. intros H. unfold define_type_new. fetch. exact H. Qed.
  Lemma f_type k h : fetches (parse_type k e fh h).
  Proof.
    assert (T : forall D K size (dn : env -> file_header -> header -> M D) (mk : D -> type_variant), fetches (dn e fh h) ->
      fetches (d <- define_type_new K size dn e fh h ;; ret (mk d))).
    { intros D K size dn mk H. apply f_bind; [apply f_define; exact H|]. intros d. apply f_ret. }
    destruct k; cbn [parse_type]; apply T;
      unfold int_data_new, link_data_new, array_data_new, struct_data_new, parse_member, enum_data_new, parse_named_value32, read_i32, named_link_data_new, func_proto_data_new, parse_parameter,
        var_data_new, data_sec_data_new, parse_variable, float_data_new, decl_tag_data_new, enum64_data_new, parse_named_value64, read_i64; fetch.
  Qed.
  Lemma f_load_types tse : fetches (load_types e fh tse).
  Proof.
    unfold load_types. intros r. rewrite while_M_nat. revert r. match goal with |- forall r, exists new, r_trace (snd (?m r)) = _ /\ _ => change (fetches m) end.
    apply f_while. intros st. fetch; first [apply f_header|apply f_type].
  Qed.
End Fetch.

(** ** The header *)
Lemma header_places_asked e : usize_bits (cfg e) = 64 -> exists n, places (r_trace (snd (file_header_new e reader_new))) = firstn n header_places.
Proof.
  intros H. unfold file_header_new. unfold bind at 1. cbn [set_offset]. unfold detect_endianness.
  change (with_offset 0 reader_new) with (at3 0 Little []).
  Ltac fin := cbn [snd at3 r_trace]; first [exists 0%nat; reflexivity|exists 1%nat; reflexivity|exists 2%nat; reflexivity|exists 3%nat; reflexivity|exists 4%nat; reflexivity|exists 5%nat; reflexivity|exists 6%nat; reflexivity].
  rewrite bind_assoc. unfold bind at 1. unfold read_u16. rewrite read_uint_at by (try exact H; lia).
  destruct (rd e [] 0 2) as [b0|k]; [|fin]. change (0 + 2) with 2. cbv beta iota.
  match goal with |- exists n, places (r_trace (snd (bind ?g ?k ?s))) = _ => assert (G : (exists en, bind g k s = k tt (at3 2 en (r_trace s))) \/ bind g k s = (Err InvalidMagic, s)) end.
  { match goal with |- context [if ?a =? BTF_LITTLE_ENDIAN_MAGIC then _ else _] => destruct (a =? BTF_LITTLE_ENDIAN_MAGIC); [left; exists Little; reflexivity|];
      destruct (a =? BTF_BIG_ENDIAN_MAGIC); [left; exists Big; reflexivity|] end. right. reflexivity. }
  destruct G as [(en & G)|G]; rewrite G; clear G; [|fin]. cbn [at3 r_trace].
  Ltac fbyte H b := unfold bind at 1; match goal with |- context [read_u8 ?e (at3 ?o ?en ?tr)] => let v := fresh "v" in let E := fresh "E" in
    destruct (read_u8_at e o en tr H ltac:(lia)) as [v E]; rewrite E; clear E; destruct (rd e tr o 1) as [b|k]; [|fin] end; cbv beta iota.
  Ltac fword H b := unfold bind at 1; unfold read_u32 at 1; rewrite read_uint_at by (try exact H; lia);
    match goal with |- context [match rd ?e ?tr ?o 4 with _ => _ end] => destruct (rd e tr o 4) as [b|k]; [|fin] end; cbv beta iota.
  fbyte H b2. change (2 + 1) with 3. fbyte H b3. change (3 + 1) with 4.
  fword H b4. change (4 + 4) with 8. fword H b8. change (8 + 4) with 12. fword H b12. change (12 + 4) with 16.
  fword H b16. change (16 + 4) with 20. fword H b20. fin.
Qed.

(** ** The whole load *)
Lemma load_fetches e : usize_bits (cfg e) = 64 ->
  (exists n, places (requests e) = firstn n header_places) \/
  exists fh r1 newer, file_header_new e reader_new = (Ok fh, r1) /\ requests e = newer ++ r_trace r1 /\
    places (requests e) = header_places ++ places newer /\ consecutive (hdr_len fh + type_off fh) (places newer).
Proof.
  intros H. destruct (load_good e H) as [_ (t2 & t1 & Et & _ & Et1 & Hsec)]. fold (requests e) in Et.
  destruct Hsec as [->|(fh & r1 & EF & Hfit & Hs)].
  { left. rewrite Et, Et1. cbn [app]. exact (header_places_asked e H). }
  rewrite EF in Et1. cbn [snd] in Et1. right. exists fh, r1, t2. rewrite <- Et1. split; [exact EF|]. split; [exact Et|].
  pose proof (header_trace e H) as HT. rewrite EF in HT. destruct HT as (b20 & b16 & b12 & b8 & b4 & b3 & b2 & b0 & T & _).
  split. { rewrite Et, places_app. f_equal. rewrite Et1, T. reflexivity. }
  assert (F : Forall small t2).
  { eapply Forall_impl; [|exact Hs]. intros q [_ Hr]. unfold small. destruct Hfit as (? & ? & ? & ? & ?). unfold u32 in *.
    destruct Hr as [(? & ? & ?)|[(? & ? & ?)|(? & o & _ & ? & ? & ? & ?)]]; lia. }
  unfold requests in Et. rewrite Et1 in Et.
  assert (L : t2 = [] \/ consecutive (hdr_len fh + type_off fh) (places t2)).
  { revert Et. unfold load, bind at 1. rewrite EF.
    destruct (checked 32 (hdr_len fh + type_off fh)) as [tss|] eqn:C1.
    2:{ intros E. left. change (r_trace r1 = t2 ++ r_trace r1) in E. apply (app_inv_tail (r_trace r1) [] t2) in E. auto. }
    destruct (checked (usize_bits (cfg e)) (tss + type_len fh)) as [tse|] eqn:C2.
    2:{ unfold bind. cbn [ok_or lift]. rewrite C2. intros E. left. change (r_trace r1 = t2 ++ r_trace r1) in E. apply (app_inv_tail (r_trace r1) [] t2) in E. auto. }
    unfold bind. cbn [ok_or lift]. rewrite C2. cbn [ok_or lift set_offset].
    destruct (f_load_types e fh H tse (with_offset tss r1)) as (new & E & F'). intros E'. rewrite E in E'. apply app_inv_tail in E'. subst new.
    right. destruct (F' F) as [G _]. apply checked_Some in C1. destruct C1 as [-> _]. exact G. }
  destruct L as [->|L]; [exact I|exact L].
Qed.

(** ** The file that the answers describe *)
Fixpoint lookup (asked : list request) (i : N) : option byte :=
  match asked with
  | [] => None
  | q :: rest =>
      match (if first_byte q <=? i then match snd q with Bytes bs => nth_error bs (N.to_nat (i - first_byte q)) | Fails _ => None end else None) with
      | Some b => Some b
      | None => lookup rest i
      end
  end.
Lemma lookup_told asked i b : lookup asked i = Some b -> exists q, In q asked /\ told q i b.
Proof.
  induction asked as [|q rest IH]; cbn [lookup]; [discriminate|].
  destruct (if first_byte q <=? i then _ else None) as [b'|] eqn:E.
  - intros [= ->]. exists q. split; [left; reflexivity|]. destruct (N.leb_spec (first_byte q) i) as [L|L]; [|discriminate].
    destruct (snd q) as [bs|k] eqn:Eq; [|discriminate]. exists bs. auto.
  - intros H. destruct (IH H) as (q' & I & T). exists q'. split; [right; exact I|exact T].
Qed.
Lemma told_lookup asked q i b : In q asked -> told q i b -> exists b', lookup asked i = Some b'.
Proof.
  induction asked as [|q0 rest IH]; intros I T; [destruct I|]. cbn [lookup]. destruct (if first_byte q0 <=? i then _ else None) as [b'|] eqn:E; [eauto|].
  destruct I as [->|I]; [|exact (IH I T)]. destruct T as (bs & E1 & L & E2). rewrite E1 in E. destruct (N.leb_spec (first_byte q) i); [|lia]. rewrite E2 in E. discriminate.
Qed.
Definition reach (asked : list request) : nat := fold_right Nat.max 0%nat (map (fun q => N.to_nat (first_byte q + byte_count q)) asked).
Lemma reach_in asked q : In q asked -> (N.to_nat (first_byte q + byte_count q) <= reach asked)%nat.
Proof.
  unfold reach. induction asked as [|q0 rest IH]; intros I; [destruct I|]. cbn [map fold_right]. destruct I as [->|I]; [lia|]. specialize (IH I). lia.
Qed.
Definition described (asked : list request) (base : list byte) : list byte :=
  map (fun i => match lookup asked (N.of_nat i) with Some b => b | None => nth i base x00 end) (seq 0 (Nat.max (length base) (reach asked))).
Lemma described_nth asked base i : (i < Nat.max (length base) (reach asked))%nat ->
  nth_error (described asked base) i = Some (match lookup asked (N.of_nat i) with Some b => b | None => nth i base x00 end).
Proof.
  intros L. unfold described. rewrite nth_error_map. rewrite (nth_error_nth' _ 0%nat) by (rewrite seq_length; exact L). rewrite seq_nth by exact L. reflexivity.
Qed.
Lemma described_length asked base : length (described asked base) = Nat.max (length base) (reach asked).
Proof. unfold described. rewrite map_length, seq_length. reflexivity. Qed.
Lemma described_at asked base q bs : agree asked -> In q asked -> fills q -> snd q = Bytes bs -> bs <> [] ->
  bytes_at (described asked base) (first_byte q) bs.
Proof.
  intros A I F E Hne. apply RelocateFacts.nth_bytes_at; [exact Hne|]. intros i b Hi. unfold RelocateSpec.byte_of.
  assert (Li : (i < length bs)%nat) by (apply nth_error_Some; congruence). specialize (F bs E). pose proof (reach_in asked q I) as R.
  assert (T : told q (first_byte q + N.of_nat i) b).
  { exists bs. split; [exact E|]. split; [lia|]. replace (N.to_nat (first_byte q + N.of_nat i - first_byte q)) with i by lia. exact Hi. }
  rewrite described_nth by lia. rewrite N2Nat.id. destruct (told_lookup asked q _ b I T) as (b' & Eb). rewrite Eb. f_equal.
  destruct (lookup_told asked _ b' Eb) as (q' & I' & T'). exact (A q' q _ b' b I' I T' T).
Qed.

(** Where requests can be. *)
Lemma request_bounds e q : usize_bits (cfg e) = 64 -> In q (requests e) -> 0 < byte_count q /\ first_byte q + byte_count q < 2 ^ 64.
Proof.
  intros H Hq. destruct (load_good e H) as [_ (t2 & t1 & Et & Hh & _ & Hsec)]. fold (requests e) in Et. rewrite Et in Hq. apply in_app_or in Hq.
  change (0 < q_len q /\ q_off q + q_len q < 2 ^ 64). destruct Hq as [Hq|Hq].
  - destruct Hsec as [->|(fh & r1 & _ & (F1 & F2 & F3 & F4 & F5) & Hs2)]; [destruct Hq|]. rewrite Forall_forall in Hs2. destruct (Hs2 q Hq) as [P R]. split; [exact P|]. unfold u32 in *.
    destruct R as [(? & ? & ?)|[(? & ? & ?)|(? & o & _ & ? & ? & ? & ?)]]; lia.
  - rewrite Forall_forall in Hh. specialize (Hh q Hq). unfold in_header in Hh. lia.
Qed.
Lemma described_loads e base : usize_bits (cfg e) = 64 -> Forall fills (requests e) -> Forall answered (requests e) -> agree (requests e) ->
  forall e', usize_bits (cfg e') = 64 -> serves (rd e') (described (requests e) base) ->
  type_information_new e' = type_information_new e /\ requests e' = requests e.
Proof.
  intros H Hf Ha A e' H' S. apply load_local; [exact H|exact H'|]. intros newer off n a older E.
  assert (I : In (off, n, a) (requests e)) by (rewrite E; apply in_or_app; right; left; reflexivity).
  rewrite Forall_forall in Hf, Ha. specialize (Hf _ I). specialize (Ha _ I). unfold answered in Ha. cbn [snd] in Ha. destruct a as [bs|k]; [|destruct Ha].
  destruct (request_bounds e _ H I) as [P Q]. unfold first_byte, byte_count in P, Q. cbn [fst snd] in P, Q. pose proof (Hf bs eq_refl) as Lb. unfold byte_count in Lb. cbn [fst snd] in Lb.
  assert (Hne : bs <> []) by (intros ->; cbn in Lb; lia).
  pose proof (described_at (requests e) base _ bs A I Hf eq_refl Hne) as D. unfold first_byte in D. cbn [fst] in D.
  destruct (S older off n P Q) as [S1 _]. destruct S1 as (bs' & E' & D' & L').
  { pose proof (bytes_at_length _ _ _ D). lia. }
  rewrite E'. f_equal. apply (bytes_at_inj _ _ _ _ D' D). lia.
Qed.

(** ** A file whose type section changes *)
Lemma consecutive_least l : forall o q, consecutive o (map place l) -> In q l -> o <= first_byte q.
Proof.
  induction l as [|[[off n] a] l IH]; intros o q C I; [destruct I|]. cbn [map place fst consecutive] in C. destruct C as [-> C].
  destruct I as [<-|I]; [unfold first_byte; cbn; lia|]. specialize (IH _ q C I). lia.
Qed.
Lemma consecutive_once l : forall o q1 q2 i, consecutive o (map place l) -> In q1 l -> In q2 l ->
  first_byte q1 <= i < first_byte q1 + byte_count q1 -> first_byte q2 <= i < first_byte q2 + byte_count q2 -> q1 = q2.
Proof.
  induction l as [|[[off n] a] l IH]; intros o q1 q2 i C I1 I2 C1 C2; [destruct I1|]. cbn [map place fst consecutive] in C. destruct C as [-> C].
  destruct I1 as [<-|I1], I2 as [<-|I2].
  - reflexivity.
  - pose proof (consecutive_least l _ q2 C I2). unfold first_byte, byte_count in C1. cbn [fst snd] in C1. lia.
  - pose proof (consecutive_least l _ q1 C I1). unfold first_byte, byte_count in C2. cbn [fst snd] in C2. lia.
  - exact (IH _ q1 q2 i C I1 I2 C1 C2).
Qed.
Lemma told_covers q i b : fills q -> told q i b -> first_byte q <= i < first_byte q + byte_count q.
Proof.
  intros F (bs & E & L & Hn). specialize (F bs E). assert ((N.to_nat (i - first_byte q) < length bs)%nat) by (apply nth_error_Some; congruence). lia.
Qed.
Lemma told_image img q bs i b : bytes_at img (first_byte q) bs -> snd q = Bytes bs -> told q i b -> nth_error img (N.to_nat i) = Some b.
Proof.
  intros D E (bs' & E' & L & Hn). rewrite E in E'. injection E' as <-. pose proof (RelocateFacts.bytes_at_nth _ _ _ D _ _ Hn) as X. unfold RelocateSpec.byte_of in X.
  replace (first_byte q + N.of_nat (N.to_nat (i - first_byte q))) with i in X by lia. exact X.
Qed.
Section Changing.
  Context (e : env) (img : list byte) (en : endianness) (hf : header_fields).
  Notation f := (layout_of img en hf).
  Notation lo := (types_lo f).
  Notation hi := (types_hi f + 12).
  Hypothesis H64 : usize_bits (cfg e) = 64.
  Hypothesis Hhf : file_header_at img en hf.
  Hypothesis Hlo : 24 <= lo.
  Hypothesis Hapart : strings_hi f <= lo \/ hi <= strings_lo f.
  Hypothesis Hfills : forall tr off n bs, rd e tr off n = Bytes bs -> N.of_nat (length bs) = n.
  Hypothesis Hout : serves_outside lo hi (rd e) img.

  Lemma changing_fills : Forall fills (requests e).
  Proof.
    apply Forall_forall. intros [[off n] a] I bs E. cbn [snd] in E. subst a. unfold byte_count. cbn [fst snd]. destruct (in_split _ _ I) as (l1 & l2 & E).
    exact (Hfills _ _ _ _ (requests_honest e l1 off n _ l2 E)).
  Qed.
  (** A request outside the type section is answered from [img]. *)
  Lemma outside_told q bs : In q (requests e) -> snd q = Bytes bs -> first_byte q + byte_count q <= lo \/ hi <= first_byte q -> bytes_at img (first_byte q) bs.
  Proof.
    intros I E P. destruct (request_bounds e q H64 I) as [B1 B2]. destruct q as [[off n] a]. unfold first_byte, byte_count in *. cbn [fst snd] in *. subst a.
    destruct (in_split _ _ I) as (l1 & l2 & El). pose proof (requests_honest e l1 off n _ l2 El) as R. destruct (Hout l2 off n B1 P B2) as [S1 S2].
    destruct (N.le_gt_cases (off + n) (N.of_nat (length img))) as [L|L].
    - destruct (S1 L) as (bs' & R' & D & _). rewrite R in R'. injection R' as <-. exact D.
    - destruct (S2 L) as [k R']. rewrite R in R'. discriminate.
  Qed.
  Lemma buffer_full n bs : length bs = n -> buffer n bs = bs.
  Proof. intros <-. unfold buffer. rewrite firstn_app, Nat.sub_diag, firstn_all. apply app_nil_r. Qed.
  Lemma changing_header fh r1 : file_header_new e reader_new = (Ok fh, r1) -> (exists newer, requests e = newer ++ r_trace r1) ->
    hdr_len fh = hf_hdr_len hf /\ type_off fh = hf_type_off hf /\ type_len fh = hf_type_len hf /\ str_off fh = hf_str_off hf /\ str_len fh = hf_str_len hf.
  Proof.
    intros EF [newer Er]. pose proof (header_trace e H64) as HT. rewrite EF in HT. destruct HT as (b20 & b16 & b12 & b8 & b4 & b3 & b2 & b0 & T & MG & V4 & V8 & V12 & V16 & V20). cbv zeta in *.
    assert (D : forall off n bs, In (off, n, Bytes bs) (r_trace r1) -> off + n <= 24 -> bytes_at img off bs /\ N.of_nat (length bs) = n).
    { intros off n bs I B. assert (I' : In (off, n, Bytes bs) (requests e)) by (rewrite Er; apply in_or_app; auto). split.
      - refine (outside_told _ bs I' eq_refl _). left. unfold first_byte, byte_count. cbn [fst snd]. lia.
      - pose proof changing_fills as F. rewrite Forall_forall in F. exact (F _ I' bs eq_refl). }
    rewrite T in D. destruct Hhf as (M & U4 & U8 & U12 & U16 & U20).
    destruct (D 0 2 b0) as [D0 L0]; [cbn; tauto|lia|]. destruct (D 4 4 b4) as [D4 L4]; [cbn; tauto|lia|]. destruct (D 8 4 b8) as [D8 L8]; [cbn; tauto|lia|].
    destruct (D 12 4 b12) as [D12 L12]; [cbn; tauto|lia|]. destruct (D 16 4 b16) as [D16 L16]; [cbn; tauto|lia|]. destruct (D 20 4 b20) as [D20 L20]; [cbn; tauto|lia|].
    rewrite buffer_full in MG, V4, V8, V12, V16, V20 by lia.
    assert (En : r_end r1 = en).
    { subst b0. assert (X : magic (r_end r1) = match en with Little => [x9f; xeb] | Big => [xeb; x9f] end).
      { apply (bytes_at_inj _ _ _ _ D0 M). destruct (r_end r1), en; reflexivity. }
      destruct (r_end r1), en; first [reflexivity|discriminate X]. }
    rewrite En in V4, V8, V12, V16, V20.
    assert (W : forall off bs v, bytes_at img off bs -> N.of_nat (length bs) = 4 -> u32_at img en off v -> value en bs = v).
    { intros off bs v B L (bs' & L' & B' & Ev). rewrite (bytes_at_inj _ _ _ _ B B') by lia. exact Ev. }
    rewrite V4, V8, V12, V16, V20. repeat split; (eapply W; [eassumption|assumption|assumption]).
  Qed.
  Lemma changing_told : (exists ti, type_information_new e = Ok ti) -> agree (requests e) /\
    forall q i b, In q (requests e) -> told q i b -> i < lo \/ hi <= i -> nth_error img (N.to_nat i) = Some b.
  Proof.
    intros [ti Hti]. pose proof changing_fills as F. rewrite Forall_forall in F.
    destruct (load_good e H64) as [_ (t2 & t1 & Et & Hh & Et1 & Hsec)]. fold (requests e) in Et.
    (* every request is outside the type section, or one of its consecutive words *)
    assert (K : exists l o, consecutive o (map place l) /\ forall q, In q (requests e) ->
        (first_byte q + byte_count q <= lo \/ hi <= first_byte q) \/ (In q l /\ lo <= first_byte q /\ first_byte q + byte_count q <= hi)).
    { destruct Hsec as [->|(fh & r1 & EF & Hfit & Hs)].
      - exists [], 0. split; [exact I|]. intros q Hq. left. left. rewrite Et in Hq. cbn [app] in Hq. rewrite Forall_forall in Hh. specialize (Hh q Hq). unfold in_header, q_off, q_len in Hh. unfold first_byte, byte_count. cbn [types_lo layout_of] in *. lia.
      - rewrite EF in Et1. cbn [snd] in Et1. subst t1.
        destruct (changing_header fh r1 EF (ex_intro _ t2 Et)) as (E1 & E2 & E3 & E4 & E5).
        assert (C : consecutive (hdr_len fh + type_off fh) (places t2)).
        { destruct (load_fetches e H64) as [(n & P)|(fh' & r1' & newer & EF' & Er & _ & C)].
          - (* then there are no words at all *)
            pose proof (header_trace e H64) as HT. rewrite EF in HT. destruct HT as (b20 & b16 & b12 & b8 & b4 & b3 & b2 & b0 & T & _).
            rewrite Et, places_app in P. assert (Z : places t2 = []). { replace (places (r_trace r1)) with header_places in P by (rewrite T; reflexivity).
              assert (LP : (length (header_places ++ places t2) <= 6)%nat) by (rewrite P; rewrite firstn_length; cbn [header_places length]; lia).
              rewrite app_length in LP. cbn [header_places length] in LP. destruct (places t2); [reflexivity|cbn [length] in LP; lia]. }
            rewrite Z. exact I.
          - rewrite EF in EF'. injection EF' as <- <-. rewrite Et in Er. apply app_inv_tail in Er. subst newer. exact C. }
        exists (fields t2), (hdr_len fh + type_off fh). split; [exact C|]. intros q Hq. rewrite Et in Hq. apply in_app_or in Hq. destruct Hq as [Hq|Hq].
        + rewrite Forall_forall in Hs. destruct (Hs q Hq) as [P R]. unfold in_types, in_strings, q_off, q_len in *. unfold first_byte, byte_count. rewrite E1, E2, E3, E4, E5 in R. cbn [layout_of types_lo types_hi strings_lo strings_hi] in *.
          assert (W : 4 <= snd (fst q) -> In q (fields t2)).
          { intros W. unfold fields. apply filter_In. split; [apply in_rev; rewrite rev_involutive; exact Hq|]. unfold byte_count. apply N.ltb_lt. lia. }
          destruct R as [(R1 & R2 & R3)|[(R1 & R2 & R3)|(R1 & o & _ & R2 & R3 & R4 & R5)]].
          * right. split; [exact (W R1)|]. lia.
          * left. lia.
          * right. split; [exact (W R1)|]. lia.
        + left. left. rewrite Forall_forall in Hh. specialize (Hh q Hq). unfold in_header, q_off, q_len in Hh. unfold first_byte, byte_count. cbn [types_lo layout_of] in *. lia. }
    destruct K as (l & o & C & K).
    assert (Out : forall q i b, In q (requests e) -> told q i b -> first_byte q + byte_count q <= lo \/ hi <= first_byte q -> nth_error img (N.to_nat i) = Some b).
    { intros q i b Hq T P. destruct T as (bs & E & T'). refine (told_image img q bs i b (outside_told q bs Hq E P) E _). exists bs. auto. }
    split.
    - intros q1 q2 i b1 b2 I1 I2 T1 T2. pose proof (told_covers q1 i b1 (F q1 I1) T1) as C1. pose proof (told_covers q2 i b2 (F q2 I2) T2) as C2.
      destruct (K q1 I1) as [P1|(L1 & P1 & Q1)], (K q2 I2) as [P2|(L2 & P2 & Q2)]; try lia.
      + pose proof (Out q1 i b1 I1 T1 P1) as X1. pose proof (Out q2 i b2 I2 T2 P2) as X2. congruence.
      + pose proof (consecutive_once l o q1 q2 i C L1 L2 C1 C2) as <-. destruct T1 as (bs1 & E1 & _ & N1), T2 as (bs2 & E2 & _ & N2). rewrite E1 in E2. injection E2 as <-. rewrite N1 in N2. injection N2 as ->. reflexivity.
    - intros q i b Hq T Hi. pose proof (told_covers q i b (F q Hq) T) as Cq. destruct (K q Hq) as [P|(L & P & Q)]; [exact (Out q i b Hq T P)|lia].
  Qed.
End Changing.
