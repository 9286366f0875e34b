(** * PropFetch: record data is read once (C73). *)
From Coq Require Import Strings.String.
From Coq Require Import List NArith ZArith Bool Lia Strings.Byte.
From Verif Require Import TypeInfo Spec BaseFacts Safety Exact LoadProps LoadProps2 Encode Work Witness Sample PropLoad2 FetchSpec FetchFacts.
Import ListNotations.
Open Scope N_scope.

(** ** C73 *)
(** Whatever the Readable answers: leaving out the one-byte reads, the load asks for the header fields in order and then
    for consecutive pieces of the file from the place that the header named as the start of the type section. *)
Theorem C73_fetched_once : forall e, usize_bits (cfg e) = 64 ->
  (exists n, map place (fields (requests e)) = firstn n header_places) \/
  exists newer b20 b16 b12 b8 b4 b3 b2 b0 start rest,
    requests e = newer ++ [(20, 4, Bytes b20); (16, 4, Bytes b16); (12, 4, Bytes b12); (8, 4, Bytes b8); (4, 4, Bytes b4); (3, 1, Bytes b3); (2, 1, Bytes b2); (0, 2, Bytes b0)] /\
    map place (fields (requests e)) = header_places ++ rest /\ rest = map place (fields newer) /\ consecutive start rest /\
    (Forall fills (requests e) -> exists en, b0 = magic en /\ start = value en b4 + value en b8).
Proof.
  intros e H. destruct (load_fetches e H) as [L|(fh & r1 & newer & EF & Er & P & C)]; [left; exact L|right].
  pose proof (header_trace e H) as HT. rewrite EF in HT. destruct HT as (b20 & b16 & b12 & b8 & b4 & b3 & b2 & b0 & T & MG & V4 & V8 & _). cbv zeta in *.
  exists newer, b20, b16, b12, b8, b4, b3, b2, b0, (hdr_len fh + type_off fh), (places newer). rewrite <- T. split; [exact Er|]. split; [exact P|]. split; [reflexivity|]. split; [exact C|].
  intros F. rewrite Forall_forall in F. exists (r_end r1).
  assert (L : forall off n bs, In (off, n, Bytes bs) (r_trace r1) -> N.of_nat (length bs) = n).
  { intros off n bs I. exact (F (off, n, Bytes bs) ltac:(rewrite Er; apply in_or_app; auto) bs eq_refl). }
  rewrite T in L. rewrite buffer_full in MG by (pose proof (L 0 2 b0 ltac:(cbn; tauto)); lia).
  rewrite buffer_full in V4 by (pose proof (L 4 4 b4 ltac:(cbn; tauto)); lia). rewrite buffer_full in V8 by (pose proof (L 8 4 b8 ltac:(cbn; tauto)); lia).
  rewrite <- V4, <- V8. auto.
Qed.
Print Assumptions C73_fetched_once.
Fixpoint ascending (o : N) (l : list (N * N)) : Prop := match l with [] => True | (p, n) :: l' => o <= p /\ ascending (p + n) l' end.
Lemma consecutive_ascending l : forall o, consecutive o l -> ascending o l.
Proof. induction l as [|[p n] l IH]; intros o C; [exact I|]. destruct C as [-> C]. split; [lia|exact (IH _ C)]. Qed.
Lemma ascending_least l : forall o u y v, ascending o l -> l = u ++ y :: v -> o <= fst y.
Proof.
  induction l as [|[p n] l IH]; intros o u y v A E; [destruct u; discriminate E|]. destruct A as [A1 A2]. destruct u as [|w u]; cbn [app] in E; injection E as E1 E2.
  - subst y. exact A1.
  - pose proof (IH _ u y v A2 E2). lia.
Qed.
Lemma ascending_order l : forall o a x b y c, ascending o l -> l = a ++ x :: b ++ y :: c -> fst x + snd x <= fst y.
Proof.
  induction l as [|[p n] l IH]; intros o a x b y c A E; [destruct a; discriminate E|]. destruct A as [_ A]. destruct a as [|w a]; cbn [app] in E; injection E as E1 E2.
  - subst x. cbn [fst snd]. exact (ascending_least _ _ _ _ _ A E2).
  - exact (IH _ a x b y c A E2).
Qed.
(** So no byte of the file is fetched twice as part of a record - by two requests for more than one byte -, except for
    header bytes, if the header says that the type section begins inside the header. *)
Theorem C73_no_byte_twice : forall e, usize_bits (cfg e) = 64 -> forall l1 q1 l2 q2 l3, fields (requests e) = l1 ++ q1 :: l2 ++ q2 :: l3 ->
  first_byte q1 + byte_count q1 <= first_byte q2 \/ (first_byte q1 + byte_count q1 <= 24 /\ first_byte q2 < 24).
Proof.
  intros e H l1 q1 l2 q2 l3 E.
  assert (Em : map place (fields (requests e)) = map place l1 ++ place q1 :: map place l2 ++ place q2 :: map place l3) by (rewrite E, !map_app; cbn [map]; rewrite !map_app; reflexivity).
  assert (Hh : forall z, In z header_places -> fst z + snd z <= 24) by (intros z I; cbn in I; repeat (destruct I as [<-|I]; [cbn; lia|]); destruct I).
  assert (Hc : forall n a x b y c, firstn n header_places = a ++ x :: b ++ y :: c -> fst x + snd x <= fst y).
  { intros n a x b y c Ef. refine (ascending_order (firstn n header_places) 0 a x b y c _ Ef).
    do 7 (destruct n as [|n]; [cbn; lia|]). cbn; lia. }
  unfold first_byte, byte_count. change (fst (fst q1)) with (fst (place q1)). change (snd (fst q1)) with (snd (place q1)). change (fst (fst q2)) with (fst (place q2)).
  destruct (load_fetches e H) as [(n & L)|(fh & r1 & newer & _ & _ & P & C)].
  - left. change (places (requests e)) with (map place (fields (requests e))) in L. rewrite L in Em. exact (Hc _ _ _ _ _ _ Em).
  - change (places (requests e)) with (map place (fields (requests e))) in P. rewrite P in Em.
    (* where the first of the two lies *)
    assert (S : forall (h t : list (N * N)) a x b y c, h ++ t = a ++ x :: b ++ y :: c ->
      (exists c', h = a ++ x :: b ++ y :: c') \/ (In x h /\ In y t) \/ exists a', t = a' ++ x :: b ++ y :: c).
    { induction h as [|z h IH]; intros t a x b y c Eh; [right; right; exists a; exact Eh|]. destruct a as [|w a].
      - cbn [app] in Eh. injection Eh as -> Eh. assert (Y : In y (h ++ t)) by (rewrite Eh; apply in_or_app; right; left; reflexivity).
        clear IH. revert b Eh. induction h as [|z' h IH']; intros b Eh.
        + right. left. split; [left; reflexivity|]. cbn [app] in Eh. rewrite Eh. apply in_or_app. right. left. reflexivity.
        + destruct b as [|w b]; cbn [app] in Eh.
          * injection Eh as -> Eh. left. exists h. reflexivity.
          * injection Eh as -> Eh. destruct (IH' ltac:(rewrite Eh; apply in_or_app; right; left; reflexivity) b Eh) as [(c' & K)|[[K1 K2]|(a' & K)]].
            -- left. exists c'. cbn [app] in K |- *. injection K as K. rewrite K. reflexivity.
            -- right. left. split; [left; reflexivity|exact K2].
            -- right. left. split; [left; reflexivity|]. rewrite K. apply in_or_app. right. right. apply in_or_app. right. left. reflexivity.
      - cbn [app] in Eh. injection Eh as -> Eh. destruct (IH t a x b y c Eh) as [(c' & K)|[[K1 K2]|K]].
        + left. exists c'. rewrite K. reflexivity.
        + right. left. split; [right; exact K1|exact K2].
        + right. right. exact K. }
    destruct (S _ _ _ _ _ _ _ Em) as [(c' & K)|[[K1 K2]|(a' & K)]].
    + left. refine (Hc 6%nat (map place l1) _ (map place l2) _ c' _). rewrite <- K. reflexivity.
    + specialize (Hh _ K1). destruct (N.lt_ge_cases (fst (place q2)) 24) as [L|L]; [right; auto|left; lia].
    + left. exact (ascending_order _ _ _ _ _ _ _ (consecutive_ascending _ _ C) K).
Qed.
Print Assumptions C73_no_byte_twice.
(** If no two answers given during the load disagree about a byte and no request failed, the outcome is that of loading a file that does not change. *)
Theorem C73_fixed_file : forall e, usize_bits (cfg e) = 64 -> Forall fills (requests e) -> (forall off n k, ~ In (off, n, Fails k) (requests e)) -> agree (requests e) ->
  exists img, forall e', usize_bits (cfg e') = 64 -> serves (rd e') img ->
    type_information_new e' = type_information_new e /\ requests e' = requests e.
Proof.
  intros e H F A G. exists (described (requests e) []). apply described_loads; [exact H|exact F| |exact G].
  apply Forall_forall. intros [[off n] [bs|k]] I; [exact Logic.I|]. destruct (A off n k I).
Qed.
Print Assumptions C73_fixed_file.
(** A file of which everything but the type section keeps its contents [img] while it is loaded; the type section may be
    rewritten at any moment.  If loading succeeds, the result is that of one file that does not change and that is [img] outside the type section.
    (The 12 bytes after the section may be read as the data of an array, see C14.) *)
Theorem C73_changing_file : forall e img en hf ti, let f := layout_of img en hf in
  usize_bits (cfg e) = 64 -> file_header_at img en hf -> 24 <= types_lo f -> strings_hi f <= types_lo f \/ types_hi f + 12 <= strings_lo f ->
  (forall tr off n bs, rd e tr off n = Bytes bs -> N.of_nat (length bs) = n) ->
  serves_outside (types_lo f) (types_hi f + 12) (rd e) img -> type_information_new e = Ok ti ->
  exists img', (forall i, i < N.of_nat (length img) -> i < types_lo f \/ types_hi f + 12 <= i -> nth_error img' (N.to_nat i) = nth_error img (N.to_nat i)) /\
    forall e', usize_bits (cfg e') = 64 -> serves (rd e') img' -> type_information_new e' = Ok ti.
Proof.
  intros e img en hf ti f H Hf Hlo Hap Hfl Ho Hti. destruct (changing_told e img en hf H Hf Hlo Hap Hfl Ho (ex_intro _ ti Hti)) as [A T].
  exists (described (requests e) img). split.
  - intros i Li Hi. rewrite described_nth by lia. rewrite N2Nat.id. destruct (lookup (requests e) i) as [b|] eqn:E.
    + destruct (lookup_told _ _ _ E) as (q & I & Tq). symmetry. exact (T q i b I Tq Hi).
    + symmetry. apply nth_error_nth'. lia.
  - intros e' H' S. rewrite <- Hti. apply (described_loads e img H (changing_fills e Hfl)); try assumption.
    pose proof (load_ok_answered e ti H Hti) as Q. eapply Forall_impl; [|exact Q]. intros q [bs E]. unfold answered. rewrite E. exact I.
Qed.
Print Assumptions C73_changing_file.
(** A file replaced by another one between two requests. *)
Definition replaced (k : nat) (img1 img2 : list byte) : readable := fun tr off n => readable_file (if (length tr <? k)%nat then img1 else img2) tr off n.
(** Two integers with one name between them, and the name. *)
Definition two_ints (name : byte) : list byte := raw_file Little [1; 0x01000000; 4; 32; 1; 0x01000000; 4; 32] [x00; name; x00].
(** Names are read as often as they are mentioned: a name that changes in between gives a table that no fixed file gives. *)
Theorem C73_names_must_stay : exists ti, type_information_new {| cfg := build64 true; rd := replaced 14 (two_ints x61) (two_ints x62) |} = Ok ti /\
  name_of ti 1 = Some (s "a") /\ name_of ti 2 = Some (s "b") /\
  forall img e, usize_bits (cfg e) = 64 -> serves (rd e) img -> type_information_new e <> Ok ti.
Proof.
  eexists. split; [vm_compute; reflexivity|]. split; [vm_compute; reflexivity|]. split; [vm_compute; reflexivity|]. intros img e H S L.
  destruct (C11_string_decoding e img _ H S L) as (en & hf & _ & K).
  edestruct (K 1) as (k1 & bs1 & E1 & R1 & L1 & _); [split; [discriminate|vm_compute; reflexivity]|apply own_name; reflexivity|].
  edestruct (K 2) as (k2 & bs2 & E2 & R2 & L2 & _); [split; [discriminate|vm_compute; reflexivity]|apply own_name; reflexivity|].
  rewrite (E1 _ eq_refl) in R1. rewrite (E2 _ eq_refl) in R2. pose proof (raw_string_unique _ _ _ _ R1 R2) as E. subst bs2.
  apply latin1_eq in L1, L2. rewrite <- L1 in L2. discriminate L2.
Qed.
Print Assumptions C73_names_must_stay.

(** A file whose type section is rewritten after eleven requests, in the middle of the first record: the result is that of neither
    version - the size of the one and the bit count of the other - but that of a third file. *)
Definition strings_first (size bits : N) : list byte := raw_header Little 24 3 16 0 3 ++ [x00; x61; x00] ++ words_bytes Little [1; 0x01000000; size; bits].
Definition strings_first_fields : header_fields := {| hf_hdr_len := 24; hf_type_off := 3; hf_type_len := 16; hf_str_off := 0; hf_str_len := 3 |}.
Definition torn : env := {| cfg := build64 true; rd := replaced 11 (strings_first 4 32) (strings_first 8 64) |}.
Lemma slice_prefix (p t : list byte) off n : off + n <= N.of_nat (length p) -> slice (p ++ t) off n = slice p off n.
Proof.
  intros L. unfold slice. rewrite skipn_app, firstn_app, skipn_length. replace (N.to_nat n - (length p - N.to_nat off))%nat with 0%nat by lia.
  rewrite firstn_O. apply app_nil_r.
Qed.
Example C73_met : let img := strings_first 4 32 in let f := layout_of img Little strings_first_fields in
  usize_bits (cfg torn) = 64 /\ file_header_at img Little strings_first_fields /\ types_lo f = 27 /\ types_hi f = 43 /\ strings_hi f = 27 /\
  (forall tr off n bs, rd torn tr off n = Bytes bs -> N.of_nat (length bs) = n) /\
  serves_outside (types_lo f) (types_hi f + 12) (rd torn) img /\
  type_information_new torn = type_information_new (file_env (strings_first 4 64)) /\ size_of (build64 true) (match type_information_new torn with Ok ti => ti | _ => sample_ti end) 1 = Ok 4 /\
  type_information_new torn <> type_information_new (file_env (strings_first 4 32)) /\ type_information_new torn <> type_information_new (file_env (strings_first 8 64)).
Proof.
  cbv zeta. split; [reflexivity|]. split; [check|]. split; [reflexivity|]. split; [reflexivity|]. split; [reflexivity|]. split.
  { intros tr off n bs. cbn [torn rd]. unfold replaced, readable_file. destruct (length tr <? 11)%nat.
    all: match goal with |- (if ?c then _ else _) = _ -> _ => destruct c eqn:E end; [|discriminate]; apply N.leb_le in E; intros [= <-]; apply (bytes_at_slice _ _ _ E). }
  split.
  { intros tr off n Hn Ho Hb. change (types_lo (layout_of (strings_first 4 32) Little strings_first_fields)) with 27 in Ho. change (types_hi (layout_of (strings_first 4 32) Little strings_first_fields) + 12) with 55 in Ho.
    change (N.of_nat (length (strings_first 4 32))) with 43. cbn [torn rd].
    assert (E : replaced 11 (strings_first 4 32) (strings_first 8 64) tr off n = readable_file (strings_first 4 32) tr off n).
    { unfold replaced. destruct (length tr <? 11)%nat; [reflexivity|]. unfold readable_file. change (N.of_nat (length (strings_first 8 64))) with 43. change (N.of_nat (length (strings_first 4 32))) with 43.
      destruct (N.leb_spec (off + n) 43) as [L|L]; [|reflexivity]. f_equal. assert (L' : off + n <= 27) by lia. unfold strings_first. rewrite !app_assoc.
      etransitivity; [|symmetry]; exact (slice_prefix (raw_header Little 24 3 16 0 3 ++ [x00; x61; x00]) _ off n L'). }
    rewrite E. destruct (readable_file_serves (strings_first 4 32) tr off n Hn Hb) as [S1 S2]. change (N.of_nat (length (strings_first 4 32))) with 43 in S1, S2. split; assumption. }
  split; [vm_compute; reflexivity|]. split; [vm_compute; reflexivity|]. split; vm_compute; discriminate.
Qed.
