(** * LoadProps2: magic, empty sections, 32-bit targets, growing files. *)
From Coq Require Import Lia ZifyBool ZifyNat ZifyN.
From Verif Require Import TypeInfo BaseFacts Spec Bits Maps Safety Local Exact Errors Encode EncodeProof LoadProps.
From Coq Require Import Strings.Byte.

(** ** C18 *)
Definition after_magic (e : env) (fh : file_header) : M type_information :=
  tss <- lift (ok_or InvalidTypeSectionOffset (checked 32 (hdr_len fh + type_off fh))) ;;
  tse <- lift (ok_or InvalidTypeSectionOffset (checked (usize_bits (cfg e)) (tss + type_len fh))) ;;
  set_offset tss ;;; load_types e fh tse.
Definition header_rest (e : env) : M file_header :=
  v <- read_u8 e ;; f <- read_u8 e ;; hl <- read_u32 e ;; toff <- read_u32 e ;; tlen <- read_u32 e ;;
  soff <- read_u32 e ;; slen <- read_u32 e ;;
  ret {| version := bval v; flags := bval f; hdr_len := hl; type_off := toff;
         type_len := tlen; str_off := soff; str_len := slen |}.

Lemma bind_assoc {A B C} (m : M A) (k : A -> M B) (l : B -> M C) r :
  bind (bind m k) l r = bind m (fun a => bind (k a) l) r.
Proof. unfold bind. destruct (m r) as [[a|x|p|] r']; reflexivity. Qed.


Definition read_magic (e : env) : reader :=
  {| r_off := 2; r_end := Little; r_trace := [(0, 2, rd e [] 0 2)] |}.
Lemma load_first e bs : 2 < 2 ^ usize_bits (cfg e) -> rd e [] 0 2 = Bytes bs ->
  load e reader_new =
  let m := from_le_bytes (fit 2 bs) in
  if m =? BTF_LITTLE_ENDIAN_MAGIC then bind (set_endianness Little) (fun _ => bind (header_rest e) (after_magic e)) (read_magic e)
  else if m =? BTF_BIG_ENDIAN_MAGIC then bind (set_endianness Big) (fun _ => bind (header_rest e) (after_magic e)) (read_magic e)
  else (Err InvalidMagic, read_magic e).
Proof.
  intros Hw E. unfold load, file_header_new. rewrite bind_assoc.
  rewrite (bind_eq (set_offset 0) _ _ tt (with_offset 0 reader_new)) by reflexivity. rewrite bind_assoc.
  unfold detect_endianness. rewrite bind_assoc.
  assert (R : read_u16 e (with_offset 0 reader_new) = (Ok (from_le_bytes (fit 2 bs)), read_magic e)).
  { unfold read_u16, read_uint, read. unfold bind. cbn [with_offset reader_new r_trace r_off r_end].
    unfold read_magic. rewrite E. unfold add_usize. rewrite wrap_small by lia. reflexivity. }
  rewrite (bind_eq _ _ _ _ _ R). cbn zeta.
  destruct (_ =? BTF_LITTLE_ENDIAN_MAGIC); [reflexivity|].
  destruct (_ =? BTF_BIG_ENDIAN_MAGIC); reflexivity.
Qed.
Lemma load_first_fails e k : rd e [] 0 2 = Fails k ->
  load e reader_new = (Err k, {| r_off := 0; r_end := Little; r_trace := [(0, 2, Fails k)] |}).
Proof.
  intros E. unfold load, file_header_new, detect_endianness, read_u16, read_uint, read, bind. cbn. rewrite E. reflexivity.
Qed.

Section Grow.
  Context (e : env).
  Notation simE := (sim e e).
  Lemma grow_rest : forall A (m : M A), simE m m -> forall r, exists new, r_trace (snd (m r)) = new ++ r_trace r.
  Proof. intros A m H r. destruct (H r) as (new & E & _). eauto. Qed.
End Grow.
Lemma sim_rest e en : sim e e (bind (set_endianness en) (fun _ => bind (header_rest e) (after_magic e)))
  (bind (set_endianness en) (fun _ => bind (header_rest e) (after_magic e))).
Proof.
  assert (P : (overflow_checks (cfg e) = true /\ usize_bits (cfg e) <= usize_bits (cfg e)) \/ cfg e = cfg e) by auto.
  apply sim_bind; [apply sim_set_endianness|]. intros _. apply sim_bind.
  - unfold header_rest, read_u32. repeat (apply sim_bind; [first [apply sim_read_u8; exact P|apply sim_read_uint; exact P]|intros ?]). apply sim_ret.
  - intros fh. unfold after_magic. apply sim_bind; [apply sim_lift|]. intros tss. apply sim_bind; [apply sim_lift|]. intros tse.
    apply sim_bind; [apply sim_set_offset|]. intros _. apply sim_load_types. exact P.
Qed.

Lemma first_request e : 2 < 2 ^ usize_bits (cfg e) ->
  exists newer, requests e = newer ++ [(0, 2, rd e [] 0 2)].
Proof.
  intros Hw. unfold requests. destruct (rd e [] 0 2) as [bs|k] eqn:E.
  - rewrite (load_first e bs Hw E). cbn zeta.
    assert (G : forall en, exists newer, r_trace (snd (bind (set_endianness en) (fun _ => bind (header_rest e) (after_magic e)) (read_magic e))) = newer ++ [(0, 2, Bytes bs)]).
    { intros en. destruct (sim_rest e en (read_magic e)) as (new & Et & _). exists new. rewrite Et. unfold read_magic. cbn [r_trace]. rewrite E. reflexivity. }
    destruct (_ =? BTF_LITTLE_ENDIAN_MAGIC); [apply G|]. destruct (_ =? BTF_BIG_ENDIAN_MAGIC); [apply G|].
    exists []. cbn. rewrite E. reflexivity.
  - rewrite (load_first_fails e k E). exists []. reflexivity.
Qed.
Lemma bad_magic e b1 b2 : 2 < 2 ^ usize_bits (cfg e) -> rd e [] 0 2 = Bytes [b1; b2] ->
  [b1; b2] <> [x9f; xeb] -> [b1; b2] <> [xeb; x9f] ->
  type_information_new e = Err InvalidMagic /\ requests e = [(0, 2, Bytes [b1; b2])].
Proof.
  intros Hw E Hl Hb. unfold type_information_new, requests. rewrite (load_first e _ Hw E). cbn zeta.
  assert (M : from_le_bytes (fit 2 [b1; b2]) = bval b1 + 256 * bval b2) by (cbn; lia).
  pose proof (bval_lt b1). pose proof (bval_lt b2).
  assert (K : forall c1 c2, bval b1 + 256 * bval b2 = bval c1 + 256 * bval c2 -> [b1; b2] = [c1; c2]).
  { intros c1 c2 Hc. pose proof (bval_lt c1). pose proof (bval_lt c2).
    assert (bval b1 = bval c1 /\ bval b2 = bval c2) as [A B] by lia. apply bval_inj in A, B. congruence. }
  rewrite M. destruct (N.eqb_spec (bval b1 + 256 * bval b2) BTF_LITTLE_ENDIAN_MAGIC) as [C|_]; [exfalso; apply Hl, K; exact C|].
  destruct (N.eqb_spec (bval b1 + 256 * bval b2) BTF_BIG_ENDIAN_MAGIC) as [C|_]; [exfalso; apply Hb, K; exact C|].
  cbn. rewrite E. auto.
Qed.

(** ** C20: an empty type section *)
Lemma empty_section e img en hf : usize_bits (cfg e) = 64 -> serves (rd e) img -> file_header_at img en hf ->
  hf_hdr_len hf + hf_type_off hf < 2 ^ 32 -> hf_type_len hf = 0 ->
  exists ti, type_information_new e = Ok ti /\ get ti = [] /\
    Forall (fun q => header_range (q_off q) (q_len q)) (requests e).
Proof.
  intros H Hs Hfh Hlo Hz. destruct (header_complete e img H Hs en hf Hfh) as (fh & r1 & Eh & <- & P1).
  cbn [fields hf_hdr_len hf_type_off hf_type_len] in Hlo, Hz.
  assert (E : load e reader_new = (Ok (tables []), with_offset (hdr_len fh + type_off fh) r1)).
  { unfold load. rewrite (bind_eq _ _ _ _ _ Eh).
    rewrite (bind_eq _ _ r1 (hdr_len fh + type_off fh) r1).
    2:{ unfold lift. rewrite (proj2 (checked_Some 32 (hdr_len fh + type_off fh) _)) by (split; [reflexivity|exact Hlo]). reflexivity. }
    rewrite (bind_eq _ _ r1 (hdr_len fh + type_off fh + type_len fh) r1).
    2:{ unfold lift. rewrite H, (proj2 (checked_Some 64 (hdr_len fh + type_off fh + type_len fh) _)) by (split; [reflexivity|lia]). reflexivity. }
    rewrite (bind_eq _ _ r1 tt (with_offset (hdr_len fh + type_off fh) r1)) by reflexivity.
    unfold load_types. rewrite Hz, N.add_0_r. rewrite while_M_nat.
    change (N.to_nat (0 + 1)) with 1%nat. cbn [while_nat]. unfold bind at 1. unfold bind at 1. cbn [get_offset with_offset r_off].
    rewrite N.ltb_irrefl. reflexivity. }
  exists (tables []). unfold type_information_new, requests. rewrite E. cbn [fst snd with_offset r_trace].
  split; [reflexivity|]. split; [reflexivity|].
  destruct (triple_file_header_new e) with (r := reader_new) as (t1 & Ht1 & [HR _] & _); [rewrite H; lia|reflexivity|].
  rewrite Eh in Ht1. cbn [snd reader_new r_trace] in Ht1. rewrite app_nil_r in Ht1. rewrite Ht1. exact HR.
Qed.

(** ** C02 on 32-bit targets, when the sections end below the last megabyte *)
Definition sections_below (limit : N) (fh : file_header) : Prop :=
  (hdr_len fh + type_off fh + type_len fh < 2 ^ 32 -> hdr_len fh + type_off fh + type_len fh <= limit) /\
  (hdr_len fh + str_off fh + str_len fh < 2 ^ 32 -> hdr_len fh + str_off fh + str_len fh <= limit).

Lemma load_room_32 e : usize_bits (cfg e) = 32 ->
  (forall fh r1, file_header_new e reader_new = (Ok fh, r1) -> sections_below (2 ^ 32 - 2 ^ 20) fh) ->
  (exists ti, type_information_new e = Ok ti) \/ (exists k, type_information_new e = Err k).
Proof.
  intros H Hb. destruct (load_good_room e) with (J := fun (_ : file_header) (_ : list type_variant) (_ : N) => True) (T := anywhere) as [G _].
  - rewrite H. lia.
  - intros fh r1 E. specialize (Hb fh r1 E). destruct Hb. split; rewrite H; lia.
  - intros fh r1 _ _. split; [exact I|]. intros. split; [intros; exact I|]. intros; exact I.
  - unfold type_information_new. destruct (fst (load e reader_new)); eauto; destruct G.
Qed.

Lemma bind_err {A B} (m : M A) (k : A -> M B) r x r' : m r = (Err x, r') -> bind m k r = (Err x, r').
Proof. intros E. unfold bind. rewrite E. reflexivity. Qed.

(** the 32-bit load then gives what the 64-bit load gives *)
Lemma header_same e1 e2 : overflow_checks (cfg e1) = true -> usize_bits (cfg e1) <= usize_bits (cfg e2) -> rd e1 = rd e2 ->
  not_panic (fst (file_header_new e1 reader_new)) -> file_header_new e2 reader_new = file_header_new e1 reader_new.
Proof.
  intros Hc Hw Hrd Hp. destruct (sim_file_header e1 e2 (or_introl (conj Hc Hw)) reader_new) as (new & _ & Ha & He).
  apply He; [exact Hp|]. rewrite <- Hrd. exact Ha.
Qed.

Lemma load_checked_32 rd checks checks' :
  not_panic (type_information_new {| cfg := build32 true; rd := rd |}) ->
  type_information_new {| cfg := build32 checks'; rd := rd |} = type_information_new {| cfg := build64 checks; rd := rd |} /\
  requests {| cfg := build32 checks'; rd := rd |} = requests {| cfg := build64 checks; rd := rd |}.
Proof.
  set (E64 := fun c => {| cfg := build64 c; rd := rd |}). set (E32 := fun c => {| cfg := build32 c; rd := rd |}).
  change {| cfg := build64 checks; rd := rd |} with (E64 checks). change {| cfg := build32 checks'; rd := rd |} with (E32 checks').
  intros NP0. change (not_panic (fst (load (E32 true) reader_new))) in NP0.
  assert (T : forall e, 24 < 2 ^ usize_bits (cfg e) -> not_panic (fst (file_header_new e reader_new)) /\
     forall fh r1, file_header_new e reader_new = (Ok fh, r1) -> fh_fits fh).
  { intros e He. destruct (triple_file_header_new e He reader_new eq_refl) as (new & _ & [_ Ho] & Hq).
    split; [destruct (fst (file_header_new e reader_new)); try exact I; destruct Ho|].
    intros fh r1 E. rewrite E in Hq. apply Hq. }
  assert (HH : forall c1 c2, file_header_new (E64 c1) reader_new = file_header_new (E32 true) reader_new /\
                          file_header_new (E32 c2) reader_new = file_header_new (E32 true) reader_new).
  { intros c1 c2. split; apply header_same; try reflexivity; try (cbn; lia); apply T; cbn; lia. }
  (* profile and width of the rest *)
  assert (L : forall e, (e = E64 checks \/ e = E32 checks') ->
     fst (load e reader_new) = fst (load (E32 true) reader_new) /\ r_trace (snd (load e reader_new)) = r_trace (snd (load (E32 true) reader_new))).
  { intros e He.
    assert (Hhe : file_header_new e reader_new = file_header_new (E32 true) reader_new) by (destruct He as [->| ->]; apply (HH checks checks')).
    assert (Hprof : (overflow_checks (cfg (E32 true)) = true /\ usize_bits (cfg (E32 true)) <= usize_bits (cfg e)) \/ cfg (E32 true) = cfg e)
      by (left; split; [reflexivity|destruct He as [->| ->]; cbn; lia]).
    destruct (file_header_new (E32 true) reader_new) as [[fh|k|p|] r1] eqn:Eh.
    2-4: unfold load, bind; rewrite Hhe, Eh; auto.
    assert (Hfit : fh_fits fh) by (eapply (T (E32 true)); [cbn; lia|exact Eh]).
    unfold load. rewrite (bind_eq _ _ _ _ _ Hhe), (bind_eq _ _ _ _ _ Eh).
    destruct (checked 32 (hdr_len fh + type_off fh)) as [tss|] eqn:C1; [|auto].
    apply checked_Some in C1. destruct C1 as [<- C1].
    rewrite !(bind_eq (lift (ok_or _ (Some _))) _ r1 (hdr_len fh + type_off fh) r1) by reflexivity.
    pose proof NP0 as NP.
    unfold load in NP. rewrite (bind_eq _ _ _ _ _ Eh) in NP.
    rewrite (proj2 (checked_Some 32 (hdr_len fh + type_off fh) _)) in NP by (split; [reflexivity|exact C1]).
    rewrite (bind_eq (lift (ok_or _ (Some _))) _ r1 (hdr_len fh + type_off fh) r1) in NP by reflexivity.
    change (usize_bits (cfg (E32 true))) with 32 in *.
    destruct Hfit as (_ & _ & Htl & _). unfold u32 in Htl.
    destruct (N.ltb_spec (hdr_len fh + type_off fh + type_len fh) (2 ^ 32)) as [Hlt|Hge].
    - assert (CC : forall w, 32 <= w -> checked w (hdr_len fh + type_off fh + type_len fh) = Some (hdr_len fh + type_off fh + type_len fh)).
      { intros w Hw. apply checked_Some. split; [reflexivity|]. eapply N.lt_le_trans; [exact Hlt|apply N.pow_le_mono_r; lia]. }
      rewrite (CC 32) in NP by lia. rewrite (CC 32) by lia. rewrite (CC (usize_bits (cfg e))) by (destruct He as [->| ->]; cbn; lia).
      rewrite !(bind_eq (lift (ok_or _ (Some _))) _ r1 (hdr_len fh + type_off fh + type_len fh) r1) in * by reflexivity.
      rewrite !(bind_eq (set_offset _) _ r1 tt (with_offset (hdr_len fh + type_off fh) r1)) in * by reflexivity.
      destruct (sim_load_types (E32 true) e Hprof fh (hdr_len fh + type_off fh + type_len fh) (with_offset (hdr_len fh + type_off fh) r1)) as (new & _ & Ha & Hsim).
      rewrite Hsim; [auto|exact NP|]. assert (Hrd : Reader.rd e = Reader.rd (E32 true)) by (destruct He as [->| ->]; reflexivity). rewrite Hrd. exact Ha.
    - rewrite (proj2 (checked_None 32 _) Hge). 
      rewrite !(bind_err (lift (ok_or _ None)) _ r1 InvalidTypeSectionOffset r1) by reflexivity.
      destruct He as [->| ->].
      + change (usize_bits (cfg (E64 checks))) with 64.
        rewrite (proj2 (checked_Some 64 (hdr_len fh + type_off fh + type_len fh) _)) by (split; [reflexivity|lia]).
        rewrite (bind_eq (lift (ok_or _ (Some _))) _ r1 (hdr_len fh + type_off fh + type_len fh) r1) by reflexivity.
        rewrite (bind_eq (set_offset _) _ r1 tt (with_offset (hdr_len fh + type_off fh) r1)) by reflexivity.
        unfold load_types. rewrite while_M_nat.
        replace (N.to_nat (type_len fh + 1)) with (S (N.to_nat (type_len fh))) by lia. cbn [while_nat].
        set (r2 := with_offset (hdr_len fh + type_off fh) r1).
        rewrite (bind_err _ _ r2 InvalidTypeSectionOffset r2); [auto|].
        rewrite (bind_eq get_offset _ r2 (hdr_len fh + type_off fh) r2) by reflexivity.
        replace (hdr_len fh + type_off fh <? hdr_len fh + type_off fh + type_len fh) with true by lia.
        apply bind_err. unfold header_new.
        rewrite (proj2 (checked_Some 32 (hdr_len fh + type_off fh) _)) by (split; [reflexivity|exact C1]).
        rewrite (bind_eq (lift (ok_or _ (Some _))) _ r2 (hdr_len fh + type_off fh) r2) by reflexivity.
        apply bind_err. rewrite (proj2 (checked_None 32 _) Hge). reflexivity.
      + change (usize_bits (cfg (E32 checks'))) with 32. rewrite (proj2 (checked_None 32 _) Hge).
        rewrite (bind_err (lift (ok_or _ None)) _ r1 InvalidTypeSectionOffset r1) by reflexivity. auto. }
  unfold type_information_new, requests.
  destruct (L (E64 checks) (or_introl eq_refl)) as [-> ->]. destruct (L (E32 checks') (or_intror eq_refl)) as [-> ->]. auto.
Qed.
Lemma header_32_64 rd checks : file_header_new {| cfg := build64 checks; rd := rd |} reader_new = file_header_new {| cfg := build32 true; rd := rd |} reader_new.
Proof.
  apply header_same; try reflexivity; try (cbn; lia).
  destruct (triple_file_header_new {| cfg := build32 true; rd := rd |} ltac:(cbn; lia) reader_new eq_refl) as (new & _ & [_ Ho] & _).
  destruct (fst (file_header_new _ reader_new)); try exact I; destruct Ho.
Qed.
Lemma load_32_64 rd checks checks' :
  (forall fh r1, file_header_new {| cfg := build64 checks; rd := rd |} reader_new = (Ok fh, r1) -> sections_below (2 ^ 32 - 2 ^ 20) fh) ->
  type_information_new {| cfg := build32 checks'; rd := rd |} = type_information_new {| cfg := build64 checks; rd := rd |} /\
  requests {| cfg := build32 checks'; rd := rd |} = requests {| cfg := build64 checks; rd := rd |}.
Proof.
  intros Hb. apply load_checked_32. destruct (load_room_32 {| cfg := build32 true; rd := rd |} eq_refl) as [[ti E]|[k E]].
  - intros fh r1 E. apply (Hb fh r1). rewrite header_32_64. exact E.
  - rewrite E. exact I.
  - rewrite E. exact I.
Qed.

(** ** C21 - C23: what the words of a record become *)
Lemma located_member e img ti : usize_bits (cfg e) = 64 -> serves (rd e) img -> type_information_new e = Ok ti ->
  exists en hf, file_header_at img en hf /\
    forall i t h m, type_at (types ti) i t -> type_header t = Some h -> In m (members t) ->
      exists o, member_at (layout_of img en hf) (h_kind_flag h) o m.
Proof.
  intros H Hs E. destruct (located e img ti H Hs E) as (en & hf & Hh & L). exists en, hf. split; [exact Hh|].
  intros i t h m Ht Eh Hm. destruct (L i t Ht) as (o & o' & Hr). destruct (record_header _ _ _ _ Hr) as (h' & Eh' & _ & Hp).
  rewrite Eh in Eh'. injection Eh' as <-. unfold payload_at in Hp.
  destruct (h_kind h); repeat match goal with X : exists _, _ |- _ => destruct X | X : _ /\ _ |- _ => destruct X end;
    subst; try (destruct Hm; fail);
    match goal with X : items_at _ _ _ _ _ |- _ => destruct (items_In _ _ _ _ _ _ X Hm) as (q & Hq) end; eauto.
Qed.
Lemma located_int e img ti : usize_bits (cfg e) = 64 -> serves (rd e) img -> type_information_new e = Ok ti ->
  exists en, forall i h d, type_at (types ti) i (TInt h d) ->
    exists o w, u32_at img en o w /\ int_encoding w d /\ int_size d = h_size_or_type h.
Proof.
  intros H Hs E. destruct (located e img ti H Hs E) as (en & hf & Hh & L). exists en.
  intros i h d Ht. destruct (L i _ Ht) as (o & o' & Hr). destruct (record_header _ _ _ _ Hr) as (h' & Eh' & _ & Hp).
  injection Eh' as <-. unfold payload_at in Hp.
  destruct (h_kind h); repeat match goal with X : exists _, _ |- _ => destruct X | X : _ /\ _ |- _ => destruct X end; try discriminate.
  match goal with X : TInt _ _ = TInt _ _ |- _ => injection X as <- end. eauto 6.
Qed.
Lemma located_enumerator e img ti : usize_bits (cfg e) = 64 -> serves (rd e) img -> type_information_new e = Ok ti ->
  exists en hf, file_header_at img en hf /\
    forall i t h v n, type_at (types ti) i t ->
      (exists d, t = TEnum h d /\ n = 4%nat \/ t = TEnum64 h d /\ n = 8%nat) -> In v (enumerators t) ->
      exists o, enumerator_at (layout_of img en hf) n (h_kind_flag h) o v.
Proof.
  intros H Hs E. destruct (located e img ti H Hs E) as (en & hf & Hh & L). exists en, hf. split; [exact Hh|].
  intros i t h v n Ht Ek Hv. destruct (L i _ Ht) as (o & o' & Hr). destruct (record_header _ _ _ _ Hr) as (h' & Eh' & _ & Hp).
  destruct Ek as (d & [[-> ->]|[-> ->]]); injection Eh' as <-; unfold payload_at in Hp;
  destruct (h_kind h); repeat match goal with X : exists _, _ |- _ => destruct X | X : _ /\ _ |- _ => destruct X end; try discriminate;
  match goal with X : _ = _ |- _ => injection X as <- end;
  match goal with X : items_at _ _ _ _ _ |- _ => destruct (items_In _ _ _ _ _ _ X Hv) as (q & Hq) end; eauto.
Qed.
