(** * Witness: checking the hypotheses of theorems on concrete images *)
From Coq Require Import List NArith ZArith Bool Lia Strings.Byte.
From Verif Require Import TypeInfo Spec BaseFacts Exact Encode LoadProps.
Import ListNotations.
Open Scope N_scope.

(** A file made of the given words (type section) and bytes (string section). *)
Definition raw_file (en : endianness) (ws : list N) (strings : list byte) : list byte :=
  magic en ++ [x01; x00] ++ words_bytes en [24; 0; 4 * len ws; 4 * len ws; len strings] ++ words_bytes en ws ++ strings.
(** A bare header. *)
Definition raw_header (en : endianness) (a b c d e : N) : list byte := magic en ++ [x01; x00] ++ words_bytes en [a; b; c; d; e].

Definition bytes_atb (img : list byte) (off : N) (bs : list byte) : bool :=
  str_eqb (slice img off (len bs)) bs && (off <=? len img).
Lemma bytes_at_check img off bs : bytes_atb img off bs = true -> bytes_at img off bs.
Proof.
  unfold bytes_atb. intros H. apply andb_prop in H. destruct H as [H L]. apply N.leb_le in L. apply str_eqb_eq in H.
  unfold slice in H. exists (firstn (N.to_nat off) img), (skipn (length bs) (skipn (N.to_nat off) img)). split.
  - rewrite <- (firstn_skipn (N.to_nat off) img) at 1. f_equal.
    rewrite <- (firstn_skipn (length bs) (skipn (N.to_nat off) img)) at 1. f_equal.
    unfold len in H. rewrite Nnat.Nat2N.id in H. exact H.
  - unfold len in L. rewrite firstn_length_le by lia. lia.
Qed.
Definition word_atb (img : list byte) (en : endianness) (n : nat) (off v : N) : bool :=
  let bs := slice img off (N.of_nat n) in Nat.eqb (length bs) n && bytes_atb img off bs && (value en bs =? v).
Lemma word_at_check img en n off v : word_atb img en n off v = true -> word_at img en n off v.
Proof.
  unfold word_atb. cbn zeta. intros H. apply andb_prop in H. destruct H as [H V]. apply andb_prop in H. destruct H as [L B].
  exists (slice img off (N.of_nat n)). split; [apply Nat.eqb_eq; exact L|]. split; [apply bytes_at_check; exact B|apply N.eqb_eq; exact V].
Qed.
Definition header_atb (img : list byte) (en : endianness) (hf : header_fields) : bool :=
  bytes_atb img 0 (match en with Little => [x9f; xeb] | Big => [xeb; x9f] end) &&
  word_atb img en 4 4 (hf_hdr_len hf) && word_atb img en 4 8 (hf_type_off hf) && word_atb img en 4 12 (hf_type_len hf) &&
  word_atb img en 4 16 (hf_str_off hf) && word_atb img en 4 20 (hf_str_len hf).
Lemma header_at_check img en hf : header_atb img en hf = true -> file_header_at img en hf.
Proof.
  unfold header_atb. intros H. do 5 (apply andb_prop in H; destruct H as [H ?]).
  repeat split; try (apply word_at_check; assumption). apply bytes_at_check. exact H.
Qed.
Definition type_header_atb (f : layout) (off : N) (info : N) (h : header) : bool :=
  word_atb (image f) (order f) 4 off (h_name_offset h) && word_atb (image f) (order f) 4 (off + 4) info &&
  word_atb (image f) (order f) 4 (off + 8) (h_size_or_type h) && (kind_code (h_kind h) =? info / 2 ^ 24 mod 32) &&
  (h_vlen h =? info mod 2 ^ 16) && eqb (h_kind_flag h) (2 ^ 31 <=? info).
Lemma type_header_check f off info h : type_header_atb f off info h = true -> header_at f off h.
Proof.
  unfold type_header_atb. intros H. do 5 (apply andb_prop in H; destruct H as [H ?]).
  split; [apply word_at_check; exact H|]. split.
  - exists info. split; [apply word_at_check; assumption|]. split; [apply N.eqb_eq; assumption|]. split; [apply N.eqb_eq; assumption|].
    apply eqb_prop; assumption.
  - apply word_at_check; assumption.
Qed.
Ltac check := first [apply header_at_check | apply word_at_check | apply bytes_at_check]; vm_compute; reflexivity.

(** ** Well-formed declarations, decided *)
Definition ascii_nameb (s : str) : bool := forallb (fun b => (0 <? Byte.to_N b) && (Byte.to_N b <? 128)) s.
Definition offset_okb (flag : bool) (o : offset) : bool :=
  match o with
  | ByteOffset b => if flag then 8 * b <? 2 ^ 24 else 8 * b <? 2 ^ 32
  | BitOffsetAndSize b s => flag && (b <? 2 ^ 24) && (s <? 2 ^ 8) && negb ((s =? 0) && (b mod 8 =? 0))
  end.
Definition member_okb (flag : bool) (m : option str * N * offset) : bool := (snd (fst m) <? 2 ^ 32) && offset_okb flag (snd m).
Definition value_fitsb (bits : N) (signed : bool) (v : integer_value) : bool :=
  match v with
  | Signed z => signed && ((- 2 ^ Z.of_N (bits - 1) <=? z) && (z <? 2 ^ Z.of_N (bits - 1)))%Z
  | Unsigned n => negb signed && (n <? 2 ^ bits)
  end.
Definition w32 (n : N) : bool := n <? 2 ^ 32.
Definition decl_okb (d : decl) : bool :=
  forallb ascii_nameb (names d) &&
  match d with
  | DInt _ sz _ _ _ off bits => w32 sz && (off <? 256) && (bits <? 256)
  | DPtr t | DFwd _ _ t | DTypedef _ t | DVolatile t | DConst t | DRestrict t | DTypeTag _ t => w32 t
  | DArray e i c => w32 e && w32 i && w32 c
  | DStruct _ sz flag ms | DUnion _ sz flag ms => w32 sz && (len ms <? 2 ^ 16) && forallb (member_okb flag) ms
  | DEnum _ sz sg vs => w32 sz && (len vs <? 2 ^ 16) && forallb (fun v => value_fitsb 32 sg (snd v)) vs
  | DFunc _ l t => w32 t && (l <? 2 ^ 16)
  | DFuncProto ps r => w32 r && (len ps <? 2 ^ 16) && forallb (fun p => w32 (snd p)) ps
  | DVar _ t l => w32 t && w32 l
  | DDataSec _ sz vs => w32 sz && (len vs <? 2 ^ 16) && forallb (fun v => w32 (fst (fst v)) && w32 (snd (fst v)) && w32 (snd v)) vs
  | DFloat _ sz => w32 sz
  | DDeclTag _ t c => w32 t && w32 c
  | DEnum64 _ sz sg vs => w32 sz && (len vs <? 2 ^ 16) && forallb (fun v => value_fitsb 64 sg (snd v)) vs
  end.
Lemma forallb_imp {A} (f : A -> bool) (P : A -> Prop) l : (forall a, f a = true -> P a) -> forallb f l = true -> Forall P l.
Proof. intros H E. rewrite forallb_forall in E. apply Forall_forall. auto. Qed.
Lemma offset_okb_ok flag o : offset_okb flag o = true -> offset_ok flag o.
Proof.
  destruct o as [b|b s]; cbn [offset_okb offset_ok]; intros H.
  - destruct flag; apply N.ltb_lt; exact H.
  - do 3 (apply andb_prop in H; destruct H as [H ?]). destruct flag; [|discriminate]. apply N.ltb_lt in H2, H1. apply negb_true_iff in H0.
    repeat split; try assumption. intros [-> E]. rewrite E in H0. discriminate.
Qed.
Lemma value_fitsb_ok bits sg v : value_fitsb bits sg v = true -> value_fits bits sg v.
Proof.
  destruct v as [z|n]; cbn [value_fitsb value_fits]; intros H; apply andb_prop in H; destruct H as [H H1].
  - apply andb_prop in H1. destruct H1 as [H1 H2]. apply Z.leb_le in H1. apply Z.ltb_lt in H2. auto.
  - apply N.ltb_lt in H1. destruct sg; [discriminate|]. auto.
Qed.
Lemma decl_okb_ok d : decl_okb d = true -> decl_ok d.
Proof.
  unfold decl_okb, decl_ok. intros H. apply andb_prop in H. destruct H as [H1 H2]. split.
  - eapply forallb_imp; [|exact H1]. intros s Hs. eapply forallb_imp; [|exact Hs]. intros b Hb. cbn in Hb. apply andb_prop in Hb.
    destruct Hb as [Hb1 Hb2]. apply N.ltb_lt in Hb1, Hb2. auto.
  - unfold w32 in *. destruct d; repeat (match goal with H : _ && _ = true |- _ => apply andb_prop in H; destruct H end);
      repeat match goal with H : (_ <? _) = true |- _ => apply N.ltb_lt in H end; repeat split; try assumption;
      eapply forallb_imp; try eassumption; cbn beta; intros a Ha;
      repeat (match goal with H : _ && _ = true |- _ => apply andb_prop in H; destruct H end).
    all: try (apply value_fitsb_ok; assumption).
    all: repeat match goal with H : (_ <? _) = true |- _ => apply N.ltb_lt in H end; auto.
    all: unfold member_okb in *; repeat (match goal with H : _ && _ = true |- _ => apply andb_prop in H; destruct H end);
      (split; [apply N.ltb_lt; assumption|apply offset_okb_ok; assumption]).
Qed.
Lemma decls_ok ds : forallb decl_okb ds = true -> Forall decl_ok ds.
Proof. apply forallb_imp. apply decl_okb_ok. Qed.
