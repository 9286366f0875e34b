(** * KernelCheck: [kernel_checked] decided, for concrete files. *)
From Coq Require Import Strings.Byte.
From Coq Require Import List NArith Bool Lia.
From Verif Require Import TypeInfo Spec Exact Witness KernelSpec.
Import ListNotations.
Open Scope N_scope.

Definition all_kinds : list kind := [KInt; KPtr; KArray; KStruct; KUnion; KEnum; KFwd; KTypedef; KVolatile; KConst; KRestrict; KFunc; KFuncProto; KVar; KDataSec; KFloat; KDeclTag; KTypeTag; KEnum64].
Definition word_of (f : layout) (o : N) : N := value (order f) (slice (image f) o 4).
Definition header_of (f : layout) (o : N) : option header :=
  let info := word_of f (o + 4) in
  option_map (fun k => {| h_kind := k; h_name_offset := word_of f o; h_vlen := info mod 2 ^ 16; h_kind_flag := 2 ^ 31 <=? info; h_size_or_type := word_of f (o + 8) |})
    (find (fun k => kind_code k =? info / 2 ^ 24 mod 32) all_kinds).
Definition places (o : N) (h : header) : list N :=
  let every sz := map (fun i => o + 12 + sz * N.of_nat i) (seq 0 (N.to_nat (h_vlen h))) in
  o :: match h_kind h with KStruct | KUnion | KEnum64 => every 12 | KEnum | KFuncProto => every 8 | _ => [] end.
Definition record_ok (f : layout) (o : N) (h : header) : bool :=
  (o + 12 <=? N.of_nat (length (image f))) && (o + 12 + extra_size h <=? types_hi f) && (match h_kind h with KArray => h_vlen h =? 0 | _ => true end) &&
  forallb (fun q => (q + 4 <=? N.of_nat (length (image f))) && (strings_lo f + word_of f q <? strings_hi f)) (places o h).
Fixpoint walk (fuel : nat) (f : layout) (o : N) : option (list header) :=
  if o =? types_hi f then Some [] else
  match fuel with
  | O => None
  | S fuel => match header_of f o with
    | Some h => if record_ok f o h then option_map (cons h) (walk fuel f (o + 12 + extra_size h)) else None
    | None => None end
  end.
Definition kernel_checkb (img : list byte) (en : endianness) (hf : header_fields) : option (list header) :=
  let f := layout_of img en hf in let n := N.of_nat (length img) in
  if (n <=? 2 ^ 32 - 2 ^ 20) && (types_hi f <=? n) && (strings_hi f =? n) && (strings_lo f <? strings_hi f) && (Byte.to_N (nth (length img - 1) img x01) =? 0)
  then walk (length img) f (types_lo f) else None.

Section Sound.
  Context (f : layout).
  Lemma word_of_at o : o + 4 <= N.of_nat (length (image f)) -> u32_at (image f) (order f) o (word_of f o).
  Proof. intros H. destruct (bytes_at_slice (image f) o 4 H) as [B L]. exists (slice (image f) o 4). split; [lia|]. split; [exact B|reflexivity]. Qed.
  Lemma record_sound o h : header_of f o = Some h -> record_ok f o h = true -> checked_record f o h.
  Proof.
    unfold header_of, record_ok. destruct (find _ _) as [k|] eqn:F; [|discriminate]. cbn [option_map]. intros E. apply find_some in F. destruct F as [_ F]. apply N.eqb_eq in F.
    intros R. repeat (apply andb_prop in R; let X := fresh "R" in destruct R as [R X]). apply N.leb_le in R, R2. rewrite forallb_forall in R0.
    assert (Hh : header_at f o h).
    { injection E as <-. split; [apply word_of_at; cbn; lia|]. split; [|apply word_of_at; cbn; lia]. exists (word_of f (o + 4)). split; [apply word_of_at; lia|]. auto. }
    constructor; [exact Hh|exact R2| |].
    - intros Ka. rewrite Ka in R1. apply N.eqb_eq. exact R1.
    - intros q j P U. assert (I : In q (places o h)).
      { unfold places. destruct P as [|i [K|K] Hi|i K Hi|i K Hi|i K Hi]; [left; reflexivity|right; rewrite K; apply in_map_iff; exists (N.to_nat i); (split; [rewrite N2Nat.id; reflexivity|apply in_seq; lia])..]. }
      specialize (R0 q I). apply andb_prop in R0. destruct R0 as [A B]. apply N.leb_le in A. apply N.ltb_lt in B. rewrite (word_at_fun _ _ _ _ _ _ U (word_of_at q A)). exact B.
  Qed.
  Lemma walk_sound fuel : forall o hs, walk fuel f o = Some hs -> checked_records f o hs.
  Proof.
    induction fuel as [|fuel IH]; intros o hs; cbn [walk]; destruct (o =? types_hi f) eqn:E.
    - apply N.eqb_eq in E. intros X. injection X as <-. rewrite E. constructor.
    - discriminate.
    - apply N.eqb_eq in E. intros X. injection X as <-. rewrite E. constructor.
    - destruct (header_of f o) as [h|] eqn:Eh; [|discriminate]. destruct (record_ok f o h) eqn:Er; [|discriminate].
      destruct (walk fuel f _) as [hs'|] eqn:Ew; [|discriminate]. intros X. injection X as <-. constructor; [exact (record_sound o h Eh Er)|exact (IH _ _ Ew)].
  Qed.
End Sound.
Lemma kernel_check_sound img en hf hs : file_header_at img en hf -> kernel_checkb img en hf = Some hs -> kernel_checked img en hf hs.
Proof.
  intros Hf. unfold kernel_checkb. match goal with |- context [if ?b then _ else _] => destruct b eqn:B; [|discriminate] end. intros W.
  repeat (apply andb_prop in B; let X := fresh "B" in destruct B as [B X]). apply N.leb_le in B, B3. apply N.eqb_eq in B2, B0. apply N.ltb_lt in B1.
  unfold kernel_checked. split; [exact Hf|]. split; [exact B|]. split; [exact B3|]. split; [exact B2|]. split; [exact B1|]. split; [|exact (walk_sound _ _ _ _ W)].
  destruct (length img) as [|n] eqn:L; [apply length_zero_iff_nil in L; subst; rewrite B2 in B1; cbn in B1; lia|].
  assert (Z : nth n img x01 = x00). { replace (S n - 1)%nat with n in B0 by lia. revert B0. generalize (nth n img x01). intros b Eb. destruct b; try discriminate Eb; reflexivity. }
  assert (Ln : (n < length img)%nat) by lia. destruct (nth_split img x01 Ln) as (l1 & l2 & E & L1). rewrite Z in E.
  exists l1, l2. split; [exact E|]. rewrite L1. lia.
Qed.
