(** * KernelFacts: proofs for C85. *)
From Coq Require Import Strings.Byte.
From Coq Require Import List NArith Bool Lia.
From Verif Require Import TypeInfo Spec BrokenSpec Exact KernelSpec.
Import ListNotations.
Open Scope N_scope.

Lemma kind_code_inj k k' : kind_code k = kind_code k' -> k = k'.
Proof. destruct k, k'; cbn; intros H; try reflexivity; discriminate H. Qed.
Lemma header_at_fun f o h h' : header_at f o h -> header_at f o h' -> h = h'.
Proof.
  intros (A & (i & B & K & V & G) & C) (A' & (i' & B' & K' & V' & G') & C').
  pose proof (word_at_fun _ _ _ _ _ _ A A') as E1. pose proof (word_at_fun _ _ _ _ _ _ B B') as <-. pose proof (word_at_fun _ _ _ _ _ _ C C') as E2.
  assert (E3 : h_kind h = h_kind h') by (apply kind_code_inj; congruence).
  destruct h, h'; cbn in *. congruence.
Qed.
Lemma bytes_part img off a b c : bytes_at img off (a ++ b ++ c) -> bytes_at img (off + N.of_nat (length a)) b.
Proof. intros H. apply bytes_at_app in H. destruct H as [_ H]. apply bytes_at_app in H. apply H. Qed.

(** A reference to a place before the last byte of the file, which is zero, is good. *)
Lemma string_good f k x : strings_hi f = N.of_nat (length (image f)) -> strings_hi f < 2 ^ 32 -> bytes_at (image f) (strings_hi f - 1) [x00] ->
  strings_lo f + k < strings_hi f -> ~ bad_string f k x.
Proof.
  intros Hl H32 Z Hk [(_ & [B|B])|(_ & _ & bs & B & Ne & Nz & E)]; [lia|lia|].
  destruct (exists_last Ne) as (pre & b & ->). apply Nz, in_or_app. right. left.
  pose proof (bytes_part _ _ pre [b] [] B) as Hb. rewrite app_length in E. cbn [length] in E.
  replace (strings_lo f + k + N.of_nat (length pre)) with (strings_hi f - 1) in Hb by lia.
  pose proof (bytes_at_inj _ _ _ _ Hb Z eq_refl) as X. congruence.
Qed.

Section Walk.
  Context (f : layout).
  (** Both walks over the records stop at the same places. *)
  Lemma walk_same o ts o' : records_at f o ts o' -> forall hs, checked_records f o hs ->
    exists hs1 hs2, hs = hs1 ++ hs2 /\ checked_records f o' hs2 /\ map type_header ts = map Some hs1 /\ (old_bitfield f o' hs2 -> old_bitfield f o hs).
  Proof.
    induction 1 as [o|o t next ts stop Hlt R Rs IH]; intros hs C.
    - exists [], hs. auto.
    - inversion C as [|? h hs' K C']; subst; [lia|]. destruct R as (h' & H' & P & -> & _).
      assert (h' = h) as -> by (eapply header_at_fun; [exact H'|apply K]).
      destruct (IH hs' C') as (hs1 & hs2 & -> & C2 & M & O). exists (h :: hs1), hs2. split; [reflexivity|]. split; [exact C2|]. split.
      + cbn [map]. f_equal; [|exact M]. clear - P. unfold payload_at in P. destruct (h_kind h);
          repeat match goal with H : _ /\ _ |- _ => destruct H | H : exists _, _ |- _ => destruct H end; subst; reflexivity.
      + intros X. apply old_later. auto.
  Qed.
  Lemma checked_le o hs : checked_records f o hs -> o <= types_hi f.
  Proof. induction 1 as [|o h hs K _ IH]; lia. Qed.

  (** In a table that was read, no member is an old bitfield. *)
  Lemma read_not_old o ts o' : records_at f o ts o' -> types_hi f <= o' -> forall hs, checked_records f o hs -> ~ old_bitfield f o hs.
  Proof.
    induction 1 as [o|o t next ts stop Hlt R Rs IH]; intros Hend hs C X.
    - inversion C as [|? h hs' K C']; subst; [inversion X|]. destruct K as [_ F _ _]. lia.
    - inversion C as [|? h hs' K C']; subst; [lia|]. destruct R as (h' & H' & P & -> & _).
      assert (h' = h) as -> by (eapply header_at_fun; [exact H'|apply K]).
      inversion X as [? ? ? i w Hk Hf Hi Hw Hm|? ? ? X']; subst; [|exact (IH Hend _ C' X')].
      unfold payload_at in P.
      assert (Q : exists ms, items_at (member_at f (h_kind_flag h)) (o + 12) 12 (h_vlen h) ms).
      { destruct Hk as [E|E]; rewrite E in P; destruct P as (d & _ & _ & _ & I); eauto. }
      destruct Q as (ms & L & I). destruct (nth_error ms (N.to_nat i)) as [m|] eqn:Em; [|apply nth_error_None in Em; lia].
      destruct (I _ _ Em) as (_ & _ & _ & w' & Hw' & Ho). rewrite N2Nat.id in Hw'. rewrite (word_at_fun _ _ _ _ _ _ Hw' Hw), Hf in Ho. destruct Ho. contradiction.
  Qed.
End Walk.
