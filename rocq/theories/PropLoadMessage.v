(** * PropLoadMessage: what the messages of a failed load say (C61). *)
From Coq Require Import Strings.String.
From Coq Require Import List NArith ZArith Bool Lia Strings.Byte.
From Verif Require Import TypeInfo Spec Exact Encode LoadProps BrokenSpec Explain Message LoadMessage LoadMessageSpec LoadMessageFacts LoadMessageTrue LoadMessageOne LoadMessagePass Sample Witness PropLoad PropLoad2.
Import ListNotations.
Open Scope N_scope.

(** ** C61 *)
(** The load with messages is the load of the other properties: same result, and each message goes with its kind. *)
Theorem C61_kind_of_message : forall e,
  (forall ti, type_information_new_msg e = Ok ti <-> type_information_new e = Ok ti) /\
  (forall x, type_information_new e = Err x <-> exists m, type_information_new_msg e = Err m /\ lmessage_kind m = x).
Proof.
  intros e. unfold type_information_new, type_information_new_msg. rewrite (er_load e reader_new). unfold forget. cbn [fst].
  destruct (fst (load_msg e reader_new)) as [a|m|p|]; split.
  - intros ti. split; intros E; injection E as ->; reflexivity.
  - intros x. split; [discriminate|]. intros (m & C & _). discriminate.
  - intros ti. split; discriminate.
  - intros x. split; [intros E; injection E as <-; eauto|]. intros (m' & E & <-). injection E as <-. reflexivity.
  - intros ti. split; discriminate.
  - intros x. split; [discriminate|]. intros (m & C & _). discriminate.
  - intros ti. split; discriminate.
  - intros x. split; [discriminate|]. intros (m & C & _). discriminate.
Qed.
Print Assumptions C61_kind_of_message.
(** For every Readable, on every target: its own error - kind and message - comes back exactly when its last answer was
    that error; a message of the library means that it answered everything. *)
Theorem C61_readable_error : forall e k,
  type_information_new_msg e = Err (LReadable k) <-> exists off n asked, requests e = (off, n, Fails k) :: asked.
Proof.
  intros e k. unfold requests, type_information_new_msg. rewrite (er_load e reader_new). unfold forget. cbn [snd].
  destruct (ps_load e reader_new) as (new & E & V). cbn in E. rewrite app_nil_r in E. rewrite E. clear E. split.
  - intros E. rewrite E in V. destruct V as (off & n & old & -> & _). eauto.
  - intros (off & n & asked & ->). unfold verdict in V. destruct (fst (load_msg e reader_new)) as [a|[j| | | | | | | | | | | |]|p|];
      try (apply Forall_inv in V; destruct V as [bs V]; discriminate). destruct V as (off' & n' & old & E & _). injection E as _ _ <- _. reflexivity.
Qed.
Print Assumptions C61_readable_error.
(** [broken_says img m] (LoadMessageSpec.v): the first thing that is wrong with the bytes of [img], and the message about
    it.  A served file fails with [m] exactly when that is so, or when it ends too early. *)
Theorem C61_message_iff : forall e img m, usize_bits (cfg e) = 64 -> serves (rd e) img ->
  (type_information_new_msg e = Err m <->
   broken_says img m \/ exists k off n asked, m = LReadable k /\ requests e = (off, n, Fails k) :: asked /\ N.of_nat (length img) < off + n).
Proof.
  intros e img m H64 Hs. split.
  - intros E. destruct (tl_load e img H64 Hs m E) as [(k & -> & _)|B]; [right|left; exact B].
    apply C61_readable_error in E. destruct E as (off & n & asked & Er). exists k, off, n, asked. split; [reflexivity|]. split; [exact Er|].
    destruct (Transport.request_range e img [] off n _ asked H64 Hs Er) as [Hn Hb]. pose proof (requests_honest e [] off n _ asked Er) as Hh.
    destruct (N.lt_ge_cases (N.of_nat (length img)) (off + n)) as [L|L]; [exact L|]. exfalso.
    destruct (Hs asked off n Hn Hb) as [A _]. destruct (A L) as (bs & Eb & _). congruence.
  - intros [B|(k & off & n & asked & -> & Er & _)]; [exact (says_iff e img m H64 Hs B)|]. apply C61_readable_error. eauto.
Qed.
Print Assumptions C61_message_iff.
(** There is only one thing to say about a file, and it fits the reason of C51. *)
Theorem C61_one_message : forall img m, broken_says img m -> broken img (lmessage_kind m) /\ forall m', broken_says img m' -> m' = m.
Proof. intros img m H. split; [apply says_broken; exact H|]. intros m' H'. exact (says_one _ _ _ H' H). Qed.
Print Assumptions C61_one_message.
(** The texts with numbers in them: so many hexadecimal digits, of that value. *)
Theorem C61_texts : forall img m, broken_says img m -> exists t, lmessage_text m = Some t /\
  match m with
  | LMagic v => exists ds, t = s "Invalid magic number: 0x" ++ ds /\ List.length ds = 4%nat /\ hex_value ds v
  | LKind v => exists ds, t = s "Invalid BTF kind value: 0x" ++ ds /\ List.length ds = 4%nat /\ hex_value ds v
  | LStringOffset o => exists ds, t = s "Invalid string offset 0x" ++ ds /\ List.length ds = 8%nat /\ hex_value ds o
  | LNotTerminated o => exists ds, t = s "String at offset 0x" ++ ds ++ s " is not correctly null terminated" /\ List.length ds = 8%nat /\ hex_value ds o
  | LTypesStart => t = s "Type section start offset overflow"
  | LTypesEnd => t = s "Type section end offset overflow"
  | LTypesOffset => t = s "Invalid type section offset"
  | LStringsStart => t = s "String section start offset overflow"
  | LStringsEnd => t = s "String section end offset overflow"
  | LStringOverflow => t = s "String offset overflow"
  | LUnaligned => t = s "Unaligned bit offset for struct/union member with kind_flag=false"
  | LReadable _ | LWrongKind _ _ => False
  end.
Proof.
  assert (K : forall f o m v, bad_record_says f o m -> m = LKind v -> v < 32).
  { intros f o m v [L|L1 L2|nm info L1 L2 Hn Hi Hk|h L1 L2 Hh L3|h k m' L1 Hh L2 Hr Hm|h i ms no nm tid w L1 Hh L2 HK Hi Hms H1 Hn H2 H3 KF W] E; try discriminate E.
    - injection E as <-. apply N.mod_lt. discriminate.
    - destruct Hm; discriminate E. }
  assert (O : forall f o m v, bad_record_says f o m -> m = LStringOffset v \/ m = LNotTerminated v -> v < 2 ^ 32).
  { intros f o m v [L|L1 L2|nm info L1 L2 Hn Hi Hk|h L1 L2 Hh L3|h k m' L1 Hh L2 Hr Hm|h i ms no nm tid w L1 Hh L2 HK Hi Hms H1 Hn H2 H3 KF W] E; try (destruct E as [E|E]; discriminate E).
    destruct Hm; destruct E as [E|E]; try discriminate E; injection E as <-; lia. }
  assert (R : forall f o m, bad_record_says f o m -> exists t, lmessage_text m = Some t).
  { intros f o m [L|L1 L2|nm info L1 L2 Hn Hi Hk|h L1 L2 Hh L3|h k m' L1 Hh L2 Hr Hm|h i ms no nm tid w L1 Hh L2 HK Hi Hms H1 Hn H2 H3 KF W]; try (eexists; reflexivity). destruct Hm; eexists; reflexivity. }
  assert (Mg : forall f o m v, bad_record_says f o m -> m <> LMagic v /\ (forall g x, m <> LWrongKind g x) /\ forall k, m <> LReadable k).
  { intros f o m v [L|L1 L2|nm info L1 L2 Hn Hi Hk|h L1 L2 Hh L3|h k m' L1 Hh L2 Hr Hm|h i ms no nm tid w L1 Hh L2 HK Hi Hms H1 Hn H2 H3 KF W]; try (repeat split; discriminate). destruct Hm; repeat split; discriminate. }
  intros img m [a b Hb N1 N2|en hf Hf Hbig|en hf ts o m0 f Hf Hlo Hr Hin Bad].
  - eexists. split; [reflexivity|]. eexists. split; [reflexivity|]. split; [|apply hex_spec]. apply hex_length; [|lia]. pose proof (Byte.to_N_bounded a). pose proof (Byte.to_N_bounded b). change (16 ^ N.of_nat 4) with 65536. lia.
  - eexists. split; reflexivity.
  - destruct (R _ _ _ Bad) as [t Et]. exists t. split; [exact Et|]. destruct (Mg _ _ _ 0 Bad) as (_ & Mw & Mr).
    destruct m0; cbn [lmessage_text] in Et; try discriminate Et; try (injection Et as <-; reflexivity); try (destruct (Mw _ _ eq_refl)); apply (f_equal (fun x => match x with Some y => y | None => [] end)) in Et; subst t; eexists; (split; [reflexivity|]); (split; [|apply hex_spec]).
    + destruct (proj1 (Mg _ _ _ _ Bad) eq_refl).
    + apply hex_length; [|lia]. pose proof (K _ _ _ _ Bad eq_refl). change (16 ^ N.of_nat 4) with 65536. lia.
    + apply hex_length; [|lia]. exact (O _ _ _ _ Bad (or_introl eq_refl)).
    + apply hex_length; [|lia]. exact (O _ _ _ _ Bad (or_intror eq_refl)).
Qed.
Print Assumptions C61_texts.
Definition load_text (img : list byte) : option str :=
  match type_information_new_msg (file_env img) with Err m => lmessage_text m | _ => None end.
(** A struct whose second member has a bad name; a file that is not BTF; the sample with one kind overwritten. *)
Example C61_met : broken_says bad_member_file (LStringOffset 160) /\ load_text bad_member_file = Some (s "Invalid string offset 0x000000A0") /\
  broken_says (s "ELF or so") (LMagic 0x4C45) /\ load_text (s "ELF or so") = Some (s "Invalid magic number: 0x4C45") /\
  load_text (firstn 31 sample_img ++ [x1f] ++ skipn 32 sample_img) = Some (s "Invalid BTF kind value: 0x001F").
Proof.
  split; [|split; [vm_compute; reflexivity|split; [|split; vm_compute; reflexivity]]].
  - destruct C13_met as (Hf & Hlo & Hr & Hh & Hc & Hhi & _).
    eapply says_record with (o := 24); [exact Hf|exact Hlo|exact Hr|vm_compute; reflexivity|]. eapply says_string; [exact Hhi|exact Hh|exact Hc| |].
    + eapply (reaches_member_name _ _ _ 100 1 [{| m_name_offset := 1; m_name := Some [x61]; m_tid := 0; m_offset := ByteOffset 0 |}] 0 32).
      * left. reflexivity.
      * vm_compute. reflexivity.
      * split; [reflexivity|]. intros [|[|i]] m Hm; try discriminate. injection Hm as <-. split; [check|]. split.
        -- split; [discriminate|]. exists [x61]. split.
           ++ split; [check|]. split; [intros [C|[]]; discriminate|]. split; [vm_compute; discriminate|vm_compute; reflexivity].
           ++ exists [[x61]]. split; [|reflexivity]. constructor; [|constructor]. left. split; reflexivity.
        -- split; [check|]. exists 0. split; [check|]. split; reflexivity.
      * check.
      * check.
      * check.
      * discriminate.
    + change 160 with (strings_lo (layout_of bad_member_file Little bad_member_fields) + 100). apply says_offset; vm_compute; (reflexivity || discriminate).
  - apply (says_magic _ x45 x4c); [check|discriminate|discriminate].
Qed.
