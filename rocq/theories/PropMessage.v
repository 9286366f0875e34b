(** * PropMessage: the messages of errors are true (C57), and point at what is wrong with the text of a path (C58).
    [message], [message_text]: Message.v; [pointee_reason], [size_reason], [holds_at], [complains], [viable]: MessageSpec.v. *)
From Coq Require Import Strings.String.
From Coq Require Import List NArith Bool Lia Strings.Byte.
From Verif Require Import TypeInfo Spec BaseFacts PathSpec Path PathGrammar PathPrint QuerySpec Chains Sizes Follow Offsets OffsetOf OffsetOf2 LoadProps Final Witness Sample
  OutcomeSpec Outcome ToolsFacts PropPath PropQuery PropOffset PropOutcome DebugFacts DebugText Message MessageSpec MessageFacts MessagePath MessageOffset.
Import ListNotations.
Open Scope N_scope.

(** ** C57 *)
(** The queries with messages are the queries, and each message comes with its kind. *)
Theorem C57_messages_fit : forall c ti,
  (forall t, kind_only (pointee_msg ti t) = pointee_tid ti t) /\
  (forall t, kind_only (size_msg c ti t) = size_of c ti t) /\
  (forall t p fuel, kind_only (offset_of_msg fuel c ti t p) = offset_of_uncached fuel c ti t p).
Proof. intros c ti. split; [|split]; intros; [apply pointee_kind|apply size_kind|apply offset_of_kind]. Qed.
Print Assumptions C57_messages_fit.

(** pointee_tid and size_of give a message exactly if it is true. *)
Theorem C57_pointee_message : forall ti t m, pointee_msg ti t = Err m <-> pointee_reason ti t m.
Proof. exact pointee_says. Qed.
Print Assumptions C57_pointee_message.
Theorem C57_size_message : forall c ti t m, size_msg c ti t = Err m <-> size_reason ti t m.
Proof. exact size_says. Qed.
Print Assumptions C57_size_message.

(** A message of offset_of is true at a place that the path gets to. *)
Theorem C57_offset_message : forall c ti t p cs bad m, valid_utf8 p -> text_is c p cs bad -> overflow_checks c = true \/ sizes_fit c ti ->
  offset_of_says c ti t p m -> exists o u rest, gets ti (size ti) (ByteOffset 0) t cs o u rest /\ holds_at ti (size ti) c p cs o u rest m.
Proof. exact offset_of_says_true. Qed.
Print Assumptions C57_offset_message.

(** On a loaded table, no message speaks of an id of struct list_head that is not in the table. *)
Theorem C57_list_head_known : forall e ti c t, usize_bits (cfg e) = 64 -> type_information_new e = Ok ti ->
  size_msg c ti t <> Err MListHeadInvalid /\ forall p, valid_utf8 p -> ~ offset_of_says c ti t p MListHeadInvalid.
Proof.
  intros e ti c t H E.
  assert (K : forall r, ~ size_reason ti r MListHeadInvalid).
  { intros r (u & _ & _ & lh & L & F). apply (loaded_id_of e ti H E) in L. destruct L as [[_ ->]|(_ & (ty & L & _) & _)].
    - destruct (loaded_ids e ti H E) as (_ & _ & _ & Z). congruence.
    - assert (Hz : lh <> 0) by (intros ->; apply L; reflexivity). apply (loaded_ids e ti H E) in L; [congruence|exact Hz]. }
  split; [intros X; apply size_says in X; exact (K _ X)|].
  intros p V (n & X). destruct (script_of c p V) as (cs & em0 & A & _).
  destruct (mscript_of c p V _ _ _ A piter_new [] (okit_new p V) eq_refl (stands_new c p)) as (em & M & C). cbn [app] in C.
  destruct (impl_says c ti p cs n em) with (off := ByteOffset 0) (t := t) (it := piter_new) (cs := cs) (m := MListHeadInvalid) as (o & u & rest & _ & B); [|exact M|exact X|].
  - intros m ->. apply C.
  - destruct B as (i & rest' & h & d & _ & _ & _ & B). exact (K _ B).
Qed.
Print Assumptions C57_list_head_known.

(** Different messages have different texts. *)
Lemma digits_of_decimal n : digits_of_N n = decimal n. Proof. reflexivity. Qed.
Lemma ascii_decimal n : Forall ascii_digit (decimal n).
Proof. destruct (decimal_digits n n) as (_ & F & _); [lia|exact F]. Qed.
Theorem C57_texts_differ : forall m m', message_text m = message_text m' -> m = m'.
Proof.
  intros m m' H. destruct m; destruct m'; cbn [message_text] in H; try reflexivity; try discriminate H; rewrite ?digits_of_decimal in H;
    try (exfalso; match type of H with context [debug_type ?t] => destruct t; discriminate H end).
  - apply app_inv_head in H. apply decimal_inj in H. f_equal. lia.
  - apply app_inv_head in H. apply digits_split in H; try apply ascii_decimal; try (intros (X & Y); cbn in X, Y; lia). destruct H as [E1 E2].
    injection E2 as E2. apply decimal_inj in E1, E2. congruence.
  - apply app_inv_head, app_inv_tail in H. congruence.
  - apply app_inv_head in H. apply type_code in H; [|apply stop_only; reflexivity|apply stop_only; reflexivity]. destruct H as [-> _]. reflexivity.
Qed.
Print Assumptions C57_texts_differ.

(** The words of every message (src/btf/type_information.rs:194-335, 395-430, 527-605, src/btf/offset.rs:33-81), with [decimal] numbers and the
    {:?} text of the type (C63). *)
Theorem C57_wording : forall m, message_text m = match m with
  | MInvalidCharacter k => s "Invalid character at index " ++ decimal (N.of_nat k)
  | MUnclosedIndex => s "Unclosed index bracket"
  | MEmptyIndex => s "Empty index"
  | MIndexTooBig => s "Invalid index value: ParseIntError { kind: PosOverflow }"
  | MIndexNotANumber => s "Invalid index value: ParseIntError { kind: InvalidDigit }"
  | MInvalidTypeId => s "Invalid type id"
  | MVoidDereference => s "The void type can't be dereferenced with a path"
  | MIndexOutOfBounds i n => s "Index " ++ decimal i ++ s " is out of bounds for array of size " ++ decimal n
  | MArrayOffsetOverflow => s "Array element offset overflow"
  | MPtrNotIndexable => s "Type is a ptr, and dereferencing it would require a read operation"
  | MTypeNotIndexable => s "Type is not indexable"
  | MNotStructOrUnion => s "Type is not a struct or union"
  | MMemberNotFound n => s "Member '" ++ n ++ s "' not found"
  | MByteAddOverflow => s "Byte offset addition overflow"
  | MBitMulOverflow => s "Bit offset multiplication overflow"
  | MBitAddOverflow => s "Bit offset addition overflow"
  | MBitfield => s "Attempted to add a byte offset to a bitfield"
  | MNotAPointer => s "Type is not a pointer"
  | MNoListHead => s "The `struct list_head` type, used to extract the pointer size, was not found"
  | MListHeadInvalid => s "The extracted `struct list_head` type ID, used to extract the pointer size, was invalid"
  | MListHeadNotStruct => s "The extracted `struct list_head` type ID, used to extract the pointer size, is not a struct type"
  | MNoSize t => s "Type " ++ debug_type t ++ s " has no size"
  end.
Proof. intros m. destruct m; cbn [message_text]; rewrite ?digits_of_decimal; reflexivity. Qed.
Print Assumptions C57_wording.

(** Met by the sample file, and its texts. *)
Definition text_of {A} (r : outcome message A) : option str := match r with Err m => Some (message_text m) | _ => None end.
Example C57_met : let c := build64 true in
  text_is c (s "tasks[3].pid") [Name (s "tasks"); Index 3; Name (s "pid")] False /\ valid_utf8 (s "tasks[3].pid") /\ sizes_fit c sample_ti /\
  offset_of_says c sample_ti 24 (s "tasks[3].pid") (MIndexOutOfBounds 3 3) /\
  text_of (offset_of_msg 20 c sample_ti 24 (s "tasks[3].pid")) = Some (s "Index 3 is out of bounds for array of size 3") /\
  text_of (offset_of_msg 20 c sample_ti 24 (s "tasks[2].zzz")) = Some (s "Member 'zzz' not found") /\
  text_of (pointee_msg sample_ti 24) = Some (s "Type is not a pointer") /\
  text_of (size_msg c sample_ti 99) = Some (s "Invalid type id").
Proof.
  cbv zeta. split; [left; split; [apply accepted_reads; [literal|vm_compute; reflexivity]|auto]|]. split; [literal|]. split; [exact (sample_sizes true)|].
  split; [exists 20%nat; vm_compute; reflexivity|]. vm_compute. auto.
Qed.

(** ** C58 *)
(** "Invalid character at index k": the first k bytes begin some path, and with the byte behind them they begin none. *)
Theorem C58_bad_character : forall c ti t p k, valid_utf8 p -> offset_of_says c ti t p (MInvalidCharacter k) ->
  exists pre b post, p = pre ++ b :: post /\ length pre = k /\ viable pre /\ ~ viable (pre ++ [b]).
Proof.
  intros c ti t p k V H. destruct (text_says c ti t p (MInvalidCharacter k) V I H) as (cs & _ & q & _ & w & b & post & E & L & Y & N).
  exists (q ++ w), b, post. rewrite <- app_assoc. rewrite <- app_assoc. auto.
Qed.
Print Assumptions C58_bad_character.
(** Such a [k] is unique. *)
Theorem C58_first_bad : forall pre b post pre' b' post', pre ++ b :: post = pre' ++ b' :: post' ->
  viable pre -> ~ viable (pre ++ [b]) -> viable pre' -> ~ viable (pre' ++ [b']) -> length pre = length pre'.
Proof.
  assert (Shorter : forall a b, viable (a ++ b) -> viable a).
  { intros a b (max & cs & z & P). exists max, cs, (b ++ z). rewrite app_assoc. exact P. }
  assert (Half : forall pre b post pre' b' post', pre ++ b :: post = pre' ++ b' :: post' -> ~ viable (pre ++ [b]) -> viable pre' -> (length pre' <= length pre)%nat).
  { intros pre b post pre' b' post' E N V'. destruct (Compare_dec.le_lt_dec (length pre') (length pre)) as [L|L]; [exact L|]. exfalso. apply N.
    assert (Q : firstn (S (length pre)) (pre ++ b :: post) = pre ++ [b]).
    { replace (S (length pre)) with (length pre + 1)%nat by lia. rewrite firstn_app_2. reflexivity. }
    apply (Shorter _ (skipn (S (length pre)) pre')). rewrite <- Q, E, firstn_app. replace (S (length pre) - length pre')%nat with 0%nat by lia.
    rewrite firstn_O, app_nil_r, firstn_skipn. exact V'. }
  intros pre b post pre' b' post' E V N V' N'. apply PeanoNat.Nat.le_antisymm; [symmetry in E|]; eapply Half; eauto.
Qed.
Print Assumptions C58_first_bad.

(** The other complaints about the text: behind a path there is ... *)
Theorem C58_unclosed : forall c ti t p, valid_utf8 p -> offset_of_says c ti t p MUnclosedIndex ->
  exists cs q ds, path (usize_max c) cs q /\ p = q ++ s "[" ++ ds /\ Forall ascii_digit ds.
Proof. intros c ti t p V H. destruct (text_says c ti t p MUnclosedIndex V I H) as (cs & _ & q & P & ds & E & D). exists cs, q, ds. auto. Qed.
Print Assumptions C58_unclosed.
Theorem C58_empty : forall c ti t p, valid_utf8 p -> offset_of_says c ti t p MEmptyIndex ->
  exists cs q post, path (usize_max c) cs q /\ p = q ++ s "[]" ++ post.
Proof. intros c ti t p V H. destruct (text_says c ti t p MEmptyIndex V I H) as (cs & _ & q & P & post & E). exists cs, q, post. auto. Qed.
Print Assumptions C58_empty.
Theorem C58_too_big : forall c ti t p, valid_utf8 p -> offset_of_says c ti t p MIndexTooBig ->
  exists cs q ds post, path (usize_max c) cs q /\ p = q ++ s "[" ++ ds ++ s "]" ++ post /\ Forall ascii_digit ds /\ usize_max c < decimal_value ds.
Proof. intros c ti t p V H. destruct (text_says c ti t p MIndexTooBig V I H) as (cs & _ & q & P & ds & post & E & D & L). exists cs, q, ds, post. auto. Qed.
Print Assumptions C58_too_big.
(** An index that is reached is never "not a number". *)
Theorem C58_never_not_a_number : forall c ti t p, valid_utf8 p -> ~ offset_of_says c ti t p MIndexNotANumber.
Proof. intros c ti t p V H. destruct (text_says c ti t p MIndexNotANumber V I H) as (cs & _ & q & P & []). Qed.
Print Assumptions C58_never_not_a_number.

Example C58_met : let c := build64 true in let says := fun p => offset_of_says c sample_ti 24 (s p) in
  says "tasks[2x]"%string (MInvalidCharacter 7) /\ text_of (offset_of_msg 20 c sample_ti 24 (s "tasks[2x]")) = Some (s "Invalid character at index 7") /\
  says "tasks..b"%string (MInvalidCharacter 6) /\ says "tasks[2"%string MUnclosedIndex /\ says "tasks[]"%string MEmptyIndex /\ says "tasks[99999999999999999999]"%string MIndexTooBig.
Proof. cbv zeta. repeat split; try (exists 20%nat); vm_compute; reflexivity. Qed.
