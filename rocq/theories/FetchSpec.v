(** * FetchSpec: what a load asks for, in which order (C73). *)
From Coq Require Import List NArith Strings.Byte.
From Verif Require Import TypeInfo Spec.
Import ListNotations.
Open Scope N_scope.

(** A request is [(offset, length, answer)]. *)
Definition first_byte (q : request) : N := fst (fst q).
Definition byte_count (q : request) : N := snd (fst q).
Definition place (q : request) : N * N := fst q.

(** The requests for more than one byte, in the order in which they were made, from a record of all requests that has
    the latest one first.  (Names are read one byte at a time.) *)
Definition fields (asked : list request) : list request := filter (fun q => 1 <? byte_count q) (rev asked).

(** Each request begins where the one before it ended; the first begins at [o]. *)
Fixpoint consecutive (o : N) (l : list (N * N)) : Prop :=
  match l with
  | [] => True
  | (off, n) :: l' => off = o /\ consecutive (o + n) l'
  end.

(** The fields of the file header that are longer than one byte. *)
Definition header_places : list (N * N) := [(0, 2); (4, 4); (8, 4); (12, 4); (16, 4); (20, 4)].

(** The answer to [q] says that byte [i] of the file is [b]. *)
Definition told (q : request) (i : N) (b : byte) : Prop :=
  exists bs, snd q = Bytes bs /\ first_byte q <= i /\ nth_error bs (N.to_nat (i - first_byte q)) = Some b.

(** Answers have the length that was asked for (a Rust buffer cannot be left with another one). *)
Definition fills (q : request) : Prop := forall bs, snd q = Bytes bs -> N.of_nat (length bs) = byte_count q.

(** No two answers disagree about a byte of the file. *)
Definition agree (asked : list request) : Prop :=
  forall q1 q2 i b1 b2, In q1 asked -> In q2 asked -> told q1 i b1 -> told q2 i b2 -> b1 = b2.

(** Outside the bytes from [lo] to [hi] (excluded), the Readable serves the unchanging bytes [img]. *)
Definition serves_outside (lo hi : N) (rd : readable) (img : list byte) : Prop :=
  forall tr off n, 0 < n -> off + n <= lo \/ hi <= off -> off + n < 2 ^ 64 ->
    (off + n <= N.of_nat (length img) -> exists bs, rd tr off n = Bytes bs /\ bytes_at img off bs /\ N.of_nat (length bs) = n) /\
    (N.of_nat (length img) < off + n -> exists k, rd tr off n = Fails k).
