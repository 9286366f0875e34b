(** * PreadSpec: what an operating system does that keeps the bytes of a file (C88). *)
From Coq Require Import List NArith Strings.Byte.
From Verif Require Import Pread Spec.
Import ListNotations.
Open Scope N_scope.

(** [keeps sys img]: the file contains [img] all the time.  A call for bytes of the file delivers at least one and at most as
    many as asked, from there on; a call behind the end delivers none.  Calls may be interrupted, or fail. *)
Definition keeps (sys : system) (img : list byte) : Prop :=
  forall tr k off n bs, 0 < n -> sys tr k off n = Delivered bs ->
    if off <? N.of_nat (length img) then 0 < N.of_nat (length bs) <= n /\ bytes_at img off bs else bs = [].
(** Calls for bytes that are all in the file do not fail. *)
Definition never_fails (sys : system) (img : list byte) : Prop := forall tr k off n, off + n <= N.of_nat (length img) -> sys tr k off n <> Failed.
(** Signals stop some time. *)
Definition lets_go_on (sys : system) : Prop := forall tr k off n, 0 < n -> exists j, sys tr (k + j)%nat off n <> Interrupted.
(** [rd] is the ReadableFile on this system, if all its calls return. *)
Definition reads_from (sys : system) (rd : readable) : Prop := forall tr off n, exists fuel, read_exact_at fuel (sys tr) 0 off n [] = Some (rd tr off n).
