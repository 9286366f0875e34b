(** * PropWork: how much work a load does (C50). *)
From Coq Require Import Strings.String.
From Coq Require Import List NArith ZArith Bool Lia Strings.Byte.
From Verif Require Import TypeInfo Spec BaseFacts Safety Exact LoadProps LoadProps2 Encode Witness Work Sample PropLoad.
Import ListNotations.
Open Scope N_scope.

(** ** C50 *)
(** [requests e]: every request the load made with the answer to it, latest first. *)
(** Files: at most 9 + L * (L + 2) / 8 requests for L bytes, whatever they are and whatever lengths the header
    announces; and at most 9 + (t + 12) * (s + 2) / 8 if the header announces t bytes of types and s of strings. *)
Theorem C50_bounded_work : forall e img, usize_bits (cfg e) = 64 -> serves (rd e) img ->
  8 * N.of_nat (length (requests e)) <= 72 + N.of_nat (length img) * (N.of_nat (length img) + 2) /\
  forall en hf, file_header_at img en hf ->
    8 * N.of_nat (length (requests e)) <= 72 + (hf_type_len hf + 12) * (hf_str_len hf + 2).
Proof.
  intros e img H Hs. pose proof (work_image e img H Hs) as W. destruct (load_work e _ H W) as [L|(fh & r1 & newer & Eh & E & L)].
  - split; [|intros en hf _]; apply N.le_trans with 64; lia.
  - pose proof (header_trace e H) as HT. rewrite Eh in HT. destruct HT as (b20 & b16 & b12 & b8 & b4 & b3 & b2 & b0 & T & _).
    assert (L8 : length (r_trace r1) = 8%nat) by (rewrite T; reflexivity). rewrite E, app_length, L8.
    split; [nia|]. intros en hf Hf. destruct (header_sound e img H Hs fh r1 Eh) as (en' & _ & Hf').
    destruct (header_functional img en hf en' (fields fh) Hf Hf') as [_ ->]. cbn [fields hf_type_len hf_str_len]. nia.
Qed.
Print Assumptions C50_bounded_work.
(** [buffer n bs]: the n-byte buffer after a Readable wrote [bs] to it. For any Readable whatsoever: it is asked
    at most 8 times, or for the eight fields of the header and then at most 1 + (t + 12) * (s + 2) / 8 times,
    where t and s are the section lengths it gave for the header. *)
Theorem C50_any_readable : forall e, usize_bits (cfg e) = 64 ->
  (length (requests e) <= 8)%nat \/
  exists newer b20 b16 b12 b8 b4 b3 b2 b0 en,
    requests e = newer ++ [(20, 4, Bytes b20); (16, 4, Bytes b16); (12, 4, Bytes b12); (8, 4, Bytes b8); (4, 4, Bytes b4); (3, 1, Bytes b3); (2, 1, Bytes b2); (0, 2, Bytes b0)] /\
    buffer 2 b0 = magic en /\
    8 * N.of_nat (length newer) <= 8 + (value en (buffer 4 b12) + 12) * (value en (buffer 4 b20) + 2).
Proof.
  intros e H. destruct (load_work e _ H (work_anywhere e H)) as [L|(fh & r1 & newer & Eh & E & L)]; [left; exact L|right].
  pose proof (header_trace e H) as HT. rewrite Eh in HT. destruct HT as (b20 & b16 & b12 & b8 & b4 & b3 & b2 & b0 & T & M & _ & _ & Ht & _ & Hl).
  exists newer, b20, b16, b12, b8, b4, b3, b2, b0, (r_end r1). rewrite E, T. split; [reflexivity|]. split; [exact M|]. rewrite <- Ht, <- Hl. etransitivity; [exact L|]. apply N.add_le_mono_l, N.mul_le_mono; lia.
Qed.
Print Assumptions C50_any_readable.
(** The order of the bound is reached: an enum with [n] enumerators that all have the same name of [m] bytes. *)
Definition heavy (n m : nat) : list byte :=
  words_bytes Little [0x1eb9f; 24; 0; 12 + 8 * N.of_nat n; 12 + 8 * N.of_nat n; 2 + N.of_nat m; 1; 0x06000000 + N.of_nat n; 4] ++
  concat (repeat (words_bytes Little [1; 0]) n) ++ [x00] ++ repeat x61 m ++ [x00].
Example C50_met : let e := file_env (heavy 50 400) in serves (rd e) (heavy 50 400) /\ length (heavy 50 400) = 838%nat /\
  N.of_nat (length (requests e)) = 20562 /\ exists ti, type_information_new e = Ok ti /\ length (get ti) = 1%nat.
Proof. cbv zeta. split; [apply readable_file_serves|]. split; [vm_compute; reflexivity|]. split; [vm_compute; reflexivity|]. eexists. split; vm_compute; reflexivity. Qed.
