(** * PropMore: further properties (C46-). *)
From Coq Require Import Strings.String.
From Coq Require Import List NArith ZArith Bool Lia Strings.Byte.
From Verif Require Import TypeInfo Spec BaseFacts PathSpec Path PathGrammar PathPrint QuerySpec Chains Sizes Follow Offsets Offsets2 OffsetOf OffsetOf2 Move Compose Checker Encode Exact LoadProps Transport Witness Sample PropPath PropQuery PropOffset.
Import ListNotations.
Open Scope N_scope.

(** ** C46 *)
(** [join p q] (PathSpec.v): the path [p] continued by the path [q]. Looking it up is looking up [p], then
    looking up [q] from the type found, and adding the offsets. The last condition of the second line: no place
    met on the way lies beyond 4 GiB. *)
Theorem C46_paths_compose : forall c ti t p q cs cs' u a, valid_utf8 p -> valid_utf8 q ->
  path (usize_max c) cs p -> reads_as (usize_max c) q cs' ->
  acyclic ti -> sizes_fit c ti -> anonymous_in_bytes ti -> unambiguous ti ->
  (forall r b, visits ti (size ti) t (cs ++ cs') r b -> b < 2 ^ 32) ->
  offset_of_returns c ti t p (Ok (u, ByteOffset a)) -> forall v o',
  offset_of_returns c ti t (join p q) (Ok (v, o')) <->
  exists o, offset_of_returns c ti u q (Ok (v, o)) /\ o' = shift a o /\ fits32 o'.
Proof. exact offset_of_compose. Qed.
Print Assumptions C46_paths_compose.
(** In a consistent table it is enough that [t] is smaller than 2^29 bytes, and then the sum always fits. *)
Theorem C46_paths_compose_consistent : forall c ti t p q cs cs' u a st, valid_utf8 p -> valid_utf8 q ->
  path (usize_max c) cs p -> reads_as (usize_max c) q cs' ->
  acyclic ti -> sizes_fit c ti -> anonymous_in_bytes ti -> unambiguous ti -> consistent ti ->
  size_of c ti t = Ok st -> st < 2 ^ 29 ->
  offset_of_returns c ti t p (Ok (u, ByteOffset a)) -> forall v o',
  offset_of_returns c ti t (join p q) (Ok (v, o')) <->
  exists o, offset_of_returns c ti u q (Ok (v, o)) /\ o' = shift a o.
Proof.
  intros c ti t p q cs cs' u a st Vp Vq P R H1 H2 H3 H4 H5 Hst Hlt E v o'.
  assert (Hsz : size ti t st) by (apply (C28_size_of c ti _ H2); exact Hst).
  destruct (C35_inside c ti t p u _ st Vp H2 H5 E Hst) as (su & Hsu & Hle).
  rewrite (C46_paths_compose c ti t p q cs cs' u a Vp Vq P R H1 H2 H3 H4) by
    (try exact E; intros r b Hv; destruct (visits_inside _ _ _ _ _ H5 Hv _ Hsz) as (sr & _ & G); lia).
  split; [intros (o & Q & -> & F); eauto|]. intros (o & Q & ->). exists o. split; [exact Q|]. split; [reflexivity|].
  pose proof (C35_inside c ti u q v o su Vq H2 H5 Q Hsu) as G.
  destruct o as [b|b z]; cbn [shift fits32]; [destruct G as (sv & _ & G)|]; lia.
Qed.
Print Assumptions C46_paths_compose_consistent.
Example C46_met : let c := build64 true in join (s "tasks[2]") (s "flag") = s "tasks[2].flag" /\ join (s "tasks") (s "[2].flag") = s "tasks[2].flag" /\
  path (usize_max c) [Name (s "tasks"); Index 2] (s "tasks[2]") /\ reads_as (usize_max c) (s "flag") [Name (s "flag")] /\
  size_of c sample_ti 24 = Ok 192 /\
  offset_of_returns c sample_ti 24 (s "tasks[2]") (Ok (9, ByteOffset 128)) /\ offset_of_returns c sample_ti 9 (s "flag") (Ok (1, BitOffsetAndSize 384 3)) /\
  offset_of_returns c sample_ti 24 (s "tasks[2].flag") (Ok (1, BitOffsetAndSize 1408 3)).
Proof.
  cbv zeta. split; [reflexivity|]. split; [reflexivity|]. split.
  { apply (path_name _ (s "tasks") [Index 2] (s "[2]")); [split|].
    - left. right. left. split; vm_compute; discriminate.
    - repeat (apply Forall_cons; [left; right; left; split; vm_compute; discriminate|]). apply Forall_nil.
    - apply (rest_index _ 2 (s "[2]") [] []); [|constructor]. exists (s "2"). split; [reflexivity|]. split; [discriminate|].
      split; [apply Forall_cons; [split; vm_compute; discriminate|apply Forall_nil]|]. split; vm_compute; [reflexivity|discriminate]. }
  split; [apply accepted_reads; [literal|vm_compute; reflexivity]|]. split; [vm_compute; reflexivity|].
  repeat split; try discriminate; exists 20%nat; vm_compute; reflexivity.
Qed.

(** ** C47 *)
(** [serves rd img] (Spec.v): requests inside [img] are answered with its bytes, requests past its end fail (with
    any error). [requests e]: the requests made and the answers to them, latest first. *)
Theorem C47_same_bytes_same_result : forall e1 e2 img, usize_bits (cfg e1) = 64 -> usize_bits (cfg e2) = 64 ->
  serves (rd e1) img -> serves (rd e2) img ->
  (type_information_new e2 = type_information_new e1 /\ requests e2 = requests e1) \/
  exists off n k1 k2 asked, N.of_nat (length img) < off + n /\
    requests e1 = (off, n, Fails k1) :: asked /\ type_information_new e1 = Err k1 /\
    requests e2 = (off, n, Fails k2) :: asked /\ type_information_new e2 = Err k2.
Proof. exact same_image. Qed.
Print Assumptions C47_same_bytes_same_result.
(** For any Readables: as long as the answers are the same, the next request is. *)
Theorem C47_requests_determined : forall e1 e2, usize_bits (cfg e1) = 64 -> usize_bits (cfg e2) = 64 ->
  forall newer off n a older, requests e1 = newer ++ (off, n, a) :: older ->
  (forall l off' n' a' l', older = l ++ (off', n', a') :: l' -> rd e2 l' off' n' = a') ->
  exists newer', requests e2 = newer' ++ (off, n, rd e2 older off n) :: older.
Proof. exact next_request. Qed.
Print Assumptions C47_requests_determined.
(** The sample through both Readables of the crate; then cut short: 200 bytes. *)
Example C47_met : let f := file_env sample_img in let b := {| cfg := build64 false; rd := readable_buffer sample_img |} in
  let cut := firstn 200 sample_img in let f' := file_env cut in let b' := {| cfg := build64 false; rd := readable_buffer cut |} in
  serves (rd f) sample_img /\ serves (rd b) sample_img /\ serves (rd f') cut /\ serves (rd b') cut /\
  type_information_new b = Ok sample_ti /\ type_information_new f = Ok sample_ti /\ length (requests f) = 313%nat /\
  type_information_new f' = Err IOError /\ type_information_new b' = Err InvalidOffset.
Proof.
  cbv zeta. split; [apply readable_file_serves|]. split; [apply readable_buffer_serves|]. split; [apply readable_file_serves|]. split; [apply readable_buffer_serves|].
  vm_compute. auto 10.
Qed.
