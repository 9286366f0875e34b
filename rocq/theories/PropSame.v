(** * PropSame: files and tables that say the same answer alike (C48-). *)
From Coq Require Import Strings.String.
From Coq Require Import List NArith ZArith Bool Lia Strings.Byte.
From Verif Require Import TypeInfo Spec BaseFacts Maps QuerySpec Chains Sizes Follow Checker Encode EncodeProof Exact LoadProps Grow RenumberSpec Renumber Rewrite Witness Sample PropQuery PropOffset PropLoad2.
Import ListNotations.
Open Scope N_scope.

(** ** C48 *)
(** [renumbered D f ti1 ti2] (RenumberSpec.v): the types [D] of [ti1], and all they mention, are in [ti2] under the
    ids given by [f]. *)
Theorem C48_size_of : forall D f c ti1 ti2 t, renumbered D f ti1 ti2 -> (forall s, pointer_sized ti1 s <-> pointer_sized ti2 s) -> D t ->
  size_of c ti2 (f t) = size_of c ti1 t.
Proof. intros D f c ti1 ti2 t HR HP. exact (renumbered_size_of D f ti1 ti2 HR HP c t). Qed.
Print Assumptions C48_size_of.
Theorem C48_pointee : forall D f ti1 ti2 t, renumbered D f ti1 ti2 -> D t ->
  pointee_tid ti2 (f t) = map_ok f (pointee_tid ti1 t).
Proof. intros D f ti1 ti2 t HR. exact (renumbered_pointee_tid D f ti1 ti2 HR t). Qed.
Print Assumptions C48_pointee.
Theorem C48_offset_of : forall D f c ti1 ti2 t p, renumbered D f ti1 ti2 -> (forall s, pointer_sized ti1 s <-> pointer_sized ti2 s) -> D t ->
  (forall u o, offset_of_returns c ti1 t p (Ok (u, o)) -> offset_of_returns c ti2 (f t) p (Ok (f u, o))) /\
  (forall v o, offset_of_returns c ti2 (f t) p (Ok (v, o)) -> exists u, v = f u /\ offset_of_returns c ti1 t p (Ok (u, o))) /\
  (forall k, offset_of_returns c ti2 (f t) p (Err k) <-> offset_of_returns c ti1 t p (Err k)) /\
  (forall k, offset_of_returns c ti2 (f t) p (Panic k) <-> offset_of_returns c ti1 t p (Panic k)) /\
  (offset_of_never_returns c ti2 (f t) p <-> offset_of_never_returns c ti1 t p).
Proof.
  intros D f c ti1 ti2 t p HR HP Hd. pose proof (fun n => renumbered_offset_of D f ti1 ti2 HR HP n c t p Hd) as E.
  unfold offset_of_returns, offset_of_never_returns. split; [|split; [|split; [|split]]].
  - intros u o (_ & n & R). split; [discriminate|]. exists n. rewrite E, R. reflexivity.
  - intros v o (_ & n & R). rewrite E in R. destruct (offset_of_uncached n c ti1 t p) as [[u o']| | |] eqn:U; try discriminate. cbn in R. injection R as <- <-.
    exists u. split; [reflexivity|]. split; [discriminate|]. exists n. exact U.
  - intros k. split; intros (_ & n & R); (split; [discriminate|]); exists n; [rewrite E in R; destruct (offset_of_uncached n c ti1 t p) as [[u o']| | |]; try discriminate; exact R|rewrite E, R; reflexivity].
  - intros k. split; intros (_ & n & R); (split; [discriminate|]); exists n; [rewrite E in R; destruct (offset_of_uncached n c ti1 t p) as [[u o']| | |]; try discriminate; exact R|rewrite E, R; reflexivity].
  - split; intros H n; specialize (H n); [rewrite E in H; destruct (offset_of_uncached n c ti1 t p) as [[u o']| | |]; try discriminate; reflexivity|rewrite E, H; reflexivity].
Qed.
Print Assumptions C48_offset_of.
(** Types appended to a file do not change the answers for types that were known completely - [D] is any set of
    known types that contains every type it mentions - if none of them is a new list_head. *)
Theorem C48_growth : forall e1 e2 i1 i2 t1 t2 more (D : N -> Prop) c, usize_bits (cfg e1) = 64 -> usize_bits (cfg e2) = 64 ->
  serves (rd e1) i1 -> serves (rd e2) i2 -> extends i1 i2 ->
  type_information_new e1 = Ok t1 -> type_information_new e2 = Ok t2 -> map snd (get t2) = map snd (get t1) ++ more ->
  (forall t, In t more -> declared_name t <> Some (s "list_head")) ->
  (forall t, D t -> exists ty, from_id t1 t = Some ty /\ forall d, view ty = Some d -> Forall D (mentions d)) ->
  forall t, D t -> size_of c t2 t = size_of c t1 t /\ pointee_tid t2 t = pointee_tid t1 t /\
    forall p r, offset_of_returns c t2 t p r <-> offset_of_returns c t1 t p r.
Proof.
  intros e1 e2 i1 i2 t1 t2 more D c H1 H2 S1 S2 X L1 L2 Em Hlh HD t Ht.
  destruct (C42_growth e1 e2 i1 i2 t1 t2 H1 H2 S1 S2 X L1 L2) as (more' & Em' & F & _ & I & _).
  rewrite Em in Em'. apply app_inv_head in Em'. subst more'.
  assert (HR : renumbered D (fun t => t) t1 t2).
  { intros u Hu. destruct (HD u Hu) as (ty & E & M). unfold shows. rewrite (F _ _ E), E. destruct (view ty) as [d|] eqn:V; [|reflexivity].
    rewrite rename_same. split; [reflexivity|exact (M d eq_refl)]. }
  assert (HP : forall s, pointer_sized t1 s <-> pointer_sized t2 s).
  { intros z. unfold pointer_sized. rewrite (I list_head_str Hlh). split; intros (lh & h & d & A & B & ->).
    - exists lh, h, d. split; [exact A|]. split; [exact (F _ _ B)|reflexivity].
    - destruct (loaded_types e1 t1 H1 L1) as (E1 & F1 & _). pose proof A as A'. apply (id_of_spec t1 _ _ E1 F1) in A. destruct A as [[A _]|(_ & (ty & A & _) & _)]; [discriminate|].
      assert (G : from_id t1 lh = Some ty) by (apply (from_id_spec t1 lh ty E1); auto). pose proof (F _ _ G) as G'. rewrite B in G'. injection G' as <-. exists lh, h, d. auto. }
  split; [exact (renumbered_size_of D _ t1 t2 HR HP c t Ht)|]. split.
  { rewrite (renumbered_pointee_tid D _ t1 t2 HR t Ht). destruct (pointee_tid t1 t); reflexivity. }
  pose proof (fun n p => renumbered_offset_of D _ t1 t2 HR HP n c t p Ht) as E.
  assert (G : forall n p, offset_of_uncached n c t2 t p = offset_of_uncached n c t1 t p) by (intros n p; rewrite E; destruct (offset_of_uncached n c t1 t p) as [[u o]| | |]; reflexivity).
  intros p r. unfold offset_of_returns. split; intros (Q & n & R); (split; [exact Q|]); exists n; [rewrite <- G|rewrite G]; exact R.
Qed.
Print Assumptions C48_growth.
(** The sample's declarations in the opposite order. *)
Definition flip (t : N) : N := if (1 <=? t) && (t <=? 27) then 28 - t else t.
Definition flipped : list decl := rev (map (rename flip) sample).
Definition flipped_ti : type_information := Eval vm_compute in
  match type_information_new (file_env (encode Little flipped)) with Ok ti => ti | _ => {| id_to_type_map := []; name_to_id_map := []; id_to_name_map := [] |} end.
Example C48_met : let c := build64 true in type_information_new (file_env (encode Little flipped)) = Ok flipped_ti /\
  renumbered (fun _ => True) flip sample_ti flipped_ti /\ (forall s, pointer_sized sample_ti s <-> pointer_sized flipped_ti s) /\
  flip 24 = 4 /\ flip 9 = 19 /\ flip 1 = 27 /\
  offset_of_returns c sample_ti 24 (s "tasks[2]") (Ok (9, ByteOffset 128)) /\ offset_of_returns c flipped_ti 4 (s "tasks[2]") (Ok (19, ByteOffset 128)).
Proof.
  cbv zeta. split; [vm_compute; reflexivity|]. split.
  { intros t _. assert (B : t <= 27 \/ 27 < t) by lia. destruct B as [B|B].
    - assert (I : In t (map N.of_nat (seq 0 28))) by (apply in_map_iff; exists (N.to_nat t); split; [lia|apply in_seq; lia]).
      repeat (destruct I as [<-|I]; [vm_compute; first [reflexivity|split; [reflexivity|]; repeat constructor]|]). destruct I.
    - assert (E1 : sample_ti = tables (types sample_ti)) by (vm_compute; reflexivity). assert (E2 : flipped_ti = tables (types flipped_ti)) by (vm_compute; reflexivity).
      assert (F : flip t = t) by (unfold flip; replace (t <=? 27) with false by (symmetry; apply N.leb_gt; exact B); rewrite andb_false_r; reflexivity).
      rewrite F, (shows_nth sample_ti t E1), (shows_nth flipped_ti t E2). destruct (N.eqb_spec t 0); [lia|].
      assert (L1 : length (types sample_ti) = 27%nat) by (vm_compute; reflexivity). assert (L2 : length (types flipped_ti) = 27%nat) by (vm_compute; reflexivity).
      assert (N1 : nth_error (types sample_ti) (N.to_nat (t - 1)) = None) by (apply nth_error_None; lia).
      assert (N2 : nth_error (types flipped_ti) (N.to_nat (t - 1)) = None) by (apply nth_error_None; lia). rewrite N1, N2. reflexivity. }
  split.
  { assert (A : id_of sample_ti list_head_str = Some 2) by (vm_compute; reflexivity). assert (B : id_of flipped_ti list_head_str = Some 26) by (vm_compute; reflexivity).
    intros z. unfold pointer_sized. split; intros (lh & h & d & C & F & ->); [rewrite A in C|rewrite B in C]; injection C as <-; vm_compute in F; injection F as <- <-;
      [exists 26|exists 2]; do 2 eexists; (split; [assumption|]); (split; [vm_compute; reflexivity|reflexivity]). }
  split; [reflexivity|]. split; [reflexivity|]. split; [reflexivity|]. split; (split; [discriminate|]); exists 20%nat; vm_compute; reflexivity.
Qed.

(** ** C49 *)
(** [answer_alike c ti1 ti2] (RenumberSpec.v): the two tables answer all queries alike. [view] (Encode.v): all that
    is shown of a type but the offsets of its names in the string section and the reserved header fields. *)
Theorem C49_shown_decides : forall e1 e2 ti1 ti2 c, usize_bits (cfg e1) = 64 -> usize_bits (cfg e2) = 64 ->
  type_information_new e1 = Ok ti1 -> type_information_new e2 = Ok ti2 ->
  map view (map snd (get ti1)) = map view (map snd (get ti2)) -> answer_alike c ti1 ti2.
Proof. exact same_views. Qed.
Print Assumptions C49_shown_decides.
(** What was loaded from any Readable can be written to a file again ([encode_with], Encode.v). *)
Theorem C49_written_back : forall e1 ti1, usize_bits (cfg e1) = 64 -> type_information_new e1 = Ok ti1 ->
  exists ds, map view (map snd (get ti1)) = map Some ds /\
  (Forall ascii_name (flat_map names ds) -> forall version flags reserved en e2, let img := encode_with version flags reserved en ds in
   len img < 2 ^ 32 -> Forall (fun d => reserved_ok (reserved d)) ds -> en = Little \/ Forall no_enum64 ds ->
   usize_bits (cfg e2) = 64 -> serves (rd e2) img ->
   exists ti2, type_information_new e2 = Ok ti2 /\ forall c, answer_alike c ti1 ti2).
Proof. exact written_back. Qed.
Print Assumptions C49_written_back.
Example C49_met : type_information_new (file_env sample_img) = Ok sample_ti /\ map view (map snd (get sample_ti)) = map Some sample /\
  Forall ascii_name (flat_map names sample) /\ len (encode Little sample) < 2 ^ 32.
Proof.
  split; [exact sample_loads|]. split; [vm_compute; reflexivity|]. split; [|vm_compute; reflexivity].
  apply Forall_flat_map. apply Forall_forall. intros d Hd. pose proof sample_ok as K. rewrite Forall_forall in K. exact (proj1 (K d Hd)).
Qed.
