(** * PropTruncate: a file that is not complete is never misread (C65). *)
From Coq Require Import Strings.String.
From Coq Require Import List NArith ZArith Bool Lia Strings.Byte.
From Verif Require Import TypeInfo Spec BaseFacts Safety Local Exact Errors LoadProps Final Transport Witness Sample.
Import ListNotations.
Open Scope N_scope.

(** The first request of [e1] (counting from the oldest) that [e2] does not answer alike *)
Lemma first_failure (rd2 : readable) : forall tr,
  (forall newer off n a older, tr = newer ++ (off, n, a) :: older -> rd2 older off n = a \/ exists k, rd2 older off n = Fails k) ->
  (forall newer off n a older, tr = newer ++ (off, n, a) :: older -> rd2 older off n = a) \/
  exists newer off n a older k, tr = newer ++ (off, n, a) :: older /\ rd2 older off n = Fails k /\ a <> Fails k /\
    forall l o m b l', older = l ++ (o, m, b) :: l' -> rd2 l' o m = b.
Proof.
  induction tr as [|[[off n] a] tr IH]; intros H.
  - left. intros newer o m b older E. destruct newer; discriminate.
  - destruct IH as [IH|(newer & o & m & b & older & k & -> & R)].
    + intros newer o m b older ->. exact (H ((off, n, a) :: newer) o m b older eq_refl).
    + destruct (H [] off n a tr eq_refl) as [S|(k & F)].
      * left. intros [|x newer] o m b older E; [injection E as <- <- <- <-; exact S|]. injection E as _ E. exact (IH _ _ _ _ _ E).
      * destruct a as [bs|k0].
        { right. exists [], off, n, (Bytes bs), tr, k. split; [reflexivity|]. split; [exact F|]. split; [discriminate|exact IH]. }
        assert (D : {k0 = k} + {k0 <> k}) by decide equality. destruct D as [->|D].
        { left. intros [|x newer] o m b older E; [injection E as <- <- <- <-; exact F|]. injection E as _ E. exact (IH _ _ _ _ _ E). }
        right. exists [], off, n, (Fails k0), tr, k. split; [reflexivity|]. split; [exact F|]. split; [congruence|exact IH].
    + right. exists ((off, n, a) :: newer), o, m, b, older, k. split; [reflexivity|exact R].
Qed.

(** ** C65 *)
(** [requests e]: the requests made and the answers to them, latest first. [e2] may fail requests that [e1] answers: a file
    that is still being written or downloaded, a flaky medium. *)
Theorem C65_never_misread : forall e1 e2, usize_bits (cfg e1) = 64 -> usize_bits (cfg e2) = 64 ->
  (forall newer off n a older, requests e1 = newer ++ (off, n, a) :: older -> rd e2 older off n = a \/ exists k, rd e2 older off n = Fails k) ->
  (type_information_new e2 = type_information_new e1 /\ requests e2 = requests e1) \/
  exists off n a k newer older, requests e1 = newer ++ (off, n, a) :: older /\ a <> Fails k /\
    requests e2 = (off, n, Fails k) :: older /\ type_information_new e2 = Err k.
Proof.
  intros e1 e2 H1 H2 H. destruct (first_failure (rd e2) (requests e1) H) as [S|(newer & off & n & a & older & k & E & F & D & S)].
  - left. apply load_local; assumption.
  - right. destruct (next_request e1 e2 H1 H2 newer off n a older E S) as (newer' & E2). rewrite F in E2.
    destruct (load_failures e2 H2 _ _ _ _ _ E2) as [-> R]. exists off, n, a, k, newer, older. auto.
Qed.
Print Assumptions C65_never_misread.

Lemma firstn_slice (img : list byte) n off m : off + m <= N.of_nat (length (firstn n img)) -> slice (firstn n img) off m = slice img off m.
Proof.
  intros L. rewrite firstn_length in L. unfold slice. rewrite skipn_firstn_comm, firstn_firstn. f_equal. lia.
Qed.
Lemma prefix_answers e1 e2 img n : usize_bits (cfg e1) = 64 -> serves (rd e1) img -> serves (rd e2) (firstn n img) ->
  forall newer off m a older, requests e1 = newer ++ (off, m, a) :: older ->
  (off + m <= N.of_nat (length (firstn n img)) /\ rd e2 older off m = a) \/
  (N.of_nat (length (firstn n img)) < off + m /\ exists k, rd e2 older off m = Fails k).
Proof.
  intros H1 S1 S2 newer off m a older E. destruct (request_range e1 img newer off m a older H1 S1 E) as [Hn Hb].
  pose proof (requests_honest e1 _ _ _ _ _ E) as Ha.
  pose proof (served (rd e1) img older off m S1 Hn Hb) as A1. pose proof (served (rd e2) (firstn n img) older off m S2 Hn Hb) as A2.
  destruct (S2 older off m Hn Hb) as [_ B2].
  destruct (N.leb_spec (off + m) (N.of_nat (length (firstn n img)))) as [L|L]; [left|right; split; [exact L|exact (B2 L)]].
  split; [exact L|]. rewrite firstn_slice in A2 by exact L. rewrite firstn_length in L.
  destruct (N.leb_spec (off + m) (N.of_nat (length img))) as [L1|L1]; [|lia]. congruence.
Qed.
(** Cut off anywhere, a file gives the same result, or a failed request past the cut is reported. *)
Theorem C65_truncated : forall e1 e2 img n, usize_bits (cfg e1) = 64 -> usize_bits (cfg e2) = 64 ->
  serves (rd e1) img -> serves (rd e2) (firstn n img) ->
  type_information_new e2 = type_information_new e1 \/
  exists off m k asked, requests e2 = (off, m, Fails k) :: asked /\ N.of_nat (length (firstn n img)) < off + m /\ type_information_new e2 = Err k.
Proof.
  intros e1 e2 img n H1 H2 S1 S2. pose proof (prefix_answers e1 e2 img n H1 S1 S2) as G.
  destruct (C65_never_misread e1 e2 H1 H2) as [[Q _]|(off & m & a & k & newer & older & E & D & E2 & R)].
  - intros newer off m a older E. destruct (G _ _ _ _ _ E) as [[_ Q]|[_ Q]]; auto.
  - left. exact Q.
  - right. exists off, m, k, older. split; [exact E2|]. split; [|exact R]. destruct (G _ _ _ _ _ E) as [[_ Q]|[Q _]]; [|exact Q].
    exfalso. apply D. rewrite <- Q. exact (requests_honest e2 [] off m (Fails k) older E2).
Qed.
Print Assumptions C65_truncated.
(** Which of the two: the cut matters if and only if the complete load asks for something past it. *)
Theorem C65_cut_matters : forall e1 e2 img n ti, usize_bits (cfg e1) = 64 -> usize_bits (cfg e2) = 64 ->
  serves (rd e1) img -> serves (rd e2) (firstn n img) -> type_information_new e1 = Ok ti ->
  ((forall off m a, In (off, m, a) (requests e1) -> off + m <= N.of_nat n) -> type_information_new e2 = Ok ti) /\
  (forall off m a, In (off, m, a) (requests e1) -> N.of_nat n < off + m -> exists k, type_information_new e2 = Err k).
Proof.
  intros e1 e2 img n ti H1 H2 S1 S2 E. pose proof (prefix_answers e1 e2 img n H1 S1 S2) as G.
  assert (B : forall newer off m a older, requests e1 = newer ++ (off, m, a) :: older -> off + m <= N.of_nat (length img)).
  { intros newer off m a older Q. destruct (request_range e1 img newer off m a older H1 S1 Q) as [Hn Hb].
    destruct (N.le_gt_cases (off + m) (N.of_nat (length img))) as [L|L]; [exact L|]. destruct (S1 older off m Hn Hb) as [_ F]. destruct (F L) as (k & Ek).
    rewrite (requests_honest e1 _ _ _ _ _ Q) in Ek. subst a. destruct (load_failures e1 H1 _ _ _ _ _ Q) as [_ R]. congruence. }
  split.
  - intros A. assert (X : type_information_new e2 = type_information_new e1 /\ requests e2 = requests e1).
    { apply load_local; try assumption. intros newer off m a older Q. destruct (G _ _ _ _ _ Q) as [[_ Y]|[Y _]]; [exact Y|]. exfalso.
      specialize (B _ _ _ _ _ Q). assert (off + m <= N.of_nat n) by (apply (A off m a); rewrite Q; apply in_or_app; right; left; reflexivity).
      rewrite firstn_length in Y. lia. }
    rewrite (proj1 X). exact E.
  - intros off m a Hi L. destruct (load_total e2 H2) as [(ti2 & E2)|R]; [|exact R]. exfalso.
    destruct (C65_never_misread e1 e2 H1 H2) as [[_ Q]|(off' & m' & a' & k & newer & older & _ & _ & _ & R)]; [| |congruence].
    + intros newer off' m' a' older Q. destruct (G _ _ _ _ _ Q) as [[_ Y]|[_ Y]]; auto.
    + apply in_split in Hi. destruct Hi as (newer & older & Q1). destruct (G _ _ _ _ _ Q1) as [[Y _]|[_ (k & Y)]]; [rewrite firstn_length in Y; lia|].
      rewrite <- Q in Q1. pose proof (requests_honest e2 _ _ _ _ _ Q1) as Z. rewrite Y in Z. subst a. destruct (load_failures e2 H2 _ _ _ _ _ Q1) as [_ R]. congruence.
Qed.
Print Assumptions C65_cut_matters.
(** What follows a complete file does not matter. *)
Theorem C65_trailing : forall e1 e2 img tail ti, usize_bits (cfg e1) = 64 -> usize_bits (cfg e2) = 64 ->
  serves (rd e1) img -> serves (rd e2) (img ++ tail) -> type_information_new e1 = Ok ti -> type_information_new e2 = Ok ti.
Proof.
  intros e1 e2 img tail ti H1 H2 S1 S2 E. replace img with (firstn (length img) (img ++ tail)) in S1 by (rewrite firstn_app, firstn_all, Nat.sub_diag, app_nil_r; reflexivity).
  destruct (C65_truncated e2 e1 _ _ H2 H1 S2 S1) as [Q|(off & m & k & asked & _ & _ & R)]; congruence.
Qed.
Print Assumptions C65_trailing.

(** A file that loads is complete: the header, the type section (and the data of an array that ends it). *)
Lemma items_inside {A} (item : N -> A -> Prop) (img : list byte) off sz n l : items_at item off sz n l -> off <= N.of_nat (length img) ->
  (forall o a, item o a -> o + sz <= N.of_nat (length img)) -> off + sz * n <= N.of_nat (length img).
Proof.
  intros [Hn Hi] Ho H. destruct n as [|p] eqn:En; [lia|]. rewrite <- En in *. assert (Hp : 0 < n) by lia.
  destruct (nth_error l (N.to_nat (n - 1))) as [a|] eqn:E; [|apply nth_error_None in E; lia]. specialize (Hi _ _ E). apply H in Hi. rewrite N2Nat.id in Hi. nia.
Qed.
Lemma word_inside img en n off v : word_at img en n off v -> off + N.of_nat n <= N.of_nat (length img).
Proof. intros (bs & <- & Hb & _). apply bytes_at_length in Hb. exact Hb. Qed.
Lemma record_inside f off t stop : record_at f off t stop -> stop <= N.of_nat (length (image f)).
Proof.
  intros (h & (_ & _ & Hh) & Hp & -> & _). apply word_inside in Hh. change (N.of_nat 4) with 4 in Hh. assert (O : off + 12 <= N.of_nat (length (image f))) by lia.
  unfold payload_at in Hp. unfold extra_size. destruct (h_kind h) eqn:K; try (rewrite N.add_0_r; exact O).
  - destruct Hp as (d & w & _ & _ & _ & Hw & _). apply word_inside in Hw. exact Hw.
  - destruct Hp as (d & _ & _ & _ & Hw). apply word_inside in Hw. change (N.of_nat 4) with 4 in Hw. lia.
  - destruct Hp as (d & _ & _ & _ & Hi). refine (items_inside _ _ _ _ _ _ Hi O _). intros o a (_ & _ & _ & w & Hw & _). apply word_inside in Hw. change (N.of_nat 4) with 4 in Hw. lia.
  - destruct Hp as (d & _ & _ & _ & Hi). refine (items_inside _ _ _ _ _ _ Hi O _). intros o a (_ & _ & _ & w & Hw & _). apply word_inside in Hw. change (N.of_nat 4) with 4 in Hw. lia.
  - destruct Hp as (d & _ & _ & _ & _ & Hi). refine (items_inside _ _ _ _ _ _ Hi O _). intros o a (_ & w & Hw & _). apply word_inside in Hw. change (N.of_nat 4) with 4 in Hw. lia.
  - destruct Hp as (d & _ & _ & Hi). refine (items_inside _ _ _ _ _ _ Hi O _). intros o a (_ & _ & Hw). apply word_inside in Hw. change (N.of_nat 4) with 4 in Hw. lia.
  - destruct Hp as (d & _ & _ & _ & Hw & _). apply word_inside in Hw. exact Hw.
  - destruct Hp as (d & _ & _ & _ & Hi). refine (items_inside _ _ _ _ _ _ Hi O _). intros o a (_ & _ & Hw). apply word_inside in Hw. change (N.of_nat 4) with 4 in Hw. lia.
  - destruct Hp as (d & _ & _ & _ & Hw). apply word_inside in Hw. exact Hw.
  - destruct Hp as (d & _ & _ & _ & _ & Hi). refine (items_inside _ _ _ _ _ _ Hi O _). intros o a (_ & w & Hw & _). apply word_inside in Hw. change (N.of_nat 8) with 8 in Hw. lia.
Qed.
Lemma records_inside f off ts stop : records_at f off ts stop -> ts <> [] -> stop <= N.of_nat (length (image f)).
Proof.
  induction 1 as [|off t next ts stop Hlt Hr Hrs IH]; intros N; [congruence|]. destruct ts as [|u ts].
  - inversion Hrs; subst. eapply record_inside. exact Hr.
  - apply IH. discriminate.
Qed.
Theorem C65_complete : forall e img n en hf, usize_bits (cfg e) = 64 -> serves (rd e) (firstn n img) -> file_header_at img en hf ->
  (n < 24)%nat \/ (0 < hf_type_len hf /\ N.of_nat n < hf_hdr_len hf + hf_type_off hf + hf_type_len hf) -> exists k, type_information_new e = Err k.
Proof.
  intros e img n en hf H S Hf C. destruct (load_total e H) as [(ti & E)|R]; [|exact R]. exfalso.
  destruct (loaded_describes e _ ti H S E) as [_ (en' & hf' & Hf' & _ & stop & Hr & Hs)].
  destruct Hf' as (M' & A' & B' & C' & D' & F'). pose proof (word_inside _ _ _ _ _ F') as L. change (N.of_nat 4) with 4 in L. rewrite firstn_length in L.
  destruct C as [C|[C1 C2]]; [lia|].
  assert (X : forall o bs, bytes_at (firstn n img) o bs -> bytes_at img o bs).
  { intros o bs (pre & post & Q & Lp). exists pre, (post ++ skipn n img). split; [|exact Lp]. rewrite <- (firstn_skipn n img) at 1. rewrite Q, <- !app_assoc. reflexivity. }
  assert (XW : forall o v, u32_at (firstn n img) en' o v -> u32_at img en' o v).
  { intros o v (bs & Lb & Q & V). exists bs. split; [exact Lb|]. split; [apply X; exact Q|exact V]. }
  destruct Hf as (M & A & B & C & D & F).
  assert (en' = en) as ->.
  { apply X in M'. destruct en, en'; try reflexivity; pose proof (bytes_at_inj _ _ _ _ M M' eq_refl); discriminate. }
  apply XW in A', B', C', D', F'. unfold layout_of in Hr, Hs; cbn [types_lo types_hi] in Hr, Hs.
  rewrite (word_at_fun _ _ _ _ _ _ A' A), (word_at_fun _ _ _ _ _ _ B' B), (word_at_fun _ _ _ _ _ _ C' C) in Hs. rewrite (word_at_fun _ _ _ _ _ _ A' A), (word_at_fun _ _ _ _ _ _ B' B) in Hr.
  assert (Hne : types ti <> []). { intros Q. unfold types in Q, Hr. rewrite Q in Hr. inversion Hr; subst. lia. }
  apply records_inside in Hr; [|exact Hne]. cbn [image] in Hr. rewrite firstn_length in Hr. lia.
Qed.
Print Assumptions C65_complete.
(** The file whose 781 bytes were cut: in the header, in the type section, in the strings; and one byte too many. *)
Example C65_met : length sample_img = 781%nat /\ type_information_new (file_env sample_img) = Ok sample_ti /\
  map (fun n => match type_information_new (file_env (firstn n sample_img)) with Err IOError => true | _ => false end) [0; 3; 23; 24; 25; 200; 600; 780]%nat = [true; true; true; true; true; true; true; true] /\
  type_information_new (file_env (sample_img ++ [x41])) = Ok sample_ti /\
  exists en hf, file_header_at sample_img en hf /\ 0 < hf_type_len hf.
Proof.
  split; [reflexivity|]. split; [exact sample_loads|]. split; [vm_compute; reflexivity|]. split; [vm_compute; reflexivity|].
  exists Little, {| hf_hdr_len := 24; hf_type_off := 0; hf_type_len := 600; hf_str_off := 600; hf_str_len := 157 |}. split; [check|reflexivity].
Qed.
