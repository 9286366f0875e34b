(** * PropBlind: the queries depend on sizes, links and members alone; names are labels (C71). *)
From Coq Require Import Strings.String List NArith Bool Lia Strings.Byte.
From Verif Require Import TypeInfo Spec BaseFacts PathSpec Path PathGrammar QuerySpec Chains Sizes Follow Outcome OutcomeSpec Renumber BlindSpec BlindFacts Checker Encode LoadProps Sample Witness PropPath
  PropQuery PropOffset PropOutcome.
Import ListNotations.
Open Scope N_scope.

(** ** C71 *)
Theorem C71_size_of : forall g c ti1 ti2 t, relabelled g ti1 ti2 -> (forall s, pointer_sized ti1 s <-> pointer_sized ti2 s) ->
  size_of c ti2 t = size_of c ti1 t.
Proof. intros g c ti1 ti2 t HR HP. exact (like_size_of g ti1 ti2 HR HP c t). Qed.
Print Assumptions C71_size_of.
Theorem C71_pointee : forall g ti1 ti2 t, relabelled g ti1 ti2 -> pointee_tid ti2 t = pointee_tid ti1 t.
Proof. intros g ti1 ti2 t HR. exact (like_pointee_tid g ti1 ti2 HR t). Qed.
Print Assumptions C71_pointee.
Theorem C71_offset_of : forall g c ti1 ti2 t p q cs bad, one_to_one g -> relabelled g ti1 ti2 -> (forall s, pointer_sized ti1 s <-> pointer_sized ti2 s) ->
  valid_utf8 p -> valid_utf8 q -> text_is c p cs bad -> text_is c q (map (relabel_component g) cs) bad ->
  (forall r, offset_of_returns c ti2 t q r <-> offset_of_returns c ti1 t p r) /\
  (offset_of_never_returns c ti2 t q <-> offset_of_never_returns c ti1 t p).
Proof.
  intros g c ti1 ti2 t p q cs bad G HR HP Vp Vq Tp Tq. destruct (text_script c p cs bad Vp Tp) as (e & A & He & Hb).
  destruct (text_script c q _ bad Vq Tq) as (e' & A' & He' & Hb').
  assert (E : e' = e) by (destruct He as [-> | ->], He' as [-> | ->]; try reflexivity; exfalso; [apply (proj2 Hb); [apply Hb'; discriminate|reflexivity]|apply (proj2 Hb'); [apply Hb; discriminate|reflexivity]]).
  subst e'. assert (F : forall n, offset_of_uncached n c ti2 t q = offset_of_uncached n c ti1 t p).
  { intros n. rewrite (uncached_follow c ti2 q _ e Vq A'), (uncached_follow c ti1 p _ e Vp A), (like_follow g ti1 ti2 G HR HP). reflexivity. }
  unfold offset_of_returns, offset_of_never_returns. split; [intros r|]; split; intros H; try (intros n; specialize (H n); congruence);
  destruct H as (D & n & H); (split; [exact D|]); exists n; congruence.
Qed.
Print Assumptions C71_offset_of.

Lemma Forall2_nth {A B} (P : A -> B -> Prop) l1 l2 : Forall2 P l1 l2 -> forall i, match nth_error l1 i, nth_error l2 i with Some a, Some b => P a b | None, None => True | _, _ => False end.
Proof. induction 1 as [|a b l1 l2 H _ IH]; intros [|i]; cbn; auto. exact (IH i). Qed.

(** Files: the types of one are those of the other, renamed. *)
Theorem C71_renamed_file : forall g h e1 e2 ti1 ti2, usize_bits (cfg e1) = 64 -> usize_bits (cfg e2) = 64 ->
  type_information_new e1 = Ok ti1 -> type_information_new e2 = Ok ti2 ->
  one_to_one h -> h (s "void") = s "void" -> h (s "list_head") = s "list_head" ->
  Forall2 (renamed g h) (map snd (get ti1)) (map snd (get ti2)) ->
  (forall i, name_of ti2 i = option_map h (name_of ti1 i)) /\
  (forall n, id_of ti2 (h n) = id_of ti1 n) /\
  relabelled g ti1 ti2 /\ (forall s, pointer_sized ti1 s <-> pointer_sized ti2 s).
Proof.
  intros g h e1 e2 ti1 ti2 H1 H2 L1 L2 Hi Hv Hl F. destruct (loaded_types e1 ti1 H1 L1) as (E1 & F1 & _). destruct (loaded_types e2 ti2 H2 L2) as (E2 & F2 & _).
  change (map snd (get ti1)) with (types ti1) in F. change (map snd (get ti2)) with (types ti2) in F. pose proof (Forall2_nth _ _ _ F) as FN.
  assert (AT : forall i a, type_at (types ti1) i a -> exists b, type_at (types ti2) i b /\ renamed g h a b).
  { intros i a K. apply type_at_nth in K. destruct K as [Z K]. specialize (FN (N.to_nat (i - 1))). rewrite K in FN. destruct (nth_error (types ti2) _) as [b|] eqn:B; [|destruct FN].
    exists b. split; [apply type_at_nth; auto|exact FN]. }
  assert (TA : forall i b, type_at (types ti2) i b -> exists a, type_at (types ti1) i a /\ renamed g h a b).
  { intros i b K. apply type_at_nth in K. destruct K as [Z K]. specialize (FN (N.to_nat (i - 1))). rewrite K in FN. destruct (nth_error (types ti1) _) as [a|] eqn:B; [|destruct FN].
    exists a. split; [apply type_at_nth; auto|exact FN]. }
  assert (CA : forall i n, carries (types ti1) i n -> carries (types ti2) i (h n)).
  { intros i n (a & K & N1). destruct (AT i a K) as (b & Kb & _ & R & _). exists b. rewrite R, N1. auto. }
  assert (AC : forall i m, carries (types ti2) i m -> exists n, m = h n /\ carries (types ti1) i n).
  { intros i m (b & K & N2). destruct (TA i b K) as (a & Ka & _ & R & _). rewrite R in N2. destruct (declared_name a) as [n|] eqn:N1; [|discriminate]. injection N2 as <-. exists n. split; [reflexivity|]. exists a. auto. }
  assert (NV : forall n, h n = void_str <-> n = void_str) by (intros n; split; [intros X; apply Hi; rewrite X; symmetry; exact Hv|intros ->; exact Hv]).
  assert (NM : forall i, name_of ti2 i = option_map h (name_of ti1 i)).
  { intros i. destruct (name_of ti1 i) as [n|] eqn:X.
    - apply (name_of_spec ti1 i n E1 F1) in X. apply (name_of_spec ti2 i (h n) E2 F2). destruct X as [[-> ->]|X]; [left; split; [reflexivity|exact Hv]|right; apply CA; exact X].
    - destruct (name_of ti2 i) as [m|] eqn:Y; [|reflexivity]. exfalso. apply (name_of_spec ti2 i m E2 F2) in Y.
      assert (Z : exists n, name_of ti1 i = Some n); [|destruct Z; congruence]. destruct Y as [[-> ->]|Y].
      + exists void_str. apply (name_of_spec ti1 0 _ E1 F1). auto.
      + destruct (AC i m Y) as (n & _ & C). exists n. apply (name_of_spec ti1 i n E1 F1). auto. }
  assert (ID : forall n, id_of ti2 (h n) = id_of ti1 n).
  { intros n. assert (S1 : forall i, id_of ti1 n = Some i <-> id_of ti2 (h n) = Some i).
    { intros i. rewrite (id_of_spec ti1 n i E1 F1), (id_of_spec ti2 (h n) i E2 F2), NV. 
      assert (CC : forall j, carries (types ti2) j (h n) <-> carries (types ti1) j n).
      { intros j. split; [|apply CA]. intros C. destruct (AC j _ C) as (n' & X & C'). apply Hi in X. subst n'. exact C'. }
      setoid_rewrite CC. reflexivity. }
    destruct (id_of ti1 n) as [i|]; [apply S1; reflexivity|]. destruct (id_of ti2 (h n)) as [i|]; [|reflexivity]. symmetry. apply S1. reflexivity. }
  assert (FI : forall i, match from_id ti1 i, from_id ti2 i with Some a, Some b => (i = 0 /\ a = TVoid /\ b = TVoid) \/ renamed g h a b | None, None => True | _, _ => False end).
  { intros i. destruct (from_id ti1 i) as [a|] eqn:A.
    - apply (from_id_spec ti1 i a E1) in A. destruct A as [[-> ->]|A]; [change (from_id ti2 0) with (Some TVoid); left; auto|]. destruct (AT i a A) as (b & B & R).
      assert (X : from_id ti2 i = Some b) by (apply (from_id_spec ti2 i b E2); auto). rewrite X. auto.
    - destruct (from_id ti2 i) as [b|] eqn:B; [|exact Logic.I]. apply (from_id_spec ti2 i b E2) in B. destruct B as [[-> ->]|B]; [discriminate A|].
      destruct (TA i b B) as (a & X & _). assert (Y : from_id ti1 i = Some a) by (apply (from_id_spec ti1 i a E1); auto). congruence. }
  split; [exact NM|]. split; [exact ID|]. split.
  - intros i. specialize (FI i). destruct (from_id ti1 i), (from_id ti2 i); try destruct FI; try reflexivity; cbn [option_map]; [destruct H as (-> & -> & ->); reflexivity|f_equal; apply H].
  - assert (IL : id_of ti2 list_head_str = id_of ti1 list_head_str) by (rewrite <- (ID list_head_str); f_equal; symmetry; exact Hl).
    assert (NL : forall lh a, id_of ti1 list_head_str = Some lh -> from_id ti1 lh = Some a -> declared_name a = Some list_head_str).
    { intros lh a X Y. apply (id_of_spec ti1 _ lh E1 F1) in X. destruct X as [[X _]|(_ & (t & X & D) & _)]; [discriminate|].
      assert (Z : from_id ti1 lh = Some t) by (apply (from_id_spec ti1 lh t E1); auto). congruence. }
    intros z. unfold pointer_sized. rewrite IL. split; intros (lh & hd & d & A & B & ->); specialize (FI lh); rewrite B in FI.
    + specialize (NL lh _ A B). destruct (from_id ti2 lh) as [b|] eqn:B2; [|destruct FI]. destruct FI as [(_ & X & _)|(S & _ & R)]; [discriminate X|]. specialize (R NL).
      destruct b; cbn [shape_of relabel] in S; try discriminate S; [|destruct R]. injection S as S _. exists lh, h0, d0. split; [exact A|]. split; [exact B2|]. rewrite S. reflexivity.
    + destruct (from_id ti1 lh) as [a|] eqn:B1; [|destruct FI]. specialize (NL lh _ A B1). destruct FI as [(_ & _ & X)|(S & _ & R)]; [discriminate X|]. specialize (R NL).
      destruct a; cbn [shape_of relabel] in S; try discriminate S; [|destruct R]. injection S as S _. exists lh, h0, d0. split; [exact A|]. split; [exact B1|]. rewrite S. reflexivity.
Qed.
Print Assumptions C71_renamed_file.

(** ** A concrete case *)
(** Another file: every member is called [my_...] and every type [k_...], structs have become unions and unions structs,
    const volatile, integers floats. *)
Definition label (n : str) : str := s "my_" ++ n.
Definition title (n : str) : str := if str_eqb n (s "void") || str_eqb n (s "list_head") then n else s "k_" ++ n.
Definition dress (d : decl) : decl :=
  let ms := map (fun m : option str * N * offset => (option_map label (fst (fst m)), snd (fst m), snd m)) in
  match d with
  | DInt n z _ _ _ _ _ => DFloat (option_map title n) z
  | DStruct n z f l => match n with
                       | Some x => if str_eqb x (s "list_head") then DStruct n z f (ms l) else DUnion (option_map title n) z f (ms l)
                       | None => DUnion n z f (ms l)
                       end
  | DUnion n z f l => DStruct (option_map title n) z f (ms l)
  | DEnum n z sg _ => DEnum (option_map title n) z (negb sg) []
  | DEnum64 n z sg _ => DEnum64 (option_map title n) z sg []
  | DFwd n u t => DFwd (option_map title n) (negb u) t
  | DTypedef n t => DTypedef (option_map title n) t
  | DConst t => DVolatile t
  | DFunc n l t => DFunc (option_map title n) l 0
  | DFuncProto _ _ => DFuncProto [] 0
  | DVar n t l => DVar (option_map title n) t l
  | DDataSec n z _ => DDataSec (option_map title n) z []
  | DFloat n z => DFloat (option_map title n) z
  | DDeclTag n _ _ => DDeclTag (option_map title n) 0 0
  | DTypeTag n t => DTypeTag (option_map title n) t
  | d => d
  end.
Definition dressed_ti : type_information := Eval vm_compute in table_of (encode Little (map dress sample)).
Lemma dressed_loads : type_information_new (file_env (encode Little (map dress sample))) = Ok dressed_ti. Proof. vm_compute. reflexivity. Qed.
Lemma label_one : one_to_one label. Proof. intros a b H. exact (app_inv_head _ _ _ H). Qed.
Lemma title_one : one_to_one title.
Proof.
  intros a b. unfold title. destruct (str_eqb a (s "void") || str_eqb a (s "list_head"))%bool eqn:A; destruct (str_eqb b (s "void") || str_eqb b (s "list_head"))%bool eqn:B.
  - auto.
  - intros ->. vm_compute in A. discriminate A.
  - intros <-. vm_compute in B. discriminate B.
  - apply app_inv_head.
Qed.
Example C71_met : let c := build64 true in
  one_to_one label /\ one_to_one title /\ title (s "void") = s "void" /\ title (s "list_head") = s "list_head" /\
  Forall2 (renamed label title) (map snd (get sample_ti)) (map snd (get dressed_ti)) /\
  text_is c (s "tasks[2].flag") [Name (s "tasks"); Index 2; Name (s "flag")] False /\
  text_is c (s "my_tasks[2].my_flag") (map (relabel_component label) [Name (s "tasks"); Index 2; Name (s "flag")]) False /\
  offset_of_returns c sample_ti 24 (s "tasks[2].flag") (Ok (1, BitOffsetAndSize 1408 3)) /\
  offset_of_returns c dressed_ti 24 (s "my_tasks[2].my_flag") (Ok (1, BitOffsetAndSize 1408 3)) /\
  offset_of_returns c dressed_ti 24 (s "tasks[2].flag") (Err InvalidTypePath) /\
  id_of dressed_ti (s "k_holder") = Some 24 /\ size_of c dressed_ti 24 = Ok 192.
Proof.
  cbv zeta. split; [exact label_one|]. split; [exact title_one|]. split; [reflexivity|]. split; [reflexivity|]. split.
  { let l1 := eval vm_compute in (map snd (get sample_ti)) in change (map snd (get sample_ti)) with l1.
    let l2 := eval vm_compute in (map snd (get dressed_ti)) in change (map snd (get dressed_ti)) with l2.
    repeat (constructor; [split; [vm_compute; reflexivity|split; [vm_compute; reflexivity|first [intros _; exact I|let X := fresh in intros X; vm_compute in X; discriminate X]]]|]). constructor. }
  split; [left; split; [apply accepted_reads; [literal|vm_compute; reflexivity]|auto]|].
  split; [left; split; [apply accepted_reads; [literal|vm_compute; reflexivity]|auto]|].
  split; [split; [discriminate|exists 9%nat; vm_compute; reflexivity]|]. split; [split; [discriminate|exists 9%nat; vm_compute; reflexivity]|].
  split; [split; [discriminate|exists 9%nat; vm_compute; reflexivity]|]. split; vm_compute; reflexivity.
Qed.
