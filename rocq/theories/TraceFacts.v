(** * TraceFacts: counts, copies and answers belong to the list of lookups. *)
From Coq Require Import List NArith Bool Lia PeanoNat.
From Verif Require Import TypeInfo Cost MemorySpec CopySpec Copies Trace TraceSpec Spec BaseFacts Maps QuerySpec Chains Sizes Follow Encode RenumberSpec Renumber CostFacts CopyFacts.
Import ListNotations.
Open Scope N_scope.

(** ** Counts *)
Section Measured.
  Context (m : list N -> N) (M0 : m [] = 0) (MA : forall a b, m (a ++ b) = m a + m b).
  Definition fits {A} (x : counted A) (y : traced A) : Prop := fst x = fst y /\ snd x = m (snd y).
  Lemma fits_free {A} (r : outcome offset_error A) : fits (free r) (silent r).
  Proof. split; [reflexivity|]. cbn [free silent snd]. rewrite M0. reflexivity. Qed.
  Lemma fits_bind {A B} (x : counted A) (y : traced A) (f : A -> counted B) (g : A -> traced B) : fits x y -> (forall a, fits (f a) (g a)) -> fits (cbind x f) (tbind y g).
  Proof.
    intros [E L] F. unfold fits, cbind, tbind. rewrite E. destruct (fst y) as [a|k|q|]; cbn [fst snd]; try (split; [reflexivity|exact L]).
    destruct (F a) as [F1 F2]. split; [exact F1|]. rewrite MA, L, F2. reflexivity.
  Qed.
  Lemma fits_probe (p : offset -> N -> counted (N * offset)) (q : offset -> N -> traced (N * offset)) off ms :
    (forall o t, fits (p o t) (q o t)) -> fits (probe_counted p off ms) (probe_traced q off ms).
  Proof.
    intros PQ. induction ms as [|x ms IH]; [apply fits_free|]. cbn [probe_counted probe_traced]. destruct (is_anonymous x); [|exact IH].
    apply fits_bind; [apply fits_free|]. intros o. destruct (PQ o (m_tid x)) as [E L]. unfold fits. rewrite E.
    destruct (fst (q o (m_tid x))); cbn [fst snd]; try (split; [reflexivity|exact L]). destruct IH as [I1 I2]. split; [exact I1|]. rewrite MA, L, I2. reflexivity.
  Qed.
End Measured.
Ltac fit_round m M0 MA IH RS SS :=
  apply (fits_bind m MA); [split; [reflexivity|cbn [snd]; apply RS]|]; intros [r ty]; cbn [snd];
  destruct ty; try apply (fits_free m M0); 
  match goal with comp : component |- _ => destruct comp as [i|name] end; try apply (fits_free m M0);
  [ apply (fits_bind m MA); [split; [reflexivity|cbn [snd]; apply SS]|intros o; apply IH] | ..];
  (apply (fits_bind m MA); [apply (fits_probe m M0 MA); intros o t'; apply IH|]; intros [r0|]; [apply (fits_free m M0)|];
   match goal with |- context [find (has_name ?a) ?l] => destruct (find (has_name a) l) end; [|apply (fits_free m M0)];
   apply (fits_bind m MA); [apply (fits_free m M0)|]; intros o; apply IH).

Definition count (l : list N) : N := N.of_nat (length l).
Lemma count0 : count [] = 0. Proof. reflexivity. Qed.
Lemma count_app a b : count (a ++ b) = count a + count b. Proof. unfold count. rewrite app_length. lia. Qed.
Lemma count_cons t l : count (t :: l) = 1 + count l. Proof. unfold count. cbn [length]. lia. Qed.
Lemma size_counted ti n : forall t, size_lookups n ti t = count (size_trace n ti t).
Proof.
  induction n as [|n IH]; intros t; [reflexivity|]. cbn [size_lookups size_trace]. rewrite count_cons. f_equal.
  destruct (from_id ti t) as [ty|]; [|reflexivity]. destruct ty; try reflexivity; try apply IH. destruct (id_of ti list_head_str); reflexivity.
Qed.
Lemma resolve_counted ti n : forall t, resolve_lookups n ti t = count (resolve_trace n ti t).
Proof.
  induction n as [|n IH]; intros t; [reflexivity|]. cbn [resolve_lookups resolve_trace]. rewrite count_cons. f_equal.
  destruct (from_id ti t) as [ty|]; [|reflexivity]. destruct ty; try reflexivity; apply IH.
Qed.
Lemma array_counted ti d i : array_lookups ti d i = count (array_trace ti d i).
Proof. unfold array_lookups, array_trace. destruct (element_count d <=? i); [reflexivity|apply size_counted]. Qed.
Lemma offset_counted c ti p n : forall off t it, fits count (offset_of_counted n c ti p off t it) (offset_of_traced n c ti p off t it).
Proof.
  induction n as [|n IH]; intros off t it; [apply (fits_free count count0)|]. cbn [offset_of_counted offset_of_traced].
  destruct (next c p it) as [[[comp|]|k|q|] it']; try apply (fits_free count count0). unfold round_counted, round_traced.
  fit_round count count0 count_app IH resolve_counted array_counted.
Qed.

(** ** Copies *)
Lemma sum0 ti : sum_held ti [] = 0. Proof. reflexivity. Qed.
Lemma sum_app ti a b : sum_held ti (a ++ b) = sum_held ti a + sum_held ti b.
Proof. unfold sum_held. induction a as [|x a IH]; [reflexivity|]. cbn [app total]. rewrite IH. lia. Qed.
Lemma size_summed ti n : forall t, size_copies n ti t = sum_held ti (size_trace n ti t).
Proof.
  induction n as [|n IH]; intros t; [reflexivity|]. cbn [size_copies size_trace]. unfold sum_held. cbn [total]. fold (fetched ti t). f_equal.
  destruct (from_id ti t) as [ty|]; [|reflexivity]. destruct ty; try reflexivity; try apply IH.
  destruct (id_of ti list_head_str) as [lh|]; [|reflexivity]. cbn [total]. rewrite N.add_0_r. reflexivity.
Qed.
Lemma pointee_summed ti n : forall t, pointee_copies n ti t = sum_held ti (pointee_trace n ti t).
Proof.
  induction n as [|n IH]; intros t; [reflexivity|]. cbn [pointee_copies pointee_trace]. unfold sum_held. cbn [total]. fold (fetched ti t). f_equal.
  destruct (from_id ti t) as [ty|]; [|reflexivity]. destruct ty; try reflexivity; apply IH.
Qed.
Lemma resolve_summed ti n : forall t, resolve_copies n ti t = sum_held ti (resolve_trace n ti t).
Proof.
  induction n as [|n IH]; intros t; [reflexivity|]. cbn [resolve_copies resolve_trace]. unfold sum_held. cbn [total]. fold (fetched ti t). f_equal.
  destruct (from_id ti t) as [ty|]; [|reflexivity]. destruct ty; try reflexivity; apply IH.
Qed.
Lemma array_summed ti d i : array_copies ti d i = sum_held ti (array_trace ti d i).
Proof. unfold array_copies, array_trace. destruct (element_count d <=? i); [reflexivity|apply size_summed]. Qed.
Lemma offset_summed c ti p n : forall off t it, fits (sum_held ti) (offset_of_copying n c ti p off t it) (offset_of_traced n c ti p off t it).
Proof.
  induction n as [|n IH]; intros off t it; [apply (fits_free _ (sum0 ti))|]. cbn [offset_of_copying offset_of_traced].
  destruct (next c p it) as [[[comp|]|k|q|] it']; try apply (fits_free _ (sum0 ti)). unfold round_copying, round_traced.
  fit_round (sum_held ti) (sum0 ti) (sum_app ti) IH resolve_summed array_summed.
Qed.
Lemma offset_traced_result c ti p n off t it : fst (offset_of_traced n c ti p off t it) = offset_of_impl n c ti p off t it.
Proof. rewrite <- offset_of_counted_result. symmetry. apply offset_counted. Qed.

(** ** Answers *)
Lemma resolve_any ti n t : resolve_fuel n ti t <> Diverge -> resolve ti t = resolve_fuel n ti t.
Proof.
  intros D. destruct (Nat.le_ge_cases (chain_fuel ti) n) as [L|L]; [symmetry; apply resolve_enough; exact L|]. unfold resolve.
  induction L as [|k L IH]; [reflexivity|]. rewrite resolve_mono; rewrite IH; [reflexivity|exact D].
Qed.
Lemma size_any c ti n t : size_of_fuel n c ti t <> Diverge -> size_of c ti t = size_of_fuel n c ti t.
Proof.
  intros D. destruct (Nat.le_ge_cases (chain_fuel ti) n) as [L|L]; [symmetry; apply size_enough; exact L|]. unfold size_of.
  induction L as [|k L IH]; [reflexivity|]. rewrite size_mono; rewrite IH; [reflexivity|exact D].
Qed.
Lemma pointee_any ti n t : pointee_tid_fuel n ti t <> Diverge -> pointee_tid ti t = pointee_tid_fuel n ti t.
Proof.
  intros D. destruct (Nat.le_ge_cases (chain_fuel ti) n) as [L|L]; [symmetry; apply pointee_enough; exact L|]. unfold pointee_tid.
  induction L as [|k L IH]; [reflexivity|]. rewrite pointee_mono; rewrite IH; [reflexivity|exact D].
Qed.
Section Agreeing.
  Context (ti1 ti2 : type_information).
  Lemma agree_incl l l' : incl l' l -> agree ti1 ti2 l -> agree ti1 ti2 l'.
  Proof. intros I [A B]. split; [exact A|]. intros t H. apply B, I, H. Qed.
  Lemma agree_app a b : agree ti1 ti2 (a ++ b) -> agree ti1 ti2 a /\ agree ti1 ti2 b.
  Proof. intros A. split; (eapply agree_incl; [|exact A]); intros x H; apply in_or_app; auto. Qed.
  Lemma agree_head t l : agree ti1 ti2 (t :: l) -> from_id ti2 t = from_id ti1 t /\ agree ti1 ti2 l.
  Proof. intros [A B]. split; [symmetry; apply B; left; reflexivity|]. split; [exact A|]. intros x H. apply B. right. exact H. Qed.
  Lemma agree_size c n : forall t, agree ti1 ti2 (size_trace n ti1 t) -> size_of_fuel n c ti2 t = size_of_fuel n c ti1 t.
  Proof.
    induction n as [|n IH]; intros t A; [reflexivity|]. cbn [size_trace] in A. apply agree_head in A. destruct A as [E A]. cbn [size_of_fuel]. rewrite E.
    destruct (from_id ti1 t) as [ty|]; [|reflexivity]. destruct ty; try reflexivity; try (apply IH; exact A).
    - destruct A as [H A]. unfold pointer_size. rewrite <- H. destruct (id_of ti1 list_head_str) as [lh|]; [|reflexivity]. rewrite (A lh (or_introl eq_refl)). reflexivity.
    - rewrite IH by exact A. reflexivity.
  Qed.
  Lemma agree_pointee n : forall t, agree ti1 ti2 (pointee_trace n ti1 t) -> pointee_tid_fuel n ti2 t = pointee_tid_fuel n ti1 t.
  Proof.
    induction n as [|n IH]; intros t A; [reflexivity|]. cbn [pointee_trace] in A. apply agree_head in A. destruct A as [E A]. cbn [pointee_tid_fuel]. rewrite E.
    destruct (from_id ti1 t) as [ty|]; [|reflexivity]. destruct ty; try reflexivity; apply IH; exact A.
  Qed.
  Lemma agree_resolve n : forall t, agree ti1 ti2 (resolve_trace n ti1 t) -> resolve_fuel n ti2 t = resolve_fuel n ti1 t.
  Proof.
    induction n as [|n IH]; intros t A; [reflexivity|]. cbn [resolve_trace] in A. apply agree_head in A. destruct A as [E A]. cbn [resolve_fuel]. rewrite E.
    destruct (from_id ti1 t) as [ty|]; [|reflexivity]. destruct ty; try reflexivity; apply IH; exact A.
  Qed.
  Lemma agree_array c d off i : agree ti1 ti2 (array_trace ti1 d i) -> array_step c ti1 d off i <> Diverge -> array_step c ti2 d off i = array_step c ti1 d off i.
  Proof.
    unfold array_trace, array_step. destruct (element_count d <=? i); [reflexivity|]. intros A D.
    assert (Q : size_of c ti2 (element_tid d) = size_of c ti1 (element_tid d)).
    { unfold size_of at 2. pose proof (agree_size c (chain_fuel ti1) (element_tid d) A) as E. rewrite <- E. apply size_any. rewrite E. intros X. apply D. unfold size_of. rewrite X. reflexivity. }
    rewrite Q. reflexivity.
  Qed.
  (** On [ti2] the result of [y] is that of [x] on [ti1], if the tables agree on what [x] looks up. *)
  Definition kept {A} (x y : traced A) : Prop := agree ti1 ti2 (snd x) -> fst x <> Diverge -> fst y = fst x.
  Lemma kept_same {A} (r : outcome offset_error A) : kept (silent r) (silent r).
  Proof. intros _ _. reflexivity. Qed.
  Lemma kept_bind {A B} (x y : traced A) (f g : A -> traced B) : kept x y -> (forall a, kept (f a) (g a)) -> kept (tbind x f) (tbind y g).
  Proof.
    intros X F. unfold kept, tbind. destruct (fst x) as [a|k|q|] eqn:E; cbn [fst snd]; intros AG D.
    - apply agree_app in AG. destruct AG as [A1 A2]. rewrite (X A1) by (rewrite E; discriminate). rewrite E. cbn [fst]. apply F; assumption.
    - rewrite (X AG) by (rewrite E; discriminate). rewrite E. reflexivity.
    - rewrite (X AG) by (rewrite E; discriminate). rewrite E. reflexivity.
    - exfalso. apply D. reflexivity.
  Qed.
  Lemma kept_probe (p q : offset -> N -> traced (N * offset)) off ms : (forall o t, kept (p o t) (q o t)) -> kept (probe_traced p off ms) (probe_traced q off ms).
  Proof.
    intros PQ. induction ms as [|x ms IH]; [apply kept_same|]. cbn [probe_traced]. destruct (is_anonymous x); [|exact IH].
    apply kept_bind; [apply kept_same|]. intros o. specialize (PQ o (m_tid x)). unfold kept in PQ |- *. destruct (fst (p o (m_tid x))) as [a|k|z|] eqn:E; cbn [fst snd]; intros AG D.
    - rewrite PQ by (first [exact AG|discriminate]). reflexivity.
    - apply agree_app in AG. destruct AG as [A1 A2]. rewrite PQ by (first [exact A1|discriminate]). cbn [fst]. apply IH; assumption.
    - rewrite PQ by (first [exact AG|discriminate]). reflexivity.
    - exfalso. apply D. reflexivity.
  Qed.
  Lemma kept_offset c p n : forall off t it, kept (offset_of_traced n c ti1 p off t it) (offset_of_traced n c ti2 p off t it).
  Proof.
    induction n as [|n IH]; intros off t it; [apply kept_same|]. cbn [offset_of_traced]. destruct (next c p it) as [[[comp|]|k|q|] it']; try apply kept_same.
    unfold round_traced. apply kept_bind.
    { unfold kept. cbn [fst snd]. intros A D. unfold resolve at 2. pose proof (agree_resolve (chain_fuel ti1) t A) as E. rewrite <- E. apply resolve_any. rewrite E. exact D. }
    intros [r ty]. cbn [snd]. destruct ty; try apply kept_same; destruct comp as [i|name]; try apply kept_same.
    - apply kept_bind; [unfold kept; cbn [fst snd]; intros A D; apply agree_array; assumption|]. intros o. apply IH.
    - apply kept_bind; [apply kept_probe; intros; apply IH|]. intros [r0|]; [apply kept_same|]. destruct (find (has_name name) (member_list d)); [|apply kept_same].
      apply kept_bind; [apply kept_same|]. intros o. apply IH.
    - apply kept_bind; [apply kept_probe; intros; apply IH|]. intros [r0|]; [apply kept_same|]. destruct (find (has_name name) (member_list d)); [|apply kept_same].
      apply kept_bind; [apply kept_same|]. intros o. apply IH.
  Qed.
End Agreeing.

(** ** Step by step *)
Section Steps.
  Context (ti : type_information) (t0 : N).
  (** [u] may be looked up once those of [K] have been. *)
  Definition allowed (K : list N) (u : N) : Prop := u = t0 \/ id_of ti list_head_str = Some u \/ exists v, In v K /\ refers ti v u.
  Inductive caused : list N -> list N -> Prop :=
  | caused_nil K : caused K []
  | caused_cons K u l : allowed K u -> caused (u :: K) l -> caused K (u :: l).
  Lemma allowed_incl K K' u : incl K K' -> allowed K u -> allowed K' u.
  Proof. intros I [H|[H|(v & H & R)]]; [left; exact H|right; left; exact H|]. right. right. exists v. split; [apply I; exact H|exact R]. Qed.
  Lemma caused_incl K l : caused K l -> forall K', incl K K' -> caused K' l.
  Proof.
    induction 1 as [K|K u l A _ IH]; intros K' I; [apply caused_nil|]. apply caused_cons; [eapply allowed_incl; eassumption|].
    apply IH. intros x [->|H]; [left; reflexivity|right; apply I; exact H].
  Qed.
  Lemma caused_app K a : caused K a -> forall b, (forall K', incl K K' -> incl a K' -> caused K' b) -> caused K (a ++ b).
  Proof.
    induction 1 as [K|K u l A _ IH]; intros b B; cbn [app]; [apply B; [apply incl_refl|intros x []]|]. apply caused_cons; [exact A|]. apply IH. intros K' I1 I2.
    apply B; [intros x H; apply I1; right; exact H|]. intros x [->|H]; [apply I1; left; reflexivity|apply I2; exact H].
  Qed.
  Lemma refers_of t ty d u : from_id ti t = Some ty -> view ty = Some d -> In u (mentions d) -> refers ti t u.
  Proof. intros F V I. exists d. split; [|exact I]. unfold shows. rewrite F, V. reflexivity. Qed.
  Ltac next F := eapply caused_incl; [|apply incl_refl]; first [apply caused_nil | match goal with IH : forall _ _, allowed _ _ -> _ |- _ => apply IH end; right; right; eexists; split; [left; reflexivity|]; eapply refers_of; [exact F|reflexivity|left; reflexivity]].
  Lemma size_steps n : forall K t, allowed K t -> caused K (size_trace n ti t).
  Proof.
    induction n as [|n IH]; intros K t A; [apply caused_nil|]. cbn [size_trace]. apply caused_cons; [exact A|].
    destruct (from_id ti t) as [ty|] eqn:F; [|apply caused_nil]. destruct ty; try next F.
    destruct (id_of ti list_head_str) as [lh|] eqn:L; [|apply caused_nil]. apply caused_cons; [right; left; exact L|apply caused_nil].
  Qed.
  Lemma pointee_steps n : forall K t, allowed K t -> caused K (pointee_trace n ti t).
  Proof.
    induction n as [|n IH]; intros K t A; [apply caused_nil|]. cbn [pointee_trace]. apply caused_cons; [exact A|].
    destruct (from_id ti t) as [ty|] eqn:F; [|apply caused_nil]. destruct ty; next F.
  Qed.
  Lemma resolve_steps n : forall K t, allowed K t -> caused K (resolve_trace n ti t).
  Proof.
    induction n as [|n IH]; intros K t A; [apply caused_nil|]. cbn [resolve_trace]. apply caused_cons; [exact A|].
    destruct (from_id ti t) as [ty|] eqn:F; [|apply caused_nil]. destruct ty; next F.
  Qed.
  Lemma resolve_last n : forall t r ty, resolve_fuel n ti t = Ok (r, ty) -> In r (resolve_trace n ti t) /\ from_id ti r = Some ty.
  Proof.
    induction n as [|n IH]; intros t r ty E; [discriminate|]. cbn [resolve_fuel] in E. cbn [resolve_trace]. destruct (from_id ti t) as [x|] eqn:F; [|discriminate].
    destruct x; try (injection E as <- <-; split; [left; reflexivity|exact F]); apply IH in E; destruct E as [E1 E2]; (split; [right; exact E1|exact E2]).
  Qed.
  Lemma tbind_steps {A B} K (x : traced A) (f : A -> traced B) : caused K (snd x) -> (forall a K', fst x = Ok a -> incl K K' -> incl (snd x) K' -> caused K' (snd (f a))) -> caused K (snd (tbind x f)).
  Proof. intros X F. unfold tbind. destruct (fst x) as [a|k|q|]; cbn [snd]; try exact X. apply caused_app; [exact X|]. intros K' I1 I2. apply (F a K' eq_refl I1 I2). Qed.
  Lemma probe_steps (p : offset -> N -> traced (N * offset)) off K ms : (forall o m K', In m ms -> incl K K' -> caused K' (snd (p o (m_tid m)))) -> forall K', incl K K' -> caused K' (snd (probe_traced p off ms)).
  Proof.
    induction ms as [|m ms IH]; intros P K' I; [apply caused_nil|]. cbn [probe_traced].
    assert (IH' : forall K', incl K K' -> caused K' (snd (probe_traced p off ms))) by (apply IH; intros o x K0 H; apply P; right; exact H).
    destruct (is_anonymous m); [|apply IH'; exact I]. apply tbind_steps; [apply caused_nil|]. intros o K0 _ I0 _.
    pose proof (P o m K0 (or_introl eq_refl) (fun x H => I0 x (I x H))) as Q. destruct (fst (p o (m_tid m))); cbn [snd]; try exact Q.
    apply caused_app; [exact Q|]. intros K1 I1 _. apply IH'. intros x H. apply I1, I0, I, H.
  Qed.
  Lemma offset_steps c p n : forall K off t it, allowed K t -> caused K (snd (offset_of_traced n c ti p off t it)).
  Proof.
    induction n as [|n IH]; intros K off t it A; [apply caused_nil|]. cbn [offset_of_traced]. destruct (next c p it) as [[[comp|]|k|q|] it']; try apply caused_nil.
    unfold round_traced. apply tbind_steps; [apply resolve_steps; exact A|]. cbn [fst snd]. intros [r ty] K1 E I1 I2. cbn [snd].
    apply resolve_last in E. destruct E as [Hr F]. apply I2 in Hr. clear I2.
    assert (REC : forall ms, (forall m, In m ms -> refers ti r (m_tid m)) -> forall name, caused K1 (snd (tbind (probe_traced (fun o mt => offset_of_traced n c ti p o mt it) off ms) (fun found => match found with
        | Some r0 => silent (Ok r0)
        | None => match find (has_name name) ms with Some m => tbind (silent (btf_err (offset_add off (m_offset m)))) (fun off' => offset_of_traced n c ti p off' (m_tid m) it') | None => silent (Err OEMemberNotFound) end end)))).
    { intros ms M name.
      assert (AL : forall m K', In m ms -> incl K1 K' -> allowed K' (m_tid m)) by (intros m K' H I; right; right; exists r; split; [apply I; exact Hr|apply M; exact H]).
      apply tbind_steps; [apply (probe_steps _ _ K1); [|apply incl_refl]; intros o m K' H I; apply IH, AL; assumption|]. intros [r0|] K2 _ I _; [apply caused_nil|].
      destruct (find (has_name name) ms) as [m|] eqn:Hf; [|apply caused_nil]. apply tbind_steps; [apply caused_nil|]. intros o K3 _ I3 _. apply IH, AL; [eapply find_some; exact Hf|].
      intros x H. apply I3, I, H. }
    assert (MS : forall h d, from_id ti r = Some (TStruct h d) \/ from_id ti r = Some (TUnion h d) -> forall m, In m (member_list d) -> refers ti r (m_tid m)).
    { intros h d [H|H] m Hm; (eapply refers_of; [exact H|reflexivity|]); cbn; rewrite map_map; apply in_map_iff; exists m; auto. }
    destruct ty; try apply caused_nil; destruct comp as [i|name]; try apply caused_nil.
    - assert (AL : forall K', incl K1 K' -> allowed K' (element_tid d)) by (intros K' I; right; right; exists r; split; [apply I; exact Hr|eapply refers_of; [exact F|reflexivity|left; reflexivity]]).
      apply tbind_steps; [|intros o K2 _ I _; apply IH, AL, I]. cbn [snd]. unfold array_trace. destruct (element_count d <=? i); [apply caused_nil|]. apply size_steps, AL, incl_refl.
    - apply REC. apply (MS h d). left. exact F.
    - apply REC. apply (MS h d). right. exact F.
  Qed.
  Lemma caused_steps K l : caused K l -> forall a u b, l = a ++ u :: b -> u = t0 \/ id_of ti list_head_str = Some u \/ exists v, (In v a \/ In v K) /\ refers ti v u.
  Proof.
    induction 1 as [K|K x l A _ IH]; intros a u b E; [destruct a; discriminate|]. destruct a as [|y a]; cbn [app] in E; injection E as -> E.
    - destruct A as [A|[A|(v & H & R)]]; [left; exact A|right; left; exact A|]. right. right. exists v. auto.
    - destruct (IH a u b E) as [H|[H|(v & [H|[->|H]] & R)]]; [left; exact H|right; left; exact H| | |]; right; right; exists v; cbn [In]; auto.
  Qed.
  Lemma caused_start l : caused [] l -> step_by_step ti t0 l.
  Proof. intros C a u b E. destruct (caused_steps _ _ C a u b E) as [H|[H|(v & [H|[]] & R)]]; [left; exact H|right; left; exact H|]. right. right. exists v. auto. Qed.
End Steps.
