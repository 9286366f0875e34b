(** * CFacts: a table that describes a C program answers as the ABI says (for C76). *)
From Coq Require Import List NArith ZArith Bool Lia.
From Verif Require Import TypeInfo Encode QuerySpec Offsets DisjointSpec CSpec.
Import ListNotations.
Open Scope N_scope.

(** ** Arithmetic of the layout *)
Lemma round_up_ge n a : 1 <= a -> n <= round_up n a.
Proof.
  intro A. unfold round_up. pose proof (N.div_mod (n + a - 1) a ltac:(lia)) as E. pose proof (N.mod_upper_bound (n + a - 1) a ltac:(lia)). nia.
Qed.
Lemma round_up_mult n a : exists k, round_up n a = k * a.
Proof. eexists. reflexivity. Qed.

Definition placed_in (L : N -> option (N * N)) (un : bool) (pos stop : N) (fs : list field) (m : option str * N * offset) : Prop :=
  exists f s a, In f fs /\ is_member f = true /\ fst (fst m) = f_name f /\ snd (fst m) = f_type f /\ L (f_type f) = Some (s, a) /\
    match f_width f, snd m with
    | None, ByteOffset b => 8 * b + 8 * s <= stop /\ (un = false -> pos <= 8 * b)
    | Some w, BitOffsetAndSize b w' => w' = w /\ b + w <= stop /\ (un = false -> pos <= b)
    | _, _ => False
    end.
(** The bits a member takes. *)
Definition span_of (L : N -> option (N * N)) (m : option str * N * offset) : option (N * N) :=
  match snd m with
  | ByteOffset b => match L (snd (fst m)) with Some (s, _) => Some (8 * b, 8 * b + 8 * s) | None => None end
  | BitOffsetAndSize b w => Some (b, b + w)
  end.
Definition ordered (L : N -> option (N * N)) (m m' : option str * N * offset) : Prop :=
  exists a b a' b', span_of L m = Some (a, b) /\ span_of L m' = Some (a', b') /\ b <= a'.
Definition label (m : option str * N * offset) : option str * N := (fst (fst m), snd (fst m)).
Definition f_label (f : field) : option str * N := (f_name f, f_type f).

Section Lay.
  Context (m : machine) (L : N -> option (N * N)) (Lpos : forall t s a, L t = Some (s, a) -> 1 <= a).
  Definition aligned_ok (f : field) : Prop := 1 <= f_align f.
  Lemma align_ge pk a f : 1 <= a -> aligned_ok f -> 1 <= align_of m pk a f.
  Proof. intros A F. unfold align_of, aligned_ok in *. destruct (f_width f); [destruct (pk || _); lia|destruct pk; lia]. Qed.
  Lemma starts_ge pk pos s a f : 1 <= a -> aligned_ok f -> pos <= starts m pk pos s a f.
  Proof.
    intros A F. unfold starts. destruct (f_width f) as [w|] eqn:W.
    - destruct (w =? 0); [apply round_up_ge; lia|]. destruct (pk || _); [lia|]. apply round_up_ge. lia.
    - apply round_up_ge. pose proof (align_ge pk a f A F). lia.
  Qed.
  (** an ordinary member starts at a byte *)
  Lemma starts_byte pk pos s a f : f_width f = None -> exists k, starts m pk pos s a f = 8 * (k * align_of m pk a f) /\ starts m pk pos s a f / 8 = k * align_of m pk a f.
  Proof.
    intro W. unfold starts. rewrite W. destruct (round_up_mult pos (8 * align_of m pk a f)) as [k ->]. exists k.
    replace (k * (8 * align_of m pk a f)) with (8 * (k * align_of m pk a f)) by lia. split; [reflexivity|].
    rewrite N.mul_comm. apply N.div_mul. lia.
  Qed.
  Lemma lay_names un pk : forall fs pos al ms stop al', lay m L un pk pos al fs = Some (ms, stop, al') -> map label ms = map f_label (filter is_member fs).
  Proof.
    induction fs as [|f fs IH]; intros pos al ms stop al' E; cbn [lay] in E.
    - injection E as <- <- <-. reflexivity.
    - destruct (L (f_type f)) as [[s a]|]; [|discriminate].
      destruct (lay _ _ _ _ _ _ fs) as [[[ms1 st1] al1]|] eqn:K; [|discriminate]. injection E as <- <- <-. cbn [filter]. apply IH in K.
      destruct (is_member f); cbn [map app]; [f_equal|]; exact K.
  Qed.
  Lemma lay_grows un pk : forall fs pos al ms stop al', Forall aligned_ok fs -> lay m L un pk pos al fs = Some (ms, stop, al') -> pos <= stop.
  Proof.
    induction fs as [|f fs IH]; intros pos al ms stop al' F E; cbn [lay] in E.
    - injection E as <- <- <-. apply N.le_refl.
    - destruct (L (f_type f)) as [[s a]|] eqn:Lf; [|discriminate].
      destruct (lay _ _ _ _ _ _ fs) as [[[ms1 st1] al1]|] eqn:K; [|discriminate]. injection E as <- <- <-.
      inversion F as [|? ? F1 F2]; subst. apply (IH _ _ _ _ _ F2) in K. destruct un; [lia|].
      pose proof (starts_ge pk pos s a f (Lpos _ _ _ Lf) F1). lia.
  Qed.
  Lemma lay_places un pk : forall fs pos al ms stop al', Forall aligned_ok fs -> lay m L un pk pos al fs = Some (ms, stop, al') -> Forall (placed_in L un pos stop fs) ms.
  Proof.
    induction fs as [|f fs IH]; intros pos al ms stop al' F E; cbn [lay] in E.
    - injection E as <- <- <-. constructor.
    - destruct (L (f_type f)) as [[s a]|] eqn:Lf; [|discriminate].
      destruct (lay _ _ _ _ _ _ fs) as [[[ms1 st1] al1]|] eqn:K; [|discriminate]. injection E as <- <- <-.
      inversion F as [|? ? F1 F2]; subst. pose proof (lay_grows _ _ _ _ _ _ _ _ F2 K) as G1. specialize (IH _ _ _ _ _ F2 K).
      pose proof (starts_ge pk pos s a f (Lpos _ _ _ Lf) F1) as SG.
      apply Forall_app. split.
      + destruct (is_member f) eqn:Mf; [|constructor]. constructor; [|constructor]. exists f, s, a. cbn [fst snd]. split; [left; reflexivity|]. split; [exact Mf|].
        split; [reflexivity|]. split; [reflexivity|]. split; [exact Lf|].
        unfold where_, takes_bits in *. destruct (f_width f) as [w|] eqn:W.
        * split; [reflexivity|]. destruct un; (split; [lia|]); intro U; try discriminate U; lia.
        * destruct un.
          -- split; [rewrite N.div_0_l by lia; lia|discriminate].
          -- destruct (starts_byte pk pos s a f W) as (k & E1 & E2). rewrite E2. split; [lia|intro; lia].
      + eapply Forall_impl; [|exact IH]. intros x (g & s' & a' & I & Mg & E1 & E2 & E3 & E4). exists g, s', a'.
        split; [right; exact I|]. split; [exact Mg|]. split; [exact E1|]. split; [exact E2|]. split; [exact E3|].
        destruct (f_width g), (snd x); try contradiction.
        * destruct E4 as (? & ? & E5). split; [assumption|]. split; [assumption|]. intro U. specialize (E5 U). destruct un; [discriminate|]. lia.
        * destruct E4 as (? & E5). split; [assumption|]. intro U. specialize (E5 U). destruct un; [discriminate|]. lia.
  Qed.
  Lemma lay_apart pk : forall fs pos al ms stop al', Forall aligned_ok fs -> lay m L false pk pos al fs = Some (ms, stop, al') -> ForallOrdPairs (ordered L) ms.
  Proof.
    induction fs as [|f fs IH]; intros pos al ms stop al' F E; cbn [lay] in E.
    - injection E as <- <- <-. constructor.
    - destruct (L (f_type f)) as [[s a]|] eqn:Lf; [|discriminate].
      destruct (lay _ _ _ _ _ _ fs) as [[[ms1 st1] al1]|] eqn:K; [|discriminate]. injection E as <- <- <-.
      inversion F as [|? ? F1 F2]; subst. pose proof (lay_places _ _ _ _ _ _ _ _ F2 K) as PL. specialize (IH _ _ _ _ _ F2 K).
      destruct (is_member f); cbn [app]; [|exact IH].
      constructor; [|exact IH]. apply Forall_forall. intros x I. rewrite Forall_forall in PL. destruct (PL x I) as (g & s' & a' & Ig & _ & E1 & E2 & E3 & E4).
      assert (SP : exists x, span_of L (f_name f, f_type f, where_ (starts m pk pos s a f) (f_width f)) = Some (x, starts m pk pos s a f + takes_bits s (f_width f))).
      { unfold span_of, where_, takes_bits. destruct (f_width f) as [w|] eqn:W; cbn [fst snd].
        - eexists. reflexivity.
        - rewrite Lf. destruct (starts_byte pk pos s a f W) as (k & Ek & ->). rewrite Ek. eexists. reflexivity. }
      destruct SP as [y SP]. unfold ordered. rewrite SP.
      unfold span_of. rewrite E2. destruct (f_width g), (snd x); try contradiction.
      * destruct E4 as (-> & ? & E5). specialize (E5 eq_refl). do 4 eexists. split; [reflexivity|]. split; [reflexivity|]. lia.
      * destruct E4 as (? & E5). specialize (E5 eq_refl). rewrite E3. do 4 eexists. split; [reflexivity|]. split; [reflexivity|]. lia.
  Qed.
  Lemma lay_align un pk : forall fs pos al ms stop al', lay m L un pk pos al fs = Some (ms, stop, al') -> al <= al'.
  Proof.
    clear Lpos. induction fs as [|f fs IH]; intros pos al ms stop al' E; cbn [lay] in E.
    - injection E as <- <- <-. apply N.le_refl.
    - destruct (L (f_type f)) as [[s a]|]; [|discriminate].
      destruct (lay _ _ _ _ _ _ fs) as [[[ms1 st1] al1]|] eqn:K; [|discriminate]. injection E as <- <- <-. apply IH in K. lia.
  Qed.
  Lemma layout_places un pk al fs ms s a : Forall aligned_ok fs -> 1 <= al -> layout_of_fields m L un pk al fs = Some (ms, (s, a)) ->
    Forall (placed_in L un 0 (8 * s) fs) ms /\ map label ms = map f_label (filter is_member fs) /\ (un = false -> ForallOrdPairs (ordered L) ms).
  Proof.
    intros F A0 E. unfold layout_of_fields in E. destruct (lay m L un pk 0 al fs) as [[[ms1 stop] al']|] eqn:K; [|discriminate]. injection E as <- <- <-.
    pose proof (lay_align _ _ _ _ _ _ _ _ K) as A. pose proof (lay_places _ _ _ _ _ _ _ _ F K) as PL.
    assert (A1 : 1 <= al') by lia.
    pose proof (round_up_ge ((stop + 7) / 8) al' A1). pose proof (N.div_mod (stop + 7) 8 ltac:(lia)). pose proof (N.mod_upper_bound (stop + 7) 8 ltac:(lia)).
    split; [|split; [exact (lay_names _ _ _ _ _ _ _ _ K)|]].
    - eapply Forall_impl; [|exact PL]. intros x (g & s' & a' & I & Mg & E1 & E2 & E3 & E4). exists g, s', a'. repeat (split; [assumption|]).
      destruct (f_width g), (snd x); try contradiction.
      + destruct E4 as (? & ? & ?). split; [assumption|]. split; [lia|assumption].
      + destruct E4. split; [lia|assumption].
    - intros ->. exact (lay_apart _ _ _ _ _ _ _ F K).
  Qed.
End Lay.

(** ** Legal programs *)
Lemma legal_lawful mc P L : legal mc P L -> lawful mc P L.
Proof. exact (@proj1 _ _). Qed.
Coercion legal_lawful : legal >-> lawful.
Lemma declared_or_not P t : (exists d, declared P t d) \/ (forall d, ~ declared P t d).
Proof.
  destruct (N.eq_dec t 0) as [->|T]; [right; intros d [H _]; lia|].
  destruct (nth_error P (N.to_nat (t - 1))) as [d|] eqn:E; [left; exists d; split; [lia|exact E]|right]. intros d [_ H]. congruence.
Qed.
Lemma declared_det P t d d' : declared P t d -> declared P t d' -> d = d'.
Proof. intros [_ H] [_ H']. congruence. Qed.

Section Legal.
  Context (mc : machine) (P : program) (L : N -> option (N * N)) (LG : lawful mc P L).
  Lemma L_declared t x : L t = Some x -> exists d, declared P t d /\ size_align mc L d = Some x.
  Proof.
    intro E. destruct (l_abi _ _ _ LG) as [A1 A2]. destruct (declared_or_not P t) as [[d D]|D].
    - exists d. split; [exact D|]. rewrite <- (A1 _ _ D). exact E.
    - rewrite (A2 _ D) in E. discriminate.
  Qed.
  Lemma L_is t d : declared P t d -> L t = size_align mc L d.
  Proof. apply (l_abi _ _ _ LG). Qed.
  Lemma by_rank (Q : N -> Prop) : (forall t, (forall d u, declared P t d -> In u (refers d) -> Q u) -> Q t) -> forall t, Q t.
  Proof.
    destruct (l_circles _ _ _ LG) as [rank R]. intros H t. remember (rank t) as n eqn:E. revert t E.
    induction n as [n IH] using (well_founded_induction Wf_nat.lt_wf). intros t ->. apply H. intros d u D I. eapply IH; [|reflexivity]. eapply R; eauto.
  Qed.
  Lemma L_align : forall t s a, L t = Some (s, a) -> 1 <= a.
  Proof.
    apply (by_rank (fun t => forall s a, L t = Some (s, a) -> 1 <= a)). intros t IH s a E. destruct (L_declared _ _ E) as (d & D & S).
    pose proof (l_ok _ _ _ LG _ _ D) as [_ K]. pose proof (l_machine _ _ _ LG) as [LM _]. specialize (IH d).
    destruct d; cbn [size_align] in S; try discriminate; try (injection S as <- <-; lia); try (injection S as <- <-; destruct K as (_ & K & _); exact K); try (eapply IH; [exact D|left; reflexivity|exact S]).
    - destruct (L element) as [[s' a']|] eqn:E'; [|discriminate]. injection S as <- <-. eapply IH; [exact D|left; reflexivity|exact E'].
    - unfold layout_of_fields in S. destruct (lay mc L is_union packed 0 aligned fields) as [[[ms st] al]|] eqn:Y; [|discriminate]. cbn in S. injection S as <- <-.
      apply lay_align in Y. destruct K as [K _]. lia.
  Qed.
  Lemma fields_fit t un pk al nm fs : declared P t (CAggregate un pk al nm fs) -> Forall aligned_ok fs.
  Proof. intro D. destruct (l_ok _ _ _ LG _ _ D) as (_ & _ & _ & F & _). eapply Forall_impl; [|exact F]. intros f (_ & _ & A & _). exact A. Qed.
  Lemma aggregate t un pk al nm fs : declared P t (CAggregate un pk al nm fs) -> exists ms s a,
    layout_of_fields mc L un pk al fs = Some (ms, (s, a)) /\ L t = Some (s, a) /\ Forall (placed_in L un 0 (8 * s) fs) ms /\
    map label ms = map f_label (filter is_member fs) /\ (un = false -> ForallOrdPairs (ordered L) ms) /\
    (has_bitfields fs = true -> 8 * s < 2 ^ 24).
  Proof.
    intro D. destruct (l_ok _ _ _ LG _ _ D) as (_ & AL & _ & F & s & a & S & B). pose proof S as S'. rewrite <- (L_is _ _ D) in S'. cbn [size_align] in S.
    destruct (layout_of_fields mc L un pk al fs) as [[ms [s' a']]|] eqn:Y; [|discriminate]. cbn in S. injection S as -> ->.
    destruct (layout_places mc L L_align _ _ _ _ _ _ _ (fields_fit _ _ _ _ _ _ D) AL Y) as (P1 & P2 & P3).
    exists ms, s, a. repeat (split; [first [reflexivity|assumption]|]). exact B.
  Qed.
  Lemma has_bitfields_in f fs w : In f fs -> is_member f = true -> f_width f = Some w -> has_bitfields fs = true.
  Proof. intros I M W. apply existsb_exists. exists f. split; [exact I|]. unfold is_member in M. rewrite W in *. destruct (f_name f); [reflexivity|discriminate]. Qed.
  Lemma describe_ok t d : declared P t d -> decl_ok (describe mc L (usually d) d).
  Proof.
    intro D. pose proof (l_ok _ _ _ LG _ _ D) as [N0 K]. unfold decl_ok.
    destruct d; cbn [describe usually w_flag w_value w_char w_boolean names c_name] in *; try (split; [first [assumption|constructor]|first [lia|exact K]]).
    - destruct K as (K0 & _ & K1 & K2). split; [|split; [lia|split]].
      + apply Forall_app. split; [exact N0|]. rewrite map_map. cbn. rewrite Forall_map. eapply Forall_impl; [|exact K2]. cbn. intros v [H _]. exact H.
      + unfold len. rewrite map_length. exact K1.
      + rewrite Forall_map. eapply Forall_impl; [|exact K2]. cbn beta. intros v [_ H]. destruct signed; (split; [reflexivity|]); [exact H|]. cbn [snd]. lia.
    - destruct K as (K0 & _ & K1 & K2). split; [|split; [lia|split]].
      + apply Forall_app. split; [exact N0|]. rewrite map_map. cbn. rewrite Forall_map. eapply Forall_impl; [|exact K2]. cbn. intros v [H _]. exact H.
      + unfold len. rewrite map_length. exact K1.
      + rewrite Forall_map. eapply Forall_impl; [|exact K2]. cbn beta. intros v [_ H]. destruct signed; (split; [reflexivity|]); [exact H|]. cbn [snd]. lia.
    - destruct K as (K1 & K2 & K3). split; [|split; [exact K1|split; [exact K2|]]].
      + apply Forall_flat_map. eapply Forall_impl; [|exact K3]. cbn. intros v [H _]. exact H.
      + eapply Forall_impl; [|exact K3]. cbn. intros v [_ H]. exact H.
    - destruct (aggregate _ _ _ _ _ _ D) as (ms & s & a & Y & Lt & PL & NM & _ & B). rewrite Y. destruct K as (_ & K1 & K2 & _).
      assert (S32 := l_small _ _ _ LG _ _ _ Lt).
      assert (MK : Forall (member_ok (has_bitfields fields)) ms).
      { apply Forall_forall. intros x I. rewrite Forall_forall in PL, K2. destruct (PL x I) as (f & s1 & a1 & If & Mf & E1 & E2 & E3 & E4).
        destruct (K2 f If) as (_ & F2 & _ & F3). split; [rewrite E2; exact F2|]. unfold offset_ok. destruct (f_width f) as [w|] eqn:W, (snd x) as [b|b w']; try contradiction.
        - destruct E4 as (-> & E4 & _). pose proof (has_bitfields_in _ _ _ If Mf W) as HB. specialize (B HB). destruct F3 as (_ & F3 & _). specialize (F3 Mf). split; [exact HB|]. lia.
        - destruct E4 as [E4 _]. destruct (has_bitfields fields) eqn:HB; [specialize (B eq_refl); lia|lia]. }
      assert (NN : Forall ascii_name (opt_name name ++ flat_map (fun m => opt_name (fst (fst m))) ms)).
      { apply Forall_app. split; [exact N0|]. apply Forall_flat_map. apply Forall_forall. intros x I. rewrite Forall_forall in PL, K2.
        destruct (PL x I) as (f & s1 & a1 & If & _ & E1 & _). rewrite E1. exact (proj1 (K2 f If)). }
      assert (LN : len ms < 2 ^ 16).
      { unfold len in *. rewrite <- (map_length label ms), NM, map_length. exact K1. }
      destruct is_union; (split; [exact NN|]); (split; [lia|]); split; assumption.
  Qed.
End Legal.

(** ** Type tags *)
Section Tags.
  Context (mc : machine) (P : program) (L : N -> option (N * N)).
  Lemma behind_mono t u : behind false P t u -> behind true P t u.
  Proof. intros (d & D & E). exists d. split; [exact D|]. destruct d; try contradiction; try assumption. destruct E; discriminate. Qed.
  Lemma c_is_mono t d : c_is false P t d -> c_is true P t d.
  Proof. intros (r & C & D). exists r. split; [|exact D]. clear D. induction C; [constructor|econstructor; [eapply behind_mono; eassumption|assumption]]. Qed.
  Lemma offers_mono n t : c_offers false P n t -> c_offers true P n t.
  Proof.
    induction 1; [eapply c_offers_member|eapply c_offers_anonymous]; eauto using c_is_mono.
  Qed.
  Lemma accounts_mono n f : c_accounts false P n f -> c_accounts true P n f.
  Proof. intros [A|(A & W & O)]; [left; exact A|right]. auto using offers_mono. Qed.
  Context (TB : tags_behind_pointers P).
  Lemma behind_plain t u : ~ is_tag P t -> behind true P t u -> behind false P t u /\ ~ is_tag P u.
  Proof.
    intros Z (d & D & E). split.
    - exists d. split; [exact D|]. destruct d; try contradiction; try assumption. destruct Z. do 2 eexists. exact D.
    - intro X. apply Z. refine (TB _ _ _ D _ X). destruct d; try contradiction; cbn; (left; (exact E || exact (proj2 E))).
  Qed.
  Lemma c_is_plain t d : ~ is_tag P t -> c_is true P t d -> c_is false P t d.
  Proof.
    intros Z (r & C & D). exists r. split; [|exact D]. clear D. induction C as [|a b r B C IH]; [constructor|].
    destruct (behind_plain _ _ Z B) as [B1 B2]. econstructor; [exact B1|apply IH; exact B2].
  Qed.
  Lemma member_plain t un pk al nm fs f : c_is true P t (CAggregate un pk al nm fs) -> In f fs -> ~ is_tag P (f_type f).
  Proof.
    intros (r & _ & D) I X. destruct (TB _ _ _ D (in_map _ _ _ I) X) as (n & u & D'). pose proof (declared_det _ _ _ _ D D'). discriminate.
  Qed.
  Lemma element_plain t e x n : c_is true P t (CArray e x n) -> ~ is_tag P e.
  Proof. intros (r & _ & D) X. destruct (TB _ _ _ D (or_introl eq_refl) X) as (? & ? & D'). pose proof (declared_det _ _ _ _ D D'). discriminate. Qed.
  Lemma offers_plain n t : ~ is_tag P t -> c_offers true P n t -> c_offers false P n t.
  Proof.
    intros Z H. induction H as [t un pk al nm fs f Ct If E|t un pk al nm fs f Ct If E W O IH].
    - eapply c_offers_member; eauto using c_is_plain.
    - eapply c_offers_anonymous; eauto using c_is_plain, member_plain.
  Qed.
  Lemma lay_types un pk al fs ms sa n v o : layout_of_fields mc L un pk al fs = Some (ms, sa) -> In (n, v, o) ms -> exists f, In f fs /\ f_type f = v.
  Proof.
    unfold layout_of_fields. destruct (lay mc L un pk 0 al fs) as [[[ms' st] al']|] eqn:K; [|discriminate]. intro E. injection E as <- _. intro I.
    apply (in_map label) in I. rewrite (lay_names _ _ _ _ _ _ _ _ _ _ K) in I. apply in_map_iff in I. destruct I as (f & E & I). apply filter_In in I.
    injection E as _ E. exists f. split; [exact (proj1 I)|exact E].
  Qed.
  Lemma designates_mono sz t cs u o : reaches false sz mc P L t cs u o -> reaches true sz mc P L t cs u o.
  Proof.
    induction 1; [constructor|eapply d_element|eapply d_member|eapply d_bitfield|eapply d_anonymous]; eauto using c_is_mono.
  Qed.
  Lemma designates_plain sz t cs u o : ~ is_tag P t -> reaches true sz mc P L t cs u o -> reaches false sz mc P L t cs u o.
  Proof.
    intros Z H. induction H as [t|t e x n i cs s u o Ct Hi S _ IH|t un pk al nm fs ms sa n v b cs u o Ct Y I _ IH|t un pk al nm fs ms sa n v b w Ct Y I|t un pk al nm fs ms sa n v b cs u o Ct Y I _ IH].
    - constructor.
    - eapply d_element; eauto using c_is_plain, element_plain.
    - destruct (lay_types _ _ _ _ _ _ _ _ _ Y I) as (f & If & <-). eapply d_member; eauto using c_is_plain, member_plain.
    - eapply d_bitfield; eauto using c_is_plain.
    - destruct (lay_types _ _ _ _ _ _ _ _ _ Y I) as (f & If & <-). eapply d_anonymous; eauto using c_is_plain, member_plain.
  Qed.
End Tags.

(** ** The table of a program *)
Record table_describes (ti : type_information) (mc : machine) (P : program) (L : N -> option (N * N)) : Prop := {
  td_void : from_id ti 0 = Some TVoid;
  td_has : forall t d, declared P t d -> exists ty x, from_id ti t = Some ty /\ view ty = Some (describe mc L x d);
  td_only : forall t ty, from_id ti t = Some ty -> (t = 0 /\ ty = TVoid) \/ exists d x, declared P t d /\ view ty = Some (describe mc L x d);
  td_list_head : forall h d, declared P h d -> c_name d = Some list_head_str ->
    (forall t d', declared P t d' -> c_name d' = Some list_head_str -> t = h) -> id_of ti list_head_str = Some h }.
Definition seen_member (m : member) : option str * N * offset := (m_name m, m_tid m, m_offset m).

Section Table.
  Context (ti : type_information) (mc : machine) (P : program) (L : N -> option (N * N)) (LG : lawful mc P L) (TD : table_describes ti mc P L).
  Lemma zero_not_declared d : ~ declared P 0 d.
  Proof. intros [H _]. lia. Qed.
  (** the types of the table *)
  Lemma only t ty : from_id ti t = Some ty -> t <> 0 -> exists d x, declared P t d /\ view ty = Some (describe mc L x d).
  Proof. intros F T. destruct (td_only _ _ _ _ TD _ _ F) as [[E _]|H]; [contradiction|exact H]. Qed.
  Lemma from_qualified t ty u : from_id ti t = Some ty -> qualified ty u -> behind false P t u.
  Proof.
    intros F Q. destruct (td_only _ _ _ _ TD _ _ F) as [[_ ->]|(d & w & D & V)]; [contradiction|]. exists d. split; [exact D|].
    destruct ty; cbn in Q; try contradiction; cbn [view] in V; destruct d; cbn [describe] in V; try discriminate V;
      try (destruct (layout_of_fields mc L is_union packed aligned fields) as [[? [? ?]]|]; destruct is_union; discriminate V);
      injection V; intros; congruence.
  Qed.
  Lemma to_qualified t u : behind false P t u -> exists ty, from_id ti t = Some ty /\ qualified ty u.
  Proof.
    intros (d & D & E). destruct (td_has _ _ _ _ TD _ _ D) as (ty & w & F & V). exists ty. split; [exact F|].
    destruct d; try contradiction; try (destruct E; discriminate); subst; destruct ty; cbn [view describe] in V; try discriminate V; cbn; injection V; intros; congruence.
  Qed.
  Lemma incomplete_target t h d : from_id ti t = Some (TFwd h d) -> nl_tid d = 0.
  Proof.
    intro F. destruct (td_only _ _ _ _ TD _ _ F) as [[_ X]|(cd & w & D & V)]; [discriminate X|].
    destruct cd; cbn [view describe] in V; try discriminate V.
    - injection V; intros; congruence.
    - destruct (aggregate _ _ _ LG _ _ _ _ _ _ D) as (ms & s & a & Y & _). rewrite Y in V. destruct is_union; discriminate V.
  Qed.
  Lemma transparent_from t u : transparent ti t u -> behind false P t u \/ u = 0.
  Proof.
    intros (ty & F & [Q|(h & d & -> & E)]); [left; exact (from_qualified _ _ _ F Q)|right]. rewrite <- E. eapply incomplete_target; eauto.
  Qed.
  Lemma transparent_to t u : behind false P t u -> transparent ti t u.
  Proof. intro B. destruct (to_qualified _ _ B) as (ty & F & Q). exists ty. split; [exact F|left; exact Q]. Qed.
  Lemma void_is ty : is ti 0 ty -> ty = TVoid.
  Proof.
    intros (r & C & F & _). pose proof (td_void _ _ _ _ TD) as Z. inversion C as [|x u v T]; subst; [congruence|].
    destruct T as (ty' & F' & [Q|(h & d & -> & _)]); rewrite Z in F'; [injection F' as <-; contradiction|discriminate].
  Qed.
  Lemma is_from t ty : is ti t ty -> ty = TVoid \/ exists r, chain (behind false P) t r /\ from_id ti r = Some ty.
  Proof.
    intros (r & C & O). revert ty O. induction C as [t|t u v T C IH]; intros ty O; [right; exists t; split; [constructor|exact (proj1 O)]|].
    destruct (transparent_from _ _ T) as [B| ->].
    - destruct (IH ty O) as [E|(r & C' & F)]; [left; exact E|right; exists r; split; [econstructor; eauto|exact F]].
    - left. apply void_is. exists v. split; assumption.
  Qed.
  Lemma is_to t r ty : chain (behind false P) t r -> from_id ti r = Some ty -> (forall u, ~ qualified ty u) -> (forall h d, ty <> TFwd h d) -> is ti t ty.
  Proof.
    intros C F Q W. exists r. split.
    - clear F. induction C; [constructor|econstructor; [apply transparent_to; eassumption|assumption]].
    - split; [exact F|]. intros u (ty' & F' & [Q'|(h & d & E & _)]); rewrite F in F'; injection F' as <-; [exact (Q _ Q')|exact (W _ _ E)].
  Qed.
  (** arrays *)
  Lemma array_from t h d : from_id ti t = Some (TArray h d) -> declared P t (CArray (element_tid d) (index_tid d) (element_count d)).
  Proof.
    intro F. destruct (td_only _ _ _ _ TD _ _ F) as [[_ X]|(cd & w & D & V)]; [discriminate X|].
    destruct cd; cbn [view describe] in V; try discriminate V.
    - injection V as -> -> ->. exact D.
    - destruct (layout_of_fields mc L is_union packed aligned fields) as [[? [? ?]]|]; destruct is_union; discriminate V.
  Qed.
  Lemma array_to t e x n : declared P t (CArray e x n) -> exists h d, from_id ti t = Some (TArray h d) /\ element_tid d = e /\ element_count d = n.
  Proof.
    intro D. destruct (td_has _ _ _ _ TD _ _ D) as (ty & w & F & V). destruct ty; cbn [view describe] in V; try discriminate V.
    injection V as E1 _ E3. do 2 eexists. split; [exact F|]. split; assumption.
  Qed.
  Lemma is_array_from t h d : is ti t (TArray h d) -> c_is false P t (CArray (element_tid d) (index_tid d) (element_count d)).
  Proof. intro I. destruct (is_from _ _ I) as [X|(r & C & F)]; [discriminate X|]. exists r. split; [exact C|]. apply (array_from _ _ _ F). Qed.
  Lemma is_array_to t e x n : c_is false P t (CArray e x n) -> exists h d, is ti t (TArray h d) /\ element_tid d = e /\ element_count d = n.
  Proof.
    intros (r & C & D). destruct (array_to _ _ _ _ D) as (h & d & F & E). exists h, d. split; [|exact E].
    apply (is_to _ _ _ C F); [intros u []|discriminate].
  Qed.
  (** structs and unions *)
  Lemma members_from t ty mem : from_id ti t = Some ty -> members_of ty mem -> exists un pk al nm fs s a,
    declared P t (CAggregate un pk al nm fs) /\ layout_of_fields mc L un pk al fs = Some (map seen_member mem, (s, a)) /\ L t = Some (s, a) /\ stored_size ty s /\
    (if un then exists h d, ty = TUnion h d else exists h d, ty = TStruct h d).
  Proof.
    intros F M. destruct (td_only _ _ _ _ TD _ _ F) as [[_ ->]|(cd & w & D & V)]; [contradiction|].
    destruct ty; cbn in M; try contradiction; subst mem; destruct cd; cbn [view describe] in V; try discriminate V;
      destruct (aggregate _ _ _ LG _ _ _ _ _ _ D) as (ms & s & a & Y & Lt & _); rewrite Y in V; destruct is_union; try discriminate V;
      injection V as V1 V2 V3 V4; do 7 eexists; (split; [exact D|]); unfold seen_member; rewrite V4; (split; [exact Y|]); (split; [exact Lt|]); (split; [cbn; exact V2|]);
      eauto.
  Qed.
  Lemma members_to t un pk al nm fs : declared P t (CAggregate un pk al nm fs) -> exists ty mem ms s a, from_id ti t = Some ty /\ members_of ty mem /\
    layout_of_fields mc L un pk al fs = Some (ms, (s, a)) /\ map seen_member mem = ms.
  Proof.
    intro D. destruct (td_has _ _ _ _ TD _ _ D) as (ty & w & F & V). cbn [describe] in V.
    destruct (aggregate _ _ _ LG _ _ _ _ _ _ D) as (ms & s & a & Y & _). rewrite Y in V.
    destruct un; destruct ty; cbn [view] in V; try discriminate V; injection V as V1 V2 V3 V4; do 5 eexists; (split; [exact F|]); (split; [reflexivity|]); (split; [exact Y|exact V4]).
  Qed.
  Lemma is_members_from t ty mem : is ti t ty -> members_of ty mem -> exists r un pk al nm fs s a, chain (behind false P) t r /\
    from_id ti r = Some ty /\ declared P r (CAggregate un pk al nm fs) /\ layout_of_fields mc L un pk al fs = Some (map seen_member mem, (s, a)).
  Proof.
    intros I M. destruct (is_from _ _ I) as [->|(r & C & F)]; [contradiction|]. destruct (members_from _ _ _ F M) as (un & pk & al & nm & fs & s & a & D & Y & _).
    exists r, un, pk, al, nm, fs, s, a. repeat (split; [assumption|]). assumption.
  Qed.
  Lemma is_members_to t un pk al nm fs ms sa : c_is false P t (CAggregate un pk al nm fs) -> layout_of_fields mc L un pk al fs = Some (ms, sa) ->
    exists ty mem, is ti t ty /\ members_of ty mem /\ map seen_member mem = ms.
  Proof.
    intros (r & C & D) Y. destruct (members_to _ _ _ _ _ _ D) as (ty & mem & ms' & s & a & F & M & Y' & E). rewrite Y in Y'. injection Y' as <- ->.
    exists ty, mem. split; [|split; assumption]. apply (is_to _ _ _ C F).
    - intros u Q. destruct ty; try contradiction.
    - intros h d ->. contradiction.
  Qed.
End Table.
(** What list_head says about pointers, if it says anything, is right. *)
Definition pointers_right (ti : type_information) (mc : machine) (P : program) : Prop :=
  forall t u, declared P t (CPointer u) -> forall s, pointer_sized ti s -> s = pointer_bytes mc.
(** The size is that of a struct, union, number ... or the size of a pointer is known. *)
Definition measurable (ti : type_information) (P : program) (t : N) : Prop := (exists s, pointer_sized ti s) \/ ~ of_pointers P t.
Section Sizes.
  Context (ti : type_information) (mc : machine) (P : program) (L : N -> option (N * N)) (LG : lawful mc P L) (TD : table_describes ti mc P L) (PS : pointers_right ti mc P).
  Lemma pointer_from t h d : from_id ti t = Some (TPtr h d) -> declared P t (CPointer (link_tid d)).
  Proof.
    intro F. destruct (td_only _ _ _ _ TD _ _ F) as [[_ X]|(cd & w & D & V)]; [discriminate X|].
    destruct cd; cbn [view describe] in V; try discriminate V.
    - injection V as ->. exact D.
    - destruct (layout_of_fields mc L is_union packed aligned fields) as [[? [? ?]]|]; destruct is_union; discriminate V.
  Qed.
  Lemma pointer_size : has_list_head P -> forall s, pointer_sized ti s <-> s = pointer_bytes mc.
  Proof.
    intros HL s. destruct HL as (h & f & g & p & q & Dh & Df & Wf & Af & Dg & Wg & Ag & U).
    assert (ID : id_of ti list_head_str = Some h) by (eapply td_list_head; [exact TD|exact Dh|reflexivity|exact U]).
    destruct (l_machine _ _ _ LG) as [M1 [k M2]]. set (b := pointer_bytes mc) in *. set (al := pointer_align mc) in *.
    assert (RU : forall x, round_up (x * al) al = x * al).
    { intro x. unfold round_up. replace (x * al + al - 1) with (x * al + (al - 1)) by lia. rewrite N.div_add_l by lia. rewrite N.div_small by lia. lia. }
    assert (RU8 : round_up (8 * b) (8 * al) = 8 * b).
    { unfold round_up. rewrite M2. replace (8 * (k * al) + 8 * al - 1) with (k * (8 * al) + (8 * al - 1)) by lia. rewrite N.div_add_l by lia. rewrite N.div_small by lia. lia. }
    assert (R0 : round_up 0 (8 * al) = 0).
    { unfold round_up. rewrite N.div_small by lia. reflexivity. }
    assert (SZ : layout_of_fields mc L false false 1 [f; g] = Some ([(f_name f, f_type f, ByteOffset 0); (f_name g, f_type g, ByteOffset b)], (2 * b, al))).
    { assert (If : is_member f = true) by (unfold is_member; rewrite Wf; destruct (f_name f); reflexivity).
      assert (Ig : is_member g = true) by (unfold is_member; rewrite Wg; destruct (f_name g); reflexivity).
      assert (AO : forall x, f_width x = None -> f_align x = 1 -> align_of mc false al x = al) by (intros x Wx Ax; unfold align_of; rewrite Wx, Ax; lia).
      unfold layout_of_fields. cbn [lay]. rewrite (L_is _ _ _ LG _ _ Df), (L_is _ _ _ LG _ _ Dg). cbn [size_align]. fold b al. rewrite If, Ig.
      unfold starts, where_, takes_bits. rewrite Wf, Wg, (AO f Wf Af), (AO g Wg Ag), R0. cbn [app]. rewrite N.add_0_l, RU8, N.div_0_l by lia.
      replace (8 * b / 8) with b by (rewrite N.mul_comm, N.div_mul by lia; reflexivity).
      replace (N.max (N.max 1 al) al) with al by lia.
      replace ((8 * b + 8 * b + 7) / 8) with (2 * k * al) by (rewrite M2; replace (8 * (k * al) + 8 * (k * al) + 7) with (2 * k * al * 8 + 7) by lia; rewrite N.div_add_l by lia; rewrite N.div_small by lia; lia).
      rewrite RU. rewrite M2. f_equal. f_equal. f_equal. lia. }
    destruct (td_has _ _ _ _ TD _ _ Dh) as (ty & w & F & V). cbn [describe] in V. rewrite SZ in V. destruct ty; cbn [view] in V; try discriminate V.
    injection V as _ V2 _ _. assert (HB : struct_size d / 2 = b) by (rewrite V2, N.mul_comm, N.div_mul by lia; reflexivity). split.
    - intros (lh & hd' & d' & I & F' & E). rewrite ID in I. injection I as <-. rewrite F in F'. injection F' as <- <-. rewrite E. exact HB.
    - intros ->. do 3 eexists. split; [exact ID|]. split; [exact F|]. symmetry. exact HB.
  Qed.
  Lemma stored_from t ty s : from_id ti t = Some ty -> stored_size ty s -> exists a, L t = Some (s, a).
  Proof.
    intros F S. destruct (td_only _ _ _ _ TD _ _ F) as [[_ ->]|(cd & w & D & V)]; [contradiction|].
    destruct ty; cbn in S; try contradiction;
      try (destruct (members_from _ _ _ _ LG TD _ _ _ F eq_refl) as (un & pk & al & nm & fs & s' & a & _ & _ & E & S' & _); cbn in S'; exists a; congruence);
      rewrite (L_is _ _ _ LG _ _ D); destruct cd; cbn [view describe] in V; try discriminate V;
      try (destruct (layout_of_fields mc L is_union packed aligned fields) as [[? [? ?]]|]; destruct is_union; discriminate V);
      cbn [size_align]; injection V; intros; eexists; (reflexivity || (subst; reflexivity) || (f_equal; f_equal; congruence)).
  Qed.
  Lemma size_alias_from t u : size_alias ti t u -> size_behind P t u.
  Proof.
    intros (ty & F & Q). destruct (td_only _ _ _ _ TD _ _ F) as [[_ ->]|(cd & w & D & V)].
    - destruct Q as [[]|[(h & d & X & _)|(h & d & X & _)]]; discriminate.
    - exists cd. split; [exact D|]. destruct Q as [Q|[(h & d & -> & <-)|(h & d & -> & <-)]].
      + destruct (from_qualified _ _ _ _ TD _ _ _ F Q) as (d' & D' & X). rewrite (declared_det _ _ _ _ D D'). destruct d'; try contradiction; try assumption. destruct X; discriminate.
      + destruct cd; cbn [view describe] in V; try discriminate V;
          try (destruct (layout_of_fields mc L is_union packed aligned fields) as [[? [? ?]]|]; destruct is_union; discriminate V). injection V; intros; congruence.
      + destruct cd; cbn [view describe] in V; try discriminate V;
          try (destruct (layout_of_fields mc L is_union packed aligned fields) as [[? [? ?]]|]; destruct is_union; discriminate V). injection V; intros; congruence.
  Qed.
  Lemma size_alias_to t u : size_behind P t u -> size_alias ti t u.
  Proof.
    intros (d & D & E). destruct (td_has _ _ _ _ TD _ _ D) as (ty & w & F & V). exists ty. split; [exact F|].
    destruct d; try contradiction; subst; destruct ty; cbn [view describe] in V; try discriminate V; injection V; intros; eauto 8.
  Qed.
  Lemma behind_size t u : size_behind P t u -> L t = L u.
  Proof. intros (d & D & E). rewrite (L_is _ _ _ LG _ _ D). destruct d; try contradiction; subst; reflexivity. Qed.
  Lemma points_to_pointers t d : of_pointers P t -> declared P t d ->
    match d with
    | CPointer _ => True
    | CArray e _ _ => of_pointers P e
    | CTypedef _ u | CConst u | CVolatile u | CRestrict u | CTag _ u | CVariable _ u _ => of_pointers P u
    | _ => False
    end.
  Proof.
    intros O D. destruct O as [t u D'|t u (d' & D' & E) O|t e x n D' O]; rewrite (declared_det _ _ _ _ D D'); [exact I| |exact O].
    destruct d'; try contradiction; subst; exact O.
  Qed.
  Lemma size_from t s : size ti t s -> (exists a, L t = Some (s, a)) /\ measurable ti P t.
  Proof.
    unfold size. induction 1 as [t ty s F S|t h d s F S|t e n s A S IH _|t u s A S IH].
    - split; [eapply stored_from; eauto|right]. intro O. destruct (td_only _ _ _ _ TD _ _ F) as [[_ ->]|(d & w & D & V)]; [contradiction|].
      pose proof (points_to_pointers _ _ O D) as X. destruct d; try contradiction; destruct ty; cbn [view describe] in V; try discriminate V; contradiction.
    - pose proof (pointer_from _ _ _ F) as D. split; [exists (pointer_align mc)|left; eauto]. rewrite (L_is _ _ _ LG _ _ D). rewrite (PS _ _ D _ S). reflexivity.
    - destruct A as (h & d & F & <- & <-). pose proof (array_from _ _ _ _ TD _ _ _ F) as D. destruct IH as [[a E] M]. split.
      + exists a. rewrite (L_is _ _ _ LG _ _ D). cbn [size_align]. rewrite E. reflexivity.
      + destruct M as [M|M]; [left; exact M|right]. intro O. exact (M (points_to_pointers _ _ O D)).
    - apply size_alias_from in A. rewrite (behind_size _ _ A). destruct IH as [E [M|M]]; (split; [exact E|]); [left; exact M|right]. intro O. apply M.
      destruct A as (d & D & X). pose proof (points_to_pointers _ _ O D) as Y. destruct d; try contradiction; subst; exact Y.
  Qed.
  Lemma size_fits_if (Q : N -> Prop) : (forall n, n < 2 ^ 32 -> Q n) -> forall t s a, L t = Some (s, a) -> (of_pointers P t -> pointer_sized ti (pointer_bytes mc)) -> has_size ti Q t s.
  Proof.
    clear PS. intro HQ. apply (by_rank _ _ _ LG (fun t => forall s a, L t = Some (s, a) -> (of_pointers P t -> pointer_sized ti (pointer_bytes mc)) -> has_size ti Q t s)). intros t IH s a E MS.
    destruct (L_declared _ _ _ LG _ _ E) as (d & D & S). destruct (td_has _ _ _ _ TD _ _ D) as (ty & w & F & V). specialize (IH d).
    assert (LK : forall u, size_behind P t u -> has_size ti Q t s).
    { intros u B. eapply size_same; [exact (size_alias_to _ _ B)|]. rewrite (behind_size _ _ B) in E. eapply IH; [exact D| |exact E|].
      - destruct B as (d' & D' & X). rewrite <- (declared_det _ _ _ _ D D') in X. destruct d; try contradiction; subst; left; reflexivity.
      - intro O. apply MS. eapply op_behind; eauto. }
    destruct d; cbn [size_align] in S; try discriminate S;
      try (eapply LK; eexists; split; [exact D|reflexivity]);
      try (injection S as <- <-; destruct ty; cbn [view describe] in V; try discriminate V; injection V; intros; eapply size_stored; [exact F|]; assumption).
    - injection S as <- <-. destruct ty; cbn [view describe] in V; try discriminate V. eapply size_pointer; [exact F|].
      apply MS. eapply op_pointer; exact D.
    - destruct (L element) as [[s' a']|] eqn:E'; [|discriminate]. injection S as <- <-. destruct ty; cbn [view describe] in V; try discriminate V. injection V as V1 V2 V3. subst element index count.
      eapply size_array; [do 2 eexists; split; [exact F|split; reflexivity]| |].
      + eapply IH; [exact D|left; reflexivity|exact E'|]. intro O. apply MS. eapply op_array; eauto.
      + apply HQ. pose proof (l_small _ _ _ LG _ _ _ E). lia.
    - destruct (members_to _ _ _ _ LG TD _ _ _ _ _ _ D) as (ty' & mem & ms & s' & a' & F' & M & Y & _). rewrite F in F'. injection F' as <-.
      destruct (members_from _ _ _ _ LG TD _ _ _ F M) as (un & pk & al & nm & fs & s2 & a2 & _ & _ & E2 & S2 & _). rewrite E in E2. injection E2 as <- <-.
      eapply size_stored; eassumption.
  Qed.
  Lemma some_pointer t : of_pointers P t -> exists p u, declared P p (CPointer u).
  Proof. induction 1; eauto. Qed.
  Lemma size_fits (Q : N -> Prop) : (forall n, n < 2 ^ 32 -> Q n) -> forall t s a, L t = Some (s, a) -> measurable ti P t -> has_size ti Q t s.
  Proof.
    intros HQ t s a E MS. eapply size_fits_if; [exact HQ|exact E|]. intro O. destruct (some_pointer _ O) as (p & u & D). destruct MS as [[z Z]|MS]; [|destruct (MS O)].
    rewrite <- (PS _ _ D _ Z). exact Z.
  Qed.
  Lemma size_iff t s : size ti t s <-> (exists a, L t = Some (s, a)) /\ measurable ti P t.
  Proof. split; [apply size_from|]. intros [[a E] M]. eapply size_fits; [|exact E|exact M]. intros; exact I. Qed.
End Sizes.
Section Shape.
  Context (ti : type_information) (mc : machine) (P : program) (L : N -> option (N * N)) (LG : lawful mc P L) (TD : table_describes ti mc P L) (PS : pointers_right ti mc P).
  Lemma filter_nth {A} (p : A -> bool) : forall l i x, nth_error (filter p l) i = Some x ->
    exists k, nth_error l k = Some x /\ i = length (filter p (firstn k l)) /\ p x = true.
  Proof.
    induction l as [|y l IH]; intros i x E; [destruct i; discriminate|]. cbn [filter] in E. destruct (p y) eqn:Py.
    - destruct i as [|i]; cbn in E.
      + injection E as <-. exists 0%nat. auto.
      + destruct (IH _ _ E) as (k & Nk & -> & Px). exists (S k). cbn. rewrite Py. auto.
    - destruct (IH _ _ E) as (k & Nk & -> & Px). exists (S k). cbn. rewrite Py. auto.
  Qed.
  Lemma nth_members mem ms fs i m : map seen_member mem = ms -> map label ms = map f_label (filter is_member fs) ->
    nth_error mem i = Some m -> exists f k, nth_error fs k = Some f /\ i = length (filter is_member (firstn k fs)) /\ is_member f = true /\ f_name f = m_name m /\ f_type f = m_tid m.
  Proof.
    intros E1 E2 Nm. apply (map_nth_error seen_member) in Nm. rewrite E1 in Nm. apply (map_nth_error label) in Nm. rewrite E2 in Nm.
    rewrite nth_error_map in Nm. destruct (nth_error (filter is_member fs) i) as [f|] eqn:Nf; [|discriminate]. cbn in Nm. injection Nm as <- <-.
    destruct (filter_nth _ _ _ _ Nf) as (k & Nk & Ek & Mf). exists f, k. repeat (split; [assumption|]). split; reflexivity.
  Qed.
  Lemma member_field mem m un pk al nm fs t s a : declared P t (CAggregate un pk al nm fs) -> layout_of_fields mc L un pk al fs = Some (map seen_member mem, (s, a)) -> In m mem ->
    exists f i k, nth_error fs k = Some f /\ nth_error mem i = Some m /\ i = length (filter is_member (firstn k fs)) /\ In f fs /\ is_member f = true /\ f_name f = m_name m /\ f_type f = m_tid m.
  Proof.
    intros D Y I. destruct (aggregate _ _ _ LG _ _ _ _ _ _ D) as (ms & s' & a' & Y' & _ & _ & NM & _). rewrite Y in Y'. injection Y' as E _ _.
    destruct (In_nth_error _ _ I) as [i Ni]. destruct (nth_members mem ms fs i m E NM Ni) as (f & k & Nf & Ek & Mf & E1 & E2).
    exists f, i, k. repeat (split; [eassumption|]). split; [exact (nth_error_In _ _ Nf)|]. split; [exact Mf|]. split; assumption.
  Qed.
  Lemma member_place mem m un pk al nm fs t s a : declared P t (CAggregate un pk al nm fs) -> layout_of_fields mc L un pk al fs = Some (map seen_member mem, (s, a)) -> In m mem ->
    placed_in L un 0 (8 * s) fs (seen_member m).
  Proof.
    intros D Y I. destruct (aggregate _ _ _ LG _ _ _ _ _ _ D) as (ms & s' & a' & Y' & _ & PL & _). rewrite Y in Y'. injection Y' as E <- <-.
    rewrite Forall_forall in PL. apply PL. rewrite <- E. apply in_map. exact I.
  Qed.
  (** no cycles *)
  Lemma link_down t u : link ti t u -> (t <> 0 /\ u = 0) \/ exists d, declared P t d /\ In u (refers d).
  Proof.
    assert (B : forall u, behind false P t u -> exists d, declared P t d /\ In u (refers d)).
    { intros v (d & D & E). exists d. split; [exact D|]. destruct d; try contradiction; try (destruct E; discriminate); subst; left; reflexivity. }
    assert (B' : forall u, size_behind P t u -> exists d, declared P t d /\ In u (refers d)).
    { intros v (d & D & E). exists d. split; [exact D|]. destruct d; try contradiction; subst; left; reflexivity. }
    intros [T|[[A|(n & h & d & F & <- & <-)]|(ty & ms & m & F & M & I & _ & <-)]].
    - destruct (transparent_from _ _ _ _ LG TD _ _ T) as [X| ->]; [right; auto|left]. split; [|reflexivity]. intros ->.
      destruct T as (ty & F & Q). rewrite (td_void _ _ _ _ TD) in F. injection F as <-. destruct Q as [[]|(? & ? & X & _)]. discriminate.
    - right. apply B'. eapply size_alias_from; eauto.
    - right. eexists. split; [eapply array_from; eauto|left; reflexivity].
    - right. destruct (members_from _ _ _ _ LG TD _ _ _ F M) as (un & pk & al & nm & fs & s & a & D & Y & _).
      destruct (member_field _ _ _ _ _ _ _ _ _ _ D Y I) as (f & i & k & _ & _ & _ & If & _ & _ & Et). exists (CAggregate un pk al nm fs). split; [exact D|]. cbn. rewrite <- Et. apply in_map. exact If.
  Qed.
  Lemma no_link_0 u : ~ link ti 0 u.
  Proof. intro K. destruct (link_down _ _ K) as [[X _]|(d & D & _)]; [congruence|]. exact (zero_not_declared _ _ D). Qed.
  Lemma c_acyclic : acyclic ti.
  Proof.
    intros t (f & <- & K). destruct (l_circles _ _ _ LG) as [rank R].
    assert (Z : forall n, exists d, declared P (f n) d /\ In (f (S n)) (refers d)).
    { intro n. destruct (link_down _ _ (K n)) as [[_ E]|H]; [|exact H]. exfalso. apply (no_link_0 (f (S (S n)))). rewrite <- E. apply K. }
    assert (W : forall n, (rank (f n) + n <= rank (f O))%nat).
    { induction n as [|n IH]; [lia|]. destruct (Z n) as (d & D & I). pose proof (R _ _ _ D I). lia. }
    specialize (W (S (rank (f O)))). lia.
  Qed.
  Lemma c_sizes_fit c : 32 <= usize_bits c -> sizes_fit c ti.
  Proof.
    intros U t s S. destruct (size_from _ _ _ _ LG TD PS _ _ S) as [[a E] M]. eapply size_fits; [exact LG|exact TD|exact PS| |exact E|exact M].
    intros n Hn. eapply N.lt_le_trans; [exact Hn|]. apply N.pow_le_mono_r; [discriminate|exact U].
  Qed.
  Lemma c_anonymous : anonymous_in_bytes ti.
  Proof.
    intros t ty ms m F M I En. destruct (members_from _ _ _ _ LG TD _ _ _ F M) as (un & pk & al & nm & fs & s & a & D & Y & _).
    destruct (member_place _ _ _ _ _ _ _ _ _ _ D Y I) as (f & s' & a' & If & Mf & E1 & _ & _ & E4). cbn in E1, E4. rewrite En in E1.
    unfold is_member in Mf. rewrite <- E1 in Mf.
    destruct (f_width f) as [w|]; [discriminate Mf|]. destruct (m_offset m) as [b|]; [eauto|contradiction].
  Qed.
  Lemma offers_from n t : offers ti n t -> c_offers false P n t.
  Proof.
    induction 1 as [t ty ms m It M I E|t ty ms m It M I E _ IH].
    - destruct (is_members_from _ _ _ _ LG TD _ _ _ It M) as (r & un & pk & al & nm & fs & s & a & C & F & D & Y).
      destruct (member_field _ _ _ _ _ _ _ _ _ _ D Y I) as (f & i & k & _ & _ & _ & If & Mf & En & Et).
      eapply c_offers_member; [exists r; split; [exact C|exact D]|exact If|congruence].
    - destruct (is_members_from _ _ _ _ LG TD _ _ _ It M) as (r & un & pk & al & nm & fs & s & a & C & F & D & Y).
      destruct (member_field _ _ _ _ _ _ _ _ _ _ D Y I) as (f & i & k & _ & _ & _ & If & Mf & En & Et).
      eapply c_offers_anonymous; [exists r; split; [exact C|exact D]|exact If|congruence| |rewrite Et; exact IH].
      unfold is_member in Mf. rewrite En, E in Mf. destruct (f_width f); [discriminate Mf|reflexivity].
  Qed.
  Lemma c_unambiguous : unambiguous ti.
  Proof.
    intros t ty ms n m1 m2 It M I1 I2 A1 A2. destruct (is_members_from _ _ _ _ LG TD _ _ _ It M) as (r & un & pk & al & nm & fs & s & a & C & F & D & Y).
    destruct (member_field _ _ _ _ _ _ _ _ _ _ D Y I1) as (f & i & k & Ni & Mi & Ei & _ & Mf & En & Et).
    destruct (member_field _ _ _ _ _ _ _ _ _ _ D Y I2) as (g & j & k' & Nj & Mj & Ej & _ & Mg & Gn & Gt).
    assert (X : forall f0 m0, is_member f0 = true -> f_name f0 = m_name m0 -> f_type f0 = m_tid m0 -> accounts ti n m0 -> c_accounts false P n f0).
    { intros f0 m0 M0 E0 T0 [A|[A A']]; [left; rewrite E0; exact A|right]. split; [rewrite E0; exact A|].
      split; [unfold is_member in M0; rewrite E0, A in M0; destruct (f_width f0); [discriminate M0|reflexivity]|]. rewrite T0. apply offers_from. exact A'. }
    assert (k = k'); [|subst; congruence]. eapply (l_distinct _ _ _ LG); [exact D|exact Ni|exact Nj|eapply accounts_mono, X; eauto|eapply accounts_mono, X; eauto].
  Qed.
  Lemma first_named ms n m : In m ms -> m_name m = Some n -> exists m', named ms n m'.
  Proof.
    intros I E. destruct (find (has_name n) ms) as [m'|] eqn:Ef; [exists m'; apply find_named; exact Ef|].
    exfalso. pose proof (find_none _ _ Ef _ I) as X. assert (has_name n m = true) by (apply has_name_iff; exact E). congruence.
  Qed.
  Lemma named_here t ty ms n m : is ti t ty -> members_of ty ms -> In m ms -> m_name m = Some n -> named ms n m.
  Proof.
    intros It M I E. destruct (first_named _ _ _ I E) as [m' Nm]. assert (X := Nm). destruct X as (ms1 & ms2 & -> & E' & _).
    assert (m' = m) as <-; [|exact Nm]. eapply c_unambiguous; [exact It|exact M|apply in_elt|exact I|left; exact E'|left; exact E].
  Qed.
  Lemma designates_iff sz t cs u o : leads ti sz t cs u o <-> reaches false sz mc P L t cs u o.
  Proof.
    split.
    - induction 1 as [t|t h d i s cs u o It Hi S _ IH|t ty ms n m b cs u o It M Nm Em _ IH|t ty ms n m b z It M Nm Em|t ty ms n m b cs u o It M Im En Em _ IH].
      + constructor.
      + eapply d_element; [eapply is_array_from; eauto|exact Hi|exact S|exact IH].
      + destruct (is_members_from _ _ _ _ LG TD _ _ _ It M) as (r & un & pk & al & nm & fs & s & a & C & F & D & Y).
        destruct Nm as (ms1 & ms2 & -> & E & _).
        eapply d_member; [exists r; split; [exact C|exact D]|exact Y| |exact IH]. apply in_map_iff. exists m. split; [unfold seen_member; rewrite E, Em; reflexivity|apply in_elt].
      + destruct (is_members_from _ _ _ _ LG TD _ _ _ It M) as (r & un & pk & al & nm & fs & s & a & C & F & D & Y).
        destruct Nm as (ms1 & ms2 & -> & E & _).
        eapply d_bitfield; [exists r; split; [exact C|exact D]|exact Y|]. apply in_map_iff. exists m. split; [unfold seen_member; rewrite E, Em; reflexivity|apply in_elt].
      + destruct (is_members_from _ _ _ _ LG TD _ _ _ It M) as (r & un & pk & al & nm & fs & s & a & C & F & D & Y).
        eapply d_anonymous; [exists r; split; [exact C|exact D]|exact Y| |exact IH]. apply in_map_iff. exists m. split; [unfold seen_member; rewrite En, Em; reflexivity|exact Im].
    - induction 1 as [t|t e x n i cs s u o Ct Hi S _ IH|t un pk al nm fs ms sa n v b cs u o Ct Y I _ IH|t un pk al nm fs ms sa n v b w Ct Y I|t un pk al nm fs ms sa n v b cs u o Ct Y I _ IH].
      + constructor.
      + destruct (is_array_to _ _ _ _ TD _ _ _ _ Ct) as (h & d & It & <- & <-). eapply leads_index; [exact It|exact Hi|exact S|exact IH].
      + destruct (is_members_to _ _ _ _ LG TD _ _ _ _ _ _ _ _ Ct Y) as (ty & mem & It & M & <-). apply in_map_iff in I. destruct I as (m & E & I). injection E as E1 E2 E3.
        rewrite <- E2 in IH. eapply leads_member; [exact It|exact M|eapply named_here; eauto|exact E3|exact IH].
      + destruct (is_members_to _ _ _ _ LG TD _ _ _ _ _ _ _ _ Ct Y) as (ty & mem & It & M & <-). apply in_map_iff in I. destruct I as (m & E & I). injection E as E1 E2 E3.
        rewrite <- E2. eapply leads_bitfield; [exact It|exact M|eapply named_here; eauto|exact E3].
      + destruct (is_members_to _ _ _ _ LG TD _ _ _ _ _ _ _ _ Ct Y) as (ty & mem & It & M & <-). apply in_map_iff in I. destruct I as (m & E & I). injection E as E1 E2 E3.
        rewrite <- E2 in IH. eapply leads_anonymous; [exact It|exact M|exact I|exact E1|exact E3|exact IH].
  Qed.
End Shape.

(** ** Members of a struct do not overlap *)
Lemma pairs_nth {A} (R : A -> A -> Prop) l : ForallOrdPairs R l -> forall i j x y, (i < j)%nat -> nth_error l i = Some x -> nth_error l j = Some y -> R x y.
Proof.
  induction 1 as [|a l F _ IH]; intros i j x y Lt Ex Ey; [destruct i; discriminate|]. destruct j as [|j]; [lia|]. destruct i as [|i]; cbn in Ex, Ey.
  - injection Ex as <-. rewrite Forall_forall in F. apply F. eapply nth_error_In; eauto.
  - eapply IH; [|eassumption|eassumption]. lia.
Qed.
(** The position of a member among those that are not unnamed bitfields. *)
Definition rank_in (fs : list field) (k : nat) : nat := length (filter is_member (firstn k fs)).
Lemma filter_rank fs : forall k f, nth_error fs k = Some f -> is_member f = true -> nth_error (filter is_member fs) (rank_in fs k) = Some f.
Proof.
  unfold rank_in. induction fs as [|g fs IH]; intros [|k] f E M; cbn in E; try discriminate.
  - injection E as ->. cbn. rewrite M. reflexivity.
  - cbn [firstn filter]. destruct (is_member g); cbn [length nth_error]; apply IH; assumption.
Qed.
Lemma rank_lt fs : forall i j f, nth_error fs i = Some f -> is_member f = true -> (i < j)%nat -> (rank_in fs i < rank_in fs j)%nat.
Proof.
  unfold rank_in. induction fs as [|g fs IH]; intros [|i] [|j] f E M Lt; cbn in E; try discriminate; try lia.
  - injection E as ->. cbn. rewrite M. cbn. lia.
  - cbn [firstn filter]. assert (i < j)%nat as Lt' by lia. specialize (IH _ _ _ E M Lt'). destruct (is_member g); cbn [length]; lia.
Qed.
Section Apart.
  Context (ti : type_information) (mc : machine) (P : program) (L : N -> option (N * N)) (LG : lawful mc P L) (TD : table_describes ti mc P L) (PS : pointers_right ti mc P) (MS : forall t, measurable ti P t).
  Lemma c_consistent : consistent ti.
  Proof.
    intros t ty ms m st F M I S. destruct (members_from _ _ _ _ LG TD _ _ _ F M) as (un & pk & al & nm & fs & s & a & D & Y & _ & S' & _).
    assert (s = st) as -> by (destruct ty; cbn in *; try contradiction; congruence).
    destruct (member_place _ _ _ LG _ _ _ _ _ _ _ _ _ _ D Y I) as (f & s' & a' & If & _ & _ & E2 & E3 & E4). cbn in E2, E4.
    destruct (f_width f) as [w|], (m_offset m) as [b|b z]; try contradiction.
    - destruct E4 as (-> & E4 & _). exact E4.
    - destruct E4 as [E4 _]. exists s'. split; [|lia]. apply (size_iff _ _ _ _ LG TD PS). split; [exists a'; rewrite E2; exact E3|apply MS].
  Qed.
  Lemma takes_span m k : takes ti (m_tid m) (m_offset m) k -> forall a b, span_of L (seen_member m) = Some (a, b) -> a <= k < b.
  Proof.
    unfold takes, span_of, seen_member. cbn [fst snd]. destruct (m_offset m) as [o|o w]; intros T a b E.
    - destruct T as (s & S & K). apply (size_iff _ _ _ _ LG TD PS) in S. destruct S as [[al S] _]. rewrite S in E. injection E as <- <-. lia.
    - injection E as <- <-. exact T.
  Qed.
  Lemma c_members_apart : members_apart ti.
  Proof.
    intros t h d i j m m' F Ni Nj Nij k T T'. destruct (members_from _ _ _ _ LG TD _ _ _ F eq_refl) as (un & pk & al & nm & fs & s & a & D & Y & _ & _ & K).
    destruct un; [destruct K as (? & ? & K); discriminate|].
    destruct (aggregate _ _ _ LG _ _ _ _ _ _ D) as (ms & s' & a' & Y' & _ & _ & _ & O & _). rewrite Y in Y'. injection Y' as E _ _. specialize (O eq_refl).
    apply (map_nth_error seen_member) in Ni, Nj. rewrite E in Ni, Nj.
    assert (X : ordered L (seen_member m) (seen_member m') \/ ordered L (seen_member m') (seen_member m)).
    { destruct (Nat.lt_ge_cases i j) as [Lt|Ge]; [left|right]; eapply (pairs_nth _ _ O); try eassumption. lia. }
    destruct X as [X|X]; destruct X as (x & y & x' & y' & S1 & S2 & Le).
    - pose proof (takes_span _ _ T _ _ S1). pose proof (takes_span _ _ T' _ _ S2). lia.
    - pose proof (takes_span _ _ T' _ _ S1). pose proof (takes_span _ _ T _ _ S2). lia.
  Qed.
  Lemma offers_to n t : c_offers false P n t -> offers ti n t.
  Proof.
    assert (K : forall t un pk al nm fs f, c_is false P t (CAggregate un pk al nm fs) -> In f fs -> is_member f = true -> exists ty mem m, is ti t ty /\ members_of ty mem /\ In m mem /\ m_name m = f_name f /\ m_tid m = f_type f).
    { intros t' un pk al nm fs f Ct If Mf. assert (Ct' := Ct). destruct Ct' as (r & _ & D).
      destruct (aggregate _ _ _ LG _ _ _ _ _ _ D) as (ms & s & a & Y & _ & _ & NM & _). destruct (is_members_to _ _ _ _ LG TD _ _ _ _ _ _ _ _ Ct Y) as (ty & mem & It & M & E).
      assert (I2 : In (f_label f) (map f_label (filter is_member fs))) by (apply in_map, filter_In; split; assumption).
      rewrite <- NM, <- E, map_map in I2. apply in_map_iff in I2. destruct I2 as (m & E2 & Im). injection E2 as E3 E4. exists ty, mem, m. auto. }
    induction 1 as [t un pk al nm fs f Ct If E|t un pk al nm fs f Ct If E W _ IH].
    - destruct (K _ _ _ _ _ _ _ Ct If) as (ty & mem & m & It & M & Im & E1 & E2); [unfold is_member; rewrite E; reflexivity|].
      eapply offers_member; [exact It|exact M|exact Im|congruence].
    - destruct (K _ _ _ _ _ _ _ Ct If) as (ty & mem & m & It & M & Im & E1 & E2); [unfold is_member; rewrite E, W; reflexivity|].
      eapply offers_anonymous; [exact It|exact M|exact Im|congruence|rewrite E2; exact IH].
  Qed.
  Lemma accounts_member n f : c_accounts false P n f -> is_member f = true.
  Proof. unfold is_member. intros [->|(-> & -> & _)]; reflexivity. Qed.
  Lemma struct_parts t pk al nm fs i j f g n n' cs cs' : c_is false P t (CAggregate false pk al nm fs) -> nth_error fs i = Some f -> nth_error fs j = Some g -> i <> j ->
    c_accounts false P n f -> c_accounts false P n' g -> parts ti t (Name n :: cs) (Name n' :: cs').
  Proof.
    intros Ct Nf Ng Nij Af Ag. assert (Ct' := Ct). destruct Ct' as (r & C & D).
    destruct (aggregate _ _ _ LG _ _ _ _ _ _ D) as (ms & s & a & Y & _ & _ & NM & _). destruct (members_to _ _ _ _ LG TD _ _ _ _ _ _ D) as (ty & mem & ms' & s' & a' & F & M & Y' & E).
    rewrite Y in Y'. injection Y' as <- _ _.
    destruct (members_from _ _ _ _ LG TD _ _ _ F M) as (un & pk' & al' & nm' & fs' & s2 & a2 & D2 & _ & _ & _ & K). pose proof (declared_det _ _ _ _ D D2) as DD. injection DD as <- <- <- <- <-.
    destruct K as (h & d & ->). cbn in M.
    assert (G : forall k f0, nth_error fs k = Some f0 -> is_member f0 = true -> exists m, nth_error mem (rank_in fs k) = Some m /\ m_name m = f_name f0 /\ m_tid m = f_type f0).
    { intros k f0 Nk Mk. apply (filter_rank _ _ _ Nk) in Mk. apply (map_nth_error f_label) in Mk. rewrite <- NM, <- E, map_map, nth_error_map in Mk.
      destruct (nth_error mem (rank_in fs k)) as [m|]; [|discriminate]. cbn in Mk. injection Mk as E1 E2. exists m. auto. }
    assert (A : forall f0 m n0, m_name m = f_name f0 -> m_tid m = f_type f0 -> c_accounts false P n0 f0 -> accounts ti n0 m).
    { intros f0 m n0 E1 E2 [A|(A1 & _ & A2)]; [left; congruence|right]. split; [congruence|]. rewrite E2. apply offers_to. exact A2. }
    destruct (G _ _ Nf (accounts_member _ _ Af)) as (m & Nm & E1 & E2). destruct (G _ _ Ng (accounts_member _ _ Ag)) as (m' & Nm' & E3 & E4). rewrite <- M in Nm, Nm'.
    assert (RN : rank_in fs i <> rank_in fs j).
    { destruct (Nat.lt_ge_cases i j) as [Lt|Ge].
      - pose proof (rank_lt _ _ _ _ Nf (accounts_member _ _ Af) Lt). lia.
      - assert (j < i)%nat as Lt by lia. pose proof (rank_lt _ _ _ _ Ng (accounts_member _ _ Ag) Lt). lia. }
    eapply parts_members; [|exact Nm|exact Nm'|exact RN|eapply A; eauto|eapply A; eauto].
    apply (is_to _ _ _ _ TD _ _ _ C F); [intros u []|discriminate].
  Qed.
  Lemma takes_iff u o k : takes ti u o k <-> c_takes L u o k.
  Proof.
    unfold takes, c_takes. destruct o; [|reflexivity]. split.
    - intros (s & S & K). apply (size_iff _ _ _ _ LG TD PS) in S. destruct S as [[a S] _]. eauto.
    - intros (s & a & S & K). exists s. split; [apply (size_iff _ _ _ _ LG TD PS); split; [eauto|apply MS]|exact K].
  Qed.
  Lemma points_iff t u : points_to ti t u <-> c_is false P t (CPointer u).
  Proof.
    split.
    - intros (p & h & d & C & F & <-). exists p. split; [|eapply pointer_from; eauto].
      clear F. induction C as [|a b r (ty & F & Q) C IH]; [constructor|]. econstructor; [eapply from_qualified; eauto|exact IH].
    - intros (r & C & D). destruct (td_has _ _ _ _ TD _ _ D) as (ty & w & F & V). destruct ty; cbn [view describe] in V; try discriminate V. injection V as V.
      exists r, h, d. split; [|split; [exact F|exact V]]. clear D F V. induction C as [|a b r B C IH]; [constructor|].
      econstructor; [|exact IH]. destruct (to_qualified _ _ _ _ TD _ _ B) as (ty & F & Q). exists ty. auto.
  Qed.
End Apart.

(** ** Every program without circles has exactly one layout *)
Lemma lay_ext mc L L' un pk : forall fs, (forall f, In f fs -> L (f_type f) = L' (f_type f)) -> forall pos al, lay mc L un pk pos al fs = lay mc L' un pk pos al fs.
Proof.
  induction fs as [|f fs IH]; intros H pos al; cbn [lay]; [reflexivity|]. rewrite <- (H f (or_introl eq_refl)). destruct (L (f_type f)) as [[s a]|]; [|reflexivity].
  rewrite IH; [reflexivity|]. intros g I. apply H. right. exact I.
Qed.
Lemma size_align_ext mc L L' d : (forall u, In u (refers d) -> L u = L' u) -> size_align mc L d = size_align mc L' d.
Proof.
  intro H. destruct d; cbn [size_align refers] in *; try reflexivity; try (apply H; left; reflexivity).
  - rewrite (H _ (or_introl eq_refl)). reflexivity.
  - unfold layout_of_fields. rewrite (lay_ext mc L L'); [reflexivity|]. intros f I. apply H. apply in_map. exact I.
Qed.
Lemma abi_unique mc P L L' : no_circles P -> abi mc P L -> abi mc P L' -> forall t, L t = L' t.
Proof.
  intros [rank R] [A1 A2] [B1 B2] t. remember (rank t) as n eqn:E. revert t E.
  induction n as [n IH] using (well_founded_induction Wf_nat.lt_wf). intros t ->. destruct (declared_or_not P t) as [[d D]|D].
  - rewrite (A1 _ _ D), (B1 _ _ D). apply size_align_ext. intros u I. eapply IH; [|reflexivity]. eapply R; eauto.
  - rewrite (A2 _ D), (B2 _ D). reflexivity.
Qed.
Fixpoint layout_fuel (mc : machine) (P : program) (n : nat) (t : N) : option (N * N) :=
  match n with
  | O => None
  | S n => if 1 <=? t then match nth_error P (N.to_nat (t - 1)) with Some d => size_align mc (layout_fuel mc P n) d | None => None end else None
  end.
Lemma abi_exists mc P : no_circles P -> exists L, abi mc P L.
Proof.
  intros [rank R].
  assert (ST : forall n t m, (rank t < n)%nat -> (n <= m)%nat -> layout_fuel mc P m t = layout_fuel mc P n t).
  { induction n as [|n IH]; intros t m H Le; [lia|]. destruct m as [|m]; [lia|]. cbn [layout_fuel]. destruct (N.leb_spec 1 t) as [T|T]; [|reflexivity].
    destruct (nth_error P (N.to_nat (t - 1))) as [d|] eqn:E; [|reflexivity]. apply size_align_ext. intros u I.
    assert (rank u < rank t)%nat by (eapply R; [split; [exact T|exact E]|exact I]). apply IH; lia. }
  exists (fun t => layout_fuel mc P (S (rank t)) t). split.
  - intros t d [T D]. cbn [layout_fuel]. rewrite (proj2 (N.leb_le 1 t) T), D. apply size_align_ext. intros u I.
    assert (rank u < rank t)%nat by (eapply R; [split; [exact T|exact D]|exact I]). apply (ST (S (rank u))); lia.
  - intros t H. cbn [layout_fuel]. destruct (N.leb_spec 1 t) as [T|T]; [|reflexivity]. destruct (nth_error P (N.to_nat (t - 1))) as [d|] eqn:E; [|reflexivity].
    destruct (H d). split; assumption.
Qed.

(** ** Alignment *)
Lemma power_max a b : power a -> power b -> power (N.max a b) /\ (a | N.max a b) /\ (b | N.max a b).
Proof.
  assert (D : forall i j, i <= j -> (2 ^ i | 2 ^ j)) by (intros i j H; exists (2 ^ (j - i)); rewrite <- N.pow_add_r; f_equal; lia).
  intros [i ->] [j ->]. destruct (N.le_ge_cases i j) as [H|H].
  - rewrite N.max_r by (apply N.pow_le_mono_r; [discriminate|exact H]). split; [exists j; reflexivity|]. split; [apply D; exact H|apply N.divide_refl].
  - rewrite N.max_l by (apply N.pow_le_mono_r; [discriminate|exact H]). split; [exists i; reflexivity|]. split; [apply N.divide_refl|apply D; exact H].
Qed.
Section Aligned.
  Context (mc : machine) (P : program) (L : N -> option (N * N)) (LG : lawful mc P L) (US : usual mc P).
  Lemma align_power a f : power a -> power (f_align f) -> power (align_of mc false a f) /\ (f_width f = None -> (a | align_of mc false a f)).
  Proof.
    intros Pa Pf. unfold align_of. destruct (f_width f).
    - split; [|discriminate]. destruct (false || _); [exists 0; reflexivity|exact Pa].
    - destruct (power_max _ _ Pa Pf) as (Q1 & Q2 & _). split; [exact Q1|intros _; exact Q2].
  Qed.
  Lemma lay_power un : forall fs pos al ms stop al', (forall f s a, In f fs -> L (f_type f) = Some (s, a) -> power a) -> Forall (fun f => power (f_align f)) fs -> power al ->
    lay mc L un false pos al fs = Some (ms, stop, al') -> power al' /\ (al | al') /\
    forall n v b, In (n, v, ByteOffset b) ms -> exists s a, L v = Some (s, a) /\ (a | al') /\ (a | b).
  Proof.
    induction fs as [|f fs IH]; intros pos al ms stop al' H FA Pa E; cbn [lay] in E.
    - injection E as <- <- <-. split; [exact Pa|]. split; [apply N.divide_refl|]. intros n v b [].
    - destruct (L (f_type f)) as [[s a]|] eqn:Lf; [|discriminate].
      destruct (lay _ _ _ _ _ _ fs) as [[[ms1 st1] al1]|] eqn:K; [|discriminate]. injection E as <- <- <-. inversion FA as [|? ? FA1 FA2]; subst.
      assert (Pf : power a) by (eapply H; [left; reflexivity|exact Lf]). destruct (align_power _ _ Pf FA1) as [PA DA]. destruct (power_max _ _ Pa PA) as (PM & D1 & D2).
      assert (H' : forall f s a, In f fs -> L (f_type f) = Some (s, a) -> power a) by (intros f0 s0 a0 I0; apply H; right; exact I0).
      destruct (IH _ _ _ _ _ H' FA2 PM K) as (Q1 & Q2 & Q3). split; [exact Q1|].
      split; [eapply N.divide_trans; eauto|]. intros n v b I. apply in_app_iff in I. destruct I as [I|I]; [|eauto].
      destruct (is_member f); [|destruct I]. destruct I as [I|[]]. injection I as <- <- W. exists s, a. split; [exact Lf|].
      unfold where_ in W. destruct (f_width f) eqn:Wf; [discriminate|]. injection W as <-. specialize (DA eq_refl).
      split; [eapply N.divide_trans; [exact DA|]; eapply N.divide_trans; eauto|]. destruct un; [exists 0; reflexivity|].
      destruct (starts_byte mc L (L_align _ _ _ LG) false pos s a f Wf) as (k & _ & ->). apply N.divide_mul_r. exact DA.
  Qed.
  Lemma L_power : forall t s a, L t = Some (s, a) -> power a /\ (a | s).
  Proof.
    apply (by_rank _ _ _ LG (fun t => forall s a, L t = Some (s, a) -> power a /\ (a | s))). intros t IH s a E. destruct (L_declared _ _ _ LG _ _ E) as (d & D & S).
    destruct US as [UP UD]. pose proof (UD _ _ D) as K. specialize (IH d).
    destruct d; cbn [size_align] in S; try discriminate; try (injection S as <- <-; exact K); try (eapply IH; [exact D|left; reflexivity|exact S]).
    - injection S as <- <-. split; [exact UP|apply (l_machine _ _ _ LG)].
    - destruct (L element) as [[s' a']|] eqn:E'; [|discriminate]. injection S as <- <-. destruct (IH element D (or_introl eq_refl) _ _ E') as [I1 I2]. split; [exact I1|].
      apply N.divide_mul_l. exact I2.
    - injection S as <- <-. split; [exists 0; reflexivity|apply N.divide_1_l].
    - destruct K as (-> & KA & KF). unfold layout_of_fields in S. destruct (lay mc L is_union false 0 aligned fields) as [[[ms st] al]|] eqn:Y; [|discriminate]. cbn in S. injection S as <- <-.
      assert (HP : forall f s a, In f fields -> L (f_type f) = Some (s, a) -> power a) by (intros f s0 a0 I0 E0; eapply IH; [exact D|apply in_map; exact I0|exact E0]).
      destruct (lay_power _ _ _ _ _ _ _ HP KF KA Y) as (Q1 & _). split; [exact Q1|]. destruct (round_up_mult ((st + 7) / 8) al) as [k ->]. exists k. reflexivity.
  Qed.
  Lemma c_is_size t d : c_is false P t d -> L t = size_align mc L d.
  Proof.
    intros (r & C & D). rewrite <- (L_is _ _ _ LG _ _ D). clear D. induction C as [|a b r (d' & D' & X) C IH]; [reflexivity|]. rewrite <- IH, (L_is _ _ _ LG _ _ D').
    destruct d'; try contradiction; try (destruct X; discriminate); subst; reflexivity.
  Qed.
  Lemma layout_aligned t un pk al nm fs ms sa n v b : c_is false P t (CAggregate un pk al nm fs) -> layout_of_fields mc L un pk al fs = Some (ms, sa) -> In (n, v, ByteOffset b) ms ->
    exists s a s' a', L v = Some (s, a) /\ L t = Some (s', a') /\ (a | a') /\ (a | b).
  Proof.
    intros Ct Y I. pose proof (c_is_size _ _ Ct) as E. cbn [size_align] in E. rewrite Y in E. cbn in E. unfold layout_of_fields in Y.
    destruct Ct as (r & _ & D). pose proof (proj2 US _ _ D) as (-> & KA & KF).
    destruct (lay mc L un false 0 al fs) as [[[ms' st] al']|] eqn:K; [|discriminate]. injection Y as -> <-.
    assert (HP : forall f s a, In f fs -> L (f_type f) = Some (s, a) -> power a) by (intros f s0 a0 _ E0; exact (proj1 (L_power _ _ _ E0))).
    destruct (lay_power _ _ _ _ _ _ _ HP KF KA K) as (_ & _ & Q). destruct (Q _ _ _ I) as (s & a & Lv & D1 & D2).
    exists s, a. do 2 eexists. split; [exact Lv|]. split; [exact E|]. split; assumption.
  Qed.
  Lemma designates_aligned (sz : N -> N -> Prop) (SZ : forall e z, sz e z -> c_size L e z) t cs u o : reaches false sz mc P L t cs u o -> forall b s a, o = ByteOffset b -> L u = Some (s, a) ->
    (a | b) /\ exists s' a', L t = Some (s', a') /\ (a | a').
  Proof.
    induction 1 as [t|t e x n i cs ez u o Ct Hi S0 _ IH|t un pk al nm fs ms sa n v b0 cs u o Ct Y I _ IH|t un pk al nm fs ms sa n v b0 w Ct Y I|t un pk al nm fs ms sa n v b0 cs u o Ct Y I _ IH]; intros b s a Eo Lu.
    - injection Eo as <-. split; [exists 0; reflexivity|]. exists s, a. split; [exact Lu|apply N.divide_refl].
    - destruct (SZ _ _ S0) as [al S]. destruct o as [b1|]; [|discriminate]. injection Eo as <-. destruct (IH _ _ _ eq_refl Lu) as (D1 & s' & a' & Le & D2). rewrite S in Le. injection Le as <- <-.
      destruct (L_power _ _ _ S) as [_ DS]. pose proof (c_is_size _ _ Ct) as E. cbn [size_align] in E. rewrite S in E. split.
      + apply N.divide_add_r; [|exact D1]. apply N.divide_mul_r. eapply N.divide_trans; eauto.
      + do 2 eexists. split; [exact E|exact D2].
    - destruct o as [b1|]; [|discriminate]. injection Eo as <-. destruct (IH _ _ _ eq_refl Lu) as (D1 & s' & a' & Lv & D2).
      destruct (layout_aligned _ _ _ _ _ _ _ _ _ _ _ Ct Y I) as (sv & av & st & at_ & Lv' & Lt & A1 & A2). rewrite Lv in Lv'. injection Lv' as <- <-. split.
      + apply N.divide_add_r; [|exact D1]. eapply N.divide_trans; eauto.
      + exists st, at_. split; [exact Lt|]. eapply N.divide_trans; eauto.
    - discriminate.
    - destruct o as [b1|]; [|discriminate]. injection Eo as <-. destruct (IH _ _ _ eq_refl Lu) as (D1 & s' & a' & Lv & D2).
      destruct (layout_aligned _ _ _ _ _ _ _ _ _ _ _ Ct Y I) as (sv & av & st & at_ & Lv' & Lt & A1 & A2). rewrite Lv in Lv'. injection Lv' as <- <-. split.
      + apply N.divide_add_r; [|exact D1]. eapply N.divide_trans; eauto.
      + exists st, at_. split; [exact Lt|]. eapply N.divide_trans; eauto.
  Qed.
End Aligned.
