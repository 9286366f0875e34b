(** * MessageOffset: what the messages of offset_of say (C57, C58). *)
From Coq Require Import List NArith Bool Lia ZifyBool ZifyNat ZifyN Strings.Byte.
From Verif Require Import TypeInfo Spec BaseFacts PathSpec Path PathGrammar PathPrint QuerySpec Chains Sizes Follow Offsets Offsets2 OffsetOf OffsetOf2 OutcomeSpec Outcome Message MessageSpec MessageFacts MessagePath.
Import ListNotations.
Open Scope N_scope.

(** ** What the iterator yields, with its message *)
Inductive mscript (c : build) (p : str) : piter -> list component -> option message -> Prop :=
| ms_end it : fst (next_msg c p it) = Ok None -> mscript c p it [] None
| ms_bad it m : fst (next_msg c p it) = Err m -> mscript c p it [] (Some m)
| ms_more it x it' cs e : next_msg c p it = (Ok (Some x), it') -> mscript c p it' cs e -> mscript c p it (x :: cs) e.
Opaque next anext next_msg.
Lemma mscript_of c p : valid_utf8 p -> forall s cs e, ascripts c s cs e -> forall it pre, okit p it -> stateof p it = s -> stands c p it pre ->
  exists em, mscript c p it cs em /\ match em with None => e = None | Some m => e <> None /\ complains c p (pre ++ cs) m end.
Proof.
  intros Hu. induction 1 as [s H|s k H|s x s' cs e H Hs IH]; intros it pre Hok Es St;
  destruct (next_abs c p Hu it Hok) as (E1 & E2 & E3); pose proof (next_kind c p it) as K; pose proof (next_stands c p Hu it pre Hok St) as NS;
  rewrite <- K in E1, E2, E3; rewrite Es in E1, E2; destruct (next_msg c p it) as [r it'] eqn:En; unfold kind_item in *; cbn [fst snd] in E1, E2, E3.
  - rewrite H in E1. exists None. split; [|reflexivity]. apply ms_end. rewrite En. cbn. destruct r as [[|]| | |]; cbn in E1; congruence.
  - rewrite H in E1. destruct r as [[|]|m| |]; cbn in E1; try discriminate. exists (Some m). split; [apply ms_bad; rewrite En; reflexivity|]. split; [discriminate|]. rewrite app_nil_r. exact NS.
  - rewrite H in E1, E2. cbn [fst snd] in E1, E2. destruct r as [[y|]|m| |]; cbn in E1; try discriminate. injection E1 as ->.
    destruct (IH it' (pre ++ [x]) E3 E2 NS) as (em & M & C). exists em. split; [eapply ms_more; eassumption|]. rewrite <- app_assoc in C. exact C.
Qed.
Lemma stands_new c p : stands c p piter_new [].
Proof. split; reflexivity. Qed.

(** ** Adding offsets *)
Lemma add_msg_says a o : match add_msg (ByteOffset a) o with
  | Ok o' => o' = QuerySpec.shift a o
  | Err m => match m with
      | MByteAddOverflow => exists b, o = ByteOffset b /\ 2 ^ 32 <= a + b
      | MBitMulOverflow | MBitAddOverflow => exists b z, o = BitOffsetAndSize b z /\ 2 ^ 32 <= 8 * a + b
      | _ => False end
  | _ => False end.
Proof.
  destruct o as [b|b z]; cbn [add_msg]; unfold checked, two_pow.
  - destruct (N.ltb_spec (a + b) (2 ^ 32)); cbn [ok_or obind]; [reflexivity|]. exists b. auto.
  - destruct (N.ltb_spec (a * 8) (2 ^ 32)); cbn [ok_or obind].
    + destruct (N.ltb_spec (a * 8 + b) (2 ^ 32)); cbn [ok_or obind]; [cbn; f_equal; lia|]. exists b, z. split; [reflexivity|lia].
    + exists b, z. split; [reflexivity|lia].
Qed.
Lemma probe_says f off ms m : probe_msg f off ms = Err m -> exists mm, In mm ms /\ m_name mm = None /\ add_msg (m_offset mm) off = Err m.
Proof.
  induction ms as [|m0 ms IH]; cbn [probe_msg]; [discriminate|]. unfold is_anonymous at 1. destruct (m_name m0) eqn:En.
  { intros H. destruct (IH H) as (mm & Hin & R). exists mm. split; [right; exact Hin|exact R]. }
  destruct (add_msg (m_offset m0) off) as [o|m1|q|] eqn:Ea; cbn [obind]; try discriminate.
  - destruct (f o (m_tid m0)); try discriminate. intros H. destruct (IH H) as (mm & Hin & R). exists mm. split; [right; exact Hin|exact R].
  - intros H. injection H as ->. exists m0. split; [left; reflexivity|]. auto.
Qed.
Lemma probe_found f off ms r : probe_msg f off ms = Ok (Some r) -> exists mm o, In mm ms /\ m_name mm = None /\ add_msg (m_offset mm) off = Ok o /\ f o (m_tid mm) = Ok r.
Proof.
  induction ms as [|m0 ms IH]; cbn [probe_msg]; [discriminate|]. unfold is_anonymous at 1. destruct (m_name m0) eqn:En.
  { intros H. destruct (IH H) as (mm & o & Hin & R). exists mm, o. split; [right; exact Hin|exact R]. }
  destruct (add_msg (m_offset m0) off) as [o|m1|q|] eqn:Ea; cbn [obind]; try discriminate.
  destruct (f o (m_tid m0)) eqn:Ef; try discriminate.
  - intros H. injection H as ->. exists m0, o. split; [left; reflexivity|]. auto.
  - intros H. destruct (IH H) as (mm & o' & Hin & R). exists mm, o'. split; [right; exact Hin|exact R].
Qed.
Lemma resolve_msg_says ti t : match resolve_msg ti t with
  | Ok (r, ty) => is ti t ty | Err m => m = MInvalidTypeId /\ exists r, chain (transparent ti) t r /\ from_id ti r = None | Panic _ => False | Diverge => True end.
Proof.
  pose proof (resolve_kind ti t) as K. pose proof (resolve_sound ti t) as RS.
  destruct (resolve_msg ti t) as [[r ty]|m|q|] eqn:E, (resolve ti t) as [[r' ty']|k|q'|]; cbn [kind_only kind_of] in K; try discriminate K; try exact I; try contradiction.
  - injection K as <- <-. exists r. exact RS.
  - destruct RS as [_ RS]. split; [|exact RS]. clear -E. unfold resolve_msg in E. revert t E. induction (chain_fuel ti) as [|n IH]; intros t E; [discriminate|]. cbn [resolve_msg_fuel] in E.
    destruct (from_id ti t) as [ty|]; [|congruence]. destruct ty; try discriminate E; eapply IH; exact E.
Qed.

Section Says.
  Context (c : build) (ti : type_information) (p : str) (total : list component).
  Definition says o t cs m := exists o' u rest, gets ti (computed c ti) o t cs o' u rest /\ holds_at ti (computed c ti) c p total o' u rest m.
  Lemma says_here o t cs m : holds_at ti (computed c ti) c p total o t cs m -> says o t cs m.
  Proof. intros H. exists o, t, cs. split; [apply gets_here|exact H]. Qed.
  Lemma size_holds o t i cs h d m : is ti t (TArray h d) -> i < element_count d -> size_msg c ti (element_tid d) = Err m -> holds_at ti (computed c ti) c p total o t (Index i :: cs) m.
  Proof.
    intros Ht Hi Hs. apply size_says in Hs. pose proof Hs as (r & _ & X). destruct m; try contradiction; cbn [holds_at]; try (exists i, cs, h, d; auto).
    exists (Index i), cs. split; [reflexivity|]. right. exists i, h, d. auto.
  Qed.
  Lemma add_u32_says off v : match add_u32_msg off v with
    | Ok o => exists a, off = ByteOffset a /\ o = ByteOffset (a + v)
    | Err MByteAddOverflow => exists a, off = ByteOffset a /\ 2 ^ 32 <= a + v
    | Err MBitfield => exists b z, off = BitOffsetAndSize b z
    | _ => False end.
  Proof.
    destruct off as [a|b z]; cbn [add_u32_msg]; [|eauto]. unfold checked, two_pow. destruct (N.ltb_spec (a + v) (2 ^ 32)); cbn [ok_or obind]; eauto.
  Qed.
  Lemma array_step_says d off i : match array_step_msg c ti d off i with
    | Ok o => i < element_count d /\ exists s a, size_msg c ti (element_tid d) = Ok s /\ i * s < 2 ^ 32 /\ off = ByteOffset a /\ o = ByteOffset (a + i * s)
    | Err m => (element_count d <= i /\ m = MIndexOutOfBounds i (element_count d)) \/ i < element_count d /\
       (size_msg c ti (element_tid d) = Err m \/ exists s, size_msg c ti (element_tid d) = Ok s /\
         (2 ^ 32 <= i * s /\ m = MArrayOffsetOverflow \/ i * s < 2 ^ 32 /\ match m with
           | MByteAddOverflow => exists a, off = ByteOffset a /\ 2 ^ 32 <= a + i * s
           | MBitfield => exists b z, off = BitOffsetAndSize b z
           | _ => False end))
    | _ => True end.
  Proof.
    unfold array_step_msg. destruct (N.leb_spec (element_count d) i) as [L|L]; [left; auto|].
    destruct (size_msg c ti (element_tid d)) as [s|k|q|]; cbn [obind]; try exact I.
    2:{ right. split; [exact L|]. left. reflexivity. }
    pose proof (index_size_iff i s) as IS. destruct (index_size i s) as [v|]; cbn [ok_or obind].
    - destruct (proj1 (IS v) eq_refl) as [-> Hv]. clear IS. pose proof (add_u32_says off (i * s)) as A. destruct (add_u32_msg off (i * s)) as [o|m|q|]; try exact I.
      + split; [exact L|]. destruct A as (a & -> & ->). exists s, a. auto.
      + right. split; [exact L|]. right. exists s. split; [reflexivity|]. right. split; [exact Hv|]. exact A.
    - right. split; [exact L|]. right. exists s. split; [reflexivity|]. left. split; [|reflexivity].
      destruct (N.lt_ge_cases (i * s) (2 ^ 32)) as [F|F]; [|exact F]. pose proof (proj2 (IS (i * s)) (conj eq_refl F)) as X. discriminate X.
  Qed.
  Lemma size_msg_computed e s : size_msg c ti e = Ok s -> computed c ti e s.
  Proof. intros H. pose proof (size_kind c ti e) as K. rewrite H in K. unfold computed. symmetry. exact K. Qed.
  Lemma index_says (f : offset -> outcome message (N * offset)) off t i cs h d m : is ti t (TArray h d) -> (forall off', f off' = Err m -> says off' (element_tid d) cs m) ->
    obind (array_step_msg c ti d off i) f = Err m -> says off t (Index i :: cs) m.
  Proof.
    intros RS IH H. pose proof (array_step_says d off i) as A. destruct (array_step_msg c ti d off i) as [o|k|q|]; cbn [obind] in H; try discriminate H.
    - destruct A as (L & s & a & Hs & Hv & -> & ->). apply size_msg_computed in Hs.
      destruct (IH _ H) as (o' & u & rest & G & B). exists o', u, rest. split; [eapply gets_index; eassumption|exact B].
    - injection H as ->. destruct A as [[L ->]|(L & [Hs|(s & Hs & A)])].
      + apply says_here. exists cs, h, d. auto.
      + apply says_here. eapply size_holds; eassumption.
      + apply size_msg_computed in Hs. destruct A as [[F ->]|[Hv A]].
        * apply says_here. exists i, cs, h, d, s. auto 6.
        * destruct m; try contradiction; [destruct A as (a & -> & F)|destruct A as (b & z & ->)].
          -- exists (ByteOffset (a + i * s)), (element_tid d), cs. split; [eapply gets_index; try eassumption; apply gets_here|]. exists (a + i * s). auto.
          -- apply says_here. exists (Index i), cs. split; [reflexivity|]. left. exists b, z. reflexivity.
  Qed.
  Lemma member_says (f g : offset -> N -> outcome message (N * offset)) off t name cs ty ms m : is ti t ty -> members_of ty ms -> (forall off' u, f off' u = Err m -> says off' u cs m) ->
    obind (probe_msg g off ms) (fun found => match found with Some r => Ok r | None =>
       match find (has_name name) ms with Some m => obind (add_msg off (m_offset m)) (fun off' => f off' (m_tid m)) | None => Err (MMemberNotFound name) end end) = Err m ->
    says off t (Name name :: cs) m.
  Proof.
    intros RS Hms IH G. destruct (probe_msg g off ms) as [[r0|]|k|q|] eqn:Ep; cbn [obind] in G; try discriminate G.
    - destruct (find (has_name name) ms) as [mm|] eqn:Ef.
      2:{ injection G as <-. apply says_here. exists cs, ty, ms. split; [reflexivity|]. split; [exact RS|]. split; [exact Hms|]. intros mm Hin Hn. apply has_name_iff in Hn. pose proof (find_none _ _ Ef mm Hin). congruence. }
      apply find_named in Ef. destruct off as [a|b z].
      2:{ cbn [add_msg obind] in G. injection G as <-. apply says_here. exists (Name name), cs. split; [reflexivity|]. left. eauto. }
      pose proof (add_msg_says a (m_offset mm)) as A. destruct (add_msg (ByteOffset a) (m_offset mm)) as [o'|k|q|]; cbn [obind] in G; try contradiction.
      + subst o'. destruct (IH _ _ G) as (o' & u & rest & G' & B). exists o', u, rest. split; [eapply gets_member; eassumption|exact B].
      + injection G as ->. exists (QuerySpec.shift a (m_offset mm)), (m_tid mm), cs. split; [eapply gets_member; try eassumption; apply gets_here|].
        destruct m; try contradiction; [destruct A as (b & -> & L); exists (a + b); auto|destruct A as (b & z & -> & L); exists (8 * a + b), z; auto|destruct A as (b & z & -> & L); exists (8 * a + b), z; auto].
    - injection G as ->. apply probe_says in Ep. destruct Ep as (mm & Hin & Hn & Ha). destruct (m_offset mm) as [b|b z] eqn:Em.
      + pose proof (add_msg_says b off) as A. rewrite Ha in A. exists (QuerySpec.shift b off), (m_tid mm), (Name name :: cs). split; [eapply gets_anonymous; try eassumption; apply gets_here|].
        destruct m; try contradiction; [destruct A as (b' & -> & L); exists (b + b'); auto|destruct A as (b' & z & -> & L); exists (8 * b + b'), z; auto|destruct A as (b' & z & -> & L); exists (8 * b + b'), z; auto].
      + assert (m = MBitfield) by (destruct off; cbn in Ha; congruence). subst m. apply says_here. exists (Name name), cs. split; [reflexivity|]. right. exists name, ty, ms, mm, b, z. auto 8.
  Qed.
  Lemma impl_says n em : (forall m, em = Some m -> complains c p total m) -> forall off t it cs m, mscript c p it cs em ->
    offset_of_msg_impl n c ti p off t it = Err m -> says off t cs m.
  Proof.
    intros Hem. induction n as [|n IH]; intros off t it cs m Ms H; [discriminate|]. cbn [offset_of_msg_impl] in H.
    inversion Ms as [it0 E|it0 m0 E|it0 x it' cs' e0 E Ms']; subst.
    - destruct (next_msg c p it) as [r it']. cbn [fst] in E. subst r. discriminate.
    - destruct (next_msg c p it) as [r it']. cbn [fst] in E. subst r. injection H as ->. apply says_here. pose proof (Hem m eq_refl) as C. pose proof C as (q & _ & X). destruct m; try contradiction; (split; [reflexivity|exact C]).
    - rewrite E in H. pose proof (resolve_msg_says ti t) as RS. destruct (resolve_msg ti t) as [[r ty]|k|q|]; try discriminate H.
      2:{ injection H as ->. destruct RS as [-> RS]. apply says_here. exists x, cs'. split; [reflexivity|]. left. exact RS. }
      assert (Other : forall m0, Err m0 = @Err message (N * offset) m -> holds_at ti (computed c ti) c p total off t (x :: cs') m0 -> says off t (x :: cs') m) by (intros m0 X Y; injection X as ->; apply says_here; exact Y).
      pose proof (fun off' u => IH off' u it' cs' m Ms') as IH'. clear IH Ms Ms' E Hem.
      destruct x as [i|name].
      + destruct ty; try (eapply Other; [exact H|]; exists i, cs'; eexists; split; [reflexivity|]; split; [exact RS|exact I]).
        * eapply Other; [exact H|]. exists (Index i), cs'. auto.
        * eapply Other; [exact H|]. exists i, cs', h, d. auto.
        * eapply index_says; [exact RS| |exact H]. intros off'. exact (IH' off' (element_tid d)).
      + destruct ty; try (eapply Other; [exact H|]; exists name, cs'; eexists; split; [reflexivity|]; split; [exact RS|]; split; [discriminate|]; intros (ms & X); exact X).
        * eapply Other; [exact H|]. exists (Name name), cs'. auto.
        * eapply member_says; [exact RS|reflexivity|exact IH'|exact H].
        * eapply member_says; [exact RS|reflexivity|exact IH'|exact H].
  Qed.
End Says.

Lemma holds_impl ti (sz sz' : N -> N -> Prop) c p cs o u rest m : (forall e s, sz e s -> sz' e s) -> holds_at ti sz c p cs o u rest m -> holds_at ti sz' c p cs o u rest m.
Proof. intros H. destruct m; try exact (fun x => x). cbn [holds_at]. intros (i & rest' & h & d & s & A & B & C & D & E). exists i, rest', h, d, s. auto 6. Qed.
Theorem offset_of_says_true c ti t p cs bad m : valid_utf8 p -> text_is c p cs bad -> overflow_checks c = true \/ sizes_fit c ti ->
  offset_of_says c ti t p m -> exists o u rest, gets ti (size ti) (ByteOffset 0) t cs o u rest /\ holds_at ti (size ti) c p cs o u rest m.
Proof.
  intros V T Hc (n & H). destruct (text_script c p cs bad V T) as (e & A & _ & _).
  assert (Sz : forall x s, computed c ti x s -> size ti x s) by (intros x s Hx; eapply computed_size; eassumption).
  destruct (mscript_of c p V _ _ _ A piter_new [] (okit_new p V) eq_refl (stands_new c p)) as (em & M & C). cbn [app] in C.
  destruct (impl_says c ti p cs n em) with (off := ByteOffset 0) (t := t) (it := piter_new) (cs := cs) (m := m) as (o & u & rest & G & B).
  - intros m0 ->. apply C.
  - exact M.
  - exact H.
  - exists o, u, rest. split; [eapply gets_impl; eassumption|eapply holds_impl; eassumption].
Qed.
(** A message about the text of the path *)
Definition about_text (m : message) : Prop :=
  match m with MInvalidCharacter _ | MUnclosedIndex | MEmptyIndex | MIndexTooBig | MIndexNotANumber => True | _ => False end.
Lemma holds_about ti sz c p cs o u rest m : about_text m -> holds_at ti sz c p cs o u rest m -> complains c p cs m.
Proof. intros T B. destruct m; cbn [about_text holds_at] in T, B; try contradiction; exact (proj2 B). Qed.
Lemma no_empty_name max q : ~ path max [Name []] q.
Proof. intros P. inversion P as [|n ? ? T|]. destruct T. Qed.
Lemma complains_not_empty c p m : ~ complains c p [Name []] m.
Proof. intros (q & P & _). exact (no_empty_name _ _ P). Qed.
Lemma text_says c ti t p m : valid_utf8 p -> about_text m -> offset_of_says c ti t p m -> exists cs, malformed_after c p cs /\ complains c p cs m.
Proof.
  intros V T (n & H). destruct (script_of c p V) as (cs & e & A & He).
  destruct (mscript_of c p V _ _ _ A piter_new [] (okit_new p V) eq_refl (stands_new c p)) as (em & M & C). cbn [app] in C.
  assert (Hem : forall m0, em = Some m0 -> complains c p cs m0) by (intros m0 ->; apply C).
  destruct (impl_says c ti p cs n em Hem (ByteOffset 0) t piter_new cs m M H) as (o & u & rest & _ & B).
  assert (K : complains c p cs m) by (exact (holds_about _ _ _ _ _ _ _ _ _ T B)). exists cs. split; [|exact K].
  destruct He as [-> | ->]; [|apply malformed_script; assumption]. exfalso.
  destruct em as [m0|]; [destruct C as [C _]; destruct (C eq_refl)|]. clear C Hem.
  assert (Hn : forall m0, @None message = Some m0 -> complains c p [Name []] m0) by discriminate.
  destruct (impl_says c ti p [Name []] n None Hn (ByteOffset 0) t piter_new cs m M H) as (o' & u' & rest' & _ & B').
  exact (complains_not_empty _ _ _ (holds_about _ _ _ _ _ _ _ _ _ T B')).
Qed.
