(** * PrettyFacts: nested PadAdapters give indented lines; the lines determine the tree. *)
From Coq Require Import Strings.String.
From Coq Require Import List NArith ZArith Bool Lia Strings.Byte.
From Verif Require Import TypeInfo Debug Pretty PrettySpec DebugSpec.
Import ListNotations.

Section ShapeInd.
  Context (P : shape -> Prop) (HA : forall x, P (PAtom x)) (HS : forall n fs, Forall (fun f => P (snd f)) fs -> P (PStruct n fs))
    (HT : forall n vs, Forall P vs -> P (PTuple n vs)) (HL : forall vs, Forall P vs -> P (PList vs)) (HM : forall es, Forall (fun f => P (snd f)) es -> P (PMap es)).
  Fixpoint shape_nested (d : shape) : P d :=
    let vs_ok := fix go (l : list shape) : Forall P l := match l with [] => Forall_nil P | v :: l' => Forall_cons v (shape_nested v) (go l') end in
    let fs_ok := fix go (l : list (str * shape)) : Forall (fun f => P (snd f)) l := match l with [] => Forall_nil _ | f :: l' => Forall_cons f (shape_nested (snd f)) (go l') end in
    match d with
    | PAtom x => HA x
    | PStruct n fs => HS n fs (fs_ok fs)
    | PTuple n vs => HT n vs (vs_ok vs)
    | PList vs => HL vs (vs_ok vs)
    | PMap es => HM es (fs_ok es)
    end.
End ShapeInd.

(** ** Lines *)
Definition ind (x : str) : str := txt "    " ++ x.
Definition unlines (ls : list str) : str := flat_map (fun l => l ++ [newline]) ls.
Definition no_newline (x : str) : Prop := ~ In newline x.
Lemma unlines_app a b : unlines (a ++ b) = unlines a ++ unlines b.
Proof. apply flat_map_app. Qed.
Lemma lines_newline l t : no_newline l -> lines (l ++ newline :: t) = l :: lines t.
Proof.
  induction l as [|b l IH]; intros H; [reflexivity|]. assert (Hb : b <> newline) by (intros ->; apply H; left; reflexivity).
  assert (Hl : no_newline l) by (intros X; apply H; right; exact X). cbn [app lines]. rewrite (IH Hl). destruct b; try reflexivity. exfalso; apply Hb; reflexivity.
Qed.
Lemma lines_last l : no_newline l -> lines l = [l].
Proof.
  induction l as [|b l IH]; intros H; [reflexivity|]. assert (Hb : b <> newline) by (intros ->; apply H; left; reflexivity).
  assert (Hl : no_newline l) by (intros X; apply H; right; exact X). cbn [lines]. rewrite (IH Hl). destruct b; try reflexivity. exfalso; apply Hb; reflexivity.
Qed.
(** A text that, with a line break behind it, is these lines. *)
Lemma lines_unlines ls : Forall no_newline ls -> ls <> [] -> forall t, t ++ [newline] = unlines ls -> lines t = ls.
Proof.
  induction ls as [|l ls IH]; intros F N0 t E; [congruence|]. inversion F as [|? ? Fl Fls]; subst. destruct ls as [|l2 ls].
  - unfold unlines in E. cbn [flat_map] in E. rewrite app_nil_r in E. apply app_inv_tail in E. subst. apply lines_last. exact Fl.
  - specialize (IH Fls ltac:(discriminate)). unfold unlines in E. cbn [flat_map] in E. fold (unlines ls) in E.
    assert (exists t', t = l ++ newline :: t' /\ t' ++ [newline] = unlines (l2 :: ls)) as (t' & -> & E').
    { destruct (@exists_last _ (unlines (l2 :: ls))) as (u & b & U). { unfold unlines. cbn [flat_map]. destruct l2; discriminate. }
      unfold unlines in U at 1. cbn [flat_map] in U. fold (unlines ls) in U. rewrite U in E. rewrite app_assoc in E. apply app_inj_tail in E. destruct E as [E1 E2]. subst b.
      exists u. split; [rewrite E1, <- app_assoc; reflexivity|]. unfold unlines. cbn [flat_map]. fold (unlines ls). rewrite U. reflexivity. }
    rewrite lines_newline by exact Fl. rewrite (IH t' E'). reflexivity.
Qed.
Lemma pad_line l t : no_newline l -> forall start, pad start (l ++ newline :: t) = (if start then txt "    " else []) ++ l ++ newline :: pad true t.
Proof.
  induction l as [|b l IH]; intros H start; [reflexivity|]. assert (Hb : Byte.eqb b newline = false) by (destruct (Byte.eqb b newline) eqn:E; [|reflexivity]; exfalso; apply H; left; apply Byte.byte_dec_bl; exact E).
  assert (Hl : no_newline l) by (intros X; apply H; right; exact X). cbn [app pad]. rewrite Hb, (IH Hl false). reflexivity.
Qed.
Lemma pad_unlines ls : Forall no_newline ls -> pad true (unlines ls) = unlines (map ind ls).
Proof.
  induction ls as [|l ls IH]; intros F; [reflexivity|]. inversion F; subst. unfold unlines. cbn [flat_map map]. fold (unlines ls) (unlines (map ind ls)).
  rewrite <- app_assoc. cbn [app]. rewrite pad_line by assumption. rewrite IH by assumption. unfold ind at 1. rewrite <- !app_assoc. reflexivity.
Qed.

(** The lines of a value, with [pre] in front and [post] behind. *)
Fixpoint rows (pre : str) (d : shape) (post : str) : list str :=
  match d with
  | PAtom x => [pre ++ x ++ post]
  | PStruct n fs => match fs with [] => [pre ++ n ++ post] | _ =>
      [pre ++ n ++ txt " {"] ++ flat_map (fun f => map ind (rows (fst f ++ txt ": ") (snd f) (txt ","))) fs ++ [txt "}" ++ post] end
  | PTuple n vs => match vs with [] => [pre ++ n ++ post] | _ => [pre ++ n ++ txt "("] ++ flat_map (fun v => map ind (rows [] v (txt ","))) vs ++ [txt ")" ++ post] end
  | PList vs => match vs with [] => [pre ++ txt "[]" ++ post] | _ => [pre ++ txt "["] ++ flat_map (fun v => map ind (rows [] v (txt ","))) vs ++ [txt "]" ++ post] end
  | PMap es => match es with [] => [pre ++ txt "{}" ++ post] | _ =>
      [pre ++ txt "{"] ++ flat_map (fun f => map ind (rows (fst f ++ txt ": ") (snd f) (txt ","))) es ++ [txt "}" ++ post] end
  end.
(** All texts of a tree satisfy [P]. *)
Inductive all_texts (P : str -> Prop) : shape -> Prop :=
| all_atom x : P x -> all_texts P (PAtom x)
| all_struct n fs : P n -> Forall (fun f => P (fst f)) fs -> Forall (fun f => all_texts P (snd f)) fs -> all_texts P (PStruct n fs)
| all_tuple n vs : P n -> Forall (all_texts P) vs -> all_texts P (PTuple n vs)
| all_list vs : Forall (all_texts P) vs -> all_texts P (PList vs)
| all_map es : Forall (fun f => P (fst f)) es -> Forall (fun f => all_texts P (snd f)) es -> all_texts P (PMap es).
Definition ascii_text (x : str) : bool := forallb (fun b => (0x20 <=? Byte.to_N b)%N && (Byte.to_N b <=? 0x7E)%N) x.
Section AllRows.
  Context (P : str -> Prop) (Papp : forall a b, P a -> P b -> P (a ++ b)) (Pascii : forall x, ascii_text x = true -> P x).
  Ltac pp := repeat first [assumption | apply Papp | apply Pascii; reflexivity].
  Lemma all_ind ls : Forall P ls -> Forall P (map ind ls).
  Proof. intros H. apply Forall_map. eapply Forall_impl; [|exact H]. intros a A. unfold ind. pp. Qed.
  Lemma all_flat {A} (f : A -> list str) l : (forall a, In a l -> Forall P (f a)) -> Forall P (flat_map f l).
  Proof. induction l as [|a l IH]; intros H; [constructor|]. cbn. apply Forall_app. split; [apply H; left; reflexivity|apply IH; intros b B; apply H; right; exact B]. Qed.
  Lemma rows_all d : forall pre post, all_texts P d -> P pre -> P post -> Forall P (rows pre d post).
  Proof.
    induction d as [x|n fs IH|n vs IH|vs IH|es IH] using shape_nested; intros pre post F Hpre Hpost; inversion F; subst; cbn [rows].
    - repeat constructor. pp.
    - destruct fs as [|f0 fs0]; [repeat constructor; pp|]. constructor; [pp|]. apply Forall_app. split; [|repeat constructor; pp].
      apply all_flat. intros f Hf. apply all_ind. rewrite Forall_forall in IH, H2, H3. apply IH; [exact Hf|exact (H3 f Hf)|pose proof (H2 f Hf); pp|pp].
    - destruct vs as [|f0 fs0]; [repeat constructor; pp|]. constructor; [pp|]. apply Forall_app. split; [|repeat constructor; pp].
      apply all_flat. intros f Hf. apply all_ind. rewrite Forall_forall in IH, H2. apply IH; [exact Hf|exact (H2 f Hf)|pp|pp].
    - destruct vs as [|f0 fs0]; [repeat constructor; pp|]. constructor; [pp|]. apply Forall_app. split; [|repeat constructor; pp].
      apply all_flat. intros f Hf. apply all_ind. rewrite Forall_forall in IH, H0. apply IH; [exact Hf|exact (H0 f Hf)|pp|pp].
    - destruct es as [|f0 fs0]; [repeat constructor; pp|]. constructor; [pp|]. apply Forall_app. split; [|repeat constructor; pp].
      apply all_flat. intros f Hf. apply all_ind. rewrite Forall_forall in IH, H0, H1. apply IH; [exact Hf|exact (H1 f Hf)|pose proof (H0 f Hf); pp|pp].
  Qed.
End AllRows.
(** Nothing in the tree contains a line break. *)
Notation flat := (all_texts no_newline).
Lemma nn_app a b : no_newline a -> no_newline b -> no_newline (a ++ b).
Proof. intros A B H. apply in_app_iff in H. destruct H as [H|H]; [exact (A H)|exact (B H)]. Qed.
Lemma nn_ascii x : ascii_text x = true -> no_newline x.
Proof. intros E H. unfold ascii_text in E. rewrite forallb_forall in E. specialize (E _ H). discriminate E. Qed.
Ltac nn := repeat first [assumption | apply nn_app | apply nn_ascii; reflexivity | intros []].
Lemma rows_flat d pre post : flat d -> no_newline pre -> no_newline post -> Forall no_newline (rows pre d post).
Proof. apply rows_all; [exact nn_app|exact nn_ascii]. Qed.
Lemma flat_unlines {A} (f : A -> str) (g : A -> list str) l : (forall a, In a l -> f a = unlines (g a)) -> flat_map f l = unlines (flat_map g l).
Proof. induction l as [|a l IH]; intros H; [reflexivity|]. cbn [flat_map]. rewrite unlines_app, (H a) by (left; reflexivity). rewrite IH; [reflexivity|intros b B; apply H; right; exact B]. Qed.
Lemma unlines_cons l ls : unlines (l :: ls) = l ++ newline :: unlines ls.
Proof. unfold unlines. cbn [flat_map]. rewrite <- app_assoc. reflexivity. Qed.
(** What the nested adapters write is the lines. *)
Lemma pretty_rows d : forall pre post, flat d -> no_newline pre -> no_newline post -> pre ++ pretty d ++ post ++ [newline] = unlines (rows pre d post).
Proof.
  assert (EN : forall pre v, flat v -> no_newline pre -> (forall pre post, flat v -> no_newline pre -> no_newline post -> pre ++ pretty v ++ post ++ [newline] = unlines (rows pre v post)) ->
    entry (pre ++ pretty v) = unlines (map ind (rows pre v (txt ",")))).
  { intros pre v Fv Hp IH. unfold entry. rewrite <- pad_unlines by (apply rows_flat; [exact Fv|exact Hp|nn]). rewrite <- IH; [|exact Fv|exact Hp|nn]. rewrite <- !app_assoc. reflexivity. }
  assert (ENF : forall fs : list (str * shape), Forall (fun f => forall pre post, flat (snd f) -> no_newline pre -> no_newline post -> pre ++ pretty (snd f) ++ post ++ [newline] = unlines (rows pre (snd f) post)) fs ->
    Forall (fun f => no_newline (fst f)) fs -> Forall (fun f => flat (snd f)) fs ->
    flat_map (fun f => entry (fst f ++ txt ": " ++ pretty (snd f))) fs = unlines (flat_map (fun f => map ind (rows (fst f ++ txt ": ") (snd f) (txt ","))) fs)).
  { intros fs IH N1 N2. apply flat_unlines. intros f Hf. rewrite Forall_forall in IH, N1, N2. pose proof (N1 f Hf). rewrite app_assoc. apply EN; [exact (N2 f Hf)|nn|exact (IH f Hf)]. }
  assert (ENV : forall vs : list shape, Forall (fun v => forall pre post, flat v -> no_newline pre -> no_newline post -> pre ++ pretty v ++ post ++ [newline] = unlines (rows pre v post)) vs ->
    Forall flat vs -> flat_map (fun v => entry (pretty v)) vs = unlines (flat_map (fun v => map ind (rows [] v (txt ","))) vs)).
  { intros vs IH N2. apply flat_unlines. intros v Hv. rewrite Forall_forall in IH, N2. apply (EN [] v); [exact (N2 v Hv)|nn|exact (IH v Hv)]. }
  assert (L : forall a, a ++ [newline] = unlines [a]) by (intros a; rewrite unlines_cons; reflexivity).
  induction d as [x|n fs IH|n vs IH|vs IH|es IH] using shape_nested; intros pre post F Hpre Hpost; inversion F; subst.
  - cbn [pretty rows]. rewrite <- L, <- !app_assoc. reflexivity.
  - cbn [pretty rows]. destruct fs as [|f0 fs0]; [rewrite <- L, <- !app_assoc; reflexivity|]. rewrite (ENF _ IH) by assumption.
    rewrite unlines_app, unlines_app, unlines_cons, <- L. rewrite <- !app_assoc. reflexivity.
  - cbn [pretty rows]. destruct vs as [|f0 fs0]; [rewrite <- L, <- !app_assoc; reflexivity|]. rewrite (ENV _ IH) by assumption.
    rewrite unlines_app, unlines_app, unlines_cons, <- L. rewrite <- !app_assoc. reflexivity.
  - cbn [pretty rows]. destruct vs as [|f0 fs0]; [rewrite <- L, <- !app_assoc; reflexivity|]. rewrite (ENV _ IH) by assumption.
    rewrite unlines_app, unlines_app, unlines_cons, <- L. rewrite <- !app_assoc. reflexivity.
  - cbn [pretty rows]. destruct es as [|f0 fs0]; [rewrite <- L, <- !app_assoc; reflexivity|]. rewrite (ENF _ IH) by assumption.
    rewrite unlines_app, unlines_app, unlines_cons, <- L. rewrite <- !app_assoc. reflexivity.
Qed.
Lemma rows_nonempty pre d post : rows pre d post <> [].
Proof. destruct d as [x|n [|]|n [|]|[|]|[|]]; discriminate. Qed.
Lemma pretty_lines d : flat d -> lines (pretty d) = rows [] d [].
Proof. intros F. apply lines_unlines; [apply rows_flat; [exact F|nn|nn]|apply rows_nonempty|]. rewrite <- (pretty_rows d [] []); [reflexivity|exact F|nn|nn]. Qed.

(** ** The lines determine the tree *)
Definition good_atom (x : str) : Prop :=
  (exists b r, x = b :: r /\ b <> x5b /\ b <> x7b) /\ (exists r b, x = r ++ [b] /\ b <> x7b /\ b <> x28 /\ b <> x5b).
Inductive sound : shape -> Prop :=
| sound_atom x : good_atom x -> sound (PAtom x)
| sound_struct n fs : fs <> [] -> Forall (fun f => ~ In x3a (fst f)) fs -> Forall (fun f => sound (snd f)) fs -> sound (PStruct n fs)
| sound_tuple n vs : vs <> [] -> Forall sound vs -> sound (PTuple n vs)
| sound_list vs : Forall sound vs -> sound (PList vs)
| sound_map es : Forall (fun f => ~ In x3a (fst f)) es -> Forall (fun f => sound (snd f)) es -> sound (PMap es).
Definition head_row (d : shape) (post : str) : str :=
  match d with
  | PAtom x => x ++ post
  | PStruct n fs => match fs with [] => n ++ post | _ => n ++ txt " {" end
  | PTuple n vs => match vs with [] => n ++ post | _ => n ++ txt "(" end
  | PList vs => match vs with [] => txt "[]" ++ post | _ => txt "[" end
  | PMap es => match es with [] => txt "{}" ++ post | _ => txt "{" end
  end.
Definition parts (fs : list (str * shape)) : list str := flat_map (fun f => map ind (rows (fst f ++ txt ": ") (snd f) (txt ","))) fs.
Definition items (vs : list shape) : list str := flat_map (fun v => map ind (rows [] v (txt ","))) vs.
Definition more_rows (d : shape) (post : str) : list str :=
  match d with
  | PAtom _ => []
  | PStruct _ fs => match fs with [] => [] | _ => parts fs ++ [txt "}" ++ post] end
  | PTuple _ vs => match vs with [] => [] | _ => items vs ++ [txt ")" ++ post] end
  | PList vs => match vs with [] => [] | _ => items vs ++ [txt "]" ++ post] end
  | PMap es => match es with [] => [] | _ => parts es ++ [txt "}" ++ post] end
  end.
Lemma rows_head pre d post : rows pre d post = (pre ++ head_row d post) :: more_rows d post.
Proof. destruct d as [x|n [|]|n [|]|[|]|[|]]; reflexivity. Qed.
(** What the first line says about the kind of tree. *)
Inductive class := CLeaf | CStruct | CTuple | CList | CMap.
Definition class_of (h : str) : class :=
  match rev h with
  | x7b :: x20 :: _ => CStruct
  | x7b :: _ => CMap
  | x28 :: _ => CTuple
  | x5b :: _ => CList
  | _ => CLeaf
  end.
Definition class_in (d : shape) : class :=
  match d with PAtom _ => CLeaf | PStruct _ _ => CStruct | PTuple _ _ => CTuple | PList [] => CLeaf | PList _ => CList | PMap [] => CLeaf | PMap _ => CMap end.
Definition post_ok (post : str) : Prop := post = [] \/ post = txt ",".
Ltac absurd_nil := match goal with H : _ <> _ |- _ => exfalso; apply H; reflexivity end.
Lemma class_head d post : sound d -> post_ok post -> class_of (head_row d post) = class_in d.
Proof.
  intros S PO. destruct d as [x|n fs|n vs|vs|es]; inversion S; subst; cbn [head_row class_in].
  - destruct H0 as [_ (r & b & -> & B1 & B2 & B3)]. unfold class_of. destruct PO as [-> | ->]; rewrite ?app_nil_r, rev_app_distr; cbn [rev app txt list_byte_of_string map]; [|reflexivity].
    destruct b; try reflexivity; congruence.
  - destruct fs as [|f fs]; [absurd_nil|]. unfold class_of. rewrite rev_app_distr. reflexivity.
  - destruct vs as [|f fs]; [absurd_nil|]. unfold class_of. rewrite rev_app_distr. reflexivity.
  - destruct vs; [|reflexivity]. destruct PO as [-> | ->]; reflexivity.
  - destruct es; [|reflexivity]. destruct PO as [-> | ->]; reflexivity.
Qed.
Lemma level_ind k x : at_level k (ind x) = at_level (S k) x.
Proof. unfold at_level, ind. replace (4 * S k)%nat with (4 * k + 4)%nat by lia. rewrite repeat_app, <- app_assoc. reflexivity. Qed.
Lemma level_inj k x y : at_level k x = at_level k y -> x = y.
Proof. apply app_inv_head. Qed.
Lemma level_map k ls : map (at_level k) (map ind ls) = map (at_level (S k)) ls.
Proof. rewrite map_map. apply map_ext. intros x. apply level_ind. Qed.
Definition colon_split : forall a b x y, ~ In x3a a -> ~ In x3a b -> a ++ txt ": " ++ x = b ++ txt ": " ++ y -> a = b /\ x = y.
Proof.
  induction a as [|c a IH]; intros [|c' b] x y A B E.
  - split; [reflexivity|]. injection E as E. exact E.
  - injection E as E1 E2. exfalso. apply B. left. symmetry. exact E1.
  - injection E as E1 E2. exfalso. apply A. left. exact E1.
  - injection E as -> E. destruct (IH b x y) as [-> ->]; [intros X; apply A; right; exact X|intros X; apply B; right; exact X|exact E|split; reflexivity].
Qed.
Definition tells (d : shape) : Prop := forall d' k pre post r r', sound d -> sound d' -> post_ok post ->
  map (at_level k) (rows pre d post) ++ r = map (at_level k) (rows pre d' post) ++ r' -> d = d' /\ r = r'.
Definition closing (c : str) : Prop := match c with [] => False | b :: _ => b <> x20 end.
Lemma close_row k c x : closing c -> at_level k c <> at_level (S k) x.
Proof. intros C E. rewrite <- level_ind in E. apply level_inj in E. subst c. apply C. reflexivity. Qed.
Lemma comma_ok : post_ok (txt ","). Proof. right. reflexivity. Qed.
Lemma items_tell vs : Forall tells vs -> Forall sound vs -> forall vs' k c r r', Forall sound vs' -> closing c ->
  map (at_level k) (items vs ++ [c]) ++ r = map (at_level k) (items vs' ++ [c]) ++ r' -> vs = vs' /\ r = r'.
Proof.
  induction vs as [|v vs IH]; intros T S vs' k c r r' S' C E; destruct vs' as [|v' vs'].
  - split; [reflexivity|]. cbn [items flat_map app map] in E. injection E as E. exact E.
  - exfalso. unfold items in E. cbn [flat_map app map] in E. rewrite rows_head in E. cbn [map app] in E. injection E as E _. rewrite level_ind in E. exact (close_row _ _ _ C E).
  - exfalso. unfold items in E. cbn [flat_map app map] in E. rewrite rows_head in E. cbn [map app] in E. injection E as E _. rewrite level_ind in E. symmetry in E. exact (close_row _ _ _ C E).
  - inversion T as [|? ? T1 T2]; inversion S as [|? ? S1 S2]; inversion S' as [|? ? S1' S2']; subst.
    unfold items in E. cbn [flat_map] in E. fold (items vs) (items vs') in E. rewrite <- !app_assoc, !(map_app _ (map ind _)), !level_map, <- !app_assoc in E.
    apply T1 in E; [|assumption|assumption|exact comma_ok]. destruct E as [-> E]. apply IH in E; try assumption. destruct E as [-> ->]. split; reflexivity.
Qed.
Lemma parts_tell fs : Forall (fun f => tells (snd f)) fs -> Forall (fun f => ~ In x3a (fst f)) fs -> Forall (fun f => sound (snd f)) fs ->
  forall fs' k c r r', Forall (fun f => ~ In x3a (fst f)) fs' -> Forall (fun f => sound (snd f)) fs' -> closing c ->
  map (at_level k) (parts fs ++ [c]) ++ r = map (at_level k) (parts fs' ++ [c]) ++ r' -> fs = fs' /\ r = r'.
Proof.
  induction fs as [|[f v] fs IH]; intros T L S fs' k c r r' L' S' C E; destruct fs' as [|[f' v'] fs'].
  - split; [reflexivity|]. cbn [parts flat_map app map] in E. injection E as E. exact E.
  - exfalso. unfold parts in E. cbn [flat_map app map] in E. rewrite rows_head in E. cbn [map app] in E. injection E as E _. rewrite level_ind in E. exact (close_row _ _ _ C E).
  - exfalso. unfold parts in E. cbn [flat_map app map] in E. rewrite rows_head in E. cbn [map app] in E. injection E as E _. rewrite level_ind in E. symmetry in E. exact (close_row _ _ _ C E).
  - inversion T as [|? ? T1 T2]; inversion S as [|? ? S1 S2]; inversion S' as [|? ? S1' S2']; inversion L as [|? ? L1 L2]; inversion L' as [|? ? L1' L2']; subst. cbn [fst snd] in *.
    unfold parts in E. cbn [flat_map fst snd] in E. fold (parts fs) (parts fs') in E. rewrite <- !app_assoc, !(map_app _ (map ind _)), !level_map, <- !app_assoc in E.
    assert (f = f') as ->.
    { rewrite !rows_head in E. cbn [map] in E. rewrite <- !app_comm_cons in E. apply (f_equal (hd [])) in E. cbn [hd] in E. apply level_inj in E. rewrite <- !app_assoc in E. apply colon_split in E; tauto. }
    apply T1 in E; [|assumption|assumption|exact comma_ok]. destruct E as [-> E]. apply IH in E; try assumption. destruct E as [-> ->]. split; reflexivity.
Qed.
Lemma rows_tell d : tells d.
Proof.
  induction d as [x|n fs IH|n vs IH|vs IH|es IH] using shape_nested; intros d' k pre post r r' S S' PO E; pose proof E as E0; rewrite !rows_head in E0; cbn [map] in E0; rewrite <- !app_comm_cons in E0; pose proof (f_equal (hd []) E0) as H; pose proof (f_equal (@tl _) E0) as R; cbn [hd tl] in H, R;
    apply level_inj in H; apply app_inv_head in H; pose proof (f_equal class_of H) as K; rewrite !class_head in K by assumption.
  - cbn [class_in] in K. destruct d' as [x'|n' fs'|n' vs'|vs'|es']; cbn [class_in] in K; try discriminate K.
    + cbn [head_row] in H. apply app_inv_tail in H. subst x'. cbn [more_rows map app] in R. split; [reflexivity|exact R].
    + exfalso. destruct vs'; [|discriminate K]. cbn [head_row] in H. apply app_inv_tail in H. inversion S as [? G| | | |]; subst. destruct G as [(b & q & Eb & B & _) _]. injection Eb as <- _. apply B. reflexivity.
    + exfalso. destruct es'; [|discriminate K]. cbn [head_row] in H. apply app_inv_tail in H. inversion S as [? G| | | |]; subst. destruct G as [(b & q & Eb & _ & B) _]. injection Eb as <- _. apply B. reflexivity.
  - cbn [class_in] in K. destruct d' as [x'|n' fs'|n' vs'|[|]|[|]]; cbn [class_in] in K; try discriminate K. inversion S; inversion S'; subst. destruct fs as [|f fs]; [absurd_nil|]. destruct fs' as [|f' fs']; [absurd_nil|].
    cbn [head_row] in H. apply app_inv_tail in H. subst n'. cbn [more_rows] in R. apply (parts_tell (f :: fs)) in R; try assumption; [|discriminate]. destruct R as [R1 R2]. split; [congruence|exact R2].
  - cbn [class_in] in K. destruct d' as [x'|n' fs'|n' vs'|[|]|[|]]; cbn [class_in] in K; try discriminate K. inversion S; inversion S'; subst. destruct vs as [|f fs]; [absurd_nil|]. destruct vs' as [|f' fs']; [absurd_nil|].
    cbn [head_row] in H. apply app_inv_tail in H. subst n'. cbn [more_rows] in R. apply (items_tell (f :: fs)) in R; try assumption; [|discriminate]. destruct R as [R1 R2]. split; [congruence|exact R2].
  - inversion S; subst. destruct vs as [|v vs].
    + cbn [class_in] in K. destruct d' as [x'|n' fs'|n' vs'|[|]|[|]]; cbn [class_in] in K; try discriminate K.
      * exfalso. cbn [head_row] in H. apply app_inv_tail in H. inversion S' as [? G| | | |]; subst. destruct G as [(b & q & Eb & B & _) _]. injection Eb as <- _. apply B. reflexivity.
      * split; [reflexivity|exact R].
      * exfalso. cbn [head_row] in H. apply app_inv_tail in H. discriminate H.
    + cbn [class_in] in K. destruct d' as [x'|n' fs'|n' vs'|[|v' vs']|[|]]; cbn [class_in] in K; try discriminate K. inversion S'; subst. cbn [more_rows] in R.
      apply (items_tell (v :: vs)) in R; try assumption; [|discriminate]. destruct R as [R1 R2]. split; [congruence|exact R2].
  - inversion S; subst. destruct es as [|v vs].
    + cbn [class_in] in K. destruct d' as [x'|n' fs'|n' vs'|[|]|[|]]; cbn [class_in] in K; try discriminate K.
      * exfalso. cbn [head_row] in H. apply app_inv_tail in H. inversion S' as [? G| | | |]; subst. destruct G as [(b & q & Eb & _ & B) _]. injection Eb as <- _. apply B. reflexivity.
      * exfalso. cbn [head_row] in H. apply app_inv_tail in H. discriminate H.
      * split; [reflexivity|exact R].
    + cbn [class_in] in K. destruct d' as [x'|n' fs'|n' vs'|[|]|[|v' vs']]; cbn [class_in] in K; try discriminate K. inversion S'; subst. cbn [more_rows] in R.
      apply (parts_tell (v :: vs)) in R; try assumption; [|discriminate]. destruct R as [R1 R2]. split; [congruence|exact R2].
Qed.
Lemma pretty_inj d d' : flat d -> flat d' -> sound d -> sound d' -> pretty d = pretty d' -> d = d'.
Proof.
  intros F F' S S' E. apply (f_equal lines) in E. rewrite !pretty_lines in E by assumption.
  destruct (rows_tell d d' 0%nat [] [] [] [] S S' (or_introl eq_refl)) as [X _]; [rewrite E; reflexivity|exact X].
Qed.
