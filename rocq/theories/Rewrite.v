(** * Rewrite: loaded tables that show the same declarations answer alike; a
    loaded table written back and loaded again. *)
From Coq Require Import List NArith ZArith Bool Lia Strings.Byte.
From Verif Require Import TypeInfo Spec BaseFacts Maps Encode EncodeProof Exact LoadProps QuerySpec Chains Sizes Follow RenumberSpec Renumber.
Import ListNotations.
Open Scope N_scope.

Lemma map_same {A} (g : A -> A) l : (forall a, g a = a) -> map g l = l.
Proof. intros H. induction l as [|a l IH]; [reflexivity|]. cbn. rewrite H, IH. reflexivity. Qed.
Lemma rename_same d : rename (fun t => t) d = d.
Proof. destruct d; try reflexivity; cbn [rename]; rewrite map_same by (intros; repeat match goal with p : (_ * _)%type |- _ => destruct p end; reflexivity); reflexivity. Qed.

(** ** From the table to declarations *)
Lemma fits_decl_ok t d : type_fits t -> view t = Some d -> Forall ascii_name (names d) -> decl_ok d.
Proof.
  intros F V A. split; [exact A|]. clear A.
  destruct t as [|h x|h x|h x|h x|h x|h x|h x|h x|h x|h x|h x|h x|h x|h x|h x|h x|h x|h x|h x]; cbn [view] in V; try discriminate V; injection V as <-;
    cbn [type_fits] in F; destruct F as [(_ & _ & Hv & _) F]; unfold u32, exactly_vlen, len in *; try exact F; try (split; [exact F|exact Hv]).
  all: destruct F as (F1 & F2 & F3); split; [exact F1|]; split; [rewrite map_length; lia|].
  all: apply Forall_forall; intros m Hm; apply in_map_iff in Hm; destruct Hm as (m0 & <- & Hm); cbn [fst snd].
  all: try (destruct F3 as [F3 F4]; rewrite Forall_forall in F4; rewrite F3; exact (F4 _ Hm)).
  all: rewrite Forall_forall in F3; pose proof (F3 _ Hm) as G; cbn beta in G.
  all: try exact G; try exact (proj2 G).
  all: destruct G as (_ & Ht & Ho); split; [exact Ht|]; cbn [snd fst]; destruct (m_offset m0); cbn [offset_fits offset_ok] in *; [destruct (h_kind_flag h); lia|exact Ho].
Qed.

Definition declared (d : decl) : option str :=
  match d with
  | DInt n _ _ _ _ _ _ | DStruct n _ _ _ | DUnion n _ _ _ | DEnum n _ _ _ | DEnum64 n _ _ _ | DFwd n _ _ | DTypedef n _ | DFunc n _ _
  | DTypeTag n _ | DVar n _ _ | DDataSec n _ _ | DFloat n _ | DDeclTag n _ _ => n
  | DPtr _ | DArray _ _ _ | DVolatile _ | DConst _ | DRestrict _ | DFuncProto _ _ => None
  end.
Lemma declared_view t : declared_name t = match view t with Some d => declared d | None => None end.
Proof. destruct t; reflexivity. Qed.

Section Same.
  Context (c : build) (ti1 ti2 : type_information).
  Hypothesis E1 : ti1 = tables (types ti1).
  Hypothesis E2 : ti2 = tables (types ti2).
  Hypothesis F1 : Forall type_fits (types ti1).
  Hypothesis F2 : Forall type_fits (types ti2).
  Hypothesis HV : map view (types ti1) = map view (types ti2).

  Lemma nth_view i : option_map view (nth_error (types ti1) i) = option_map view (nth_error (types ti2) i).
  Proof. rewrite <- !nth_error_map, HV. reflexivity. Qed.
  Lemma shows_nth ti i : ti = tables (types ti) -> shows ti i = if i =? 0 then Void else match nth_error (types ti) (N.to_nat (i - 1)) with None => Unknown | Some t => match view t with None => Void | Some d => Shown d end end.
  Proof.
    intros E. unfold shows. destruct (from_id ti i) as [t|] eqn:Fi.
    - apply (from_id_spec ti i t E) in Fi. destruct Fi as [[-> ->]|Fi]; [reflexivity|]. apply type_at_nth in Fi. destruct Fi as [Hi ->].
      destruct (N.eqb_spec i 0); [contradiction|reflexivity].
    - destruct (N.eqb_spec i 0) as [->|Hi].
      + assert (X : from_id ti 0 = Some TVoid) by (apply (from_id_spec ti 0 TVoid E); auto). congruence.
      + destruct (nth_error _ _) as [t|] eqn:N; [|reflexivity].
        assert (X : from_id ti i = Some t) by (apply (from_id_spec ti i t E); right; apply type_at_nth; auto). congruence.
  Qed.
  Lemma same_shows i : shows ti2 i = shows ti1 i.
  Proof.
    rewrite (shows_nth ti2 i E2), (shows_nth ti1 i E1). destruct (i =? 0); [reflexivity|]. pose proof (nth_view (N.to_nat (i - 1))) as N.
    destruct (nth_error (types ti1) _), (nth_error (types ti2) _); cbn in N; try discriminate; [injection N as ->|]; reflexivity.
  Qed.
  Lemma same_carries i n : carries (types ti2) i n <-> carries (types ti1) i n.
  Proof.
    unfold carries. pose proof (nth_view (N.to_nat (i - 1))) as N. split.
    - intros (t & A & D). apply type_at_nth in A. destruct A as [Hi A]. rewrite A in N. destruct (nth_error (types ti1) _) as [t'|] eqn:A'; [|discriminate]. injection N as N.
      exists t'. split; [apply type_at_nth; auto|]. rewrite declared_view, N, <- declared_view. exact D.
    - intros (t & A & D). apply type_at_nth in A. destruct A as [Hi A]. rewrite A in N. destruct (nth_error (types ti2) _) as [t'|] eqn:A'; [|discriminate]. injection N as N.
      exists t'. split; [apply type_at_nth; auto|]. rewrite declared_view, <- N, <- declared_view. exact D.
  Qed.
  Lemma option_ext {A} (a b : option A) : (forall x, a = Some x <-> b = Some x) -> a = b.
  Proof. intros H. destruct a as [x|]; [symmetry; apply H; reflexivity|]. destruct b as [x|]; [|reflexivity]. exfalso. assert (X : None = Some x) by (apply H; reflexivity). discriminate. Qed.
  Lemma same_name_of i : name_of ti2 i = name_of ti1 i.
  Proof. apply option_ext. intros n. rewrite (name_of_spec ti2 i n E2 F2), (name_of_spec ti1 i n E1 F1), same_carries. tauto. Qed.
  Lemma same_id_of n : id_of ti2 n = id_of ti1 n.
  Proof.
    apply option_ext. intros i. rewrite (id_of_spec ti2 n i E2 F2), (id_of_spec ti1 n i E1 F1), same_carries.
    split; (intros [H|(A & B & C)]; [left; exact H|right; split; [exact A|]; split; [exact B|]; intros j Hj; apply C, same_carries, Hj]).
  Qed.
  Lemma same_renumbered : renumbered (fun _ => True) (fun t => t) ti1 ti2.
  Proof. intros t _. rewrite same_shows. destruct (shows ti1 t); try reflexivity. rewrite rename_same. split; [reflexivity|]. apply Forall_forall. auto. Qed.
  Lemma same_pointer_sized s : pointer_sized ti1 s <-> pointer_sized ti2 s.
  Proof.
    unfold pointer_sized. rewrite same_id_of. split; intros (lh & h & d & A & B & ->); pose proof (same_shows lh) as S; unfold shows in S; rewrite B in S; cbn [view] in S.
    - destruct (from_id ti2 lh) as [t|] eqn:F; [|discriminate]. destruct (view t) as [d'|] eqn:V; [|discriminate]. injection S as ->.
      destruct t; try discriminate. cbn [view] in V. injection V as V1 V2 V3 V4. eexists lh, _, _. split; [exact A|]. split; [exact F|]. rewrite V2. reflexivity.
    - destruct (from_id ti1 lh) as [t|] eqn:F; [|discriminate]. destruct (view t) as [d'|] eqn:V; [|discriminate]. injection S as <-.
      destruct t; try discriminate. cbn [view] in V. injection V as V1 V2 V3 V4. eexists lh, _, _. split; [exact A|]. split; [exact F|]. rewrite V2. reflexivity.
  Qed.
  Lemma same_size_of t : size_of c ti2 t = size_of c ti1 t.
  Proof. exact (renumbered_size_of _ _ _ _ same_renumbered same_pointer_sized c t I). Qed.
  Lemma same_pointee_tid t : pointee_tid ti2 t = pointee_tid ti1 t.
  Proof. rewrite (renumbered_pointee_tid _ _ _ _ same_renumbered t I). destruct (pointee_tid ti1 t); reflexivity. Qed.
  Lemma same_offset_of n t p : offset_of_uncached n c ti2 t p = offset_of_uncached n c ti1 t p.
  Proof. rewrite (renumbered_offset_of _ _ _ _ same_renumbered same_pointer_sized n c t p I). destruct (offset_of_uncached n c ti1 t p) as [[u o]| | |]; reflexivity. Qed.
End Same.

Theorem same_views e1 e2 ti1 ti2 c : usize_bits (cfg e1) = 64 -> usize_bits (cfg e2) = 64 ->
  type_information_new e1 = Ok ti1 -> type_information_new e2 = Ok ti2 ->
  map view (map snd (get ti1)) = map view (map snd (get ti2)) -> answer_alike c ti1 ti2.
Proof.
  intros H1 H2 L1 L2 HV. destruct (loaded_types e1 ti1 H1 L1) as (E1 & F1 & _). destruct (loaded_types e2 ti2 H2 L2) as (E2 & F2 & _).
  split.
  { rewrite (get_spec ti1 E1), (get_spec ti2 E2). apply (f_equal (@length _)) in HV. rewrite !map_length in HV.
    rewrite !map_fst_combine by (rewrite map_length, seq_length; reflexivity). unfold types. rewrite !map_length, HV. reflexivity. }
  change (map view (types ti1) = map view (types ti2)) in HV. split; [symmetry; exact HV|].
  split.
  { intros i. pose proof (same_shows ti1 ti2 E1 E2 HV i) as S. unfold shows in S. destruct (from_id ti1 i) as [t1|], (from_id ti2 i) as [t2|]; cbn [option_map].
    - f_equal. destruct (view t1), (view t2); try discriminate; [injection S as ->|]; reflexivity.
    - destruct (view t1); discriminate.
    - destruct (view t2); discriminate.
    - reflexivity. }
  split; [exact (same_name_of ti1 ti2 E1 E2 F1 F2 HV)|]. split; [exact (same_id_of ti1 ti2 E1 E2 F1 F2 HV)|].
  split; [exact (same_size_of c ti1 ti2 E1 E2 F1 F2 HV)|]. split; [exact (same_pointee_tid ti1 ti2 E1 E2 HV)|].
  intros t p r. unfold offset_of_returns. split; intros (D & n & R); (split; [exact D|]); exists n;
    [rewrite <- (same_offset_of c ti1 ti2 E1 E2 F1 F2 HV)|rewrite (same_offset_of c ti1 ti2 E1 E2 F1 F2 HV)]; exact R.
Qed.

(** ** Writing a loaded table back *)
Lemma views_decls ts : Forall type_fits ts -> exists ds, map view ts = map Some ds.
Proof.
  induction 1 as [|t ts F _ (ds & E)]; [exists []; reflexivity|]. assert (V : exists d, view t = Some d) by (destruct t; [destruct F|eexists; reflexivity..]).
  destruct V as (d & V). exists (d :: ds). cbn. rewrite V, E. reflexivity.
Qed.
Lemma views_ok ts : Forall type_fits ts -> forall ds, map view ts = map Some ds -> Forall ascii_name (flat_map names ds) -> Forall decl_ok ds.
Proof.
  induction 1 as [|t ts F _ IH]; intros [|d ds] E A; try discriminate; [constructor|]. cbn in E, A. injection E as V E. apply Forall_app in A. destruct A as [A1 A2].
  constructor; [exact (fits_decl_ok t d F V A1)|]. apply IH; assumption.
Qed.
Theorem written_back e1 ti1 : usize_bits (cfg e1) = 64 -> type_information_new e1 = Ok ti1 ->
  exists ds, map view (map snd (get ti1)) = map Some ds /\
  (Forall ascii_name (flat_map names ds) -> forall version flags reserved en e2, let img := encode_with version flags reserved en ds in
   len img < 2 ^ 32 -> Forall (fun d => reserved_ok (reserved d)) ds -> en = Little \/ Forall no_enum64 ds ->
   usize_bits (cfg e2) = 64 -> serves (rd e2) img ->
   exists ti2, type_information_new e2 = Ok ti2 /\ forall c, answer_alike c ti1 ti2).
Proof.
  intros H1 L1. destruct (loaded_types e1 ti1 H1 L1) as (E1 & F1 & _). destruct (views_decls _ F1) as (ds & V). exists ds. split; [exact V|].
  intros A ver fl rs en e2 img Hl Hr Hen H2 Hs. destruct (load_encoded_same ver fl rs en ds e2 H2 Hs (views_ok _ F1 _ V A) Hr Hl Hen) as (ti2 & L2 & _ & V2).
  exists ti2. split; [exact L2|]. intros c. apply (same_views e1 e2); try assumption. change (map view (types ti1) = map view (types ti2)). rewrite V2. exact V.
Qed.
