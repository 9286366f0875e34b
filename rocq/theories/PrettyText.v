(** * PrettyText: the trees of the types of the library. *)
From Coq Require Import Strings.String.
From Coq Require Import List NArith ZArith Bool Lia Strings.Byte.
From Verif Require Import TypeInfo Spec BaseFacts PathSpec Debug Pretty PrettySpec PrettyFacts DebugSpec DebugFacts DebugText.
Import ListNotations.
Open Scope N_scope.

(** ** In one line they are the texts of Debug.v *)
Lemma one_header h : one_line (header_shape h) = debug_header h. Proof. reflexivity. Qed.
Lemma one_name o : one_line (name_shape o) = debug_name o. Proof. destruct o; reflexivity. Qed.
Lemma one_offset o : one_line (offset_shape o) = debug_offset o. Proof. destruct o; reflexivity. Qed.
Lemma one_member m : one_line (member_shape m) = debug_member m.
Proof. unfold member_shape. cbn [one_line map fst snd]. rewrite one_name, one_offset. reflexivity. Qed.
Lemma one_parameter p : one_line (parameter_shape p) = debug_parameter p.
Proof. unfold parameter_shape. cbn [one_line map fst snd]. rewrite one_name. reflexivity. Qed.
Lemma one_variable v : one_line (variable_shape v) = debug_variable v. Proof. reflexivity. Qed.
Lemma one_integer v : one_line (integer_shape v) = debug_integer v. Proof. destruct v; reflexivity. Qed.
Lemma one_value n v : one_line (value_shape n v) = debug_value n v.
Proof. unfold value_shape. cbn [one_line map fst snd]. rewrite one_integer. reflexivity. Qed.
Lemma one_list {A} (f : A -> shape) (g : A -> str) l : (forall a, one_line (f a) = g a) -> one_line (PList (map f l)) = debug_list (map g l).
Proof. intros H. cbn [one_line]. rewrite map_map, (map_ext _ g) by exact H. reflexivity. Qed.
Lemma one_variant n h fs : fs <> [] -> one_line (variant_shape n h fs) = debug_variant n h (map (fun f => fst f ++ txt ": " ++ one_line (snd f)) fs).
Proof. intros H. destruct fs as [|f fs]; [absurd_nil|]. reflexivity. Qed.
Lemma one_type t : one_line (type_shape t) = debug_type t.
Proof.
  destruct t; cbn [type_shape debug_type]; try reflexivity; rewrite one_variant by discriminate; cbn [data_fields]; unfold named_link_fields, enum_fields, members_fields; cbn [map fst snd];
    rewrite ?one_name, ?(one_list _ _ _ one_member), ?(one_list _ _ _ one_parameter), ?(one_list _ _ _ one_variable), ?(one_list _ _ _ (one_value _)); reflexivity.
Qed.
Lemma one_table l : one_line (table_shape l) = debug_table l.
Proof. unfold table_shape, debug_table, debug_map. cbn [one_line]. rewrite !map_map. cbn [fst snd]. do 3 f_equal. apply map_ext. intros e. rewrite one_type. reflexivity. Qed.

(** ** They contain no line breaks, and values do not look like anything else *)
Lemma words_flat x : Forall wordlike x -> no_newline x.
Proof. intros F H. rewrite Forall_forall in F. specialize (F _ H). unfold wordlike in F. cbn in F. lia. Qed.
Lemma words_good x : Forall wordlike x -> x <> [] -> good_atom x.
Proof.
  intros F N0. assert (W : forall b, wordlike b -> b <> x5b /\ b <> x7b /\ b <> x28) by (intros b Hb; repeat split; intros ->; unfold wordlike in Hb; cbn in Hb; lia). split.
  - destruct x as [|b r]; [congruence|]. inversion F; subst. exists b, r. destruct (W b) as (A & B & _); auto.
  - destruct (exists_last N0) as (r & b & ->). apply Forall_app in F. destruct F as [_ F]. inversion F; subst. exists r, b. destruct (W b) as (A & B & C); auto.
Qed.
Lemma number_nonempty n : digits_of_N n <> []. Proof. destruct (number_head n) as (b & l & -> & _). discriminate. Qed.
Lemma escape_flat s : no_newline (escape s).
Proof.
  assert (C : forall b, no_newline (escape_char (bval b) (utf8_of_latin1 b))) by (intros b H; destruct b; vm_compute in H; repeat destruct H as [H|H]; try discriminate H; contradiction).
  remember (List.length s) as n eqn:Hn. revert s Hn. induction n as [n IH] using lt_wf_ind. intros s Hn.
  destruct s as [|b s]; [intros []|]. cbn [List.length] in Hn. cbn [escape].
  destruct (N.ltb_spec (bval b) 0x80) as [H|H].
  - pose proof (C b) as L. unfold utf8_of_latin1 in L. rewrite (proj2 (N.ltb_lt _ _) H) in L. apply nn_app; [exact L|]. apply (IH (List.length s) ltac:(lia) s eq_refl).
  - assert (P : b <> newline) by (intros ->; vm_compute in H; apply H; reflexivity).
    destruct s as [|c s]; [intros [X|[]]; exact (P X)|].
    destruct (two_bytes b c) as [m|] eqn:T.
    + destruct (two_bytes_char b c m T) as (x & <- & E). rewrite E. apply nn_app; [apply C|]. apply (IH (List.length s)); cbn [List.length] in Hn; [lia|reflexivity].
    + intros [X|X]; [exact (P X)|]. revert X. apply (IH (List.length (c :: s))); [lia|reflexivity].
Qed.
Lemma debug_str_flat s : no_newline (debug_str s). Proof. unfold debug_str. apply nn_app; [intros [H|[]]; discriminate H|]. apply nn_app; [apply escape_flat|intros [H|[]]; discriminate H]. Qed.
Lemma debug_str_good s : good_atom (debug_str s).
Proof. split; [exists x22, (escape s ++ [x22])|exists (x22 :: escape s), x22]; repeat split; try reflexivity; discriminate. Qed.
Lemma signed_good z : good_atom (digits_of_Z z).
Proof.
  destruct z; try (apply words_good; [apply number_word|apply number_nonempty]). unfold digits_of_Z.
  destruct (words_good _ (number_word (Z.abs_N (Z.neg p))) (number_nonempty _)) as [_ (r & b & E & B)]. rewrite E. split.
  - exists x2d, (r ++ [b]). repeat split; try reflexivity; discriminate.
  - exists (x2d :: r), b. split; [reflexivity|exact B].
Qed.
Section Texts.
  Context (P : str -> Prop) (Pascii : forall x, ascii_text x = true -> P x).
  Lemma Pword x : Forall wordlike x -> P x.
  Proof. intros F. apply Pascii. unfold ascii_text. apply forallb_forall. intros b Hb. rewrite Forall_forall in F. specialize (F b Hb). unfold wordlike in F. apply andb_true_iff. rewrite !N.leb_le. lia. Qed.
  Lemma Pnumber n : P (digits_of_N n). Proof. apply Pword, number_word. Qed.
  Lemma Psigned z : P (digits_of_Z z).
  Proof. destruct z; try apply Pnumber. apply Pascii. unfold digits_of_Z, ascii_text. rewrite forallb_app. apply andb_true_iff. split; [reflexivity|].
    apply forallb_forall. intros b Hb. pose proof (number_word (Z.abs_N (Z.neg p))) as F. rewrite Forall_forall in F. specialize (F b Hb). unfold wordlike in F. apply andb_true_iff. rewrite !N.leb_le. lia. Qed.
  Lemma name_texts o : (forall s, o = Some s -> P (debug_str s)) -> all_texts P (name_shape o).
  Proof. intros H. destruct o as [s|]; cbn [name_shape]; [|constructor; apply Pascii; reflexivity]. constructor; [apply Pascii; reflexivity|]. repeat constructor. apply H. reflexivity. Qed.
  Lemma kind_word k : all_words (kind_debug k) = true. Proof. destruct k; reflexivity. Qed.
  Ltac tt := repeat first [assumption | apply Pnumber | apply Psigned | apply all_atom | apply all_struct | apply all_tuple | apply all_list | apply name_texts
    | apply Forall_nil | apply Forall_cons | apply Pascii; reflexivity ]; cbn [fst snd].
  Lemma header_texts h : all_texts P (header_shape h).
  Proof. unfold header_shape, number, truth. tt. - apply Pword, all_words_ok, kind_word. - destruct (h_kind_flag h); apply Pascii; reflexivity. Qed.
  Lemma offset_texts o : all_texts P (offset_shape o). Proof. destruct o; unfold offset_shape, number; tt. Qed.
  Lemma integer_texts v : all_texts P (integer_shape v). Proof. destruct v; unfold integer_shape, number; tt. Qed.
  Lemma truth_texts b : all_texts P (truth b). Proof. destruct b; unfold truth; tt. Qed.
  Lemma list_texts {A} (f : A -> shape) l : (forall a, In a l -> all_texts P (f a)) -> all_texts P (PList (map f l)).
  Proof. intros H. constructor. apply Forall_map. apply Forall_forall. exact H. Qed.
  Ltac t2 := repeat first [assumption | apply header_texts | apply offset_texts | apply integer_texts | apply truth_texts | apply Pnumber | apply all_atom | apply all_struct | apply all_tuple | apply all_list | apply name_texts
    | apply Forall_nil | apply Forall_cons | apply Pascii; reflexivity ]; cbn [fst snd].
  Lemma type_texts t : (forall k s, name_in t k s -> P (debug_str s)) -> all_texts P (type_shape t).
  Proof.
    intros H. pose proof (fun h s (E : type_header t = Some h) (D : declared_name t = Some s) => H _ _ (own_name t h s E D)) as H0.
    destruct t; cbn [type_shape]; [constructor; apply Pascii; reflexivity|..]; specialize (H0 h); cbn [type_header declared_name] in H0;
      unfold variant_shape; cbn [data_fields]; unfold named_link_fields, enum_fields, members_fields, link_fields, number; t2;
      try (intros s Hs; exact (H0 s eq_refl Hs)).
    - apply Forall_map, Forall_forall. intros v Hv. unfold value_shape. t2; apply (H None), enumerator_name; exact Hv.
    - apply Forall_map, Forall_forall. intros v Hv. unfold parameter_shape, number. t2. intros s Hs. eapply H. eapply parameter_name; eassumption.
    - apply Forall_map, Forall_forall. intros v Hv. unfold member_shape, number. t2; intros s Hs; eapply H; eapply member_name; eassumption.
    - apply Forall_map, Forall_forall. intros v Hv. unfold member_shape, number. t2; intros s Hs; eapply H; eapply member_name; eassumption.
    - destruct (var_linkage_type d); apply Pascii; reflexivity.
    - apply Forall_map, Forall_forall. intros v Hv. unfold value_shape. t2; apply (H None), enumerator_name; exact Hv.
    - apply Forall_map, Forall_forall. intros v Hv. unfold variable_shape, number. t2.
  Qed.
  Lemma table_texts l : (forall i t k s, In (i, t) l -> name_in t k s -> P (debug_str s)) -> all_texts P (table_shape l).
  Proof.
    intros H. unfold table_shape. constructor; apply Forall_map, Forall_forall; intros [i t] Hi; cbn [fst snd]; [apply Pnumber|]. apply type_texts. intros k s. exact (H i t k s Hi).
  Qed.
End Texts.
Lemma type_flat t : flat (type_shape t). Proof. apply type_texts; [exact nn_ascii|]. intros k s _. apply debug_str_flat. Qed.
Lemma table_flat l : flat (table_shape l). Proof. apply table_texts; [exact nn_ascii|]. intros i t k s _ _. apply debug_str_flat. Qed.

Lemma word_sound x : all_words x = true -> x <> [] -> sound (PAtom x). Proof. intros A B. constructor. apply words_good; [apply all_words_ok; exact A|exact B]. Qed.
Lemma number_sound n : sound (number n). Proof. constructor. apply words_good; [apply number_word|apply number_nonempty]. Qed.
Lemma truth_sound b : sound (truth b). Proof. destruct b; apply word_sound; first [reflexivity|discriminate]. Qed.
Lemma kind_sound k : sound (PAtom (kind_debug k)). Proof. destruct k; apply word_sound; first [reflexivity|discriminate]. Qed.
Lemma linkage_sound k : sound (PAtom (debug_linkage k)). Proof. destruct k; apply word_sound; first [reflexivity|discriminate]. Qed.
Lemma str_sound s : sound (PAtom (debug_str s)). Proof. constructor. apply debug_str_good. Qed.
Lemma name_sound o : sound (name_shape o).
Proof. destruct o; [|apply word_sound; [reflexivity|discriminate]]. constructor; [discriminate|]. repeat constructor; apply debug_str_good. Qed.
Ltac no_colon := let H := fresh in intros H; vm_compute in H; repeat destruct H as [H|H]; try discriminate H; contradiction.
Ltac ss := repeat first [apply number_sound | apply truth_sound | apply kind_sound | apply linkage_sound | apply str_sound | apply name_sound | apply sound_struct; [discriminate| |] | apply sound_tuple; [discriminate|]
  | apply sound_list | apply Forall_nil | apply Forall_cons]; cbn [fst snd].
Lemma offset_sound o : sound (offset_shape o). Proof. destruct o; unfold offset_shape; ss. Qed.
Lemma integer_sound v : sound (integer_shape v). Proof. destruct v; unfold integer_shape; ss. constructor. apply signed_good. Qed.
Lemma member_sound v : sound (member_shape v). Proof. unfold member_shape. ss; try no_colon. apply offset_sound. Qed.
Lemma parameter_sound v : sound (parameter_shape v). Proof. unfold parameter_shape. ss; no_colon. Qed.
Lemma variable_sound v : sound (variable_shape v). Proof. unfold variable_shape. ss; no_colon. Qed.
Lemma value_sound n v : sound (value_shape n v). Proof. unfold value_shape. ss; try no_colon. apply integer_sound. Qed.
Lemma header_sound v : sound (header_shape v). Proof. unfold header_shape. ss; no_colon. Qed.
Lemma mapped_sound {A} (f : A -> shape) l : (forall a, sound (f a)) -> Forall sound (map f l).
Proof. intros H. apply Forall_map, Forall_forall. intros a _. apply H. Qed.
Lemma type_sound t : sound (type_shape t).
Proof.
  destruct t; cbn [type_shape]; [apply word_sound; [reflexivity|discriminate]|..]; unfold variant_shape; cbn [data_fields]; unfold named_link_fields, enum_fields, members_fields, link_fields; ss;
    try (apply header_sound); try (apply mapped_sound; first [exact member_sound|exact parameter_sound|exact variable_sound|intros; apply value_sound]); no_colon.
Qed.
Lemma table_sound l : sound (table_shape l).
Proof.
  unfold table_shape. constructor; apply Forall_map, Forall_forall; intros [i t] _; cbn [fst snd]; [|apply type_sound].
  intros H. pose proof (number_word i) as F. rewrite Forall_forall in F. specialize (F _ H). unfold wordlike in F. cbn in F. lia.
Qed.
Lemma pretty_type_inj t t' : pretty_type t = pretty_type t' -> debug_type t = debug_type t'.
Proof. intros E. apply pretty_inj in E; try apply type_flat; try apply type_sound. rewrite <- !one_type. f_equal. exact E. Qed.
Lemma pretty_table_inj l l' : pretty_table l = pretty_table l' -> debug_table l = debug_table l'.
Proof. intros E. apply pretty_inj in E; try apply table_flat; try apply table_sound. rewrite <- !one_table. f_equal. exact E. Qed.

(** ** Every value stands in its lines *)
Definition under (pre : str) (d : shape) (post : str) (k : nat) (ls : list str) : Prop := exists A B, rows pre d post = A ++ map (at_level k) ls ++ B.
Lemma at_level_0 ls : map (at_level 0) ls = ls. Proof. rewrite <- (map_id ls) at 2. apply map_ext. reflexivity. Qed.
Lemma under_here pre d post : under pre d post 0 (rows pre d post).
Proof. exists [], []. rewrite at_level_0, app_nil_r. reflexivity. Qed.
Lemma ind_level k x : ind (at_level k x) = at_level (S k) x.
Proof. unfold ind, at_level. replace (4 * S k)%nat with (4 + 4 * k)%nat by lia. rewrite repeat_app, <- app_assoc. reflexivity. Qed.
Lemma under_in {X} (f : X -> list str) l x A B k ls : In x l -> f x = A ++ map (at_level k) ls ++ B ->
  exists A' B', flat_map (fun x => map ind (f x)) l = A' ++ map (at_level (S k)) ls ++ B'.
Proof.
  intros H E. apply in_split in H. destruct H as (l1 & l2 & ->). exists (flat_map (fun x => map ind (f x)) l1 ++ map ind A), (map ind B ++ flat_map (fun x => map ind (f x)) l2).
  rewrite flat_map_app. cbn [flat_map]. rewrite E, !map_app, (map_map (at_level k) ind), (map_ext (fun x => ind (at_level k x)) (at_level (S k)) (ind_level k)). rewrite <- !app_assoc. reflexivity.
Qed.
Lemma under_field pre n fs post f v k ls : In (f, v) fs -> under (f ++ txt ": ") v (txt ",") k ls -> under pre (PStruct n fs) post (S k) ls.
Proof.
  intros H (A & B & E). destruct (under_in (fun f => rows (fst f ++ txt ": ") (snd f) (txt ",")) fs (f, v) A B k ls H E) as (A' & B' & E'). unfold under. cbn [rows].
  destruct fs as [|g fs]; [destruct H|]. rewrite E'. exists ((pre ++ n ++ txt " {") :: A'), (B' ++ [txt "}" ++ post]). rewrite <- !app_assoc. reflexivity.
Qed.
Lemma under_value pre n vs post v k ls : In v vs -> under [] v (txt ",") k ls -> under pre (PTuple n vs) post (S k) ls.
Proof.
  intros H (A & B & E). destruct (under_in (fun v => rows [] v (txt ",")) vs v A B k ls H E) as (A' & B' & E'). unfold under. cbn [rows].
  destruct vs as [|g fs]; [destruct H|]. rewrite E'. exists ((pre ++ n ++ txt "(") :: A'), (B' ++ [txt ")" ++ post]). rewrite <- !app_assoc. reflexivity.
Qed.
Lemma under_item pre vs post v k ls : In v vs -> under [] v (txt ",") k ls -> under pre (PList vs) post (S k) ls.
Proof.
  intros H (A & B & E). destruct (under_in (fun v => rows [] v (txt ",")) vs v A B k ls H E) as (A' & B' & E'). unfold under. cbn [rows].
  destruct vs as [|g fs]; [destruct H|]. rewrite E'. exists ((pre ++ txt "[") :: A'), (B' ++ [txt "]" ++ post]). rewrite <- !app_assoc. reflexivity.
Qed.
Lemma under_entry pre es post f v k ls : In (f, v) es -> under (f ++ txt ": ") v (txt ",") k ls -> under pre (PMap es) post (S k) ls.
Proof.
  intros H (A & B & E). destruct (under_in (fun f => rows (fst f ++ txt ": ") (snd f) (txt ",")) es (f, v) A B k ls H E) as (A' & B' & E'). unfold under. cbn [rows].
  destruct es as [|g fs]; [destruct H|]. rewrite E'. exists ((pre ++ txt "{") :: A'), (B' ++ [txt "}" ++ post]). rewrite <- !app_assoc. reflexivity.
Qed.
Lemma type_variant_shape t h : type_header t = Some h -> exists n, type_shape t = variant_shape n h (data_fields t) /\ txt n = variant_name t.
Proof. intros H. destruct t; cbn [type_header] in H; try discriminate H; injection H as ->; eexists; split; reflexivity. Qed.
Lemma under_data t h pre post f v k ls : type_header t = Some h -> In (f, v) (data_fields t) -> under (f ++ txt ": ") v (txt ",") k ls -> under pre (type_shape t) post (3 + k) ls.
Proof.
  intros H I U. destruct (type_variant_shape t h H) as (n & -> & _). unfold variant_shape.
  eapply under_value; [left; reflexivity|]. eapply under_field; [right; left; reflexivity|]. eapply under_field; [exact I|exact U].
Qed.
Lemma under_header t h pre post f v k ls : type_header t = Some h -> In (f, v) [(txt "kind", PAtom (kind_debug (h_kind h))); (txt "name_offset", number (h_name_offset h)); (txt "vlen", number (h_vlen h));
    (txt "kind_flag", truth (h_kind_flag h)); (txt "size_or_type", number (h_size_or_type h))] -> under (f ++ txt ": ") v (txt ",") k ls -> under pre (type_shape t) post (3 + k) ls.
Proof.
  intros H I U. destruct (type_variant_shape t h H) as (n & -> & _). unfold variant_shape.
  eapply under_value; [left; reflexivity|]. eapply under_field; [left; reflexivity|]. unfold header_shape. eapply under_field; [exact I|exact U].
Qed.
Lemma under_lines d k ls : flat d -> under [] d [] k ls -> has_lines (map (at_level k) ls) (pretty d).
Proof. intros F (A & B & E). exists A, B. rewrite pretty_lines by exact F. exact E. Qed.
Lemma number_stands n pre k : stands n pre (Count k) (map (at_level n) (rows pre (number k) (txt ","))).
Proof. cbn [rows number map]. rewrite <- count_text. apply stands_number. Qed.
Lemma truth_stands n pre b : stands n pre (Flag b) (map (at_level n) (rows pre (truth b) (txt ","))).
Proof. destruct b; [apply (stands_flag n pre true)|apply (stands_flag n pre false)]. Qed.
Lemma word_stands n pre w : stands n pre (Word w) (map (at_level n) (rows pre (PAtom w) (txt ","))).
Proof. apply stands_word. Qed.
Lemma level_up n x : at_level n (ind x) = at_level (S n) x. Proof. apply level_ind. Qed.
Lemma name_stands n pre o : stands n pre (Named o) (map (at_level n) (rows pre (name_shape o) (txt ","))).
Proof.
  destruct o as [s|]; [|apply stands_none]. cbn [name_shape rows flat_map map app]. rewrite level_up. apply stands_some. apply str_quoted.
Qed.
Lemma offset_stands n pre o : stands n pre (Place o) (map (at_level n) (rows pre (offset_shape o) (txt ","))).
Proof. destruct o; cbn [offset_shape number rows flat_map map app]; rewrite !level_up; [apply stands_byte|apply stands_bits]. Qed.
Lemma pretty_shows t label v : shows t label v -> exists ls, stands 3 (words label ++ words ": ") v ls /\ has_lines ls (pretty_type t).
Proof.
  intros S.
  assert (K : forall sh, stands 3 (words label ++ words ": ") v (map (at_level 3) (rows (words label ++ words ": ") sh (txt ","))) ->
    under [] (type_shape t) [] (3 + 0) (rows (words label ++ words ": ") sh (txt ",")) -> exists ls, stands 3 (words label ++ words ": ") v ls /\ has_lines ls (pretty_type t)).
  { intros sh W U. eexists. split; [exact W|]. exact (under_lines _ _ _ (type_flat t) U). }
  assert (H1 : forall h, type_header t = Some h -> forall sh, In (txt label, sh) [(txt "kind", PAtom (kind_debug (h_kind h))); (txt "name_offset", number (h_name_offset h)); (txt "vlen", number (h_vlen h));
    (txt "kind_flag", truth (h_kind_flag h)); (txt "size_or_type", number (h_size_or_type h))] -> under [] (type_shape t) [] (3 + 0) (rows (words label ++ words ": ") sh (txt ","))).
  { intros h E sh I. apply (under_header t h [] [] (txt label) sh 0 _ E I). apply under_here. }
  assert (D1 : forall h, type_header t = Some h -> forall sh, In (txt label, sh) (data_fields t) -> under [] (type_shape t) [] (3 + 0) (rows (words label ++ words ": ") sh (txt ","))).
  { intros h E sh I. apply (under_data t h [] [] (txt label) sh 0 _ E I). apply under_here. }
  destruct S;
    repeat match goal with H : _ \/ _ |- _ => destruct H end;
    try match goal with H : t = _ |- _ => subst t end;
    try match goal with H : type_header t = Some ?h |- _ => specialize (H1 h H) end;
    try (specialize (D1 _ eq_refl); cbn [data_fields] in D1; unfold named_link_fields, enum_fields, members_fields, link_fields in D1);
    try (eapply K; [first [apply number_stands|apply truth_stands|apply word_stands]|first [apply H1; cbn [In]; tauto | apply D1; cbn [In]; tauto]]).
  - eapply K; [apply word_stands|]. apply H1. left. f_equal. f_equal. match goal with H : h_kind _ = _ |- _ => rewrite H end. destruct t; try reflexivity. discriminate.
  - eapply K; [apply name_stands|]. destruct t; cbn [declared_name] in *; try discriminate; apply (D1 _ eq_refl); cbn [data_fields]; unfold named_link_fields, enum_fields, members_fields, link_fields;
      match goal with H : _ = Some _ |- _ => rewrite H end; cbn [In]; tauto.
Qed.
Lemma struct_stands n name (l : list (String.string * value * shape)) : l <> [] ->
  (forall f v sh, In (f, v, sh) l -> forall pre, stands (S n) pre v (map (at_level (S n)) (rows pre sh (txt ",")))) ->
  exists ls, stand (S n) (map fst l) ls /\
    map (at_level n) (rows [] (PStruct (txt name) (map (fun e => (txt (fst (fst e)), snd e)) l)) (txt ",")) = [at_level n (words name ++ words " {")] ++ ls ++ [at_level n (words "},")].
Proof.
  intros N0 W. exists (flat_map (fun e => map (at_level (S n)) (rows (txt (fst (fst e)) ++ txt ": ") (snd e) (txt ","))) l). split.
  - clear N0. induction l as [|[[f v] sh] l IH]; [constructor|]. cbn [map flat_map fst snd]. apply stand_more; [apply (W f v sh); left; reflexivity|]. apply IH. intros f0 v0 s0 H. apply (W f0). right. exact H.
  - destruct l as [|e l]; [absurd_nil|]. revert e l N0 W. intros e l _ _. cbn [rows]. remember (e :: l) as l0 eqn:E0.
    replace (map (fun e => (txt (fst (fst e)), snd e)) l0) with ((txt (fst (fst e)), snd e) :: map (fun e => (txt (fst (fst e)), snd e)) l) by (rewrite E0; reflexivity).
    replace ((txt (fst (fst e)), snd e) :: map (fun e => (txt (fst (fst e)), snd e)) l) with (map (fun e => (txt (fst (fst e)), snd e)) l0) by (rewrite E0; reflexivity). clear E0.
    rewrite !map_app. apply f_equal2; [reflexivity|]. apply f_equal2; [|reflexivity]. induction l0 as [|[[f v] sh] l0 IH]; [reflexivity|]. cbn [map flat_map fst snd]. rewrite map_app, level_map, IH. reflexivity.
Qed.
Ltac in_any := let H := fresh in intros ? ? ? H; cbn [In] in H;
  repeat match goal with H : _ \/ _ |- _ => destruct H end; try contradiction; match goal with H : (_, _, _) = _ |- _ => injection H as <- <- <- end; intros pre;
  first [apply number_stands|apply truth_stands|apply name_stands|apply offset_stands].
Lemma under_list_item {A} t h (p : A -> shape) a l f : type_header t = Some h -> In a l -> In (txt f, PList (map p l)) (data_fields t) ->
  has_lines (map (at_level 4) (rows [] (p a) (txt ","))) (pretty_type t).
Proof.
  intros H Ha I. apply under_lines; [apply type_flat|]. apply (under_data t h [] [] (txt f) _ 1 _ H I). eapply under_item; [apply in_map; exact Ha|apply under_here].
Qed.
Lemma pretty_entries t name fields : has_entry t name fields -> exists ls, stand 5 fields ls /\
  has_lines ([at_level 4 (words name ++ words " {")] ++ ls ++ [at_level 4 (words "},")]) (pretty_type t).
Proof.
  intros [m H|p H|v H].
  - destruct (struct_stands 4 "Member" [("name_offset"%string, Count (m_name_offset m), number (m_name_offset m)); ("name"%string, Named (m_name m), name_shape (m_name m));
        ("tid"%string, Count (m_tid m), number (m_tid m)); ("offset"%string, Place (m_offset m), offset_shape (m_offset m))]) as (ls & A & B); [discriminate|in_any|].
    exists ls. split; [exact A|]. rewrite <- B. destruct t; try contradiction; cbn [members] in H; (match goal with |- has_lines _ (pretty_type ?t0) => apply (under_list_item t0 h member_shape m (member_list d) "member_list" eq_refl H) end); right; right; left; reflexivity.
  - destruct (struct_stands 4 "Parameter" [("name_offset"%string, Count (p_name_offset p), number (p_name_offset p)); ("name"%string, Named (p_name p), name_shape (p_name p));
        ("tid"%string, Count (p_tid p), number (p_tid p))]) as (ls & A & B); [discriminate|in_any|].
    exists ls. split; [exact A|]. rewrite <- B. destruct t; try contradiction; cbn [parameters] in H; (match goal with |- has_lines _ (pretty_type ?t0) => apply (under_list_item t0 h parameter_shape p (parameter_list d) "parameter_list" eq_refl H) end); left; reflexivity.
  - destruct (struct_stands 4 "Variable" [("var_decl_id"%string, Count (var_decl_id v), number (var_decl_id v)); ("offset"%string, Count (v_offset v), number (v_offset v));
        ("var_size"%string, Count (var_size v), number (var_size v))]) as (ls & A & B); [discriminate|in_any|].
    exists ls. split; [exact A|]. rewrite <- B. destruct t; try contradiction; cbn [variables] in H; (match goal with |- has_lines _ (pretty_type ?t0) => apply (under_list_item t0 h variable_shape v (variable_list d) "variable_list" eq_refl H) end); right; right; left; reflexivity.
Qed.
Lemma value_rows n name v : enumerator_lines n name v (map (at_level n) (rows [] (value_shape name v) (txt ","))).
Proof.
  exists (debug_str (nv_name v)). split; [apply str_quoted|]. unfold value_shape. cbn [rows flat_map map app fst snd]. destruct (nv_value v); cbn [integer_shape number rows flat_map map app fst snd]; rewrite !level_up, ?integer_text_eq; reflexivity.
Qed.
Lemma pretty_enumerators t v : In v (enumerators t) -> exists ls, enumerator_lines 4 (value_struct t) v ls /\ has_lines ls (pretty_type t).
Proof.
  intros H. destruct t; try contradiction; cbn [enumerators] in H; eexists; (split; [apply value_rows|]);
    (match goal with |- has_lines _ (pretty_type ?t0) => apply (under_list_item t0 h (value_shape _) v (named_value_list d) "named_value_list" eq_refl H) end); right; right; left; reflexivity.
Qed.

(** ** How many lines *)
Lemma list_rows {A} (p : A -> shape) (g : A -> nat) l pre post : (forall a, List.length (rows [] (p a) (txt ",")) = g a) -> List.length (rows pre (PList (map p l)) post) = sum_lines g l.
Proof.
  intros H. destruct l as [|a l]; [reflexivity|]. unfold sum_lines. cbn [rows]. change (map p (a :: l)) with (p a :: map p l) at 1. cbv iota. remember (a :: l) as l0 eqn:E0. clear E0.
  rewrite !app_length. cbn [List.length]. assert (X : List.length (flat_map (fun v => map ind (rows [] v (txt ","))) (map p l0)) = fold_right (fun a n => (g a + n)%nat) 0%nat l0).
  { induction l0 as [|b l0 IH]; [reflexivity|]. cbn [map flat_map fold_right]. rewrite app_length, map_length, H, IH. reflexivity. }
  rewrite X. lia.
Qed.
Lemma name_rows o pre post : List.length (rows pre (name_shape o) post) = name_lines o. Proof. destruct o; reflexivity. Qed.
Lemma member_rows m : List.length (rows [] (member_shape m) (txt ",")) = member_lines m.
Proof. unfold member_shape, member_lines. cbn [rows flat_map fst snd app]. rewrite <- !app_assoc. cbn [List.length number rows map app]. rewrite !app_length, !map_length, name_rows. destruct (m_offset m); cbn [List.length rows offset_shape number flat_map map app]; lia. Qed.
Lemma parameter_rows m : List.length (rows [] (parameter_shape m) (txt ",")) = (4 + name_lines (p_name m))%nat.
Proof. unfold parameter_shape. cbn [rows flat_map fst snd app]. cbn [List.length number rows map app]. rewrite !app_length, !map_length, name_rows. cbn [List.length]. lia. Qed.
Lemma variable_rows m : List.length (rows [] (variable_shape m) (txt ",")) = 5%nat. Proof. reflexivity. Qed.
Lemma value_rows_length n m : List.length (rows [] (value_shape n m) (txt ",")) = 6%nat. Proof. unfold value_shape. destruct (nv_value m); reflexivity. Qed.
Lemma variant_rows n h fs : fs <> [] -> List.length (rows [] (variant_shape n h fs) []) = (13 + fold_right (fun f k => List.length (rows (fst f ++ txt ": ") (snd f) (txt ",")) + k)%nat 0%nat fs)%nat.
Proof.
  intros H. destruct fs as [|f fs]; [absurd_nil|]. unfold variant_shape. cbn [rows]. remember (f :: fs) as l eqn:E.
  assert (X : List.length (flat_map (fun f => map ind (rows (fst f ++ txt ": ") (snd f) (txt ","))) l) = fold_right (fun f k => List.length (rows (fst f ++ txt ": ") (snd f) (txt ",")) + k)%nat 0%nat l).
  { clear. induction l as [|b l IH]; [reflexivity|]. cbn [flat_map fold_right]. rewrite app_length, map_length, IH. reflexivity. }
  rewrite <- X. destruct l as [|g l]; [discriminate E|]. clear E X. cbn [flat_map].
  cbn [flat_map map fst snd header_shape number truth rows app]. repeat (progress (rewrite ?app_length, ?map_length; cbn [List.length])). lia.
Qed.
Lemma pretty_count t : List.length (lines (pretty_type t)) = type_lines t.
Proof.
  unfold pretty_type. rewrite pretty_lines by apply type_flat.
  destruct t; cbn [type_shape]; [reflexivity|..]; rewrite variant_rows by discriminate; cbn [data_fields]; unfold named_link_fields, enum_fields, members_fields, link_fields; cbn [fold_right fst snd];
    rewrite ?name_rows, ?(list_rows _ _ _ _ _ member_rows), ?(list_rows _ _ _ _ _ parameter_rows), ?(list_rows _ _ _ _ _ variable_rows), ?(list_rows _ _ _ _ _ (value_rows_length _)); cbn [rows number truth List.length type_lines]; lia.
Qed.

(** ** The table *)
Lemma rows_around pre d post : rows pre d post = with_front pre (with_end post (rows [] d [])).
Proof.
  assert (X : forall h b c, with_front pre (with_end post (([] ++ h) :: b ++ [c ++ []])) = (pre ++ h) :: b ++ [c ++ post]).
  { intros h b c. unfold with_end. rewrite app_nil_r. change (([] ++ h) :: b ++ [c]) with ((h :: b) ++ [c]). rewrite removelast_last, last_last. reflexivity. }
  destruct d as [x|n [|]|n [|]|[|]|[|]]; cbn [rows]; try (unfold with_end; cbn [removelast last app with_front]; rewrite ?app_nil_r, <- ?app_assoc; reflexivity); cbn [app]; rewrite <- X; reflexivity.
Qed.
Lemma pretty_table_lines l : lines (pretty_table l) = table_lines pretty_type l.
Proof.
  unfold pretty_table. rewrite pretty_lines by apply table_flat. destruct l as [|e l]; [reflexivity|]. unfold table_shape, table_lines. cbn [rows]. remember (e :: l) as l0 eqn:E0.
  assert (X : forall l, flat_map (fun f => map ind (rows (fst f ++ txt ": ") (snd f) (txt ","))) (map (fun e => (digits_of_N (fst e), type_shape (snd e))) l) =
    flat_map (fun e => map (at_level 1) (with_front (decimal (fst e) ++ words ": ") (with_end (words ",") (lines (pretty_type (snd e)))))) l).
  { clear. induction l as [|[i t] l IH]; [reflexivity|]. cbn [map flat_map fst snd]. rewrite IH, rows_around. unfold pretty_type. rewrite pretty_lines by apply type_flat. apply f_equal2; [|reflexivity].
    rewrite <- at_level_0, level_map. reflexivity. }
  destruct l0 as [|e0 l0]; [discriminate E0|]. cbn [map]. apply f_equal2; [reflexivity|]. apply f_equal2; [exact (X (e0 :: l0))|reflexivity].
Qed.
