(** * DebugText: the text of types determines them, is clean, and shows their values (C63). *)
From Coq Require Import Strings.String.
From Coq Require Import List NArith ZArith Bool Lia Strings.Byte.
From Verif Require Import TypeInfo Spec BaseFacts PathSpec PathPrint PathCanon Exact ToolsFacts Debug DebugSpec DebugFacts.
Import ListNotations.
Open Scope N_scope.

(** ** Lists *)
Definition starts_word (x : str) : Prop := match x with [] => False | b :: _ => wordlike b end.
Definition tail_of (l : list str) : str := match l with [] => [] | _ => txt ", " ++ joined l end.
Lemma joined_cons x l : joined (x :: l) = x ++ tail_of l.
Proof. destruct l; [symmetry; apply app_nil_r|reflexivity]. Qed.
Lemma joined_code {A} (p : A -> str) c : code p -> (forall a, starts_word (p a)) -> ~ wordlike c -> c <> x2c ->
  forall l l' r r', joined (map p l) ++ c :: r = joined (map p l') ++ c :: r' -> l = l' /\ r = r'.
Proof.
  intros C S Hc Hk.
  assert (St : forall l r, ends_word (tail_of (map p l) ++ c :: r)).
  { intros [|a l] r; [exact Hc|]. cbn [map]. unfold tail_of. rewrite <- app_assoc. apply stop_app. reflexivity. }
  assert (X : forall a l r r', joined (map p (a :: l)) ++ c :: r = c :: r' -> False).
  { intros a l r r' E. cbn [map] in E. rewrite joined_cons, <- app_assoc in E. pose proof (S a) as W. destruct (p a) as [|d x]; [exact W|]. cbn [app] in E. cbn in W. apply Hc. congruence. }
  induction l as [|a l IH]; intros [|b l'] r r' E.
  - cbn [map joined app] in E. split; [reflexivity|congruence].
  - exfalso. apply (X b l' r' r). symmetry. exact E.
  - exfalso. exact (X a l r r' E).
  - cbn [map] in E. rewrite !joined_cons, <- !app_assoc in E. apply C in E; [|apply St|apply St]. destruct E as [<- E].
    destruct l as [|a1 l], l' as [|b1 l']; cbn [map] in E; unfold tail_of in E.
    + cbn [app] in E. split; [reflexivity|congruence].
    + exfalso. change (txt ", ") with [x2c; x20] in E. cbn [app] in E. congruence.
    + exfalso. change (txt ", ") with [x2c; x20] in E. cbn [app] in E. congruence.
    + rewrite <- !app_assoc in E. apply app_inv_head in E. destruct (IH (b1 :: l') r r' E) as [-> ->]. auto.
Qed.
Lemma list_code {A} (p : A -> str) : code p -> (forall a, starts_word (p a)) ->
  forall l l' r r', debug_list (map p l) ++ r = debug_list (map p l') ++ r' -> l = l' /\ r = r'.
Proof.
  intros C S l l' r r' E. unfold debug_list in E. rewrite <- !app_assoc in E. apply app_inv_head in E. revert E. apply joined_code; try assumption.
  - rewrite <- wordlike_iff. discriminate.
  - discriminate.
Qed.

(** ** Records.  [E : text ++ r = text' ++ r']: cancel what is fixed, read what varies. *)
Lemma name_code : code debug_name.
Proof.
  intros a b r r' H H' E. destruct a as [a|], b as [b|]; unfold debug_name, debug_tuple in E; cbn [joined] in E; rewrite <- ?app_assoc in E; [|discriminate E|discriminate E|].
  - do 2 apply app_inv_head in E. apply str_code in E. destruct E as [-> E]. apply app_inv_head in E. auto.
  - apply app_inv_head in E. auto.
Qed.
Lemma offset_code : code debug_offset.
Proof.
  intros [a|a n] [b|b m] r r' H H' E; unfold debug_offset, debug_tuple in E; cbn [joined] in E; rewrite <- ?app_assoc in E; [| discriminate E | discriminate E |]; do 2 apply app_inv_head in E.
  - apply number_code in E; [|apply stop_app; reflexivity|apply stop_app; reflexivity]. destruct E as [-> E]. apply app_inv_head in E. auto.
  - apply number_code in E; [|apply stop_app; reflexivity|apply stop_app; reflexivity]. destruct E as [-> E]. apply app_inv_head in E.
    apply number_code in E; [|apply stop_app; reflexivity|apply stop_app; reflexivity]. destruct E as [-> E]. apply app_inv_head in E. auto.
Qed.
Lemma integer_code : code debug_integer.
Proof.
  intros [a|a] [b|b] r r' H H' E; unfold debug_integer, debug_tuple in E; cbn [joined] in E; rewrite <- ?app_assoc in E; [| discriminate E | discriminate E |]; do 2 apply app_inv_head in E.
  - apply signed_code in E; [|apply stop_app; reflexivity|apply stop_app; reflexivity]. destruct E as [-> E]. apply app_inv_head in E. auto.
  - apply number_code in E; [|apply stop_app; reflexivity|apply stop_app; reflexivity]. destruct E as [-> E]. apply app_inv_head in E. auto.
Qed.
Ltac stop := first [apply stop_app; reflexivity | apply stop_only; reflexivity | assumption].
Ltac read_one E :=
  match type of E with
  | txt ?x ++ _ = txt ?x ++ _ => apply app_inv_head in E
  | digits_of_N _ ++ _ = _ => apply number_code in E; [|stop|stop]; destruct E as [? E]
  | digits_of_Z _ ++ _ = _ => apply signed_code in E; [|stop|stop]; destruct E as [? E]
  | debug_bool _ ++ _ = _ => apply bool_code in E; [|stop|stop]; destruct E as [? E]
  | kind_debug _ ++ _ = _ => apply kind_code_ in E; [|stop|stop]; destruct E as [? E]
  | debug_linkage _ ++ _ = _ => apply linkage_code in E; [|stop|stop]; destruct E as [? E]
  | debug_name _ ++ _ = _ => apply name_code in E; [|stop|stop]; destruct E as [? E]
  | debug_offset _ ++ _ = _ => apply offset_code in E; [|stop|stop]; destruct E as [? E]
  | debug_integer _ ++ _ = _ => apply integer_code in E; [|stop|stop]; destruct E as [? E]
  | debug_str _ ++ _ = _ => apply str_code in E; destruct E as [? E]
  end.
Ltac record_code := let a := fresh in let b := fresh in intros a b r r' H H' E; destruct a, b; unfold debug_struct, field in E; cbn [joined] in E; cbn in E.
Ltac spread E := unfold debug_struct, field in E; cbn [joined] in E; repeat rewrite <- app_assoc in E.
Lemma header_code : code debug_header.
Proof.
  intros [k n v f z] [k' n' v' f' z'] r r' H H' E. unfold debug_header in E. cbn [h_kind h_name_offset h_vlen h_kind_flag h_size_or_type] in E. spread E.
  repeat read_one E. subst. auto.
Qed.
Lemma member_code : code debug_member.
Proof.
  intros [a b c d] [a' b' c' d'] r r' H H' E. unfold debug_member in E. cbn [m_name_offset m_name m_tid m_offset] in E. spread E. repeat read_one E. subst. auto.
Qed.
Lemma parameter_code : code debug_parameter.
Proof.
  intros [a b c] [a' b' c'] r r' H H' E. unfold debug_parameter in E. cbn [p_name_offset p_name p_tid] in E. spread E. repeat read_one E. subst. auto.
Qed.
Lemma variable_code : code debug_variable.
Proof.
  intros [a b c] [a' b' c'] r r' H H' E. unfold debug_variable in E. cbn [var_decl_id v_offset var_size] in E. spread E. repeat read_one E. subst. auto.
Qed.
Lemma value_code x : code (debug_value x).
Proof.
  intros [a b] [a' b'] r r' H H' E. unfold debug_value in E. cbn [nv_name nv_value] in E. spread E. repeat read_one E. subst. auto.
Qed.
Lemma member_starts m : starts_word (debug_member m). Proof. apply wordlike_iff. reflexivity. Qed.
Lemma parameter_starts m : starts_word (debug_parameter m). Proof. apply wordlike_iff. reflexivity. Qed.
Lemma variable_starts m : starts_word (debug_variable m). Proof. apply wordlike_iff. reflexivity. Qed.
Lemma value_starts m : starts_word (debug_value "NamedValue32" m) /\ starts_word (debug_value "NamedValue64" m). Proof. split; apply wordlike_iff; reflexivity. Qed.
Ltac read_list E :=
  match type of E with
  | debug_list (map debug_member _) ++ _ = _ => apply (list_code _ member_code member_starts) in E; destruct E as [? E]
  | debug_list (map debug_parameter _) ++ _ = _ => apply (list_code _ parameter_code parameter_starts) in E; destruct E as [? E]
  | debug_list (map debug_variable _) ++ _ = _ => apply (list_code _ variable_code variable_starts) in E; destruct E as [? E]
  | debug_list (map (debug_value "NamedValue32") _) ++ _ = _ => apply (list_code _ (value_code _) (fun m => proj1 (value_starts m))) in E; destruct E as [? E]
  | debug_list (map (debug_value "NamedValue64") _) ++ _ = _ => apply (list_code _ (value_code _) (fun m => proj2 (value_starts m))) in E; destruct E as [? E]
  end.

(** ** Types *)
Definition behind (t : type_variant) : str := skipn (List.length (variant_name t)) (debug_type t).
Lemma debug_type_split t : debug_type t = variant_name t ++ behind t.
Proof. destruct t; reflexivity. Qed.
Lemma behind_stop t r : ends_word r -> ends_word (behind t ++ r).
Proof. intros H. destruct t; [exact H|..]; cbn; rewrite <- wordlike_iff; discriminate. Qed.
Lemma variant_words t : Forall wordlike (variant_name t).
Proof. apply all_words_ok. destruct t; reflexivity. Qed.
Lemma type_starts t : starts_word (debug_type t).
Proof. apply wordlike_iff || destruct t; apply wordlike_iff; reflexivity. Qed.

Lemma variant_code name h d h' d' r r' : ends_word r -> ends_word r' ->
  debug_variant name h d ++ r = debug_variant name h' d' ++ r' ->
  h = h' /\ exists q q', ends_word q /\ ends_word q' /\ q = txt " }" ++ txt " }" ++ txt ")" ++ r /\ q' = txt " }" ++ txt " }" ++ txt ")" ++ r' /\ joined d ++ q = joined d' ++ q'.
Proof.
  intros H H' E. unfold debug_variant, debug_tuple in E. spread E.
  do 4 apply app_inv_head in E. do 2 apply app_inv_head in E. apply header_code in E; [|stop|stop]. destruct E as [<- E]. split; [reflexivity|].
  do 5 apply app_inv_head in E. do 2 eexists. split; [|split; [|split; [reflexivity|split; [reflexivity|exact E]]]]; stop.
Qed.
Lemma type_code : code debug_type.
Proof.
  intros t t' r r' H H' E.
  assert (N0 : variant_name t = variant_name t').
  { rewrite !debug_type_split, <- !app_assoc in E. apply word_code in E; [apply E|apply variant_words|apply variant_words|apply behind_stop; exact H|apply behind_stop; exact H']. }
  destruct t, t'; try discriminate N0; clear N0; cbn [debug_type] in E;
    [apply app_inv_head in E; auto|..];
    apply variant_code in E; try assumption; destruct E as (<- & q & q' & Hq & Hq' & Eq & Eq' & E);
    unfold debug_int, debug_link, debug_named_link, debug_float, debug_array, debug_members, debug_enum, debug_func_proto, debug_var, debug_data_sec, debug_decl_tag in E;
    spread E;
    repeat first [read_one E | read_list E]; subst q q'; do 3 apply app_inv_head in E; subst r'; clear H H' Hq Hq'; split; try reflexivity;
    match goal with |- ?C _ ?d = ?C _ ?d' => destruct d, d' end; cbn in *; subst; reflexivity.
Qed.
Lemma entry_code : code (fun e : N * type_variant => digits_of_N (fst e) ++ txt ": " ++ debug_type (snd e)).
Proof.
  intros [i t] [j u] r r' H H' E. cbn [fst snd] in E. rewrite <- !app_assoc in E. apply number_code in E; [|stop|stop]. destruct E as [-> E].
  apply app_inv_head in E. apply type_code in E; try assumption. destruct E as [-> ->]. auto.
Qed.
Lemma table_code : forall l l' r r', debug_table l ++ r = debug_table l' ++ r' -> l = l' /\ r = r'.
Proof.
  intros l l' r r' E. unfold debug_table, debug_map in E. rewrite !map_map in E. cbn [fst snd] in E. rewrite <- !app_assoc in E. apply app_inv_head in E.
  revert E. apply (joined_code _ x7d entry_code).
  - intros [i t]. cbn [fst]. destruct (number_head i) as (b & x & Ex & Hb). rewrite Ex. cbn. apply digit_word. exact Hb.
  - rewrite <- wordlike_iff. discriminate.
  - discriminate.
Qed.

(** ** No control characters *)
Lemma clean_nil : one_clean_line []. Proof. exists []. split; [constructor|reflexivity]. Qed.
Lemma clean_app x y : one_clean_line x -> one_clean_line y -> one_clean_line (x ++ y).
Proof. intros (a & A & ->) (b & B & ->). exists (a ++ b). split; [apply Forall_app; auto|symmetry; apply concat_app]. Qed.
Definition plain (b : byte) : bool := (0x20 <=? Byte.to_N b) && (Byte.to_N b <=? 0x7E).
Lemma clean_ascii x : forallb plain x = true -> one_clean_line x.
Proof.
  intros H. exists (map (fun b => [b]) x). split.
  - rewrite Forall_forall. intros c Hc. apply in_map_iff in Hc. destruct Hc as (b & <- & Hb). rewrite forallb_forall in H. specialize (H b Hb). unfold plain in H.
    rewrite andb_true_iff, !N.leb_le in H. exists b. split; [left; split; [lia|reflexivity]|cbv zeta; lia].
  - induction x as [|b x IH]; [reflexivity|]. cbn [map concat app]. rewrite <- IH; [reflexivity|]. cbn [forallb] in H. apply andb_true_iff in H. apply H.
Qed.
Lemma clean_txt x : forallb plain (txt x) = true -> one_clean_line (txt x). Proof. apply clean_ascii. Qed.
Lemma clean_number n : one_clean_line (digits_of_N n).
Proof.
  apply clean_ascii. apply forallb_forall. intros b Hb. pose proof (decimal_all n) as F. rewrite Forall_forall in F. specialize (F b Hb).
  unfold ascii_digit, PathSpec.between in F. unfold plain. rewrite andb_true_iff, !N.leb_le. lia.
Qed.
Lemma clean_signed z : one_clean_line (digits_of_Z z).
Proof. destruct z; unfold digits_of_Z; try apply clean_number. apply clean_app; [apply clean_txt; reflexivity|apply clean_number]. Qed.
Lemma plain_hex d : d < 16 -> plain (low_hex_digit d) = true.
Proof. intros H. unfold plain. rewrite (low_hex_is d H), andb_true_iff, !N.leb_le. destruct (N.ltb_spec d 10); lia. Qed.
Lemma clean_char b : one_clean_line (escape_char (bval b) (utf8_of_latin1 b)).
Proof.
  unfold escape_char. pose proof (bval_lt b) as Hlt.
  repeat (destruct (_ =? _); [apply clean_ascii; reflexivity|]).
  destruct (printable (bval b)) eqn:P.
  - exists [utf8_of_latin1 b]. split; [|symmetry; apply app_nil_r]. constructor; [|constructor]. exists b. split; [apply latin1_char_eq; reflexivity|].
    unfold printable, in_range in P. rewrite orb_true_iff, !andb_true_iff, !N.leb_le, negb_true_iff, N.eqb_neq in P. cbv zeta. change (Byte.to_N b) with (bval b). lia.
  - apply clean_app; [apply clean_txt; reflexivity|]. apply clean_app; [|apply clean_txt; reflexivity]. apply clean_ascii.
    assert (M : bval b mod 16 < 16) by (apply N.mod_lt; lia). assert (D : bval b / 16 < 16) by (apply N.div_lt_upper_bound; lia).
    destruct (N.ltb_spec (bval b) 16); cbn [forallb]; rewrite !plain_hex by assumption; reflexivity.
Qed.
Lemma escape_cons b s : escape (utf8_of_latin1 b ++ s) = escape_char (bval b) (utf8_of_latin1 b) ++ escape s.
Proof. destruct b; reflexivity. Qed.
Definition latin (s : str) : Prop := exists bs, latin1 bs s.
Lemma clean_str s : latin s -> one_clean_line (debug_str s).
Proof.
  intros (bs & H). apply latin1_eq in H. subst s. unfold debug_str. apply clean_app; [apply clean_ascii; reflexivity|]. apply clean_app; [|apply clean_ascii; reflexivity].
  induction bs as [|b bs IH]; [apply clean_nil|]. cbn [flat_map]. rewrite escape_cons. apply clean_app; [apply clean_char|exact IH].
Qed.
Lemma clean_bool b : one_clean_line (debug_bool b). Proof. destruct b; apply clean_txt; reflexivity. Qed.
Lemma clean_joined l : Forall one_clean_line l -> one_clean_line (joined l).
Proof.
  induction 1 as [|x l Hx F IH]; [apply clean_nil|]. rewrite joined_cons. apply clean_app; [exact Hx|]. destruct l; [apply clean_nil|].
  unfold tail_of. apply clean_app; [apply clean_txt; reflexivity|exact IH].
Qed.
Lemma clean_struct n l : forallb plain (txt n) = true -> Forall one_clean_line l -> one_clean_line (debug_struct n l).
Proof. intros H F. unfold debug_struct. apply clean_app; [apply clean_txt; exact H|]. apply clean_app; [apply clean_txt; reflexivity|]. apply clean_app; [apply clean_joined; exact F|apply clean_txt; reflexivity]. Qed.
Lemma clean_tuple n l : forallb plain (txt n) = true -> Forall one_clean_line l -> one_clean_line (debug_tuple n l).
Proof. intros H F. unfold debug_tuple. apply clean_app; [apply clean_txt; exact H|]. apply clean_app; [apply clean_txt; reflexivity|]. apply clean_app; [apply clean_joined; exact F|apply clean_txt; reflexivity]. Qed.
Lemma clean_name o : (forall s, o = Some s -> latin s) -> one_clean_line (debug_name o).
Proof.
  intros H. destruct o as [s|]; [|apply clean_txt; reflexivity]. apply clean_tuple; [reflexivity|]. constructor; [apply clean_str; auto|constructor].
Qed.
Lemma clean_list {A} (p : A -> str) l : (forall a, In a l -> one_clean_line (p a)) -> one_clean_line (debug_list (map p l)).
Proof.
  intros H. unfold debug_list. apply clean_app; [apply clean_txt; reflexivity|]. apply clean_app; [|apply clean_txt; reflexivity]. apply clean_joined. rewrite Forall_forall. intros x Hx.
  apply in_map_iff in Hx. destruct Hx as (a & <- & Ha). auto.
Qed.
Lemma clean_field f v : forallb plain (txt f) = true -> one_clean_line v -> one_clean_line (field f v).
Proof. intros H V. unfold field. apply clean_app; [apply clean_txt; exact H|]. apply clean_app; [apply clean_txt; reflexivity|exact V]. Qed.
Ltac clean :=
  match goal with
  | |- one_clean_line (txt _) => apply clean_txt; reflexivity
  | |- one_clean_line (digits_of_N _) => apply clean_number
  | |- one_clean_line (digits_of_Z _) => apply clean_signed
  | |- one_clean_line (debug_bool _) => apply clean_bool
  | |- one_clean_line (debug_name _) => apply clean_name
  | |- one_clean_line (debug_str _) => apply clean_str
  | |- one_clean_line (field _ _) => apply clean_field; [reflexivity|]
  | |- one_clean_line (debug_struct _ _) => apply clean_struct; [reflexivity|]
  | |- one_clean_line (debug_tuple _ _) => apply clean_tuple; [reflexivity|]
  | |- one_clean_line (debug_list _) => apply clean_list; intros
  | |- Forall _ (_ :: _) => constructor
  | |- Forall _ [] => constructor
  end.
Lemma clean_kind k : one_clean_line (kind_debug k). Proof. destruct k; apply clean_txt; reflexivity. Qed.
Lemma clean_header h : one_clean_line (debug_header h). Proof. unfold debug_header. repeat clean. apply clean_kind. Qed.
Lemma clean_offset o : one_clean_line (debug_offset o). Proof. destruct o; unfold debug_offset; repeat clean. Qed.
Lemma clean_type t : (forall k s, name_in t k s -> latin s) -> one_clean_line (debug_type t).
Proof.
  intros L. pose proof (fun h s (H : type_header t = Some h) (D : declared_name t = Some s) => L _ _ (own_name t h s H D)) as L0.
  destruct t; cbn [debug_type]; [apply clean_txt; reflexivity|..]; specialize (L0 h); cbn [type_header declared_name] in L0;
    unfold debug_variant, debug_int, debug_link, debug_named_link, debug_float, debug_array, debug_members, debug_enum, debug_func_proto, debug_var, debug_data_sec, debug_decl_tag;
    repeat clean; try (apply clean_header); try (intros s Hs; exact (L0 s eq_refl Hs)).
  - unfold debug_value. repeat clean; [eapply L; apply enumerator_name; eassumption|]. destruct (nv_value a); unfold debug_integer; repeat clean.
  - unfold debug_parameter. repeat clean. intros s Hs. eapply L. eapply parameter_name; eassumption.
  - unfold debug_member. repeat clean; [|apply clean_offset]. intros s Hs. eapply L. eapply member_name; eassumption.
  - unfold debug_member. repeat clean; [|apply clean_offset]. intros s Hs. eapply L. eapply member_name; eassumption.
  - destruct (var_linkage_type d); apply clean_txt; reflexivity.
  - unfold debug_value. repeat clean; [eapply L; apply enumerator_name; eassumption|]. destruct (nv_value a); unfold debug_integer; repeat clean.
  - unfold debug_variable. repeat clean.
Qed.
Lemma clean_table l : (forall i t k s, In (i, t) l -> name_in t k s -> latin s) -> one_clean_line (debug_table l).
Proof.
  intros L. unfold debug_table, debug_map. rewrite map_map. cbn [fst snd]. apply clean_app; [apply clean_txt; reflexivity|]. apply clean_app; [|apply clean_txt; reflexivity]. apply clean_joined.
  rewrite Forall_forall. intros x Hx. apply in_map_iff in Hx. destruct Hx as ([i t] & <- & Hi). cbn [fst snd].
  apply clean_app; [apply clean_number|]. apply clean_app; [apply clean_txt; reflexivity|]. apply clean_type. intros k s. apply (L i t k s Hi).
Qed.

(** ** The values are there *)
Lemma occ_refl x : occurs x x. Proof. exists [], []. split; [symmetry; apply app_nil_r|exact I]. Qed.
Lemma occ_app x t r : occurs x t -> ends_word r -> occurs x (t ++ r).
Proof.
  intros (p & q & -> & H) R. exists p, (q ++ r). split; [rewrite <- !app_assoc; reflexivity|]. destruct q; [exact R|exact H].
Qed.
Lemma occ_pre x p t : occurs x t -> occurs x (p ++ t).
Proof. intros (a & b & -> & H). exists (p ++ a), b. split; [rewrite <- app_assoc; reflexivity|exact H]. Qed.
Lemma occ_trans x y z : occurs x y -> occurs y z -> occurs x z.
Proof. intros H (p & q & -> & Hq). apply occ_pre. apply occ_app; assumption. Qed.
Lemma tail_stop l r : ends_word r -> ends_word (tail_of l ++ r).
Proof. intros H. destruct l; [exact H|]. unfold tail_of. rewrite <- app_assoc. stop. Qed.
Lemma occ_joined x l : In x l -> occurs x (joined l).
Proof.
  induction l as [|y l IH]; [contradiction|]. rewrite joined_cons. intros [<-|H].
  - apply occ_app; [apply occ_refl|]. rewrite <- (app_nil_r (tail_of l)). apply tail_stop. exact I.
  - apply occ_pre. destruct l; [contradiction|]. unfold tail_of. apply occ_pre. apply IH. exact H.
Qed.
Lemma occ_struct x n l : In x l -> occurs x (debug_struct n l).
Proof. intros H. unfold debug_struct. do 2 apply occ_pre. apply occ_app; [apply occ_joined; exact H|stop]. Qed.
Lemma occ_tuple x n l : In x l -> occurs x (debug_tuple n l).
Proof. intros H. unfold debug_tuple. do 2 apply occ_pre. apply occ_app; [apply occ_joined; exact H|stop]. Qed.
Lemma occ_list x l : In x l -> occurs x (debug_list l).
Proof. intros H. unfold debug_list. apply occ_pre. apply occ_app; [apply occ_joined; exact H|stop]. Qed.
Lemma occ_field f v : occurs v (field f v). Proof. unfold field. do 2 apply occ_pre. apply occ_refl. Qed.
Lemma occ_header x n h d : In x [field "kind" (kind_debug (h_kind h)); field "name_offset" (digits_of_N (h_name_offset h));
    field "vlen" (digits_of_N (h_vlen h)); field "kind_flag" (debug_bool (h_kind_flag h)); field "size_or_type" (digits_of_N (h_size_or_type h))] ->
  occurs x (debug_variant n h d).
Proof.
  intros H. eapply occ_trans; [apply (occ_struct _ "Header"); exact H|]. fold (debug_header h). eapply occ_trans; [apply (occ_field "type_header")|].
  eapply occ_trans; [|apply occ_tuple; left; reflexivity]. apply occ_struct. left. reflexivity.
Qed.
Lemma occ_data x n h d : In x d -> occurs x (debug_variant n h d).
Proof.
  intros H. eapply occ_trans; [apply (occ_struct _ "Data"); exact H|]. eapply occ_trans; [apply (occ_field "data")|].
  eapply occ_trans; [|apply occ_tuple; left; reflexivity]. apply occ_struct. right; left. reflexivity.
Qed.
Lemma occ_item {A} (p : A -> str) a l f n h d : In a l -> In (field f (debug_list (map p l))) d -> occurs (p a) (debug_variant n h d).
Proof.
  intros Ha Hd. eapply occ_trans; [|apply occ_data; exact Hd]. eapply occ_trans; [|apply occ_field]. apply occ_list. apply in_map. exact Ha.
Qed.

Lemma count_text n : integer_text (Z.of_N n) = digits_of_N n.
Proof. destruct n; reflexivity. Qed.
Lemma integer_text_eq z : integer_text z = digits_of_Z z.
Proof. destruct z; reflexivity. Qed.
Lemma str_quoted s : quoted s (debug_str s).
Proof. exists (escape s). split; [apply escape_literal|reflexivity]. Qed.
Lemma name_written o : written (Named o) (debug_name o).
Proof. destruct o as [s|]; [|reflexivity]. exists (debug_str s). split; [apply str_quoted|reflexivity]. Qed.
Lemma place_written o : written (Place o) (debug_offset o). Proof. destruct o; [reflexivity|]. unfold debug_offset, debug_tuple. cbn [joined]. cbn [written]. rewrite <- ?app_assoc. reflexivity. Qed.
Lemma count_written n : written (Count n) (digits_of_N n). Proof. symmetry. apply count_text. Qed.
Lemma flag_written b : written (Flag b) (debug_bool b). Proof. destruct b; reflexivity. Qed.

Lemma type_shows t label v : shows t label v -> exists x, written v x /\ occurs (words label ++ words ": " ++ x) (debug_type t).
Proof.
  intros S.
  assert (K : forall x y, written v x -> y = field label x -> occurs y (debug_type t) -> exists x, written v x /\ occurs (words label ++ words ": " ++ x) (debug_type t)).
  { intros x y W -> O. exists x. split; [exact W|exact O]. }
  destruct S;
    repeat match goal with H : _ \/ _ |- _ => destruct H end;
    try match goal with H : t = _ |- _ => subst t end;
    try (match goal with H : type_header t = Some _ |- _ => destruct t; cbn [type_header] in H; try discriminate H; injection H as ->
         | H : declared_name t = Some _ |- _ => destruct t; cbn [declared_name] in H; try discriminate H end);
    (eapply K; [first [apply count_written|apply flag_written|apply name_written|reflexivity]|reflexivity|]; cbn [debug_type];
      unfold debug_int, debug_link, debug_named_link, debug_float, debug_array, debug_members, debug_enum, debug_func_proto, debug_var, debug_data_sec, debug_decl_tag);
    repeat match goal with H : _ = Some _ |- _ => rewrite H | H : h_kind _ = _ |- _ => rewrite H end;
    first [apply occ_data; cbn [In]; tauto | apply occ_header; cbn [In]; tauto | idtac].
  all: apply occ_header; left; match goal with H : h_kind _ = _ |- _ => rewrite H end; reflexivity.
Qed.
Lemma fields_joined l : l <> [] -> (forall f v x, In (f, v, x) l -> written v x) ->
  fields_text (map fst l) (joined (map (fun e => field (fst (fst e)) (snd e)) l)).
Proof.
  induction l as [|[[f v] x] l IH]; [congruence|]. intros _ W. cbn [map fst snd]. rewrite joined_cons.
  destruct l as [|y l].
  - unfold tail_of. cbn [map]. rewrite app_nil_r. apply fields_one. apply (W f). left. reflexivity.
  - unfold tail_of. cbn [map] in *. unfold field at 1. rewrite <- !app_assoc. apply fields_more; [apply (W f); left; reflexivity|]. apply IH; [discriminate|].
    intros f0 v0 x0 H. apply (W f0). right. exact H.
Qed.
Lemma struct_shown n l : l <> [] -> (forall f v x, In (f, v, x) l -> written v x) ->
  struct_text n (map fst l) (debug_struct n (map (fun e => field (fst (fst e)) (snd e)) l)).
Proof. intros N0 W. eexists. split; [apply fields_joined; eassumption|reflexivity]. Qed.
Ltac in_all := let H := fresh in intros ? ? ? H; cbn [In] in H;
  repeat match goal with H : _ \/ _ |- _ => destruct H end; try contradiction; match goal with H : (_, _, _) = _ |- _ => injection H as <- <- <- end;
  first [apply count_written|apply flag_written|apply name_written|apply place_written].
Lemma type_entries t n fs : has_entry t n fs -> exists x, struct_text n fs x /\ occurs x (debug_type t).
Proof.
  intros [m H|p H|v H].
  - exists (debug_member m). split.
    + apply (struct_shown "Member" [("name_offset"%string, Count (m_name_offset m), digits_of_N (m_name_offset m)); ("name"%string, Named (m_name m), debug_name (m_name m));
        ("tid"%string, Count (m_tid m), digits_of_N (m_tid m)); ("offset"%string, Place (m_offset m), debug_offset (m_offset m))]); [discriminate|in_all].
    + destruct t; try contradiction; cbn [members] in H; apply (occ_item debug_member m _ "member_list" _ _ _ H); right; right; left; reflexivity.
  - exists (debug_parameter p). split.
    + apply (struct_shown "Parameter" [("name_offset"%string, Count (p_name_offset p), digits_of_N (p_name_offset p)); ("name"%string, Named (p_name p), debug_name (p_name p));
        ("tid"%string, Count (p_tid p), digits_of_N (p_tid p))]); [discriminate|in_all].
    + destruct t; try contradiction; cbn [parameters] in H; apply (occ_item debug_parameter p _ "parameter_list" _ _ _ H); left; reflexivity.
  - exists (debug_variable v). split.
    + apply (struct_shown "Variable" [("var_decl_id"%string, Count (var_decl_id v), digits_of_N (var_decl_id v)); ("offset"%string, Count (v_offset v), digits_of_N (v_offset v));
        ("var_size"%string, Count (var_size v), digits_of_N (var_size v))]); [discriminate|in_all].
    + destruct t; try contradiction; cbn [variables] in H; apply (occ_item debug_variable v _ "variable_list" _ _ _ H); right; right; left; reflexivity.
Qed.
Lemma value_text x v : exists y, enumerator_text v y /\ occurs y (debug_value x v).
Proof.
  eexists. split; [exists (debug_str (nv_name v)); split; [apply str_quoted|reflexivity]|].
  exists (txt x ++ txt " "), []. split; [|exact I].
  unfold debug_value, debug_struct, field. cbn [joined]. rewrite app_nil_r, <- !app_assoc. do 1 f_equal.
  change (txt " { ") with (txt " " ++ txt "{ "). rewrite <- !app_assoc. f_equal.
  change (words "{ name: ") with (txt "{ " ++ txt "name" ++ txt ": "). rewrite <- !app_assoc. do 4 f_equal.
  change (words ", value: ") with (txt ", " ++ txt "value" ++ txt ": "). rewrite <- !app_assoc. do 3 f_equal.
  destruct (nv_value v); unfold debug_integer, debug_tuple; cbn [joined]; rewrite ?integer_text_eq, <- ?app_assoc; reflexivity.
Qed.
Lemma type_enumerators t v : In v (enumerators t) -> exists x, enumerator_text v x /\ occurs x (debug_type t).
Proof.
  intros H. destruct t; try contradiction; cbn [enumerators] in H.
  - destruct (value_text "NamedValue32" v) as (y & A & B). exists y. split; [exact A|]. eapply occ_trans; [exact B|].
    apply (occ_item (debug_value "NamedValue32") v _ "named_value_list" _ _ _ H); right; right; left; reflexivity.
  - destruct (value_text "NamedValue64" v) as (y & A & B). exists y. split; [exact A|]. eapply occ_trans; [exact B|].
    apply (occ_item (debug_value "NamedValue64") v _ "named_value_list" _ _ _ H); right; right; left; reflexivity.
Qed.
