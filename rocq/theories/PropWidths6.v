(** * PropWidths6: the tools on targets of both widths (C54, C63, C68). [width_ok]: PropWidths3.v; [reaches_4G]: NarrowSpec.v, C02. *)
From Coq Require Import Strings.String.
From Coq Require Import List NArith Bool Lia Strings.Byte.
From Verif Require Import TypeInfo Spec BaseFacts PathSpec PathGrammar PathPrint QuerySpec OutcomeSpec Chains Sizes Follow Offsets2 OffsetOf Outcome LoadProps Final Exact Maps Debug DebugSpec DebugFacts DebugText Message MessageSpec MessageFacts
  LoadMessage LoadMessageSpec LoadMessageFacts Tools ToolsSpec ToolsFacts Failure FailureSpec FailureFacts Sample Witness PropLoadMessage PropMessage PropPath PropQuery PropOffset PropOutcome PropTools PropDebug PropFailure
  NarrowSpec PropNarrow PropWidths PropWidths2 PropWidths3 PropWidths4.
Import ListNotations.
Open Scope N_scope.

(** The file that is opened, if there is one, is of use to this build. *)
Definition file_ok (b : build) (fs : str -> option (list byte)) (path : str) : Prop := forall img, fs path = Some img -> width_ok b img.
Lemma opened_64 b fs path img : file_ok b fs path -> fs path = Some img -> opened b img = opened (build64 true) img.
Proof. intros W F. exact (proj1 (PropWidths2.alike {| cfg := b; rd := readable_file img |} img (W img F) (readable_file_serves img))). Qed.
Lemma asked_iff_w b fs path name ti i : file_ok b fs path -> asked fs path name ti i <->
  exists img ti0, fs path = Some img /\ opened b img = Ok ti0 /\ equal_tables ti0 ti /\ id_of ti0 name = Some i.
Proof.
  intros W. rewrite (asked_iff (build64 true) fs path name ti i eq_refl).
  split; intros (img & ti0 & F & L & R); exists img, ti0; (split; [exact F|]); (split; [|exact R]).
  - rewrite (opened_64 b fs path img W F). exact L.
  - rewrite <- (opened_64 b fs path img W F). exact L.
Qed.
Lemma asked_self_w b fs path name img ti i : file_ok b fs path -> fs path = Some img -> opened b img = Ok ti -> id_of ti name = Some i -> asked fs path name ti i.
Proof. intros H F L I. apply (asked_iff_w b); [exact H|]. exists img, ti. repeat split; auto. Qed.
Lemma load_total_w b fs path img : file_ok b fs path -> fs path = Some img ->
  (exists ti, type_information_new {| cfg := b; rd := readable_file img |} = Ok ti) \/ (exists k, type_information_new {| cfg := b; rd := readable_file img |} = Err k).
Proof.
  intros W F. pose proof (opened_64 b fs path img W F) as E. unfold opened in E. rewrite E. exact (load_total {| cfg := build64 true; rd := readable_file img |} eq_refl).
Qed.
Lemma open_64 b fs path rest : file_ok b fs path -> open_btf b fs path rest = open_btf (build64 true) fs path rest.
Proof.
  intros W. unfold open_btf. destruct (fs path) as [img|] eqn:F; cbn [some unwrap]; [|reflexivity].
  pose proof (opened_64 b fs path img W F) as E. unfold opened in E. rewrite E. reflexivity.
Qed.
Lemma loaded_64 b sys path ti : file_ok b (sys_files sys) path -> loaded_from b sys path ti <-> loaded_from (build64 true) sys path ti.
Proof.
  intros W. split; intros (img & F & L); exists img; (split; [exact F|]); pose proof (opened_64 b (sys_files sys) path img W F) as E; unfold opened in E; congruence.
Qed.
Lemma open_msg_64 b sys path rest : file_ok b (sys_files sys) path -> usize_bits b = 64 \/ open_btf_msg b sys path rest = open_btf_msg (build64 true) sys path rest.
Proof.
  intros W. unfold open_btf_msg. destruct (sys_files sys path) as [img|] eqn:F; cbn [some funwrap]; [|right; reflexivity].
  destruct (msg_alike {| cfg := b; rd := readable_file img |} img (W img F) (readable_file_serves img)) as [H|H]; [left; exact H|right].
  rewrite H. reflexivity.
Qed.
Lemma open_cases_w b sys path rest : file_ok b (sys_files sys) path ->
  (exists c t, open_btf_msg b sys path rest = {| fprinted := [Opening path]; fended := FPanicked t |} /\ file_cause sys path c /\ tells sys path c t /\
     (forall ti, ~ loaded_from b sys path ti) /\ forall c', file_cause sys path c' -> c' = c) \/
  (exists ti, loaded_from b sys path ti /\ open_btf_msg b sys path rest = rest ti /\ (forall ti', loaded_from b sys path ti' -> ti' = ti) /\ forall c, ~ file_cause sys path c).
Proof.
  intros W. destruct (open_msg_64 b sys path rest W) as [H|E]; [exact (open_cases b sys path rest H)|]. rewrite E.
  destruct (open_cases (build64 true) sys path rest eq_refl) as [(c & t & A & B & C & D & U)|(ti & A & B & C & D)].
  - left. exists c, t. repeat (split; [assumption|]). split; [|exact U]. intros ti L. apply (D ti). apply (loaded_64 b); assumption.
  - right. exists ti. split; [apply (loaded_64 b); assumption|]. split; [exact B|]. split; [|exact D]. intros ti' L. apply C. apply (loaded_64 b); assumption.
Qed.
Theorem C54_dump_btf_any_width : forall b fs prog path, file_ok b fs path -> let out := dump_btf b fs [prog; path] in
  (forall l, out = {| printed := [Opening path; Types l]; ended := Returned |} <->
     exists img ts, fs path = Some img /\ contents img ts /\ l = combine (map N.of_nat (seq 1 (length ts))) ts) /\
  ((exists l, out = {| printed := [Opening path; Types l]; ended := Returned |}) \/ out = {| printed := [Opening path]; ended := Panicked |}).
Proof.
  intros b fs prog path W. unfold dump_btf. rewrite (open_64 b fs path _ W). exact (C54_dump_btf (build64 true) fs prog path eq_refl).
Qed.
Print Assumptions C54_dump_btf_any_width.
Theorem C54_get_type_size_any_width : forall b fs prog path name, file_ok b fs path -> let out := get_type_size b fs [prog; path; name] in
  (forall ti i z, asked fs path name ti i -> has_size ti (fun n => n < 2 ^ usize_bits b) i z -> out = answers path (size_text name i z)) /\
  (forall i z, out = answers path (size_text name i z) -> exists ti z0, asked fs path name ti i /\ size ti i z0 /\
     z mod 2 ^ usize_bits b = z0 mod 2 ^ usize_bits b /\ (overflow_checks b = true -> z = z0)) /\
  (ended out = NoReturn <-> exists ti i, asked fs path name ti i /\ endless (size_link ti) i) /\
  ((exists i z, out = answers path (size_text name i z)) \/ (printed out = [Opening path] /\ ended out <> Returned)).
Proof.
  intros b fs prog path name H out. unfold out, get_type_size, open_btf. clear out.
  split; [|split; [|split]].
  - intros ti i z A Z. apply (asked_iff_w b _ _ _ _ _ H) in A. destruct A as (img & ti0 & F & L & E & I). rewrite F. cbn [some unwrap]. unfold opened in L. rewrite L. cbn [unwrap].
    rewrite I. cbn [some unwrap]. apply (eq_has_size _ _ (equal_sym _ _ E)) in Z.  rewrite (proj1 (size_of_spec b ti0 i) z Z). reflexivity.
  - intros i z E. destruct (fs path) as [img|] eqn:F; cbn [some unwrap] in E; [|discriminate].
    destruct (type_information_new _) as [ti|k|q|] eqn:L; cbn [unwrap] in E; try discriminate.
    destruct (id_of ti name) as [i'|] eqn:I; cbn [some unwrap] in E; [|discriminate].
    destruct (size_of b ti i') as [z'|k|q|] eqn:Z; cbn [unwrap] in E; try discriminate.
    apply answers_inj in E. change (size_text name i' z' = size_text name i z) in E. apply size_text_inj in E. destruct E as (_ & -> & ->).
    destruct (C29_exact_partial b ti i) as (X1 & X2 & _). destruct (X2 z Z) as (z0 & Hz & M). 
    destruct (overflow_checks b) eqn:O.
    + exists ti, z. split; [exact (asked_self_w b fs path name img ti i H F L I)|]. split; [apply X1; auto|]. auto.
    + exists ti, z0. split; [exact (asked_self_w b fs path name img ti i H F L I)|]. split; [exact Hz|]. split; [exact M|discriminate].
  - split.
    + intros E. destruct (fs path) as [img|] eqn:F; cbn [some unwrap] in E; [|discriminate].
      destruct (load_total_w b fs path img H F) as [[ti L]|[k L]]; rewrite L in E; cbn [unwrap] in E; [|discriminate].
      destruct (id_of ti name) as [i|] eqn:I; cbn [some unwrap] in E; [|discriminate].
      destruct (size_of b ti i) as [z|k|q|] eqn:Z; cbn [unwrap] in E; try discriminate.
      exists ti, i. split; [exact (asked_self_w b fs path name img ti i H F L I)|]. apply (size_of_spec b ti i). exact Z.
    + intros (ti & i & A & Z). apply (asked_iff_w b _ _ _ _ _ H) in A. destruct A as (img & ti0 & F & L & E & I). rewrite F. cbn [some unwrap]. unfold opened in L. rewrite L. cbn [unwrap].
      rewrite I. cbn [some unwrap]. assert (Z0 : endless (size_link ti0) i) by (revert Z; apply endless_mono; apply eq_size_link; apply equal_sym; exact E).
      apply (size_of_spec b ti0 i) in Z0. rewrite Z0. reflexivity.
  - destruct (fs path) as [img|]; cbn [some unwrap]; [|right; split; [reflexivity|discriminate]].
    destruct (type_information_new _) as [ti|k|q|]; cbn [unwrap]; try (right; split; [reflexivity|discriminate]).
    destruct (id_of ti name) as [i|]; cbn [some unwrap]; [|right; split; [reflexivity|discriminate]].
    destruct (size_of b ti i) as [z|k|q|]; cbn [unwrap]; try (right; split; [reflexivity|discriminate]).
    left. exists i, z. reflexivity.
Qed.
Print Assumptions C54_get_type_size_any_width.
Theorem C54_get_type_offset_any_width : forall b fs prog path name p, file_ok b fs path -> valid_utf8 p ->
  let out fuel := get_type_offset fuel b fs [prog; path; name; p] in
  (forall ti i cs u o, asked fs path name ti i -> reads_as (2 ^ usize_bits b - 1) p cs -> leads ti (size ti) i cs u o ->
     (forall o' u' rest, gets ti (size ti) (ByteOffset 0) i cs o' u' rest -> fine b ti o' u' rest) ->
     exists fuel, forall more, out (fuel + more)%nat = answers path (offset_text name p u o)) /\
  (forall fuel u o, out fuel = answers path (offset_text name p u o) -> exists ti i cs, asked fs path name ti i /\ reads_as (2 ^ usize_bits b - 1) p cs /\
     fits32 o /\ leads ti (fun e z => size_of b ti e = Ok z) i cs u o /\
     (overflow_checks b = true \/ sizes_fit b ti -> leads ti (size ti) i cs u o)) /\
  (forall fuel, (exists u o, out fuel = answers path (offset_text name p u o)) \/ (printed (out fuel) = [Opening path] /\ ended (out fuel) <> Returned)) /\
  ((forall ti i, asked fs path name ti i -> acyclic ti) -> exists fuel, ended (out fuel) <> NoReturn).
Proof.
  intros b fs prog path name p H V out. unfold out, get_type_offset, open_btf. clear out.
  assert (M : usize_max b = 2 ^ usize_bits b - 1) by (reflexivity).
  assert (T : forall v, name ++ says " => " ++ p ++ says ": " ++ show_place v = offset_text name p (fst v) (snd v)).
  { intros [u o]. unfold offset_text. do 4 f_equal. destruct o; cbn [fst snd show_place place_text show_offset]; unfold show_place; cbn [fst snd show_offset]; rewrite <- ?app_assoc; reflexivity. }
  split; [|split; [|split]].
  - intros ti i cs u o A R L Hf. apply (asked_iff_w b _ _ _ _ _ H) in A. destruct A as (img & ti0 & F & Ld & E & I). pose proof (equal_sym _ _ E) as E'.
    assert (Sz : forall ti1 ti2, equal_tables ti1 ti2 -> forall x z, size ti1 x z -> size ti2 x z) by (intros ti1 ti2 Q x z; apply (eq_has_size _ _ Q)).
    assert (Rt : offset_of_returns b ti0 i p (Ok (u, o))).
    { apply (C33_exact_along_path b ti0 i p cs V); [rewrite M; exact R| |].
      - intros o' u' rest G. apply (eq_fine _ _ _ _ _ _ E'). apply Hf. apply (eq_gets _ _ E). eapply gets_size; [|exact G]. apply (Sz _ _ E).
      - apply (eq_leads _ _ E'). eapply leads_size; [|exact L]. apply (Sz _ _ E'). }
    destruct Rt as (_ & fuel & Rt). exists fuel. intros more.
    assert (Rt' : offset_of_uncached (fuel + more) b ti0 i p = Ok (u, o)) by (rewrite (returns_mono b ti0 i p fuel (fuel + more) V ltac:(lia)); [exact Rt|rewrite Rt; discriminate]).
    rewrite F. cbn [some unwrap]. unfold opened in Ld. rewrite Ld. cbn [unwrap]. rewrite I. cbn [some unwrap]. rewrite Rt'. cbn [unwrap]. rewrite T. reflexivity.
  - intros fuel u o E. destruct (fs path) as [img|] eqn:F; cbn [some unwrap] in E; [|discriminate].
    destruct (type_information_new _) as [ti|k|q|] eqn:L; cbn [unwrap] in E; try discriminate.
    destruct (id_of ti name) as [i|] eqn:I; cbn [some unwrap] in E; [|discriminate].
    destruct (offset_of_uncached fuel b ti i p) as [[u' o']|k|q|] eqn:Z; cbn [unwrap] in E; try discriminate.
    rewrite T in E. apply answers_inj in E. unfold offset_text in E. do 4 apply app_inv_head in E. cbn [fst snd] in E. apply place_text_inj in E. destruct E as [-> ->].
    assert (Rt : offset_of_returns b ti i p (Ok (u, o))) by (split; [discriminate|exists fuel; exact Z]).
    destruct (C32_sound_reported_sizes b ti i p u o V Rt) as (Fi & cs & R & Ls). exists ti, i, cs. split; [exact (asked_self_w b fs path name img ti i H F L I)|]. rewrite <- M.
    split; [exact R|]. split; [exact Fi|]. split; [exact Ls|]. intros Hc. destruct (C32_sound b ti i p u o V Hc Rt) as (_ & cs' & R' & L').
    assert (cs' = cs) as <- by (eapply accepted_det; [exact V| |]; apply accepted_iff; eassumption). exact L'.
  - intros fuel. destruct (fs path) as [img|]; cbn [some unwrap]; [|right; split; [reflexivity|discriminate]].
    destruct (type_information_new _) as [ti|k|q|]; cbn [unwrap]; try (right; split; [reflexivity|discriminate]).
    destruct (id_of ti name) as [i|]; cbn [some unwrap]; [|right; split; [reflexivity|discriminate]].
    destruct (offset_of_uncached fuel b ti i p) as [v|k|q|]; cbn [unwrap]; try (right; split; [reflexivity|discriminate]).
    left. exists (fst v), (snd v). rewrite T. reflexivity.
  - intros Ac. destruct (fs path) as [img|] eqn:F; cbn [some unwrap]; [|exists 0%nat; discriminate].
    destruct (load_total_w b fs path img H F) as [[ti L]|[k L]]; rewrite L; cbn [unwrap]; [|exists 0%nat; discriminate].
    destruct (id_of ti name) as [i|] eqn:I; cbn [some unwrap]; [|exists 0%nat; discriminate].
    destruct (offset_of_terminates b ti i p V (Ac ti i (asked_self_w b fs path name img ti i H F L I))) as (r & D & fuel & R).
    exists fuel. rewrite R. destruct r as [v|k|q|]; cbn [unwrap ended]; try discriminate. contradiction.
Qed.
Print Assumptions C54_get_type_offset_any_width.
Theorem C63_dump_btf_any_width : forall b fs prog path path' l l', file_ok b fs path -> file_ok b fs path' ->
  dump_btf b fs [prog; path] = {| printed := [Opening path; Types l]; ended := Returned |} ->
  dump_btf b fs [prog; path'] = {| printed := [Opening path'; Types l']; ended := Returned |} ->
  debug_table l = debug_table l' ->
  exists img img' ts, fs path = Some img /\ fs path' = Some img' /\ contents img ts /\ contents img' ts.
Proof.
  intros b fs prog path path' l l' W W'. unfold dump_btf at 1 2. rewrite (open_64 b fs path _ W), (open_64 b fs path' _ W'). exact (C63_dump_btf (build64 true) fs prog path path' l l' eq_refl).
Qed.
Print Assumptions C63_dump_btf_any_width.
Lemma told_open_w b sys path (P : type_information -> cause -> Prop) rest : file_ok b (sys_files sys) path ->
  (forall ti, loaded_from b sys path ti -> told sys path (P ti) (fun x => fended (rest ti) = x)) ->
  told sys path (fun c => file_cause sys path c \/ exists ti, loaded_from b sys path ti /\ P ti c) (fun x => fended (open_btf_msg b sys path rest) = x).
Proof.
  intros H64 Hr. destruct (open_cases_w b sys path rest H64) as [(c & t & E & F & T & No & U)|(ti & H & E & V & No)]; rewrite E; cbn [fended].
  - split.
    + intros t' E'. injection E' as <-. eauto.
    + intros c' [F'|(ti & H & _)]; [|destruct (No ti H)]. rewrite (U c' F') in *. split; [eauto|]. intros c'' [F''|(ti & H & _)]; [exact (U _ F'')|destruct (No ti H)].
  - destruct (Hr ti H) as [A B]. split.
    + intros t Et. destruct (A t Et) as (c & HP & T). exists c. split; [right; eauto|exact T].
    + intros c [F|(ti' & H' & C)]; [destruct (No c F)|]. rewrite (V ti' H') in C. destruct (B c C) as [X U]. split; [exact X|].
      intros c' [F|(ti'' & H'' & C')]; [destruct (No c' F)|]. rewrite (V ti'' H'') in C'. exact (U c' C').
Qed.
Theorem C68_dump_btf_any_width : forall b sys prog path, file_ok b (sys_files sys) path -> let out := dump_btf_msg b sys [prog; path] in
  (forall t, fended out = FPanicked t -> exists c, file_cause sys path c /\ tells sys path c t) /\
  (forall c, file_cause sys path c -> (exists t, fended out = FPanicked t /\ tells sys path c t) /\ forall c', file_cause sys path c' -> c' = c).
Proof.
  intros b sys prog path H64 out. subst out. unfold dump_btf_msg.
  match goal with |- context [open_btf_msg b sys path ?r] => destruct (open_cases_w b sys path r H64) as [(c & t & E & F & T & _ & U)|(ti & _ & E & _ & N)] end; rewrite E; cbn [fended].
  - split.
    + intros t' E'. injection E' as <-. eauto.
    + intros c' F'. rewrite (U c' F') in *. eauto.
  - split; [discriminate|]. intros c F. destruct (N c F).
Qed.
Print Assumptions C68_dump_btf_any_width.
Theorem C68_get_type_size_any_width : forall b sys prog path name, file_ok b (sys_files sys) path -> let out := get_type_size_msg b sys [prog; path; name] in
  (forall t, fended out = FPanicked t -> exists c, size_cause b sys path name c /\ tells sys path c t) /\
  (forall c, size_cause b sys path name c -> (exists t, fended out = FPanicked t /\ tells sys path c t) /\ forall c', size_cause b sys path name c' -> c' = c).
Proof.
  intros b sys prog path name H64. refine (told_open_w b sys path _ _ H64 _). intros ti _.
  destruct (id_of ti name) as [i|] eqn:Ei; cbn [some funwrap].
  - pose proof (C57_size_message b ti i) as Hm. pose proof (size_panic_iff b ti i) as Hp. rewrite <- size_kind in Hp.
    assert (Q : forall j m, Some i = Some j /\ size_reason ti j m -> size_msg b ti i = Err m) by (intros j m [Ej R]; assert (j = i) as -> by congruence; apply Hm; exact R).
    assert (B : forall j z, Some i = Some j /\ overflow_checks b = true /\ size ti j z /\ ~ has_size ti (fun n => n < 2 ^ usize_bits b) j z ->
              kind_only (size_msg b ti i) = Panic ArithmeticOverflow) by (intros j z (Ej & Hc & R); assert (j = i) as -> by congruence; apply Hp; eauto).
    destruct (size_msg b ti i) as [z|m|q|] eqn:Es; cbn [funwrap fended kind_only] in *.
    + apply told_none; [discriminate|]. intros c C. destruct c; try tauto; [congruence|destruct C as (j & C); apply Q in C; discriminate|destruct C as (j & z' & C); apply B in C; discriminate].
    + apply (told_one _ _ _ _ (say_query m) (Query m)); [reflexivity|exists i; split; [reflexivity|apply Hm; reflexivity]|eexists; split; [apply debug_error_shown|reflexivity]|].
      intros c C. destruct c; try tauto; [congruence|destruct C as (j & C); apply Q in C; congruence|destruct C as (j & z' & C); apply B in C; discriminate].
    + assert (q = ArithmeticOverflow) as ->. { apply (proj1 (proj2 (proj2 (proj2 (proj2 (size_of_spec b ti i))))) q). rewrite <- size_kind, Es. reflexivity. }
      destruct (proj1 Hp eq_refl) as (Hc & z & Hz & Hn).
      apply (told_one _ _ _ _ multiply_overflow TooBig); [reflexivity|exists i, z; auto|reflexivity|].
      intros c C. destruct c; try tauto; [congruence|destruct C as (j & C); apply Q in C; discriminate].
    + apply told_none; [discriminate|]. intros c C. destruct c; try tauto; [congruence|destruct C as (j & C); apply Q in C; discriminate|destruct C as (j & z' & C); apply B in C; discriminate].
  - apply (told_one _ _ _ _ option_unwrap NoSuchName); [reflexivity|reflexivity|reflexivity|].
    intros c C. destruct c; try tauto; [destruct C as (j & C & _)|destruct C as (j & z & C & _)]; congruence.
Qed.
Print Assumptions C68_get_type_size_any_width.
Theorem C68_get_type_offset_any_width : forall b sys prog path name p, file_ok b (sys_files sys) path -> valid_utf8 p ->
  let out fuel := get_type_offset_msg fuel b sys [prog; path; name; p] in
  (forall fuel t, fended (out fuel) = FPanicked t -> exists c, offset_cause b sys path name p c /\ tells sys path c t) /\
  (forall c, offset_cause b sys path name p c ->
     (exists t, tells sys path c t /\ exists fuel, forall more, fended (out (fuel + more)%nat) = FPanicked t) /\ forall c', offset_cause b sys path name p c' -> c' = c).
Proof.
  intros b sys prog path name p H64 Hp out.
  assert (K : forall fuel, (forall ti i, loaded_from b sys path ti -> id_of ti name = Some i -> offset_of_msg fuel b ti i p <> Diverge) ->
    told sys path (offset_cause b sys path name p) (fun x => fended (out fuel) = x)).
  { intros fuel Hf. refine (told_open_w b sys path _ _ H64 _). intros ti Ht. specialize (Hf ti). destruct (id_of ti name) as [i|] eqn:Ei; cbn [some funwrap].
    - specialize (Hf i Ht eq_refl). clear Ht.
      assert (Q : forall j m, Some i = Some j /\ offset_of_says b ti j p m -> offset_of_msg fuel b ti i p = Err m).
      { intros j m [Ej [f R]]. assert (j = i) as -> by congruence. rewrite <- R. apply offset_msg_same; [exact Hf|rewrite R; discriminate]. }
      assert (B : forall j, Some i = Some j /\ offset_of_returns b ti j p (Panic ArithmeticOverflow) -> kind_only (offset_of_msg fuel b ti i p) = Panic ArithmeticOverflow).
      { intros j [Ej [_ [f R]]]. assert (j = i) as -> by congruence. rewrite <- offset_of_kind in R. 
        rewrite (offset_msg_same b ti i p fuel f); [exact R|exact Hf|]. intros D. rewrite D in R. discriminate. }
      destruct (offset_of_msg fuel b ti i p) as [z|m|q|] eqn:Es; cbn [funwrap fended kind_only] in *.
      + apply told_none; [discriminate|]. intros c C. destruct c; try tauto; try (destruct C as (j & C); first [apply Q in C|apply B in C]; discriminate). congruence.
      + apply (told_one _ _ _ _ (say_query m) (Query m)); [reflexivity|exists i; split; [reflexivity|exists fuel; exact Es]|eexists; split; [apply debug_error_shown|reflexivity]|].
        intros c C. destruct c; try tauto; [congruence|destruct C as (j & C); apply Q in C; congruence|destruct C as (j & C); apply B in C; discriminate].
      + assert (R : offset_of_returns b ti i p (Panic q)) by (split; [discriminate|]; exists fuel; rewrite <- offset_of_kind, Es; reflexivity).
        destruct (offset_of_panic _ _ _ _ _ Hp R) as [-> _].
        apply (told_one _ _ _ _ multiply_overflow TooBig); [reflexivity|exists i; split; [reflexivity|exact R]|reflexivity|].
        intros c C. destruct c; try tauto; [congruence|destruct C as (j & C); apply Q in C; discriminate].
      + destruct (Hf eq_refl).
    - apply (told_one _ _ _ _ option_unwrap NoSuchName); [reflexivity|reflexivity|reflexivity|].
      intros c C. destruct c; try tauto; destruct C as (j & C & _); congruence. }
  assert (M : forall fuel more, fended (out fuel) <> FNoReturn -> out (fuel + more)%nat = out fuel).
  { intros fuel more. unfold out, get_type_offset_msg, open_btf_msg, funwrap. destruct (some (sys_files sys path)) as [img|k|q|]; try reflexivity.
    destruct (type_information_new_msg _) as [ti|k|q|]; try reflexivity. destruct (some (id_of ti name)) as [i|k|q|]; try reflexivity.
    destruct (offset_of_msg fuel b ti i p) as [v|m|q|] eqn:E; intros H; try (destruct (H eq_refl); fail);
      rewrite (offset_msg_le b ti i p fuel (fuel + more)) by (lia || (rewrite E; discriminate)); rewrite E; reflexivity. }
  assert (V : forall ti ti', loaded_from b sys path ti -> loaded_from b sys path ti' -> ti' = ti).
  { intros ti ti' (img & E & H) (img' & E' & H'). congruence. }
  split.
  - intros fuel t Et. refine (proj1 (K fuel _) t Et). intros ti i (img & Ef & El) Ei D. apply (proj1 (C61_kind_of_message _)) in El.
    unfold out, get_type_offset_msg, open_btf_msg, funwrap in Et. rewrite Ef in Et. cbn [some] in Et. rewrite El, Ei in Et. cbn [some] in Et. rewrite D in Et. discriminate Et.
  - intros c C. assert (X : exists fuel, forall ti i, loaded_from b sys path ti -> id_of ti name = Some i -> offset_of_msg fuel b ti i p <> Diverge).
    { destruct C as [F|(ti & Ht & C)].
      - exists 0%nat. intros ti i Ht _. exfalso.
        destruct (open_cases_w b sys path (fun _ => {| fprinted := []; fended := FReturned |}) H64) as [(c' & t & _ & _ & _ & No & _)|(_ & _ & _ & _ & No)]; [exact (No ti Ht)|exact (No c F)].
      - destruct c; try tauto.
        + exists 0%nat. intros ti' i Ht'. rewrite (V ti ti' Ht Ht'). congruence.
        + destruct C as (j & Ej & f & R). exists f. intros ti' i Ht'. rewrite (V ti ti' Ht Ht'). intros Ei. assert (i = j) as -> by congruence. rewrite R. discriminate.
        + destruct C as (j & Ej & _ & f & R). exists f. intros ti' i Ht'. rewrite (V ti ti' Ht Ht'). intros Ei. assert (i = j) as -> by congruence.
          intros D. rewrite <- offset_of_kind, D in R. discriminate. }
    destruct X as [fuel X]. destruct (proj2 (K fuel X) c C) as [(t & Et & T) U]. split; [|exact U]. exists t. split; [exact T|]. exists fuel. intros more.
    rewrite M; [exact Et|]. rewrite Et. discriminate.
Qed.
Print Assumptions C68_get_type_offset_any_width.
(** The sample file on 32-bit builds. *)
Example any_width6_met : let b := build32 true in
  (forall ck, file_ok (build32 ck) sample_fs (s "/sys/kernel/btf/vmlinux")) /\
  get_type_size b sample_fs [s "get-type-size"; s "/sys/kernel/btf/vmlinux"; s "holder"] =
    answers (s "/sys/kernel/btf/vmlinux") (s "Type holder has ID 24 and requires 192 bytes in total") /\
  get_type_offset 20 b sample_fs [s "get-type-offset"; s "/sys/kernel/btf/vmlinux"; s "holder"; s "tasks[1].flag"] =
    answers (s "/sys/kernel/btf/vmlinux") (s "holder => tasks[1].flag: (1, BitOffsetAndSize(896, 3))") /\
  (forall ck, file_ok (build32 ck) (sys_files here) (s "vmlinux")) /\
  panic_text (get_type_size_msg b here [s "get-type-size"; s "vmlinux"; s "nobody"]) = Some (s "called `Option::unwrap()` on a `None` value").
Proof.
  cbv zeta.
  assert (W : forall ck, width_ok (build32 ck) sample_img).
  { intros ck. destruct any_width3_met as ([X|[_ X]] & _); [discriminate X|]. right. split; [reflexivity|exact X]. }
  split; [intros ck img F; assert (img = sample_img) as -> by (vm_compute in F |- *; congruence); exact (W ck)|].
  split; [vm_compute; reflexivity|]. split; [vm_compute; reflexivity|].
  split; [intros ck img F; assert (img = sample_img) as -> by (vm_compute in F |- *; congruence); exact (W ck)|vm_compute; reflexivity].
Qed.
