(** * PropFailure: what the command line tools say when they fail (C68). *)
From Coq Require Import Strings.String.
From Coq Require Import List NArith Bool Lia Strings.Byte.
From Verif Require Import TypeInfo Spec BaseFacts PathSpec QuerySpec Sizes LoadProps Exact Maps Debug DebugSpec DebugFacts DebugText Message MessageSpec MessageFacts
  LoadMessage LoadMessageSpec LoadMessageFacts Tools ToolsSpec ToolsFacts OffsetOf Failure FailureSpec FailureFacts Sample Witness PropLoadMessage PropMessage PropPath PropQuery PropTools.
Import ListNotations.
Open Scope N_scope.

(** ** C68 *)
(** [{:?}] of an error shows its kind and its message, nobody reads another error from it, and it is one line. *)
Theorem C68_error_text : forall k m,
  shows_error k m (debug_error k m) /\
  (forall k' m' t, shows_error k m t -> shows_error k' m' t -> k = k' /\ m = m') /\
  (latin m -> one_clean_line (debug_error k m)).
Proof.
  intros k m. split; [apply debug_error_shown|]. split; [intros k' m' t; apply shown_inj|]. intros L.
  unfold debug_error. apply clean_struct; [reflexivity|]. constructor; [|constructor; [|constructor]]; apply clean_field; try reflexivity.
  - destruct k; apply clean_txt; reflexivity.
  - apply clean_str. exact L.
Qed.
Print Assumptions C68_error_text.

(** These are the runs of C54: what the tools print and how they end is the same. *)
Lemma unwrap_open b sys path rest rest' : (forall ti, silent (rest ti) = rest' ti) -> silent (open_btf_msg b sys path rest) = open_btf b (sys_files sys) path rest'.
Proof.
  intros H. unfold open_btf_msg, open_btf. destruct (sys_files sys path) as [img|]; [|reflexivity]. cbn [some funwrap unwrap].
  change (type_information_new _) with (opened b img). change (type_information_new_msg _) with (file_load b img). rewrite file_load_kind.
  destruct (file_load b img); try reflexivity. apply H.
Qed.
Theorem C68_same_runs : forall b sys args,
  silent (dump_btf_msg b sys args) = dump_btf b (sys_files sys) args /\
  silent (get_type_size_msg b sys args) = get_type_size b (sys_files sys) args /\
  forall fuel, silent (get_type_offset_msg fuel b sys args) = get_type_offset fuel b (sys_files sys) args.
Proof.
  intros b sys args. split; [|split].
  - destruct args as [|a [|path [|? ?]]]; try reflexivity. apply unwrap_open. reflexivity.
  - destruct args as [|a [|path [|name [|? ?]]]]; try reflexivity. apply unwrap_open. intros ti.
    destruct (id_of ti name) as [i|]; [|reflexivity]. cbn [some funwrap unwrap]. rewrite <- size_kind. destruct (size_msg b ti i); reflexivity.
  - intros fuel. destruct args as [|a [|path [|name [|p [|? ?]]]]]; try reflexivity. apply unwrap_open. intros ti.
    destruct (id_of ti name) as [i|]; [|reflexivity]. cbn [some funwrap unwrap]. rewrite <- offset_of_kind. destruct (offset_of_msg fuel b ti i p); reflexivity.
Qed.
Print Assumptions C68_same_runs.

(** The panic message tells a cause that is there; whenever there is a cause the tool panics and tells it; and there is
    never more than one. *)
Theorem C68_dump_btf : forall b sys prog path, usize_bits b = 64 -> let out := dump_btf_msg b sys [prog; path] in
  (forall t, fended out = FPanicked t -> exists c, file_cause sys path c /\ tells sys path c t) /\
  (forall c, file_cause sys path c -> (exists t, fended out = FPanicked t /\ tells sys path c t) /\ forall c', file_cause sys path c' -> c' = c).
Proof.
  intros b sys prog path H64 out. subst out. unfold dump_btf_msg.
  match goal with |- context [open_btf_msg b sys path ?r] => destruct (open_cases b sys path r H64) as [(c & t & E & F & T & _ & U)|(ti & _ & E & _ & N)] end; rewrite E; cbn [fended].
  - split.
    + intros t' E'. injection E' as <-. eauto.
    + intros c' F'. rewrite (U c' F') in *. eauto.
  - split; [discriminate|]. intros c F. destruct (N c F).
Qed.
Print Assumptions C68_dump_btf.

(** The claim about the part behind the opening of the file is enough. *)
Definition told (sys : system) (path : str) (C : cause -> Prop) (ends : fending -> Prop) : Prop :=
  (forall t, ends (FPanicked t) -> exists c, C c /\ tells sys path c t) /\
  (forall c, C c -> (exists t, ends (FPanicked t) /\ tells sys path c t) /\ forall c', C c' -> c' = c).
Lemma told_open b sys path (P : type_information -> cause -> Prop) rest : usize_bits b = 64 ->
  (forall ti, loaded_from b sys path ti -> told sys path (P ti) (fun x => fended (rest ti) = x)) ->
  told sys path (fun c => file_cause sys path c \/ exists ti, loaded_from b sys path ti /\ P ti c) (fun x => fended (open_btf_msg b sys path rest) = x).
Proof.
  intros H64 Hr. destruct (open_cases b sys path rest H64) as [(c & t & E & F & T & No & U)|(ti & H & E & V & No)]; rewrite E; cbn [fended].
  - split.
    + intros t' E'. injection E' as <-. eauto.
    + intros c' [F'|(ti & H & _)]; [|destruct (No ti H)]. rewrite (U c' F') in *. split; [eauto|]. intros c'' [F''|(ti & H & _)]; [exact (U _ F'')|destruct (No ti H)].
  - destruct (Hr ti H) as [A B]. split.
    + intros t Et. destruct (A t Et) as (c & HP & T). exists c. split; [right; eauto|exact T].
    + intros c [F|(ti' & H' & C)]; [destruct (No c F)|]. rewrite (V ti' H') in C. destruct (B c C) as [X U]. split; [exact X|].
      intros c' [F|(ti'' & H'' & C')]; [destruct (No c' F)|]. rewrite (V ti'' H'') in C'. exact (U c' C').
Qed.
Lemma told_one sys path (C : cause -> Prop) x t c : x = FPanicked t -> C c -> tells sys path c t -> (forall c', C c' -> c' = c) -> told sys path C (fun y => x = y).
Proof.
  intros -> H T U. split.
  - intros t' E. injection E as <-. eauto.
  - intros c' H'. rewrite (U c' H'). split; [eauto|exact U].
Qed.
Lemma told_none sys path (C : cause -> Prop) x : (forall t, x <> FPanicked t) -> (forall c, ~ C c) -> told sys path C (fun y => x = y).
Proof. intros H U. split; [intros t E; destruct (H t E)|intros c H'; destruct (U c H')]. Qed.

Theorem C68_get_type_size : forall b sys prog path name, usize_bits b = 64 -> let out := get_type_size_msg b sys [prog; path; name] in
  (forall t, fended out = FPanicked t -> exists c, size_cause b sys path name c /\ tells sys path c t) /\
  (forall c, size_cause b sys path name c -> (exists t, fended out = FPanicked t /\ tells sys path c t) /\ forall c', size_cause b sys path name c' -> c' = c).
Proof.
  intros b sys prog path name H64. refine (told_open b sys path _ _ H64 _). intros ti _.
  destruct (id_of ti name) as [i|] eqn:Ei; cbn [some funwrap].
  - pose proof (C57_size_message b ti i) as Hm. pose proof (size_panic_iff b ti i) as Hp. rewrite <- size_kind in Hp.
    assert (Q : forall j m, Some i = Some j /\ size_reason ti j m -> size_msg b ti i = Err m) by (intros j m [Ej R]; assert (j = i) as -> by congruence; apply Hm; exact R).
    assert (B : forall j z, Some i = Some j /\ overflow_checks b = true /\ size ti j z /\ ~ has_size ti (fun n => n < 2 ^ usize_bits b) j z ->
              kind_only (size_msg b ti i) = Panic ArithmeticOverflow) by (intros j z (Ej & Hc & R); assert (j = i) as -> by congruence; apply Hp; eauto).
    destruct (size_msg b ti i) as [z|m|q|] eqn:Es; cbn [funwrap fended kind_only] in *.
    + apply told_none; [discriminate|]. intros c C. destruct c; try tauto; [congruence|destruct C as (j & C); apply Q in C; discriminate|destruct C as (j & z' & C); apply B in C; discriminate].
    + apply (told_one _ _ _ _ (say_query m) (Query m)); [reflexivity|exists i; split; [reflexivity|apply Hm; reflexivity]|eexists; split; [apply debug_error_shown|reflexivity]|].
      intros c C. destruct c; try tauto; [congruence|destruct C as (j & C); apply Q in C; congruence|destruct C as (j & z' & C); apply B in C; discriminate].
    + assert (q = ArithmeticOverflow) as ->. { apply (proj1 (proj2 (proj2 (proj2 (proj2 (size_of_spec b ti i))))) q). rewrite <- size_kind, Es. reflexivity. }
      destruct (proj1 Hp eq_refl) as (Hc & z & Hz & Hn).
      apply (told_one _ _ _ _ multiply_overflow TooBig); [reflexivity|exists i, z; auto|reflexivity|].
      intros c C. destruct c; try tauto; [congruence|destruct C as (j & C); apply Q in C; discriminate].
    + apply told_none; [discriminate|]. intros c C. destruct c; try tauto; [congruence|destruct C as (j & C); apply Q in C; discriminate|destruct C as (j & z' & C); apply B in C; discriminate].
  - apply (told_one _ _ _ _ option_unwrap NoSuchName); [reflexivity|reflexivity|reflexivity|].
    intros c C. destruct c; try tauto; [destruct C as (j & C & _)|destruct C as (j & z & C & _)]; congruence.
Qed.
Print Assumptions C68_get_type_size.

(** [offset_of] may run for ever: [fuel] is how long one waits. *)
Theorem C68_get_type_offset : forall b sys prog path name p, usize_bits b = 64 -> valid_utf8 p ->
  let out fuel := get_type_offset_msg fuel b sys [prog; path; name; p] in
  (forall fuel t, fended (out fuel) = FPanicked t -> exists c, offset_cause b sys path name p c /\ tells sys path c t) /\
  (forall c, offset_cause b sys path name p c ->
     (exists t, tells sys path c t /\ exists fuel, forall more, fended (out (fuel + more)%nat) = FPanicked t) /\ forall c', offset_cause b sys path name p c' -> c' = c).
Proof.
  intros b sys prog path name p H64 Hp out.
  assert (K : forall fuel, (forall ti i, loaded_from b sys path ti -> id_of ti name = Some i -> offset_of_msg fuel b ti i p <> Diverge) ->
    told sys path (offset_cause b sys path name p) (fun x => fended (out fuel) = x)).
  { intros fuel Hf. refine (told_open b sys path _ _ H64 _). intros ti Ht. specialize (Hf ti). destruct (id_of ti name) as [i|] eqn:Ei; cbn [some funwrap].
    - specialize (Hf i Ht eq_refl). clear Ht.
      assert (Q : forall j m, Some i = Some j /\ offset_of_says b ti j p m -> offset_of_msg fuel b ti i p = Err m).
      { intros j m [Ej [f R]]. assert (j = i) as -> by congruence. rewrite <- R. apply offset_msg_same; [exact Hf|rewrite R; discriminate]. }
      assert (B : forall j, Some i = Some j /\ offset_of_returns b ti j p (Panic ArithmeticOverflow) -> kind_only (offset_of_msg fuel b ti i p) = Panic ArithmeticOverflow).
      { intros j [Ej [_ [f R]]]. assert (j = i) as -> by congruence. rewrite <- offset_of_kind in R. 
        rewrite (offset_msg_same b ti i p fuel f); [exact R|exact Hf|]. intros D. rewrite D in R. discriminate. }
      destruct (offset_of_msg fuel b ti i p) as [z|m|q|] eqn:Es; cbn [funwrap fended kind_only] in *.
      + apply told_none; [discriminate|]. intros c C. destruct c; try tauto; try (destruct C as (j & C); first [apply Q in C|apply B in C]; discriminate). congruence.
      + apply (told_one _ _ _ _ (say_query m) (Query m)); [reflexivity|exists i; split; [reflexivity|exists fuel; exact Es]|eexists; split; [apply debug_error_shown|reflexivity]|].
        intros c C. destruct c; try tauto; [congruence|destruct C as (j & C); apply Q in C; congruence|destruct C as (j & C); apply B in C; discriminate].
      + assert (R : offset_of_returns b ti i p (Panic q)) by (split; [discriminate|]; exists fuel; rewrite <- offset_of_kind, Es; reflexivity).
        destruct (offset_of_panic _ _ _ _ _ Hp R) as [-> _].
        apply (told_one _ _ _ _ multiply_overflow TooBig); [reflexivity|exists i; split; [reflexivity|exact R]|reflexivity|].
        intros c C. destruct c; try tauto; [congruence|destruct C as (j & C); apply Q in C; discriminate].
      + destruct (Hf eq_refl).
    - apply (told_one _ _ _ _ option_unwrap NoSuchName); [reflexivity|reflexivity|reflexivity|].
      intros c C. destruct c; try tauto; destruct C as (j & C & _); congruence. }
  assert (M : forall fuel more, fended (out fuel) <> FNoReturn -> out (fuel + more)%nat = out fuel).
  { intros fuel more. unfold out, get_type_offset_msg, open_btf_msg, funwrap. destruct (some (sys_files sys path)) as [img|k|q|]; try reflexivity.
    destruct (type_information_new_msg _) as [ti|k|q|]; try reflexivity. destruct (some (id_of ti name)) as [i|k|q|]; try reflexivity.
    destruct (offset_of_msg fuel b ti i p) as [v|m|q|] eqn:E; intros H; try (destruct (H eq_refl); fail);
      rewrite (offset_msg_le b ti i p fuel (fuel + more)) by (lia || (rewrite E; discriminate)); rewrite E; reflexivity. }
  assert (V : forall ti ti', loaded_from b sys path ti -> loaded_from b sys path ti' -> ti' = ti).
  { intros ti ti' (img & E & H) (img' & E' & H'). congruence. }
  split.
  - intros fuel t Et. refine (proj1 (K fuel _) t Et). intros ti i (img & Ef & El) Ei D. apply (proj1 (C61_kind_of_message _)) in El.
    unfold out, get_type_offset_msg, open_btf_msg, funwrap in Et. rewrite Ef in Et. cbn [some] in Et. rewrite El, Ei in Et. cbn [some] in Et. rewrite D in Et. discriminate Et.
  - intros c C. assert (X : exists fuel, forall ti i, loaded_from b sys path ti -> id_of ti name = Some i -> offset_of_msg fuel b ti i p <> Diverge).
    { destruct C as [F|(ti & Ht & C)].
      - exists 0%nat. intros ti i Ht _. exfalso.
        destruct (open_cases b sys path (fun _ => {| fprinted := []; fended := FReturned |}) H64) as [(c' & t & _ & _ & _ & No & _)|(_ & _ & _ & _ & No)]; [exact (No ti Ht)|exact (No c F)].
      - destruct c; try tauto.
        + exists 0%nat. intros ti' i Ht'. rewrite (V ti ti' Ht Ht'). congruence.
        + destruct C as (j & Ej & f & R). exists f. intros ti' i Ht'. rewrite (V ti ti' Ht Ht'). intros Ei. assert (i = j) as -> by congruence. rewrite R. discriminate.
        + destruct C as (j & Ej & _ & f & R). exists f. intros ti' i Ht'. rewrite (V ti ti' Ht Ht'). intros Ei. assert (i = j) as -> by congruence.
          intros D. rewrite <- offset_of_kind, D in R. discriminate. }
    destruct X as [fuel X]. destruct (proj2 (K fuel X) c C) as [(t & Et & T) U]. split; [|exact U]. exists t. split; [exact T|]. exists fuel. intros more.
    rewrite M; [exact Et|]. rewrite Et. discriminate.
Qed.
Print Assumptions C68_get_type_offset.

(** Nobody reads another cause from the message.  The first hypothesis is about the operating system: its error does not
    look like one of the library. *)
Theorem C68_cause_readable : forall sys path c c' t,
  (forall k m, ~ shows_error k m (open_error sys path)) -> tells sys path c t -> tells sys path c' t -> c = c'.
Proof.
  intros sys path c c' t Ho.
  assert (B : forall m x, lmessage_text m = Some x -> lmessage_kind m <> IOError) by (intros m x Ex; destruct m; try discriminate).
  assert (D : forall m m' x, lmessage_text m = Some x -> lmessage_kind m = message_kind m' -> x <> message_text m').
  { intros m m' x Ex Ek Et. subst x. destruct m, m'; try discriminate Ek; discriminate Ex. }
  assert (U : forall a e, words "called `Result::unwrap()` on an `Err` value: " ++ a = words "called `Result::unwrap()` on an `Err` value: " ++ e -> a = e) by (intros a e; apply app_inv_head).
  intros H H'.
  destruct c as [|m| | |m|], c' as [|m'| | |m'|]; cbn [tells] in H, H'; try reflexivity;
    repeat match goal with
    | X : exists _, _ |- _ => destruct X
    | X : _ /\ _ |- _ => destruct X
    end; subst t; try discriminate;
    match goal with X : words "called `Result::unwrap()` on an `Err` value: " ++ _ = _ |- _ => apply U in X; subst end;
    try match goal with X : shows_error _ _ (open_error _ _) |- _ => destruct (Ho _ _ X) end;
    match goal with X : shows_error _ _ ?e, Y : shows_error _ _ ?e |- _ => pose proof (shown_inj _ _ _ _ _ X Y) as [Ek Et] end.
  - f_equal. subst. eapply lmessage_text_inj; eassumption.
  - exfalso. eapply B; eassumption.
  - exfalso. eapply D; eassumption.
  - exfalso. eapply B; [eassumption|congruence].
  - exfalso. destruct m'; discriminate Ek.
  - exfalso. symmetry in Ek, Et. eapply D; eassumption.
  - exfalso. destruct m; discriminate Ek.
  - f_equal. apply C57_texts_differ. exact Et.
Qed.
Print Assumptions C68_cause_readable.

(** A file that is missing, one that is no BTF file, one that was cut, and the sample: with an unknown name, with a function,
    and with an index outside of its array; a typedef [x] of 2^64 bytes in a debug build. *)
Definition huge_file : list byte :=
  raw_file Little [0; 0x01000000; 4; 32;  0; 0x03000000; 0; 1; 1; 2 ^ 31;  0; 0x03000000; 0; 2; 1; 2 ^ 31;  1; 0x08000000; 3] [x00; x78; x00].
Definition huge_ti : type_information := Eval vm_compute in table_of huge_file.
Definition here : system :=
  {| sys_files := fun p => if str_eqb p (s "vmlinux") then Some sample_img else if str_eqb p (s "elf") then Some (s "ELF or so")
       else if str_eqb p (s "cut") then Some (firstn 100 sample_img) else if str_eqb p (s "huge") then Some huge_file else None;
     open_error := fun _ => s "Os { code: 2, kind: NotFound, message: ""No such file or directory"" }"; short_read := s "failed to fill whole buffer" |}.
Definition panic_text (r : frun) : option str := match fended r with FPanicked t => Some t | _ => None end.
Example C68_met : let b := build64 true in
  panic_text (dump_btf_msg b here [s "dump-btf"; s "none"]) =
    Some (s "called `Result::unwrap()` on an `Err` value: Os { code: 2, kind: NotFound, message: ""No such file or directory"" }") /\
  panic_text (dump_btf_msg b here [s "dump-btf"; s "elf"]) =
    Some (s "called `Result::unwrap()` on an `Err` value: Error { kind: InvalidMagic, message: ""Invalid magic number: 0x4C45"" }") /\
  panic_text (dump_btf_msg b here [s "dump-btf"; s "cut"]) =
    Some (s "called `Result::unwrap()` on an `Err` value: Error { kind: IOError, message: ""failed to fill whole buffer"" }") /\
  panic_text (get_type_size_msg b here [s "get-type-size"; s "vmlinux"; s "nobody"]) = Some (s "called `Option::unwrap()` on a `None` value") /\
  panic_text (get_type_size_msg b here [s "get-type-size"; s "huge"; s "x"]) = Some (s "attempt to multiply with overflow") /\
  panic_text (get_type_offset_msg 20 b here [s "get-type-offset"; s "vmlinux"; s "holder"; s "tasks[3].pid"]) =
    Some (s "called `Result::unwrap()` on an `Err` value: Error { kind: InvalidTypePath, message: ""Index 3 is out of bounds for array of size 3"" }") /\
  file_cause here (s "none") CannotOpen /\ file_cause here (s "elf") (Broken (LMagic 0x4C45)) /\ file_cause here (s "cut") TooShort /\
  size_cause b here (s "vmlinux") (s "nobody") NoSuchName /\ size_cause b here (s "huge") (s "x") TooBig /\
  offset_cause b here (s "vmlinux") (s "holder") (s "tasks[3].pid") (Query (MIndexOutOfBounds 3 3)) /\
  forall k m path, ~ shows_error k m (open_error here path).
Proof.
  cbv zeta. split; [vm_compute; reflexivity|]. split; [vm_compute; reflexivity|]. split; [vm_compute; reflexivity|]. split; [vm_compute; reflexivity|].
  split; [vm_compute; reflexivity|]. split; [vm_compute; reflexivity|]. split; [reflexivity|].
  split; [exists (s "ELF or so"); split; [reflexivity|apply C61_met]|]. split.
  { exists (firstn 100 sample_img). split; [reflexivity|].
    destruct (file_load_cases (build64 true) (firstn 100 sample_img) eq_refl) as [(ti & E & _)|[(m & E & B & _)|(E & No & Nb)]].
    - exfalso. vm_compute in E. discriminate E.
    - exfalso. destruct (broken_text _ _ B) as [x Ex]. assert (X : exists k, m = LReadable k) by (eexists; vm_compute in E; symmetry; injection E as E; exact E).
      destruct X as [k ->]. discriminate Ex.
    - split; [apply (not_contents (build64 true)); [reflexivity|exact No]|exact Nb]. }
  split; [right; exists sample_ti; split; [exists sample_img; split; [reflexivity|exact sample_loads]|vm_compute; reflexivity]|].
  split.
  { right. exists huge_ti. split; [exists huge_file; split; [reflexivity|vm_compute; reflexivity]|]. exists 4. 
    destruct (proj1 (size_panic_iff (build64 true) huge_ti 4)) as (Hc & z & Hz & Hn); [vm_compute; reflexivity|]. exists z. split; [vm_compute; reflexivity|]. auto. }
  split.
  { right. exists sample_ti. split; [exists sample_img; split; [reflexivity|exact sample_loads]|]. exists 24. split; [vm_compute; reflexivity|apply C57_met]. }
  intros k m path (q & _ & E). discriminate E.
Qed.
