(** * PropDebug: the text of types in dump-btf and in messages (C63).  [debug_type], [debug_table]: Debug.v;
    [shows], [has_entry], [literal], [one_clean_line]: DebugSpec.v; [contents]: ToolsSpec.v. *)
From Coq Require Import Strings.String.
From Coq Require Import List NArith ZArith Bool Lia Strings.Byte.
From Verif Require Import TypeInfo Spec BaseFacts Maps LoadProps Final Witness Sample Tools ToolsSpec ToolsFacts PropLoad PropTools Debug DebugSpec DebugFacts DebugText Message.
Import ListNotations.
Open Scope N_scope.

(** ** C63 *)
(** The text can be read back: equal texts, equal types; equal dumps, equal tables. *)
Theorem C63_type_readable : forall t t', debug_type t = debug_type t' -> t = t'.
Proof. intros t t' E. apply (type_code t t' [] []); [exact I|exact I|]. rewrite !app_nil_r. exact E. Qed.
Print Assumptions C63_type_readable.
Theorem C63_dump_readable : forall l l', debug_table l = debug_table l' -> l = l'.
Proof. intros l l' E. apply (table_code l l' [] []). rewrite !app_nil_r. exact E. Qed.
Print Assumptions C63_dump_readable.
(** Two loaded objects that print alike are equal, so they answer every query alike. *)
Theorem C63_same_text_same_object : forall e e' ti ti', usize_bits (cfg e) = 64 -> usize_bits (cfg e') = 64 ->
  type_information_new e = Ok ti -> type_information_new e' = Ok ti' -> debug_table (get ti) = debug_table (get ti') -> ti = ti'.
Proof.
  intros e e' ti ti' H H' L L' E. apply C63_dump_readable in E. destruct (loaded_types e ti H L) as [T _]. destruct (loaded_types e' ti' H' L') as [T' _].
  rewrite T, T'. unfold types, get in *. congruence.
Qed.
Print Assumptions C63_same_text_same_object.
(** dump-btf: two files with equal dumps describe the same types. *)
Theorem C63_dump_btf : forall b fs prog path path' l l', usize_bits b = 64 ->
  dump_btf b fs [prog; path] = {| printed := [Opening path; Types l]; ended := Returned |} ->
  dump_btf b fs [prog; path'] = {| printed := [Opening path'; Types l']; ended := Returned |} ->
  debug_table l = debug_table l' ->
  exists img img' ts, fs path = Some img /\ fs path' = Some img' /\ contents img ts /\ contents img' ts.
Proof.
  intros b fs prog path path' l l' H D D' E. apply C63_dump_readable in E. subst l'.
  apply (proj1 (C54_dump_btf b fs prog path H)) in D. apply (proj1 (C54_dump_btf b fs prog path' H)) in D'.
  destruct D as (img & ts & F & C & E). destruct D' as (img' & ts' & F' & C' & E'). exists img, img', ts. split; [exact F|]. split; [exact F'|]. split; [exact C|].
  assert (X : ts = ts').
  { apply (f_equal (map snd)) in E, E'. rewrite map_snd_combine in E, E' by (rewrite map_length, seq_length; reflexivity). congruence. }
  subst ts'. exact C'.
Qed.
Print Assumptions C63_dump_btf.

(** Whatever names a file contains, its dump and the messages about its types are one line of visible characters. *)
Theorem C63_clean : forall e img ti, usize_bits (cfg e) = 64 -> serves (rd e) img -> type_information_new e = Ok ti ->
  one_clean_line (debug_table (get ti)) /\
  forall i t, from_id ti i = Some t -> one_clean_line (debug_type t) /\ one_clean_line (message_text (MNoSize t)).
Proof.
  intros e img ti H Hs L. destruct (loaded_names e img ti H Hs L) as (en & hf & _ & X).
  assert (Y : forall i t k s, type_at (types ti) i t -> name_in t k s -> latin s).
  { intros i t k s Ht Hn. destruct (X i t k s Ht Hn) as (_ & bs & _ & _ & Hl & _). exists bs. exact Hl. }
  split.
  - apply clean_table. intros i t k s Hi. apply (in_map snd) in Hi. cbn [snd] in Hi. apply In_nth_error in Hi. destruct Hi as (n & Hn).
    apply (Y (N.of_nat (S n)) t k s). split; [lia|]. rewrite Nnat.Nat2N.id. replace (S n - 1)%nat with n by lia. exact Hn.
  - intros i t Ht. assert (C : one_clean_line (debug_type t)).
    { apply clean_type. intros k s Hn. destruct (N.eq_dec i 0) as [->|Hi].
      - cbn in Ht. injection Ht as <-. inversion Hn; try contradiction; discriminate.
      - apply (Y i t k s); [|exact Hn]. apply (loaded_ids e ti H L); assumption. }
    split; [exact C|]. cbn [message_text]. apply clean_app; [apply clean_txt; reflexivity|]. apply clean_app; [exact C|apply clean_txt; reflexivity].
Qed.
Print Assumptions C63_clean.

(** The text begins with the kind of the type and shows its values, each behind its label ... *)
Theorem C63_shows : forall t,
  (exists r, debug_type t = variant_name t ++ r /\ ends_word r) /\
  forall label v, shows t label v -> exists x, written v x /\ occurs (words label ++ words ": " ++ x) (debug_type t).
Proof.
  intros t. split; [|exact (type_shows t)]. exists (behind t). split; [apply debug_type_split|]. rewrite <- (app_nil_r (behind t)). apply behind_stop. exact I.
Qed.
Print Assumptions C63_shows.
(** ... and its members, parameters, section variables and enumerators. *)
Theorem C63_entries : forall t,
  (forall name fields, has_entry t name fields -> exists x, struct_text name fields x /\ occurs x (debug_type t)) /\
  (forall v, In v (enumerators t) -> exists x, enumerator_text v x /\ occurs x (debug_type t)).
Proof. intros t. split; [exact (type_entries t)|exact (type_enumerators t)]. Qed.
Print Assumptions C63_entries.
(** A quoted text denotes one text only, and does not run on into what follows. *)
Theorem C63_literals : forall w s, literal w s -> forall w' s' r r', literal w' s' -> w ++ [x22] ++ r = w' ++ [x22] ++ r' -> s = s' /\ r = r'.
Proof.
  intros w s L w' s' r r' L' E. apply (f_equal decode) in E. cbn [app] in E. rewrite (literal_decode _ _ _ L), (literal_decode _ _ _ L') in E. injection E. auto.
Qed.
Print Assumptions C63_literals.

(** A forward declaration whose name tries to colour the terminal and to start a line of its own. *)
Definition nasty : list byte := [x1b] ++ s "[31m" ++ [x0a] ++ s "1: Void" ++ [x22; xe9].
Definition nasty_file : list byte := raw_file Little [1; 0x07000000; 0] ([x00] ++ nasty ++ [x00]).
Definition nasty_ti : type_information := Eval vm_compute in match type_information_new (file_env nasty_file) with Ok ti => ti | _ => sample_ti end.
Example C63_met : usize_bits (cfg (file_env nasty_file)) = 64 /\ serves (rd (file_env nasty_file)) nasty_file /\
  type_information_new (file_env nasty_file) = Ok nasty_ti /\
  debug_table (get nasty_ti) = s "{1: Fwd(Fwd { type_header: Header { kind: Fwd, name_offset: 1, vlen: 0, kind_flag: false, size_or_type: 0 }, data: Data { name: Some("
    ++ [x22] ++ s "\u{1b}[31m\n1: Void\" ++ [x22; xc3; xa9] ++ [x22] ++ s "), tid: 0 } })}" /\
  (match from_id sample_ti 3 with Some t => debug_type t | None => [] end) =
    s "Ptr(Ptr { type_header: Header { kind: Ptr, name_offset: 0, vlen: 0, kind_flag: false, size_or_type: 2 }, data: Data { tid: 2 } })".
Proof. split; [reflexivity|]. split; [apply file_serves|]. split; [vm_compute; reflexivity|]. split; vm_compute; reflexivity. Qed.
