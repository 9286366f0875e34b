(** * PropPretty: the text of types over several lines (C82).  [pretty_type], [pretty_table]: Pretty.v; [lines], [stands], [has_lines], [type_lines]: PrettySpec.v;
    [shows], [has_entry], [one_clean_line]: DebugSpec.v. *)
From Coq Require Import Strings.String.
From Coq Require Import List NArith ZArith Bool Lia Strings.Byte.
From Verif Require Import TypeInfo Spec BaseFacts Maps LoadProps Final Witness Sample Debug DebugSpec DebugFacts DebugText PropDebug Pretty PrettySpec PrettyFacts PrettyText.
Import ListNotations.
Open Scope N_scope.

(** ** C82 *)
(** The text can be read back. *)
Theorem C82_readable : (forall t t', pretty_type t = pretty_type t' -> t = t') /\ (forall l l', pretty_table l = pretty_table l' -> l = l').
Proof. split; intros a b E; [apply C63_type_readable, pretty_type_inj|apply C63_dump_readable, pretty_table_inj]; exact E. Qed.
Print Assumptions C82_readable.
(** The first line is the kind of the type; each value stands three levels in, behind its label. *)
Theorem C82_shows : forall t,
  (exists r, lines (pretty_type t) = match t with TVoid => [words "Void"] | _ => (variant_name t ++ words "(") :: r end) /\
  forall label v, shows t label v -> exists ls, stands 3 (words label ++ words ": ") v ls /\ has_lines ls (pretty_type t).
Proof.
  intros t. split; [|exact (pretty_shows t)]. unfold pretty_type. rewrite pretty_lines by apply type_flat. destruct t; [exists []; reflexivity|..]; cbn [type_shape]; unfold variant_shape; cbn [rows app]; eexists; reflexivity.
Qed.
Print Assumptions C82_shows.
(** Members, parameters, section variables and enumerators. *)
Theorem C82_entries : forall t,
  (forall name fields, has_entry t name fields -> exists ls, stand 5 fields ls /\
    has_lines ([at_level 4 (words name ++ words " {")] ++ ls ++ [at_level 4 (words "},")]) (pretty_type t)) /\
  (forall v, In v (enumerators t) -> exists ls, enumerator_lines 4 (value_struct t) v ls /\ has_lines ls (pretty_type t)).
Proof. intros t. split; [exact (pretty_entries t)|exact (pretty_enumerators t)]. Qed.
Print Assumptions C82_entries.
(** The number of lines does not depend on what the names are. *)
Theorem C82_lines : forall t, List.length (lines (pretty_type t)) = type_lines t.
Proof. exact pretty_count. Qed.
Print Assumptions C82_lines.
(** The table: the texts of the types, each behind its id. *)
Theorem C82_table : forall l, lines (pretty_table l) = table_lines pretty_type l.
Proof. exact pretty_table_lines. Qed.
Print Assumptions C82_table.
(** Both forms print the same tree. *)
Theorem C82_same_tree : forall t l, one_line (type_shape t) = debug_type t /\ pretty (type_shape t) = pretty_type t /\
  one_line (table_shape l) = debug_table l /\ pretty (table_shape l) = pretty_table l.
Proof. intros t l. split; [apply one_type|]. split; [reflexivity|]. split; [apply one_table|reflexivity]. Qed.
Print Assumptions C82_same_tree.
(** Whatever names a file contains, each line consists of visible characters. *)
Theorem C82_clean : forall e img ti, usize_bits (cfg e) = 64 -> serves (rd e) img -> type_information_new e = Ok ti ->
  Forall one_clean_line (lines (pretty_table (get ti))) /\
  forall i t, from_id ti i = Some t -> Forall one_clean_line (lines (pretty_type t)).
Proof.
  intros e img ti H Hs L. destruct (loaded_names e img ti H Hs L) as (en & hf & _ & X).
  assert (Y : forall i t k s, type_at (types ti) i t -> name_in t k s -> one_clean_line (debug_str s)).
  { intros i t k s Ht Hn. destruct (X i t k s Ht Hn) as (_ & bs & _ & _ & Hl & _). apply clean_str. exists bs. exact Hl. }
  assert (A : forall x, ascii_text x = true -> one_clean_line x) by exact clean_ascii.
  assert (R : forall d, all_texts one_clean_line d -> flat d -> Forall one_clean_line (lines (pretty d))).
  { intros d C F. rewrite pretty_lines by exact F. apply rows_all; [exact clean_app|exact A|exact C|exact clean_nil|exact clean_nil]. }
  split.
  - apply R; [|apply table_flat]. apply table_texts; [exact A|]. intros i t k s Hi. apply (in_map snd) in Hi. cbn [snd] in Hi. apply In_nth_error in Hi. destruct Hi as (n & Hn).
    apply (Y (N.of_nat (S n)) t k s). split; [lia|]. rewrite Nnat.Nat2N.id. replace (S n - 1)%nat with n by lia. exact Hn.
  - intros i t Ht. apply R; [|apply type_flat]. apply type_texts; [exact A|]. intros k s Hn. destruct (N.eq_dec i 0) as [->|Hi].
    + cbn in Ht. injection Ht as <-. inversion Hn; try contradiction; discriminate.
    + apply (Y i t k s); [|exact Hn]. apply (loaded_ids e ti H L); assumption.
Qed.
Print Assumptions C82_clean.

(** The forward declaration of C63, whose name tries to colour the terminal and to start a line of its own. *)
Example C82_met : usize_bits (cfg (file_env nasty_file)) = 64 /\ serves (rd (file_env nasty_file)) nasty_file /\ type_information_new (file_env nasty_file) = Ok nasty_ti /\
  lines (pretty_table (get nasty_ti)) = [s "{"; s "    1: Fwd("; s "        Fwd {"; s "            type_header: Header {"; s "                kind: Fwd,"; s "                name_offset: 1,"; s "                vlen: 0,";
    s "                kind_flag: false,"; s "                size_or_type: 0,"; s "            },"; s "            data: Data {"; s "                name: Some(";
    s "                    " ++ [x22] ++ s "\u{1b}[31m\n1: Void\" ++ [x22; xc3; xa9] ++ [x22] ++ s ","; s "                ),"; s "                tid: 0,"; s "            },"; s "        },"; s "    ),"; s "}"] /\
  (match from_id sample_ti 7 with Some t => (length (lines (pretty_type t)), type_lines t) | None => (0%nat, 1%nat) end) = (68%nat, 68%nat).
Proof. split; [reflexivity|]. split; [apply file_serves|]. split; [vm_compute; reflexivity|]. split; vm_compute; reflexivity. Qed.
