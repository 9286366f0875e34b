(** * PropProgram: from a C program to what the tools print and to what concurrent callers get (C78). *)
From Coq Require Import Strings.String.
From Coq Require Import List NArith ZArith Bool Lia Strings.Byte.
From Verif Require Import TypeInfo Spec BaseFacts Exact PathSpec Path QuerySpec Chains Sizes OffsetOf Encode LoadProps Witness Sample Tools ToolsSpec ToolsFacts Cache CacheProps Locks
  PropPath PropQuery PropOffset PropTools PropCache CSpec CFacts PropC RealFile.
Import ListNotations.
Open Scope N_scope.

(** [t] is the (last) type called [name]. *)
Definition known_as (P : program) (name : str) (t : N) : Prop := name <> s "void" /\ last_called P name t.
(** The file at [path] is a BTF file of the program, and not too big for a 32-bit target. *)
Definition holds_program (b : build) (fs : files) (path : str) (m : machine) (P : program) (L : N -> option (N * N)) : Prop :=
  exists img, fs path = Some img /\ loadable b img /\ compiled m P L img.
Definition fails (path : str) : Tools.run := {| printed := [Opening path]; ended := Panicked |}.

Lemma opens b fs path m P L : legal m P L -> holds_program b fs path m P L -> exists e img ti, 32 <= usize_bits b /\ loadable (cfg e) img /\ serves (rd e) img /\
  compiled m P L img /\ type_information_new e = Ok ti /\ forall rest, open_btf b fs path rest = rest ti.
Proof.
  intros LG (img & F & U & C). set (e := {| cfg := b; rd := readable_file img |}). assert (SV : serves (rd e) img) by apply readable_file_serves.
  destruct (C76_loads m P L e img U SV C) as (ti & ET & _). exists e, img, ti. split; [destruct U as [-> |[-> _]]; discriminate|]. split; [exact U|]. split; [exact SV|]. split; [exact C|]. split; [exact ET|].
  intro rest. unfold open_btf. rewrite F. cbn [some unwrap]. fold e. rewrite ET. reflexivity.
Qed.
Lemma found m P L e img ti name t : legal m P L -> loadable (cfg e) img -> serves (rd e) img -> compiled m P L img -> type_information_new e = Ok ti ->
  known_as P name t -> id_of ti name = Some t.
Proof. intros LG U SV C ET [Z O]. exact (proj2 (C76_by_name m P L e img ti name t LG U SV C ET Z) O). Qed.

(** get-type-size prints sizeof, and fails for exactly the types that have none. *)
Theorem C78_get_type_size : forall m P L b fs prog path name t, legal m P L -> holds_program b fs path m P L -> known_as P name t ->
  get_type_size b fs [prog; path; name] = match L t with Some (z, _) => answers path (size_text name t z) | None => fails path end.
Proof.
  intros m P L b fs prog path name t LG H O. destruct (opens _ _ _ _ _ _ LG H) as (e & img & ti & UB & Ue & SV & C & ET & OP).
  unfold get_type_size. rewrite OP, (found _ _ _ _ _ _ _ _ LG Ue SV C ET O). cbn [some unwrap].
  pose proof (fun z => C76_size_of m P L e img ti b t z LG Ue SV C ET UB) as S. pose proof (proj1 (C76_answered m P L e img ti b t [] LG Ue SV C ET UB)) as A.
  destruct (L t) as [[z a]|].
  - rewrite (proj2 (S z) (ex_intro _ a eq_refl)). reflexivity.
  - destruct (size_of b ti t) as [z|k|q|]; cbn in A; try contradiction; [|reflexivity]. destruct (proj1 (S z) eq_refl) as [a X]. discriminate X.
Qed.
Print Assumptions C78_get_type_size.

(** get-type-offset prints the type and the place of the object that the designator designates, and fails for everything that is not a designator. *)
Theorem C78_get_type_offset : forall m P L b fs prog path name t p, legal m P L -> holds_program b fs path m P L -> known_as P name t -> ~ is_tag P t -> valid_utf8 p ->
  let eventually out := exists enough, forall more, get_type_offset (enough + more)%nat b fs [prog; path; name; p] = out in
  (forall u o, eventually (answers path (offset_text name p u o)) <-> exists cs, reads_as (usize_max b) p cs /\ designates m P L t cs u o) /\
  (eventually (fails path) <-> ~ exists cs u o, reads_as (usize_max b) p cs /\ designates m P L t cs u o).
Proof.
  intros m P L b fs prog path name t p LG H O Z Hp. destruct (opens _ _ _ _ _ _ LG H) as (e & img & ti & UB & Ue & SV & C & ET & OP).
  pose proof (fun u o => C76_offset_of m P L e img ti b t p u o LG Ue SV C ET UB Z Hp) as Q.
  destruct (proj2 (proj2 (C76_answered m P L e img ti b t p LG Ue SV C ET UB)) Hp) as (r & R & A). pose proof R as [Nr [n En]].
  assert (T : forall v, name ++ says " => " ++ p ++ says ": " ++ show_place v = offset_text name p (fst v) (snd v)).
  { intros [u o]. unfold offset_text. do 4 f_equal. destruct o; cbn [fst snd show_place place_text show_offset]; unfold show_place; cbn [fst snd show_offset]; rewrite <- ?app_assoc; reflexivity. }
  assert (G : forall more, get_type_offset (n + more) b fs [prog; path; name; p] = match r with Ok v => answers path (offset_text name p (fst v) (snd v)) | _ => fails path end).
  { intro more. unfold get_type_offset. rewrite OP, (found _ _ _ _ _ _ _ _ LG Ue SV C ET O). cbn [some unwrap].
    rewrite (returns_mono b ti t p n (n + more) Hp) by (lia || congruence). rewrite En. destruct r as [[u o]|k|q|]; cbn in A; try contradiction; [|reflexivity].
    cbn [unwrap fst snd]. rewrite T. reflexivity. }
  set (res := match r with Ok v => answers path (offset_text name p (fst v) (snd v)) | _ => fails path end) in G.
  assert (EV : forall out, (exists enough, forall more, get_type_offset (enough + more)%nat b fs [prog; path; name; p] = out) <-> out = res).
  { intro out. split; [|intros ->; exists n; exact G]. intros [k K]. rewrite <- (K n). rewrite (Nat.add_comm k n). apply G. }
  cbv zeta. split.
  - intros u o. rewrite EV, <- (Q u o). unfold res. split.
    + intro E. destruct r as [[u' o']|k|q|]; cbn in A; try contradiction; [|discriminate E]. unfold answers in E. injection E as E. cbn [fst snd] in E.
      apply (proj2 C54_readable) in E. destruct E as [-> ->]. exact R.
    + intros R'. rewrite (offset_of_det _ _ _ _ _ _ Hp R R'). reflexivity.
  - rewrite EV. unfold res. split.
    + intros E (cs & u & o & X). assert (R' : offset_of_returns b ti t p (Ok (u, o))) by (apply Q; eauto). rewrite (offset_of_det _ _ _ _ _ _ Hp R R') in E. discriminate E.
    + intro X. destruct r as [[u o]|k|q|]; cbn in A; try contradiction; [|reflexivity]. destruct X. apply Q in R. destruct R as (cs & R). eauto.
Qed.
Print Assumptions C78_get_type_offset.

(** dump-btf shows a type for each declaration, in order, under its number. *)
Theorem C78_dump_btf : forall m P L b fs prog path, legal m P L -> holds_program b fs path m P L -> exists l,
  dump_btf b fs [prog; path] = {| printed := [Opening path; Types l]; ended := Returned |} /\
  map fst l = map N.of_nat (seq 1 (length P)) /\ Forall2 (fun d ty => exists x, view ty = Some (describe m L x d)) P (map snd l).
Proof.
  intros m P L b fs prog path LG H. destruct (opens _ _ _ _ _ _ LG H) as (e & img & ti & UB & Ue & SV & C & ET & OP).
  destruct (loaded_program _ _ _ _ _ _ Ue SV C ET) as (T1 & _ & F2). exists (get ti). split; [unfold dump_btf; rewrite OP; reflexivity|]. split; [|exact F2].
  assert (LN : length (types ti) = length P) by (clear - F2; induction F2; cbn; congruence). rewrite (get_spec ti T1), LN.
  assert (X : forall (A B : Type) (k : list A) (l : list B), length k = length l -> map fst (combine k l) = k).
  { clear. induction k as [|x k IH]; intros [|y l] E; try discriminate; [reflexivity|]. cbn. f_equal. apply IH. injection E as E. exact E. }
  apply X. rewrite map_length, seq_length. symmetry. exact LN.
Qed.
Print Assumptions C78_dump_btf.

(** Any number of threads that call offset_of on one shared object, in any order, with any steps in between, get the answers of C. *)
Theorem C78_any_history : forall m P L e img ti c pol evs i t p r, legal m P L -> loadable (cfg e) img -> serves (rd e) img -> compiled m P L img -> type_information_new e = Ok ti ->
  32 <= usize_bits c -> nth_error (l_threads (lrun pol c ti evs)) i = Some (LDone (t, p) r) -> ~ is_tag P t -> valid_utf8 p ->
  (forall u o, r = Ok (u, o) <-> exists cs, reads_as (usize_max c) p cs /\ designates m P L t cs u o) /\
  ((exists k, r = Err k) <-> ~ exists cs u o, reads_as (usize_max c) p cs /\ designates m P L t cs u o).
Proof.
  intros m P L e img ti c pol evs i t p r LG U SV C ET UC H Z Hp. destruct (C40_cached_results_exact pol c ti evs i (t, p) r H) as [_ R]. cbn [fst snd] in R.
  pose proof (fun u o => C76_offset_of m P L e img ti c t p u o LG U SV C ET UC Z Hp) as Q.
  assert (Q' : forall u o, r = Ok (u, o) <-> exists cs, reads_as (usize_max c) p cs /\ designates m P L t cs u o).
  { intros u o. rewrite <- (Q u o). split; [intros <-; exact R|intro R'; exact (offset_of_det _ _ _ _ _ _ Hp R R')]. }
  split; [exact Q'|]. destruct (proj2 (proj2 (C76_answered m P L e img ti c t p LG U SV C ET UC)) Hp) as (r' & R' & A).
  rewrite (offset_of_det _ _ _ _ _ _ Hp R' R) in A. split.
  - intros [k ->] (cs & u & o & X). assert (E : Err k = Ok (u, o)) by (apply Q'; eauto). discriminate E.
  - intro X. destruct r as [[u o]|k|q|]; cbn in A; try contradiction; [|eauto]. destruct X. destruct (proj1 (Q' u o) eq_refl) as (cs & X). eauto.
Qed.
Print Assumptions C78_any_history.
(** And all these calls return. *)
Theorem C78_all_return : forall m P L e img ti c pol evs, legal m P L -> loadable (cfg e) img -> serves (rd e) img -> compiled m P L img -> type_information_new e = Ok ti ->
  32 <= usize_bits c -> lock_policy pol -> valid_calls evs -> exists fuel steps, (length steps <= 7 * length (calls_made evs))%nat /\ Forall (fun ev => exists i, ev = Step i fuel) steps /\
    forall i k, nth_error (calls_made evs) i = Some k -> exists r, nth_error (l_threads (lrun pol c ti (evs ++ steps))) i = Some (LDone k r).
Proof.
  intros m P L e img ti c pol evs LG U SV C ET UC LP V.
  assert (F : forall ks, Forall (fun k : cache_key => valid_utf8 (snd k)) ks -> exists fuel, forall k, In k ks -> offset_of_uncached fuel c ti (fst k) (snd k) <> Diverge).
  { induction ks as [|k ks IH]; intro Vk; [exists O; intros k []|]. inversion_clear Vk as [|? ? Vk1 Vk2]. destruct (IH Vk2) as [f1 F1].
    destruct (proj2 (proj2 (C76_answered m P L e img ti c (fst k) (snd k) LG U SV C ET UC)) Vk1) as (r & [Nr [f2 F2]] & _).
    exists (f1 + f2)%nat. intros k' [<-|I].
    - rewrite (returns_mono c ti (fst k) (snd k) f2 (f1 + f2)) by (assumption || lia || congruence). congruence.
    - rewrite (returns_mono c ti (fst k') (snd k') f1 (f1 + f2)) by (try (exact (F1 _ I)); try lia; rewrite Forall_forall in Vk2; exact (Vk2 _ I)). exact (F1 _ I). }
  destruct (F _ V) as [fuel Ff]. destruct (C45_all_return pol c ti evs fuel LP Ff) as (steps & LS & FS & R). exists fuel, steps. split; [exact LS|]. split; [exact FS|].
  intros i k N0. destruct (R i k N0) as (r & R1 & _). exists r. exact R1.
Qed.
Print Assumptions C78_all_return.

(** The files of GCC (RealFile.v), by their names. *)
Definition built : files := fun p => if str_eqb p (s "real.btf") then Some gcc64_img else if str_eqb p (s "real32.btf") then Some gcc32_img else None.
Example C78_met : let L := computed_layout x86_64 source64 in let b := build64 false in
  legal x86_64 source64 L /\ holds_program b built (s "real.btf") x86_64 source64 L /\ known_as source64 (s "task") 19 /\ ~ is_tag source64 19 /\
  L 19 = Some (120, 8) /\ get_type_size b built [s "get-type-size"; s "real.btf"; s "task"] = answers (s "real.btf") (s "Type task has ID 19 and requires 120 bytes in total") /\
  get_type_offset 20 b built [s "get-type-offset"; s "real.btf"; s "task"; s "in[2].parts[1]"] = answers (s "real.btf") (s "task => in[2].parts[1]: (2, ByteOffset(84))") /\
  (exists cs, reads_as (usize_max b) (s "in[2].parts[1]") cs /\ designates x86_64 source64 L 19 cs 2 (ByteOffset 84)) /\
  get_type_offset 20 b built [s "get-type-offset"; s "real.btf"; s "task"; s "in[3]"] = fails (s "real.btf") /\
  lock_policy readers_first /\ (let evs := [Call (19, s "mode"); Step 0 20; Call (19, s "in[3]"); Step 0 20] in valid_calls evs /\
    l_threads (lrun readers_first b gcc64_ti (evs ++ map (fun i => Step i 20) [0; 0; 1; 1; 1; 0; 1; 0; 0; 1; 0; 1; 0; 1; 1])%nat) =
      [LDone (19, s "mode") (Ok (1, BitOffsetAndSize 64 30)); LDone (19, s "in[3]") (Err InvalidTypePath)]).
Proof.
  cbv zeta. split; [exact source64_legal|]. split; [exists gcc64_img; split; [vm_compute; reflexivity|split; [left; reflexivity|exact gcc64_compiled]]|]. split; [|split; [|split]].
  - split; [discriminate|]. split; [eexists; split; [split; [discriminate|reflexivity]|reflexivity]|].
    apply (by_number source64 (fun t d => c_name d = Some (s "task") -> t <= 19)). each ltac:(let E := fresh in intro E; (discriminate || discriminate E)).
  - intros (n & u & D). pose proof (by_number source64 (fun t d => match d with CTag _ _ => False | _ => True end) ltac:(each ltac:(exact I)) _ _ D) as K. exact K.
  - vm_compute. reflexivity.
  - split; [vm_compute; reflexivity|]. split; [vm_compute; reflexivity|]. split.
    + assert (R : offset_of_returns (build64 false) gcc64_ti 19 (s "in[2].parts[1]") (Ok (2, ByteOffset 84))) by (split; [discriminate|exists 20%nat; vm_compute; reflexivity]).
      apply (C76_offset_of x86_64 source64 (computed_layout x86_64 source64) (file_env gcc64_img) gcc64_img gcc64_ti (build64 false)) in R;
        [exact R|exact source64_legal|left; reflexivity|apply file_serves|exact gcc64_compiled|exact gcc64_loads|discriminate| |literal].
      intros (n & u & D). pose proof (by_number source64 (fun t d => match d with CTag _ _ => False | _ => True end) ltac:(each ltac:(exact I)) _ _ D) as K. exact K.
    + split; [vm_compute; reflexivity|]. split; [exact (proj1 policies)|]. split; [repeat (constructor; [literal|]); constructor|vm_compute; reflexivity].
Qed.
