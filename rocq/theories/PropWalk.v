(** * PropWalk: following pointers through memory (C89).  [c_does], [does], [walks], [says]: WalkSpec.v. *)
From Coq Require Import Strings.String.
From Coq Require Import List NArith ZArith Bool Lia Strings.Byte.
From Verif Require Import TypeInfo Spec BaseFacts PathSpec Path PathGrammar PathPrint QuerySpec Chains OffsetOf Encode LoadProps Witness Sample PropPath PropOffset CSpec CFacts PropC PropTag WalkSpec.
Import ListNotations.
Open Scope N_scope.

Lemma strip_det ti t r r' : strip ti t r -> strip ti t r' -> r = r'.
Proof.
  intros [C E] [C' E']. induction C as [r|t u r Hd C IH].
  - inversion C' as [|? v ? X ?]; subst; [reflexivity|destruct (E _ X)].
  - inversion C' as [|? v ? X C2]; subst; [destruct (E' _ Hd)|]. apply (IH E). destruct Hd as (h & d & F & <-), X as (h' & d' & F' & <-). rewrite F in F'. injection F' as <- <-. exact C2.
Qed.

Section Program.
  Context (m : machine) (P : program) (L : N -> option (N * N)) (e : env) (img : list byte) (ti : type_information) (c : build)
    (LG : legal m P L) (LD : loadable (cfg e) img) (SV : serves (rd e) img) (C : compiled m P L img) (ET : type_information_new e = Ok ti) (UC : 32 <= usize_bits c).
  Lemma tag_iff t u : WalkSpec.tag_of ti t u <-> c_tag P t u.
  Proof.
    pose proof (program_table _ _ _ _ _ _ (proj1 LG) LD SV C ET) as TD. split.
    - intros (h & d & F & <-). destruct (td_only _ _ _ _ TD _ _ F) as [[_ X]|(d' & x & D & V)]; [discriminate X|]. destruct d' as [ | | | | | | | | | | | | | | | | |un pk al nm fs]; cbn [view describe] in V; try discriminate V; [|destruct (layout_of_fields m L un pk al fs) as [[? [? ?]]|]; [destruct un|]; discriminate V].
      injection V as _ V. eexists. rewrite V. exact D.
    - intros [n D]. destruct (td_has _ _ _ _ TD _ _ D) as (ty & w & F & V). destruct ty; cbn [view describe] in V; try discriminate V. injection V as _ V. do 2 eexists. split; [exact F|exact V].
  Qed.
  Lemma c_tag_det t u v : c_tag P t u -> c_tag P t v -> u = v.
  Proof. intros [n D] [n' D']. pose proof (declared_det _ _ _ _ D D') as X. injection X as _ X. exact X. Qed.
  Lemma chain_iff t r : chain (WalkSpec.tag_of ti) t r <-> chain (c_tag P) t r.
  Proof. split; intros X; induction X; econstructor; eauto; apply tag_iff; assumption. Qed.
  (** What the caller gets of a type: as in C. *)
  Lemma stripped t : exists r, strip ti t r /\ ~ is_tag P r /\ (forall w, pointee_tid ti r = Ok w <-> c_is true P t (CPointer w)) /\
    forall p, valid_utf8 p -> (forall u o, offset_of_returns c ti r p (Ok (u, o)) -> exists cs u0, reads_as (usize_max c) p cs /\ designates m P L t cs u0 o /\ same_type P u u0) /\
      (forall cs u0 o, reads_as (usize_max c) p cs -> designates m P L t cs u0 o -> exists u, offset_of_returns c ti r p (Ok (u, o)) /\ same_type P u u0).
  Proof.
    destruct (C77_untagged_partial m P L e img ti c t LG LD SV C ET UC) as (r & CH & Z & _ & _ & I2 & I3). exists r.
    change (chain (WalkSpec.tag_of ti) t r) in CH. split; [split; [exact CH|intros u X; apply tag_iff in X; destruct X as [n X]; apply Z; do 2 eexists; exact X]|]. split; [exact Z|]. split; [exact I2|].
    intros p Vp. assert (Sm : forall x, same_type P x x) by (intros x; exists x; split; constructor).
    destruct (list_eq_dec Byte.byte_eq_dec p []) as [->|Np].
    - assert (RN : forall cs, reads_as (usize_max c) [] cs -> cs = []). { intros cs RA. apply (accepted_iff c [] cs Vp) in RA. pose proof (proj2 (accepted_iff c [] [] Vp) (proj2 (reads_nil (usize_max c) []) eq_refl)) as RB. exact (accepted_det _ _ _ _ Vp RA RB). }
      pose proof (C76_offset_of m P L e img ti c r [] ) as Q. assert (RT : same_type P r t) by (exists r; split; [constructor|apply chain_iff; exact CH]). split.
      + intros u o O. apply (Q u o LG LD SV C ET UC Z Vp) in O. destruct O as (cs & RA & O). exists cs, t. split; [exact RA|]. apply RN in RA. subst cs. inversion O; subst. split; [constructor|exact RT].
      + intros cs u0 o RA O. rewrite (RN _ RA) in O. inversion O; subst. exists r. split; [|exact RT]. apply (Q r (ByteOffset 0) LG LD SV C ET UC Z Vp). exists []. split; [apply (reads_nil (usize_max c)); reflexivity|constructor].
    - split.
      + intros u o O. apply (I3 p u o Vp Np) in O. destruct O as (cs & RA & O). exists cs, u. auto.
      + intros cs u0 o RA O. exists u0. split; [|apply Sm]. apply (I3 p u0 o Vp Np). eauto.
  Qed.
  Lemma onward t x r : chain (WalkSpec.tag_of ti) t x -> strip ti t r -> chain (WalkSpec.tag_of ti) x r.
  Proof.
    intros CX [CR E]. induction CX as [t|t u x Hd CX IH]; [exact CR|]. apply IH. inversion CR as [|? v ? X CR']; subst; [destruct (E _ Hd)|].
    assert (u = v) as -> by (apply (c_tag_det t); apply tag_iff; assumption). exact CR'.
  Qed.
  Lemma same_strip t t0 r : same_type P t t0 -> strip ti t0 r -> strip ti t r.
  Proof. intros (x & A & B) S0. split; [|exact (proj2 S0)]. apply chain_iff in A. apply chain_iff in B. exact (chain_app _ _ _ A (onward _ _ _ B S0)). Qed.
  Lemma same_refl t : same_type P t t. Proof. exists t. split; constructor. Qed.

  Lemma does_c stored t t0 o s y : same_type P t t0 -> text_ok s -> does c ti stored (t, o) s y ->
    exists k u0, says c s k /\ c_does m P L stored (t0, o) k (u0, snd y) /\ same_type P (fst y) u0.
  Proof.
    intros E V D. inversion D as [t1 r a p u o1 S1 O|t1 r a w S1 O|t1 a t' r p u b S1 O Le]; subst; cbn [fst snd].
    - destruct (stripped t0) as (r0 & S0 & _ & _ & Q). assert (r0 = r) as -> by (exact (strip_det _ _ _ _ (same_strip _ _ _ E S0) S1)).
      destruct (proj1 (Q p V) _ _ O) as (cs & u0 & RA & DS & Sm). exists (CMember cs), u0. split; [exact RA|]. split; [constructor; exact DS|exact Sm].
    - destruct (stripped t0) as (r0 & S0 & _ & Q & _). assert (r0 = r) as -> by (exact (strip_det _ _ _ _ (same_strip _ _ _ E S0) S1)).
      exists CDeref, w. split; [exact I|]. split; [constructor; apply Q; exact O|apply same_refl].
    - destruct (stripped t') as (r0 & S0 & _ & _ & Q). assert (r0 = r) as -> by (exact (strip_det _ _ _ _ S0 S1)).
      destruct (proj1 (Q p V) _ _ O) as (cs & u0 & RA & DS & Sm). exists (CContainer t' cs), t'. split; [split; [reflexivity|exact RA]|]. split; [econstructor; [exact DS|exact Le]|apply same_refl].
  Qed.
  Lemma c_does_does stored t t0 o s k y : same_type P t t0 -> text_ok s -> says c s k -> c_does m P L stored (t0, o) k y ->
    exists u, does c ti stored (t, o) s (u, snd y) /\ same_type P u (fst y).
  Proof.
    intros E V Sy D. inversion D as [t1 a cs u o1 DS|t1 a w Hp|t1 a t' cs u b DS Le]; subst; cbn [fst snd]; destruct s as [p| |t2 p]; cbn [says] in Sy; try contradiction.
    - destruct (stripped t0) as (r0 & S0 & _ & _ & Q). destruct (proj2 (Q p V) _ _ _ Sy DS) as (u' & O & Sm). exists u'. split; [|exact Sm].
      econstructor; [exact (same_strip _ _ _ E S0)|exact O].
    - destruct (stripped t0) as (r0 & S0 & _ & Q & _). exists w. split; [|apply same_refl]. econstructor; [exact (same_strip _ _ _ E S0)|apply Q; exact Hp].
    - destruct Sy as [-> RA]. destruct (stripped t') as (r0 & S0 & _ & _ & Q). destruct (proj2 (Q p V) _ _ _ RA DS) as (u' & O & Sm). exists t'. split; [|apply same_refl].
      econstructor; [exact S0|exact O|exact Le].
  Qed.
End Program.

(** Whatever chain of member accesses, dereferences and container_of: the caller comes to the objects that C comes to. *)
Theorem C89_as_in_C : forall m P L e img ti c stored ss t o, legal m P L -> loadable (cfg e) img -> serves (rd e) img -> compiled m P L img -> type_information_new e = Ok ti ->
  32 <= usize_bits c -> Forall text_ok ss ->
  (forall u o', walks (does c ti stored) (t, o) ss (u, o') -> exists ks u0, Forall2 (says c) ss ks /\ walks (c_does m P L stored) (t, o) ks (u0, o') /\ same_type P u u0) /\
  (forall ks u0 o', Forall2 (says c) ss ks -> walks (c_does m P L stored) (t, o) ks (u0, o') -> exists u, walks (does c ti stored) (t, o) ss (u, o') /\ same_type P u u0).
Proof.
  intros m P L e img ti c stored ss t o LG LD SV C ET UC V. split.
  - assert (G : forall t t0 o u o', same_type P t t0 -> walks (does c ti stored) (t, o) ss (u, o') -> exists ks u0, Forall2 (says c) ss ks /\ walks (c_does m P L stored) (t0, o) ks (u0, o') /\ same_type P u u0).
    { clear t o. induction V as [|s ss Vs V IH]; intros t t0 o u o' E W; inversion W as [|x s' y ss' z D W']; subst; [exists [], t0; split; [constructor|]; split; [constructor|exact E]|].
      destruct (does_c m P L e img ti c LG LD SV C ET UC stored _ _ _ _ _ E Vs D) as (k & u0 & Sy & D0 & Sm). destruct y as [u1 o1]. cbn [fst snd] in D0, Sm.
      destruct (IH _ _ _ _ _ Sm W') as (ks & u2 & F & W0 & Sm2). exists (k :: ks), u2. split; [constructor; assumption|]. split; [econstructor; eassumption|exact Sm2]. }
    intros u o'. apply G, same_refl.
  - assert (G : forall t t0 o ks u0 o', same_type P t t0 -> Forall2 (says c) ss ks -> walks (c_does m P L stored) (t0, o) ks (u0, o') -> exists u, walks (does c ti stored) (t, o) ss (u, o') /\ same_type P u u0).
    { clear t o. induction V as [|s ss Vs V IH]; intros t t0 o ks u0 o' E F W; inversion F as [|s1 k ss1 ks1 Sy F']; subst; inversion W as [|x s' y ss' z D W']; subst; [exists t; split; [constructor|exact E]|].
      destruct (c_does_does m P L e img ti c LG LD SV C ET UC stored _ _ _ _ _ _ E Vs Sy D) as (u & D0 & Sm). destruct y as [u1 o1]. cbn [fst snd] in D0, Sm.
      destruct (IH _ _ _ _ _ _ Sm F' W') as (u2 & W0 & Sm2). exists u2. split; [econstructor; eassumption|exact Sm2]. }
    intros ks u0 o'. apply G, same_refl.
Qed.
Print Assumptions C89_as_in_C.
(** The caller comes to one object at most, and every query on the way is answered, without panic or endless loop: taking off tags ends. *)
Theorem C89_answered : forall m P L e img ti c stored, legal m P L -> loadable (cfg e) img -> serves (rd e) img -> compiled m P L img -> type_information_new e = Ok ti ->
  32 <= usize_bits c ->
  (forall t p, exists r, strip ti t r /\ replies (pointee_tid ti r) /\ (valid_utf8 p -> exists a, offset_of_returns c ti r p a /\ replies a)) /\
  (forall ss x y z, Forall text_ok ss -> walks (does c ti stored) x ss y -> walks (does c ti stored) x ss z -> y = z).
Proof.
  intros m P L e img ti c stored LG LD SV C ET UC. split.
  - intros t p. destruct (stripped m P L e img ti c LG LD SV C ET UC t) as (r & S0 & _). exists r. split; [exact S0|].
    destruct (C76_answered m P L e img ti c r p LG LD SV C ET UC) as (_ & A1 & A2). auto.
  - intros ss x y z V W. revert z. induction W as [x|x s y ss z D W IH]; intros z' W'; inversion W' as [|x' s' y' ss' z'' D' W'']; subst; [reflexivity|].
    inversion V as [|? ? Vs V']; subst. apply (IH V'). assert (y = y') as ->; [|exact W''].
    inversion D as [t1 r a p u o1 S1 O|t1 r a w S1 O|t1 a t' r p u b S1 O Le]; subst; inversion D' as [t2 r2 a2 p2 u2 o2 S2 O2|t2 r2 a2 w2 S2 O2|t2 a2 t'2 r2 p2 u2 b2 S2 O2 Le2]; subst; pose proof (strip_det _ _ _ _ S1 S2); subst.
    + pose proof (offset_of_det _ _ _ _ _ _ Vs O O2) as X. injection X as -> ->. reflexivity.
    + rewrite O in O2. injection O2 as ->. reflexivity.
    + pose proof (offset_of_det _ _ _ _ _ _ Vs O O2) as X. injection X as -> ->. reflexivity.
Qed.
Print Assumptions C89_answered.
(** In every table: container_of leads back from a member to the object it is a member of. *)
Theorem C89_back : forall c ti stored t r a p u b, strip ti t r -> offset_of_returns c ti r p (Ok (u, ByteOffset b)) ->
  walks (does c ti stored) (t, ByteOffset a) [Member p] (u, ByteOffset (a + b)) /\
  forall x, walks (does c ti stored) (x, ByteOffset (a + b)) [Container t p] (t, ByteOffset a).
Proof.
  intros c ti stored t r a p u b S0 O. split.
  - econstructor; [|constructor]. exact (does_member c ti stored t r a p u (ByteOffset b) S0 O).
  - intros x. econstructor; [|constructor]. pose proof (does_container c ti stored x (a + b) t r p u b S0 O ltac:(lia)) as D. replace (a + b - b) with a in D by lia. exact D.
Qed.
Print Assumptions C89_back.

(** [task_t __rcu *current] (type 18) at the address 1000: the next task of the list is found by container_of, and its pid, through a type tag.
    [container_of(current->list.next, task_t, list)->pid] *)
Definition memory (a : N) : N := if a =? 1000 then 5000 else if a =? 5040 then 9040 else 0.
Definition next_pid : list operation := [Deref; Member (s "list.next"); Deref; Container 8 (s "list"); Member (s "pid")].
Lemma strip_here ti t : match from_id ti t with Some (TTypeTag _ _) => False | _ => True end -> strip ti t t.
Proof. intros X. split; [constructor|]. intros u (h & d & F & _). rewrite F in X. exact X. Qed.
Example C89_met : walks (does (build64 true) kernel_ti memory) (18, ByteOffset 1000) next_pid (1, ByteOffset 9004) /\ Forall text_ok next_pid /\
  legal machine64 kernel (computed_layout machine64 kernel) /\ loadable (cfg (file_env kernel_img)) kernel_img /\ serves (rd (file_env kernel_img)) kernel_img /\
  compiled machine64 kernel (computed_layout machine64 kernel) kernel_img /\ type_information_new (file_env kernel_img) = Ok kernel_ti /\ is_tag kernel 17.
Proof.
  split.
  { assert (here : forall t, match from_id kernel_ti t with Some (TTypeTag _ _) => False | _ => True end -> strip kernel_ti t t) by apply strip_here.
    eapply walk_on; [eapply (does_deref _ _ _ 18 18 1000 17); [apply here; vm_compute; exact I|vm_compute; reflexivity]|].
    change (memory 1000) with 5000.
    assert (S17 : strip kernel_ti 17 8).
    { split; [|apply here; vm_compute; exact I]. apply (chain_step _ 17 8); [|constructor]. do 2 eexists. split; [vm_compute; reflexivity|reflexivity]. }
    eapply walk_on; [eapply (does_member _ _ _ 17 8 5000 (s "list.next") 3 (ByteOffset 40)); [exact S17|split; [discriminate|exists 20%nat; vm_compute; reflexivity]]|].
    change (shift 5000 (ByteOffset 40)) with (ByteOffset 5040).
    eapply walk_on; [eapply (does_deref _ _ _ 3 3 5040 4); [apply here; vm_compute; exact I|vm_compute; reflexivity]|].
    change (memory 5040) with 9040.
    eapply walk_on; [eapply (does_container _ _ _ 4 9040 8 8 (s "list") 4 40); [apply here; vm_compute; exact I|split; [discriminate|exists 20%nat; vm_compute; reflexivity]|discriminate]|].
    change (9040 - 40) with 9000.
    eapply walk_on; [eapply (does_member _ _ _ 8 8 9000 (s "pid") 1 (ByteOffset 4)); [apply here; vm_compute; exact I|split; [discriminate|exists 20%nat; vm_compute; reflexivity]]|].
    constructor. }
  split; [repeat constructor; literal|].
  split; [exact kernel_legal|]. split; [left; reflexivity|]. split; [apply file_serves|]. split; [exact kernel_compiled|]. split; [exact kernel_loads|].
  do 2 eexists. split; [discriminate|reflexivity].
Qed.
