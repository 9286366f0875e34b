(** * Cache: [offset_of] with the [caching] feature, called from any number of
    threads (src/btf/type_information.rs:357-359 and 606-631).  Model file. *)
From Verif Require Export TypeInfo.

(** The key of line 611 and the value type of line 359. *)
Definition cache_key := (N * str)%type.
Definition cache := list (cache_key * (N * offset)).
Definition key_eqb (a b : cache_key) : bool := (fst a =? fst b) && str_eqb (snd a) (snd b).
(** [HashMap::get] / [HashMap::insert]; the iteration order is never observed. *)
Fixpoint cache_get (k : cache_key) (m : cache) : option (N * offset) :=
  match m with
  | [] => None
  | (k', v) :: m' => if key_eqb k k' then Some v else cache_get k m'
  end.
Definition cache_insert (k : cache_key) (v : N * offset) (m : cache) : cache := (k, v) :: m.

(** One call of [offset_of] by one thread.  The critical sections (612-616 under
    the read lock, 622-624 under the write lock) are atomic steps; the
    computation (619) holds no lock. *)
Inductive thread :=
| Reading (k : cache_key)                                     (* before 612 *)
| Computing (k : cache_key)                                   (* before 619 *)
| Writing (k : cache_key) (v : N * offset)                    (* before 622 *)
| Finished (k : cache_key) (r : outcome error_kind (N * offset)).

(** [poisoned]: [RwLock::read]/[write] return [Err] from then on. *)
Record world := { w_cache : cache; w_poisoned : bool; w_threads : list thread }.

(** What can happen next: a new call is made, thread [i] takes a step (a
    computing thread doing at most [fuel] work), or the lock becomes poisoned. *)
Inductive event := Call (k : cache_key) | Step (i fuel : nat) | Poison.

Definition step_thread (c : build) (ti : type_information) (fuel : nat)
    (m : cache) (poisoned : bool) (t : thread) : cache * thread :=
  match t with
  | Reading k =>
      (* 612-616 *)
      if poisoned then (m, Computing k)
      else match cache_get k m with
           | Some v => (m, Finished k (Ok v))
           | None => (m, Computing k)
           end
  | Computing k =>
      (* 619: [?] returns errors at once *)
      match offset_of_uncached fuel c ti (fst k) (snd k) with
      | Ok v => (m, Writing k v)
      | Err e => (m, Finished k (Err e))
      | Panic p => (m, Finished k (Panic p))
      | Diverge => (m, Computing k)
      end
  | Writing k v =>
      (* 622-626 *)
      ((if poisoned then m else cache_insert k v m), Finished k (Ok v))
  | Finished k r => (m, Finished k r)
  end.

Fixpoint set_nth {A} (i : nat) (x : A) (l : list A) : list A :=
  match i, l with
  | _, [] => []
  | O, _ :: l' => x :: l'
  | S i', y :: l' => y :: set_nth i' x l'
  end.

Definition step (c : build) (ti : type_information) (w : world) (ev : event) : world :=
  match ev with
  | Call k => {| w_cache := w_cache w; w_poisoned := w_poisoned w;
                 w_threads := w_threads w ++ [Reading k] |}
  | Poison => {| w_cache := w_cache w; w_poisoned := true; w_threads := w_threads w |}
  | Step i fuel =>
      match nth_error (w_threads w) i with
      | None => w
      | Some t =>
          let mt := step_thread c ti fuel (w_cache w) (w_poisoned w) t in
          {| w_cache := fst mt; w_poisoned := w_poisoned w;
             w_threads := set_nth i (snd mt) (w_threads w) |}
      end
  end.

(** 485-486: a fresh object has an empty, unpoisoned cache. *)
Definition world_init : world := {| w_cache := []; w_poisoned := false; w_threads := [] |}.
Definition run (c : build) (ti : type_information) (evs : list event) : world :=
  fold_left (step c ti) evs world_init.
