(** * Locks: [offset_of] with the [caching] feature, with the lock operations
    as separate steps (src/btf/type_information.rs:606-631).  Model file.

    Cache.v takes each critical section as one atomic step; here a thread
    acquires the lock, touches the map, and releases the lock in three steps,
    between which other threads run.  A call on a poisoned lock acquires and
    releases it all the same (the guard is inside the [Err]), but does not
    touch the map. *)
From Verif Require Export Cache.

Inductive lthread :=
| LStart (k : cache_key)                                 (* 612: about to call [read()] *)
| LRead (k : cache_key) (usable : bool)                  (* 612: has the read guard; [usable] unless poisoned *)
| LGot (k : cache_key) (found : option (N * offset))     (* 613: [get] done, guard still held *)
| LComputing (k : cache_key)                             (* 619: no guard held *)
| LWait (k : cache_key) (v : N * offset)                 (* 622: about to call [write()] *)
| LWrite (k : cache_key) (v : N * offset) (usable : bool)(* 622: has the write guard *)
| LWritten (k : cache_key) (v : N * offset)              (* 623: [insert] done, guard still held *)
| LDone (k : cache_key) (r : outcome error_kind (N * offset)). (* returned: 615, 619 or 626 *)

Definition reads (t : lthread) : bool := match t with LRead _ _ | LGot _ _ => true | _ => false end.
Definition writes (t : lthread) : bool := match t with LWrite _ _ _ | LWritten _ _ => true | _ => false end.

Record lworld := { l_cache : cache; l_poisoned : bool; l_threads : list lthread }.

(** [RwLock::read] succeeds only when no thread has the write guard, [RwLock::write]
    when no thread has any guard. *)
Definition no_writer (w : lworld) : bool := forallb (fun t => negb (writes t)) (l_threads w).
Definition no_holder (w : lworld) : bool := forallb (fun t => negb (writes t) && negb (reads t)) (l_threads w).

(** The standard library leaves the priority of readers and writers to the platform: a lock may keep new readers
    waiting while a writer waits ([lock_policy]); [pol] says when it lets a reader in. *)
Definition waits_to_write (t : lthread) : bool := match t with LWait _ _ => true | _ => false end.
Definition lock_policy (pol : list lthread -> bool) : Prop :=
  forall ts, existsb waits_to_write ts = false -> pol ts = true.

(** One step of a thread: [None] when it has to wait (or has returned). *)
Definition lstep_thread (pol : list lthread -> bool) (c : build) (ti : type_information) (fuel : nat) (w : lworld) (t : lthread)
  : option (cache * lthread) :=
  match t with
  | LStart k => if no_writer w && pol (l_threads w) then Some (l_cache w, LRead k (negb (l_poisoned w))) else None
  | LRead k true => Some (l_cache w, LGot k (cache_get k (l_cache w)))
  | LRead k false => Some (l_cache w, LComputing k)
  | LGot k (Some v) => Some (l_cache w, LDone k (Ok v))
  | LGot k None => Some (l_cache w, LComputing k)
  | LComputing k =>
      match offset_of_uncached fuel c ti (fst k) (snd k) with
      | Ok v => Some (l_cache w, LWait k v)
      | Err e => Some (l_cache w, LDone k (Err e))
      | Panic p => Some (l_cache w, LDone k (Panic p))
      | Diverge => Some (l_cache w, LComputing k)
      end
  | LWait k v => if no_holder w then Some (l_cache w, LWrite k v (negb (l_poisoned w))) else None
  | LWrite k v true => Some (cache_insert k v (l_cache w), LWritten k v)
  | LWrite k v false => Some (l_cache w, LDone k (Ok v))
  | LWritten k v => Some (l_cache w, LDone k (Ok v))
  | LDone _ _ => None
  end.

Definition lstep (pol : list lthread -> bool) (c : build) (ti : type_information) (w : lworld) (ev : event) : lworld :=
  match ev with
  | Call k => {| l_cache := l_cache w; l_poisoned := l_poisoned w; l_threads := l_threads w ++ [LStart k] |}
  | Poison => {| l_cache := l_cache w; l_poisoned := true; l_threads := l_threads w |}
  | Step i fuel =>
      match nth_error (l_threads w) i with
      | None => w
      | Some t =>
          match lstep_thread pol c ti fuel w t with
          | None => w
          | Some mt => {| l_cache := fst mt; l_poisoned := l_poisoned w; l_threads := set_nth i (snd mt) (l_threads w) |}
          end
      end
  end.
Definition lworld_init : lworld := {| l_cache := []; l_poisoned := false; l_threads := [] |}.
Definition lrun (pol : list lthread -> bool) (c : build) (ti : type_information) (evs : list event) : lworld :=
  fold_left (lstep pol c ti) evs lworld_init.
