(** * Depth: the same queries, counting how many calls are active at once (C62).  Model file.
    The control flow is that of TypeInfo.v; DepthFacts.v shows that the results are the same.  Counted are the calls of the
    functions that call themselves: [pointee_tid], [size_of], [offset_of_impl].  The others ([from_id], [id_of],
    [TypePathComponentIter::next] with its one level of recursion, [Offset::add], [BTreeMap] lookups) add a constant. *)
From Verif Require Import TypeInfo.
Import ListNotations.
Open Scope N_scope.

(** A result, and the largest number of calls that were active at once below the call that gave it. *)
Definition deep (E A : Type) : Type := (outcome E A * N)%type.
Definition flat {E A} (r : outcome E A) : deep E A := (r, 0).
(** the call of a function, seen from its caller *)
Definition call {E A} (x : deep E A) : deep E A := (fst x, 1 + snd x).
(** one after the other *)
Definition dbind {E A B} (x : deep E A) (f : A -> deep E B) : deep E B :=
  match fst x with
  | Ok a => let y := f a in (fst y, N.max (snd x) (snd y))
  | Err k => (Err k, snd x)
  | Panic p => (Panic p, snd x)
  | Diverge => (Diverge, snd x)
  end.

(** src/btf/type_information.rs:522-544, [pointee_tid] *)
Fixpoint pointee_tid_deep (fuel : nat) (ti : type_information) (tid : N) : deep error_kind N :=
  match fuel with
  | O => flat Diverge
  | S fuel' =>
      match from_id ti tid with
      | None => flat (Err InvalidTypeID)
      | Some (TTypedef _ d) => call (pointee_tid_deep fuel' ti (nl_tid d))
      | Some (TConst _ d) => call (pointee_tid_deep fuel' ti (link_tid d))
      | Some (TVolatile _ d) => call (pointee_tid_deep fuel' ti (link_tid d))
      | Some (TRestrict _ d) => call (pointee_tid_deep fuel' ti (link_tid d))
      | Some (TPtr _ d) => flat (Ok (link_tid d))
      | Some _ => flat (Err InvalidTypeID)
      end
  end.
(** 546-604, [size_of] *)
Fixpoint size_of_deep (fuel : nat) (c : build) (ti : type_information) (tid : N) : deep error_kind N :=
  match fuel with
  | O => flat Diverge
  | S fuel' =>
      match from_id ti tid with
      | None => flat (Err InvalidTypeID)
      | Some t =>
          match t with
          | TPtr _ _ => flat (pointer_size ti)
          | TArray _ d =>
              dbind (call (size_of_deep fuel' c ti (element_tid d)))
                    (fun element_size => flat (mul_usize c element_size (element_count d)))
          | TFloat _ d => flat (Ok (float_size d))
          | TInt _ d => flat (Ok (int_size d))
          | TEnum _ d => flat (Ok (enum_size d))
          | TEnum64 _ d => flat (Ok (enum_size d))
          | TStruct _ d => flat (Ok (struct_size d))
          | TUnion _ d => flat (Ok (struct_size d))
          | TDataSec _ d => flat (Ok (ds_size d))
          | TVar _ d => call (size_of_deep fuel' c ti (var_tid d))
          | TTypedef _ d => call (size_of_deep fuel' c ti (nl_tid d))
          | TConst _ d => call (size_of_deep fuel' c ti (link_tid d))
          | TVolatile _ d => call (size_of_deep fuel' c ti (link_tid d))
          | TRestrict _ d => call (size_of_deep fuel' c ti (link_tid d))
          | TTypeTag _ d => call (size_of_deep fuel' c ti (nl_tid d))
          | _ => flat (Err NotSized)
          end
      end
  end.
(** 692-709, an index component on an array *)
Definition array_step_deep (c : build) (ti : type_information) (d : array_data) (off : offset) (i : N) : deep offset_error offset :=
  if element_count d <=? i then flat (Err OEIndexOutOfBounds)
  else
    let size := call (size_of_deep (chain_fuel ti) c ti (element_tid d)) in
    dbind (btf_err (fst size), snd size) (fun size =>
    flat (obind (ok_or OEArrayOffsetOverflow (index_size i size)) (fun isz => btf_err (offset_add_u32 off isz)))).
(** 730-743 *)
Fixpoint probe_deep (probe : offset -> N -> deep offset_error (N * offset)) (off : offset) (ms : list member) : deep offset_error (option (N * offset)) :=
  match ms with
  | [] => flat (Ok None)
  | m :: ms' =>
      if is_anonymous m then
        dbind (flat (btf_err (offset_add (m_offset m) off))) (fun o =>
        let y := probe o (m_tid m) in
        match fst y with
        | Ok r => (Ok (Some r), snd y)
        | Err _ => let rest := probe_deep probe off ms' in (fst rest, N.max (snd y) (snd rest))
        | Panic p => (Panic p, snd y)
        | Diverge => (Diverge, snd y)
        end)
      else probe_deep probe off ms'
  end.
(** 661-757, a round of the loop once its component is read. [probe] is the recursive call (733-737); [go] is the next
    round of the loop, which is not a call. *)
Definition round_deep (c : build) (ti : type_information) (probe go : offset -> N -> deep offset_error (N * offset))
    (off : offset) (tid : N) (comp : component) : deep offset_error (N * offset) :=
  dbind (flat (resolve ti tid)) (fun r =>
  match snd r with
  | TVoid => flat (Err OEVoidDereference)
  | t =>
      match comp with
      | Index i =>
          match t with
          | TArray _ d => dbind (array_step_deep c ti d off i) (fun off' => go off' (element_tid d))
          | TPtr _ _ => flat (Err OEPtrNotIndexable)
          | _ => flat (Err OETypeNotIndexable)
          end
      | Name name =>
          match (match t with TStruct _ d => Some (member_list d) | TUnion _ d => Some (member_list d) | _ => None end) with
          | None => flat (Err OENotStructOrUnion)
          | Some ms =>
              dbind (probe_deep (fun o mt => call (probe o mt)) off ms) (fun found =>
              match found with
              | Some r => flat (Ok r)
              | None =>
                  match find (has_name name) ms with
                  | Some m => dbind (flat (btf_err (offset_add off (m_offset m)))) (fun off' => go off' (m_tid m))
                  | None => flat (Err OEMemberNotFound)
                  end
              end)
          end
      end
  end).
(** 640-761, [offset_of_impl] *)
Fixpoint offset_of_deep (fuel : nat) (c : build) (ti : type_information) (path : str)
    (off : offset) (tid : N) (it : piter) : deep offset_error (N * offset) :=
  match fuel with
  | O => flat Diverge
  | S fuel' =>
      match next c path it with
      | (Ok None, _) => flat (Ok (tid, off))
      | (Err k, _) => flat (Err (OEBtf k))
      | (Panic p, _) => flat (Panic p)
      | (Diverge, _) => flat Diverge
      | (Ok (Some comp), it') =>
          round_deep c ti (fun o mt => offset_of_deep fuel' c ti path o mt it)
            (fun o mt => offset_of_deep fuel' c ti path o mt it') off tid comp
      end
  end.

(** The calls that are active at once below pointee_tid(tid), size_of(tid), and the first call of [offset_of_impl] made by
    offset_of(tid, path) (634-638). *)
Definition pointee_nesting (fuel : nat) (ti : type_information) (tid : N) : N := snd (pointee_tid_deep fuel ti tid).
Definition size_nesting (fuel : nat) (c : build) (ti : type_information) (tid : N) : N := snd (size_of_deep fuel c ti tid).
Definition offset_of_nesting (fuel : nat) (c : build) (ti : type_information) (tid : N) (path : str) : N :=
  snd (offset_of_deep fuel c ti path (ByteOffset 0) tid piter_new).
