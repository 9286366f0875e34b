(** * Trace: the same queries, listing the types they look up (the arguments of [from_id]), in order.  Model file.
    The control flow is that of TypeInfo.v, Cost.v and Copies.v; [TraceFacts] shows that results, counts and copies belong to this list. *)
From Verif Require Import TypeInfo.
Import ListNotations.
Open Scope N_scope.

(** A result together with the ids looked up. *)
Definition traced (A : Type) : Type := (outcome offset_error A * list N)%type.
Definition silent {A} (r : outcome offset_error A) : traced A := (r, []).
Definition tbind {A B} (x : traced A) (f : A -> traced B) : traced B :=
  match fst x with
  | Ok a => (fst (f a), snd x ++ snd (f a))
  | Err k => (Err k, snd x)
  | Panic p => (Panic p, snd x)
  | Diverge => (Diverge, snd x)
  end.

(** src/btf/type_information.rs:522-544, [pointee_tid] (524) *)
Fixpoint pointee_trace (fuel : nat) (ti : type_information) (tid : N) : list N :=
  match fuel with
  | O => []
  | S fuel' =>
      tid ::
      match from_id ti tid with
      | Some (TTypedef _ d) => pointee_trace fuel' ti (nl_tid d)
      | Some (TConst _ d) => pointee_trace fuel' ti (link_tid d)
      | Some (TVolatile _ d) => pointee_trace fuel' ti (link_tid d)
      | Some (TRestrict _ d) => pointee_trace fuel' ti (link_tid d)
      | _ => []
      end
  end.
(** 546-604, [size_of] (548, 560) *)
Fixpoint size_trace (fuel : nat) (ti : type_information) (tid : N) : list N :=
  match fuel with
  | O => []
  | S fuel' =>
      tid ::
      match from_id ti tid with
      | Some (TPtr _ _) => match id_of ti list_head_str with Some lh => [lh] | None => [] end
      | Some (TArray _ d) => size_trace fuel' ti (element_tid d)
      | Some (TVar _ d) => size_trace fuel' ti (var_tid d)
      | Some (TTypedef _ d) => size_trace fuel' ti (nl_tid d)
      | Some (TConst _ d) => size_trace fuel' ti (link_tid d)
      | Some (TVolatile _ d) => size_trace fuel' ti (link_tid d)
      | Some (TRestrict _ d) => size_trace fuel' ti (link_tid d)
      | Some (TTypeTag _ d) => size_trace fuel' ti (nl_tid d)
      | _ => []
      end
  end.
(** 661-682, resolving indirections (662) *)
Fixpoint resolve_trace (fuel : nat) (ti : type_information) (tid : N) : list N :=
  match fuel with
  | O => []
  | S fuel' =>
      tid ::
      match from_id ti tid with
      | Some (TFwd _ d) => resolve_trace fuel' ti (nl_tid d)
      | Some (TTypedef _ d) => resolve_trace fuel' ti (nl_tid d)
      | Some (TConst _ d) => resolve_trace fuel' ti (link_tid d)
      | Some (TVolatile _ d) => resolve_trace fuel' ti (link_tid d)
      | Some (TRestrict _ d) => resolve_trace fuel' ti (link_tid d)
      | _ => []
      end
  end.
(** 691-709: an index component looks up what [size_of] does (701) *)
Definition array_trace (ti : type_information) (d : array_data) (i : N) : list N :=
  if element_count d <=? i then [] else size_trace (chain_fuel ti) ti (element_tid d).
(** 730-743 *)
Fixpoint probe_traced (probe : offset -> N -> traced (N * offset)) (off : offset) (ms : list member) : traced (option (N * offset)) :=
  match ms with
  | [] => silent (Ok None)
  | m :: ms' =>
      if is_anonymous m then
        tbind (silent (btf_err (offset_add (m_offset m) off))) (fun o =>
        match fst (probe o (m_tid m)) with
        | Ok r => (Ok (Some r), snd (probe o (m_tid m)))
        | Err _ => let rest := probe_traced probe off ms' in (fst rest, snd (probe o (m_tid m)) ++ snd rest)
        | Panic p => (Panic p, snd (probe o (m_tid m)))
        | Diverge => (Diverge, snd (probe o (m_tid m)))
        end)
      else probe_traced probe off ms'
  end.
(** 661-757, a round of the loop *)
Definition round_traced (c : build) (ti : type_information) (probe go : offset -> N -> traced (N * offset))
    (off : offset) (tid : N) (comp : component) : traced (N * offset) :=
  tbind (resolve ti tid, resolve_trace (chain_fuel ti) ti tid) (fun r =>
  match snd r with
  | TVoid => silent (Err OEVoidDereference)
  | t =>
      match comp with
      | Index i =>
          match t with
          | TArray _ d => tbind (array_step c ti d off i, array_trace ti d i) (fun off' => go off' (element_tid d))
          | TPtr _ _ => silent (Err OEPtrNotIndexable)
          | _ => silent (Err OETypeNotIndexable)
          end
      | Name name =>
          match (match t with TStruct _ d => Some (member_list d) | TUnion _ d => Some (member_list d) | _ => None end) with
          | None => silent (Err OENotStructOrUnion)
          | Some ms =>
              tbind (probe_traced probe off ms) (fun found =>
              match found with
              | Some r => silent (Ok r)
              | None =>
                  match find (has_name name) ms with
                  | Some m => tbind (silent (btf_err (offset_add off (m_offset m)))) (fun off' => go off' (m_tid m))
                  | None => silent (Err OEMemberNotFound)
                  end
              end)
          end
      end
  end).
(** 640-761, [offset_of_impl] *)
Fixpoint offset_of_traced (fuel : nat) (c : build) (ti : type_information) (path : str)
    (off : offset) (tid : N) (it : piter) : traced (N * offset) :=
  match fuel with
  | O => silent Diverge
  | S fuel' =>
      match next c path it with
      | (Ok None, _) => silent (Ok (tid, off))
      | (Err k, _) => silent (Err (OEBtf k))
      | (Panic p, _) => silent (Panic p)
      | (Diverge, _) => silent Diverge
      | (Ok (Some comp), it') =>
          round_traced c ti (fun o mt => offset_of_traced fuel' c ti path o mt it)
            (fun o mt => offset_of_traced fuel' c ti path o mt it') off tid comp
      end
  end.
(** 634-638: the types that offset_of(tid, path) looks up. *)
Definition offset_of_trace (fuel : nat) (c : build) (ti : type_information) (tid : N) (path : str) : list N :=
  snd (offset_of_traced fuel c ti path (ByteOffset 0) tid piter_new).
