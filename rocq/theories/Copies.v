(** * Copies: the same queries, adding up the size of the types they copy.  Model file.
    [from_id] returns a copy of the type (src/btf/type_information.rs:505-511, [cloned]), with all its members and names.
    The control flow is that of TypeInfo.v and Cost.v; [CopyFacts.offset_of_copying_result] shows that the result is the same. *)
From Verif Require Import TypeInfo Cost CopySpec.
Import ListNotations.
Open Scope N_scope.

(** 505-511: what a call of [from_id] copies *)
Definition fetched (ti : type_information) (tid : N) : N := match from_id ti tid with Some t => held t | None => 0 end.

(** 522-544, [pointee_tid] (524) *)
Fixpoint pointee_copies (fuel : nat) (ti : type_information) (tid : N) : N :=
  match fuel with
  | O => 0
  | S fuel' =>
      fetched ti tid +
      match from_id ti tid with
      | Some (TTypedef _ d) => pointee_copies fuel' ti (nl_tid d)
      | Some (TConst _ d) => pointee_copies fuel' ti (link_tid d)
      | Some (TVolatile _ d) => pointee_copies fuel' ti (link_tid d)
      | Some (TRestrict _ d) => pointee_copies fuel' ti (link_tid d)
      | _ => 0
      end
  end.
(** 546-604, [size_of] (548, 560) *)
Fixpoint size_copies (fuel : nat) (ti : type_information) (tid : N) : N :=
  match fuel with
  | O => 0
  | S fuel' =>
      fetched ti tid +
      match from_id ti tid with
      | Some (TPtr _ _) => match id_of ti list_head_str with Some lh => fetched ti lh | None => 0 end
      | Some (TArray _ d) => size_copies fuel' ti (element_tid d)
      | Some (TVar _ d) => size_copies fuel' ti (var_tid d)
      | Some (TTypedef _ d) => size_copies fuel' ti (nl_tid d)
      | Some (TConst _ d) => size_copies fuel' ti (link_tid d)
      | Some (TVolatile _ d) => size_copies fuel' ti (link_tid d)
      | Some (TRestrict _ d) => size_copies fuel' ti (link_tid d)
      | Some (TTypeTag _ d) => size_copies fuel' ti (nl_tid d)
      | _ => 0
      end
  end.
(** 661-682, resolving indirections (662) *)
Fixpoint resolve_copies (fuel : nat) (ti : type_information) (tid : N) : N :=
  match fuel with
  | O => 0
  | S fuel' =>
      fetched ti tid +
      match from_id ti tid with
      | Some (TFwd _ d) => resolve_copies fuel' ti (nl_tid d)
      | Some (TTypedef _ d) => resolve_copies fuel' ti (nl_tid d)
      | Some (TConst _ d) => resolve_copies fuel' ti (link_tid d)
      | Some (TVolatile _ d) => resolve_copies fuel' ti (link_tid d)
      | Some (TRestrict _ d) => resolve_copies fuel' ti (link_tid d)
      | _ => 0
      end
  end.
(** 691-709: an index component copies what [size_of] does (701) *)
Definition array_copies (ti : type_information) (d : array_data) (i : N) : N :=
  if element_count d <=? i then 0 else size_copies (chain_fuel ti) ti (element_tid d).
(** 661-757, a round of the loop *)
Definition round_copying (c : build) (ti : type_information) (probe go : offset -> N -> counted (N * offset))
    (off : offset) (tid : N) (comp : component) : counted (N * offset) :=
  cbind (resolve ti tid, resolve_copies (chain_fuel ti) ti tid) (fun r =>
  match snd r with
  | TVoid => free (Err OEVoidDereference)
  | t =>
      match comp with
      | Index i =>
          match t with
          | TArray _ d => cbind (array_step c ti d off i, array_copies ti d i) (fun off' => go off' (element_tid d))
          | TPtr _ _ => free (Err OEPtrNotIndexable)
          | _ => free (Err OETypeNotIndexable)
          end
      | Name name =>
          match (match t with TStruct _ d => Some (member_list d) | TUnion _ d => Some (member_list d) | _ => None end) with
          | None => free (Err OENotStructOrUnion)
          | Some ms =>
              cbind (probe_counted probe off ms) (fun found =>
              match found with
              | Some r => free (Ok r)
              | None =>
                  match find (has_name name) ms with
                  | Some m => cbind (free (btf_err (offset_add off (m_offset m)))) (fun off' => go off' (m_tid m))
                  | None => free (Err OEMemberNotFound)
                  end
              end)
          end
      end
  end).
(** 640-761, [offset_of_impl] *)
Fixpoint offset_of_copying (fuel : nat) (c : build) (ti : type_information) (path : str)
    (off : offset) (tid : N) (it : piter) : counted (N * offset) :=
  match fuel with
  | O => free Diverge
  | S fuel' =>
      match next c path it with
      | (Ok None, _) => free (Ok (tid, off))
      | (Err k, _) => free (Err (OEBtf k))
      | (Panic p, _) => free (Panic p)
      | (Diverge, _) => free Diverge
      | (Ok (Some comp), it') =>
          round_copying c ti (fun o mt => offset_of_copying fuel' c ti path o mt it)
            (fun o mt => offset_of_copying fuel' c ti path o mt it') off tid comp
      end
  end.
(** 634-638: what offset_of(tid, path) copies. *)
Definition offset_of_copies (fuel : nat) (c : build) (ti : type_information) (tid : N) (path : str) : N :=
  snd (offset_of_copying fuel c ti path (ByteOffset 0) tid piter_new).
