(** * Cost: the same queries, counting the type lookups (calls of [from_id]) they make.
    The control flow is that of TypeInfo.v; [CostFacts.offset_of_counted_result] shows that the result is the same. *)
From Verif Require Import TypeInfo.
Import ListNotations.
Open Scope N_scope.

(** A result together with the number of lookups made. *)
Definition counted (A : Type) : Type := (outcome offset_error A * N)%type.
Definition free {A} (r : outcome offset_error A) : counted A := (r, 0).
Definition cbind {A B} (x : counted A) (f : A -> counted B) : counted B :=
  match fst x with
  | Ok a => (fst (f a), snd x + snd (f a))
  | Err k => (Err k, snd x)
  | Panic p => (Panic p, snd x)
  | Diverge => (Diverge, snd x)
  end.

(** src/btf/type_information.rs:547-603, the lookups of [size_of]: one per link (548, 557). *)
Fixpoint size_lookups (fuel : nat) (ti : type_information) (tid : N) : N :=
  match fuel with
  | O => 0
  | S fuel' =>
      1 + match from_id ti tid with
          | Some (TPtr _ _) => match id_of ti list_head_str with Some _ => 1 | None => 0 end
          | Some (TArray _ d) => size_lookups fuel' ti (element_tid d)
          | Some (TVar _ d) => size_lookups fuel' ti (var_tid d)
          | Some (TTypedef _ d) => size_lookups fuel' ti (nl_tid d)
          | Some (TConst _ d) => size_lookups fuel' ti (link_tid d)
          | Some (TVolatile _ d) => size_lookups fuel' ti (link_tid d)
          | Some (TRestrict _ d) => size_lookups fuel' ti (link_tid d)
          | Some (TTypeTag _ d) => size_lookups fuel' ti (nl_tid d)
          | _ => 0
          end
  end.
(** 661-682, the lookups of resolving indirections: one per link (662). *)
Fixpoint resolve_lookups (fuel : nat) (ti : type_information) (tid : N) : N :=
  match fuel with
  | O => 0
  | S fuel' =>
      1 + match from_id ti tid with
          | Some (TFwd _ d) => resolve_lookups fuel' ti (nl_tid d)
          | Some (TTypedef _ d) => resolve_lookups fuel' ti (nl_tid d)
          | Some (TConst _ d) => resolve_lookups fuel' ti (link_tid d)
          | Some (TVolatile _ d) => resolve_lookups fuel' ti (link_tid d)
          | Some (TRestrict _ d) => resolve_lookups fuel' ti (link_tid d)
          | _ => 0
          end
  end.
(** 691-709: the only lookups of an index component are those of [size_of] (701). *)
Definition array_lookups (ti : type_information) (d : array_data) (i : N) : N :=
  if element_count d <=? i then 0 else size_lookups (chain_fuel ti) ti (element_tid d).

(** 730-743 *)
Fixpoint probe_counted (probe : offset -> N -> counted (N * offset)) (off : offset) (ms : list member) : counted (option (N * offset)) :=
  match ms with
  | [] => free (Ok None)
  | m :: ms' =>
      if is_anonymous m then
        cbind (free (btf_err (offset_add (m_offset m) off))) (fun o =>
        match fst (probe o (m_tid m)) with
        | Ok r => (Ok (Some r), snd (probe o (m_tid m)))
        | Err _ => let rest := probe_counted probe off ms' in (fst rest, snd (probe o (m_tid m)) + snd rest)
        | Panic p => (Panic p, snd (probe o (m_tid m)))
        | Diverge => (Diverge, snd (probe o (m_tid m)))
        end)
      else probe_counted probe off ms'
  end.
(** 661-757, a round of the loop once its component is read. [probe] is the recursive call (733-737), [go] the next round. *)
Definition round_counted (c : build) (ti : type_information) (probe go : offset -> N -> counted (N * offset))
    (off : offset) (tid : N) (comp : component) : counted (N * offset) :=
  cbind (resolve ti tid, resolve_lookups (chain_fuel ti) ti tid) (fun r =>
  match snd r with
  | TVoid => free (Err OEVoidDereference)
  | t =>
      match comp with
      | Index i =>
          match t with
          | TArray _ d => cbind (array_step c ti d off i, array_lookups ti d i) (fun off' => go off' (element_tid d))
          | TPtr _ _ => free (Err OEPtrNotIndexable)
          | _ => free (Err OETypeNotIndexable)
          end
      | Name name =>
          match (match t with TStruct _ d => Some (member_list d) | TUnion _ d => Some (member_list d) | _ => None end) with
          | None => free (Err OENotStructOrUnion)
          | Some ms =>
              cbind (probe_counted probe off ms) (fun found =>
              match found with
              | Some r => free (Ok r)
              | None =>
                  match find (has_name name) ms with
                  | Some m => cbind (free (btf_err (offset_add off (m_offset m)))) (fun off' => go off' (m_tid m))
                  | None => free (Err OEMemberNotFound)
                  end
              end)
          end
      end
  end).
(** 640-761, [offset_of_impl] *)
Fixpoint offset_of_counted (fuel : nat) (c : build) (ti : type_information) (path : str)
    (off : offset) (tid : N) (it : piter) : counted (N * offset) :=
  match fuel with
  | O => free Diverge
  | S fuel' =>
      match next c path it with
      | (Ok None, _) => free (Ok (tid, off))
      | (Err k, _) => free (Err (OEBtf k))
      | (Panic p, _) => free (Panic p)
      | (Diverge, _) => free Diverge
      | (Ok (Some comp), it') =>
          round_counted c ti (fun o mt => offset_of_counted fuel' c ti path o mt it)
            (fun o mt => offset_of_counted fuel' c ti path o mt it') off tid comp
      end
  end.
(** 634-638: the number of lookups that offset_of(tid, path) makes. *)
Definition offset_of_lookups (fuel : nat) (c : build) (ti : type_information) (tid : N) (path : str) : N :=
  snd (offset_of_counted fuel c ti path (ByteOffset 0) tid piter_new).
