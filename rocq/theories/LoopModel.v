(** C77: the iterators of lists.
    Citations are relative to /repo/dochy_core/src/imp/intf unless another folder is named.

    As in RunModel pointers are what they point to: an iterator knows which list it is of, and its
    cursor is the id of the node it stands on (C72 is about the nodes themselves).  The list is
    looked up in the document of the moment, as the body of a loop may change it. *)
From Coq Require Import String.
From Verif Require Import Base StringCompactionModel LinkedModel LinkedSpec DocModel ArchiveModel JsonModel IntfModel GenModel CodeSpec ReadModel RunModel RunSpec.

Local Notation text := (list Z).
Local Notation "! s" := (txt s%string) (at level 0, s at level 0).
Local Notation "x <~ e ; k" := (seq e (fun x => k)) (at level 60, e at next level, right associativity).

Inductive iterator : Type :=
(* mlist_iter_const.rs L9-12 and mlist_iter_mut.rs L10-13 around mlist_ptr.rs L164-169: the guard
   around the items it gives and their type; the list; the node *)
| MIter (g n : text) (l : loc) (key : name) (d : def) (cur : option Z)
(* clist_iter_const.rs L9-12 around clist.rs L43-49 *)
| CIter (n : text) (c : list citem * def) (index : Z).

(** mlist_ptr.rs L42-43: the items of the list now *)
Definition items_now (r : root_obj) (l : loc) (key : name) : list (Z * citem) :=
  match l with
  | [] => match hget key (ro_sabun r) with Some (RMut (Some x)) => fst x | _ => [] end
  | _ =>
      match item_at r l with
      | Some s => match hget key (ci_values (fst s)) with Some (VMil (Some x)) => fst x | _ => [] end
      | None => []
      end
  end.

(** structs/linked_map_unsafe_iter.rs L39-43 and L72-76: the node behind another, none behind the
    last *)
Fixpoint node_behind (id : Z) (items : list (Z * citem)) : option Z :=
  match items with
  | [] => None
  | (k, _) :: items => if id =? k then option_map fst (hd_error items) else node_behind id items
  end.

Inductive beginning : Type := FromFirst | FromLast | FromId (id : Z).
(** mlist_const.rs L51-62 iter, iter_from_last, iter_from_id; mlist_mut.rs L90-93 iter;
    clist_const.rs L25-27 iter; mlist_ptr.rs L135-160 *)
Definition iter_at (v : val) (b : beginning) : option iterator :=
  match v with
  | VGuard g (Some n) (VPtr (PMList l key items d)) =>
      if eqb_bytes g !"MListConst" then
        match b with
        | FromFirst => Some (MIter !"MItemConst" n l key d (option_map fst (hd_error items)))
        | FromLast => Some (MIter !"MItemConst" n l key d (option_map fst (hd_error (rev items))))
        | FromId id => if is_some (lookup id items) then Some (MIter !"MItemConst" n l key d (Some id)) else None
        end
      else if eqb_bytes g !"MListMut" then
        match b with FromFirst => Some (MIter !"MItemMut" n l key d (option_map fst (hd_error items))) | _ => None end
      else None
  | VGuard g (Some n) (VPtr (PCList c)) =>
      if eqb_bytes g !"CListConst" then match b with FromFirst => Some (CIter n c 0) | _ => None end else None
  | _ => None
  end.

Section Iter.
Variable p : list CodeSpec.item.
Variable r : root_obj.
(** evaluation, for [From::from] of the generated types *)
Variable ev : text -> env -> expr -> M val.

(** [next] and [prev]: mlist_iter_const.rs L27-36 and mlist_iter_mut.rs L26-35 with mlist_ptr.rs
    L186-205 and structs/linked_map_unsafe_iter.rs L17-78; [prev] of the mutable one calls
    [next_mut] (L32).  clist.rs L53-63 with clist_iter_const.rs L17-20; there is no [prev].
    A cursor on a node that was removed is undefined behaviour, here a panic. *)
Definition step_iter (back : bool) (it : iterator) : M (val * iterator) :=
  match it with
  | MIter g n l key d cur =>
      match cur with
      | None => ret (none, it)
      | Some id =>
          let items := items_now r l key in
          match lookup id items with
          | Some c =>
              v <~ converted p ev g n (PItem (l ++ [(key, id)]) (c, d)) ;
              ret (some (VPair (VNum id) v), MIter g n l key d (node_behind id (if back && eqb_bytes g !"MItemConst" then rev items else items)))
          | None => panic
          end
      end
  | CIter n c i =>
      if back then stuck else
      match nth_error (fst c) (Z.to_nat i) with
      | Some x => v <~ converted p ev !"CItemConst" n (PItem [] (x, snd c)) ; ret (some v, CIter n c (i + 1))
      | None => ret (none, it)
      end
  end.

(** [current]: mlist_iter_const.rs L37-41, mlist_iter_mut.rs L36-40, mlist_ptr.rs L207-213 *)
Definition current (it : iterator) : M val :=
  match it with
  | MIter g n l key d (Some id) =>
      match lookup id (items_now r l key) with
      | Some c => v <~ converted p ev g n (PItem (l ++ [(key, id)]) (c, d)) ; ret (some (VPair (VNum id) v))
      | None => panic
      end
  | MIter _ _ _ _ _ None => ret none
  | CIter _ _ _ => stuck
  end.

(** [is_available], [is_first], [is_last]: mlist_iter_const.rs L42-50, mlist_iter_mut.rs L41-49,
    mlist_ptr.rs L217-227, structs/linked_map_unsafe_iter.rs L94-118 *)
Definition is_end (o : option (Z * citem)) (cur : option Z) : bool :=
  match cur, o with Some id, Some x => id =? fst x | _, _ => false end.
Definition position (f : text) (it : iterator) : option bool :=
  match it with
  | MIter _ _ l key _ cur =>
      let items := items_now r l key in
      hget f [(!"is_available", is_some cur); (!"is_first", is_end (hd_error items) cur); (!"is_last", is_end (hd_error (rev items)) cur)]
  | CIter _ _ _ => None
  end.
End Iter.
