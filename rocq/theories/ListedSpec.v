(** What C70 speaks about. *)
From Verif Require Import Base LinkedModel LinkedSpec DocModel DiffModel DiffSpec ArchiveModel JsonModel IntfModel ReadModel AgainModel RunModel RunSpec WroteSpec.

(** The list [key] of the root ([a] empty) or of the item at [a]: the definition of its items,
    and the items with the next id, unless it is undefined. *)
Definition list_in (r : root_obj) (a : loc) (key : name) : option (def * option (list (Z * citem) * Z)) :=
  match a with
  | [] =>
      match hget key (ro_default r), hget key (ro_sabun r) with
      | Some (_, WMList d _), Some (DocModel.RMut o) => Some (d, o)
      | _, _ => None
      end
  | _ =>
      match item_at r a with
      | Some s =>
          match hget key (ld_members (undef (snd s))), hget key (ci_values (fst s)) with
          | Some (_, DMil d _), Some (VMil o) => Some (d, o)
          | Some (_, DMil d _), None => Some (d, Some ([], 0))
          | _, _ => None
          end
      | None => None
      end
  end.
(** changing an undefined list makes an empty one first *)
Definition now (o : option (list (Z * citem) * Z)) : list (Z * citem) * Z := match o with Some l => l | None => ([], 0) end.

(** ** What the calls do to the ids of a list *)
Definition drop (id : Z) (l : list Z) : list Z := filter (fun x => negb (x =? id)) l.
Definition known (id : Z) (l : list Z) : bool := existsb (fun x => x =? id) l.
Definition new_order (o : list_op) (l : list Z) (next : Z) : list Z :=
  match o with
  | LInsertFirst => next :: l
  | LInsertLast => l ++ [next]
  | LRemove id => drop id l
  | LRemoveFirst => tl l
  | LRemoveLast => removelast l
  | LMoveToFirst id => if known id l then id :: drop id l else l
  | LMoveToLast id => if known id l then drop id l ++ [id] else l
  | LMoveToPrev k id => if known id l && known k l && negb (id =? k) then flat_map (fun x => if x =? k then [id; x] else [x]) (drop id l) else l
  | LMoveToNext k id => if known id l && known k l && negb (id =? k) then flat_map (fun x => if x =? k then [x; id] else [x]) (drop id l) else l
  end.
(** what the calls answer; inserting answers with the new item *)
Definition answered (o : list_op) (l : list Z) : bool :=
  match o with
  | LInsertFirst | LInsertLast => true
  | LRemoveFirst | LRemoveLast => match l with [] => false | _ => true end
  | LRemove id | LMoveToFirst id | LMoveToLast id => known id l
  | LMoveToPrev k id | LMoveToNext k id => known id l && known k l && negb (id =? k)
  end.
Definition inserts (o : list_op) : Prop := o = LInsertFirst \/ o = LInsertLast.
Definition removed (o : list_op) (l : list Z) (x : Z) : Prop :=
  match o with
  | LRemove id => x = id
  | LRemoveFirst => exists l', l = x :: l'
  | LRemoveLast => exists l', l = l' ++ [x]
  | _ => False
  end.
(** the next id after the call *)
Definition next_after (o : list_op) (next : Z) : Z := match o with LInsertFirst | LInsertLast => next + 1 | _ => next end.
(** the items that are made or removed *)
Definition touched (o : list_op) (l : list Z) (next : Z) (x : Z) : Prop := inserts o /\ x = next \/ removed o l x.

(** inserting takes the next id, which has to be free; ids and lengths have to fit a machine *)
Definition fits_insert {V} (o : list_op) (l : list (Z * V) * Z) : Prop :=
  inserts o -> ~ In (snd l) (ids (fst l)) /\ snd l + 1 < 2 ^ 64 /\ zlen (fst l) + 1 < 2 ^ 62.

(** ** What is asked afterwards *)
(** asking for the ids of the list *)
Definition items_of (a : loc) (key : name) (q : question) : Prop :=
  match q with
  | RootItems k => a = [] /\ k = key
  | Items w k => place w = Some a /\ k = key
  | _ => False
  end.
(** the way leads through the item at [b], or to it *)
Fixpoint passes (b : loc) (w : way) : Prop :=
  match w with
  | Row _ _ | Elem _ _ => False
  | Entry l id => [(l, id)] = b
  | Mil w' key id => passes b w' \/ option_map (fun a => a ++ [(key, id)]) (place w') = Some b
  | Cil w _ _ | Ref w _ | Enum w _ => passes b w
  end.
