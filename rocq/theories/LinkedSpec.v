(** The ordered list with unique ids that a mutable list stands for. *)
From Verif Require Import Base LinkedModel.

Section Spec.
Context {V : Type}.
Notation items := (list (Z * V)).

Definition ids (l : items) : list Z := map fst l.

(** value of an id *)
Fixpoint lookup (id : Z) (l : items) : option V :=
  match l with [] => None | (k, v) :: r => if id =? k then Some v else lookup id r end.

Definition has (id : Z) (l : items) : bool := match lookup id l with Some _ => true | None => false end.

(** the list without an id *)
Definition without (id : Z) (l : items) : items := filter (fun p => negb (fst p =? id)) l.

(** put [x] right before / right after the item with id [k] *)
Fixpoint before (k : Z) (x : Z * V) (l : items) : items :=
  match l with [] => [] | y :: r => if fst y =? k then x :: y :: r else y :: before k x r end.
Fixpoint after (k : Z) (x : Z * V) (l : items) : items :=
  match l with [] => [] | y :: r => if fst y =? k then y :: x :: r else y :: after k x r end.

Definition assign (id : Z) (v : V) (l : items) : items :=
  map (fun p => if fst p =? id then (fst p, v) else p) l.

(** the items from an id on *)
Fixpoint from_id (id : Z) (l : items) : items :=
  match l with [] => [] | y :: r => if fst y =? id then y :: r else from_id id r end.

(** Abstract state: the items in order and the next id to hand out. *)
Definition astate : Type := (items * Z)%type.

Definition astep (s : astate) (o : lop V) : astate * lret :=
  let (l, n) := s in
  match o with
  | InsertLast v => ((l ++ [(n, v)], n + 1), RId n)
  | InsertFirst v => (((n, v) :: l, n + 1), RId n)
  | Remove id => ((without id l, n), RBool (has id l))
  | RemoveFirst => ((tl l, n), RBool (match l with [] => false | _ => true end))
  | RemoveLast => ((removelast l, n), RBool (match l with [] => false | _ => true end))
  | MoveToFirst id =>
      match lookup id l with
      | None => (s, RBool false)
      | Some v => (((id, v) :: without id l, n), RBool true)
      end
  | MoveToLast id =>
      match lookup id l with
      | None => (s, RBool false)
      | Some v => ((without id l ++ [(id, v)], n), RBool true)
      end
  | MoveToPrev k id =>
      match lookup id l with
      | None => (s, RBool false)
      | Some v => if (id =? k) || negb (has k l) then (s, RBool false)
                  else ((before k (id, v) (without id l), n), RBool true)
      end
  | MoveToNext k id =>
      match lookup id l with
      | None => (s, RBool false)
      | Some v => if (id =? k) || negb (has k l) then (s, RBool false)
                  else ((after k (id, v) (without id l), n), RBool true)
      end
  | SetItem id v => ((assign id v l, n), RBool (has id l))
  | InsertFirstWithId id v => if has id l then (s, RBool false) else (((id, v) :: l, n), RBool true)
  | InsertLastWithId id v => if has id l then (s, RBool false) else ((l ++ [(id, v)], n), RBool true)
  | InsertFirstUnchecked id v => (((id, v) :: l, n), RUnit)
  | InsertLastUnchecked id v => ((l ++ [(id, v)], n), RUnit)
  | SetNextId k => ((l, k), RUnit)
  end.

(** When an operation is safe: the id an insertion takes is not in the list, and
    the id counter does not overflow. *)
Definition op_ok (s : astate) (o : lop V) : Prop :=
  match o with
  | InsertLast _ | InsertFirst _ => ~ In (snd s) (ids (fst s)) /\ snd s + 1 < 2 ^ 64
  | InsertFirstUnchecked id _ | InsertLastUnchecked id _ => ~ In id (ids (fst s))
  | _ => True
  end.

(** the operations the public interface offers *)
Definition public (o : lop V) : Prop :=
  match o with
  | InsertFirstWithId _ _ | InsertLastWithId _ _
  | InsertFirstUnchecked _ _ | InsertLastUnchecked _ _ | SetNextId _ => False
  | _ => True
  end.

(** The abstract program: a program over ordered lists.  [None] results stand for
    the use of a list that does not exist. *)
Definition awstep (ss : list (option astate)) (o : wop V) : option (list (option astate) * lret) :=
  match o with
  | WNew => Some (ss ++ [Some ([], 0)], RUnit)
  | WConstruct its n => Some (ss ++ [Some (its, match its with [] => 0 | _ => n end)], RUnit)
  | WOp i o =>
      match nth_error ss i with
      | Some (Some s) => let (s, r) := astep s o in Some (lset i (Some s) ss, r)
      | _ => None
      end
  | WClone i =>
      match nth_error ss i with
      | Some (Some (l, n)) => Some (ss ++ [Some (l, match l with [] => 0 | _ => n end)], RUnit)
      | _ => None
      end
  | WDrop i =>
      match nth_error ss i with
      | Some (Some _) => Some (lset i None ss, RUnit)
      | _ => None
      end
  end.

Definition wop_ok (ss : list (option astate)) (o : wop V) : Prop :=
  match o with
  | WConstruct its _ => NoDup (ids its)
  | WOp i o => forall s, nth_error ss i = Some (Some s) -> op_ok s o
  | _ => True
  end.

Fixpoint awrun (ss : list (option astate)) (ops : list (wop V)) : option (list (option astate) * list lret) :=
  match ops with
  | [] => Some (ss, [])
  | o :: ops =>
      match awstep ss o with
      | None => None
      | Some (ss, r) =>
          match awrun ss ops with None => None | Some (ss, rs) => Some (ss, r :: rs) end
      end
  end.

(** every step of the program is safe where it happens *)
Fixpoint prog_ok (ss : list (option astate)) (ops : list (wop V)) : Prop :=
  match ops with
  | [] => True
  | o :: ops => wop_ok ss o /\ (forall ss' r, awstep ss o = Some (ss', r) -> prog_ok ss' ops)
  end.

(** the empty heap *)
Definition no_heap : heap V := fun _ => None.

(** Everything a reader can observe of a mutable list agrees with the ordered
    list [l] and the next id [n]. *)
Record shows (h : heap V) (m : lmap) (l : items) (n : Z) : Prop := {
  s_fwd : collect_fwd h m (iter m) = Ok l;
  s_bwd : collect_bwd h m (iter_from_last m) = Ok (rev l);
  s_from : forall id, match iter_from_id m id with
           | Some c => In id (ids l) /\ collect_fwd h m c = Ok (from_id id l)
           | None => ~ In id (ids l)
           end;
  s_first : lm_first h m = Ok (option_map snd (hd_error l));
  s_first_id : first_id h m = Ok (option_map fst (hd_error l));
  s_last : lm_last h m = Ok (option_map snd (hd_error (rev l)));
  s_last_id : last_id h m = Ok (option_map fst (hd_error (rev l)));
  s_len : len m = zlen l;
  s_empty : is_empty m = true <-> l = [];
  s_get : forall id, get_item h m id = Ok (lookup id l);
  s_has : forall id, contains_key m id = has id l;
  s_into : into_iter h m = Ok l;
  s_next : next_id m = n;
}.

Definition shows_opt (h : heap V) (m : option lmap) (s : option astate) : Prop :=
  match m, s with
  | Some m, Some (l, n) => shows h m l n
  | None, None => True
  | _, _ => False
  end.

(** [m] is, on heap [h], a list some safe program has produced; it stands for the
    items [l] and the next id [n]. *)
Definition reachable (h : heap V) (m : lmap) (l : items) (n : Z) : Prop :=
  exists prog ms rets ss rets' i,
    prog_ok [] (map snd prog) /\ wrun no_heap [] prog = Ok (h, ms, rets) /\
    awrun [] (map snd prog) = Some (ss, rets') /\
    nth_error ms i = Some (Some m) /\ nth_error ss i = Some (Some (l, n)).

(** ** Programs of the public interface *)

Definition public_w (o : wop V) : Prop :=
  match o with WConstruct _ _ => False | WOp _ o => public o | _ => True end.

(** ** Ids handed out *)

Fixpoint inserted (rs : list lret) : list Z :=
  match rs with [] => [] | RId id :: rs => id :: inserted rs | _ :: rs => inserted rs end.

(** operations of the public interface, and copies *)
Definition lin_public (x : lop V + unit) : Prop := match x with inl o => public o | inr _ => True end.

(** no copy is taken of a list that has been used and is empty *)
Fixpoint no_empty_copy (s : astate) (prog : list (lop V + unit)) : Prop :=
  match prog with
  | [] => True
  | inl o :: prog => no_empty_copy (fst (astep s o)) prog
  | inr _ :: prog => (fst s <> [] \/ snd s = 0) /\ no_empty_copy s prog
  end.

(** ** Moves *)

(** the id an operation moves *)
Definition move_of (o : lop V) : option Z :=
  match o with
  | MoveToFirst id | MoveToLast id | MoveToPrev _ id | MoveToNext _ id => Some id
  | _ => None
  end.

(** the request makes sense *)
Definition possible (o : lop V) (l : items) : Prop :=
  match o with
  | MoveToFirst id | MoveToLast id => In id (ids l)
  | MoveToPrev k id | MoveToNext k id => In id (ids l) /\ In k (ids l) /\ id <> k
  | _ => True
  end.

(** the item is where it was asked to be *)
Definition placed (o : lop V) (l : items) : Prop :=
  match o with
  | MoveToFirst id => exists v r, l = (id, v) :: r
  | MoveToLast id => exists v r, l = r ++ [(id, v)]
  | MoveToPrev k id => exists p v w q, l = p ++ (id, v) :: (k, w) :: q
  | MoveToNext k id => exists p v w q, l = p ++ (k, w) :: (id, v) :: q
  | _ => True
  end.

(** same items, and all but [id] in the same order *)
Definition moved (id : Z) (l l' : items) : Prop :=
  NoDup (ids l') /\ lookup id l' = lookup id l /\
  filter (fun p => negb (fst p =? id)) l' = filter (fun p => negb (fst p =? id)) l.

(** ** Cursors *)

(** cursor [c] stands on [x], or behind the end if [x] is [None] *)
Definition points (h : heap V) (m : lmap) (c : Z) (x : option (Z * V)) : Prop :=
  cur_current h c = Ok x /\
  match x with
  | Some (k, _) => iter_from_id m k = Some c /\ cur_available c = true
  | None => cur_available c = false
  end.

Definition nil_b {A} (l : list A) : bool := match l with [] => true | _ => false end.

(** ** Independence *)

(** the program does not work on list [i]; copying it is allowed *)
Definition leaves (i : nat) (o : wop V) : Prop :=
  match o with WOp j _ | WDrop j => j <> i | _ => True end.

End Spec.
