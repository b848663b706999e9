(** What cursors into a changing ordered list should do.  The list is a list of ids and values
    (LinkedSpec.v); addresses do not occur. *)
From Verif Require Import Base LinkedModel LinkedSpec CursorModel.

Section Spec.
Context {V : Type}.
Notation items := (list (Z * V)).
Notation astate := (@astate V).

(** A cursor stands on the item with an id, or on none; it is lost when its item was removed. *)
Inductive acur : Type := On (id : Z) | Nowhere | Lost.

(** the first of some items *)
Definition start (l : items) : acur := match l with [] => Nowhere | (k, _) :: _ => On k end.

(** the item behind [id] in the list *)
Fixpoint behind (id : Z) (l : items) : acur :=
  match l with [] => Nowhere | (k, _) :: r => if k =? id then start r else behind id r end.

(** the item a cursor stands on; [None] for a cursor that must not be used *)
Definition stands (l : items) (c : acur) : option (option (Z * V)) :=
  match c with
  | On id => match lookup id l with Some v => Some (Some (id, v)) | None => None end
  | Nowhere => Some None
  | Lost => None
  end.

(** a cursor after the list has become [l]: it stays with its item, wherever that is now *)
Definition kept (l : items) (c : acur) : acur :=
  match c with On id => if has id l then On id else Lost | c => c end.

(** a cursor that is made *)
Definition made (l : items) (p : place) : option acur :=
  match p with
  | AtFirst => Some (start l)
  | AtLast => Some (start (rev l))
  | AtId id => if has id l then Some (On id) else None
  end.

Definition onto (c : acur) (l : items) : acur := match c with On id => behind id l | c => c end.

Definition is_on (c : acur) (d : acur) : bool :=
  match c, d with On a, On b => a =? b | _, _ => false end.

(** the [i]-th cursor can be used *)
Definition usable (s : astate) (cs : list acur) (i : nat) : Prop :=
  exists c x, nth_error cs i = Some c /\ stands (fst s) c = Some x.

Definition the_cursor (cs : list acur) (i : nat) : acur := match nth_error cs i with Some c => c | None => Nowhere end.
Definition the_item (l : items) (cs : list acur) (i : nat) : option (Z * V) :=
  match stands l (the_cursor cs i) with Some x => x | None => None end.

(** One step on the ordered list: [next] and [prev] give the item the cursor stands on and go to
    the item that is behind or before it in the list as it is now. *)
Definition acstep (s : astate) (cs : list acur) (o : cop V) : astate * list acur * canswer V :=
  let l := fst s in
  match o with
  | CChange o => let (s', r) := astep s o in (s', map (kept (fst s')) cs, AChanged r)
  | COpen p =>
      match made l p with
      | Some c => (s, cs ++ [c], AOpened true)
      | None => (s, cs, AOpened false)
      end
  | CNext i => (s, lset i (onto (the_cursor cs i) l) cs, AItem (the_item l cs i))
  | CPrev i => (s, lset i (onto (the_cursor cs i) (rev l)) cs, AItem (the_item l cs i))
  | CCurrent i => (s, cs, AItem (the_item l cs i))
  | CAvailable i => (s, cs, ABool (match the_item l cs i with Some _ => true | None => false end))
  | CIsFirst i => (s, cs, ABool (is_on (the_cursor cs i) (start l)))
  | CIsLast i => (s, cs, ABool (is_on (the_cursor cs i) (start (rev l))))
  end.

Fixpoint acrun (s : astate) (cs : list acur) (ops : list (cop V)) : astate * list acur * list (canswer V) :=
  match ops with
  | [] => (s, cs, [])
  | o :: ops => let '(s, cs, x) := acstep s cs o in let '(s, cs, xs) := acrun s cs ops in (s, cs, x :: xs)
  end.

(** The program uses only cursors that were made and whose item was not removed, and inserts only
    ids that are free. *)
Definition cop_ok (s : astate) (cs : list acur) (o : cop V) : Prop :=
  match o with
  | CChange o => op_ok s o
  | COpen _ => True
  | CNext i | CPrev i | CCurrent i | CAvailable i | CIsFirst i | CIsLast i => usable s cs i
  end.

Fixpoint careful (s : astate) (cs : list acur) (ops : list (cop V)) : Prop :=
  match ops with
  | [] => True
  | o :: ops => cop_ok s cs o /\ (let '(s', cs', _) := acstep s cs o in careful s' cs' ops)
  end.

(** the cursor of the program is where it should be *)
Definition stays (h : heap V) (m : lmap) (l : items) (c : Z) (d : acur) : Prop :=
  match d with
  | On id => exists v, lookup id l = Some v /\ points h m c (Some (id, v))
  | Nowhere => points h m c None
  | Lost => True
  end.

End Spec.
