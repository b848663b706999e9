(** What C69 speaks about. *)
From Verif Require Import Base LinkedModel LinkedSpec DocModel DiffModel DiffSpec ArchiveModel JsonModel IntfModel IntfSpec CodeSpec SavedModel ReadModel AgainModel AgainSpec RunModel RunSpec.

(** The members of a document in memory: they are as they are declared. *)
Definition holds (mem : Z -> list Z) {n} (def : rootdef n) (f : sabun n) (r : root_obj) : Prop :=
  rootdef_of n (ro_default r) = Some def /\ ro_sabun r = plain_sabun f /\ typed_root mem f def.

(** Evaluating [e] makes calls, and what the calls do to [f] gives [d].  They are calls the
    other theorems speak about. *)
Definition turns (mem : Z -> list Z) (p : list CodeSpec.item) iter r told (G : env) (e : expr) {n} (def : rootdef n) (f d : sabun n) : Prop :=
  forall tr, exists effects steps, evals p iter r told G e tr (Ok (VUnit, tr ++ effects)) /\ Forall2 performs effects steps /\
    Forall (ok_root_step mem def) steps /\ Forall (generated_root_step def) steps /\ program_run def f steps = Ok d.

(** The place of the item a way leads to, if only mutable lists are on the way. *)
Fixpoint place (w : way) : option loc :=
  match w with
  | Entry t id => Some [(t, id)]
  | Mil w key id => option_map (fun a => a ++ [(key, id)]) (place w)
  | _ => None
  end.
(** A way that does not follow a reference of the item at [a]. *)
Fixpoint avoids (a : loc) (w : way) : Prop :=
  match w with
  | Row _ _ | Elem _ _ | Entry _ _ => True
  | Cil w _ _ | Mil w _ _ => avoids a w
  | Ref w _ | Enum w _ => avoids a w /\ place w <> Some a
  end.
Definition way_of (q : question) : option way :=
  match q with
  | RootParam _ | RootItems _ => None
  | There w | Param w _ | RefId w _ | EnumIds w | Items w _ => Some w
  end.
(** every question that [other] allows is answered as before *)
Definition unchanged iter (r t : root_obj) (other : question -> Prop) : Prop := forall q, other q -> ask iter t q = ask iter r q.

(** Following what was set: a way that begins with one of [these], and the way that begins with
    [row] instead and goes on in the same manner. *)
Inductive instead (these : way -> Prop) (row : way) : way -> way -> Prop :=
| instead_here w : these w -> instead these row w row
| instead_elem w w' key i : instead these row w w' -> instead these row (Cil w key i) (Cil w' key i)
| instead_item w w' key id : instead these row w w' -> instead these row (Mil w key id) (Mil w' key id)
| instead_ref w w' key : instead these row w w' -> instead these row (Ref w key) (Ref w' key)
| instead_enum w w' key : instead these row w w' -> instead these row (Enum w key) (Enum w' key).
(** and the questions that are asked there *)
Inductive asked_instead (these : way -> Prop) (row : way) : question -> question -> Prop :=
| asked_there w w' : instead these row w w' -> asked_instead these row (There w) (There w')
| asked_param w w' key : instead these row w w' -> asked_instead these row (Param w key) (Param w' key)
| asked_ref w w' key : instead these row w w' -> asked_instead these row (RefId w key) (RefId w' key)
| asked_enum w w' : instead these row w w' -> asked_instead these row (EnumIds w) (EnumIds w')
| asked_items w w' key : instead these row w w' -> asked_instead these row (Items w key) (Items w' key).
(** the reference [key], and the variant [key] of the enum, of the item at [a] *)
Definition ref_of (a : loc) (key : name) (w : way) : Prop := exists w0, w = Ref w0 key /\ place w0 = Some a.
Definition enum_of (a : loc) (key : name) (w : way) : Prop := exists w0, w = Enum w0 key /\ place w0 = Some a.
