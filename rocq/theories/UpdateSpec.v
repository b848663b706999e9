(** What C76 speaks about: what the functions generated from a new version of the source read in
    documents of an older version. *)
From Coq Require Import String.
From Verif Require Import Base DocModel JsonModel ValidSpec AdjustSpec IntfModel GenModel CodeSpec ReadModel RunModel RunSpec.

Local Notation "! s" := (txt s%string) (at level 0, s at level 0).
Local Notation "'var' s" := (EVar (txt s%string)) (at level 0, s at level 0).

(** the expression that reads the member [key] of the root, of the item [id] of a list *)
Definition root_member (old : list name) (key : name) : expr := do var"root" (with_old key (contains old key)) [].
Definition listed_item (old : list name) (t : name) (u : bool) (id : Z) : expr := item_in u (do var"root" (with_old t (contains old t)) []) id.
Definition item_member (old : list name) (t : name) (u : bool) (l : ldef def) (id : Z) (key : name) : expr :=
  asks (listed_item old t u id) (with_old key (contains (ld_old l) key)).
Definition item_row (old : list name) (t : name) (u : bool) (l : ldef def) (id : Z) (key : name) : expr :=
  asks (listed_item old t u id) (!"ref_id_" ++ with_old key (contains (ld_ref_old l) key)).
Definition item_variant (old : list name) (t : name) (u : bool) (id : Z) : expr := asks (listed_item old t u id) !"get_enum_ids".

(** Reading a value with the marks [vt], given as [f] says: a null or undefined value that the
    marks do not allow makes the function panic. *)
Inductive read_as {A} (f : qv A -> val) (vt : var_type) (tr : trace) : qv A -> res (val * trace) -> Prop :=
| read_allowed c : allows vt c -> read_as f vt tr c (Ok (f c, tr))
| read_refused c : ~ allows vt c -> read_as f vt tr c Panic.

(** Where the value of a member is from after moving: [known], the old version had the member;
    [o], the value that was set; [fresh], the value without any *)
Definition moved_value {A} (vt : var_type) (known : bool) (o : option (qv A)) (fresh : qv A) (c : qv A) : Prop :=
  (known = false /\ allows_undefined vt -> c = Undefined) /\
  (known = true \/ ~ allows_undefined vt -> match o with Some x => c = x | None => c = fresh end).
(** the same for members of items: it does not matter whether the old version had the member *)
Definition moved_member {A} (vt : var_type) (o : option (qv A)) (fresh : qv A) (c : qv A) : Prop :=
  match o with
  | Some x => c = x
  | None => (allows_undefined vt -> c = Undefined) /\ (~ allows_undefined vt -> c = fresh)
  end.

(** a member of an item in the list [inner], whose items are defined by [l1], of the item [id] *)
Definition inner_item (old : list name) (t : name) (u : bool) (l : ldef def) (id : Z) (inner : name) (u1 : bool) (id1 : Z) : expr :=
  if_some !"x" (listed_item old t u id) (item_in u1 (do var"x" (with_old inner (contains (ld_old l) inner)) []) id1).
Definition inner_member (old : list name) (t : name) (u : bool) (l : ldef def) (id : Z) (inner : name) (u1 : bool) (l1 : ldef def) (id1 : Z) (key : name) : expr :=
  asks (inner_item old t u l id inner u1 id1) (with_old key (contains (ld_old l1) key)).

(** Where the value of a member of an item in an inner list is from: it is kept only if the list
    around has a member of that name, [outer], whatever this is *)
Definition moved_inner {A} (outer : option (ldefval def)) (o : option (qv A)) (fresh : qv A) (c : qv A) : Prop :=
  match outer, o with
  | None, _ => c = fresh
  | Some _, Some x => c = x
  | Some dv, None => (match dv with DParam _ vt => allows_undefined vt | _ => False end -> c = Undefined) /\ (match dv with DParam _ vt => ~ allows_undefined vt | _ => True end -> c = fresh)
  end.
