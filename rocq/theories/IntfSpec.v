(** What C41 speaks about. *)
From Verif Require Import Base CompactionSpec LinkedModel LinkedSpec DocModel DiffModel DiffWireModel DiffSpec DiffEditSpec ValidSpec IntfModel.

(** a member of an item declared as a parameter holds no list *)
Definition item_kinds {D L} (it : item L) (d : ldef D) : Prop :=
  forall key v id p vt, hget key (it_values it) = Some v -> hget key (ld_members d) = Some (id, DParam p vt) -> exists q, v = LParam q.
Definition root_kinds {D L} (s : hmap (rootsab L)) (def : hmap (Z * rootval D)) : Prop :=
  forall key v id p vt, hget key s = Some v -> hget key def = Some (id, RVParam p vt) -> exists q, v = RParam q.

(** the declaration of [key] allows [p] *)
Definition declared {D} (d : ldef D) (key : name) (p : param) : Prop :=
  exists id p0 vt, hget key (ld_members d) = Some (id, DParam p0 vt) /\ type_of p = type_of p0 /\ allows_param vt p.
Definition root_declared {D} (def : hmap (Z * rootval D)) (key : name) (p : param) : Prop :=
  exists id p0 vt, hget key def = Some (id, RVParam p0 vt) /\ type_of p = type_of p0 /\ allows_param vt p.

(** nothing but the value of [key] differs *)
Definition only_value {L} (key : name) (it it' : item L) : Prop :=
  it_refs it' = it_refs it /\ forall k, k <> key -> hget k (it_values it') = hget k (it_values it).
Definition only_member {A} (key : name) (s s' : hmap A) : Prop := forall k, k <> key -> hget k s' = hget k s.

(* ------------------------------------------------------------------ *)
(** * Calls with values that exist in Rust *)

Section Calls.
(** what the memory holds *)
Variable mem : Z -> list Z.

(** what is written is a value of the type *)
Definition ok_write (t : param_type) (a : Z) (new : list Z) : Prop :=
  match t with
  | TString => wf_param mem (PString (Val (a, new)))
  | TIntArray => wf_param mem (PIntArray (Val (a, new)))
  | TFloatArray => wf_param mem (PFloatArray (Val new))
  | TBinary => wf_param mem (PBinary (Val (a, new)))
  | _ => True
  end.
(** [len] zeros, or the empty text, are at the address [a] *)
Definition ok_initial (t : param_type) (a len : Z) : Prop :=
  0 <= len /\ 8 * len < 2 ^ 63 /\
  match t with
  | TString => mem a = []
  | TIntArray | TBinary => mem a = repeat 0 (Z.to_nat len)
  | _ => True
  end.

(** Values are values of Rust; what can be written to is declared with a default that fits
    its declaration; references are declared.  Generated accessors make no other calls. *)
Definition ok_item_op {D} (d : ldef D) (o : item_op) : Prop :=
  match o with
  | ISet _ p => wf_param mem p
  | IWrite key t a new => ok_write t a new /\
      forall id p vt, hget key (ld_members d) = Some (id, DParam p vt) -> fits mem p p vt
  | IInitial key a len => forall id p vt, hget key (ld_members d) = Some (id, DParam p vt) -> ok_initial (type_of p) a len
  | IRef key q => typed_ref (ld_refs d) key q
  | IEnum key id => typed_ref (ld_refs d) key (Val id)
  | IOpen _ => True
  end.

Fixpoint ok_step (n : nat) : step -> defT n -> Prop :=
  match n with
  | O => fun _ _ => True
  | S n => fun s d =>
      match s with
      | OnList _ => True
      | OnItem _ o => ok_item_op d o
      | Into _ key s => forall id d' u, hget key (ld_members d) = Some (id, DMil d' u) -> ok_step n s d'
      end
  end.

Definition ok_root_step {n} (def : rootdef n) (o : root_step) : Prop :=
  match o with
  | OSet _ p => wf_param mem p
  | OWrite key t a new => ok_write t a new /\
      forall id p vt, hget key def = Some (id, RVParam p vt) -> fits mem p p vt
  | OInitial key a len => forall id p vt, hget key def = Some (id, RVParam p vt) -> ok_initial (type_of p) a len
  | OOpen _ => True
  | OInto key s => forall id d u, hget key def = Some (id, RVMList d u) -> ok_step n s d
  end.
End Calls.

(* ------------------------------------------------------------------ *)
(** * Calls whose effects a difference can express *)

Section Calm.
(** with [ord], items are not moved *)
Variable ord : bool.

Definition calm_list_op (o : list_op) : Prop :=
  match o with
  | LMoveToFirst _ | LMoveToLast _ | LMoveToPrev _ _ | LMoveToNext _ _ => ord = false
  | _ => True
  end.

(** an enum does not leave its table *)
Definition calm_item_op {L} (it : item L) (o : item_op) : Prop :=
  match o with
  | IEnum key _ => forall k, hget k (it_refs it) <> None -> k = key
  | _ => True
  end.

Fixpoint calm_step (n : nat) : step -> mlistT n -> Prop :=
  match n with
  | O => fun _ _ => True
  | S n => fun s l =>
      match s with
      | OnList o => calm_list_op o
      | OnItem id o => forall it, lookup id (fst l) = Some it -> calm_item_op it o
      | Into id key s => forall it l', lookup id (fst l) = Some it -> hget key (it_values it) = Some (LMil (Some l')) -> calm_step n s l'
      end
  end.

(** every step, in the document it is made in *)
Fixpoint calm_program {n} (def : rootdef n) (s : sabun n) (ops : list root_step) : Prop :=
  match ops with
  | [] => True
  | o :: ops =>
      match o with OInto key st => forall l, hget key s = Some (RMut (Some l)) -> calm_step n st l | _ => True end /\
      forall s' b, root_run def s o = Ok (s', b) -> calm_program def s' ops
  end.
End Calm.

(** calls that take a new id *)
Fixpoint inserts (s : step) : bool :=
  match s with
  | OnList LInsertFirst | OnList LInsertLast => true
  | Into _ _ s => inserts s
  | _ => false
  end.
Definition root_inserts (o : root_step) : bool := match o with OInto _ s => inserts s | _ => false end.

(** fewer than [2^62] members and references, at every depth *)
Fixpoint few_defT (n : nat) : defT n -> Prop :=
  match n with
  | O => fun _ => True
  | S n => fun d => few_numbers (ld_members d) /\ few_numbers (ld_refs d) /\
      forall key id d' u, hget key (ld_members d) = Some (id, DMil d' u) -> few_defT n d'
  end.
Definition few_rootdef {n} (def : rootdef n) : Prop :=
  forall key id d u, hget key def = Some (id, RVMList d u) -> few_defT n d.

(** all lists of the root are there, as after loading *)
Definition lists_there {n} (def : rootdef n) (s : sabun n) : Prop :=
  forall key id d u, hget key def = Some (id, RVMList d u) -> hget key s <> None.

(* ------------------------------------------------------------------ *)
(** * What generated accessors read *)

(** the value of a member: the one set, else the declared one *)
Definition value_of {D L} (it : item L) (d : ldef D) (key : name) (p : param) : Prop :=
  hget key (it_values it) = Some (LParam p) \/
  hget key (it_values it) = None /\ exists id vt, hget key (ld_members d) = Some (id, DParam p vt).
Definition root_value_of {D L} (s : hmap (rootsab L)) (def : hmap (Z * rootval D)) (key : name) (p : param) : Prop :=
  hget key s = Some (RParam p) \/
  hget key s = None /\ exists id vt, hget key def = Some (id, RVParam p vt).

(** the reference under a name: the one set, else the declared one *)
Definition ref_of {D L} (it : item L) (d : ldef D) (key : name) (q : qv (list Z)) : Prop :=
  hget key (it_refs it) = Some q \/
  hget key (it_refs it) = None /\ exists id vt, hget key (ld_refs d) = Some (id, (q, vt)).

(** a reference is null, undefined or the id of a row *)
Definition row_of {R} (tables : hmap (hmap R)) (key : name) (q : qv (list Z)) (r : qv R) : Prop :=
  match q, r with
  | Val id, Val row => exists rows, hget key tables = Some rows /\ hget id rows = Some row
  | Null, Null => True
  | Undefined, Undefined => True
  | _, _ => False
  end.
