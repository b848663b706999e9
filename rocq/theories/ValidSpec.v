(** What C42 speaks about: documents whose values fit their definitions and whose
    references name rows of tables. *)
From Verif Require Import Base DocModel JsonModel.

(** null and undefined only where they are allowed *)
Definition allows {T} (vt : var_type) (q : qv T) : Prop :=
  match q with
  | Val _ => True
  | Null => vt = Nullable \/ vt = UndefNullable
  | Undefined => vt = Undefiable \/ vt = UndefNullable
  end.
Definition allows_param (vt : var_type) (p : param) : Prop :=
  match p with
  | PBool q => allows vt q | PFloat q => allows vt q | PInt q => allows vt q | PString q => allows vt q
  | PIntArray q => allows vt q | PFloatArray q => allows vt q | PBinary q => allows vt q
  end.

(** [c'] is [c] or one of the items in a list of [c], at any depth *)
Inductive inside : citem -> citem -> Prop :=
| inside_self c : inside c c
| inside_const c key l c1 c' : In (key, VCil l) (ci_values c) -> In c1 l -> inside c1 c' -> inside c c'
| inside_mut c key l next id c1 c' : In (key, VMil (Some (l, next))) (ci_values c) -> In (id, c1) l -> inside c1 c' -> inside c c'.

(** the ids of every mutable list are different *)
Inductive distinct_ids : citem -> Prop :=
| distinct c :
    (forall key l c1, In (key, VCil l) (ci_values c) -> In c1 l -> distinct_ids c1) ->
    (forall key l next, In (key, VMil (Some (l, next))) (ci_values c) -> NoDup (map fst l)) ->
    (forall key l next id c1, In (key, VMil (Some (l, next))) (ci_values c) -> In (id, c1) l -> distinct_ids c1) ->
    distinct_ids c.

(** definitions: enums have no defaults, old members exist, lists of lists that change
    change, and lists of others do not *)
Inductive def_valid (is_mut : bool) : def -> Prop :=
| def_ok d :
    (ld_enum d = true -> forall key id q vt, In (key, (id, (q, vt))) (ld_refs d) -> q = Null) ->
    (forall key, In key (ld_ref_old d) -> exists e, hget key (ld_refs d) = Some e) ->
    (forall key, In key (ld_old d) -> exists e, hget key (ld_members d) = Some e) ->
    (forall key id d', In (key, (id, DCil d')) (ld_members d) -> is_mut = false) ->
    (forall key id d' u, In (key, (id, DMil d' u)) (ld_members d) -> is_mut = true) ->
    (forall key id d', In (key, (id, DCil d')) (ld_members d) -> def_valid is_mut d') ->
    (forall key id d' u, In (key, (id, DMil d' u)) (ld_members d) -> def_valid is_mut d') ->
    def_valid is_mut (Def d).

Section Valid.
Variable root : root_obj.
Variable can_use_old : bool.

Definition usable (old : list name) (key : name) : Prop := can_use_old = true \/ ~ In key old.

(** a reference under the name [key] is null, undefined or a row of the table [key] *)
Definition resolved (key : name) (q : qv (list Z)) : Prop :=
  match q with
  | Val id => id <> [] /\ exists n d rows old row,
      hget key (ro_default root) = Some (n, WTable d rows old) /\ hget id rows = Some row /\ usable old id
  | _ => True
  end.

Definition refs_valid (d : ldef def) (refs : hmap (qv (list Z))) : Prop :=
  (if ld_enum d then length refs = 1%nat
   else forall key id vt, In (key, (id, (Val [], vt))) (ld_refs d) -> exists q, hget key refs = Some q) /\
  forall key q, In (key, q) refs ->
    usable (ld_ref_old d) key /\ resolved key q /\
    exists id q0 vt, hget key (ld_refs d) = Some (id, (q0, vt)) /\ allows vt q.

(** every value of the item is a member of the definition, of the right type, not old; the
    same for the items inside *)
Inductive item_valid : def -> citem -> Prop :=
| item_ok d c : refs_valid d (ci_refs c) ->
    (forall key v, In (key, v) (ci_values c) ->
       usable (ld_old d) key /\ exists id dv, hget key (ld_members d) = Some (id, dv) /\ value_valid dv v) ->
    item_valid (Def d) c
with value_valid : ldefval def -> cval -> Prop :=
| param_ok p vt q : type_of q = type_of p -> allows_param vt q -> value_valid (DParam p vt) (VParam q)
| const_ok d l : (forall c, In c l -> item_valid d c) -> value_valid (DCil d) (VCil l)
| mut_ok d u l next : (forall id c, In (id, c) l -> item_valid d c) -> value_valid (DMil d u) (VMil (Some (l, next)))
| undefined_ok d : value_valid (DMil d true) (VMil None).

Definition root_valid : Prop :=
  (forall key, In key (ro_old root) -> exists e, hget key (ro_default root) = Some e) /\
  forall key id v, In (key, (id, v)) (ro_default root) ->
    match v with
    | WParam p vt => forall s, hget key (ro_sabun root) = Some s -> exists q, s = RParam q /\ type_of q = type_of p
    | WTable d rows old => def_valid false d /\ (forall i, In i old -> exists c, hget i rows = Some c) /\
        forall i c, In (i, c) rows -> item_valid d c
    | WCList d l => def_valid false d /\ forall c, In c l -> item_valid d c
    | WMList d u => def_valid true d /\ forall s, hget key (ro_sabun root) = Some s ->
        (exists l next, s = RMut (Some (l, next)) /\ forall i c, In (i, c) l -> item_valid d c) \/
        (s = RMut None /\ u = true)
    end.

(** an item of a table or a list of the root *)
Definition root_item (c : citem) : Prop :=
  exists key id v, In (key, (id, v)) (ro_default root) /\
    match v with
    | WParam _ _ => False
    | WTable _ rows _ => exists i, In (i, c) rows
    | WCList _ l => In c l
    | WMList _ _ => exists l next i, hget key (ro_sabun root) = Some (RMut (Some (l, next))) /\ In (i, c) l
    end.

(** the ids of all mutable lists of the root are different *)
Definition distinct_root : Prop :=
  (forall c, root_item c -> distinct_ids c) /\
  forall key id d u l next, In (key, (id, WMList d u)) (ro_default root) ->
    hget key (ro_sabun root) = Some (RMut (Some (l, next))) -> NoDup (map fst l).
End Valid.
