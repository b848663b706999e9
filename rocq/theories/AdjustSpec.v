(** What C43 speaks about: what moving to a new version is expected to make of the members
    of the root and of list items. *)
From Verif Require Import Base DocModel JsonModel ValidSpec.

Definition allows_undefined (vt : var_type) : Prop := vt = Undefiable \/ vt = UndefNullable.

(** the value "undefined" of the type of [p] *)
Definition undefined_of (p q : param) : Prop := type_of q = type_of p /\ param_qv_type q = QUndefined.

(** A reference of an item: what the new definition says, what the old item has, what the
    new one has *)
Inductive carried_ref : option (qv (list Z) * var_type) -> option (qv (list Z)) -> option (qv (list Z)) -> Prop :=
| ref_removed q : carried_ref None q None
| ref_kept d q : carried_ref (Some d) (Some q) (Some q)
| ref_default q0 vt : ~ allows_undefined vt -> carried_ref (Some (q0, vt)) None None
| ref_undefined q0 vt : allows_undefined vt -> carried_ref (Some (q0, vt)) None (Some Undefined).

(** The item [c'] of the definition [d] has what the old item [c] has of the members of
    [d], at every depth.  A value that was not set is undefined where it may be. *)
Inductive carried : def -> citem -> citem -> Prop :=
| carried_item d c c' :
    (forall key, carried_value (option_map snd (hget key (ld_members d))) (hget key (ci_values c)) (hget key (ci_values c'))) ->
    (forall key, carried_ref (option_map snd (hget key (ld_refs d))) (hget key (ci_refs c)) (hget key (ci_refs c'))) ->
    carried (Def d) c c'
with carried_value : option (ldefval def) -> option cval -> option cval -> Prop :=
| value_removed v : carried_value None v None
| value_kept dv q : carried_value (Some dv) (Some (VParam q)) (Some (VParam q))
| value_no_list dv : carried_value (Some dv) (Some (VMil None)) (Some (VMil None))
| value_list d u l l' next next' :
    map fst l' = map fst l -> (l <> [] -> next' = next) ->
    (forall id c c', In ((id, c), (id, c')) (combine l l') -> carried d c c') ->
    carried_value (Some (DMil d u)) (Some (VMil (Some (l, next)))) (Some (VMil (Some (l', next'))))
| value_empty dv next next' : carried_value (Some dv) (Some (VMil (Some ([], next)))) (Some (VMil (Some ([], next'))))
| value_default p vt : ~ allows_undefined vt -> carried_value (Some (DParam p vt)) None None
| value_undefined p vt q : allows_undefined vt -> undefined_of p q -> carried_value (Some (DParam p vt)) None (Some (VParam q))
| value_list_default d : carried_value (Some (DMil d false)) None None
| value_list_undefined d : carried_value (Some (DMil d true)) None (Some (VMil None)).

(** A list of the root: ids and order are kept, and so are the items; [good] says which *)
Definition carried_list (good : citem -> Prop) (d : def) (l l' : mutlist) : Prop :=
  map fst (fst l') = map fst (fst l) /\ (fst l <> [] -> snd l' = snd l) /\
  forall id c c', In ((id, c), (id, c')) (combine (fst l) (fst l')) -> good c -> carried d c c'.

(** A member of the root: the new definition, the value in the new source, whether the old
    version had the member, its old value, and the value after moving *)
Inductive carried_root (good : citem -> Prop) : rootvalue -> option (rootsab mutlist) -> bool -> option (rootsab mutlist) -> option (rootsab mutlist) -> Prop :=
| root_new_undefined p vt s o q : allows_undefined vt -> undefined_of p q -> carried_root good (WParam p vt) s false o (Some (RParam q))
| root_kept p vt s known o : known = true \/ ~ allows_undefined vt -> carried_root good (WParam p vt) s known (Some o) (Some o)
| root_default p vt s known : known = true \/ ~ allows_undefined vt -> carried_root good (WParam p vt) s known None s
| root_new_list d s o : carried_root good (WMList d true) s false o (Some (RMut None))
| root_list d u s known l l' : known = true \/ u = false -> carried_list good d l l' ->
    carried_root good (WMList d u) s known (Some (RMut (Some l))) (Some (RMut (Some l')))
| root_no_list d u s known : known = true \/ u = false ->
    carried_root good (WMList d u) s known (Some (RMut None)) (Some (RMut None))
| root_list_default d u s known o : known = true \/ u = false -> (forall l, o <> Some (RMut l)) ->
    carried_root good (WMList d u) s known o s
| root_table d rows old s known o : carried_root good (WTable d rows old) s known o s
| root_const d l s known o : carried_root good (WCList d l) s known o s.

(** no items in its lists *)
Definition flat (c : citem) : Prop := forall key l next, hget key (ci_values c) = Some (VMil (Some (l, next))) -> l = [].

(** the members of the definitions of a root that are looked at have different names, as
    the keys of hash maps do *)
Definition different_names (r : root_obj) : Prop :=
  NoDup (map fst (ro_default r)) /\
  forall key id d u, In (key, (id, WMList d u)) (ro_default r) -> NoDup (map fst (ld_members (undef d))) /\ NoDup (map fst (ld_refs (undef d))).

(** lists that can be changed: different ids, and no constant lists, at every depth *)
Definition changeable (c : citem) : Prop := distinct_ids c /\ forall c' key l, inside c c' -> ~ In (key, VCil l) (ci_values c').
Definition changeable_lists (s : hmap (rootsab mutlist)) : Prop :=
  forall key l next, hget key s = Some (RMut (Some (l, next))) -> NoDup (map fst l) /\ forall id c, In (id, c) l -> changeable c.

(** the same values and references, but for the next id of inner lists without items *)
Definition same_value (v v' : option cval) : Prop :=
  v' = v \/ exists n n', v = Some (VMil (Some ([], n))) /\ v' = Some (VMil (Some ([], n'))).
Definition same_item (c c' : citem) : Prop :=
  (forall key, same_value (hget key (ci_values c)) (hget key (ci_values c'))) /\
  forall key, hget key (ci_refs c') = hget key (ci_refs c).
Definition same_list (l l' : mutlist) : Prop :=
  map fst (fst l') = map fst (fst l) /\ (fst l <> [] -> snd l' = snd l) /\
  forall id c c', In ((id, c), (id, c')) (combine (fst l) (fst l')) -> same_item c c'.

(** items without inner items, whose keys are different *)
Definition plain_item (c : citem) : Prop := flat c /\ NoDup (map fst (ci_values c)) /\ NoDup (map fst (ci_refs c)).
(** nothing can be undefined *)
Definition no_undefined (d : ldef def) : Prop :=
  (forall key id p vt, In (key, (id, DParam p vt)) (ld_members d) -> ~ allows_undefined vt) /\
  (forall key id d' u, In (key, (id, DMil d' u)) (ld_members d) -> u = false) /\
  (forall key id q vt, In (key, (id, (q, vt))) (ld_refs d) -> ~ allows_undefined vt).
