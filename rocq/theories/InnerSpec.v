(** What C43 says about items of inner lists: what moving a document to a new version makes of
    them, which is not what is expected of it (AdjustSpec). *)
From Verif Require Import Base DocModel JsonModel ValidSpec AdjustSpec.

(** The item [c'] has what [c] has of the members of [d].  The items of its lists, at every depth,
    have what they had of the members of the same [d], whatever the definition of their list. *)
Inductive recast (d : ldef def) : citem -> citem -> Prop :=
| recast_item c c' :
    (forall key, recast_value d (option_map snd (hget key (ld_members d))) (hget key (ci_values c)) (hget key (ci_values c'))) ->
    (forall key, carried_ref (option_map snd (hget key (ld_refs d))) (hget key (ci_refs c)) (hget key (ci_refs c'))) ->
    recast d c c'
with recast_value (d : ldef def) : option (ldefval def) -> option cval -> option cval -> Prop :=
| recast_removed v : recast_value d None v None
| recast_kept dv q : recast_value d (Some dv) (Some (VParam q)) (Some (VParam q))
| recast_no_list dv : recast_value d (Some dv) (Some (VMil None)) (Some (VMil None))
| recast_list dv l l' next :
    map fst l' = map fst l -> (forall id c c', In ((id, c), (id, c')) (combine l l') -> recast d c c') ->
    recast_value d (Some dv) (Some (VMil (Some (l, next)))) (Some (VMil (Some (l', match l with [] => 0 | _ => next end))))
| recast_default p vt : ~ allows_undefined vt -> recast_value d (Some (DParam p vt)) None None
| recast_undefined p vt q : allows_undefined vt -> undefined_of p q -> recast_value d (Some (DParam p vt)) None (Some (VParam q))
| recast_list_default d' : recast_value d (Some (DMil d' false)) None None
| recast_list_undefined d' : recast_value d (Some (DMil d' true)) None (Some (VMil None)).

(** [x] is in [c], in an inner list, where [x'] is in [c'] *)
Inductive counterpart : citem -> citem -> citem -> citem -> Prop :=
| counterpart_in c c' key l next l' next' id x x' :
    hget key (ci_values c) = Some (VMil (Some (l, next))) -> hget key (ci_values c') = Some (VMil (Some (l', next'))) ->
    In ((id, x), (id, x')) (combine l l') -> counterpart c c' x x'
| counterpart_deeper c c' key l next l' next' id x x' y y' :
    hget key (ci_values c) = Some (VMil (Some (l, next))) -> hget key (ci_values c') = Some (VMil (Some (l', next'))) ->
    In ((id, x), (id, x')) (combine l l') -> counterpart x x' y y' -> counterpart c c' y y'.

(** a member that is undefined where it was not set *)
Definition can_be_undefined (dv : ldefval def) : Prop :=
  match dv with DParam _ vt => allows_undefined vt | DMil _ u => u = true | DCil _ => False end.
