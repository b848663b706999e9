(** When two loaded documents have the same contents (C61): equal up to the numbers of the members of
    lists, the order of members and addresses in memory. *)
From Verif Require Import Base DocModel ArchiveModel JsonModel SaysSpec.

(** a text, an array or a binary, wherever it is *)
Definition no_address {T} (q : qv (arc T)) : qv T := match q with Val (_, t) => Val t | Null => Null | Undefined => Undefined end.
Definition same_param (p p' : param) : Prop :=
  match p, p' with
  | PBool q, PBool q' => q = q'
  | PFloat q, PFloat q' => q = q'
  | PInt q, PInt q' => q = q'
  | PString q, PString q' => no_address q = no_address q'
  | PIntArray q, PIntArray q' => no_address q = no_address q'
  | PFloatArray q, PFloatArray q' => q = q'
  | PBinary q, PBinary q' => no_address q = no_address q'
  | _, _ => False
  end.

Definition same_names (a b : list name) : Prop := forall n, In n a <-> In n b.

(** the same references with the same types; their numbers are not compared *)
Definition same_refs (a b : hmap (Z * (qv (list Z) * var_type))) : Prop :=
  forall n, option_map snd (hget n a) = option_map snd (hget n b).

Inductive same_value : rvalue -> rvalue -> Prop :=
| same_params p p' vt : same_param p p' -> same_value (VaParam p vt) (VaParam p' vt)
| same_table d d' rows rows' old old' :
    same_def d d' -> Forall2 (fun a b => fst a = fst b /\ same_item (snd a) (snd b)) rows rows' -> same_names old old' ->
    same_value (VaTable d rows old) (VaTable d' rows' old')
| same_clist d d' l l' : same_def d d' -> Forall2 same_item l l' -> same_value (VaCList d l) (VaCList d' l')
| same_mlist d d' u l l' n :
    same_def d d' -> Forall2 (fun a b => fst a = fst b /\ same_item (snd a) (snd b)) l l' ->
    same_value (VaMList d u (Some (l, n))) (VaMList d' u (Some (l', n)))
| same_cil l l' : Forall2 same_item l l' -> same_value (VaCil l) (VaCil l')
| same_mil l l' n :
    Forall2 (fun a b => fst a = fst b /\ same_item (snd a) (snd b)) l l' -> same_value (VaMil (Some (l, n))) (VaMil (Some (l', n)))
| same_undefined : same_value (VaMil None) (VaMil None)
| same_cil_def d d' : same_def d d' -> same_value (VaCilDef d) (VaCilDef d')
| same_mil_def d d' u : same_def d d' -> same_value (VaMilDef d u) (VaMilDef d' u)
with same_def : def -> def -> Prop :=
| same_defs d d' :
    (forall n i x, hget n (ld_members d) = Some (i, x) ->
       exists i' x' r r', hget n (ld_members d') = Some (i', x') /\ in_def r x /\ in_def r' x' /\ same_value r r') ->
    (forall n x', hget n (ld_members d') = Some x' -> exists x, hget n (ld_members d) = Some x) ->
    same_refs (ld_refs d) (ld_refs d') -> ld_enum d = ld_enum d' -> same_names (ld_old d) (ld_old d') -> same_names (ld_ref_old d) (ld_ref_old d') ->
    same_def (Def d) (Def d')
with same_item : citem -> citem -> Prop :=
| same_items c c' :
    (forall n x, hget n (ci_values c) = Some x ->
       exists x' r r', hget n (ci_values c') = Some x' /\ in_item r x /\ in_item r' x' /\ same_value r r') ->
    (forall n x', hget n (ci_values c') = Some x' -> exists x, hget n (ci_values c) = Some x) ->
    (forall n, hget n (ci_refs c) = hget n (ci_refs c')) ->
    same_item c c'.

(** a member of the root, with its items if it is a mutable list *)
Definition same_member (w : rootvalue) (s : option (rootsab mutlist)) (w' : rootvalue) (s' : option (rootsab mutlist)) : Prop :=
  exists r r', in_root r w s /\ in_root r' w' s' /\ same_value r r'.

Definition same_root (r r' : root_obj) : Prop :=
  (forall n i w, hget n (ro_default r) = Some (i, w) ->
     exists i' w', hget n (ro_default r') = Some (i', w') /\ same_member w (hget n (ro_sabun r)) w' (hget n (ro_sabun r'))) /\
  (forall n x', hget n (ro_default r') = Some x' -> exists x, hget n (ro_default r) = Some x) /\
  same_names (ro_old r) (ro_old r').
