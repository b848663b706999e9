(** What C71 speaks about. *)
From Coq Require Import String.
From Verif Require Import Base LinkedModel LinkedSpec DocModel DiffModel DiffSpec ArchiveModel JsonModel IntfModel IntfSpec GenModel CodeSpec ReadModel AgainModel AgainSpec RunModel RunSpec WroteSpec ListedSpec.

Local Notation text := (list Z).
Local Notation "! s" := (txt s%string) (at level 0, s at level 0).
Local Notation "'var' s" := (EVar (txt s%string)) (at level 0, s at level 0).

(** [root.t_mut()], [root.t_mut().get_mut(id).unwrap().s_mut()] and so on: the expressions that
    give the list [key] of the root or of the item at a place; its items are defined by [l] *)
Inductive lists (old : list name) (root : hmap (Z * rootvalue)) : loc -> name -> ldef def -> expr -> Prop :=
| lists_root t i l u : In (t, (i, WMList (Def l) u)) root -> lists old root [] t l (do var"root" (with_old t (contains old t) ++ !"_mut") [])
| lists_item a stem l e key i l' u : seizes old root a stem l e -> In (key, (i, DMil (Def l') u)) (ld_members l) ->
    lists old root a key l' (do e (with_old key (contains (ld_old l) key) ++ !"_mut") []).

(** the methods of lists and what they are *)
Inductive calls : list_op -> text -> list expr -> Prop :=
| calls_insert : calls LInsertLast !"insert" []
| calls_insert_last : calls LInsertLast !"insert_last" []
| calls_insert_first : calls LInsertFirst !"insert_first" []
| calls_remove id : calls (LRemove id) !"remove" [ENum id]
| calls_remove_first : calls LRemoveFirst !"remove_first" []
| calls_remove_last : calls LRemoveLast !"remove_last" []
| calls_to_first id : calls (LMoveToFirst id) !"move_to_first" [ENum id]
| calls_to_last id : calls (LMoveToLast id) !"move_to_last" [ENum id]
| calls_to_prev k id : calls (LMoveToPrev k id) !"move_to_prev" [ENum k; ENum id]
| calls_to_next k id : calls (LMoveToNext k id) !"move_to_next" [ENum k; ENum id].

(** Evaluating [e] gives [v] and makes calls, and what the calls do to [f] gives [d].  They are
    calls the other theorems speak about. *)
Definition makes (mem : Z -> list Z) (p : list CodeSpec.item) iter r told (G : env) (e : expr) (v : val) {n} (def : rootdef n) (f d : sabun n) : Prop :=
  forall tr, exists effects steps, evals p iter r told G e tr (Ok (v, tr ++ effects)) /\ Forall2 performs effects steps /\
    Forall (ok_root_step mem def) steps /\ Forall (generated_root_step def) steps /\ program_run def f steps = Ok d.

(** the answer of a method: the new item, or whether something was done *)
Definition reply (o : list_op) (a : loc) (key : name) (l : ldef def) (was : list Z) (next : Z) : val :=
  match o with
  | LInsertFirst | LInsertLast => VGuard !"MItemMut" (Some (mitem_type key)) (item_value (mitem_type key) (a ++ [(key, next)]) (CItem [] [], Def l))
  | _ => VBool (answered o was)
  end.

(** C70: what a call makes of a document *)
Definition reordered (r t : root_obj) (a : loc) (key : name) (d : def) (op : list_op) (was : list Z) (next : Z) : Prop :=
  (* the items and their order *)
  (forall iter q, items_of a key q -> ask iter t q = Ok (Ids (Some (new_order op was next)))) /\
  (* nothing else changes *)
  (forall iter q, ~ items_of a key q -> (forall w x, way_of q = Some w -> touched op was next x -> ~ passes (a ++ [(key, x)]) w) -> ask iter t q = ask iter r q) /\
  (* a new item is as its definition says *)
  (inserts op -> forall iter w, place w = Some (a ++ [(key, next)]) -> ask iter t (There w) = Ok Something /\
    (forall k i p vt, hget k (ld_members (undef d)) = Some (i, DParam p vt) -> ask iter t (Param w k) = (v <- unwrapped vt (Some (contents p)) ; Ok (Value v))) /\
    (forall k i d' u, hget k (ld_members (undef d)) = Some (i, DMil d' u) -> ask iter t (Items w k) = Ok (Ids (Some []))) /\
    (forall k i q vt, ld_enum (undef d) = false -> hget k (ld_refs (undef d)) = Some (i, (q, vt)) -> ask iter t (RefId w k) = (v <- unwrapped vt (Some q) ; Ok (RowName v)))) /\
  (* a removed one is gone *)
  (forall iter w x, removed op was x -> place w = Some (a ++ [(key, x)]) -> ask iter t (There w) = Ok Nothing) /\
  (* the list can be changed again *)
  exists l, list_in t a key = Some (d, Some l) /\ ids (fst l) = new_order op was next /\ snd l = next_after op next.

(** the methods that tell something about a list with the items [was] *)
Inductive tells (was : list Z) (next : Z) : text -> list expr -> val -> Prop :=
| tells_len : tells was next !"len" [] (VNum (zlen was))
| tells_empty : tells was next !"is_empty" [] (VBool (match was with [] => true | _ => false end))
| tells_next : tells was next !"next_id" [] (VNum next)
| tells_no_first : was = [] -> tells was next !"first_id" [] none
| tells_first x l : was = x :: l -> tells was next !"first_id" [] (some (VNum x))
| tells_no_last : was = [] -> tells was next !"last_id" [] none
| tells_last x l : was = l ++ [x] -> tells was next !"last_id" [] (some (VNum x))
| tells_key id : tells was next !"contains_key" [ENum id] (VBool (known id was)).
