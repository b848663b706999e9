(** What C77 speaks about: loops over lists. *)
From Coq Require Import String.
From Verif Require Import Base LinkedModel DocModel DiffSpec ArchiveModel JsonModel IntfModel GenModel CodeSpec SavedModel ReadModel AgainModel RunModel RunSpec WroteSpec ListedSpec CalledSpec ToldSpec LoopModel.

Local Notation text := (list Z).
Local Notation "! s" := (txt s%string) (at level 0, s at level 0).

(** One [next] ([prev], if [back]) gives [v] and changes nothing. *)
Definition hands (p : list CodeSpec.item) iter r told (back : bool) (it : iterator) (v : val) (it' : iterator) : Prop :=
  forall tr, exists k0, forall k, (k0 <= k)%nat -> step_iter p r (eval p iter r told k) back it tr = Ok ((v, it'), tr).

(** What is given one after another until there is nothing more.  Whatever [see] says holds of
    the iterator before each value, and of the iterator that gives nothing. *)
Inductive visits (p : list CodeSpec.item) iter r told (see : option val -> iterator -> Prop) (back : bool) : iterator -> list val -> Prop :=
| visits_end it it' : see None it -> hands p iter r told back it none it' -> visits p iter r told see back it []
| visits_item it v it' vs : see (Some v) it -> hands p iter r told back it (some v) it' -> visits p iter r told see back it' vs -> visits p iter r told see back it (v :: vs).

(** [current], [is_available], [is_first] and [is_last] of an iterator over items with the ids
    [was], before it gives something or nothing more *)
Definition shows (p : list CodeSpec.item) iter r told (was : list Z) (o : option val) (it : iterator) : Prop :=
  (forall tr, exists k0, forall k, (k0 <= k)%nat -> current p r (eval p iter r told k) it tr = Ok (of_opt (fun v => v) o, tr)) /\
  position r !"is_available" it = Some (is_some o) /\
  match o with
  | Some v => exists id x, v = VPair (VNum id) x /\ In id was /\
      (position r !"is_first" it = Some true <-> hd_error was = Some id) /\ (position r !"is_last" it = Some true <-> hd_error (rev was) = Some id)
  | None => position r !"is_first" it = Some false /\ position r !"is_last" it = Some false
  end.

(** where to begin and which way to go, and the ids that are met *)
Inductive walk (was : list Z) : beginning -> bool -> list Z -> Prop :=
| walk_forth : walk was FromFirst false was
| walk_back : walk was FromLast true (rev was)
| walk_from l1 id l2 : was = l1 ++ id :: l2 -> walk was (FromId id) false (id :: l2)
| walk_back_from l1 id l2 : was = l1 ++ id :: l2 -> walk was (FromId id) true (id :: rev l1).

(** [for (id, x) in it { body; }], where [f] are the members of the document in the beginning and
    [d] in the end.  The body is evaluated in the document as it is then. *)
Inductive for_each (mem : Z -> list Z) (p : list CodeSpec.item) iter (r : root_obj) told (G : env) (body : expr) {n} (def : rootdef n) : sabun n -> iterator -> sabun n -> Prop :=
| each_end f it it' : hands p iter (with_members r f) told false it none it' -> for_each mem p iter r told G body def f it f
| each_item f it id x it' f1 d : hands p iter (with_members r f) told false it (some (VPair (VNum id) x)) it' ->
    turns mem p iter (with_members r f) told ((!"id", VNum id) :: (!"x", x) :: G) body def f f1 ->
    for_each mem p iter r told G body def f1 it' d -> for_each mem p iter r told G body def f it d.

(** questions about other things than the member [k] of the items [these] of a list *)
Definition elsewhere (a : loc) (key k : name) (these : list Z) (q : question) : Prop :=
  forall w id, In id these -> q = Param w k -> place w <> Some (a ++ [(key, id)]).

(** the variables in the body: the id and the item, with what is in it now *)
Definition in_loop (G : env) (a : loc) (key : name) (l : ldef def) (id : Z) (c : citem) : env :=
  (!"id", VNum id) :: (!"x", VGuard !"MItemMut" (Some (mitem_type key)) (item_value (mitem_type key) (a ++ [(key, id)]) (c, Def l))) :: G.
(** The expression [ea] gives the values [v] in the loop.  When it is evaluated for an item, the
    member [k] of some other items was written; everything else is as in the beginning. *)
Definition loop_gives (mem : Z -> list Z) (p : list CodeSpec.item) iter (r : root_obj) told (G : env) {n} (def : rootdef n) (a : loc) (key k : name) (l : ldef JsonModel.def) (was : list Z) (ea : expr) (v : Z -> val) : Prop :=
  forall (f0 : sabun n) these id c, In id was -> incl these was -> ~ In id these -> holds mem def f0 (with_members r f0) -> unchanged iter r (with_members r f0) (elsewhere a key k these) ->
    item_at (with_members r f0) (a ++ [(key, id)]) = Some (c, Def l) -> plainly p iter (with_members r f0) told (in_loop G a key l id c) ea (v id).
