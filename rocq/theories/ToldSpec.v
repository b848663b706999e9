(** What C75 speaks about: what generated functions tell about lists that are only read. *)
From Coq Require Import String.
From Verif Require Import Base LinkedModel DocModel ArchiveModel JsonModel GenModel CodeSpec ReadModel AgainModel RunModel RunSpec ListedSpec.

Local Notation text := (list Z).
Local Notation "! s" := (txt s%string) (at level 0, s at level 0).
Local Notation "'var' s" := (EVar (txt s%string)) (at level 0, s at level 0).

(** [Some(list)]; only the functions of lists that can be undefined give an [Option] *)
Definition opted (undefiable : bool) (e : expr) : expr := if undefiable then e else some_of e.

(** The expressions that give the list [key], whose items are defined by [l], of the root or of
    the item at the end of a way, as [Some(list)]; [None], if there is no such item or the list is
    undefined.  The question is the one about its items. *)
Inductive reaches (old : list name) (root : hmap (Z * rootvalue)) : question -> name -> ldef def -> expr -> Prop :=
| reaches_root t i l u : In (t, (i, WMList (Def l) u)) root -> reaches old root (RootItems t) t l (opted u (do var"root" (with_old t (contains old t)) []))
| reaches_item w stem l e key i l' u : goes old root w false stem l e -> In (key, (i, DMil (Def l') u)) (ld_members l) ->
    reaches old root (Items w key) key l' (if_some !"x" e (opted u (do var"x" (with_old key (contains (ld_old l) key)) []))).

(** [if let Some(l) = e { Some(l.fn(args)) } else { None }] *)
Definition of_list (e : expr) (fn : text) (args : list expr) : expr := if_some !"l" e (some_of (do var"l" fn args)).
(** [if let Some(l) = e { l.fn(args) } else { None }], for functions that give an [Option] *)
Definition in_list (e : expr) (fn : text) (args : list expr) : expr := if_some !"l" e (do var"l" fn args).

(** the functions of lists and what they tell if the ids of the items are [was] *)
Inductive informs : text -> list expr -> (list Z -> val) -> Prop :=
| informs_len : informs !"len" [] (fun was => VNum (zlen was))
| informs_empty : informs !"is_empty" [] (fun was => VBool (match was with [] => true | _ => false end))
| informs_first : informs !"first_id" [] (fun was => of_opt VNum (hd_error was))
| informs_last : informs !"last_id" [] (fun was => of_opt VNum (hd_error (rev was)))
| informs_key id : informs !"contains_key" [ENum id] (fun was => VBool (known id was)).

(** the outcome, if the items are as the answer says *)
Definition informed (f : list Z -> val) (tr : trace) (a : res answer) : res (val * trace) :=
  match a with
  | Ok (Ids (Some was)) => Ok (some (f was), tr)
  | Ok _ => Ok (none, tr)
  | Err => Err
  | Panic => Panic
  end.

(** the way to an item of a list *)
Definition way_in (q : question) (id : Z) : way :=
  match q with Items w key => Mil w key id | RootItems key => Entry key id | _ => Entry [] id end.

(** the functions that give an item, and its id *)
Inductive picks (was : list Z) : text -> list expr -> option Z -> Prop :=
| picks_first : picks was !"first" [] (hd_error was)
| picks_last : picks was !"last" [] (hd_error (rev was))
| picks_id id : picks was !"get_item" [ENum id] (if known id was then Some id else None).
