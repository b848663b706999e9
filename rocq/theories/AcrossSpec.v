(** What C74 speaks about. *)
From Coq Require Import String.
From Verif Require Import Base LinkedModel DocModel DiffModel DiffSpec ArchiveModel JsonModel IntfModel IntfSpec CodeSpec CodeModel SavedModel ReadModel GenModel GenSpec AgainModel AgainSpec RunModel RunSpec WroteSpec ThroughSpec ToldSpec.

Local Notation "! s" := (txt s%string) (at level 0, s at level 0).
Local Notation "'var' s" := (EVar (txt s%string)) (at level 0, s at level 0).

(** A program of accessor calls: each expression is evaluated in the document the calls before it
    have left, and [new] is written, at the address [x], through the reference it gives, if it
    gives one.  [steps] are all the calls that are made, [vs] the values. *)
Inductive executes (p : list CodeSpec.item) iter (r : root_obj) told (G : env) {n} (def : rootdef n) : sabun n -> list (expr * (Z * list Z)) -> list val -> list root_step -> sabun n -> Prop :=
| executes_end f : executes p iter r told G def f [] [] [] f
| executes_call f e x new v effects steps d es vs more d' :
    evals p iter (with_members r f) told G e [] (Ok (v, effects)) -> Forall2 (performs_through x new) effects steps -> program_run def f steps = Ok d ->
    executes p iter r told G def d es vs more d' ->
    executes p iter r told G def f ((e, (x, new)) :: es) (v :: vs) (steps ++ more) d'.

(** No list was emptied that had an item with an id above 0: copying such a list forgets its next
    id (see C09). *)
Definition none_emptied {n} (d : sabun n) : Prop := sabun_of n (plain_sabun d) = Some d.

(** what two readers read: the same, but for the sign of zeros; or both panic *)
Definition same_read (a b : res (qv content)) : Prop :=
  match a, b with Ok x, Ok y => same_qv same_content x y | Err, Err | Panic, Panic => True | _, _ => False end.
Definition same_read_there (a b : res (option (qv content))) : Prop :=
  match a, b with
  | Ok (Some x), Ok (Some y) => same_qv same_content x y
  | Ok None, Ok None | Err, Err | Panic, Panic => True
  | _, _ => False
  end.
(** Evaluating, with [E] and with [E'], the readers of all members, references and enums of the
    root and of all items, and what the functions of lists tell. *)
Definition reads_same (old : list name) (root : hmap (Z * rootvalue)) (E E' : expr -> trace -> res (val * trace) -> Prop) : Prop :=
  (forall key i p0 vt tr, In (key, (i, WParam p0 vt)) root ->
    let e := do var"root" (with_old key (contains old key)) [] in
    exists a b, E e tr (gives (as_marked VOf vt) tr a) /\ E' e tr (gives (as_marked VOf vt) tr b) /\ same_read a b) /\
  (forall q key l e fn args f tr, reaches old root q key l e -> informs fn args f -> exists R, E (of_list e fn args) tr R /\ E' (of_list e fn args) tr R) /\
  forall w c stem l e, goes old root w c stem l e ->
    (forall key i p0 vt tr, In (key, (i, DParam p0 vt)) (ld_members l) ->
      let e := asks e (with_old key (contains (ld_old l) key)) in
      exists a b, E e tr (gives (of_opt (as_marked VOf vt)) tr a) /\ E' e tr (gives (of_opt (as_marked VOf vt)) tr b) /\ same_read_there a b) /\
    (ld_enum l = false -> forall key i q vt tr, In (key, (i, (q, vt))) (ld_refs l) ->
      let e := asks e (!"ref_id_" ++ with_old key (contains (ld_ref_old l) key)) in exists R, E e tr R /\ E' e tr R) /\
    (ld_enum l = true -> forall tr, let e := asks e !"get_enum_ids" in exists R, E e tr R /\ E' e tr R).
