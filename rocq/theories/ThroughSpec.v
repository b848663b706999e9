(** What C73 speaks about. *)
From Verif Require Import Base LinkedModel DocModel DiffModel DiffSpec ArchiveModel JsonModel IntfModel IntfSpec CodeSpec SavedModel ReadModel AgainModel AgainSpec RunModel RunSpec WroteSpec.

(** What a value of a type that is given by reference holds. *)
Definition holding (t : param_type) (new : list Z) : content :=
  match t with
  | TIntArray => CInts new
  | TFloatArray => CFloats new
  | TBinary => CBytes new
  | _ => CString new
  end.
(** Writing through a reference; there is none to null and undefined. *)
Definition written (t : param_type) (new : list Z) (c : qv content) : qv content :=
  match c with Val _ => Val (holding t new) | Undefined => Undefined | Null => Null end.

(** The calls, if [new] is written, at the address [x], through the reference that was given. *)
Inductive performs_through (x : Z) (new : list Z) : effect -> root_step -> Prop :=
| through_call e o : performs e o -> performs_through x new e o
| through_write a t key : performs_through x new (EWrite a t key) (step_at a (OWrite key t x new) (IWrite key t x new)).

(** Evaluating [e] gives [v]; after [new] is written through it, [f] is [d]. *)
Definition turns_through (mem : Z -> list Z) (x : Z) (new : list Z) (p : list CodeSpec.item) iter r told (G : env) (e : expr) (v : val) {n} (def : rootdef n) (f d : sabun n) : Prop :=
  forall tr, exists effects steps, evals p iter r told G e tr (Ok (v, tr ++ effects)) /\ Forall2 (performs_through x new) effects steps /\
    Forall (ok_root_step mem def) steps /\ Forall (generated_root_step def) steps /\ program_run def f steps = Ok d.
