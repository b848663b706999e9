(** Programs written beside accessors, whose functions call each other without going round: what C83
    says. *)
From Coq Require Import String.
From Verif Require Import Base StringCompactionModel JsonModel IntfModel CodeSpec TypeSpec SoundSpec BesideSpec.

Local Notation text := (list Z).

(** [plain] of EndSpec.v where only functions of the names in [al] are called. *)
Fixpoint calling (al : text -> bool) (d : nat) (e : expr) : bool :=
  match d with
  | O => false
  | S d =>
    match e with
    | EVar _ | EText _ | ENum _ | EPath _ _ | EStruct _ _ | EMacro _ _ | EClosure _ _ _ => true
    | ECall c args => match c with EPath _ f => al f | _ => true end && forallb (calling al d) args
    | EArray args => forallb (calling al d) args
    | EMethod e f args =>
        al f && calling al d e && (if eqb_bytes f (txt "map") then match args with [EClosure _ _ b] => calling al d b | [] => true | _ => false end else forallb (calling al d) args)
    | EField e _ | ERef e | EDeref e | EUnsafe e | EBlock e => calling al d e
    | EPair a b | EIndex a b => calling al d a && calling al d b
    | EMatch e arms => calling al d e && forallb (fun a => calling al d (snd a)) arms
    | EIfLet _ e a b => calling al d e && calling al d a && calling al d b
    end
  end.
Definition calling_fn (al : text -> bool) (d : nat) (f : fn) : bool :=
  forallb (fun s => match s with SLet _ _ e | SExpr e => calling al d e end) (f_lets f) && match f_value f with Some e => calling al d e | None => true end.

(** [rk] numbers the names of functions such that a function of [q] calls only those of smaller
    numbers; [q] implements no [From]. *)
Definition layered (rk : text -> nat) (d : nat) (q : list CodeSpec.item) : Prop :=
  forall i, In i q -> match i with
                      | IImpl _ fns => forall f, In f fns -> calling_fn (fun g => (rk g <? rk (f_name f))%nat) d f = true
                      | IImplFor _ _ _ => False
                      | _ => True
                      end.

(** Items with types of their own that pass the compiler beside those of [p]. *)
Record joins (p q : list CodeSpec.item) : Prop := Joins {
  j_apart : apart p q;
  j_names : NoDup (type_names q);
  j_impls : NoDup (impl_names q);
  j_core : forall n, In n (type_names q) -> ~ In n core_names;
  j_items : Forall (item_ok (p ++ q)) q;
  j_named : plainly_named q }.
