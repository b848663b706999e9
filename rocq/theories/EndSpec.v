(** Programs that call nothing that they have been given: what C81 says. *)
From Coq Require Import String.
From Verif Require Import Base StringCompactionModel JsonModel IntfModel CodeSpec.

Local Notation text := (list Z).

(** An expression that is nested at most [d] deep, where the argument of [map] is written in place, as
    in [x.map(|v| ..)].  Closures may stand elsewhere, and their bodies may be anything: nothing but
    [map] runs them.  The arguments of [panic!] are not evaluated in RunSpec and may be anything.
    Generated code has no other closures: dochy_intf/src/imp/structs/mlist_source.rs L45,
    mil_source.rs L47 and ref_source.rs L48-50 write [.map(|p| ..)] and [.map(move |p| ..)]. *)
Fixpoint plain (d : nat) (e : expr) : bool :=
  match d with
  | O => false
  | S d =>
    match e with
    | EVar _ | EText _ | ENum _ | EPath _ _ | EStruct _ _ | EMacro _ _ | EClosure _ _ _ => true
    | ECall _ args | EArray args => forallb (plain d) args
    | EMethod e f args =>
        plain d e && (if eqb_bytes f (txt "map") then match args with [EClosure _ _ b] => plain d b | [] => true | _ => false end else forallb (plain d) args)
    | EField e _ | ERef e | EDeref e | EUnsafe e | EBlock e => plain d e
    | EPair a b | EIndex a b => plain d a && plain d b
    | EMatch e arms => plain d e && forallb (fun a => plain d (snd a)) arms
    | EIfLet _ e a b => plain d e && plain d a && plain d b
    end
  end.

(** A function whose statements and value are such expressions. *)
Definition plain_fn (d : nat) (f : fn) : bool :=
  forallb (fun s => match s with SLet _ _ e | SExpr e => plain d e end) (f_lets f) && match f_value f with Some e => plain d e | None => true end.
