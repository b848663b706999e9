(** What C78 speaks about: programs that use generated accessors without calling any function that
    takes [&mut self], and a part of the safe programs one can write around a shared reference to
    the root. *)
From Coq Require Import String.
From Verif Require Import Base StringCompactionModel LinkedModel LinkedSpec DocModel DiffSpec ArchiveModel JsonModel IntfModel GenModel GenSpec CodeSpec ApiModel TypeSpec ReadModel RunModel RunSpec.

Local Notation text := (list Z).
Local Notation "! s" := (txt s%string) (at level 0, s at level 0).
Local Notation "'var' s" := (EVar (txt s%string)) (at level 0, s at level 0).

(* ------------------------------------------------------------------ *)
(** * Without [&mut self] *)

(** the program, whose functions that take [&mut self] do nothing one can wait for *)
Definition shut_fn (f : fn) : fn :=
  match f_self f with
  | ByMut => Fn (f_pub f) (f_unsafe f) (f_name f) (f_self f) (f_args f) (f_ret f) [] (Some (EField (ENum 0) []))
  | _ => f
  end.
Definition shut_item (i : CodeSpec.item) : CodeSpec.item :=
  match i with
  | IImpl n fns => IImpl n (map shut_fn fns)
  | IImplFor t n fns => IImplFor t n (map shut_fn fns)
  | _ => i
  end.
Definition shared (p : list CodeSpec.item) : list CodeSpec.item := map shut_item p.

(** The functions of dochy_core that change a document, or that give what can change one: intf/root.rs
    L195-240, L259-281 and L346-364, intf/mitem.rs L43-67, L260-325, L375-379 and L399-403,
    intf/mlist_mut.rs L15-19. *)
Definition begins (s f : text) : bool := eqb_bytes (firstn (List.length s) f) s.
Definition changing (m f : text) : bool :=
  (one_of [!"root"; !"mitem"] m && (begins !"set_" f || begins !"get_mutable_" f || one_of [!"get_mlist_mut"; !"get_mil_mut"] f)) ||
  (eqb_bytes m !"MListMut" && eqb_bytes f !"new").

(** the text of an expression does not call them; [Self] is [n] *)
Fixpoint quiet (n : text) (e : expr) : bool :=
  match e with
  | EVar _ | EText _ | ENum _ | EPath _ _ | EStruct _ _ => true
  | ECall f args => match f with EPath a c => negb (changing (named n a) c) | _ => true end && quiet n f && forallb (quiet n) args
  | EMethod e _ args => quiet n e && forallb (quiet n) args
  | EField e _ | ERef e | EDeref e | EUnsafe e | EBlock e | EClosure _ _ e => quiet n e
  | EPair a b | EIndex a b => quiet n a && quiet n b
  | EMatch e arms => quiet n e && forallb (fun a => quiet n (snd a)) arms
  | EIfLet _ e a b => quiet n e && quiet n a && quiet n b
  | EMacro _ es | EArray es => forallb (quiet n) es
  end.

(** There is no [MListMut] in a value, and the closures in it do not call them. *)
Inductive still : val -> Prop :=
| still_unit : still VUnit
| still_num n : still (VNum n)
| still_of c : still (VOf c)
| still_pair a b : still a -> still b -> still (VPair a b)
| still_list l : Forall still l -> still (VList l)
| still_make n v l : Forall still l -> still (VMake n v l)
| still_struct n fs : Forall (fun f => still (snd f)) fs -> still (VStruct n fs)
| still_guard g i v : g <> !"MListMut" -> still v -> still (VGuard g i v)
| still_ptr q : still (VPtr q)
| still_closure n x e G : quiet n e = true -> Forall (fun f => still (snd f)) G -> still (VClosure n x e G)
| still_box v : still v -> still (VBox v).
Definition still_env (G : env) : Prop := Forall (fun f => still (snd f)) G.

(** types of references one can write to, and of lists one can change *)
Fixpoint gives_mut (t : ty) : bool :=
  match t with
  | TyMut _ => true
  | TyName _ => false
  | TyApp n t => eqb_bytes n !"MListMut" || eqb_bytes n !"MItemMut" || gives_mut t
  | TyRef t | TyStatic t | TySlice t => gives_mut t
  | TyPair a b => gives_mut a || gives_mut b
  end.

(* ------------------------------------------------------------------ *)
(** * Safe programs *)

(** A part of what passes the compiler outside of the generated text, without [unsafe]:  [G] has the
    types of the variables, none of which can be changed. *)
Section Safe.
Variable p : list CodeSpec.item.

(** what methods are found on: the type itself, references to it, and guards, which implement
    [Deref] (dochy_core intf/mlist_const.rs L83-89, intf/clist_const.rs L44-50) *)
Inductive seen_as : rt -> text -> Prop :=
| seen_name n : seen_as (RName n) n
| seen_ref n : seen_as (RRef (RName n)) n
| seen_guard g n : In g [!"CItemConst"; !"MItemConst"; !"CTableConst"] -> seen_as (RApp g (RName n)) n.

Inductive passes : list (text * rt) -> expr -> rt -> Prop :=
| pa_var G x t : hget x G = Some t -> passes G (EVar x) t
| pa_num G k : 0 <= k < 2 ^ 64 -> passes G (ENum k) (RName !"u64")
| pa_some G e t : passes G e t -> passes G (some_of e) (RApp !"Option" t)
| pa_none G t : passes G var"None" (RApp !"Option" t)
| pa_if_some G x e t a t' : passes G e (RApp !"Option" t) -> passes ((x, t) :: G) a (RApp !"Option" t') -> passes G (if_some x e a) (RApp !"Option" t')
(** an accessor that takes [&self] *)
| pa_read G e t n f t' : passes G e t -> seen_as t n -> fn_of p n f -> f_self f = ByRef -> f_unsafe f = false -> f_args f = [] -> f_ret f = Some t' ->
    passes G (EMethod e (f_name f) []) (of_ty n t')
(** intf/mlist_const.rs L34-37 *)
| pa_get G e n k : passes G e (RApp !"MListConst" (RName n)) -> passes G k (RName !"u64") ->
    passes G (EMethod e !"get_item" [k]) (RApp !"Option" (RApp !"MItemConst" (RName n)))
(** [{*e}] of a guard whose [Target] is [Copy]: the value is copied *)
| pa_copy G e n : passes G e (RApp !"MItemConst" (RName n)) -> implements p !"Copy" (RName n) -> passes G (EBlock (EDeref e)) (RName n)
(** A value that is in no variable can be changed. *)
| pa_temporary G e n f x t a : passes G (EBlock e) (RName n) -> fn_of p n f -> f_self f = ByMut -> f_unsafe f = false -> f_args f = [(x, t)] -> f_ret f = None ->
    passes G a (of_ty n t) -> passes G (EMethod (EBlock e) (f_name f) [a]) (RName !"()").
End Safe.
