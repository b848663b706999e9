(** What C67 speaks about: programs in the part of Rust of CodeSpec that pass the compiler.
    Lifetimes are left out, and that a value that is moved is not used again; so is inference:
    a program passes if its types can be filled in. *)
From Coq Require Import String.
From Verif Require Import Base StringCompactionModel TextModel DocModel JsonModel GenSpec CodeSpec ApiModel.

Local Notation text := (list Z).
Local Notation "! s" := (txt s%string) (at level 0, s at level 0).

(* ------------------------------------------------------------------ *)
(** * What a program declares *)

(** [Self] is the type an [impl] is for *)
Definition named (n a : text) : text := if eqb_bytes a !"Self" then n else a.
Fixpoint of_ty (n : text) (t : ty) : rt :=
  match t with
  | TyName a => RName (named n a)
  | TyApp a t => RApp a (of_ty n t)
  | TyRef t | TyStatic t => RRef (of_ty n t)
  | TyMut t => RMut (of_ty n t)
  | TyPair a b => RPair (of_ty n a) (of_ty n b)
  | TySlice t => RSlice (of_ty n t)
  end.

Definition type_names (p : list item) : list text :=
  flat_map (fun i => match i with IStruct _ n _ | IEnum _ n _ => [n] | _ => [] end) p.
Definition impl_names (p : list item) : list text := flat_map (fun i => match i with IImpl n _ => [n] | _ => [] end) p.

(** names that mean something already, of types, traits, variants and modules *)
Definition core_names : list text :=
  map txt (map fst core_modules ++ map fst core_generics ++ map fst core_types ++
           ["Self"; "Some"; "None"; "From"; "Send"; "Sync"; "Debug"; "PartialEq"; "Clone"; "Copy"; "RootDefObj"; "MItemConst"; "MItemMut"]%string).

Section Program.
Variable p : list item.

Definition struct_fields (n : text) (fields : list (text * ty)) : Prop := exists derives, In (IStruct derives n fields) p.
Definition enum_variants (n : text) (vs : list (text * option ty)) : Prop := exists repr, In (IEnum repr n vs) p.
(** [f] is a function of [n] *)
Definition fn_of (n : text) (f : fn) : Prop := exists fns, In (IImpl n fns) p /\ In f fns.
(** [n] implements [From<t>] *)
Definition made_from (n : text) (t : rt) : Prop := exists t' fns, In (IImplFor (TyApp !"From" t') n fns) p /\ of_ty n t' = t.

(** [t] implements the trait: by a [derive], or because dochy_core or the standard library says so *)
Inductive implements (trait : text) : rt -> Prop :=
| i_core n l s : In (n, l) core_types -> In s l -> txt s = trait -> implements trait (RName (txt n))
| i_derived n derives fields : In (IStruct derives n fields) p -> In trait derives -> implements trait (RName n)
| i_box t : trait = !"Debug" -> implements trait t -> implements trait (RApp !"Box" t)
| i_ref t : trait = !"Copy" \/ trait = !"Clone" -> implements trait (RRef t).

(** the type is there, and its parameters are what they have to be *)
Inductive type_ok : rt -> Prop :=
| ok_core n l : In (n, l) core_types -> type_ok (RName (txt n))
| ok_declared n : In n (type_names p) -> type_ok (RName n)
| ok_app n t : In (n, None) core_generics -> type_ok t -> type_ok (RApp (txt n) t)
| ok_app_from n s m : In (n, Some s) core_generics -> made_from m (RName (txt s)) -> type_ok (RApp (txt n) (RName m))
| ok_ref t : type_ok t -> type_ok (RRef t)
| ok_mut t : type_ok t -> type_ok (RMut t)
| ok_pair a b : type_ok a -> type_ok b -> type_ok (RPair a b)
| ok_slice t : type_ok t -> type_ok (RSlice t).

(** the parameters of a signature are replaced by what they have to be *)
Definition bounds (s : text -> rt) (vs : list (text * option rt)) : Prop :=
  forall x t, In (x, Some t) vs -> exists n, s x = RName n /\ made_from n t.

(** coercions *)
Inductive fits : rt -> rt -> Prop :=
| fits_same t : fits t t
| fits_str : fits (RRef (RName !"String")) (RRef (RName !"str"))
| fits_ptr t : fits (RMut t) (RPtrMut t)
| fits_ref t : fits (RMut t) (RRef t).

(* ------------------------------------------------------------------ *)
(** * Expressions *)

(** variables: their types, and whether they are mutable *)
Definition ctx : Type := list (text * (rt * bool)).
Fixpoint var_of (x : text) (G : ctx) : option (rt * bool) :=
  match G with [] => None | (y, a) :: r => if eqb_bytes y x then Some a else var_of x r end.

(** [self] in a function of [n] *)
Definition self_of (n : text) (r : receiver) : ctx :=
  match r with
  | NoSelf => []
  | ByValue => [(!"self", (RName n, false))]
  | ByRef => [(!"self", (RRef (RName n), false))]
  | ByMut => [(!"self", (RMut (RName n), false))]
  end.

(** Variables and parts of them: the type, whether one can move it away, and whether one can
    change it. *)
Inductive located (G : ctx) : expr -> rt -> bool -> bool -> Prop :=
| pl_var x t m : var_of x G = Some (t, m) -> eqb_bytes x !"None" = false -> located G (EVar x) t true m
| pl_field e n fields x t o m : located G e (RName n) o m -> struct_fields n fields -> In (x, t) fields -> located G (EField e x) (of_ty n t) o m
| pl_field_ref e n fields x t o m : located G e (RRef (RName n)) o m -> struct_fields n fields -> In (x, t) fields -> located G (EField e x) (of_ty n t) false false
| pl_field_mut e n fields x t o m : located G e (RMut (RName n)) o m -> struct_fields n fields -> In (x, t) fields -> located G (EField e x) (of_ty n t) false true
| pl_box e t o m : located G e (RApp !"Box" t) o m -> located G (EDeref e) t o m.

(** What a pattern binds; a pattern for a type also fits references to it, and binds references
    then. *)
Inductive binds (n : text) : pat -> rt -> ctx -> Prop :=
| b_any t : binds n PAny t []
| b_var x t : binds n (PVar x) t [(x, (t, false))]
| b_text s : binds n (PText s) (RRef (RName !"str")) []
| b_num k : 0 <= k < 2 ^ 64 -> binds n (PNum k) (RName !"usize") []
| b_path e v vs : enum_variants e vs -> In (v, None) vs -> binds n (PPath e v) (RName e) []
| b_path_ref e v vs : enum_variants e vs -> In (v, None) vs -> binds n (PPath e v) (RRef (RName e)) []
| b_tuple e v vs t x : enum_variants e vs -> In (v, Some t) vs -> binds n (PTuple e v x) (RName e) [(x, (of_ty e t, false))]
| b_tuple_ref e v vs t x : enum_variants e vs -> In (v, Some t) vs -> binds n (PTuple e v x) (RRef (RName e)) [(x, (RRef (of_ty e t), false))]
| b_qv v t x : In (v, true) qv_variants -> binds n (PTuple !"Qv" (txt v) x) (RApp !"Qv" t) [(x, (t, false))]
| b_pair a b ta tb ga gb : binds n a ta ga -> binds n b tb gb -> binds n (PPair a b) (RPair ta tb) (ga ++ gb).

(** it fits every value *)
Fixpoint sure (q : pat) : bool := match q with PAny | PVar _ => true | PPair a b => sure a && sure b | _ => false end.

(** the patterns cover the type *)
Definition variant_covered (e : text) (pats : list pat) (v : text * option ty) : Prop :=
  match snd v with None => In (PPath e (fst v)) pats | Some _ => exists x, In (PTuple e (fst v) x) pats end.
Inductive covers (pats : list pat) : rt -> Prop :=
| c_any t : In PAny pats -> covers pats t
| c_enum e vs : enum_variants e vs -> Forall (variant_covered e pats) vs -> covers pats (RName e)
| c_enum_ref e vs : enum_variants e vs -> vs <> [] -> Forall (variant_covered e pats) vs -> covers pats (RRef (RName e)).

(** types that can be printed by [{}], and the number of [{}] in a text (none if there are other
    braces) *)
Inductive shown : rt -> Prop :=
| sh_str : shown (RName !"str") | sh_usize : shown (RName !"usize") | sh_ref t : shown t -> shown (RRef t).
Fixpoint holes (s : text) : option nat :=
  match s with
  | [] => Some 0%nat
  | c :: r => if c =? 123 then match r with c' :: r' => if c' =? 125 then option_map S (holes r') else None | [] => None end
              else if c =? 125 then None else holes r
  end.

(** Functions of [n]; [u]: unsafe functions may be called. *)
Section Function.
Variable n : text.

Inductive has : ctx -> bool -> expr -> rt -> Prop :=
(** a variable or a part of one is moved away or copied *)
| h_move G u e t m : located G e t true m -> has G u e t
| h_copy G u e t o m : located G e t o m -> implements !"Copy" t -> has G u e t
| h_text G u s : has G u (EText s) (RRef (RName !"str"))
| h_num G u k : 0 <= k < 2 ^ 64 -> has G u (ENum k) (RName !"usize")
(** [m::f(..)] *)
| h_module G u m f args g s : module_fn m f = Some g -> g_self g = NoSelf -> bounds s (g_vars g) ->
    given G u args (map (subst s) (g_args g)) -> has G u (ECall (EPath m f) args) (subst s (g_ret g))
(** [N::f(..)], of dochy_core *)
| h_assoc G u a f args self_ g s : type_fn a f = Some (self_, g) -> g_self g = NoSelf -> bounds s (g_vars g) ->
    given G u args (map (subst s) (g_args g)) -> has G u (ECall (EPath a f) args) (subst s (g_ret g))
(** of the program *)
| h_fn G u a f args : fn_of (named n a) f -> f_self f = NoSelf -> (f_unsafe f = true -> u = true) ->
    given G u args (map (fun x => of_ty (named n a) (snd x)) (f_args f)) ->
    forall t, f_ret f = Some t -> has G u (ECall (EPath a (f_name f)) args) (of_ty (named n a) t)
(** [N::from(..)] is that of the trait if there is no other *)
| h_from G u a e t : (forall f, fn_of a f -> f_name f <> !"from") -> made_from a t -> given G u [e] [t] -> has G u (ECall (EPath a !"from") [e]) (RName a)
(** variants *)
| h_variant G u a v vs e t : enum_variants (named n a) vs -> In (v, Some t) vs -> given G u [e] [of_ty (named n a) t] -> has G u (ECall (EPath a v) [e]) (RName (named n a))
| h_qv G u v e t : In (v, true) qv_variants -> given G u [e] [t] -> has G u (ECall (EPath !"Qv" (txt v)) [e]) (RApp !"Qv" t)
| h_unit G u a v vs : enum_variants (named n a) vs -> In (v, None) vs -> has G u (EPath a v) (RName (named n a))
| h_some G u e t : var_of !"Some" G = None -> given G u [e] [t] -> has G u (ECall (EVar !"Some") [e]) (RApp !"Option" t)
| h_none G u t : var_of !"None" G = None -> has G u (EVar !"None") (RApp !"Option" t)
(** methods, of dochy_core and of the program *)
| h_method G u e f args a self_ g s : type_fn a f = Some (self_, g) -> bounds s (g_vars g) -> receives G u (g_self g) e (subst s self_) ->
    given G u args (map (subst s) (g_args g)) -> has G u (EMethod e f args) (subst s (g_ret g))
| h_own G u e args a f : fn_of a f -> (f_unsafe f = true -> u = true) -> receives G u (f_self f) e (RName a) ->
    given G u args (map (fun x => of_ty a (snd x)) (f_args f)) ->
    forall t, f_ret f = Some t -> has G u (EMethod e (f_name f) args) (of_ty a t)
| h_ref G u e t o m : located G e t o m -> has G u (ERef e) (RRef t)
| h_pair G u a b ta tb : has G u a ta -> has G u b tb -> has G u (EPair a b) (RPair ta tb)
| h_struct G u a fields : struct_fields (named n a) fields -> ~ In !"None" (map fst fields) -> given G u (map (fun x => EVar (fst x)) fields) (map (fun x => of_ty (named n a) (snd x)) fields) ->
    has G u (EStruct a (map fst fields)) (RName (named n a))
| h_closure G u mv x e a b : has ((x, (a, false)) :: G) u e b -> has G u (EClosure mv x e) (RFun a b)
| h_match G u e t o m arms t' : located G e t o m -> armed G u t t' arms -> covers (map fst arms) t -> has G u (EMatch e arms) t'
| h_if_let G u q e t g a b t' : has G u e t -> binds n q t g -> has (g ++ G) u a t' -> has G u b t' -> has G u (EIfLet q e a b) t'
| h_unreachable G u t : has G u (EMacro !"unreachable" []) t
| h_panic G u s es ts t : printed G u es ts -> holes s = Some (List.length es) -> has G u (EMacro !"panic" (EText s :: es)) t
| h_unsafe G u e t : has G true e t -> has G u (EUnsafe e) t
| h_index G u e i t : has G u e (RRef (RSlice t)) -> has G u i (RName !"usize") -> implements !"Copy" t -> has G u (EIndex e i) t
| h_array G u es t : given G u es (map (fun _ => t) es) -> has G u (ERef (EArray es)) (RRef (RSlice t))
| h_block G u e t : has G u e t -> has G u (EBlock e) t
(** arguments *)
with given : ctx -> bool -> list expr -> list rt -> Prop :=
| gv_nil G u : given G u [] []
| gv_cons G u e t t' es ts : has G u e t' -> fits t' t -> given G u es ts -> given G u (e :: es) (t :: ts)
(** what a method is called with *)
with receives : ctx -> bool -> receiver -> expr -> rt -> Prop :=
| rc_value G u e t : has G u e t -> receives G u ByValue e t
| rc_ref G u e t : has G u e (RRef t) -> receives G u ByRef e t
| rc_place G u e t o m : located G e t o m -> receives G u ByRef e t
| rc_mut G u e t o : located G e t o true -> receives G u ByMut e t
(** arms of a match *)
with armed : ctx -> bool -> rt -> rt -> list (pat * expr) -> Prop :=
| ar_nil G u t t' : armed G u t t' []
| ar_cons G u t t' q g e arms : binds n q t g -> has (g ++ G) u e t' -> armed G u t t' arms -> armed G u t t' ((q, e) :: arms)
(** what is printed *)
with printed : ctx -> bool -> list expr -> list rt -> Prop :=
| pr_nil G u : printed G u [] []
| pr_cons G u e t es ts : has G u e t -> shown t -> printed G u es ts -> printed G u (e :: es) (t :: ts).

Inductive stmts_ok (u : bool) : ctx -> list stmt -> ctx -> Prop :=
| st_nil G : stmts_ok u G [] G
| st_let G x m e t r G' : has G u e t -> stmts_ok u ((x, (t, m)) :: G) r G' -> stmts_ok u G (SLet m (PVar x) e :: r) G'
| st_let_pat G q e t g r G' : sure q = true -> has G u e t -> binds n q t g -> stmts_ok u (g ++ G) r G' -> stmts_ok u G (SLet false q e :: r) G'
| st_expr G e t r G' : has G u e t -> stmts_ok u G r G' -> stmts_ok u G (SExpr e :: r) G'.

Record fn_ok (f : fn) : Prop := FnOk {
  fo_args : NoDup (map fst (f_args f)) /\ ~ In !"self" (map fst (f_args f));
  fo_types : Forall (fun a => type_ok (of_ty n (snd a))) (f_args f) /\ match f_ret f with Some t => type_ok (of_ty n t) | None => True end;
  fo_body : exists G, stmts_ok (f_unsafe f) (map (fun a => (fst a, (of_ty n (snd a), false))) (f_args f) ++ self_of n (f_self f)) (f_lets f) G /\
    match f_ret f, f_value f with
    | Some t, Some e => given G (f_unsafe f) [e] [of_ty n t]
    | None, None => True
    | _, _ => False
    end }.
End Function.

(* ------------------------------------------------------------------ *)
(** * Items *)

Inductive item_ok : item -> Prop :=
| io_use path : In path [map txt ["dochy"; "core"; "intf"]%string; map txt ["dochy"; "core"; "structs"]%string] -> item_ok (IUse path)
| io_unsafe trait n : In trait [!"Send"; !"Sync"] -> In n (type_names p) -> item_ok (IUnsafeImpl trait n)
(** what is derived, the fields have; [Copy] needs [Clone] *)
| io_struct derives n fields : NoDup (map fst fields) -> Forall (fun f => type_ok (of_ty n (snd f))) fields ->
    (forall d f, In d derives -> In f fields -> implements d (of_ty n (snd f))) -> (In !"Copy" derives -> In !"Clone" derives) ->
    item_ok (IStruct derives n fields)
(** an enum with a representation has variants *)
| io_enum repr n vs : NoDup (map fst vs) -> (repr <> None -> vs <> []) -> (forall v t, In (v, Some t) vs -> type_ok (of_ty n t)) -> item_ok (IEnum repr n vs)
| io_impl n fns : In n (type_names p) -> NoDup (map f_name fns) -> Forall (fn_ok n) fns -> item_ok (IImpl n fns)
(** the trait [From] has one function *)
| io_from t n f x : In n (type_names p) -> fn_ok n f -> f_name f = !"from" -> f_self f = NoSelf -> f_unsafe f = false -> f_args f = [(x, t)] ->
    (exists r, f_ret f = Some r /\ of_ty n r = RName n) -> item_ok (IImplFor (TyApp !"From" t) n [f]).

(** Nothing is declared twice or hides what dochy_core declares, and the items pass. *)
Record program_ok : Prop := ProgramOk {
  po_names : NoDup (type_names p);
  po_impls : NoDup (impl_names p);
  po_core : forall n, In n (type_names p) -> ~ In n core_names;
  po_items : Forall item_ok p }.
End Program.
