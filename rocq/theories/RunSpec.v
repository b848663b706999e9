(** What C68 speaks about: how a program in the part of Rust of CodeSpec is evaluated, and the
    programs that read and change a document with the generated functions. *)
From Coq Require Import String.
From Verif Require Import Base StringCompactionModel LinkedModel LinkedSpec DocModel DiffSpec ArchiveModel JsonModel IntfModel GenModel GenSpec CodeSpec ApiModel TypeSpec ReadModel RunModel.

Local Notation text := (list Z).
Local Notation "! s" := (txt s%string) (at level 0, s at level 0).

(* ------------------------------------------------------------------ *)
(** * Computations: they record calls that change the document, and may panic.  [Err] stands
    for what no program that passes the compiler (C67) does (C79), and for a computation that was
    given too little time. *)

Definition M (A : Type) : Type := trace -> res (A * trace).
Definition ret {A} (a : A) : M A := fun w => Ok (a, w).
Definition stuck {A} : M A := fun _ => Err.
Definition panic {A} : M A := fun _ => Panic.
Definition seq {A B} (m : M A) (f : A -> M B) : M B := fun w => match m w with Ok (a, w) => f a w | Err => Err | Panic => Panic end.
Local Notation "x <~ e ; k" := (seq e (fun x => k)) (at level 60, e at next level, right associativity).

Definition env : Type := list (text * val).
Definition here {A} (o : option A) : M A := match o with Some a => ret a | None => stuck end.

(** what a pattern binds, if it fits *)
Fixpoint bound (n : text) (p : pat) (v : val) : option env :=
  match p, v with
  | PVar x, _ => Some [(x, v)]
  | PAny, _ => Some []
  | PText s, VText s' => if eqb_bytes s s' then Some [] else None
  | PNum k, VNum k' => if k =? k' then Some [] else None
  | PPath a c, VMake a' c' [] => if eqb_bytes (named n a) a' && eqb_bytes c c' then Some [] else None
  | PTuple a c x, VMake a' c' [v] => if eqb_bytes (named n a) a' && eqb_bytes c c' then Some [(x, v)] else None
  | PPair p q, VPair a b => match bound n p a, bound n q b with Some G, Some H => Some (G ++ H) | _, _ => None end
  | _, _ => None
  end.
(** the first arm that fits *)
Fixpoint arm_for (n : text) (v : val) (arms : list (pat * expr)) : option (env * expr) :=
  match arms with [] => None | (p, e) :: arms => match bound n p v with Some G => Some (G, e) | None => arm_for n v arms end end.

(** The type of the items of a list is inferred from the type the function returns. *)
Fixpoint stamp (t : ty) (v : val) : val :=
  match t, v with
  | TyApp _ (TyName n), VGuard g _ v => VGuard g (Some n) v
  | TyApp _ t, VMake a c [v] => VMake a c [stamp t v]
  | _, _ => v
  end.

(** the types of dochy_core that only hold a value so that nothing is changed meanwhile *)
Definition guards : list text := map txt ["CTableConst"; "CListConst"; "CItemConst"; "MListConst"; "MItemConst"; "MListMut"; "MItemMut"]%string.
(** and those a value may be missing in *)
Definition holders : list text := map txt ["Option"; "Qv"; "NullOr"; "UndefOr"]%string.
Definition one_of (l : list text) (a : text) : bool := existsb (eqb_bytes a) l.

Section Run.
Variable p : list CodeSpec.item.
Variable iter : forall A, hmap A -> hmap A.
Variable r : root_obj.
Variable told : effect -> bool.

Definition own_fns (n : text) : list fn := flat_map (fun i => match i with IImpl m fns => if eqb_bytes m n then fns else [] | _ => [] end) p.
(** those of [From] *)
Definition trait_fns (n : text) : list fn := flat_map (fun i => match i with IImplFor _ m fns => if eqb_bytes m n then fns else [] | _ => [] end) p.
Definition fn_named (f : text) (fns : list fn) : option fn := find (fun g => eqb_bytes (f_name g) f) fns.
Definition is_variant (n v : text) : bool :=
  existsb (fun i => match i with IEnum _ m vs => eqb_bytes m n && existsb (fun x => eqb_bytes (fst x) v) vs | _ => false end) p.

(** What needs no evaluation of generated text.  Option: the standard library; structs/qv.rs
    L39-45, L55-60, L62; structs/null_or.rs L47-83 and L102-138. *)
Definition from_qv (a : text) (v : val) : M val :=
  match v with
  | VMake _ c args =>
      if eqb_bytes c !"Val" || eqb_bytes c (if eqb_bytes a !"NullOr" then !"Null" else !"Undefined") then ret (some (VMake a c args)) else ret none
  | _ => stuck
  end.
Definition holder_fn (apply : val -> val -> M val) (a c : text) (xs : list val) (f : text) (vs : list val) : M val :=
  if eqb_bytes f !"unwrap" then (match xs with [x] => ret x | _ => panic end)
  else if eqb_bytes f !"map" then
    match xs, vs with
    | [], [_] => ret (VMake a c [])
    | [x], [g] => y <~ apply g x ; ret (VMake a c [y])
    | _, _ => stuck
    end
  else if eqb_bytes f !"into_value" then ret (match xs with [x] => some x | _ => none end)
  else if eqb_bytes f !"into_qv" then ret (VMake !"Qv" c xs)
  else stuck.

Section Step.
(** evaluation in less time: the type [Self], the variables, an expression *)
Variable ev : text -> env -> expr -> M val.

Fixpoint lets (n : text) (G : env) (ss : list stmt) : M env :=
  match ss with
  | [] => ret G
  | SLet _ q e :: ss => v <~ ev n G e ; (match bound n q v with Some H => lets n (H ++ G) ss | None => stuck end)
  | SExpr e :: ss => _ <~ ev n G e ; lets n G ss
  end.
(** calling a function of the type [n], with [self] or without *)
Definition enter (n : text) (g : fn) (self : option val) (args : list val) : M val :=
  G <~ lets n (match self with Some v => [(!"self", v)] | None => [] end ++ combine (map fst (f_args g)) args) (f_lets g) ;
  match f_value g with
  | Some e => v <~ ev n G e ; ret (match f_ret g with Some t => stamp t v | None => v end)
  | None => ret VUnit
  end.

Definition apply (g x : val) : M val := match g with VClosure n y e G => ev n ((y, x) :: G) e | _ => stuck end.

(** [V::from] where only [V : From<..>] is known *)
Definition converted (g : text) (n : text) (q : ptr) : M val :=
  match fn_named !"from" (trait_fns n) with Some f => v <~ enter n f None [VPtr q] ; ret (VGuard g (Some n) v) | None => stuck end.

(** A method that changes the list: mlist_mut.rs L51-92.  [insert] and [insert_first] give the
    new item, which has nothing in it. *)
Definition change_fn (n : text) (l : loc) (key : name) (items : list (Z * citem)) (d : def) (o : list_op) : M val :=
  let state := (items, next_at r l key) in
  match o with
  | LInsertFirst | LInsertLast =>
      if room state
      then _ <~ (fun w => Ok (tt, w ++ [EList l key o])) ; converted !"MItemMut" n (PItem (l ++ [(key, snd state)]) (CItem [] [], d))
      else panic
  | _ => fun w => Ok (VBool (list_answer state o), w ++ [EList l key o])
  end.

(** The methods of the guards themselves; the others are those of what they hold.
    dochy_core intf/mlist_const.rs L22-52, mlist_mut.rs L21-52, clist_const.rs L20-25. *)
Definition guard_fn (g : text) (item : option text) (x : val) (f : text) (vs : list val) : option (M val) :=
  match item, x with
  | Some n, VPtr (PMList l key items d) =>
      let give h (e : Z * spot) := v <~ converted h n (PItem (l ++ [(key, fst e)]) (snd e)) ; ret (some v) in
      let get h id := match mlist_item items d id with Some s => give h (id, s) | None => ret none end in
      let spot_of (e : Z * citem) := (fst e, (snd e, d)) in
      let end_of h (o : option (Z * citem)) := match o with Some e => give h (spot_of e) | None => ret none end in
      let const := eqb_bytes g !"MListConst" in let mutable := eqb_bytes g !"MListMut" in
      match (if mutable then list_op_of f vs else None) with
      | Some o => Some (change_fn n l key items d o)
      | None =>
          match vs with
          | [VNum id] =>
              if const && eqb_bytes f !"get_item" then Some (get !"MItemConst" id)
              else if mutable && eqb_bytes f !"get_mut" then Some (get !"MItemMut" id)
              else if eqb_bytes f !"contains_key" then Some (ret (VBool (is_some (lookup id items))))
              else None
          | [] =>
              if eqb_bytes f !"len" then Some (ret (VNum (zlen items)))
              else if eqb_bytes f !"is_empty" then Some (ret (VBool (zlen items =? 0)))
              else if eqb_bytes f !"next_id" then Some (ret (VNum (next_at r l key)))
              else if eqb_bytes f !"first_id" then Some (ret (of_opt (fun e => VNum (fst e)) (hd_error items)))
              else if eqb_bytes f !"last_id" then Some (ret (of_opt (fun e => VNum (fst e)) (hd_error (rev items))))
              else if const && eqb_bytes f !"first" then Some (end_of !"MItemConst" (hd_error items))
              else if const && eqb_bytes f !"last" then Some (end_of !"MItemConst" (hd_error (rev items)))
              else if mutable && eqb_bytes f !"first_mut" then Some (end_of !"MItemMut" (hd_error items))
              else if mutable && eqb_bytes f !"last_mut" then Some (end_of !"MItemMut" (hd_error (rev items)))
              else None
          | _ => None
          end
      end
  | Some n, VPtr (PCList c) =>
      match vs with
      | [VNum i] =>
          if eqb_bytes g !"CListConst" && eqb_bytes f !"value" then
            Some (fun w => match clist_value c (Z.to_nat i) with Ok s => converted !"CItemConst" n (PItem [] s) w | Err => Err | Panic => Panic end)
          else None
      | [] => if eqb_bytes f !"len" then Some (ret (VNum (zlen (fst c)))) else None
      | _ => None
      end
  | _, _ => None
  end.

(** [n::f(vs)] *)
Definition assoc (n f : text) (vs : list val) : M val :=
  match core_fn n f with
  | Some g => core_do iter r told g vs
  | None =>
      if one_of guards n then (match vs with [v; _] => if eqb_bytes f !"new" then ret (VGuard n None v) else stuck | _ => stuck end)
      else if one_of holders n then (if eqb_bytes f !"from_qv" then match vs with [v] => from_qv n v | _ => stuck end else ret (VMake n f vs))
      else if eqb_bytes n !"Box" then (match vs with [v] => ret (VBox v) | _ => stuck end)
      else if eqb_bytes n !"RootObjectPtr" then (match vs with [v] => ret v | _ => stuck end)
      else match fn_named f (own_fns n ++ trait_fns n) with
           | Some g => enter n g None vs
           | None => if is_variant n f then ret (VMake n f vs) else stuck
           end
  end.

Definition own_method (n : text) (v : val) (f : text) (vs : list val) : M val :=
  match fn_named f (own_fns n) with Some g => enter n g (Some v) vs | None => stuck end.
(** [v.f(vs)] *)
Fixpoint method_of (v : val) (f : text) (vs : list val) : M val :=
  match v with
  | VGuard g item x => match guard_fn g item x f vs with Some m => m | None => method_of x f vs end
  | VMake a c xs => if one_of holders a then holder_fn apply a c xs f vs else own_method a v f vs
  | VStruct a _ => own_method a v f vs
  | VText _ => if eqb_bytes f !"to_string" then ret v else stuck
  | VPtr q => if eqb_bytes f !"def" then (match q with PRoot => ret (VPtr PDef) | _ => stuck end) else stuck
  | VBox v => if eqb_bytes f !"as_ref" || eqb_bytes f !"as_mut" then ret v else stuck
  | _ => stuck
  end.

Fixpoint each (n : text) (G : env) (es : list expr) : M (list val) :=
  match es with [] => ret [] | e :: es => v <~ ev n G e ; vs <~ each n G es ; ret (v :: vs) end.
Fixpoint fields_of (G : env) (xs : list text) : option (list (text * val)) :=
  match xs with
  | [] => Some []
  | x :: xs => match hget x G, fields_of G xs with Some v, Some fs => Some ((x, v) :: fs) | _, _ => None end
  end.

(** one step *)
Definition eval_step (n : text) (G : env) (e : expr) : M val :=
  match e with
  | EVar x => if eqb_bytes x !"None" then ret none else here (hget x G)
  | EText s => ret (VText s)
  | ENum k => ret (VNum k)
  | EPath a c => if is_variant (named n a) c then ret (VMake (named n a) c []) else stuck
  | ECall (EVar c) args => if eqb_bytes c !"Some" then vs <~ each n G args ; ret (VMake !"Option" c vs) else stuck
  | ECall (EPath a f) args => vs <~ each n G args ; assoc (named n a) f vs
  | ECall _ _ => stuck
  | EMethod e f args => v <~ ev n G e ; vs <~ each n G args ; method_of v f vs
  | EField e x => v <~ ev n G e ; match v with VStruct _ fs => here (hget x fs) | _ => stuck end
  | ERef e | EUnsafe e | EBlock e => ev n G e
  | EDeref e => v <~ ev n G e ; ret (match v with VBox v => v | _ => v end)
  | EPair a b => v <~ ev n G a ; u <~ ev n G b ; ret (VPair v u)
  | EStruct a xs => fs <~ here (fields_of G xs) ; ret (VStruct (named n a) fs)
  | EClosure _ x e => ret (VClosure n x e G)
  | EMatch e arms => v <~ ev n G e ; match arm_for n v arms with Some (H, e) => ev n (H ++ G) e | None => stuck end
  | EIfLet q e a b => v <~ ev n G e ; match bound n q v with Some H => ev n (H ++ G) a | None => ev n G b end
  | EMacro _ _ => panic
  | EIndex a i => v <~ ev n G a ; k <~ ev n G i ;
      match v, k with VList l, VNum k => match zget l k with Some x => ret x | None => panic end | _, _ => stuck end
  | EArray es => vs <~ each n G es ; ret (VList vs)
  end.
End Step.

Fixpoint eval (k : nat) : text -> env -> expr -> M val :=
  match k with O => fun _ _ _ => stuck | S k => eval_step (eval k) end.

(** Evaluating [e] with the variables [G] outside of any [impl], given enough time, gives [R]. *)
Definition evals (G : env) (e : expr) (w : trace) (R : res (val * trace)) : Prop :=
  exists k0, forall k, (k0 <= k)%nat -> eval k [] G e w = R.
End Run.

(* ------------------------------------------------------------------ *)
(** * Programs that read *)

(** the object of the generated type [RootIntf] that [RootIntf::new] makes *)
Definition root_value : val := VStruct !"RootIntf" [(!"root", VBox (VPtr PRoot)); (!"ptr", VPtr PRoot)].
(** an item, of a generated type *)
Definition item_value (n : text) (l : loc) (s : spot) : val := VStruct n [(!"ptr", VPtr (PItem l s))].
(** what guards hold *)
Fixpoint bare (v : val) : val := match v with VGuard _ _ v => bare v | _ => v end.

Local Notation "'var' s" := (EVar (txt s%string)) (at level 0, s at level 0).
Definition some_of (e : expr) : expr := ECall var"Some" [e].
(** [if let Option::Some(x) = e { a } else { None }] *)
Definition if_some (x : text) (e a : expr) : expr := EIfLet (PTuple !"Option" !"Some" x) e a var"None".
Definition do (e : expr) (f : text) (args : list expr) : expr := EMethod e f args.

(** the value, if there is one *)
Definition if_val (vt : var_type) (e : expr) : expr :=
  match vt with
  | Normal => some_of e
  | Nullable => EIfLet (PTuple !"NullOr" !"Val" !"y") e (some_of var"y") var"None"
  | Undefiable => EIfLet (PTuple !"UndefOr" !"Val" !"y") e (some_of var"y") var"None"
  | UndefNullable => EIfLet (PTuple !"Qv" !"Val" !"y") e (some_of var"y") var"None"
  end.
(** an item of a list; only lists that can be undefined are [Option]s *)
Definition item_in (undefiable : bool) (e : expr) (id : Z) : expr :=
  if undefiable then if_some !"l" e (do var"l" !"get_item" [ENum id]) else do e !"get_item" [ENum id].

(** the type of the items of a list or table *)
Definition item_type (constant : bool) (stem : name) : text := if constant then citem_type stem else mitem_type stem.

(** The expressions that go the ways of ReadModel with the generated functions: where they
    arrive the items are constant or not, their list is called [stem], and its definition is
    [l].  They give [Some(item)] or [None]. *)
Inductive goes (old : list name) (root : hmap (Z * rootvalue)) : way -> bool -> name -> ldef def -> expr -> Prop :=
| goes_row t i l rows o row it : In (t, (i, WTable (Def l) rows o)) root -> In (row, it) rows ->
    goes old root (Row t row) true t l (some_of (do (do var"root" (with_old t (contains old t)) []) (with_old row (contains o row)) []))
| goes_elem t i l items k : In (t, (i, WCList (Def l) items)) root ->
    goes old root (Elem t k) true t l (some_of (do (do var"root" (with_old t (contains old t)) []) !"value" [ENum (Z.of_nat k)]))
| goes_entry t i l u id : In (t, (i, WMList (Def l) u)) root ->
    goes old root (Entry t id) false t l (item_in u (do var"root" (with_old t (contains old t)) []) id)
| goes_cil w stem l e key i l' k : goes old root w true stem l e -> In (key, (i, DCil (Def l'))) (ld_members l) ->
    goes old root (Cil w key k) true key l' (if_some !"x" e (some_of (do (do var"x" (with_old key (contains (ld_old l) key)) []) !"value" [ENum (Z.of_nat k)])))
| goes_mil w stem l e key i l' u id : goes old root w false stem l e -> In (key, (i, DMil (Def l') u)) (ld_members l) ->
    goes old root (Mil w key id) false key l' (if_some !"x" e (item_in u (do var"x" (with_old key (contains (ld_old l) key)) []) id))
| goes_ref w c stem l e key i q vt j l' rows o : goes old root w c stem l e -> ld_enum l = false -> In (key, (i, (q, vt))) (ld_refs l) ->
    In (key, (j, WTable (Def l') rows o)) root ->
    goes old root (Ref w key) true key l' (if_some !"x" e (if_val vt (do var"x" (!"ref_" ++ with_old key (contains (ld_ref_old l) key)) [])))
| goes_enum w c stem l e key v j l' rows o : goes old root w c stem l e -> ld_enum l = true -> In (key, v) (ld_refs l) ->
    In (key, (j, WTable (Def l') rows o)) root ->
    goes old root (Enum w key) true key l'
      (if_some !"x" e (EIfLet (PTuple (enum_type stem) (to_type_name key) !"y") (do var"x" !"get_enum" []) (some_of var"y") var"None")).

(** the guards around them *)
Definition handed (w : way) (n : text) (v : val) : val :=
  match w with
  | Row _ _ | Elem _ _ | Cil _ _ _ => VGuard !"CItemConst" (Some n) v
  | Entry _ _ | Mil _ _ _ => VGuard !"MItemConst" (Some n) v
  | Ref _ _ | Enum _ _ => v
  end.
(** where items of mutable lists are *)
Fixpoint loc_at (w : way) : loc :=
  match w with Entry t id => [(t, id)] | Mil w key id => loc_at w ++ [(key, id)] | _ => [] end.

(** [if let Option::Some(x) = e { Option::Some(x.f()) } else { None }] *)
Definition asks (e : expr) (f : text) : expr := if_some !"x" e (some_of (do var"x" f [])).

(** what functions return, as the marks say *)
Definition as_marked {A} (f : A -> val) (vt : var_type) (q : qv A) : val :=
  match vt, q with
  | Normal, Val a => f a
  | Nullable, Val a => VMake !"NullOr" !"Val" [f a]
  | Nullable, _ => VMake !"NullOr" !"Null" []
  | Undefiable, Val a => VMake !"UndefOr" !"Val" [f a]
  | Undefiable, _ => VMake !"UndefOr" !"Undefined" []
  | _, q => of_qv f q
  end.
(** the outcome of a function that changes nothing *)
Definition gives {A} (f : A -> val) (w : trace) (x : res A) : res (val * trace) :=
  match x with Ok a => Ok (f a, w) | Err => Err | Panic => Panic end.

(* ------------------------------------------------------------------ *)
(** * Programs that write *)

(** [root.t_mut().get_mut(id).unwrap().s_mut().get_mut(id').unwrap()] and so on *)
Inductive seizes (old : list name) (root : hmap (Z * rootvalue)) : loc -> name -> ldef def -> expr -> Prop :=
| seizes_root t i l u id : In (t, (i, WMList (Def l) u)) root ->
    seizes old root [(t, id)] t l (do (do (do var"root" (with_old t (contains old t) ++ !"_mut") []) !"get_mut" [ENum id]) !"unwrap" [])
| seizes_item a stem l e key i l' u id : seizes old root a stem l e -> In (key, (i, DMil (Def l') u)) (ld_members l) ->
    seizes old root (a ++ [(key, id)]) key l' (do (do (do e (with_old key (contains (ld_old l) key) ++ !"_mut") []) !"get_mut" [ENum id]) !"unwrap" []).

(** The steps of IntfModel that the recorded calls are. *)
Fixpoint step_below (id : Z) (a : loc) (o : list_op + item_op) : IntfModel.step :=
  match a, o with
  | [], inr o => OnItem id o
  | [], inl o => OnList o
  | (key, id') :: a, o => Into id key (step_below id' a o)
  end.
Definition step_at (a : loc) (here : root_step) (o : item_op) : root_step :=
  match a with [] => here | (key, id) :: a => OInto key (step_below id a (inr o)) end.
(** a call with the list [key] of the root ([a] empty) or of the item at [a] *)
Fixpoint list_below (id : Z) (a : loc) (key : name) (o : list_op) : IntfModel.step :=
  match a with [] => Into id key (OnList o) | (k, id') :: a => Into id k (list_below id' a key o) end.
Definition list_step (a : loc) (key : name) (o : list_op) : root_step :=
  match a with [] => OInto key (OnList o) | (k, id) :: a => OInto k (list_below id a key o) end.
Inductive performs : effect -> root_step -> Prop :=
| performs_set a t key p : type_of p = t -> performs (ESet a t key (of_qv VOf (contents p))) (step_at a (OSet key p) (ISet key p))
| performs_open a key : performs (EOpen a key) (step_at a (OOpen key) (IOpen key))
| performs_ref a key q : a <> [] -> performs (ESetRef a key (of_qv (fun s => VText s) q)) (step_at a (OOpen key) (IRef key q))
| performs_enum a key id : a <> [] -> performs (ESetEnum a key id) (step_at a (OOpen key) (IntfModel.IEnum key id))
| performs_list a key o : performs (EList a key o) (list_step a key o).

(** the lists on the way to an item are opened *)
Fixpoint opens_from (a : loc) (b : loc) : trace :=
  match b with [] => [] | (key, id) :: b => EOpen a key :: opens_from (a ++ [(key, id)]) b end.
Definition opens (a : loc) : trace := opens_from [] a.

(** The accessors [p] of a document, in a program that has them in the variable [root]. *)
Definition accessible (old : list name) (r : root_obj) (p : list CodeSpec.item) : Prop := tame (ro_default r) /\ declared (generate old (ro_default r)) p.
Definition has_root (G : env) : Prop := hget !"root" G = Some root_value.
(** an expression that gives a value, whatever was done before, and changes nothing *)
Definition plainly (p : list CodeSpec.item) iter r told (G : env) (e : expr) (v : val) : Prop := forall tr, evals p iter r told G e tr (Ok (v, tr)).
(** the outcome of asking the item at a place for something, if there is one *)
Definition if_there {A} (o : res (option spot)) (f : spot -> res A) : res (option A) :=
  match o with Ok (Some s) => match f s with Ok a => Ok (Some a) | Err => Err | Panic => Panic end | Ok None => Ok None | Err => Err | Panic => Panic end.
(** a program that changes something in an item: it panics if there is none *)
Definition changed (r : root_obj) (a : loc) (e : trace) (tr : trace) : res (val * trace) :=
  match item_at r a with Some _ => Ok (VUnit, tr ++ opens a ++ e) | None => Panic end.
(** the id of a row as the generated text writes it *)
Definition id_text (t : name) (o : list name) (row : name) : expr := EPath (ids_type t) (variant_name row (contains o row)).
(** and as a value *)
Definition id_value (t : name) (o : list name) (row : name) : val := VMake (ids_type t) (variant_name row (contains o row)) [].
