(** What C79 speaks about: values of the types of C67, and evaluation in which only a program that
    is stuck, and not one that runs out of time, ends in an error. *)
From Coq Require Import String.
From Verif Require Import Base StringCompactionModel LinkedModel LinkedSpec DocModel DiffSpec ArchiveModel JsonModel IntfModel GenModel GenSpec CodeSpec ApiModel TypeSpec ReadModel RunModel RunSpec.

Local Notation text := (list Z).
Local Notation "! s" := (txt s%string) (at level 0, s at level 0).

(* ------------------------------------------------------------------ *)
(** * Values of a type *)

Section Program.
Variable p : list CodeSpec.item.

(** The evaluator does not tell references from what they refer to.  A guard of a list does not know
    the type of its items before a function returns it. *)
Inductive of_type : val -> rt -> Prop :=
| ot_ref v t : of_type v t -> of_type v (RRef t)
| ot_mut v t : of_type v t -> of_type v (RMut t)
| ot_ptr v t : of_type v t -> of_type v (RPtr t)
| ot_ptr_mut v t : of_type v t -> of_type v (RPtrMut t)
| ot_usize n : of_type (VNum n) (RName !"usize")
| ot_bool b : of_type (VOf (CBool b)) (RName !"bool")
| ot_int i : of_type (VOf (CInt i)) (RName !"i64")
| ot_float b : of_type (VOf (CFloat b)) (RName !"f64")
| ot_string s : of_type (VOf (CString s)) (RName !"String")
| ot_str s : of_type (VOf (CString s)) (RName !"str")
| ot_ints l : of_type (VOf (CInts l)) (RApp !"Vec" (RName !"i64"))
| ot_floats l : of_type (VOf (CFloats l)) (RApp !"Vec" (RName !"f64"))
| ot_bytes l : of_type (VOf (CBytes l)) (RApp !"Vec" (RName !"u8"))
| ot_root : of_type (VPtr PRoot) (RName !"RootObject")
| ot_root_ptr : of_type (VPtr PRoot) (RName !"RootObjectPtr")
| ot_def : of_type (VPtr PDef) (RName !"RootDefObj")
| ot_mitem l s : l <> [] -> of_type (VPtr (PItem l s)) (RName !"MItemPtr")
| ot_citem s : of_type (VPtr (PItem [] s)) (RName !"CItemPtr")
| ot_table x : of_type (VPtr (PTable x)) (RName !"TablePtr")
| ot_clist c t : of_type (VPtr (PCList c)) (RApp !"CListPtr" t)
| ot_mlist l key items d t : of_type (VPtr (PMList l key items d)) (RApp !"MListPtr" t)
| ot_box v t : of_type v t -> of_type (VBox v) (RApp !"Box" t)
| ot_some v t : of_type v t -> of_type (VMake !"Option" !"Some" [v]) (RApp !"Option" t)
| ot_none t : of_type (VMake !"Option" !"None" []) (RApp !"Option" t)
| ot_val h v t : In h [!"Qv"; !"NullOr"; !"UndefOr"] -> of_type v t -> of_type (VMake h !"Val" [v]) (RApp h t)
| ot_null h t : In h [!"Qv"; !"NullOr"] -> of_type (VMake h !"Null" []) (RApp h t)
| ot_undefined h t : In h [!"Qv"; !"UndefOr"] -> of_type (VMake h !"Undefined" []) (RApp h t)
| ot_guard g i v t : In g [!"CTableConst"; !"CItemConst"] -> of_type v t -> of_type (VGuard g i v) (RApp g t)
| ot_guard_clist i v t : of_type v (RApp !"CListPtr" t) -> of_type (VGuard !"CListConst" i v) (RApp !"CListConst" t)
| ot_guard_mlist g i v t : In g [!"MListConst"; !"MListMut"] -> of_type v (RApp !"MListPtr" t) -> of_type (VGuard g i v) (RApp g t)
| ot_pair a b ta tb : of_type a ta -> of_type b tb -> of_type (VPair a b) (RPair ta tb)
| ot_slice l t : (forall v, In v l -> of_type v t) -> of_type (VList l) (RSlice t)
| ot_struct n fields fs : struct_fields p n fields -> (forall x t, In (x, t) fields -> exists v, hget x fs = Some v /\ of_type v (of_ty n t)) -> of_type (VStruct n fs) (RName n)
| ot_unit n vs c : enum_variants p n vs -> In (c, None) vs -> of_type (VMake n c []) (RName n)
| ot_variant n vs c t v : enum_variants p n vs -> In (c, Some t) vs -> of_type v (of_ty n t) -> of_type (VMake n c [v]) (RName n)
(** a closure with the variables it was made with *)
| ot_closure n x e G C u a b : (forall y t m, var_of y C = Some (t, m) -> exists v, hget y G = Some v /\ of_type v t) ->
    has p n ((x, (a, false)) :: C) u e b -> of_type (VClosure n x e G) (RFun a b).

(** variables *)
Definition env_of (G : env) (C : ctx) : Prop := forall y t m, var_of y C = Some (t, m) -> exists v, hget y G = Some v /\ of_type v t.

(** What is written to the document has the type that is said. *)
Definition effect_ok (e : effect) : Prop :=
  match e with
  | ESet _ t _ q => of_type q (RApp !"Qv" (of_ty [] (param_ty t)))
  | ESetRef l _ q => l <> [] /\ of_type q (RApp !"Qv" (RName !"String"))
  | ESetEnum l _ _ => l <> []
  | _ => True
  end.

(* ------------------------------------------------------------------ *)
(** * Evaluation *)

Section Run.
Variable iter : forall A, hmap A -> hmap A.
Variable r : root_obj.
Variable told : effect -> bool.
(** what a program that runs out of time ends in; [eval] of RunSpec is the case [Err] *)
Variable out : res (val * trace).
Fixpoint timed (k : nat) : text -> env -> expr -> M val :=
  match k with O => fun _ _ _ _ => out | S k => eval_step p iter r told (timed k) end.
End Run.

(** The computation gives what is said, or panics; it is not stuck, unless [out] is an error, and what
    it wrote has the right types. *)
Definition sound {A} (out : res (val * trace)) (m : M A) (P : A -> Prop) : Prop :=
  forall w, match m w with
            | Ok (a, w') => P a /\ exists es, w' = w ++ es /\ Forall effect_ok es
            | Err => out = Err
            | Panic => True
            end.

(** A function of the type [n] is called with [self] and arguments of its types, and returns a value
    of its type. *)
Definition self_typed (n : text) (rc : receiver) (self : option val) : Prop :=
  match rc with NoSelf => self = None | _ => exists v, self = Some v /\ of_type v (RName n) end.
Definition args_typed (n : text) (f : fn) (args : list val) : Prop := Forall2 of_type args (map (fun x => of_ty n (snd x)) (f_args f)).
Definition returned (n : text) (f : fn) (v : val) : Prop := match f_ret f with Some t => of_type v (of_ty n t) | None => v = VUnit end.

(* ------------------------------------------------------------------ *)
(** * Programs *)

(** The evaluator looks for functions by name: a type implements [From] once at most, and its
    functions are not called like its variants. *)
Definition from_names : list text := flat_map (fun i => match i with IImplFor _ n _ => [n] | _ => [] end) p.
Record plainly_named : Prop := PlainlyNamed {
  pn_from : NoDup from_names;
  pn_variants : forall n vs f, enum_variants p n vs -> In f (own_fns p n ++ trait_fns p n) -> ~ In (f_name f) (map fst vs) }.
End Program.
