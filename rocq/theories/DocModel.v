(** Model of documents: parameters, list items, mutable lists, definitions and
    meta tables.  Citations are relative to /repo/dochy_core/src/imp/structs.

    Lists nest inside list items.  A type for each nesting depth stands for the
    recursive Rust types: [mlistT n] are the mutable lists nested at most [n]
    deep, [defT n] their definitions, [metaT n] their meta tables.  The types
    for one depth are written with the next inner depth as a parameter. *)
From Verif Require Import Base FloatModel StringCompactionModel LinkedModel LinkedSpec.

(** member names: UTF-8 text *)
Definition name : Type := list Z.

(* ------------------------------------------------------------------ *)
(** * Hash maps *)

(** util/hash_m.rs L5: HashM.  An association list; its order stands for the
    iteration order, so a statement about every list covers every iteration
    order.  Keys are unique ([NoDup] in the specification). *)
Definition hmap (A : Type) : Type := list (name * A).

(** [HashMap::get] *)
Fixpoint hget {A} (k : name) (m : hmap A) : option A :=
  match m with [] => None | (x, a) :: r => if eqb_bytes x k then Some a else hget k r end.

(** [HashMap::insert] *)
Fixpoint hset {A} (k : name) (v : A) (m : hmap A) : hmap A :=
  match m with
  | [] => [(k, v)]
  | (x, a) :: r => if eqb_bytes x k then (x, v) :: r else (x, a) :: hset k v r
  end.

(* ------------------------------------------------------------------ *)
(** * Parameters *)

(** qv.rs L4 *)
Inductive qv (T : Type) : Type := Val (t : T) | Undefined | Null.
Arguments Val {T} t.
Arguments Undefined {T}.
Arguments Null {T}.

(** var_type.rs L5-10 *)
Inductive var_type : Type := Normal | Nullable | Undefiable | UndefNullable.

(** param_type.rs L3-6 *)
Inductive param_type : Type := TBool | TInt | TFloat | TString | TIntArray | TFloatArray | TBinary.

(** The content of an [Arc]: its address and what it holds. *)
Definition arc (T : Type) : Type := (Z * T)%type.

(** rust_param.rs L9-19.  Floats are their 64 bits.  Strings, int arrays and
    binaries are behind an [Arc] (rust_string.rs L6-8, rust_array.rs L88-90,
    L113-115); float arrays are in a [Box] (rust_array.rs L62-64). *)
Inductive param : Type :=
| PBool (q : qv bool)
| PFloat (q : qv Z)
| PInt (q : qv Z)
| PString (q : qv (arc (list Z)))
| PIntArray (q : qv (arc (list Z)))
| PFloatArray (q : qv (list Z))
| PBinary (q : qv (arc (list Z))).

(** util/identity_equal_trait.rs L49-53: [==] on f64 *)
Definition f64_eq (a b : Z) : bool := feq (fdec F64 a) (fdec F64 b).

(** [Vec<f64> == Vec<f64>] *)
Fixpoint f64s_eq (a b : list Z) : bool :=
  match a, b with
  | [], [] => true
  | x :: a, y :: b => f64_eq x y && f64s_eq a b
  | _, _ => false
  end.

(** qv.rs L73-85 *)
Definition qv_ident {T} (eq : T -> T -> bool) (a b : qv T) : bool :=
  match a, b with
  | Val x, Val y => eq x y
  | Null, Null => true
  | Undefined, Undefined => true
  | _, _ => false
  end.

(** rust_string.rs L25-29, rust_array.rs L99-103, L128-132: [Arc::ptr_eq] *)
Definition ptr_eq {T} (a b : arc T) : bool := fst a =? fst b.

(** rust_param.rs L116-130 *)
Definition identity_eq (a b : param) : bool :=
  match a, b with
  | PBool s, PBool o => qv_ident Bool.eqb s o
  | PInt s, PInt o => qv_ident Z.eqb s o
  | PFloat s, PFloat o => qv_ident f64_eq s o
  | PString s, PString o => qv_ident ptr_eq s o
  | PIntArray s, PIntArray o => qv_ident ptr_eq s o
  | PFloatArray s, PFloatArray o => qv_ident f64s_eq s o
  | PBinary s, PBinary o => qv_ident ptr_eq s o
  | _, _ => false
  end.

(** param_type.rs L33-43 *)
Definition type_of (p : param) : param_type :=
  match p with
  | PBool _ => TBool | PFloat _ => TFloat | PInt _ => TInt | PString _ => TString
  | PFloatArray _ => TFloatArray | PIntArray _ => TIntArray | PBinary _ => TBinary
  end.

(** qv.rs L87-89 *)
Inductive qv_type : Type := QVal | QUndefined | QNull.
(** qv.rs L7-13 *)
Definition qv_type_of {T} (q : qv T) : qv_type :=
  match q with Val _ => QVal | Undefined => QUndefined | Null => QNull end.
(** rust_param.rs L23-35 *)
Definition param_qv_type (p : param) : qv_type :=
  match p with
  | PBool q => qv_type_of q | PFloat q => qv_type_of q | PInt q => qv_type_of q
  | PString q => qv_type_of q | PIntArray q => qv_type_of q
  | PFloatArray q => qv_type_of q | PBinary q => qv_type_of q
  end.

(** var_type.rs L41-65 acceptable *)
Definition acceptable (v : var_type) (t : qv_type) : bool :=
  match v, t with
  | _, QVal => true
  | Nullable, QNull => true
  | Undefiable, QUndefined => true
  | UndefNullable, _ => true
  | _, _ => false
  end.

(* ------------------------------------------------------------------ *)
(** * Items, lists and definitions, one nesting depth *)

(** list_sab_value.rs L9-15.  [L] are the lists one level further in.  The
    content of a constant inner list plays no role here and is a token. *)
Inductive lval (L : Type) : Type :=
| LParam (p : param)
| LCil (token : Z)
| LMil (o : option L).
Arguments LParam {L} p.
Arguments LCil {L} token.
Arguments LMil {L} o.

(** rust_list.rs L145-149 MutItem; ref_value.rs L17-20 RefSabValue *)
Record item (L : Type) : Type := Item { it_values : hmap (lval L); it_refs : hmap (qv (list Z)) }.
Arguments Item {L}.
Arguments it_values {L}.
Arguments it_refs {L}.

(** rust_list.rs L95-98 MutListVal around linked_m.rs LinkedMap: the ordered list
    with ids and next id the linked map refines (LinkedProps, C08). *)
Definition mlist (I : Type) : Type := @astate I.

Fixpoint mlistT (n : nat) : Type :=
  match n with O => Empty_set | S n => mlist (item (mlistT n)) end.

(** list_value.rs L8-14 ListDefValue with mut_list_def.rs L4-8 MutListDef *)
Inductive ldefval (D : Type) : Type :=
| DParam (p : param) (vt : var_type)
| DCil (d : D)
| DMil (d : D) (undefiable : bool).
Arguments DParam {D}.
Arguments DCil {D}.
Arguments DMil {D}.

(** list_def_obj.rs L7-16 ListDefObj with ref_def_obj.rs L6-14 RefDefObj and
    ref_value.rs L6-15 RefValue: numbered members and references, whether the
    references form an enum, and the old members of both *)
Record ldef (D : Type) : Type := LDef {
  ld_members : hmap (Z * ldefval D);
  ld_refs : hmap (Z * (qv (list Z) * var_type));
  ld_enum : bool;
  ld_old : list name;
  ld_ref_old : list name }.
Arguments LDef {D}.
Arguments ld_members {D}.
Arguments ld_refs {D}.
Arguments ld_enum {D}.
Arguments ld_old {D}.
Arguments ld_ref_old {D}.

Fixpoint defT (n : nat) : Type := match n with O => Empty_set | S n => ldef (defT n) end.

(** meta_table.rs L55-60 MetaValue with L62-66 MetaParam *)
Inductive metaval (M : Type) : Type :=
| MParam (pt : param_type) (vt : var_type)
| MMList (m : M)
| MOptMil (m : M).
Arguments MParam {M}.
Arguments MMList {M}.
Arguments MOptMil {M}.

(** meta_table.rs L12-15 MetaTable.  The key is a pointer to the name in the
    definition, which is not changed while the table exists; here it is the name. *)
Definition metatable (M : Type) : Type := list (option (name * metaval M)).

(** meta_table.rs L42-46 MetaTables *)
Record metatables (M : Type) : Type := Tables { mt_items : metatable M; mt_refs : metatable M }.
Arguments Tables {M}.
Arguments mt_items {M}.
Arguments mt_refs {M}.

Fixpoint metaT (n : nat) : Type := match n with O => Empty_set | S n => metatables (metaT n) end.

(** [Vec::get]; indices are usize *)
Definition zget {A} (l : list A) (i : Z) : option A :=
  if i <? 0 then None else nth_error l (Z.to_nat i).

(** meta_table.rs L79-84 *)
Definition meta_get {M} (t : metatable M) (id : Z) : option (name * metaval M) :=
  match zget t id with Some (Some x) => Some x | _ => None end.

(** meta_table.rs L86-95 *)
Definition get_tables {M} (t : metatable M) (id : Z) : option M :=
  match meta_get t id with
  | Some (_, MMList m) | Some (_, MOptMil m) => Some m
  | _ => None
  end.

(** [vec[id] = x], which panics out of range *)
Definition vec_set {A} (l : list A) (i : Z) (x : A) : res (list A) :=
  if (0 <=? i) && (i <? zlen l)
  then Ok (firstn (Z.to_nat i) l ++ x :: skipn (S (Z.to_nat i)) l) else Panic.

(** a loop that can fail *)
Fixpoint mfold {A B} (f : A -> B -> res A) (l : list B) (a : A) : res A :=
  match l with [] => Ok a | b :: r => a <- f a b ; mfold f r a end.

(** meta_table.rs L154-161 from_ref_def with init_vec L164-170 *)
Definition from_ref_def {M} (refs : hmap (Z * (qv (list Z) * var_type))) : res (metatable M) :=
  mfold (fun vec e => let '(key, (id, (_, vt))) := e in
           vec_set vec id (Some (key, MParam TString vt)))
        refs (repeat None (length refs)).

(** meta_table.rs L128-153 from_list_def; [inner] makes the tables of a nested definition *)
Definition from_list_def {D M} (inner : D -> res M) (members : hmap (Z * ldefval D)) : res (metatable M) :=
  mfold (fun vec e => let '(key, (id, v)) := e in
           match v with
           | DParam p vt => vec_set vec id (Some (key, MParam (type_of p) vt))
           | DMil d undefiable =>
               m <- inner d ;
               vec_set vec id (Some (key, if undefiable then MOptMil m else MMList m))
           | DCil _ => Ok vec
           end)
        members (repeat None (length members)).

(** the tables of a list definition: meta_table.rs L109-117, L137-148 *)
Definition tables_of {D M} (inner : D -> res M) (d : ldef D) : res (metatables M) :=
  items <- from_list_def inner (ld_members d) ;
  refs <- from_ref_def (ld_refs d) ;
  Ok (Tables items refs).

Fixpoint make_tables (n : nat) : defT n -> res (metaT n) :=
  match n with
  | O => fun d => match d with end
  | S n => tables_of (make_tables n)
  end.

(* ------------------------------------------------------------------ *)
(** * The root *)

(** root_value.rs L10-16.  Constant tables and lists play no role here. *)
Inductive rootval (D : Type) : Type :=
| RVParam (p : param) (vt : var_type)
| RVTable
| RVCList
| RVMList (d : D) (undefiable : bool).
Arguments RVParam {D}.
Arguments RVTable {D}.
Arguments RVCList {D}.
Arguments RVMList {D}.

(** root_sab_value.rs L6-9 *)
Inductive rootsab (L : Type) : Type := RParam (p : param) | RMut (o : option L).
Arguments RParam {L}.
Arguments RMut {L}.

(** root_def_obj.rs L4-7 *)
Definition rootdef (n : nat) : Type := hmap (Z * rootval (defT n)).

(** root_obj.rs L10-28: the part that changes *)
Definition sabun (n : nat) : Type := hmap (rootsab (mlistT n)).

(** meta_table.rs L98-126 from_root *)
Definition from_root {D M} (inner : D -> res M) (root : hmap (Z * rootval D)) : res (metatable M) :=
  mfold (fun vec e => let '(key, (id, v)) := e in
           match v with
           | RVParam p vt => vec_set vec id (Some (key, MParam (type_of p) vt))
           | RVMList d undefiable =>
               m <- inner d ;
               vec_set vec id (Some (key, if undefiable then MOptMil m else MMList m))
           | _ => Ok vec
           end)
        root (repeat None (length root)).

Definition root_table {n} (root : rootdef n) : res (metatable (metaT n)) := from_root (make_tables n) root.
