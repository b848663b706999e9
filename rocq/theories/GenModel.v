(** Model of the generator of accessors.  Citations are relative to
    /repo/dochy_intf/src/imp unless another crate is named.

    The generated text is modelled by what it declares: structs with their methods, enums
    with their variants, and the arms of the matches in them.  The [MemberDesc]s (dochy_core
    intf/member_desc.rs L61-129, intf/ref_desc.rs L32-42) and the [MemberSource]s
    (to_member_source.rs L20-95) between a definition and the text only copy names, types
    and marks; they are left out.  Hash maps are association lists whose order is the order
    of iteration, as in DocModel. *)
From Coq Require Import String.
From Verif Require Import Base StringCompactionModel DocModel JsonModel IntfModel.

(* ------------------------------------------------------------------ *)
(** * Names.  Characters beyond ASCII are sequences of bytes above 127, which none of these
    functions changes. *)

(** [char::to_ascii_uppercase], [char::to_ascii_lowercase], [char::is_ascii_uppercase] *)
Definition to_upper (c : Z) : Z := if (97 <=? c) && (c <=? 122) then c - 32 else c.
Definition is_upper (c : Z) : bool := (65 <=? c) && (c <=? 90).
Definition to_lower (c : Z) : Z := if is_upper c then c + 32 else c.

(** util/to_type_name.rs L15-24, the characters after the first; [up] is [to_upper_case] *)
Fixpoint type_rest (up : bool) (s : list Z) : list Z :=
  match s with
  | [] => []
  | c :: r => if c =? 95 then type_rest true r else (if up then to_upper c else c) :: type_rest false r
  end.
(** util/to_type_name.rs L3-28 *)
Definition to_type_name (s : name) : list Z :=
  match s with
  | [] => []
  | c :: r => (if c =? 64 then txt "At" else [to_upper c]) ++ type_rest false r
  end.

(** util/to_type_name.rs L41-46 *)
Fixpoint snake_rest (s : list Z) : list Z :=
  match s with
  | [] => []
  | c :: r => (if is_upper c then [95; to_lower c] else [c]) ++ snake_rest r
  end.
(** util/to_type_name.rs L31-50 *)
Definition to_snake_name (s : name) : list Z :=
  match s with
  | [] => []
  | c :: r => (if c =? 64 then txt "at" else [to_lower c]) ++ snake_rest r
  end.

(** util/to_type_name.rs L52-69 *)
Definition citem_type (stem : name) : list Z := to_type_name stem ++ txt "CItem".
Definition mitem_type (stem : name) : list Z := to_type_name stem ++ txt "MItem".
Definition table_type (stem : name) : list Z := to_type_name stem ++ txt "Table".
Definition ids_type (stem : name) : list Z := to_type_name stem ++ txt "TableID".
Definition enum_type (stem : name) : list Z := to_type_name stem ++ txt "Enum".
Definition kind_type (stem : name) : list Z := to_type_name stem ++ txt "Kind".

(** util/with_old.rs L1-7 *)
Definition with_old (nm : list Z) (old : bool) : list Z := if old then nm ++ txt "_old" else nm.

(** [HashSet::contains] *)
Definition contains (s : list name) (k : name) : bool := existsb (eqb_bytes k) s.

(** structs/table_source.rs L24-29 *)
Definition key_name (key : name) (old : bool) : list Z := with_old (to_snake_name key) old.
Definition variant_name (key : name) (old : bool) : list Z := if old then to_type_name key ++ txt "Old" else to_type_name key.

(* ------------------------------------------------------------------ *)
(** * Declarations *)

(** the module of dochy_core whose functions are called, and with it the pointer *)
Inductive place : Type := AtRoot | AtMItem | AtCItem.

(** What the body of a method does.  [t] and [vt] are the type and the marks of a
    parameter: the function called is [get_{t.nickname}] and so on, its answer is
    unwrapped by [vt] ([unwrapped] of IntfModel). *)
Inductive call : Type :=
| CRead (at_ : place) (t : param_type) (vt : var_type) (key : name)
| CDefault (at_ : place) (t : param_type) (vt : var_type) (key : name)
| CWrite (at_ : place) (t : param_type) (vt : var_type) (key : name)
| CSet (at_ : place) (t : param_type) (vt : var_type) (key : name)
| CTable (key : name)
| CConstList (at_ : place) (key : name)
| CList (at_ : place) (undefiable : bool) (key : name)
| CListMut (at_ : place) (key : name)
| CRef (at_ : place) (vt : var_type) (key : name)
| CRefId (at_ : place) (vt : var_type) (key : name)
| CSetRef (vt : var_type) (key : name)
| CEnum (at_ : place)
| CEnumIds (at_ : place)
| CSetEnum
| CRow (us : bool) (key : name)              (* [table::get_value]; [us]: the unsafe one *)
| CById (arms : list (list Z * list Z))      (* a match: variant, method called *)
| COther.                                    (* text that is always the same *)

(** A method: its name, the names of its arguments after [self], what it does, the types of
    the generated text it names, and those of them whose function [from] it calls. *)
Record meth : Type := Meth {
  m_name : list Z; m_args : list (list Z); m_call : call; m_types : list (list Z); m_from : list (list Z) }.

Inductive decl : Type :=
(** a struct and its methods *)
| DStruct (nm : list Z) (methods : list meth)
(** [#[repr(u64)] pub enum] with the arms of [from_str], [from_num], [to_num], the number
    [len] gives and the texts [metadata] gives *)
| DIds (nm : list Z) (variants : list (list Z)) (from_str : list (name * list Z))
    (from_num : list (Z * list Z)) (to_num : list (list Z * Z)) (len : Z) (metadata : list name)
(** an enum whose variants hold items, and the arms of [new] *)
| DEnum (nm : list Z) (variants : list (list Z * list Z)) (new : list (name * list Z))
(** an enum whose variants hold ids, and the arms of [id] *)
| DKind (nm : list Z) (variants : list (list Z * list Z)) (id : list (list Z * name)).

Definition decl_name (d : decl) : list Z :=
  match d with DStruct nm _ | DIds nm _ _ _ _ _ _ | DEnum nm _ _ | DKind nm _ _ => nm end.

(* ------------------------------------------------------------------ *)
(** * Members *)

(** types that are read by reference *)
Definition by_reference (t : param_type) : bool :=
  match t with TBinary | TString | TIntArray | TFloatArray => true | _ => false end.

(** structs/root_source.rs L43-58, structs/mitem_source.rs L49-64, structs/citem_source.rs
    L47-58 with structs/param_source.rs L33-196; [old] as in [with_old] *)
Definition param_methods (at_ : place) (t : param_type) (vt : var_type) (key : name) (old : bool) : list meth :=
  let nm := with_old (to_snake_name key) old in
  let get := Meth nm [] (CRead at_ t vt key) [] [] in
  let get_def := Meth (nm ++ txt "_def_val") [] (CDefault at_ t vt key) [] [] in
  let get_mutable := Meth (nm ++ txt "_mut") [] (CWrite at_ t vt key) [] [] in
  let set := Meth (txt "set_" ++ nm) [to_snake_name key] (CSet at_ t vt key) [] [] in
  match at_ with
  | AtCItem => if by_reference t then [get_def; get] else [get; get_def]
  | _ => if by_reference t then [get_def; get; get_mutable; set] else [get; get_def; set]
  end.

(** structs/mlist_source.rs L34-58, structs/mil_source.rs L36-60 *)
Definition list_methods (at_ : place) (undefiable : bool) (key : name) (old : bool) : list meth :=
  let nm := with_old (to_snake_name key) old in
  [Meth nm [] (CList at_ undefiable key) [mitem_type key] [];
   Meth (nm ++ txt "_mut") [] (CListMut at_ key) [mitem_type key] []].

(** structs/clist_source.rs L31-46, structs/cil_source.rs L31-46 *)
Definition const_method (at_ : place) (key : name) (old : bool) : meth :=
  Meth (with_old (to_snake_name key) old) [] (CConstList at_ key) [citem_type key] [].

(** structs/table_source.rs L54-71 *)
Definition table_method (key : name) (old : bool) : meth :=
  Meth (with_old (to_snake_name key) old) [] (CTable key) [table_type key] [].

(* ------------------------------------------------------------------ *)
(** * References *)

Section References.
Context {D : Type}.
Implicit Type d : ldef D.

(** structs/ref_source.rs L35-65 *)
Definition ref_get (at_ : place) (key : name) (vt : var_type) (old : bool) : list meth :=
  let nm := with_old (to_snake_name key) old in
  [Meth (txt "ref_" ++ nm) [] (CRef at_ vt key) [citem_type key] [citem_type key];
   Meth (txt "ref_id_" ++ nm) [] (CRefId at_ vt key) [] []].

(** structs/ref_source.rs L66-83 *)
Definition ref_set (key : name) (vt : var_type) (old : bool) : list meth :=
  [Meth (txt "set_ref_" ++ with_old (to_snake_name key) old) [txt "id"] (CSetRef vt key) [ids_type key] []].

(** structs/refs_source.rs L18-37 *)
Definition refs_get (at_ : place) (stem : name) d : list meth :=
  if ld_enum d then
    [Meth (txt "get_enum") [] (CEnum at_) [enum_type stem] []; Meth (txt "get_enum_ids") [] (CEnumIds at_) [] []]
  else flat_map (fun e => let '(key, (_, (_, vt))) := e in ref_get at_ key vt (contains (ld_ref_old d) key)) (ld_refs d).

(** structs/refs_source.rs L39-53 *)
Definition refs_set (stem : name) d : list meth :=
  if ld_enum d then [Meth (txt "set_enum") [txt "kind"] CSetEnum [kind_type stem] []]
  else flat_map (fun e => let '(key, (_, (_, vt))) := e in ref_set key vt (contains (ld_ref_old d) key)) (ld_refs d).

(** structs/refs_source.rs L55-105 *)
Definition refs_decls (from_citem : bool) (stem : name) d : list decl :=
  if ld_enum d then
    let keys := map fst (ld_refs d) in
    DEnum (enum_type stem) (map (fun key => (to_type_name key, citem_type key)) keys) (map (fun key => (key, to_type_name key)) keys)
    :: (if from_citem then []
        else [DKind (kind_type stem) (map (fun key => (to_type_name key, ids_type key)) keys) (map (fun key => (to_type_name key, key)) keys)])
  else [].

(* ------------------------------------------------------------------ *)
(** * Items *)

(** structs/mitem_source.rs L47-78 *)
Definition mitem_methods (stem : name) d : list meth :=
  flat_map (fun e => let '(key, (_, v)) := e in
              let old := contains (ld_old d) key in
              match v with
              | DParam p vt => param_methods AtMItem (type_of p) vt key old
              | DCil _ => []
              | DMil _ undefiable => list_methods AtMItem undefiable key old
              end) (ld_members d) ++
  refs_get AtMItem stem d ++ refs_set stem d.

(** structs/citem_source.rs L45-70 *)
Definition citem_methods (stem : name) d : list meth :=
  flat_map (fun e => let '(key, (_, v)) := e in
              let old := contains (ld_old d) key in
              match v with
              | DParam p vt => param_methods AtCItem (type_of p) vt key old
              | DCil _ => [const_method AtCItem key old]
              | DMil _ _ => []
              end) (ld_members d) ++
  refs_get AtCItem stem d.

(* ------------------------------------------------------------------ *)
(** * The root *)

(** structs/root_source.rs L31-39 *)
Definition root_fixed : list meth :=
  [Meth (txt "new") [txt "obj"] COther [txt "RootIntf"] [];
   Meth (txt "root_obj_ref") [] COther [] [];
   Meth (txt "root_obj_ref_mut") [] COther [] [];
   Meth (txt "deconstruct") [] COther [] []].

(** structs/root_source.rs L31-73 *)
Definition root_methods (old : list name) (def : hmap (Z * rootval D)) : list meth :=
  root_fixed ++
  flat_map (fun e => let '(key, (_, v)) := e in
              let old := contains old key in
              match v with
              | RVParam p vt => param_methods AtRoot (type_of p) vt key old
              | RVTable => [table_method key old]
              | RVCList => [const_method AtRoot key old]
              | RVMList _ undefiable => list_methods AtRoot undefiable key old
              end) def.

End References.

(** structs/mitem_source.rs L30-100 with mil_source.rs L62-66 *)
Fixpoint mitem_decls (stem : name) (d : def) : list decl :=
  let 'Def l := d in
  DStruct (mitem_type stem) (mitem_methods stem l)
  :: flat_map (fun e => let '(key, (_, v)) := e in match v with DMil d' _ => mitem_decls key d' | _ => [] end) (ld_members l)
  ++ refs_decls false stem l.

(** structs/citem_source.rs L30-90 with cil_source.rs L47-51 *)
Fixpoint citem_decls (stem : name) (d : def) : list decl :=
  let 'Def l := d in
  DStruct (citem_type stem) (citem_methods stem l)
  :: flat_map (fun e => let '(key, (_, v)) := e in match v with DCil d' => citem_decls key d' | _ => [] end) (ld_members l)
  ++ refs_decls true stem l.

(** structs/table_source.rs L87-98 *)
Definition row_methods (stem : name) (key : name) (old : bool) : list meth :=
  [Meth (key_name key old ++ txt "_us") [] (CRow true key) [citem_type stem] [citem_type stem];
   Meth (key_name key old) [] (CRow false key) [citem_type stem] [citem_type stem]].

(** structs/table_source.rs L100-113; [get_by_id] calls [get_by_id_us] *)
Definition by_id_methods (stem : name) (keys : list (name * bool)) : list meth :=
  let arms := map (fun k => (variant_name (fst k) (snd k), key_name (fst k) (snd k) ++ txt "_us")) keys in
  match keys with
  | [] => []
  | _ => [Meth (txt "get_by_id_us") [txt "id"] (CById arms) [ids_type stem; citem_type stem] [];
          Meth (txt "get_by_id") [txt "id"] (CById arms) [ids_type stem; citem_type stem] []]
  end.

(** structs/table_source.rs L72-166; the keys are those of the rows (dochy_core
    intf/member_desc.rs L57-59, intf/table.rs L43-52) *)
Definition table_decls (stem : name) (d : def) (rows : hmap citem) (old : list name) : list decl :=
  let keys := map (fun e => (fst e, contains old (fst e))) rows in
  let variant k := variant_name (fst k) (snd k) in
  DStruct (table_type stem)
    (Meth (txt "new") [txt "ptr"] COther [table_type stem] []
     :: flat_map (fun k => row_methods stem (fst k) (snd k)) keys ++ by_id_methods stem keys)
  :: DIds (ids_type stem) (map variant keys) (map (fun k => (fst k, variant k)) keys)
       (map (fun e => (fst e, variant (snd e))) (enumerate keys)) (map (fun e => (variant (snd e), fst e)) (enumerate keys))
       (zlen keys) (map fst keys)
  :: citem_decls stem d.

(** structs/root_source.rs L18-93: the struct [RootIntf], then what the members declare
    (dochy_core intf/member_desc.rs L61-92, generate_interface.rs L12-16) *)
Definition generate (old : list name) (def : hmap (Z * rootvalue)) : list decl :=
  DStruct (txt "RootIntf") (root_methods old (strip_root def))
  :: flat_map (fun e => let '(key, (_, v)) := e in
                 match v with
                 | WParam _ _ => []
                 | WTable d rows old => table_decls key d rows old
                 | WCList d _ => citem_decls key d
                 | WMList d _ => mitem_decls key d
                 end) def.

(* ------------------------------------------------------------------ *)
(** * Running the generated text *)

(** a Rust [match] on texts or variants: the first arm that fits *)
Fixpoint arm {A} (k : list Z) (arms : list (list Z * A)) : option A :=
  match arms with [] => None | (x, a) :: r => if eqb_bytes x k then Some a else arm k r end.
(** a [match] on numbers *)
Fixpoint num_arm {A} (k : Z) (arms : list (Z * A)) : option A :=
  match arms with [] => None | (x, a) :: r => if x =? k then Some a else num_arm k r end.

(** structs/table_source.rs L124-132 [from_str]: the name of the variant *)
Definition run_from_str (d : decl) (id : name) : option (list Z) :=
  match d with DIds _ _ from_str _ _ _ _ => arm id from_str | _ => None end.
(** structs/table_source.rs L133-140 [from_num] *)
Definition run_from_num (d : decl) (i : Z) : res (list Z) :=
  match d with DIds _ _ _ from_num _ _ _ => match num_arm i from_num with Some v => Ok v | None => Panic end | _ => Err end.
(** structs/table_source.rs L142-148 [to_num]; a match with every variant has an arm *)
Definition run_to_num (d : decl) (v : list Z) : res Z :=
  match d with DIds _ _ _ _ to_num _ _ => match arm v to_num with Some i => Ok i | None => Err end | _ => Err end.
(** structs/table_source.rs L159-161 [to_str] *)
Definition run_to_str (d : decl) (v : list Z) : res name :=
  i <- run_to_num d v ;
  match d with DIds _ _ _ _ _ _ metadata => match zget metadata i with Some k => Ok k | None => Panic end | _ => Err end.

(** calling the method [nm] of a struct *)
Definition method (d : decl) (nm : list Z) : option meth :=
  match d with DStruct _ ms => find (fun m => eqb_bytes (m_name m) nm) ms | _ => None end.

(** structs/table_source.rs L87-113: what the struct of a table gives for a row: the
    argument of [table::get_value] *)
Definition run_by_id (d : decl) (v : list Z) : option name :=
  match method d (txt "get_by_id_us") with
  | Some m => match m_call m with
              | CById arms => match arm v arms with
                              | Some f => match method d f with Some m => match m_call m with CRow _ key => Some key | _ => None end | None => None end
                              | None => None
                              end
              | _ => None
              end
  | None => None
  end.

(** what a method of the root that reads a parameter gives *)
Definition run_root_read {D L} (m : meth) (s : hmap (rootsab L)) (def : hmap (Z * rootval D)) : res (qv content) :=
  match m_call m with
  | CRead AtRoot t vt key => read_root t vt s def key
  | CDefault AtRoot t vt key => unwrapped vt (get_as t (root_param_def def key))
  | _ => Err
  end.
(** what a method of the root that sets a parameter does, given the value [q] as a parameter
    of its type; the answer of dochy_core is not looked at (param_source.rs L193) *)
Definition run_root_set {D L} (m : meth) (s : hmap (rootsab L)) (def : hmap (Z * rootval D)) (p : param) : res (hmap (rootsab L)) :=
  match m_call m with
  | CSet AtRoot t vt key => if eqb_type (type_of p) t && acceptable vt (param_qv_type p) then Ok (fst (root_set s def key p)) else Err
  | _ => Err
  end.
(** and those of an item *)
Definition run_item_read {D L} (m : meth) (it : item L) (d : ldef D) : res (qv content) :=
  match m_call m with
  | CRead AtMItem t vt key => read_item t vt it d key
  | CDefault AtMItem t vt key => unwrapped vt (get_as t (item_param_def d key))
  | _ => Err
  end.
Definition run_item_set {D L} (m : meth) (it : item L) (d : ldef D) (p : param) : res (item L) :=
  match m_call m with
  | CSet AtMItem t vt key =>
      if eqb_type (type_of p) t && acceptable vt (param_qv_type p) then '(it, _) <- item_set it d key p ; Ok it else Err
  | _ => Err
  end.

(** structs/refs_source.rs L42-46 [set_enum] with L92-99 [id]: the kind is a variant and the id
    it holds *)
Definition run_set_enum {L} (kind : decl) (it : item L) (v : list Z) (id : name) : res (item L) :=
  match kind with
  | DKind _ _ arms => match arm v arms with Some key => Ok (fst (item_set_enum it key id)) | None => Err end
  | _ => Err
  end.
(** structs/refs_source.rs L23-27 [get_enum] with L72-80 [new]: the variant and the row *)
Definition run_get_enum {D L R} (iter : forall A, hmap A -> hmap A) (tables : hmap (hmap R)) (enum : decl) (it : item L) (d : ldef D) : res (list Z * R) :=
  match enum with
  | DEnum _ _ arms =>
      match item_enum iter it with
      | None => Panic
      | Some (key, _) =>
          o <- item_ref tables it d key ;
          match o with
          | Some (Val r) => match arm key arms with Some v => Ok (v, r) | None => Panic end
          | _ => Panic
          end
      end
  | _ => Err
  end.
