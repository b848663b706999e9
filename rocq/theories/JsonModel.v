(** Model of reading source files: from JSON values to documents.  Citations are
    relative to /repo/dochy_core/src/imp/json_to_rust unless they start with [structs/].

    Spans and the [Names] path only serve error messages and are left out. *)
From Coq Require Import String Ascii.
From Verif Require Import Base FloatModel StringCompactionModel LinkedModel LinkedSpec DocModel ArchiveModel.

(** the bytes of a Rust string literal *)
Definition txt (s : string) : name := map (fun c => Z.of_N (N_of_ascii c)) (list_ascii_of_string s).

(** /repo/dochy_json5/src/jval.rs L7-16 without the spans; doubles are their 64 bits.
    The keys of a map are in the order of the text and unique
    (/repo/dochy_json5/src/deserialize_item.rs L33-79). *)
Inductive jval : Type :=
| JNull
| JUndefined
| JBool (b : bool)
| JString (s : list Z)
| JInt (i : Z)
| JDouble (bits : Z)
| JArray (l : list jval)
| JMap (m : list (name * jval)).

(* ------------------------------------------------------------------ *)
(** * Names: json_name.rs *)

(** the character classes of the regular expression L78 *)
Definition is_first (c : Z) : bool := (c =? 64) || ((97 <=? c) && (c <=? 122)) || (c =? 95).
Definition is_rest (c : Z) : bool :=
  ((97 <=? c) && (c <=? 122)) || ((65 <=? c) && (c <=? 90)) || ((48 <=? c) && (c <=? 57)) || (c =? 95).
Definition is_mark (c : Z) : bool := (c =? 33) || (c =? 63).

(** greedy repetition of a character class *)
Fixpoint span_of (f : Z -> bool) (s : list Z) : list Z * list Z :=
  match s with
  | [] => ([], [])
  | c :: r => if f c then let '(a, b) := span_of f r in (c :: a, b) else ([], s)
  end.

(** L77-80 analyze_name: the two groups.  No mark is in the class of the name, so the
    greedy match is the only one. *)
Definition analyze_name (s : list Z) : option (list Z * list Z) :=
  match s with
  | [] => None
  | c :: r =>
      if is_first c
      then let '(body, suffix) := span_of is_rest r in
           if forallb is_mark suffix then Some (c :: body, suffix) else None
      else None
  end.

(** L82-101 *)
Definition value_type_and_name (s : list Z) : option (var_type * name) :=
  match analyze_name s with
  | Some (nm, suffix) =>
      if eqb_bytes suffix (txt "!?") || eqb_bytes suffix (txt "?!") then Some (UndefNullable, nm)
      else if eqb_bytes suffix (txt "!") then Some (Undefiable, nm)
      else if eqb_bytes suffix (txt "?") then Some (Nullable, nm)
      else if eqb_bytes suffix (txt "") then Some (Normal, nm)
      else None
  | None => None
  end.

(** L7-12 *)
Inductive system_name : Type := SOld | SID | SRef | SEnum.
(** L14-17 *)
Inductive name_type : Type := NName (n : name) (vt : var_type) | NSystem (s : system_name).

(** L19-35 *)
Definition json_name (s : list Z) : option name_type :=
  if eqb_bytes s (txt "Old") then Some (NSystem SOld)
  else if eqb_bytes s (txt "ID") then Some (NSystem SID)
  else if eqb_bytes s (txt "Ref") then Some (NSystem SRef)
  else if eqb_bytes s (txt "Enum") then Some (NSystem SEnum)
  else match value_type_and_name s with Some (vt, nm) => Some (NName nm vt) | None => None end.

(** L38-45 *)
Definition json_simple_name (s : list Z) : option name :=
  match json_name s with Some (NName nm Normal) => Some nm | _ => None end.

(** structs/var_type.rs L20-28 *)
Definition to_suffix (vt : var_type) : list Z :=
  match vt with
  | Normal => txt "" | Nullable => txt "?" | Undefiable => txt "!" | UndefNullable => txt "!?"
  end.
(** /repo/dochy_core/src/imp/rust_to_json/name_with_suffix.rs L3-5 *)
Definition name_with_suffix (nm : name) (vt : var_type) : list Z := nm ++ to_suffix vt.

(* ------------------------------------------------------------------ *)
(** * Documents *)

(** structs/list_def_obj.rs L7-16 with nesting of any depth (DocModel has the same
    record for one depth) *)
Inductive def : Type := Def (d : ldef def).
Definition undef (d : def) : ldef def := let 'Def d := d in d.

(** structs/list_sab_value.rs L9-15 and structs/rust_list.rs L123-128 ConstItem,
    L158-163 MutItem.  A mutable list is kept as the arguments of
    [LinkedMap::construct] it is built with (tmp/tmp_list.rs L228): the numbered
    items and the next id; see [linked_items]. *)
Inductive cval : Type :=
| VParam (p : param)
| VCil (l : list citem)
| VMil (o : option (list (Z * citem) * Z))
with citem : Type := CItem (values : hmap cval) (refs : hmap (qv (list Z))).
Definition mutlist : Type := (list (Z * citem) * Z)%type.
Definition ci_values (c : citem) : hmap cval := let 'CItem v _ := c in v.
Definition ci_refs (c : citem) : hmap (qv (list Z)) := let 'CItem _ r := c in r.

(** structs/rust_value.rs L13-24 *)
Inductive rvalue : Type :=
| VaParam (p : param) (vt : var_type)
| VaTable (d : def) (items : hmap citem) (old : list name)
| VaCList (d : def) (items : list citem)
| VaMList (d : def) (undefiable : bool) (o : option mutlist)
| VaCil (items : list citem)
| VaMil (o : option mutlist)
| VaCilDef (d : def)
| VaMilDef (d : def) (undefiable : bool).

(** structs/root_value.rs L10-16 *)
Inductive rootvalue : Type :=
| WParam (p : param) (vt : var_type)
| WTable (d : def) (items : hmap citem) (old : list name)
| WCList (d : def) (items : list citem)
| WMList (d : def) (undefiable : bool).

(** structs/rust_value.rs L34-43 *)
Definition into_root_value (v : rvalue) : res (rootvalue * option (rootsab mutlist)) :=
  match v with
  | VaParam p vt => Ok (WParam p vt, None)
  | VaTable d items old => Ok (WTable d items old, None)
  | VaCList d items => Ok (WCList d items, None)
  | VaMList d undefiable o => Ok (WMList d undefiable, Some (RMut o))
  | _ => Err
  end.
(** structs/rust_value.rs L52-61 *)
Definition into_list_def_value (v : rvalue) : res (ldefval def) :=
  match v with
  | VaParam p vt => Ok (DParam p vt)
  | VaCilDef d => Ok (DCil d)
  | VaMilDef d undefiable => Ok (DMil d undefiable)
  | _ => Err
  end.
(** structs/rust_value.rs L64-73 *)
Definition into_list_sab_value (v : rvalue) : res cval :=
  match v with
  | VaParam p _ => Ok (VParam p)
  | VaCil l => Ok (VCil l)
  | VaMil o => Ok (VMil o)
  | _ => Err
  end.

(** tmp/tmp_obj.rs L27-32 *)
Record tmp_refs : Type := TmpRefs { tr_map : hmap (Z * (qv (list Z) * var_type)); tr_old : list name; tr_enum : bool }.
(** tmp/tmp_obj.rs L49-52 *)
Inductive id_value : Type := IdStr (s : list Z) | IdNum (n : Z).
(** tmp/tmp_obj.rs L18-25; [include] is always empty *)
Record tmp_obj : Type := TmpObj {
  to_default : hmap (Z * rvalue); to_id : option id_value; to_refs : tmp_refs; to_old : list name }.
(** tmp/tmp_list.rs L11-19 *)
Record tmp_list : Type := TmpList {
  tl_vec : list tmp_obj; tl_old : option (list name); tl_default : option def; tl_next : option Z }.
(** list/list_attribute.rs L9-14 *)
Inductive attribute : Type := ADefault (d : def) | AOld (l : list name) | ANextID (n : Z).

(** std HashSet::insert *)
Definition sinsert (n : name) (l : list name) : list name := if existsb (eqb_bytes n) l then l else l ++ [n].

(** [iter().enumerate()] *)
Fixpoint enumerate_from {A} (i : Z) (l : list A) : list (Z * A) :=
  match l with [] => [] | a :: r => (i, a) :: enumerate_from (i + 1) r end.
Definition enumerate {A} (l : list A) : list (Z * A) := enumerate_from 0 l.

(** a loop that collects results *)
Fixpoint mmap {A B} (f : A -> res B) (l : list A) : res (list B) :=
  match l with [] => Ok [] | a :: r => b <- f a ; r <- mmap f r ; Ok (b :: r) end.

(** [f64 as u64]: truncation, saturating, NaN to 0 *)
Definition to_uint (w : Z) (v : fval) : Z :=
  match v with
  | FNaN => 0
  | FInf s => if s then 0 else 2 ^ w - 1
  | FNum s n => Z.max 0 (Z.min (2 ^ w - 1) (signed s (n / 2 ^ unit_exp)))
  end.

(** [i64 as f64] *)
Definition i64_to_f64 (i : Z) : Z := fenc F64 (of_int F64 i).

(** get_id.rs L4-9 *)
Definition get_id (v : jval) : option id_value :=
  match v with
  | JString s => Some (IdStr s)
  | JDouble d => Some (IdNum (to_uint 64 (fdec F64 d)))
  | _ => None
  end.

(** get_old.rs L8-29 *)
Definition get_old (array : list jval) : res (list name) :=
  mfold (fun result item =>
           match item with
           | JString s => match json_name s with Some (NName nm Normal) => Ok (sinsert nm result) | _ => Err end
           | _ => Err
           end) array [].

(** json_array_to_rust.rs L70-86 GatResult with structs/array_type.rs L3-7 *)
Inductive array_type : Type := AtFloat | AtInt | AtBinary.
Inductive gat : Type :=
| GAT (t : array_type) | GCList | GTable | GMList | GCil | GMil | GCilDef | GMilDef
| GInt | GNoTagInt | GFloat | GStr | GBool | GInnerMutUndefined | GNotDefined.

(** json_array_to_rust.rs L88-117 *)
Definition get_array_type (a : list jval) : gat :=
  match a with
  | JString s :: _ =>
      if eqb_bytes s (txt "IntArray") then GAT AtInt
      else if eqb_bytes s (txt "FloatArray") then GAT AtFloat
      else if eqb_bytes s (txt "Binary") then GAT AtBinary
      else if eqb_bytes s (txt "Int") then GInt
      else if eqb_bytes s (txt "Float") then GFloat
      else if eqb_bytes s (txt "Str") then GStr
      else if eqb_bytes s (txt "Bool") then GBool
      else if eqb_bytes s (txt "CList") then GCList
      else if eqb_bytes s (txt "Table") then GTable
      else if eqb_bytes s (txt "MList") then GMList
      else if eqb_bytes s (txt "Cil") then GCil
      else if eqb_bytes s (txt "Mil") then GMil
      else if eqb_bytes s (txt "CilDef") then GCilDef
      else if eqb_bytes s (txt "MilDef") then GMilDef
      else if eqb_bytes s (txt "__InnerMutUndefined") then GInnerMutUndefined
      else GNotDefined
  | JInt _ :: _ => GNoTagInt
  | _ => GNotDefined
  end.

(** array_null.rs L10-48 *)
Definition array_null_or_undefined (a : list jval) (g : gat) (vt : var_type) : res rvalue :=
  match a with
  | [JNull] =>
      match g with
      | GFloat => Ok (VaParam (PFloat Null) vt) | GInt => Ok (VaParam (PInt Null) vt)
      | GStr => Ok (VaParam (PString Null) vt) | GBool => Ok (VaParam (PBool Null) vt)
      | _ => Panic
      end
  | [JUndefined] =>
      match g with
      | GFloat => Ok (VaParam (PFloat Undefined) vt) | GInt => Ok (VaParam (PInt Undefined) vt)
      | GStr => Ok (VaParam (PString Undefined) vt) | GBool => Ok (VaParam (PBool Undefined) vt)
      | _ => Panic
      end
  | [JInt d] => match g with GFloat => Ok (VaParam (PFloat (Val (i64_to_f64 d))) vt) | _ => Err end
  | [JDouble d] => match g with GFloat => Ok (VaParam (PFloat (Val d)) vt) | _ => Err end
  | _ => Err
  end.

(* ------------------------------------------------------------------ *)
(** * Conversion *)

Section Convert.
(** The address of the [Arc] made for a string, an integer array or a binary.  In the
    code every [Arc::new] has an address of its own; here it depends on the content. *)
Variable addr : list Z -> Z.
(** The iteration order of a hash map.  Theorems assume that it is a permutation. *)
Variable iter : forall A, hmap A -> hmap A.

Definition new_arc (l : list Z) : arc (list Z) := (addr l, l).

(** [collect::<Option<Vec<..>>>] with structs/rust_param.rs L98-113 to_float, to_int, to_u8
    (structs/rust_array.rs L32-42, L66-69, L91-94, L116-119) *)
Definition to_floats (l : list param) : option (list Z) :=
  map_opt (fun p => match p with PFloat (Val f) => Some f | _ => None end) l.
Definition to_ints (l : list param) : option (list Z) :=
  map_opt (fun p => match p with PInt (Val i) => Some i | _ => None end) l.
Definition to_u8s (l : list param) : option (list Z) :=
  map_opt (fun p => match p with PInt (Val i) => if (0 <=? i) && (i <? 256) then Some i else None | _ => None end) l.

(** structs/qv.rs opt_map *)
Definition opt_map {A B} (f : A -> option B) (q : qv A) : option (qv B) :=
  match q with
  | Val a => match f a with Some b => Some (Val b) | None => None end
  | Null => Some Null
  | Undefined => Some Undefined
  end.

(** structs/rust_array.rs L44-52 *)
Definition to_param (q : qv (list param)) (t : array_type) : res param :=
  match t with
  | AtFloat => q <- ok_or (opt_map to_floats q) ; Ok (PFloatArray q)
  | AtInt => q <- ok_or (opt_map (fun l => match to_ints l with Some a => Some (new_arc a) | None => None end) q) ; Ok (PIntArray q)
  | AtBinary => q <- ok_or (opt_map (fun l => match to_u8s l with Some a => Some (new_arc a) | None => None end) q) ; Ok (PBinary q)
  end.

(** tmp/tmp_obj.rs L159-171 *)
Definition to_list_sab_map (m : hmap (Z * rvalue)) : res (hmap cval) :=
  mfold (fun result e => let '(k, (_, v)) := e in
           sab <- into_list_sab_value v ; Ok (hset k sab result)) (iter _ m) [].

(** tmp/tmp_obj.rs L173-185: the members are numbered anew, in iteration order *)
Definition to_list_def_val_map (m : hmap (Z * rvalue)) : res (hmap (Z * ldefval def)) :=
  mfold (fun result e => let '(idx, (k, (_, v))) := e in
           d <- into_list_def_value v ; Ok (hset k (idx, d) result)) (enumerate (iter _ m)) [].

(** tmp/tmp_obj.rs L187-193 *)
Definition to_ref_sab_map (m : hmap (Z * (qv (list Z) * var_type))) : hmap (qv (list Z)) :=
  fold_left (fun result e => let '(k, (_, (q, _))) := e in hset k q result) (iter _ m) [].

(** tmp/tmp_obj.rs L92-98 *)
Definition into_list_def_obj (o : tmp_obj) : res def :=
  match to_id o with
  | Some _ => Err
  | None =>
      members <- to_list_def_val_map (to_default o) ;
      Ok (Def (LDef members (tr_map (to_refs o)) (tr_enum (to_refs o)) (to_old o) (tr_old (to_refs o))))
  end.

(** the item made at tmp/tmp_obj.rs L116, L131, L155 *)
Definition item_of (o : tmp_obj) : res citem :=
  values <- to_list_sab_map (to_default o) ;
  Ok (CItem values (to_ref_sab_map (tr_map (to_refs o)))).

Definition is_nil {A} (l : list A) : bool := match l with [] => true | _ => false end.

(** tmp/tmp_obj.rs L104-117 *)
Definition into_list_item (o : tmp_obj) : res citem :=
  match to_id o with
  | Some _ => Err
  | None => if is_nil (to_old o) && is_nil (tr_old (to_refs o)) then item_of o else Err
  end.

(** tmp/tmp_obj.rs L119-137 *)
Definition into_list_item_with_id (o : tmp_obj) : res (name * citem) :=
  match to_id o with
  | None => Err
  | Some id =>
      if is_nil (to_old o) && is_nil (tr_old (to_refs o)) then
        match id with
        | IdStr s => it <- item_of o ; Ok (s, it)
        | IdNum _ => Err
        end
      else Err
  end.

(** tmp/tmp_obj.rs L139-156 *)
Definition into_mut_list_item (o : tmp_obj) (idx : Z) : res (Z * citem) :=
  id <- match to_id o with Some (IdNum id) => Ok id | Some (IdStr _) => Err | None => Ok idx end ;
  if is_nil (to_old o) && is_nil (tr_old (to_refs o)) then it <- item_of o ; Ok (id, it) else Err.

(** tmp/tmp_list.rs L204-210 *)
Definition to_list_items (l : list tmp_obj) : res (list citem) := mmap into_list_item l.
(** tmp/tmp_list.rs L212-219 *)
Definition to_data_items (l : list tmp_obj) : res (hmap citem) :=
  mfold (fun result o => '(s, m) <- into_list_item_with_id o ; Ok (hset s m result)) l [].
(** tmp/tmp_list.rs L221-229 *)
Definition to_mut_list_items (l : list tmp_obj) (next_id : Z) : res mutlist :=
  items <- mmap (fun e => into_mut_list_item (snd e) (fst e)) (enumerate l) ;
  Ok (items, next_id).

Definition is_some {A} (o : option A) : bool := match o with Some _ => true | None => false end.
Definition unwrap_or {A} (o : option A) (a : A) : A := match o with Some x => x | None => a end.

(** tmp/tmp_list.rs L26-42 *)
Definition into_const_list (t : tmp_list) : res rvalue :=
  if is_some (tl_old t) then Err else
  match tl_default t with
  | None => Err
  | Some d => if is_some (tl_next t) then Err else items <- to_list_items (tl_vec t) ; Ok (VaCList d items)
  end.
(** tmp/tmp_list.rs L46-61 *)
Definition into_inner_list (t : tmp_list) : res rvalue :=
  if is_some (tl_old t) || is_some (tl_default t) || is_some (tl_next t) then Err
  else items <- to_list_items (tl_vec t) ; Ok (VaCil items).
(** tmp/tmp_list.rs L63-76 *)
Definition into_const_data (t : tmp_list) : res rvalue :=
  match tl_default t with
  | None => Err
  | Some d =>
      if is_some (tl_next t) then Err
      else items <- to_data_items (tl_vec t) ; Ok (VaTable d items (unwrap_or (tl_old t) []))
  end.
(** tmp/tmp_list.rs L130-145 *)
Definition into_mut_list (t : tmp_list) (undefiable : bool) : res rvalue :=
  if is_some (tl_old t) then Err else
  match tl_default t with
  | None => Err
  | Some d =>
      items <- to_mut_list_items (tl_vec t) (unwrap_or (tl_next t) (zlen (tl_vec t))) ;
      Ok (VaMList d undefiable (Some items))
  end.
(** tmp/tmp_list.rs L147-163 *)
Definition into_mut_inner_list (t : tmp_list) : res rvalue :=
  if is_some (tl_old t) || is_some (tl_default t) then Err
  else items <- to_mut_list_items (tl_vec t) (unwrap_or (tl_next t) (zlen (tl_vec t))) ; Ok (VaMil (Some items)).
(** the checks of tmp/tmp_list.rs L165-183 and L185-200 *)
Definition only_default (t : tmp_list) : res def :=
  if is_some (tl_old t) then Err else
  match tl_default t with
  | None => Err
  | Some d => if is_some (tl_next t) || negb (is_nil (tl_vec t)) then Err else Ok d
  end.
(** tmp/tmp_list.rs L165-183 *)
Definition into_inner_def (t : tmp_list) : res rvalue := d <- only_default t ; Ok (VaCilDef d).
(** tmp/tmp_list.rs L185-200 *)
Definition into_inner_mut_def (t : tmp_list) (undefiable : bool) : res rvalue :=
  d <- only_default t ; Ok (VaMilDef d undefiable).

(** The functions below call each other on parts of their argument.  [arr] and [obj]
    stand for json_array_to_rust and json_obj_to_rust on such parts; [convert] below
    ties the knot. *)
Section Open.
Variable arr : list jval -> var_type -> res rvalue.
Variable obj : list (name * jval) -> bool -> res tmp_obj.

(** the loop body of get_array, json_array_to_rust.rs L121-181 *)
Definition array_item (t : array_type) (item : jval) : res param :=
  match item with
  | JDouble f => match t with AtFloat => Ok (PFloat (Val f)) | _ => Err end
  | JInt i => match t with AtFloat => Ok (PFloat (Val (i64_to_f64 i))) | _ => Ok (PInt (Val i)) end
  | JArray a2 =>
      match t with
      | AtFloat =>
          rv <- arr a2 Normal ;
          match rv with VaParam (PFloat (Val f)) _ => Ok (PFloat (Val f)) | _ => Err end
      | _ => Err
      end
  | _ => Err
  end.

(** json_array_to_rust.rs L119-183 *)
Definition get_array (a : list jval) (t : array_type) : res (qv (list param)) :=
  match a with
  | [JNull] => Ok Null
  | [JUndefined] => Ok Undefined
  | _ => l <- mmap (array_item t) a ; Ok (Val l)
  end.

(** list/get_default.rs L9-27 *)
Definition get_default (array : list jval) : res def :=
  match array with
  | [JMap m] => o <- obj m false ; into_list_def_obj o
  | _ => Err
  end.

(** list/list_attribute.rs L17-63 *)
Definition list_attribute (array : list jval) : res attribute :=
  match array with
  | JString s :: rest =>
      if eqb_bytes s (txt "Default") then d <- get_default rest ; Ok (ADefault d)
      else if eqb_bytes s (txt "Old") then l <- get_old rest ; Ok (AOld l)
      else if eqb_bytes s (txt "NextID") then
        match rest with [JInt n] => Ok (ANextID (to_unsigned 64 n)) | _ => Err end
      else Err
  | JMap _ :: _ => d <- get_default array ; Ok (ADefault d)
  | _ => Err
  end.

(** list/get_list_items.rs L7-21 *)
Definition get_list_items (array : list jval) : res (list tmp_obj) :=
  mmap (fun item => match item with JMap m => obj m false | _ => Err end) array.

(** list/json_list_to_rust.rs L8-55 *)
Fixpoint json_list_loop (result : tmp_list) (array : list jval) : res tmp_list :=
  match array with
  | [] => Ok result
  | JArray a2 :: rest =>
      at' <- list_attribute a2 ;
      result <- match at' with
                | ADefault d =>
                    if is_some (tl_default result) then Err
                    else Ok (TmpList (tl_vec result) (tl_old result) (Some d) (tl_next result))
                | AOld l =>
                    if is_some (tl_old result) then Err
                    else Ok (TmpList (tl_vec result) (Some l) (tl_default result) (tl_next result))
                | ANextID n =>
                    if is_some (tl_next result) then Err
                    else Ok (TmpList (tl_vec result) (tl_old result) (tl_default result) (Some n))
                end ;
      json_list_loop result rest
  | JMap _ :: _ =>
      items <- get_list_items array ;
      Ok (TmpList items (tl_old result) (tl_default result) (tl_next result))
  | _ => Err
  end.
Definition json_list_to_rust (array : list jval) : res tmp_list := json_list_loop (TmpList [] None None None) array.

(** json_array_to_rust.rs L14-68 *)
Definition json_array_to_rust (array : list jval) (vt : var_type) : res rvalue :=
  match get_array_type array with
  | GAT t => a <- get_array (tl array) t ; p <- to_param a t ; Ok (VaParam p vt)
  | GNoTagInt =>
      a <- get_array array AtInt ;
      match to_param a AtInt with Ok p => Ok (VaParam p vt) | _ => Panic end
  | (GFloat | GInt | GStr | GBool) as g => array_null_or_undefined (tl array) g vt
  | GInnerMutUndefined => Ok (VaMil None)
  | GNotDefined => Err
  | g =>
      match vt with
      | Normal =>
          tmp <- json_list_to_rust (tl array) ;
          match g with
          | GCList => into_const_list tmp
          | GTable => into_const_data tmp
          | GMList => into_mut_list tmp false
          | GCil => into_inner_list tmp
          | GMil => into_mut_inner_list tmp
          | GCilDef => into_inner_def tmp
          | GMilDef => into_inner_mut_def tmp false
          | _ => Panic
          end
      | Undefiable =>
          tmp <- json_list_to_rust (tl array) ;
          match g with
          | GMilDef => into_inner_mut_def tmp true
          | GMList => into_mut_list tmp true
          | _ => Err
          end
      | _ => Err
      end
  end.

(** json_item_to_rust.rs L12-41 *)
Definition json_item_to_rust (vt : var_type) (v : jval) : res rvalue :=
  match v with
  | JBool b => Ok (VaParam (PBool (Val b)) vt)
  | JDouble f => Ok (VaParam (PFloat (Val f)) vt)
  | JInt i => Ok (VaParam (PInt (Val i)) vt)
  | JString s => Ok (VaParam (PString (Val (new_arc s))) vt)
  | JArray a => arr a vt
  | JMap _ | JNull | JUndefined => Err
  end.

(** json_item_to_rust.rs L43-72 *)
Definition json_item_to_rust_ref (vt : var_type) (v : jval) : res rvalue :=
  match v with
  | JString s => Ok (VaParam (PString (Val (new_arc s))) vt)
  | JNull => Ok (VaParam (PString Null) vt)
  | JUndefined => Ok (VaParam (PString Undefined) vt)
  | _ => Err
  end.

(** [Qv::map] of a string to its text *)
Definition ref_text (q : qv (arc (list Z))) : qv (list Z) :=
  match q with Val a => Val (snd a) | Null => Null | Undefined => Undefined end.

(** get_refs.rs L16-50: the references are numbered anew, in iteration order *)
Definition get_ref (m : list (name * jval)) : res tmp_refs :=
  o <- obj m true ;
  if negb (is_nil (tr_map (to_refs o))) || is_some (to_id o) then Err else
  refs <- mfold (fun result e => let '(idx, (k, (_, v))) := e in
                   match v with
                   | VaParam (PString q) vt =>
                       match q with
                       | Val s =>
                           if negb (is_some (json_simple_name (snd s))) && negb (is_nil (snd s)) then Err
                           else Ok (hset k (idx, (ref_text q, vt)) result)
                       | _ => Ok (hset k (idx, (ref_text q, vt)) result)
                       end
                   | _ => Err
                   end) (enumerate (iter _ (to_default o))) [] ;
  Ok (TmpRefs refs (to_old o) false).

(** one step of the loop of json_obj_to_rust, json_obj_to_rust.rs L19-77, with the counter *)
Definition obj_step (is_ref : bool) (st : tmp_obj * Z) (e : name * jval) : res (tmp_obj * Z) :=
  let '(r, counter) := st in
  let '(k, v) := e in
  match json_name k with
  | None => Err
  | Some (NName nm vt) =>
      v <- (if is_ref then json_item_to_rust_ref vt v else json_item_to_rust vt v) ;
      Ok (TmpObj (hset nm (counter, v) (to_default r)) (to_id r) (to_refs r) (to_old r), counter + 1)
  | Some (NSystem SID) =>
      if is_some (to_id r) then Err else
      match get_id v with
      | Some id => Ok (TmpObj (to_default r) (Some id) (to_refs r) (to_old r), counter)
      | None => Err
      end
  | Some (NSystem SRef) | Some (NSystem SEnum) =>
      if negb (is_nil (tr_map (to_refs r))) then Err else
      match v with
      | JMap m =>
          refs <- get_ref m ;
          let is_enum := match json_name k with Some (NSystem SEnum) => true | _ => false end in
          Ok (TmpObj (to_default r) (to_id r)
                (TmpRefs (tr_map refs) (tr_old refs) (is_enum || tr_enum refs)) (to_old r), counter)
      | _ => Err
      end
  | Some (NSystem SOld) =>
      match v with
      | JArray a => old <- get_old a ; Ok (TmpObj (to_default r) (to_id r) (to_refs r) old, counter)
      | _ => Err
      end
  end.

(** tmp/tmp_obj.rs L55-57 *)
Definition new_tmp_obj : tmp_obj := TmpObj [] None (TmpRefs [] [] false) [].

(** json_obj_to_rust.rs L16-79 *)
Definition json_obj_to_rust (m : list (name * jval)) (is_ref : bool) : res tmp_obj :=
  '(r, _) <- mfold (obj_step is_ref) m (new_tmp_obj, 0) ; Ok r.
End Open.

(** The recursion, to a given nesting depth; deeper values do not occur for the depth
    chosen below. *)
Fixpoint convert (n : nat) : (list jval -> var_type -> res rvalue) * (list (name * jval) -> bool -> res tmp_obj) :=
  match n with
  | O => (fun _ _ => Panic, fun _ _ => Panic)
  | S n => let '(arr, obj) := convert n in (json_array_to_rust arr obj, json_obj_to_rust arr obj)
  end.
Definition arr_of (n : nat) := fst (convert n).
Definition obj_of (n : nat) := snd (convert n).

(** how deep arrays and objects nest *)
Fixpoint jdepth (v : jval) : nat :=
  match v with
  | JArray l => S (list_max (map jdepth l))
  | JMap m => S (list_max (map (fun e => jdepth (snd e)) m))
  | _ => O
  end.

(* ------------------------------------------------------------------ *)
(** * Meta tables of definitions of any depth *)

(** structs/meta_table.rs L42-46, nested to any depth *)
Inductive meta : Type := Meta (m : metatables meta).

(** how deep definitions nest *)
Fixpoint def_depth (d : def) : nat :=
  let 'Def l := d in
  S (list_max (map (fun e => let '(_, (_, v)) := e in
                             match v with DParam _ _ => O | DCil d => def_depth d | DMil d _ => def_depth d end)
                   (ld_members l))).

(** structs/meta_table.rs L98-161, on definitions of any depth; the recursion goes to depth [n] *)
Fixpoint def_tables (n : nat) (d : def) : res meta :=
  match n with
  | O => Panic
  | S n => m <- tables_of (def_tables n) (undef d) ; Ok (Meta m)
  end.

(** the part of a root member the meta table depends on *)
Definition strip (v : rootvalue) : rootval def :=
  match v with
  | WParam p vt => RVParam p vt
  | WTable _ _ _ => RVTable
  | WCList _ _ => RVCList
  | WMList d undefiable => RVMList d undefiable
  end.
Definition strip_root (m : hmap (Z * rootvalue)) : hmap (Z * rootval def) :=
  map (fun e => (fst e, (fst (snd e), strip (snd (snd e))))) m.

(** structs/meta_table.rs L98-126 *)
Definition meta_of (m : hmap (Z * rootvalue)) : res (metatable meta) :=
  from_root (fun d => def_tables (def_depth d) d) (iter _ (strip_root m)).

(** structs/root_obj.rs L12-27 *)
Record root_obj : Type := RootObj {
  ro_default : hmap (Z * rootvalue);
  ro_sabun : hmap (rootsab mutlist);
  ro_old : list name;
  ro_meta : metatable meta }.

(** structs/root_obj.rs L50-53 *)
Definition new_root (default : hmap (Z * rootvalue)) (sabun : hmap (rootsab mutlist)) (old : list name) : res root_obj :=
  m <- meta_of default ; Ok (RootObj default sabun old m).

(** tmp/tmp_obj.rs L60-79 *)
Definition to_root_hash (m : hmap (Z * rvalue)) : res (hmap (Z * rootvalue) * hmap (rootsab mutlist)) :=
  mfold (fun st e => let '(result, sabun) := st in let '(key, (id, value)) := e in
           '(d, v) <- into_root_value value ;
           Ok (hset key (id, d) result, match v with Some v => hset key v sabun | None => sabun end))
        (iter _ m) ([], []).

(** tmp/tmp_obj.rs L59-90 *)
Definition into_root_obj (o : tmp_obj) : res root_obj :=
  if is_some (to_id o) || negb (is_nil (tr_map (to_refs o))) then Err else
  '(d, sabun) <- to_root_hash (to_default o) ;
  new_root d sabun (to_old o).

(* ------------------------------------------------------------------ *)
(** * Files *)

(** mod.rs L24-36, after the text has been parsed *)
Definition json_root_to_rust (v : jval) : res root_obj :=
  match v with
  | JMap m => o <- obj_of (jdepth v) m false ; into_root_obj o
  | _ => Err
  end.

(** mod.rs L38-42, after the text has been parsed *)
Definition json_item_str_to_rust (v : jval) (vt : var_type) : res rvalue :=
  json_item_to_rust (arr_of (jdepth v)) vt v.

(** structs/dochy_archive.rs L26-29 *)
Inductive archiving_item : Type :=
| ARoot (r : root_obj)
| AItem (n : name) (v : rootvalue) (s : option (rootsab mutlist)).

(** std Path::file_stem of a path with ordinary components: what follows the last [/],
    up to its last dot unless that is its first character *)
Fixpoint after_slash (acc s : list Z) : list Z :=
  match s with [] => acc | c :: r => if c =? 47 then after_slash r r else after_slash acc r end.
Definition file_stem (path : list Z) : list Z :=
  let file := after_slash path path in
  match extension file with
  | [] => if negb (is_nil (removelast file)) && (last file 0 =? 46) then removelast file else file
  | ext => firstn (length file - S (length ext)) file
  end.

(** dochy_json5::from_str, and std::str::from_utf8 before it: the value of a text *)
Variable parse : list Z -> option jval.

(** roots/json_file_to_rust.rs L9-32 *)
Definition json_file_to_rust (path content : list Z) : res archiving_item :=
  let file_name := file_stem path in
  if eqb_bytes file_name (txt "root") then
    v <- ok_or (parse content) ; r <- json_root_to_rust v ; Ok (ARoot r)
  else
    match json_name file_name with
    | Some (NName nm vt) =>
        v <- ok_or (parse content) ;
        v <- json_item_str_to_rust v vt ;
        '(w, sab) <- into_root_value v ;
        Ok (AItem nm w sab)
    | _ => Err
    end.

(** [sort_by] of construct_root.rs L16: stable, by name *)
Fixpoint insert_by_name {A} (e : name * A) (l : list (name * A)) : list (name * A) :=
  match l with
  | [] => [e]
  | x :: r => if bytes_lt (fst e) (fst x) then e :: l else x :: insert_by_name e r
  end.
Definition sort_by_name {A} (l : list (name * A)) : list (name * A) := fold_left (fun acc e => insert_by_name e acc) l [].

(** construct_root.rs L9-31 *)
Definition construct_root (root : root_obj) (vec : list (name * (rootvalue * option (rootsab mutlist)))) : res root_obj :=
  let '(default, sabun) :=
    fold_left (fun st e => let '(default, sabun) := st in let '(nm, (value, sab)) := e in
                 (hset nm (zlen default, value) default,
                  match sab with Some sab => hset nm sab sabun | None => sabun end))
              (sort_by_name vec) (ro_default root, ro_sabun root) in
  new_root default sabun (ro_old root).

(** roots/archive_data_to_root.rs L20-43: the first root in the order of the paths,
    and the other files *)
Fixpoint take_root (l : list (res archiving_item)) : option (root_obj * list (res archiving_item)) :=
  match l with
  | [] => None
  | Ok (ARoot r) :: rest => Some (r, rest)
  | x :: rest => match take_root rest with Some (r, others) => Some (r, x :: others) | None => None end
  end.

(** roots/archive_data_to_root.rs L45-55 *)
Definition other_items (l : list (res archiving_item)) : res (list (name * (rootvalue * option (rootsab mutlist)))) :=
  mmap (fun x => match x with
                 | Ok (AItem nm v s) => Ok (nm, (v, s))
                 | Ok (ARoot _) => Err
                 | Err => Err
                 | Panic => Panic
                 end) l.

(** roots/json_dir_to_root.rs L29-37 and roots/archive_data_to_root.rs L16-59, on the
    files of the source folder in the order of their paths.  A panic while converting
    a file ends the program. *)
Definition files_to_root (files : smap (list Z)) : res root_obj :=
  let items := map (fun f => json_file_to_rust (fst f) (snd f)) files in
  if existsb is_panic items then Panic
  else if existsb (fun x => negb (is_ok x)) items then Err
  else
    '(root, others) <- ok_or (take_root items) ;
    vec <- other_items others ;
    construct_root root vec.

End Convert.
