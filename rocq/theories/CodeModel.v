(** Model of the text of generated accessors, character by character.  Citations are relative
    to /repo/dochy_intf/src/imp unless another crate is named.  As in GenModel the
    [MemberDesc]s and [MemberSource]s between a definition and the text are left out, and hash
    maps are association lists whose order is the order of iteration. *)
From Coq Require Import String.
From Verif Require Import Base TextModel StringCompactionModel DocModel JsonModel IntfModel GenModel.

Notation text := (list Z).
Local Notation "! s" := (txt s%string) (at level 0, s at level 0).

(* ------------------------------------------------------------------ *)
(** * structs/source_builder.rs.  A builder is the text it holds; a function that pushes several
    times is the concatenation of what it pushes. *)

(** L34-42 *)
Definition tab_line (tabs : nat) (s : text) : text := repeat 9 tabs ++ s ++ [10].

(** [str::split] at line feeds *)
Fixpoint lines (s : text) : list text :=
  match s with
  | [] => [[]]
  | c :: r => if c =? 10 then [] :: lines r else match lines r with l :: ls => (c :: l) :: ls | [] => [[c]] end
  end.

(** L6-10 *)
Definition push (tabs : nat) (s : text) : text := concat (map (tab_line tabs) (lines s)).
(** L11-22, [ends_with] and the slice *)
Definition without_newline (s : text) : text := match rev s with 10 :: r => rev r | _ => s end.
Definition push_without_newline (tabs : nat) (s : text) : text := push tabs (without_newline s).

(* ------------------------------------------------------------------ *)
(** * Words *)

(** dochy_core structs/param_type.rs L8-18, L19-29 *)
Definition nickname (t : param_type) : text :=
  match t with
  | TBool => !"bool" | TInt => !"int" | TFloat => !"float" | TString => !"str"
  | TIntArray => !"int_array" | TFloatArray => !"float_array" | TBinary => !"binary"
  end.
Definition typename (t : param_type) : text :=
  match t with
  | TBool => !"bool" | TInt => !"i64" | TFloat => !"f64" | TString => !"String"
  | TIntArray => !"Vec<i64>" | TFloatArray => !"Vec<f64>" | TBinary => !"Vec<u8>"
  end.

(** util/with_var.rs L3-10 *)
Definition with_var (t : text) (vt : var_type) : text :=
  match vt with
  | Normal => t
  | Nullable => !"NullOr<" ++ t ++ !">"
  | Undefiable => !"UndefOr<" ++ t ++ !">"
  | UndefNullable => !"Qv<" ++ t ++ !">"
  end.
(** util/into_qv.rs L3-9 *)
Definition into_qv (nm : text) (vt : var_type) : text :=
  match vt with Normal => !"Qv::Val(" ++ nm ++ !")" | _ => nm ++ !".into_qv()" end.

(** [mod_name]: root_source.rs L43-58, mitem_source.rs L49-64, citem_source.rs L47-58 *)
Definition mod_name (at_ : place) : text := match at_ with AtRoot => !"root" | AtMItem => !"mitem" | AtCItem => !"citem" end.

(* ------------------------------------------------------------------ *)
(** * structs/param_source.rs *)

(** L45-58; the same in L71-84, L97-110, L123-136, L150-163 *)
Definition unwrap_qv (vt : var_type) : text :=
  match vt with
  | Normal => !"qv.into_value().unwrap()"
  | Undefiable => !"UndefOr::from_qv(qv).unwrap()"
  | Nullable => !"NullOr::from_qv(qv).unwrap()"
  | UndefNullable => !"qv"
  end.

Section Param.
Variable at_ : place.
Variable t : param_type.
Variable vt : var_type.
Variable key : name.
Variable old : bool.
Local Notation nm := (with_old (to_snake_name key) old).

(** L33-61 *)
Definition param_get : text :=
  push 0 (!"pub fn " ++ nm ++ !"(&self) -> " ++ with_var (typename t) vt ++ !"{") ++
  push 1 (!"let qv = " ++ mod_name at_ ++ !"::get_" ++ nickname t ++ !"(self.ptr, """ ++ key ++ !""").unwrap();") ++
  push 1 (unwrap_qv vt) ++ push 0 !"}".
(** L62-87 *)
Definition param_get_immutable : text :=
  push 0 (!"pub fn " ++ nm ++ !"(&self) -> " ++ with_var (!"&" ++ typename t) vt ++ !"{") ++
  push 1 (!"let qv = " ++ mod_name at_ ++ !"::get_immutable_" ++ nickname t ++ !"(self.ptr, """ ++ key ++ !""").unwrap();") ++
  push 1 (unwrap_qv vt) ++ push 0 !"}".
(** L88-113 *)
Definition param_get_mutable : text :=
  push 0 (!"pub fn " ++ nm ++ !"_mut(&mut self) -> " ++ with_var (!"&mut " ++ typename t) vt ++ !"{") ++
  push 1 (!"let qv = " ++ mod_name at_ ++ !"::get_mutable_" ++ nickname t ++ !"(self.ptr, """ ++ key ++ !""").unwrap();") ++
  push 1 (unwrap_qv vt) ++ push 0 !"}".
(** L114-139 *)
Definition param_get_def : text :=
  push 0 (!"pub fn " ++ nm ++ !"_def_val(&self) -> " ++ with_var (typename t) vt ++ !"{") ++
  push 1 (!"let qv = " ++ mod_name at_ ++ !"::get_" ++ nickname t ++ !"_def(self.ptr, """ ++ key ++ !""").unwrap();") ++
  push 1 (unwrap_qv vt) ++ push 0 !"}".
(** L141-166 *)
Definition param_get_def_immutable : text :=
  push 0 (!"pub fn " ++ nm ++ !"_def_val(&self) -> " ++ with_var (!"&" ++ typename t) vt ++ !"{") ++
  push 1 (!"let qv = " ++ mod_name at_ ++ !"::get_" ++ nickname t ++ !"_def(self.ptr, """ ++ key ++ !""").unwrap();") ++
  push 1 (unwrap_qv vt) ++ push 0 !"}".
(** L168-182 *)
Definition param_set : text :=
  push 0 (!"pub fn set_" ++ nm ++ !"(&mut self, " ++ to_snake_name key ++ !" : " ++ with_var (typename t) vt ++ !"){") ++
  push 1 (mod_name at_ ++ !"::set_" ++ nickname t ++ !"(self.ptr, """ ++ key ++ !""", " ++ into_qv (to_snake_name key) vt ++ !");") ++
  push 0 !"}".

(** root_source.rs L41-57, mitem_source.rs L49-65, citem_source.rs L46-59 *)
Definition param_text : text :=
  let all := concat (map (push_without_newline 1)
    (match at_ with
     | AtCItem => if by_reference t then [param_get_def_immutable; param_get_immutable] else [param_get; param_get_def]
     | _ => if by_reference t then [param_get_def_immutable; param_get_immutable; param_get_mutable; param_set]
            else [param_get; param_get_def; param_set]
     end)) in all.
End Param.

(* ------------------------------------------------------------------ *)
(** * Lists *)

(** structs/mlist_source.rs L34-58 and structs/mil_source.rs L37-61; the local variable of the
    second method is [mil] in the former and [p] in the latter *)
Definition list_text (at_ : place) (undefiable : bool) (key : name) (old : bool) : text :=
  let nm := with_old (to_snake_name key) old in
  let f := match at_ with AtRoot => !"root::get_mlist" | _ => !"mitem::get_mil" end in
  let v := match at_ with AtRoot => !"mil" | _ => !"p" end in
  (if undefiable then
     push 0 (!"pub fn " ++ nm ++ !"(&self) -> Option<MListConst<" ++ mitem_type key ++ !">>{") ++
     push 1 (!"let mil = " ++ f ++ !"_const(self.ptr, """ ++ key ++ !""").unwrap();") ++
     push 1 !"mil.map(move |p| MListConst::new(p, self))" ++
     push 0 !"}"
   else
     push 0 (!"pub fn " ++ nm ++ !"(&self) -> MListConst<" ++ mitem_type key ++ !">{") ++
     push 1 (!"let mil = " ++ f ++ !"_const(self.ptr, """ ++ key ++ !""").unwrap().unwrap();") ++
     push 1 !"MListConst::new(mil, self)" ++
     push 0 !"}") ++
  push 0 (!"pub fn " ++ nm ++ !"_mut(&mut self) -> MListMut<" ++ mitem_type key ++ !">{") ++
  push 1 (!"let " ++ v ++ !" = " ++ f ++ !"_mut(self.ptr, """ ++ key ++ !""").unwrap();") ++
  push 1 (!"MListMut::new(" ++ v ++ !", self)") ++
  push 0 !"}".

(** structs/clist_source.rs L31-46, structs/cil_source.rs L31-46 *)
Definition const_text (at_ : place) (key : name) (old : bool) : text :=
  let f := match at_ with AtRoot => !"root::get_clist" | _ => !"citem::get_cil" end in
  push 0 (!"pub fn " ++ with_old (to_snake_name key) old ++ !"(&self) -> CListConst<" ++ citem_type key ++ !">{") ++
  push 1 (!"CListConst::new(" ++ f ++ !"(self.ptr, """ ++ key ++ !""").unwrap(), self)") ++
  push 0 !"}".

(** structs/table_source.rs L54-71 *)
Definition table_get_text (key : name) (old : bool) : text :=
  push 0 (!"pub fn " ++ with_old (to_snake_name key) old ++ !"(&self) -> CTableConst<" ++ table_type key ++ !">{") ++
  push 1 (!"let t = " ++ table_type key ++ !"::new(root::get_table(self.ptr.def(), """ ++ key ++ !""").unwrap());") ++
  push 1 !"CTableConst::new(t, self)" ++
  push 0 !"}".

(* ------------------------------------------------------------------ *)
(** * References *)

(** structs/ref_source.rs L35-65 *)
Definition ref_get_text (at_ : place) (key : name) (vt : var_type) (old : bool) : text :=
  let nm := with_old (to_snake_name key) old in
  let item := citem_type key in
  push 0 (!"pub fn ref_" ++ nm ++ !"(&self) -> " ++ with_var item vt ++ !"{") ++
  push 1 (!"let qv = " ++ mod_name at_ ++ !"::get_ref(self.ptr, """ ++ key ++ !""").unwrap();") ++
  push 1 (match vt with
          | Normal => item ++ !"::from(qv.into_value().unwrap())"
          | Nullable => !"NullOr::from_qv(qv).unwrap().map(|p| " ++ item ++ !"::from(p))"
          | Undefiable => !"UndefOr::from_qv(qv).unwrap().map(|p| " ++ item ++ !"::from(p))"
          | UndefNullable => !"qv.map(|p| " ++ item ++ !"::from(p))"
          end) ++
  push 0 !"}" ++
  push 0 (!"pub fn ref_id_" ++ nm ++ !"(&self) -> " ++ with_var !"&String" vt ++ !"{") ++
  push 1 (!"let qv = " ++ mod_name at_ ++ !"::get_ref_id(self.ptr, """ ++ key ++ !""").unwrap();") ++
  push 1 (unwrap_qv vt) ++
  push 0 !"}".

(** structs/ref_source.rs L66-83 *)
Definition ref_set_text (key : name) (vt : var_type) (old : bool) : text :=
  push 0 (!"pub fn set_ref_" ++ with_old (to_snake_name key) old ++ !"(&mut self, id : " ++ with_var (ids_type key) vt ++ !"){") ++
  push 1 (!"mitem::set_ref(self.ptr, """ ++ key ++ !""", " ++
          (match vt with Normal => !"Qv::Val(id.to_str().to_string())" | _ => !"id.into_qv().map(|v| v.to_str().to_string())" end) ++ !");") ++
  push 0 !"}".

Section References.
Context {D : Type}.
Implicit Type d : ldef D.

(** structs/refs_source.rs L18-37 *)
Definition refs_get_text (at_ : place) (stem : name) d : text :=
  if ld_enum d then
    push 0 (!"pub fn get_enum(&self) -> " ++ enum_type stem ++ !"{") ++
    push 1 (!"let (list_name, _) = " ++ mod_name at_ ++ !"::get_enum(self.ptr).unwrap();") ++
    push 1 (!"let p = if let Qv::Val(p) = " ++ mod_name at_ ++ !"::get_ref(self.ptr, &list_name).unwrap(){ p } else { unreachable!() };") ++
    push 1 (enum_type stem ++ !"::new(&list_name,p)") ++
    push 0 !"}" ++
    push 0 !"pub fn get_enum_ids(&self) -> (String,String){" ++
    push 1 (mod_name at_ ++ !"::get_enum(self.ptr).unwrap()") ++
    push 0 !"}"
  else flat_map (fun e => let '(key, (_, (_, vt))) := e in push_without_newline 0 (ref_get_text at_ key vt (contains (ld_ref_old d) key))) (ld_refs d).

(** structs/refs_source.rs L39-53 *)
Definition refs_set_text (stem : name) d : text :=
  if ld_enum d then
    push 0 (!"pub fn set_enum(&mut self, kind : " ++ kind_type stem ++ !"){") ++
    push 1 !"let (list_name, id) = kind.id();" ++
    push 1 !"mitem::set_enum(self.ptr, list_name, id);" ++
    push 0 !"}"
  else flat_map (fun e => let '(key, (_, (_, vt))) := e in push_without_newline 0 (ref_set_text key vt (contains (ld_ref_old d) key))) (ld_refs d).

(** structs/refs_source.rs L61-81 *)
Definition items_enum_text (stem : name) (keys : list name) : text :=
  let enum := enum_type stem in
  !"pub enum " ++ enum ++ !"{ " ++
  flat_map (fun key : name => to_type_name key ++ !"(" ++ citem_type key ++ !"), ") keys ++ !"}" ++ [10] ++
  push 0 (!"impl " ++ enum ++ !"{") ++
  push 1 (!"pub fn new(list_name : &str, ptr : CItemPtr) -> " ++ enum ++ !"{") ++
  push 2 !"match list_name{" ++
  flat_map (fun key : name => push 3 (!"""" ++ key ++ !""" => " ++ enum ++ !"::" ++ to_type_name key ++ !"(" ++ citem_type key ++ !"::from(ptr)),")) keys ++
  push 3 (!"_ => panic!(""" ++ enum ++ !" there's no enum type named {}"", &list_name),") ++
  push 2 !"}" ++ push 1 !"}" ++ push 0 !"}".
(** structs/refs_source.rs L84-102 *)
Definition ids_enum_text (stem : name) (keys : list name) : text :=
  let kind := kind_type stem in
  !"pub enum " ++ kind ++ !"{ " ++
  flat_map (fun key : name => to_type_name key ++ !"(" ++ ids_type key ++ !"), ") keys ++ !"}" ++ [10] ++
  push 0 (!"impl " ++ kind ++ !"{") ++
  push 1 !"pub fn id(&self) -> (&'static str, &'static str){" ++
  push 2 !"match self{" ++
  flat_map (fun key : name => push 3 (kind ++ !"::" ++ to_type_name key ++ !"(v) => (""" ++ key ++ !""", v.to_str()),")) keys ++
  push 2 !"}" ++ push 1 !"}" ++ push 0 !"}".
(** structs/refs_source.rs L58-105 [get_enum_source] *)
Definition enum_text (from_citem : bool) (stem : name) d : text :=
  let keys := map fst (ld_refs d) in
  items_enum_text stem keys ++ (if from_citem then [] else ids_enum_text stem keys).
(** structs/refs_source.rs L55-57, citem_source.rs L83-85, mitem_source.rs L95-97 *)
Definition refs_text (from_citem : bool) (stem : name) d : text :=
  if ld_enum d then push_without_newline 0 (enum_text from_citem stem d) else [].

(* ------------------------------------------------------------------ *)
(** * Items: the struct and its methods *)

(** structs/mitem_source.rs L30-80 *)
Definition mitem_head (stem : name) d : text :=
  push 0 !"#[derive(Debug, PartialEq, Clone, Copy)]" ++
  push 0 (!"pub struct " ++ mitem_type stem ++ !" {") ++
  push 1 !"ptr : MItemPtr," ++
  push 0 !"}" ++
  push 0 (!"impl From<MItemPtr> for " ++ mitem_type stem ++ !" {") ++
  push 1 !"fn from(ptr : MItemPtr) -> Self {" ++
  push 2 !"Self{ ptr }" ++
  push 1 !"}" ++
  push 0 !"}" ++
  push 0 (!"impl " ++ mitem_type stem ++ !" {") ++
  flat_map (fun e => let '(key, (_, v)) := e in
              let old := contains (ld_old d) key in
              match v with
              | DParam p vt => param_text AtMItem (type_of p) vt key old
              | DCil _ => []
              | DMil _ undefiable => push_without_newline 1 (list_text AtMItem undefiable key old)
              end) (ld_members d) ++
  push_without_newline 1 (refs_get_text AtMItem stem d) ++
  push_without_newline 1 (refs_set_text stem d) ++
  push 0 !"}".

(** structs/citem_source.rs L30-70 *)
Definition citem_head (stem : name) d : text :=
  push 0 !"#[derive(Debug, PartialEq, Clone, Copy)]" ++
  push 0 (!"pub struct " ++ citem_type stem ++ !" {") ++
  push 1 !"ptr : CItemPtr," ++
  push 0 !"}" ++
  push 0 (!"impl From<CItemPtr> for " ++ citem_type stem ++ !" {") ++
  push 1 !"fn from(ptr : CItemPtr) -> Self { Self{ ptr } }" ++
  push 0 !"}" ++
  push 0 (!"impl " ++ citem_type stem ++ !" {") ++
  flat_map (fun e => let '(key, (_, v)) := e in
              let old := contains (ld_old d) key in
              match v with
              | DParam p vt => param_text AtCItem (type_of p) vt key old
              | DCil _ => push_without_newline 1 (const_text AtCItem key old)
              | DMil _ _ => []
              end) (ld_members d) ++
  push_without_newline 1 (refs_get_text AtCItem stem d) ++
  push 0 !"}".
End References.

(** structs/mitem_source.rs L30-100; the text of an inner list is pushed by mil_source.rs
    L62-66 and then by mitem_source.rs L91 *)
Fixpoint mitem_text (stem : name) (d : def) : text :=
  let 'Def l := d in
  mitem_head stem l ++
  flat_map (fun e => let '(key, (_, v)) := e in
              match v with DMil d' _ => push_without_newline 0 (push_without_newline 0 (mitem_text key d')) | _ => [] end) (ld_members l) ++
  refs_text false stem l.

(** structs/citem_source.rs L30-90 with cil_source.rs L47-51 *)
Fixpoint citem_text (stem : name) (d : def) : text :=
  let 'Def l := d in
  citem_head stem l ++
  flat_map (fun e => let '(key, (_, v)) := e in
              match v with DCil d' => push_without_newline 0 (push_without_newline 0 (citem_text key d')) | _ => [] end) (ld_members l) ++
  refs_text true stem l.

(* ------------------------------------------------------------------ *)
(** * Tables *)

Section Table.
Variable stem : name.
Variable keys : list (name * bool).
Local Notation data := (table_type stem).
Local Notation item := (citem_type stem).
Local Notation ids := (ids_type stem).
Local Notation variant k := (variant_name (fst k) (snd k)).
Local Notation method k := (key_name (fst k) (snd k)).

(** structs/table_source.rs L78-116 *)
Definition table_struct_text : text :=
  push 0 !"#[derive(Debug, PartialEq)]" ++
  push 0 (!"pub struct " ++ data ++ !" {") ++
  push 1 !"ptr : TablePtr," ++
  push 0 !"}" ++
  push 0 (!"impl " ++ data ++ !" {") ++
  push 1 (!"pub fn new(ptr : TablePtr) -> " ++ data ++ !"{ " ++ data ++ !"{ ptr } } ") ++
  flat_map (fun k : name * bool =>
    push 1 (!"pub unsafe fn " ++ method k ++ !"_us(&self) -> " ++ item ++ !" {") ++
    push 2 (!"let ptr = table::get_value(self.ptr, """ ++ fst k ++ !""").unwrap();") ++
    push 2 (item ++ !"::from(ptr)") ++
    push 1 !"}" ++
    push 1 (!"pub fn " ++ method k ++ !"(&self) -> CItemConst<" ++ item ++ !"> {") ++
    push 2 (!"let ptr = table::get_value(self.ptr, """ ++ fst k ++ !""").unwrap();") ++
    push 2 (!"CItemConst::new(" ++ item ++ !"::from(ptr), self)") ++
    push 1 !"}") keys ++
  (match keys with
   | [] => []
   | _ =>
     push 1 (!"pub unsafe fn get_by_id_us(&self, id : " ++ ids ++ !") -> " ++ item ++ !"{") ++
     push 2 !"match id{" ++
     flat_map (fun k : name * bool => push 3 (ids ++ !"::" ++ variant k ++ !" => self." ++ method k ++ !"_us(),")) keys ++
     push 2 !"}" ++
     push 1 !"}" ++
     push 1 (!"pub fn get_by_id(&self, id : " ++ ids ++ !") -> CItemConst<" ++ item ++ !">{") ++
     push 2 !"CItemConst::new(unsafe{ self.get_by_id_us(id) }, self)" ++
     push 1 !"}"
   end) ++
  push 0 !"}".

(** structs/table_source.rs L119-162 *)
Definition ids_text : text :=
  !"#[repr(u64)] pub enum " ++ ids ++ !"{ " ++
  flat_map (fun k : name * bool => variant k ++ !", ") keys ++
  push 0 !"}" ++
  push 0 (!"impl " ++ ids ++ !"{") ++
  push 1 !"pub fn from_str(id : &str) -> Option<Self>{" ++
  push 2 !"match id{" ++
  flat_map (fun k : name * bool => push 3 (!"""" ++ fst k ++ !""" => Some(Self::" ++ variant k ++ !"),")) keys ++
  push 3 !"_ =>{ None }" ++
  push 2 !"}" ++
  push 1 !"}" ++
  push 1 !"pub fn from_num(id : usize) -> Self{" ++
  push 2 !"match id{" ++
  flat_map (fun e : Z * (name * bool) => push 3 (print_uint (fst e) ++ !" => Self::" ++ variant (snd e) ++ !",")) (enumerate keys) ++
  push 3 (!"_ => panic!(""invalid ID num {} " ++ ids ++ !""", id),") ++
  push 2 !"}" ++
  push 1 !"}" ++
  push 1 (!"pub fn len() -> usize{ " ++ print_uint (zlen keys) ++ !" }") ++
  push 1 !"pub fn to_num(&self) -> usize{" ++
  push 2 !"match self{" ++
  flat_map (fun e : Z * (name * bool) => push 3 (ids ++ !"::" ++ variant (snd e) ++ !" => " ++ print_uint (fst e) ++ !",")) (enumerate keys) ++
  push 2 !"}" ++
  push 1 !"}" ++
  push 1 !"pub fn metadata() -> &'static [&'static str]{" ++
  push 2 (!"&[" ++ flat_map (fun k : name * bool => !"""" ++ fst k ++ !""", ") keys ++ !"]") ++
  push 1 !"}" ++
  push 1 !"pub fn to_str(&self) -> &'static str{" ++
  push 2 !"Self::metadata()[self.to_num()]" ++
  push 1 !"}" ++
  push 0 !"}".
End Table.

(** structs/table_source.rs L72-166 *)
Definition table_text (stem : name) (d : def) (rows : hmap citem) (old : list name) : text :=
  let keys := map (fun e => (fst e, contains old (fst e))) rows in
  table_struct_text stem keys ++ ids_text stem keys ++ push_without_newline 0 (citem_text stem d).

(* ------------------------------------------------------------------ *)
(** * structs/root_source.rs *)

(** L21-39 *)
Definition root_head : text :=
  push 0 (
    !"use dochy::core::intf::*;" ++ [10] ++
    !"use dochy::core::structs::*;" ++ [10] ++
    !"unsafe impl Send for RootIntf {}" ++ [10] ++
    !"unsafe impl Sync for RootIntf {}" ++ [10] ++
    !"#[derive(Debug)]" ++ [10] ++
    !"pub struct RootIntf{" ++ [10] ++
    !"    root : Box<RootObject>," ++ [10] ++
    !"    ptr : RootObjectPtr," ++ [10] ++
    !"}" ++ [10] ++
    !"impl RootIntf{" ++ [10] ++
    !"    pub fn new(obj : RootObject) -> RootIntf{" ++ [10] ++
    [9; 9] ++ !"let mut root = Box::new(obj);" ++ [10] ++
    [9; 9] ++ !"let ptr = RootObjectPtr::new(root.as_mut());" ++ [10] ++
    [9; 9] ++ !"RootIntf { root, ptr }" ++ [10] ++
    [9] ++ !"}" ++ [10] ++
    !"    pub fn root_obj_ref(&self) -> &RootObject{ self.root.as_ref() }" ++ [10] ++
    !"    pub fn root_obj_ref_mut(&mut self) -> &mut RootObject{ self.root.as_mut() }" ++ [10] ++
    !"    pub fn deconstruct(self) -> RootObject{ *self.root }" ++ [10]).

(** L18-93; structs/mlist_source.rs L59-63 and structs/clist_source.rs L47-51 push the text of
    the item once more *)
Definition root_text (old : list name) (def : hmap (Z * rootvalue)) : text :=
  root_head ++
  flat_map (fun e => let '(key, (_, v)) := e in
              let old := contains old key in
              match v with
              | WParam p vt => param_text AtRoot (type_of p) vt key old
              | WTable _ _ _ => push_without_newline 1 (table_get_text key old)
              | WCList _ _ => push_without_newline 1 (const_text AtRoot key old)
              | WMList _ undefiable => push_without_newline 1 (list_text AtRoot undefiable key old)
              end) def ++
  push 0 !"}" ++
  flat_map (fun e => let '(key, (_, v)) := e in
              match v with
              | WParam _ _ => []
              | WTable d rows old => push 0 (table_text key d rows old)
              | WCList d _ => push 0 (push_without_newline 0 (citem_text key d))
              | WMList d _ => push 0 (push_without_newline 0 (mitem_text key d))
              end) def.
