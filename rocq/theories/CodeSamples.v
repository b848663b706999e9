(** The accessors that are checked in under dochy_manual/src of the repository, all of them, are
    the text the model makes from the source files beside them, byte for byte (C66).  Members
    lie in hash maps: they are arranged in the order in which they were written. *)
From Coq Require Import String.
From Verif Require Import Base TextModel CompactionSpec StringCompactionModel ArchiveModel Json5Model Json5Spec DocModel JsonModel ValidModel JsonProps Json5Props IntfModel GenModel CodeModel.
Open Scope string_scope.
Open Scope list_scope.
Open Scope Z_scope.

(** an order of names *)
Fixpoint rank (order : list name) (k : name) : Z := match order with [] => 0 | x :: r => if eqb_bytes x k then 0 else 1 + rank r k end.
Fixpoint sorted_in {A} (order : list name) (e : name * A) (l : list (name * A)) : list (name * A) :=
  match l with [] => [e] | x :: r => if rank order (fst e) <=? rank order (fst x) then e :: l else x :: sorted_in order e r end.
Definition sorted {A} (order : list name) (l : list (name * A)) : list (name * A) := fold_right (sorted_in order) [] l.
(** the same maps in that order *)
Fixpoint arrange (order : list name) (d : def) : def :=
  let 'Def l := d in
  Def (LDef (sorted order (map (fun e => (fst e, (fst (snd e), match snd (snd e) with DCil d => DCil (arrange order d) | DMil d u => DMil (arrange order d) u | v => v end))) (ld_members l)))
    (sorted order (ld_refs l)) (ld_enum l) (ld_old l) (ld_ref_old l)).
Definition arranged (order : list name) (r : hmap (Z * rootvalue)) : hmap (Z * rootvalue) :=
  sorted order (map (fun e => (fst e, (fst (snd e), match snd (snd e) with
    | WTable d rows old => WTable (arrange order d) (sorted order rows) old | WCList d i => WCList (arrange order d) i | WMList d u => WMList (arrange order d) u | v => v end))) r).

(** the text made from the source files, with members in that order *)
Definition made_from (files : smap (list Z)) (order : list name) : res (list Z) :=
  r <- load_root sample_addr in_place (parse_file ascii_letter ascii_part) files true ; Ok (root_text (ro_old r) (arranged order (ro_default r))).

(** dochy_manual/src/b2_save_history_files/save_history_files_accessor.rs *)
Example save_history_files_accessor : made_from [(txt "src/root.json5", txt "{
  d0 : ""aaaaa"",
  d1 : ""aaaaa"",
  d2 : ""aaaaa"",
  d3 : ""aaaaa"",
  d4 : ""aaaaa"",
  d5 : ""aaaaa"",
  d6 : ""aaaaa"",
  d7 : ""aaaaa"",
  d8 : ""aaaaa"",
  d9 : ""aaaaa""
}")]
  (map txt ["d6"; "d0"; "d9"; "d2"; "d5"; "d7"; "d8"; "d1"; "d3"; "d4"])
  = Ok (txt "use dochy::core::intf::*;
use dochy::core::structs::*;
unsafe impl Send for RootIntf {}
unsafe impl Sync for RootIntf {}
#[derive(Debug)]
pub struct RootIntf{
    root : Box<RootObject>,
    ptr : RootObjectPtr,
}
impl RootIntf{
    pub fn new(obj : RootObject) -> RootIntf{
		let mut root = Box::new(obj);
		let ptr = RootObjectPtr::new(root.as_mut());
		RootIntf { root, ptr }
	}
    pub fn root_obj_ref(&self) -> &RootObject{ self.root.as_ref() }
    pub fn root_obj_ref_mut(&mut self) -> &mut RootObject{ self.root.as_mut() }
    pub fn deconstruct(self) -> RootObject{ *self.root }

	pub fn d6_def_val(&self) -> &String{
		let qv = root::get_str_def(self.ptr, ""d6"").unwrap();
		qv.into_value().unwrap()
	}
	pub fn d6(&self) -> &String{
		let qv = root::get_immutable_str(self.ptr, ""d6"").unwrap();
		qv.into_value().unwrap()
	}
	pub fn d6_mut(&mut self) -> &mut String{
		let qv = root::get_mutable_str(self.ptr, ""d6"").unwrap();
		qv.into_value().unwrap()
	}
	pub fn set_d6(&mut self, d6 : String){
		root::set_str(self.ptr, ""d6"", Qv::Val(d6));
	}
	pub fn d0_def_val(&self) -> &String{
		let qv = root::get_str_def(self.ptr, ""d0"").unwrap();
		qv.into_value().unwrap()
	}
	pub fn d0(&self) -> &String{
		let qv = root::get_immutable_str(self.ptr, ""d0"").unwrap();
		qv.into_value().unwrap()
	}
	pub fn d0_mut(&mut self) -> &mut String{
		let qv = root::get_mutable_str(self.ptr, ""d0"").unwrap();
		qv.into_value().unwrap()
	}
	pub fn set_d0(&mut self, d0 : String){
		root::set_str(self.ptr, ""d0"", Qv::Val(d0));
	}
	pub fn d9_def_val(&self) -> &String{
		let qv = root::get_str_def(self.ptr, ""d9"").unwrap();
		qv.into_value().unwrap()
	}
	pub fn d9(&self) -> &String{
		let qv = root::get_immutable_str(self.ptr, ""d9"").unwrap();
		qv.into_value().unwrap()
	}
	pub fn d9_mut(&mut self) -> &mut String{
		let qv = root::get_mutable_str(self.ptr, ""d9"").unwrap();
		qv.into_value().unwrap()
	}
	pub fn set_d9(&mut self, d9 : String){
		root::set_str(self.ptr, ""d9"", Qv::Val(d9));
	}
	pub fn d2_def_val(&self) -> &String{
		let qv = root::get_str_def(self.ptr, ""d2"").unwrap();
		qv.into_value().unwrap()
	}
	pub fn d2(&self) -> &String{
		let qv = root::get_immutable_str(self.ptr, ""d2"").unwrap();
		qv.into_value().unwrap()
	}
	pub fn d2_mut(&mut self) -> &mut String{
		let qv = root::get_mutable_str(self.ptr, ""d2"").unwrap();
		qv.into_value().unwrap()
	}
	pub fn set_d2(&mut self, d2 : String){
		root::set_str(self.ptr, ""d2"", Qv::Val(d2));
	}
	pub fn d5_def_val(&self) -> &String{
		let qv = root::get_str_def(self.ptr, ""d5"").unwrap();
		qv.into_value().unwrap()
	}
	pub fn d5(&self) -> &String{
		let qv = root::get_immutable_str(self.ptr, ""d5"").unwrap();
		qv.into_value().unwrap()
	}
	pub fn d5_mut(&mut self) -> &mut String{
		let qv = root::get_mutable_str(self.ptr, ""d5"").unwrap();
		qv.into_value().unwrap()
	}
	pub fn set_d5(&mut self, d5 : String){
		root::set_str(self.ptr, ""d5"", Qv::Val(d5));
	}
	pub fn d7_def_val(&self) -> &String{
		let qv = root::get_str_def(self.ptr, ""d7"").unwrap();
		qv.into_value().unwrap()
	}
	pub fn d7(&self) -> &String{
		let qv = root::get_immutable_str(self.ptr, ""d7"").unwrap();
		qv.into_value().unwrap()
	}
	pub fn d7_mut(&mut self) -> &mut String{
		let qv = root::get_mutable_str(self.ptr, ""d7"").unwrap();
		qv.into_value().unwrap()
	}
	pub fn set_d7(&mut self, d7 : String){
		root::set_str(self.ptr, ""d7"", Qv::Val(d7));
	}
	pub fn d8_def_val(&self) -> &String{
		let qv = root::get_str_def(self.ptr, ""d8"").unwrap();
		qv.into_value().unwrap()
	}
	pub fn d8(&self) -> &String{
		let qv = root::get_immutable_str(self.ptr, ""d8"").unwrap();
		qv.into_value().unwrap()
	}
	pub fn d8_mut(&mut self) -> &mut String{
		let qv = root::get_mutable_str(self.ptr, ""d8"").unwrap();
		qv.into_value().unwrap()
	}
	pub fn set_d8(&mut self, d8 : String){
		root::set_str(self.ptr, ""d8"", Qv::Val(d8));
	}
	pub fn d1_def_val(&self) -> &String{
		let qv = root::get_str_def(self.ptr, ""d1"").unwrap();
		qv.into_value().unwrap()
	}
	pub fn d1(&self) -> &String{
		let qv = root::get_immutable_str(self.ptr, ""d1"").unwrap();
		qv.into_value().unwrap()
	}
	pub fn d1_mut(&mut self) -> &mut String{
		let qv = root::get_mutable_str(self.ptr, ""d1"").unwrap();
		qv.into_value().unwrap()
	}
	pub fn set_d1(&mut self, d1 : String){
		root::set_str(self.ptr, ""d1"", Qv::Val(d1));
	}
	pub fn d3_def_val(&self) -> &String{
		let qv = root::get_str_def(self.ptr, ""d3"").unwrap();
		qv.into_value().unwrap()
	}
	pub fn d3(&self) -> &String{
		let qv = root::get_immutable_str(self.ptr, ""d3"").unwrap();
		qv.into_value().unwrap()
	}
	pub fn d3_mut(&mut self) -> &mut String{
		let qv = root::get_mutable_str(self.ptr, ""d3"").unwrap();
		qv.into_value().unwrap()
	}
	pub fn set_d3(&mut self, d3 : String){
		root::set_str(self.ptr, ""d3"", Qv::Val(d3));
	}
	pub fn d4_def_val(&self) -> &String{
		let qv = root::get_str_def(self.ptr, ""d4"").unwrap();
		qv.into_value().unwrap()
	}
	pub fn d4(&self) -> &String{
		let qv = root::get_immutable_str(self.ptr, ""d4"").unwrap();
		qv.into_value().unwrap()
	}
	pub fn d4_mut(&mut self) -> &mut String{
		let qv = root::get_mutable_str(self.ptr, ""d4"").unwrap();
		qv.into_value().unwrap()
	}
	pub fn set_d4(&mut self, d4 : String){
		root::set_str(self.ptr, ""d4"", Qv::Val(d4));
	}
}
").
Proof. vm_compute. reflexivity. Qed.

(** dochy_manual/src/a6_table/table_accessor.rs *)
Example table_accessor : made_from [(txt "src/root.json5", txt "{
  // Table is another immutable collection of Dochy

  // Table's items must have string-IDs

  table1: [
    ""Table"", [{
      val: 0,
    }],
    {
      ID: ""item1"", //<- ID is needed
      val: 10,
    },
    {
      ID: ""item2"",
      val: 20,
    },
  ],
  // In Dochy, all names start with capital letters are reserved by the system. ""ID"" is one of them.

  // Users can use [a-z][A-Za-z0-9]* for identifiers.

  // Other collections can refer table items by ID

  a_list : [
    ""CList"",[{
      name : """", // Default Values are necessary. """" is good for default values of string.
      Ref : {
        table1 : """",
      },

    }],
    {
      name : ""m"",
      Ref : {
        table1 : ""item1""
      },
    },
    {
      name : ""n"",
      Ref : {
        table1 : ""item2""
      }
    }
  ],

  // Ref is also a keyword of Dochy.

  // In default objects, Ref is like

  // Ref :{
  //   table-name : """" / ID
  // }

  // In items, Ref is

  // Ref :{
  //   table-name : ID
  // }

  // You can refer table items by specifying ID

  // Tables can refer tables too.
  table2 : [
    ""Table"",[{
      Ref : {
        table1 : ""item1"", // You can specify ID in default objects too.
      }
    }],
    {
      ID : ""a"",
      Ref : {
        table1 : ""item2""
      }
    },
    {
      ID : ""b"",
      // When ID is specified in the default object, you can omit ""Ref"" in items
    }
  ],

  // You can refer two tables at once

  mlist : [
    ""MList"",[{
      Ref : {
        table1 : """",
        ""table2?"" : null, // Ref's variables can be nullable too.
      }
    }],
    {
      Ref : {
        table1 : ""item1"", // When the default value is empty string, existing ID must be set.
        table2 : ""a"", // Other than default objects, the suffix ""?"" is not necessary.
      }
    },
    {
      Ref : {
        table1 : ""item2"",
        // When the default value is ""null"", you don't have to set ID.
      }
    }
  ]
}")]
  (map txt ["table2"; "mlist"; "a_list"; "table1"; "a"; "b"; "name"; "item2"; "item1"; "val"])
  = Ok (txt "use dochy::core::intf::*;
use dochy::core::structs::*;
unsafe impl Send for RootIntf {}
unsafe impl Sync for RootIntf {}
#[derive(Debug)]
pub struct RootIntf{
    root : Box<RootObject>,
    ptr : RootObjectPtr,
}
impl RootIntf{
    pub fn new(obj : RootObject) -> RootIntf{
		let mut root = Box::new(obj);
		let ptr = RootObjectPtr::new(root.as_mut());
		RootIntf { root, ptr }
	}
    pub fn root_obj_ref(&self) -> &RootObject{ self.root.as_ref() }
    pub fn root_obj_ref_mut(&mut self) -> &mut RootObject{ self.root.as_mut() }
    pub fn deconstruct(self) -> RootObject{ *self.root }

	pub fn table2(&self) -> CTableConst<Table2Table>{
		let t = Table2Table::new(root::get_table(self.ptr.def(), ""table2"").unwrap());
		CTableConst::new(t, self)
	}
	pub fn mlist(&self) -> MListConst<MlistMItem>{
		let mil = root::get_mlist_const(self.ptr, ""mlist"").unwrap().unwrap();
		MListConst::new(mil, self)
	}
	pub fn mlist_mut(&mut self) -> MListMut<MlistMItem>{
		let mil = root::get_mlist_mut(self.ptr, ""mlist"").unwrap();
		MListMut::new(mil, self)
	}
	pub fn a_list(&self) -> CListConst<AListCItem>{
		CListConst::new(root::get_clist(self.ptr, ""a_list"").unwrap(), self)
	}
	pub fn table1(&self) -> CTableConst<Table1Table>{
		let t = Table1Table::new(root::get_table(self.ptr.def(), ""table1"").unwrap());
		CTableConst::new(t, self)
	}
}
#[derive(Debug, PartialEq)]
pub struct Table2Table {
	ptr : TablePtr,
}
impl Table2Table {
	pub fn new(ptr : TablePtr) -> Table2Table{ Table2Table{ ptr } } 
	pub unsafe fn a_us(&self) -> Table2CItem {
		let ptr = table::get_value(self.ptr, ""a"").unwrap();
		Table2CItem::from(ptr)
	}
	pub fn a(&self) -> CItemConst<Table2CItem> {
		let ptr = table::get_value(self.ptr, ""a"").unwrap();
		CItemConst::new(Table2CItem::from(ptr), self)
	}
	pub unsafe fn b_us(&self) -> Table2CItem {
		let ptr = table::get_value(self.ptr, ""b"").unwrap();
		Table2CItem::from(ptr)
	}
	pub fn b(&self) -> CItemConst<Table2CItem> {
		let ptr = table::get_value(self.ptr, ""b"").unwrap();
		CItemConst::new(Table2CItem::from(ptr), self)
	}
	pub unsafe fn get_by_id_us(&self, id : Table2TableID) -> Table2CItem{
		match id{
			Table2TableID::A => self.a_us(),
			Table2TableID::B => self.b_us(),
		}
	}
	pub fn get_by_id(&self, id : Table2TableID) -> CItemConst<Table2CItem>{
		CItemConst::new(unsafe{ self.get_by_id_us(id) }, self)
	}
}
#[repr(u64)] pub enum Table2TableID{ A, B, }
impl Table2TableID{
	pub fn from_str(id : &str) -> Option<Self>{
		match id{
			""a"" => Some(Self::A),
			""b"" => Some(Self::B),
			_ =>{ None }
		}
	}
	pub fn from_num(id : usize) -> Self{
		match id{
			0 => Self::A,
			1 => Self::B,
			_ => panic!(""invalid ID num {} Table2TableID"", id),
		}
	}
	pub fn len() -> usize{ 2 }
	pub fn to_num(&self) -> usize{
		match self{
			Table2TableID::A => 0,
			Table2TableID::B => 1,
		}
	}
	pub fn metadata() -> &'static [&'static str]{
		&[""a"", ""b"", ]
	}
	pub fn to_str(&self) -> &'static str{
		Self::metadata()[self.to_num()]
	}
}
#[derive(Debug, PartialEq, Clone, Copy)]
pub struct Table2CItem {
	ptr : CItemPtr,
}
impl From<CItemPtr> for Table2CItem {
	fn from(ptr : CItemPtr) -> Self { Self{ ptr } }
}
impl Table2CItem {
	pub fn ref_table1(&self) -> Table1CItem{
		let qv = citem::get_ref(self.ptr, ""table1"").unwrap();
		Table1CItem::from(qv.into_value().unwrap())
	}
	pub fn ref_id_table1(&self) -> &String{
		let qv = citem::get_ref_id(self.ptr, ""table1"").unwrap();
		qv.into_value().unwrap()
	}
}

#[derive(Debug, PartialEq, Clone, Copy)]
pub struct MlistMItem {
	ptr : MItemPtr,
}
impl From<MItemPtr> for MlistMItem {
	fn from(ptr : MItemPtr) -> Self {
		Self{ ptr }
	}
}
impl MlistMItem {
	pub fn ref_table2(&self) -> NullOr<Table2CItem>{
		let qv = mitem::get_ref(self.ptr, ""table2"").unwrap();
		NullOr::from_qv(qv).unwrap().map(|p| Table2CItem::from(p))
	}
	pub fn ref_id_table2(&self) -> NullOr<&String>{
		let qv = mitem::get_ref_id(self.ptr, ""table2"").unwrap();
		NullOr::from_qv(qv).unwrap()
	}
	pub fn ref_table1(&self) -> Table1CItem{
		let qv = mitem::get_ref(self.ptr, ""table1"").unwrap();
		Table1CItem::from(qv.into_value().unwrap())
	}
	pub fn ref_id_table1(&self) -> &String{
		let qv = mitem::get_ref_id(self.ptr, ""table1"").unwrap();
		qv.into_value().unwrap()
	}
	pub fn set_ref_table2(&mut self, id : NullOr<Table2TableID>){
		mitem::set_ref(self.ptr, ""table2"", id.into_qv().map(|v| v.to_str().to_string()));
	}
	pub fn set_ref_table1(&mut self, id : Table1TableID){
		mitem::set_ref(self.ptr, ""table1"", Qv::Val(id.to_str().to_string()));
	}
}

#[derive(Debug, PartialEq, Clone, Copy)]
pub struct AListCItem {
	ptr : CItemPtr,
}
impl From<CItemPtr> for AListCItem {
	fn from(ptr : CItemPtr) -> Self { Self{ ptr } }
}
impl AListCItem {
	pub fn name_def_val(&self) -> &String{
		let qv = citem::get_str_def(self.ptr, ""name"").unwrap();
		qv.into_value().unwrap()
	}
	pub fn name(&self) -> &String{
		let qv = citem::get_immutable_str(self.ptr, ""name"").unwrap();
		qv.into_value().unwrap()
	}
	pub fn ref_table1(&self) -> Table1CItem{
		let qv = citem::get_ref(self.ptr, ""table1"").unwrap();
		Table1CItem::from(qv.into_value().unwrap())
	}
	pub fn ref_id_table1(&self) -> &String{
		let qv = citem::get_ref_id(self.ptr, ""table1"").unwrap();
		qv.into_value().unwrap()
	}
}

#[derive(Debug, PartialEq)]
pub struct Table1Table {
	ptr : TablePtr,
}
impl Table1Table {
	pub fn new(ptr : TablePtr) -> Table1Table{ Table1Table{ ptr } } 
	pub unsafe fn item2_us(&self) -> Table1CItem {
		let ptr = table::get_value(self.ptr, ""item2"").unwrap();
		Table1CItem::from(ptr)
	}
	pub fn item2(&self) -> CItemConst<Table1CItem> {
		let ptr = table::get_value(self.ptr, ""item2"").unwrap();
		CItemConst::new(Table1CItem::from(ptr), self)
	}
	pub unsafe fn item1_us(&self) -> Table1CItem {
		let ptr = table::get_value(self.ptr, ""item1"").unwrap();
		Table1CItem::from(ptr)
	}
	pub fn item1(&self) -> CItemConst<Table1CItem> {
		let ptr = table::get_value(self.ptr, ""item1"").unwrap();
		CItemConst::new(Table1CItem::from(ptr), self)
	}
	pub unsafe fn get_by_id_us(&self, id : Table1TableID) -> Table1CItem{
		match id{
			Table1TableID::Item2 => self.item2_us(),
			Table1TableID::Item1 => self.item1_us(),
		}
	}
	pub fn get_by_id(&self, id : Table1TableID) -> CItemConst<Table1CItem>{
		CItemConst::new(unsafe{ self.get_by_id_us(id) }, self)
	}
}
#[repr(u64)] pub enum Table1TableID{ Item2, Item1, }
impl Table1TableID{
	pub fn from_str(id : &str) -> Option<Self>{
		match id{
			""item2"" => Some(Self::Item2),
			""item1"" => Some(Self::Item1),
			_ =>{ None }
		}
	}
	pub fn from_num(id : usize) -> Self{
		match id{
			0 => Self::Item2,
			1 => Self::Item1,
			_ => panic!(""invalid ID num {} Table1TableID"", id),
		}
	}
	pub fn len() -> usize{ 2 }
	pub fn to_num(&self) -> usize{
		match self{
			Table1TableID::Item2 => 0,
			Table1TableID::Item1 => 1,
		}
	}
	pub fn metadata() -> &'static [&'static str]{
		&[""item2"", ""item1"", ]
	}
	pub fn to_str(&self) -> &'static str{
		Self::metadata()[self.to_num()]
	}
}
#[derive(Debug, PartialEq, Clone, Copy)]
pub struct Table1CItem {
	ptr : CItemPtr,
}
impl From<CItemPtr> for Table1CItem {
	fn from(ptr : CItemPtr) -> Self { Self{ ptr } }
}
impl Table1CItem {
	pub fn val(&self) -> i64{
		let qv = citem::get_int(self.ptr, ""val"").unwrap();
		qv.into_value().unwrap()
	}
	pub fn val_def_val(&self) -> i64{
		let qv = citem::get_int_def(self.ptr, ""val"").unwrap();
		qv.into_value().unwrap()
	}
	
}

").
Proof. vm_compute. reflexivity. Qed.

(** dochy_manual/src/b3_1_clist_and_mlist/clist_old_accessor.rs *)
Example clist_old_accessor : made_from [(txt "src/root.json5", txt "{
  list : [
    ""CList"",
    // every list must have the default object.
    [{
      //The variables must be defined in the default object with its initial value
      foo : 0,
    }],
    {
      foo : 1,
    },
    {
      foo : 2,
    },
    {
      //if a value is not written, logically its value is the default value,
      //but this object actually doesn't have the value.
      //No memory is used and no storage space consumed
    }
  ]
}")]
  (map txt ["list"; "foo"])
  = Ok (txt "use dochy::core::intf::*;
use dochy::core::structs::*;
unsafe impl Send for RootIntf {}
unsafe impl Sync for RootIntf {}
#[derive(Debug)]
pub struct RootIntf{
    root : Box<RootObject>,
    ptr : RootObjectPtr,
}
impl RootIntf{
    pub fn new(obj : RootObject) -> RootIntf{
		let mut root = Box::new(obj);
		let ptr = RootObjectPtr::new(root.as_mut());
		RootIntf { root, ptr }
	}
    pub fn root_obj_ref(&self) -> &RootObject{ self.root.as_ref() }
    pub fn root_obj_ref_mut(&mut self) -> &mut RootObject{ self.root.as_mut() }
    pub fn deconstruct(self) -> RootObject{ *self.root }

	pub fn list(&self) -> CListConst<ListCItem>{
		CListConst::new(root::get_clist(self.ptr, ""list"").unwrap(), self)
	}
}
#[derive(Debug, PartialEq, Clone, Copy)]
pub struct ListCItem {
	ptr : CItemPtr,
}
impl From<CItemPtr> for ListCItem {
	fn from(ptr : CItemPtr) -> Self { Self{ ptr } }
}
impl ListCItem {
	pub fn foo(&self) -> i64{
		let qv = citem::get_int(self.ptr, ""foo"").unwrap();
		qv.into_value().unwrap()
	}
	pub fn foo_def_val(&self) -> i64{
		let qv = citem::get_int_def(self.ptr, ""foo"").unwrap();
		qv.into_value().unwrap()
	}
	
}

").
Proof. vm_compute. reflexivity. Qed.

(** dochy_manual/src/b3_1_clist_and_mlist/undefiable_list_accessor.rs *)
Example undefiable_list_accessor : made_from [(txt "src/list!.json5", txt "[
	""MList"",
	[{
		v: 1,
	}],
	{
		v: 2
	},
	{
		v: 3
	}
]"); (txt "src/root.json5", txt "{

}")]
  (map txt ["list"; "v"])
  = Ok (txt "use dochy::core::intf::*;
use dochy::core::structs::*;
unsafe impl Send for RootIntf {}
unsafe impl Sync for RootIntf {}
#[derive(Debug)]
pub struct RootIntf{
    root : Box<RootObject>,
    ptr : RootObjectPtr,
}
impl RootIntf{
    pub fn new(obj : RootObject) -> RootIntf{
		let mut root = Box::new(obj);
		let ptr = RootObjectPtr::new(root.as_mut());
		RootIntf { root, ptr }
	}
    pub fn root_obj_ref(&self) -> &RootObject{ self.root.as_ref() }
    pub fn root_obj_ref_mut(&mut self) -> &mut RootObject{ self.root.as_mut() }
    pub fn deconstruct(self) -> RootObject{ *self.root }

	pub fn list(&self) -> Option<MListConst<ListMItem>>{
		let mil = root::get_mlist_const(self.ptr, ""list"").unwrap();
		mil.map(move |p| MListConst::new(p, self))
	}
	pub fn list_mut(&mut self) -> MListMut<ListMItem>{
		let mil = root::get_mlist_mut(self.ptr, ""list"").unwrap();
		MListMut::new(mil, self)
	}
}
#[derive(Debug, PartialEq, Clone, Copy)]
pub struct ListMItem {
	ptr : MItemPtr,
}
impl From<MItemPtr> for ListMItem {
	fn from(ptr : MItemPtr) -> Self {
		Self{ ptr }
	}
}
impl ListMItem {
	pub fn v(&self) -> i64{
		let qv = mitem::get_int(self.ptr, ""v"").unwrap();
		qv.into_value().unwrap()
	}
	pub fn v_def_val(&self) -> i64{
		let qv = mitem::get_int_def(self.ptr, ""v"").unwrap();
		qv.into_value().unwrap()
	}
	pub fn set_v(&mut self, v : i64){
		mitem::set_int(self.ptr, ""v"", Qv::Val(v));
	}
	
	
}

").
Proof. vm_compute. reflexivity. Qed.

(** dochy_manual/src/b3_1_clist_and_mlist/clist_new_accessor.rs *)
Example clist_new_accessor : made_from [(txt "src/root.json5", txt "{
  list : [
    ""CList"",
    [{
      foo : -1,
    }],
    {
      foo : 3,
    },
    {
      foo : 4,
    },
    {
    },
    {
      foo : 5
    }
  ]
}")]
  (map txt ["list"; "foo"])
  = Ok (txt "use dochy::core::intf::*;
use dochy::core::structs::*;
unsafe impl Send for RootIntf {}
unsafe impl Sync for RootIntf {}
#[derive(Debug)]
pub struct RootIntf{
    root : Box<RootObject>,
    ptr : RootObjectPtr,
}
impl RootIntf{
    pub fn new(obj : RootObject) -> RootIntf{
		let mut root = Box::new(obj);
		let ptr = RootObjectPtr::new(root.as_mut());
		RootIntf { root, ptr }
	}
    pub fn root_obj_ref(&self) -> &RootObject{ self.root.as_ref() }
    pub fn root_obj_ref_mut(&mut self) -> &mut RootObject{ self.root.as_mut() }
    pub fn deconstruct(self) -> RootObject{ *self.root }

	pub fn list(&self) -> CListConst<ListCItem>{
		CListConst::new(root::get_clist(self.ptr, ""list"").unwrap(), self)
	}
}
#[derive(Debug, PartialEq, Clone, Copy)]
pub struct ListCItem {
	ptr : CItemPtr,
}
impl From<CItemPtr> for ListCItem {
	fn from(ptr : CItemPtr) -> Self { Self{ ptr } }
}
impl ListCItem {
	pub fn foo(&self) -> i64{
		let qv = citem::get_int(self.ptr, ""foo"").unwrap();
		qv.into_value().unwrap()
	}
	pub fn foo_def_val(&self) -> i64{
		let qv = citem::get_int_def(self.ptr, ""foo"").unwrap();
		qv.into_value().unwrap()
	}
	
}

").
Proof. vm_compute. reflexivity. Qed.

(** dochy_manual/src/b3_1_clist_and_mlist/mlist_old_accessor.rs *)
Example mlist_old_accessor : made_from [(txt "src/root.json5", txt "{
  mlist : [
    ""MList"",
    [{
      bar : 0,
      baz : 1
    }],
    {
      bar : 1,
      baz : 2
    },
    {
      // not set
      baz : 3,
    },
    {
      bar : 3,
      // not set
    }
  ]
}")]
  (map txt ["mlist"; "bar"; "baz"])
  = Ok (txt "use dochy::core::intf::*;
use dochy::core::structs::*;
unsafe impl Send for RootIntf {}
unsafe impl Sync for RootIntf {}
#[derive(Debug)]
pub struct RootIntf{
    root : Box<RootObject>,
    ptr : RootObjectPtr,
}
impl RootIntf{
    pub fn new(obj : RootObject) -> RootIntf{
		let mut root = Box::new(obj);
		let ptr = RootObjectPtr::new(root.as_mut());
		RootIntf { root, ptr }
	}
    pub fn root_obj_ref(&self) -> &RootObject{ self.root.as_ref() }
    pub fn root_obj_ref_mut(&mut self) -> &mut RootObject{ self.root.as_mut() }
    pub fn deconstruct(self) -> RootObject{ *self.root }

	pub fn mlist(&self) -> MListConst<MlistMItem>{
		let mil = root::get_mlist_const(self.ptr, ""mlist"").unwrap().unwrap();
		MListConst::new(mil, self)
	}
	pub fn mlist_mut(&mut self) -> MListMut<MlistMItem>{
		let mil = root::get_mlist_mut(self.ptr, ""mlist"").unwrap();
		MListMut::new(mil, self)
	}
}
#[derive(Debug, PartialEq, Clone, Copy)]
pub struct MlistMItem {
	ptr : MItemPtr,
}
impl From<MItemPtr> for MlistMItem {
	fn from(ptr : MItemPtr) -> Self {
		Self{ ptr }
	}
}
impl MlistMItem {
	pub fn bar(&self) -> i64{
		let qv = mitem::get_int(self.ptr, ""bar"").unwrap();
		qv.into_value().unwrap()
	}
	pub fn bar_def_val(&self) -> i64{
		let qv = mitem::get_int_def(self.ptr, ""bar"").unwrap();
		qv.into_value().unwrap()
	}
	pub fn set_bar(&mut self, bar : i64){
		mitem::set_int(self.ptr, ""bar"", Qv::Val(bar));
	}
	pub fn baz(&self) -> i64{
		let qv = mitem::get_int(self.ptr, ""baz"").unwrap();
		qv.into_value().unwrap()
	}
	pub fn baz_def_val(&self) -> i64{
		let qv = mitem::get_int_def(self.ptr, ""baz"").unwrap();
		qv.into_value().unwrap()
	}
	pub fn set_baz(&mut self, baz : i64){
		mitem::set_int(self.ptr, ""baz"", Qv::Val(baz));
	}
	
	
}

").
Proof. vm_compute. reflexivity. Qed.

(** dochy_manual/src/b3_1_clist_and_mlist/mlist_new_accessor.rs *)
Example mlist_new_accessor : made_from [(txt "src/root.json5", txt "{
  mlist : [
    ""MList"",
    [{
      //bar is removed,
      baz : 100, // baz's default is changed to 100
      qux : -1, //new value ""qux"" is defined
    }],
    {
      baz : 1001,
      qux : 2
    },
    {
      baz : 1002,
      qux : 3
    }
  ]
}")]
  (map txt ["mlist"; "qux"; "baz"])
  = Ok (txt "use dochy::core::intf::*;
use dochy::core::structs::*;
unsafe impl Send for RootIntf {}
unsafe impl Sync for RootIntf {}
#[derive(Debug)]
pub struct RootIntf{
    root : Box<RootObject>,
    ptr : RootObjectPtr,
}
impl RootIntf{
    pub fn new(obj : RootObject) -> RootIntf{
		let mut root = Box::new(obj);
		let ptr = RootObjectPtr::new(root.as_mut());
		RootIntf { root, ptr }
	}
    pub fn root_obj_ref(&self) -> &RootObject{ self.root.as_ref() }
    pub fn root_obj_ref_mut(&mut self) -> &mut RootObject{ self.root.as_mut() }
    pub fn deconstruct(self) -> RootObject{ *self.root }

	pub fn mlist(&self) -> MListConst<MlistMItem>{
		let mil = root::get_mlist_const(self.ptr, ""mlist"").unwrap().unwrap();
		MListConst::new(mil, self)
	}
	pub fn mlist_mut(&mut self) -> MListMut<MlistMItem>{
		let mil = root::get_mlist_mut(self.ptr, ""mlist"").unwrap();
		MListMut::new(mil, self)
	}
}
#[derive(Debug, PartialEq, Clone, Copy)]
pub struct MlistMItem {
	ptr : MItemPtr,
}
impl From<MItemPtr> for MlistMItem {
	fn from(ptr : MItemPtr) -> Self {
		Self{ ptr }
	}
}
impl MlistMItem {
	pub fn qux(&self) -> i64{
		let qv = mitem::get_int(self.ptr, ""qux"").unwrap();
		qv.into_value().unwrap()
	}
	pub fn qux_def_val(&self) -> i64{
		let qv = mitem::get_int_def(self.ptr, ""qux"").unwrap();
		qv.into_value().unwrap()
	}
	pub fn set_qux(&mut self, qux : i64){
		mitem::set_int(self.ptr, ""qux"", Qv::Val(qux));
	}
	pub fn baz(&self) -> i64{
		let qv = mitem::get_int(self.ptr, ""baz"").unwrap();
		qv.into_value().unwrap()
	}
	pub fn baz_def_val(&self) -> i64{
		let qv = mitem::get_int_def(self.ptr, ""baz"").unwrap();
		qv.into_value().unwrap()
	}
	pub fn set_baz(&mut self, baz : i64){
		mitem::set_int(self.ptr, ""baz"", Qv::Val(baz));
	}
	
	
}

").
Proof. vm_compute. reflexivity. Qed.

(** dochy_manual/src/make_manual/manual_accessor.rs *)
Example manual_accessor : made_from [(txt "src/root.json5", txt "{
  list : [
    ""CList"",
    [{
      title : """",
      ""src?"" : [""Str"",null],
    }],
    {
      title : ""1. Dochy Lang""
    },
    {
      title : ""1-1. Basic Params"",
      src : ""a3_dochy_langs_basics/dochy_params/root.json5""
    },
    {
      title : ""1-1-1. Generate Source Code To Access Params"",
      src : ""a3_dochy_langs_basics/dochy_params_generate.rs""
    },
    {
      title : ""1-1-2. Use Generated Source Code"",
      src : ""a3_dochy_langs_basics/params_test.rs""
    },
    {
      title : ""2. CList"",
      src : ""a4_clist/clist/root.json5""
    },
    {
      title : ""2-1. Cil (Const Inner List)"",
      src : ""a4_clist/cil/root.json5""
    },
    {
      title : ""2-2. Use Clist And Cil"",
      src : ""a4_clist/use_cil.rs""
    },
    {
      title : ""3. MList"",
      src : ""a5_mlist/mlist/root.json5""
    },
    {
      title : ""3-1. Mil(Mut Inner List)"",
      src : ""a5_mlist/mil/root.json5""
    },
    {
      title : ""3-2. Use Mil"",
      src : ""a5_mlist/use_mil.rs""
    },
    {
      title : ""4. Table"",
      src : ""a6_table/table/root.json5""
    },
    {
      title : ""4-1. Use Table"",
      src : ""a6_table/use_table.rs""
    },
    {
      title : ""5. Split Dochy Src"",
      src : ""a7_split_dochy_src/split_src.md""
    },
    {
      title : ""6. Dochy File"",
      src : ""b1_save_dochy_files/save_dochy_files.md""
    },
    {
      title : ""6-1. Save Dochy File"",
      src : ""b1_save_dochy_files/save_dochy_file_test.rs""
    },
    {
      title : ""6-2. Load And Remove Dochy File"",
      src : ""b1_save_dochy_files/load_dochy_file.rs""
    },
    {
      title : ""7. Dochy History"",
      src : ""b2_save_history_files/whats_dochy_history.md""
    },
    {
      title : ""7-1. Save History File"",
      src : ""b2_save_history_files/save_history_file_test.rs""
    },
    {
      title : ""7-2. Load And Remove History File"",
      src : ""b2_save_history_files/load_history_file_test.rs""
    },
    {
      title : ""7-3. Algorithm Of Dochy History"",
      src : ""b2_save_history_files/algorithm_of_history.md""
    },
    {
      title : ""8. Directory Composition And How To Handle"",
      src : ""b2_save_history_files/directory_composition_and_how_to_handle.md""
    },
    {
      title : ""9. Conversion"",
      src : ""b3_conversion/conversion.md""
    },
    {
      title : ""9-1. Convert CList And MList"",
      src : ""b3_1_clist_and_mlist/clist_and_mlist.md""
    },
    {
      title : ""9-2. Undefined MList"",
      src : ""b3_1_clist_and_mlist/separate_undefined_list.md""
    }
  ]
}")]
  (map txt ["list"; "title"; "src"])
  = Ok (txt "use dochy::core::intf::*;
use dochy::core::structs::*;
unsafe impl Send for RootIntf {}
unsafe impl Sync for RootIntf {}
#[derive(Debug)]
pub struct RootIntf{
    root : Box<RootObject>,
    ptr : RootObjectPtr,
}
impl RootIntf{
    pub fn new(obj : RootObject) -> RootIntf{
		let mut root = Box::new(obj);
		let ptr = RootObjectPtr::new(root.as_mut());
		RootIntf { root, ptr }
	}
    pub fn root_obj_ref(&self) -> &RootObject{ self.root.as_ref() }
    pub fn root_obj_ref_mut(&mut self) -> &mut RootObject{ self.root.as_mut() }
    pub fn deconstruct(self) -> RootObject{ *self.root }

	pub fn list(&self) -> CListConst<ListCItem>{
		CListConst::new(root::get_clist(self.ptr, ""list"").unwrap(), self)
	}
}
#[derive(Debug, PartialEq, Clone, Copy)]
pub struct ListCItem {
	ptr : CItemPtr,
}
impl From<CItemPtr> for ListCItem {
	fn from(ptr : CItemPtr) -> Self { Self{ ptr } }
}
impl ListCItem {
	pub fn title_def_val(&self) -> &String{
		let qv = citem::get_str_def(self.ptr, ""title"").unwrap();
		qv.into_value().unwrap()
	}
	pub fn title(&self) -> &String{
		let qv = citem::get_immutable_str(self.ptr, ""title"").unwrap();
		qv.into_value().unwrap()
	}
	pub fn src_def_val(&self) -> NullOr<&String>{
		let qv = citem::get_str_def(self.ptr, ""src"").unwrap();
		NullOr::from_qv(qv).unwrap()
	}
	pub fn src(&self) -> NullOr<&String>{
		let qv = citem::get_immutable_str(self.ptr, ""src"").unwrap();
		NullOr::from_qv(qv).unwrap()
	}
	
}

").
Proof. vm_compute. reflexivity. Qed.

(** dochy_manual/src/b3_conversion/old_accessor.rs *)
Example old_accessor : made_from [(txt "src/root.json5", txt "{
  oldValue : 10,
}")]
  (map txt ["oldValue"])
  = Ok (txt "use dochy::core::intf::*;
use dochy::core::structs::*;
unsafe impl Send for RootIntf {}
unsafe impl Sync for RootIntf {}
#[derive(Debug)]
pub struct RootIntf{
    root : Box<RootObject>,
    ptr : RootObjectPtr,
}
impl RootIntf{
    pub fn new(obj : RootObject) -> RootIntf{
		let mut root = Box::new(obj);
		let ptr = RootObjectPtr::new(root.as_mut());
		RootIntf { root, ptr }
	}
    pub fn root_obj_ref(&self) -> &RootObject{ self.root.as_ref() }
    pub fn root_obj_ref_mut(&mut self) -> &mut RootObject{ self.root.as_mut() }
    pub fn deconstruct(self) -> RootObject{ *self.root }

	pub fn old_value(&self) -> i64{
		let qv = root::get_int(self.ptr, ""oldValue"").unwrap();
		qv.into_value().unwrap()
	}
	pub fn old_value_def_val(&self) -> i64{
		let qv = root::get_int_def(self.ptr, ""oldValue"").unwrap();
		qv.into_value().unwrap()
	}
	pub fn set_old_value(&mut self, old_value : i64){
		root::set_int(self.ptr, ""oldValue"", Qv::Val(old_value));
	}
}
").
Proof. vm_compute. reflexivity. Qed.

(** dochy_manual/src/b3_conversion/new_accessor.rs *)
Example new_accessor : made_from [(txt "src/root.json5", txt "{
  ""oldValue?"" : [""Int"", null],
  ""newValue!"" : 100,
}")]
  (map txt ["oldValue"; "newValue"])
  = Ok (txt "use dochy::core::intf::*;
use dochy::core::structs::*;
unsafe impl Send for RootIntf {}
unsafe impl Sync for RootIntf {}
#[derive(Debug)]
pub struct RootIntf{
    root : Box<RootObject>,
    ptr : RootObjectPtr,
}
impl RootIntf{
    pub fn new(obj : RootObject) -> RootIntf{
		let mut root = Box::new(obj);
		let ptr = RootObjectPtr::new(root.as_mut());
		RootIntf { root, ptr }
	}
    pub fn root_obj_ref(&self) -> &RootObject{ self.root.as_ref() }
    pub fn root_obj_ref_mut(&mut self) -> &mut RootObject{ self.root.as_mut() }
    pub fn deconstruct(self) -> RootObject{ *self.root }

	pub fn old_value(&self) -> NullOr<i64>{
		let qv = root::get_int(self.ptr, ""oldValue"").unwrap();
		NullOr::from_qv(qv).unwrap()
	}
	pub fn old_value_def_val(&self) -> NullOr<i64>{
		let qv = root::get_int_def(self.ptr, ""oldValue"").unwrap();
		NullOr::from_qv(qv).unwrap()
	}
	pub fn set_old_value(&mut self, old_value : NullOr<i64>){
		root::set_int(self.ptr, ""oldValue"", old_value.into_qv());
	}
	pub fn new_value(&self) -> UndefOr<i64>{
		let qv = root::get_int(self.ptr, ""newValue"").unwrap();
		UndefOr::from_qv(qv).unwrap()
	}
	pub fn new_value_def_val(&self) -> UndefOr<i64>{
		let qv = root::get_int_def(self.ptr, ""newValue"").unwrap();
		UndefOr::from_qv(qv).unwrap()
	}
	pub fn set_new_value(&mut self, new_value : UndefOr<i64>){
		root::set_int(self.ptr, ""newValue"", new_value.into_qv());
	}
}
").
Proof. vm_compute. reflexivity. Qed.

(** dochy_manual/src/b3_conversion/new2_accessor.rs *)
Example new2_accessor : made_from [(txt "src/root.json5", txt "{
  ""oldValue?"" : [""Int"", null],
  ""newValue!?"" : [""Int"", null],
  ""newValue2!"" : 280,
}")]
  (map txt ["oldValue"; "newValue2"; "newValue"])
  = Ok (txt "use dochy::core::intf::*;
use dochy::core::structs::*;
unsafe impl Send for RootIntf {}
unsafe impl Sync for RootIntf {}
#[derive(Debug)]
pub struct RootIntf{
    root : Box<RootObject>,
    ptr : RootObjectPtr,
}
impl RootIntf{
    pub fn new(obj : RootObject) -> RootIntf{
		let mut root = Box::new(obj);
		let ptr = RootObjectPtr::new(root.as_mut());
		RootIntf { root, ptr }
	}
    pub fn root_obj_ref(&self) -> &RootObject{ self.root.as_ref() }
    pub fn root_obj_ref_mut(&mut self) -> &mut RootObject{ self.root.as_mut() }
    pub fn deconstruct(self) -> RootObject{ *self.root }

	pub fn old_value(&self) -> NullOr<i64>{
		let qv = root::get_int(self.ptr, ""oldValue"").unwrap();
		NullOr::from_qv(qv).unwrap()
	}
	pub fn old_value_def_val(&self) -> NullOr<i64>{
		let qv = root::get_int_def(self.ptr, ""oldValue"").unwrap();
		NullOr::from_qv(qv).unwrap()
	}
	pub fn set_old_value(&mut self, old_value : NullOr<i64>){
		root::set_int(self.ptr, ""oldValue"", old_value.into_qv());
	}
	pub fn new_value2(&self) -> UndefOr<i64>{
		let qv = root::get_int(self.ptr, ""newValue2"").unwrap();
		UndefOr::from_qv(qv).unwrap()
	}
	pub fn new_value2_def_val(&self) -> UndefOr<i64>{
		let qv = root::get_int_def(self.ptr, ""newValue2"").unwrap();
		UndefOr::from_qv(qv).unwrap()
	}
	pub fn set_new_value2(&mut self, new_value2 : UndefOr<i64>){
		root::set_int(self.ptr, ""newValue2"", new_value2.into_qv());
	}
	pub fn new_value(&self) -> Qv<i64>{
		let qv = root::get_int(self.ptr, ""newValue"").unwrap();
		qv
	}
	pub fn new_value_def_val(&self) -> Qv<i64>{
		let qv = root::get_int_def(self.ptr, ""newValue"").unwrap();
		qv
	}
	pub fn set_new_value(&mut self, new_value : Qv<i64>){
		root::set_int(self.ptr, ""newValue"", new_value.into_qv());
	}
}
").
Proof. vm_compute. reflexivity. Qed.

(** dochy_manual/src/a5_mlist/mlist_accessor.rs *)
Example mlist_accessor : made_from [(txt "src/root.json5", txt "{
  // MList is a mutable list in Dochy.
  // Explanations are reserved for the next section.

  mlist : [""MList"",[{
    name : ""a"",
    val : 3,
  }],
    {
      name : ""b"",
      val : 4,
    },
    {
      //name is omitted
      val : 5,
    }
  ],
}")]
  (map txt ["mlist"; "val"; "name"])
  = Ok (txt "use dochy::core::intf::*;
use dochy::core::structs::*;
unsafe impl Send for RootIntf {}
unsafe impl Sync for RootIntf {}
#[derive(Debug)]
pub struct RootIntf{
    root : Box<RootObject>,
    ptr : RootObjectPtr,
}
impl RootIntf{
    pub fn new(obj : RootObject) -> RootIntf{
		let mut root = Box::new(obj);
		let ptr = RootObjectPtr::new(root.as_mut());
		RootIntf { root, ptr }
	}
    pub fn root_obj_ref(&self) -> &RootObject{ self.root.as_ref() }
    pub fn root_obj_ref_mut(&mut self) -> &mut RootObject{ self.root.as_mut() }
    pub fn deconstruct(self) -> RootObject{ *self.root }

	pub fn mlist(&self) -> MListConst<MlistMItem>{
		let mil = root::get_mlist_const(self.ptr, ""mlist"").unwrap().unwrap();
		MListConst::new(mil, self)
	}
	pub fn mlist_mut(&mut self) -> MListMut<MlistMItem>{
		let mil = root::get_mlist_mut(self.ptr, ""mlist"").unwrap();
		MListMut::new(mil, self)
	}
}
#[derive(Debug, PartialEq, Clone, Copy)]
pub struct MlistMItem {
	ptr : MItemPtr,
}
impl From<MItemPtr> for MlistMItem {
	fn from(ptr : MItemPtr) -> Self {
		Self{ ptr }
	}
}
impl MlistMItem {
	pub fn val(&self) -> i64{
		let qv = mitem::get_int(self.ptr, ""val"").unwrap();
		qv.into_value().unwrap()
	}
	pub fn val_def_val(&self) -> i64{
		let qv = mitem::get_int_def(self.ptr, ""val"").unwrap();
		qv.into_value().unwrap()
	}
	pub fn set_val(&mut self, val : i64){
		mitem::set_int(self.ptr, ""val"", Qv::Val(val));
	}
	pub fn name_def_val(&self) -> &String{
		let qv = mitem::get_str_def(self.ptr, ""name"").unwrap();
		qv.into_value().unwrap()
	}
	pub fn name(&self) -> &String{
		let qv = mitem::get_immutable_str(self.ptr, ""name"").unwrap();
		qv.into_value().unwrap()
	}
	pub fn name_mut(&mut self) -> &mut String{
		let qv = mitem::get_mutable_str(self.ptr, ""name"").unwrap();
		qv.into_value().unwrap()
	}
	pub fn set_name(&mut self, name : String){
		mitem::set_str(self.ptr, ""name"", Qv::Val(name));
	}
	
	
}

").
Proof. vm_compute. reflexivity. Qed.

(** dochy_manual/src/a5_mlist/mil_accessor.rs *)
Example mil_accessor : made_from [(txt "src/root.json5", txt "{
  // Inner MList is named ""Mil"", which is ""Mut Inner List"".

  // Basically, changing C to M works, because they are facially very similar.

  // Internally, MList and Mil uses int-keyed LinkedHashMap, which is a hashmap whose items are linked list nodes,
  // so it has sequential order.

  // It's items have ID number, which is auto-increment, and assigned automatically.
  // The ID is the key, so searching items by ID in the list is very fast(because it's also a hashmap).
  // To calculate diff, we compare items with the same ID.

  // Let's see how to use it in the next section.

  mlist : [""MList"",[{
    val : 0,
    inner_list : [""MilDef"",[{
      name : ""x"",
    }]]
  }],
    {
      val : 1,
      inner_list : [""Mil"",
        {
          name : ""p"",
        },
        {
          name : ""q"",
        }
      ]
    },
    {
      val : 2,
      //inner_list omitted
    },
  ],
}")]
  (map txt ["mlist"; "val"; "inner_list"; "name"])
  = Ok (txt "use dochy::core::intf::*;
use dochy::core::structs::*;
unsafe impl Send for RootIntf {}
unsafe impl Sync for RootIntf {}
#[derive(Debug)]
pub struct RootIntf{
    root : Box<RootObject>,
    ptr : RootObjectPtr,
}
impl RootIntf{
    pub fn new(obj : RootObject) -> RootIntf{
		let mut root = Box::new(obj);
		let ptr = RootObjectPtr::new(root.as_mut());
		RootIntf { root, ptr }
	}
    pub fn root_obj_ref(&self) -> &RootObject{ self.root.as_ref() }
    pub fn root_obj_ref_mut(&mut self) -> &mut RootObject{ self.root.as_mut() }
    pub fn deconstruct(self) -> RootObject{ *self.root }

	pub fn mlist(&self) -> MListConst<MlistMItem>{
		let mil = root::get_mlist_const(self.ptr, ""mlist"").unwrap().unwrap();
		MListConst::new(mil, self)
	}
	pub fn mlist_mut(&mut self) -> MListMut<MlistMItem>{
		let mil = root::get_mlist_mut(self.ptr, ""mlist"").unwrap();
		MListMut::new(mil, self)
	}
}
#[derive(Debug, PartialEq, Clone, Copy)]
pub struct MlistMItem {
	ptr : MItemPtr,
}
impl From<MItemPtr> for MlistMItem {
	fn from(ptr : MItemPtr) -> Self {
		Self{ ptr }
	}
}
impl MlistMItem {
	pub fn val(&self) -> i64{
		let qv = mitem::get_int(self.ptr, ""val"").unwrap();
		qv.into_value().unwrap()
	}
	pub fn val_def_val(&self) -> i64{
		let qv = mitem::get_int_def(self.ptr, ""val"").unwrap();
		qv.into_value().unwrap()
	}
	pub fn set_val(&mut self, val : i64){
		mitem::set_int(self.ptr, ""val"", Qv::Val(val));
	}
	pub fn inner_list(&self) -> MListConst<InnerListMItem>{
		let mil = mitem::get_mil_const(self.ptr, ""inner_list"").unwrap().unwrap();
		MListConst::new(mil, self)
	}
	pub fn inner_list_mut(&mut self) -> MListMut<InnerListMItem>{
		let p = mitem::get_mil_mut(self.ptr, ""inner_list"").unwrap();
		MListMut::new(p, self)
	}
	
	
}
#[derive(Debug, PartialEq, Clone, Copy)]
pub struct InnerListMItem {
	ptr : MItemPtr,
}
impl From<MItemPtr> for InnerListMItem {
	fn from(ptr : MItemPtr) -> Self {
		Self{ ptr }
	}
}
impl InnerListMItem {
	pub fn name_def_val(&self) -> &String{
		let qv = mitem::get_str_def(self.ptr, ""name"").unwrap();
		qv.into_value().unwrap()
	}
	pub fn name(&self) -> &String{
		let qv = mitem::get_immutable_str(self.ptr, ""name"").unwrap();
		qv.into_value().unwrap()
	}
	pub fn name_mut(&mut self) -> &mut String{
		let qv = mitem::get_mutable_str(self.ptr, ""name"").unwrap();
		qv.into_value().unwrap()
	}
	pub fn set_name(&mut self, name : String){
		mitem::set_str(self.ptr, ""name"", Qv::Val(name));
	}
	
	
}

").
Proof. vm_compute. reflexivity. Qed.

(** dochy_manual/src/a4_clist/clist_accessor.rs *)
Example clist_accessor : made_from [(txt "src/root.json5", txt "{
  // Dochy has three collection types, ""CList"",""MList"", and ""Table"",
  // but the basic foundations are the same.

  clist : [""CList"",[{
    name : ""a"",
    val : 3,
  }],
    {
      name : ""b"",
      val : 4,
    },
    {
      //name is omitted
      val : 5,
    }
  ],
}

// Explanation:
//
// Dochy's every collection must have ""default object"" to define the static type of the items of the collection.
//
//   clist : [""CList"",[{
//    name : ""a"",
//    val : 3,
//  }],
//
// Dochy's default object is surrounded by ""[{"" and ""}]"".
// The default object defines the variables ""name"" (String) and ""val"" (Int).
// ""name""'s default value is ""a"", and ""val""'s is 3.
//
// {
//   name : ""b"",
//   val : 4,
// },
//
// This is the first item of the list.
// ""name"" is ""b"" and ""val"" is 4.
//
// {
//   //name is omitted
//   val : 5,
// }
//
// In the second object, the ""name"" variable is omitted.
// When a value is omitted, it's default value is used, so the value ""name"" will be ""a"".
//
// CList is the immutable list of Dochy.
// Why we need CList?
// We have MList which is the mutable list of Dochy.
// You can use MList and hide the mutable methods.
//
// It's because, these two have different strategies in conversion.
//
// When you need to modify older version's data,
// you can just rewrite clist in the current version's source file.
//
// In the conversion process, older data's CList is just replaced by the current source file's CList.
//
// MList is not replaced in the conversion process (because we need to retain the modified data).
//
// CList is implemented by std::Vec internally.")]
  (map txt ["clist"; "val"; "name"])
  = Ok (txt "use dochy::core::intf::*;
use dochy::core::structs::*;
unsafe impl Send for RootIntf {}
unsafe impl Sync for RootIntf {}
#[derive(Debug)]
pub struct RootIntf{
    root : Box<RootObject>,
    ptr : RootObjectPtr,
}
impl RootIntf{
    pub fn new(obj : RootObject) -> RootIntf{
		let mut root = Box::new(obj);
		let ptr = RootObjectPtr::new(root.as_mut());
		RootIntf { root, ptr }
	}
    pub fn root_obj_ref(&self) -> &RootObject{ self.root.as_ref() }
    pub fn root_obj_ref_mut(&mut self) -> &mut RootObject{ self.root.as_mut() }
    pub fn deconstruct(self) -> RootObject{ *self.root }

	pub fn clist(&self) -> CListConst<ClistCItem>{
		CListConst::new(root::get_clist(self.ptr, ""clist"").unwrap(), self)
	}
}
#[derive(Debug, PartialEq, Clone, Copy)]
pub struct ClistCItem {
	ptr : CItemPtr,
}
impl From<CItemPtr> for ClistCItem {
	fn from(ptr : CItemPtr) -> Self { Self{ ptr } }
}
impl ClistCItem {
	pub fn val(&self) -> i64{
		let qv = citem::get_int(self.ptr, ""val"").unwrap();
		qv.into_value().unwrap()
	}
	pub fn val_def_val(&self) -> i64{
		let qv = citem::get_int_def(self.ptr, ""val"").unwrap();
		qv.into_value().unwrap()
	}
	pub fn name_def_val(&self) -> &String{
		let qv = citem::get_str_def(self.ptr, ""name"").unwrap();
		qv.into_value().unwrap()
	}
	pub fn name(&self) -> &String{
		let qv = citem::get_immutable_str(self.ptr, ""name"").unwrap();
		qv.into_value().unwrap()
	}
	
}

").
Proof. vm_compute. reflexivity. Qed.

(** dochy_manual/src/a4_clist/cil_accessor.rs *)
Example cil_accessor : made_from [(txt "src/root.json5", txt "{
  // Inner CList is named ""Cil"".
  // 'Cil' is ""Const Inner List"".
  // The naming may be peculiar.(I'm not an English speaker. Please tell me better names.)

  // Why Cil exists? What about just use the CList in the CList?

  // Dochy's inner lists are different from normal lists. Let's see.

  clist : [""CList"",[{
    val : 0,
    inner_list : [""CilDef"",[{
      name : ""x"",
    }]]
  }],
    {
      val : 1,
      inner_list : [""Cil"",
        {
          name : ""p"",
        },
        {
          name : ""q"",
        }
      ]
    },
    {
      val : 2,
      //inner_list omitted
    },
  ],
}

// Explanation
//
// clist : [""CList"",[{
//    val : 0,
//    inner_list : [""CilDef"",[{
//      name : ""x"",
//    }]]
//  }],
//
// Cil can exist in CList, Table, and Cil. Cil can't exist in mutable lists.
//
// Cil is separated into two parts, ""CilDef"" and ""Cil"".
//
// CilDef can exist only in default objects. It defines Cil's default object. Actual values can't be defined there.
//
//    {
//      val : 1,
//      inner_list : [""Cil"",
//        {
//          name : ""p"",
//        },
//        {
//          name : ""q"",
//        }
//      ]
//    },
//
// Cil, on the other hand, only defines actual values. Cil can exist only in actual items of CList, Cil, Table.
//
//    {
//      val : 2,
//      //inner_list omitted
//    },
//
// In this item, inner_list is omitted. Omitted lists are regarded as an empty list.
//
// Vec is used for implementing Cil, like CList.")]
  (map txt ["clist"; "val"; "inner_list"; "name"])
  = Ok (txt "use dochy::core::intf::*;
use dochy::core::structs::*;
unsafe impl Send for RootIntf {}
unsafe impl Sync for RootIntf {}
#[derive(Debug)]
pub struct RootIntf{
    root : Box<RootObject>,
    ptr : RootObjectPtr,
}
impl RootIntf{
    pub fn new(obj : RootObject) -> RootIntf{
		let mut root = Box::new(obj);
		let ptr = RootObjectPtr::new(root.as_mut());
		RootIntf { root, ptr }
	}
    pub fn root_obj_ref(&self) -> &RootObject{ self.root.as_ref() }
    pub fn root_obj_ref_mut(&mut self) -> &mut RootObject{ self.root.as_mut() }
    pub fn deconstruct(self) -> RootObject{ *self.root }

	pub fn clist(&self) -> CListConst<ClistCItem>{
		CListConst::new(root::get_clist(self.ptr, ""clist"").unwrap(), self)
	}
}
#[derive(Debug, PartialEq, Clone, Copy)]
pub struct ClistCItem {
	ptr : CItemPtr,
}
impl From<CItemPtr> for ClistCItem {
	fn from(ptr : CItemPtr) -> Self { Self{ ptr } }
}
impl ClistCItem {
	pub fn val(&self) -> i64{
		let qv = citem::get_int(self.ptr, ""val"").unwrap();
		qv.into_value().unwrap()
	}
	pub fn val_def_val(&self) -> i64{
		let qv = citem::get_int_def(self.ptr, ""val"").unwrap();
		qv.into_value().unwrap()
	}
	pub fn inner_list(&self) -> CListConst<InnerListCItem>{
		CListConst::new(citem::get_cil(self.ptr, ""inner_list"").unwrap(), self)
	}
	
}
#[derive(Debug, PartialEq, Clone, Copy)]
pub struct InnerListCItem {
	ptr : CItemPtr,
}
impl From<CItemPtr> for InnerListCItem {
	fn from(ptr : CItemPtr) -> Self { Self{ ptr } }
}
impl InnerListCItem {
	pub fn name_def_val(&self) -> &String{
		let qv = citem::get_str_def(self.ptr, ""name"").unwrap();
		qv.into_value().unwrap()
	}
	pub fn name(&self) -> &String{
		let qv = citem::get_immutable_str(self.ptr, ""name"").unwrap();
		qv.into_value().unwrap()
	}
	
}

").
Proof. vm_compute. reflexivity. Qed.

(** dochy_manual/src/a3_dochy_langs_basics/dochy_params_accessor.rs *)
Example dochy_params_accessor : made_from [(txt "src/root.json5", txt "{
  // Dochy Lang is a language to define static types and initial values of data
  // The source files of the language is called Dochy Src.
  // It's written in ""JSON5"". It's an improved JSON and comments can be written in it (as you can see).

  // Firstly, you need to crate a directory to place JSON5 files. It's kind of cumbersome, but it's for scalability.
  // The directory must have ""root.json5""(It's also bothersome, but it's also for scalability).

  // Let's take a look at the parameter types of Dochy Lang and how to write it.

  // Int (i64)
  int_value : 1,
  // Float (f64)
  float_value : 1.0,
  // String
  string_value : ""String"",
  // Bool
  bool_value : true,

  // In Dochy Lang, ints (1) and floats (1.0) are distinguishable.
  // Right value's type determines the variable's static type.

  // Let's call Dochy Lang's parameters ""Dochy Params"".
  // Let's enumerate all the Dochy Param types other than above.

  int_array : [""IntArray"", 1, 2],
  float_array : [""FloatArray"", 1.0, 2], //integers can be written in FloatArray (it's converted to f64)
  binary : [""Binary""],

  // Arrays and Binary need specifying typenames at the first of their arrays.

  // IntArray is i64's array.
  // FloatArray is f64's array.
  // Binary is u8's array.

  //---

  // Dochy Params have ""nullable"" variants.

  // You can use ""nullable"" with attaching ""?"" at the end of the variable names.
  ""nullable_int?"" : [""Int"", null],

  // To assign null, [""typename"", null] is needed.

  // You can just assign normal values to nullable variables

  ""nullable_int2?"" : 5,

  // Dochy's parser accepts variable names with ""?"" without quotations.
  // But it's not valid JSON5. Your JSON5 editor will be angry.
  nullable_str? : [""Str"", null],

  nullable_float? : [""Float"", null],
  nullable_bool? : [""Bool"", null],
  nullable_int_array? : [""IntArray"", null],
  nullable_float_array? : [""FloatArray"", null],
  nullable_binary? : [""Binary"", null],

  // ---

  // Dochy has a special value named ""undefined"".

  // When an old data does not have a variable, and the variable is ""undefiable"",
  // the value ""undefined"" will be automatically assigned to the variable in the conversion process.

  // ""undefiable"" values must have ""!"" at the end of the variable names.
  // Dochy accepts the value ""undefined"", like null, but it's invalid JSON5 and not recommended.
  // ""undefined"" is not supposed to be used in Dochy Src.
  // ""undefined"" should only be assigned in the conversion process.

  undefiable_int! : [""Int"", undefined], // NOT RECOMMENDED

  // You can craate a variable both nullable and undefiable with the suffix ""!?""

  undef_nullable_int!? : 2,
}

// Let's suppose this is the old data
//{
//  var1 : 10,
//}

// And this is the new data
//{
//  var1 : 10,
//  var2! : 20,
//}

// When the old data is converted to the new version, it will be
//{
//  var1 : 10,
//  var2! : [""Int"", undefined],
//}")]
  (map txt ["nullable_str"; "nullable_bool"; "undef_nullable_int"; "nullable_binary"; "bool_value"; "nullable_int_array"; "undefiable_int"; "nullable_float_array"; "string_value"; "float_value"; "nullable_int"; "int_array"; "nullable_int2"; "float_array"; "binary"; "nullable_float"; "int_value"])
  = Ok (txt "use dochy::core::intf::*;
use dochy::core::structs::*;
unsafe impl Send for RootIntf {}
unsafe impl Sync for RootIntf {}
#[derive(Debug)]
pub struct RootIntf{
    root : Box<RootObject>,
    ptr : RootObjectPtr,
}
impl RootIntf{
    pub fn new(obj : RootObject) -> RootIntf{
		let mut root = Box::new(obj);
		let ptr = RootObjectPtr::new(root.as_mut());
		RootIntf { root, ptr }
	}
    pub fn root_obj_ref(&self) -> &RootObject{ self.root.as_ref() }
    pub fn root_obj_ref_mut(&mut self) -> &mut RootObject{ self.root.as_mut() }
    pub fn deconstruct(self) -> RootObject{ *self.root }

	pub fn nullable_str_def_val(&self) -> NullOr<&String>{
		let qv = root::get_str_def(self.ptr, ""nullable_str"").unwrap();
		NullOr::from_qv(qv).unwrap()
	}
	pub fn nullable_str(&self) -> NullOr<&String>{
		let qv = root::get_immutable_str(self.ptr, ""nullable_str"").unwrap();
		NullOr::from_qv(qv).unwrap()
	}
	pub fn nullable_str_mut(&mut self) -> NullOr<&mut String>{
		let qv = root::get_mutable_str(self.ptr, ""nullable_str"").unwrap();
		NullOr::from_qv(qv).unwrap()
	}
	pub fn set_nullable_str(&mut self, nullable_str : NullOr<String>){
		root::set_str(self.ptr, ""nullable_str"", nullable_str.into_qv());
	}
	pub fn nullable_bool(&self) -> NullOr<bool>{
		let qv = root::get_bool(self.ptr, ""nullable_bool"").unwrap();
		NullOr::from_qv(qv).unwrap()
	}
	pub fn nullable_bool_def_val(&self) -> NullOr<bool>{
		let qv = root::get_bool_def(self.ptr, ""nullable_bool"").unwrap();
		NullOr::from_qv(qv).unwrap()
	}
	pub fn set_nullable_bool(&mut self, nullable_bool : NullOr<bool>){
		root::set_bool(self.ptr, ""nullable_bool"", nullable_bool.into_qv());
	}
	pub fn undef_nullable_int(&self) -> Qv<i64>{
		let qv = root::get_int(self.ptr, ""undef_nullable_int"").unwrap();
		qv
	}
	pub fn undef_nullable_int_def_val(&self) -> Qv<i64>{
		let qv = root::get_int_def(self.ptr, ""undef_nullable_int"").unwrap();
		qv
	}
	pub fn set_undef_nullable_int(&mut self, undef_nullable_int : Qv<i64>){
		root::set_int(self.ptr, ""undef_nullable_int"", undef_nullable_int.into_qv());
	}
	pub fn nullable_binary_def_val(&self) -> NullOr<&Vec<u8>>{
		let qv = root::get_binary_def(self.ptr, ""nullable_binary"").unwrap();
		NullOr::from_qv(qv).unwrap()
	}
	pub fn nullable_binary(&self) -> NullOr<&Vec<u8>>{
		let qv = root::get_immutable_binary(self.ptr, ""nullable_binary"").unwrap();
		NullOr::from_qv(qv).unwrap()
	}
	pub fn nullable_binary_mut(&mut self) -> NullOr<&mut Vec<u8>>{
		let qv = root::get_mutable_binary(self.ptr, ""nullable_binary"").unwrap();
		NullOr::from_qv(qv).unwrap()
	}
	pub fn set_nullable_binary(&mut self, nullable_binary : NullOr<Vec<u8>>){
		root::set_binary(self.ptr, ""nullable_binary"", nullable_binary.into_qv());
	}
	pub fn bool_value(&self) -> bool{
		let qv = root::get_bool(self.ptr, ""bool_value"").unwrap();
		qv.into_value().unwrap()
	}
	pub fn bool_value_def_val(&self) -> bool{
		let qv = root::get_bool_def(self.ptr, ""bool_value"").unwrap();
		qv.into_value().unwrap()
	}
	pub fn set_bool_value(&mut self, bool_value : bool){
		root::set_bool(self.ptr, ""bool_value"", Qv::Val(bool_value));
	}
	pub fn nullable_int_array_def_val(&self) -> NullOr<&Vec<i64>>{
		let qv = root::get_int_array_def(self.ptr, ""nullable_int_array"").unwrap();
		NullOr::from_qv(qv).unwrap()
	}
	pub fn nullable_int_array(&self) -> NullOr<&Vec<i64>>{
		let qv = root::get_immutable_int_array(self.ptr, ""nullable_int_array"").unwrap();
		NullOr::from_qv(qv).unwrap()
	}
	pub fn nullable_int_array_mut(&mut self) -> NullOr<&mut Vec<i64>>{
		let qv = root::get_mutable_int_array(self.ptr, ""nullable_int_array"").unwrap();
		NullOr::from_qv(qv).unwrap()
	}
	pub fn set_nullable_int_array(&mut self, nullable_int_array : NullOr<Vec<i64>>){
		root::set_int_array(self.ptr, ""nullable_int_array"", nullable_int_array.into_qv());
	}
	pub fn undefiable_int(&self) -> UndefOr<i64>{
		let qv = root::get_int(self.ptr, ""undefiable_int"").unwrap();
		UndefOr::from_qv(qv).unwrap()
	}
	pub fn undefiable_int_def_val(&self) -> UndefOr<i64>{
		let qv = root::get_int_def(self.ptr, ""undefiable_int"").unwrap();
		UndefOr::from_qv(qv).unwrap()
	}
	pub fn set_undefiable_int(&mut self, undefiable_int : UndefOr<i64>){
		root::set_int(self.ptr, ""undefiable_int"", undefiable_int.into_qv());
	}
	pub fn nullable_float_array_def_val(&self) -> NullOr<&Vec<f64>>{
		let qv = root::get_float_array_def(self.ptr, ""nullable_float_array"").unwrap();
		NullOr::from_qv(qv).unwrap()
	}
	pub fn nullable_float_array(&self) -> NullOr<&Vec<f64>>{
		let qv = root::get_immutable_float_array(self.ptr, ""nullable_float_array"").unwrap();
		NullOr::from_qv(qv).unwrap()
	}
	pub fn nullable_float_array_mut(&mut self) -> NullOr<&mut Vec<f64>>{
		let qv = root::get_mutable_float_array(self.ptr, ""nullable_float_array"").unwrap();
		NullOr::from_qv(qv).unwrap()
	}
	pub fn set_nullable_float_array(&mut self, nullable_float_array : NullOr<Vec<f64>>){
		root::set_float_array(self.ptr, ""nullable_float_array"", nullable_float_array.into_qv());
	}
	pub fn string_value_def_val(&self) -> &String{
		let qv = root::get_str_def(self.ptr, ""string_value"").unwrap();
		qv.into_value().unwrap()
	}
	pub fn string_value(&self) -> &String{
		let qv = root::get_immutable_str(self.ptr, ""string_value"").unwrap();
		qv.into_value().unwrap()
	}
	pub fn string_value_mut(&mut self) -> &mut String{
		let qv = root::get_mutable_str(self.ptr, ""string_value"").unwrap();
		qv.into_value().unwrap()
	}
	pub fn set_string_value(&mut self, string_value : String){
		root::set_str(self.ptr, ""string_value"", Qv::Val(string_value));
	}
	pub fn float_value(&self) -> f64{
		let qv = root::get_float(self.ptr, ""float_value"").unwrap();
		qv.into_value().unwrap()
	}
	pub fn float_value_def_val(&self) -> f64{
		let qv = root::get_float_def(self.ptr, ""float_value"").unwrap();
		qv.into_value().unwrap()
	}
	pub fn set_float_value(&mut self, float_value : f64){
		root::set_float(self.ptr, ""float_value"", Qv::Val(float_value));
	}
	pub fn nullable_int(&self) -> NullOr<i64>{
		let qv = root::get_int(self.ptr, ""nullable_int"").unwrap();
		NullOr::from_qv(qv).unwrap()
	}
	pub fn nullable_int_def_val(&self) -> NullOr<i64>{
		let qv = root::get_int_def(self.ptr, ""nullable_int"").unwrap();
		NullOr::from_qv(qv).unwrap()
	}
	pub fn set_nullable_int(&mut self, nullable_int : NullOr<i64>){
		root::set_int(self.ptr, ""nullable_int"", nullable_int.into_qv());
	}
	pub fn int_array_def_val(&self) -> &Vec<i64>{
		let qv = root::get_int_array_def(self.ptr, ""int_array"").unwrap();
		qv.into_value().unwrap()
	}
	pub fn int_array(&self) -> &Vec<i64>{
		let qv = root::get_immutable_int_array(self.ptr, ""int_array"").unwrap();
		qv.into_value().unwrap()
	}
	pub fn int_array_mut(&mut self) -> &mut Vec<i64>{
		let qv = root::get_mutable_int_array(self.ptr, ""int_array"").unwrap();
		qv.into_value().unwrap()
	}
	pub fn set_int_array(&mut self, int_array : Vec<i64>){
		root::set_int_array(self.ptr, ""int_array"", Qv::Val(int_array));
	}
	pub fn nullable_int2(&self) -> NullOr<i64>{
		let qv = root::get_int(self.ptr, ""nullable_int2"").unwrap();
		NullOr::from_qv(qv).unwrap()
	}
	pub fn nullable_int2_def_val(&self) -> NullOr<i64>{
		let qv = root::get_int_def(self.ptr, ""nullable_int2"").unwrap();
		NullOr::from_qv(qv).unwrap()
	}
	pub fn set_nullable_int2(&mut self, nullable_int2 : NullOr<i64>){
		root::set_int(self.ptr, ""nullable_int2"", nullable_int2.into_qv());
	}
	pub fn float_array_def_val(&self) -> &Vec<f64>{
		let qv = root::get_float_array_def(self.ptr, ""float_array"").unwrap();
		qv.into_value().unwrap()
	}
	pub fn float_array(&self) -> &Vec<f64>{
		let qv = root::get_immutable_float_array(self.ptr, ""float_array"").unwrap();
		qv.into_value().unwrap()
	}
	pub fn float_array_mut(&mut self) -> &mut Vec<f64>{
		let qv = root::get_mutable_float_array(self.ptr, ""float_array"").unwrap();
		qv.into_value().unwrap()
	}
	pub fn set_float_array(&mut self, float_array : Vec<f64>){
		root::set_float_array(self.ptr, ""float_array"", Qv::Val(float_array));
	}
	pub fn binary_def_val(&self) -> &Vec<u8>{
		let qv = root::get_binary_def(self.ptr, ""binary"").unwrap();
		qv.into_value().unwrap()
	}
	pub fn binary(&self) -> &Vec<u8>{
		let qv = root::get_immutable_binary(self.ptr, ""binary"").unwrap();
		qv.into_value().unwrap()
	}
	pub fn binary_mut(&mut self) -> &mut Vec<u8>{
		let qv = root::get_mutable_binary(self.ptr, ""binary"").unwrap();
		qv.into_value().unwrap()
	}
	pub fn set_binary(&mut self, binary : Vec<u8>){
		root::set_binary(self.ptr, ""binary"", Qv::Val(binary));
	}
	pub fn nullable_float(&self) -> NullOr<f64>{
		let qv = root::get_float(self.ptr, ""nullable_float"").unwrap();
		NullOr::from_qv(qv).unwrap()
	}
	pub fn nullable_float_def_val(&self) -> NullOr<f64>{
		let qv = root::get_float_def(self.ptr, ""nullable_float"").unwrap();
		NullOr::from_qv(qv).unwrap()
	}
	pub fn set_nullable_float(&mut self, nullable_float : NullOr<f64>){
		root::set_float(self.ptr, ""nullable_float"", nullable_float.into_qv());
	}
	pub fn int_value(&self) -> i64{
		let qv = root::get_int(self.ptr, ""int_value"").unwrap();
		qv.into_value().unwrap()
	}
	pub fn int_value_def_val(&self) -> i64{
		let qv = root::get_int_def(self.ptr, ""int_value"").unwrap();
		qv.into_value().unwrap()
	}
	pub fn set_int_value(&mut self, int_value : i64){
		root::set_int(self.ptr, ""int_value"", Qv::Val(int_value));
	}
}
").
Proof. vm_compute. reflexivity. Qed.

(** dochy_manual/src/b1_save_dochy_files/save_dochy_files_accessor.rs *)
Example save_dochy_files_accessor : made_from [(txt "src/root.json5", txt "{
  message : ""Hello World""
}")]
  (map txt ["message"])
  = Ok (txt "use dochy::core::intf::*;
use dochy::core::structs::*;
unsafe impl Send for RootIntf {}
unsafe impl Sync for RootIntf {}
#[derive(Debug)]
pub struct RootIntf{
    root : Box<RootObject>,
    ptr : RootObjectPtr,
}
impl RootIntf{
    pub fn new(obj : RootObject) -> RootIntf{
		let mut root = Box::new(obj);
		let ptr = RootObjectPtr::new(root.as_mut());
		RootIntf { root, ptr }
	}
    pub fn root_obj_ref(&self) -> &RootObject{ self.root.as_ref() }
    pub fn root_obj_ref_mut(&mut self) -> &mut RootObject{ self.root.as_mut() }
    pub fn deconstruct(self) -> RootObject{ *self.root }

	pub fn message_def_val(&self) -> &String{
		let qv = root::get_str_def(self.ptr, ""message"").unwrap();
		qv.into_value().unwrap()
	}
	pub fn message(&self) -> &String{
		let qv = root::get_immutable_str(self.ptr, ""message"").unwrap();
		qv.into_value().unwrap()
	}
	pub fn message_mut(&mut self) -> &mut String{
		let qv = root::get_mutable_str(self.ptr, ""message"").unwrap();
		qv.into_value().unwrap()
	}
	pub fn set_message(&mut self, message : String){
		root::set_str(self.ptr, ""message"", Qv::Val(message));
	}
}
").
Proof. vm_compute. reflexivity. Qed.
