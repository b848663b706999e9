(** Model of the memory behind documents: reference counts, copies made on writing, and
    the comparison of documents by identity.  Citations are relative to
    /repo/dochy_core/src/imp unless another crate is named.

    [Arc] of the standard library: a cell has an address, a count of the references to it
    and a content.  Cells are what a document keeps behind an [Arc]: the values of the root
    (structs/root_obj.rs L16), a mutable list (structs/rust_list.rs L95-98), the values and
    the references of an item (L145-150), a text, an array of integers, a binary
    (structs/rust_string.rs L6-8, structs/rust_array.rs L88-90, L113-115).  What cannot change
    plays no role: definitions, the set of old members, meta tables, and the constant inner
    lists, which are tokens as in DocModel.  Steps happen one after another; two threads that
    use different documents interleave whole steps.  Memory does not run out and counts do
    not overflow. *)
From Verif Require Import Base StringCompactionModel LinkedModel LinkedSpec DocModel JsonModel ValidModel IntfModel.

(* ------------------------------------------------------------------ *)
(** * Cells *)

(** A value of a map holds the address of an inner list, a parameter the address of its text
    ([arc], whose content is empty here: the text is in the cell).  [RootSabValue]
    (structs/root_sab_value.rs L6-9) has the variants of [ListSabValue]
    (structs/list_sab_value.rs L9-15) but [Cil], so one kind of cell serves for both. *)
Inductive cell : Type :=
| CText (s : list Z)
| CRefs (m : hmap (qv (list Z)))
| CVals (m : hmap (lval Z))
| CList (l : mlist (Z * Z)).

(** what a parameter keeps behind an [Arc] (structs/rust_param.rs L9-19) *)
Definition texts (p : param) : list (Z * list Z) :=
  match p with
  | PString (Val x) | PIntArray (Val x) | PBinary (Val x) => [x]
  | _ => []
  end.
Definition addrs (p : param) : list Z := map fst (texts p).

(** notation of the model: a parameter without its text, and at another address *)
Definition bare (p : param) : param :=
  match p with
  | PString (Val x) => PString (Val (fst x, []))
  | PIntArray (Val x) => PIntArray (Val (fst x, []))
  | PBinary (Val x) => PBinary (Val (fst x, []))
  | p => p
  end.
Definition at_addr (a : Z) (p : param) : param :=
  match p with
  | PString (Val x) => PString (Val (a, snd x))
  | PIntArray (Val x) => PIntArray (Val (a, snd x))
  | PBinary (Val x) => PBinary (Val (a, snd x))
  | p => p
  end.

(** the references a cell holds *)
Definition lval_refs (v : lval Z) : list Z :=
  match v with LParam p => addrs p | LMil (Some a) => [a] | _ => [] end.
Definition children (v : cell) : list Z :=
  match v with
  | CText _ | CRefs _ => []
  | CVals m => flat_map (fun e => lval_refs (snd e)) m
  | CList l => flat_map (fun e => [fst (snd e); snd (snd e)]) (fst l)
  end.

(** The cells that are in use, with their counts, and how many were made so far, on which
    the choice of the next address may depend. *)
Record heap : Type := Heap { cells : list (Z * (Z * cell)); clock : Z }.

(* ------------------------------------------------------------------ *)
(** * [Arc] *)

Section Alloc.
(** the allocator: the address of the next cell *)
Variable alloc : Z -> list (Z * (Z * cell)) -> Z.

(** use of an address; a cell that is not there any more is undefined behaviour *)
Definition get (h : heap) (a : Z) : res (Z * cell) :=
  match lookup a (cells h) with Some x => Ok x | None => Panic end.
Definition put (h : heap) (a : Z) (x : Z * cell) : heap := Heap (assign a x (cells h)) (clock h).
Definition free (h : heap) (a : Z) : heap := Heap (without a (cells h)) (clock h).

(** [Arc::new] *)
Definition new (h : heap) (v : cell) : heap * Z :=
  let a := alloc (clock h) (cells h) in (Heap ((a, (1, v)) :: cells h) (clock h + 1), a).

(** [Arc::clone] *)
Definition share (h : heap) (a : Z) : res heap := '(c, v) <- get h a ; Ok (put h a (c + 1, v)).

(** The content of a copy.  structs/linked_m.rs L389-406: the copy of a list without items is
    a new list, whose next id is 0; the items of a copy are copies, that is references to the
    same values.  [derive(Clone)] of the maps and parameters copies references. *)
Definition clone_cell (v : cell) : cell := match v with CList ([], _) => CList ([], 0) | v => v end.

(** [Arc::make_mut] *)
Definition make_mut (h : heap) (a : Z) : res (heap * Z * cell) :=
  '(c, v) <- get h a ;
  if c =? 1 then Ok (h, a, v)
  else
    h <- mfold share (children v) h ;
    let '(h, b) := new h (clone_cell v) in
    '(c, v) <- get h a ;
    Ok (put h a (c - 1, v), b, clone_cell v).

(** [make_mut] of the maps *)
Definition own_vals (h : heap) (a : Z) : res (heap * Z * hmap (lval Z)) :=
  '(h, a, v) <- make_mut h a ; match v with CVals m => Ok (h, a, m) | _ => Panic end.
Definition own_refs (h : heap) (a : Z) : res (heap * Z * hmap (qv (list Z))) :=
  '(h, a, v) <- make_mut h a ; match v with CRefs m => Ok (h, a, m) | _ => Panic end.
Definition own_list (h : heap) (a : Z) : res (heap * Z * mlist (Z * Z)) :=
  '(h, a, v) <- make_mut h a ; match v with CList l => Ok (h, a, l) | _ => Panic end.

(* ------------------------------------------------------------------ *)
(** * [Drop]: a cell goes with the last reference to it, and with it its references *)

(** cells without references *)
Definition drop_leaf (h : heap) (a : Z) : res heap :=
  '(c, v) <- get h a ; Ok (if c =? 1 then free h a else put h a (c - 1, v)).
Definition drop_param (h : heap) (p : param) : res heap := mfold drop_leaf (addrs p) h.

Section Inner.
(** of an inner list *)
Variable drop_inner : heap -> Z -> res heap.

Definition drop_lval (h : heap) (v : lval Z) : res heap :=
  match v with LParam p => drop_param h p | LMil (Some a) => drop_inner h a | _ => Ok h end.
Definition drop_vals (h : heap) (a : Z) : res heap :=
  '(c, v) <- get h a ;
  if c =? 1
  then match v with CVals m => mfold (fun h e => drop_lval h (snd e)) m (free h a) | _ => Panic end
  else Ok (put h a (c - 1, v)).
Definition drop_item (h : heap) (it : Z * Z) : res heap := h <- drop_vals h (fst it) ; drop_leaf h (snd it).
End Inner.

Fixpoint drop_list (n : nat) (h : heap) (a : Z) : res heap :=
  match n with
  | O => Panic
  | S n =>
      '(c, v) <- get h a ;
      if c =? 1
      then match v with CList l => mfold (fun h e => drop_item (drop_list n) h (snd e)) (fst l) (free h a) | _ => Panic end
      else Ok (put h a (c - 1, v))
  end.

(* ------------------------------------------------------------------ *)
(** * Maps of values, with [a] their only reference and [m] their content *)

(** [HashMap::insert], and the drop of what was there *)
Definition hput (n : nat) (h : heap) (a : Z) (m : hmap (lval Z)) (key : name) (v : lval Z) : res heap :=
  let h := put h a (1, CVals (hset key v m)) in
  match hget key m with Some old => drop_lval (drop_list n) h old | None => Ok h end.

(** A new parameter: the text, if it has one, is put behind an [Arc]
    (structs/rust_string.rs L11, structs/rust_array.rs L93, L118). *)
Definition place (h : heap) (p : param) : heap * param :=
  match texts p with
  | [] => (h, p)
  | (_, s) :: _ => let '(h, a) := new h (CText s) in (h, at_addr a p)
  end.

(** intf/mitem.rs L357-373, intf/root.rs L309-329 get_param_mut; [o] is the declared value.
    The copy of the declared value refers to its text. *)
Definition hparam_mut (n : nat) (h : heap) (a : Z) (m : hmap (lval Z)) (o : option param) (key : name) : res (heap * hmap (lval Z) * option param) :=
  match hget key m, o with
  | Some (LParam p), _ => Ok (h, m, Some p)
  | _, Some p =>
      h <- mfold share (addrs p) h ;
      h <- hput n h a m key (LParam (bare p)) ;
      Ok (h, hset key (LParam (bare p)) m, Some (bare p))
  | _, None => Ok (h, m, None)
  end.

(** Writing [new] through what [get_mutable_*] gives (intf/mitem.rs L260-303, intf/root.rs
    L195-240): [make_mut] of the text (structs/rust_string.rs L15, structs/rust_array.rs L97,
    L122-125), then the text changes.  Float arrays are in the value. *)
Definition hoverwrite (h : heap) (t : param_type) (txt : list Z) (p : param) : res (heap * param) :=
  match t, p with
  | TString, PString (Val (a, _)) | TIntArray, PIntArray (Val (a, _)) | TBinary, PBinary (Val (a, _)) =>
      '(h, b, _) <- make_mut h a ; Ok (put h b (1, CText txt), at_addr b p)
  | TFloatArray, PFloatArray (Val _) => Ok (h, PFloatArray (Val txt))
  | _, _ => Ok (h, p)
  end.

(** [get_mutable_*] and the write.  While the text is written nothing else uses its
    place in the map, which is empty in the meantime. *)
Definition hwrite (n : nat) (h : heap) (a : Z) (m : hmap (lval Z)) (o : option param) (key : name) (t : param_type) (txt : list Z) : res (heap * bool) :=
  '(h, m, o) <- hparam_mut n h a m o key ;
  match o with
  | Some p =>
      if eqb_type (type_of p) t then
        let h := put h a (1, CVals (hset key (LMil None) m)) in
        '(h, p) <- hoverwrite h t txt p ;
        Ok (put h a (1, CVals (hset key (LParam p) m)), true)
      else Ok (h, false)
  | None => Ok (h, false)
  end.

(** intf/mitem.rs L43-67 get_mil_mut, intf/root.rs L259-281 get_mlist_mut: the list that is
    there or a new one.  It is taken out of the map while it is used; [hclose] puts it back. *)
Definition hopen (n : nat) (h : heap) (a : Z) (m : hmap (lval Z)) (key : name) : res (heap * Z) :=
  match hget key m with
  | Some (LMil (Some l)) => Ok (put h a (1, CVals (hset key (LMil None) m)), l)
  | _ => h <- hput n h a m key (LMil None) ; Ok (new h (CList ([], 0)))
  end.
Definition hclose (h : heap) (a : Z) (m : hmap (lval Z)) (key : name) (l : Z) : heap :=
  put h a (1, CVals (hset key (LMil (Some l)) m)).

(* ------------------------------------------------------------------ *)
(** * Items *)

(** the calls of IntfModel [item_do], with the copies they make *)
Definition hitem_do (n : nat) (h : heap) (it : Z * Z) (d : ldef (defT n)) (o : item_op) : res (heap * (Z * Z) * bool) :=
  let '(va, ra) := it in
  match o with
  | ISet key p =>
      match hget key (ld_members d) with
      | Some (_, DParam p0 vt) =>
          if verify_set_sabun p0 vt p then
            '(h, va, m) <- own_vals h va ;
            match hget key m with
            | None | Some (LParam _) =>
                let '(h, p) := place h p in
                h <- hput n h va m key (LParam (bare p)) ; Ok (h, (va, ra), true)
            | Some _ => Panic
            end
          else Ok (h, it, false)
      | _ => Ok (h, it, false)
      end
  | IWrite key t _ txt =>
      '(h, va, m) <- own_vals h va ;
      '(h, b) <- hwrite n h va m (item_param_def d key) key t txt ;
      Ok (h, (va, ra), b)
  | IInitial key _ len =>
      match hget key (ld_members d) with
      | Some (_, DParam p _) =>
          '(h, va, m) <- own_vals h va ;
          let '(h, p) := place h (to_default_value 0 p len) in
          h <- hput n h va m key (LParam (bare p)) ; Ok (h, (va, ra), true)
      | _ => Ok (h, it, false)
      end
  | IRef key q =>
      '(h, ra, m) <- own_refs h ra ; Ok (put h ra (1, CRefs (hset key q m)), (va, ra), true)
  | IEnum key id =>
      '(h, ra, _) <- own_refs h ra ; Ok (put h ra (1, CRefs (hset key (Val id) [])), (va, ra), true)
  | IOpen key =>
      match hget key (ld_members d) with
      | Some (_, DMil _ _) =>
          '(h, va, m) <- own_vals h va ;
          '(h, l) <- hopen n h va m key ;
          '(h, l, _) <- own_list h l ;
          Ok (hclose h va m key l, (va, ra), true)
      | _ => Ok (h, it, false)
      end
  end.

(* ------------------------------------------------------------------ *)
(** * Lists, with [a] their only reference and [l] their content *)

(** The items that a call removes. *)
Definition removed {V} (l : list (Z * V)) (o : list_op) : list (Z * V) :=
  match o with
  | LRemove id => match lookup id l with Some v => [(id, v)] | None => [] end
  | LRemoveFirst => firstn 1 l
  | LRemoveLast => match rev l with x :: _ => [x] | [] => [] end
  | _ => []
  end.

(** the calls of IntfModel [list_do]; a new item has maps of its own
    (structs/rust_list.rs L156-158) *)
Definition hlist_do (n : nat) (h : heap) (a : Z) (l : mlist (Z * Z)) (o : list_op) : res (heap * bool) :=
  let told (x : mlist (Z * Z) * lret) := (put h a (1, CList (fst x)), match snd x with RBool b => b | _ => true end) in
  match o with
  | LInsertFirst | LInsertLast =>
      if (snd l + 1 <? 2 ^ 64) && negb (has (snd l) (fst l)) && (zlen (fst l) + 1 <? 2 ^ 62)
      then
        let '(h, va) := new h (CVals []) in
        let '(h, ra) := new h (CRefs []) in
        Ok (put h a (1, CList (fst (astep l (match o with LInsertFirst => InsertFirst (va, ra) | _ => InsertLast (va, ra) end)))), true)
      else Panic
  | LRemove id => let '(h, b) := told (astep l (Remove id)) in h <- mfold (fun h e => drop_item (drop_list n) h (snd e)) (removed (fst l) o) h ; Ok (h, b)
  | LRemoveFirst => let '(h, b) := told (astep l RemoveFirst) in h <- mfold (fun h e => drop_item (drop_list n) h (snd e)) (removed (fst l) o) h ; Ok (h, b)
  | LRemoveLast => let '(h, b) := told (astep l RemoveLast) in h <- mfold (fun h e => drop_item (drop_list n) h (snd e)) (removed (fst l) o) h ; Ok (h, b)
  | LMoveToFirst id => Ok (told (astep l (MoveToFirst id)))
  | LMoveToLast id => Ok (told (astep l (MoveToLast id)))
  | LMoveToPrev k id => Ok (told (astep l (MoveToPrev k id)))
  | LMoveToNext k id => Ok (told (astep l (MoveToNext k id)))
  end.

(** The steps of IntfModel [list_run], on the list [a] refers to; the answer has the reference
    that takes its place.  [make_mut] is structs/rust_list.rs L108 list_mut.  An item that is
    used is taken out of the list in the meantime. *)
Fixpoint hlist_run (n : nat) : step -> defT n -> heap -> Z -> res (heap * Z * bool) :=
  match n with
  | O => fun _ d _ _ => match d with end
  | S n => fun s d h a =>
      '(h, a, l) <- own_list h a ;
      match s with
      | OnList o => '(h, b) <- hlist_do n h a l o ; Ok (h, a, b)
      | OnItem id o =>
          match lookup id (fst l) with
          | None => Ok (h, a, false)
          | Some it =>
              let h := put h a (1, CList (without id (fst l), snd l)) in
              '(h, it, b) <- hitem_do n h it d o ;
              Ok (put h a (1, CList (assign id it (fst l), snd l)), a, b)
          end
      | Into id key s =>
          match lookup id (fst l) with
          | None => Ok (h, a, false)
          | Some (va, ra) =>
              match hget key (ld_members d) with
              | Some (_, DMil d' _) =>
                  let h := put h a (1, CList (without id (fst l), snd l)) in
                  '(h, va, m) <- own_vals h va ;
                  '(h, l') <- hopen n h va m key ;
                  '(h, l', b) <- hlist_run n s d' h l' ;
                  let h := hclose h va m key l' in
                  Ok (put h a (1, CList (assign id (va, ra) (fst l), snd l)), a, b)
              | _ => Ok (h, a, false)
              end
          end
      end
  end.

(* ------------------------------------------------------------------ *)
(** * Documents *)

(** The calls of IntfModel [root_run], on the document whose values are at [a].
    [make_mut] is structs/root_obj.rs L63-67 def_and_mut_sab and L91. *)
Definition hroot_run {n} (def : rootdef n) (h : heap) (a : Z) (o : root_step) : res (heap * Z * bool) :=
  match o with
  | OSet key p =>
      match hget key def with
      | Some (_, RVParam p0 vt) =>
          if verify_set_sabun p0 vt p then
            '(h, a, m) <- own_vals h a ;
            let '(h, p) := place h p in
            h <- hput n h a m key (LParam (bare p)) ;
            Ok (h, a, match hget key m with Some (LMil _) => false | _ => true end)
          else Ok (h, a, false)
      | _ => Ok (h, a, false)
      end
  | OWrite key t _ txt =>
      '(h, a, m) <- own_vals h a ;
      '(h, b) <- hwrite n h a m (root_param_def def key) key t txt ;
      Ok (h, a, b)
  | OInitial key _ len =>
      '(h, a, m) <- own_vals h a ;
      match hget key def with
      | Some (_, RVParam p _) =>
          let '(h, p) := place h (to_default_value 0 p len) in
          h <- hput n h a m key (LParam (bare p)) ; Ok (h, a, true)
      | _ => Ok (h, a, false)
      end
  | OOpen key =>
      '(h, a, m) <- own_vals h a ;
      match hget key def with
      | Some (_, RVMList _ _) =>
          '(h, l) <- hopen n h a m key ;
          '(h, l, _) <- own_list h l ;
          Ok (hclose h a m key l, a, true)
      | _ => Ok (h, a, false)
      end
  | OInto key st =>
      '(h, a, m) <- own_vals h a ;
      match hget key def with
      | Some (_, RVMList d _) =>
          '(h, l) <- hopen n h a m key ;
          '(h, l, b) <- hlist_run n st d h l ;
          Ok (hclose h a m key l, a, b)
      | _ => Ok (h, a, false)
      end
  end.

(** What a program does with documents of one source: structs/root_obj.rs L36-47 clone, the
    drop, and calls with a document.  Documents have numbers in the order they appear. *)
Inductive doc_op : Type :=
| DCopy (i : nat)
| DDrop (i : nat)
| DEdit (i : nat) (o : root_step).

Definition docs_step {n} (def : rootdef n) (x : heap * list (option Z)) (o : doc_op) : res (heap * list (option Z)) :=
  let '(h, docs) := x in
  match o with
  | DCopy i =>
      match nth_error docs i with
      | Some (Some a) => h <- share h a ; Ok (h, docs ++ [Some a])
      | _ => Err
      end
  | DDrop i =>
      match nth_error docs i with
      | Some (Some a) => h <- drop_vals (drop_list n) h a ; Ok (h, lset i None docs)
      | _ => Err
      end
  | DEdit i o =>
      match nth_error docs i with
      | Some (Some a) => '(h, a, _) <- hroot_run def h a o ; Ok (h, lset i (Some a) docs)
      | _ => Err
      end
  end.

Definition docs_run {n} (def : rootdef n) (x : heap * list (option Z)) (ops : list doc_op) : res (heap * list (option Z)) :=
  mfold (docs_step def) ops x.

(* ------------------------------------------------------------------ *)
(** * A pointer that is kept *)

(** A generated item ([derive(Clone, Copy)], /repo/dochy_intf/src/imp/structs/mitem_source.rs
    L36) holds a pointer to the item (intf/mitem.rs L17-21) and no lifetime, and
    intf/mlist_mut.rs L108-120 [Deref] gives it out of its guard.  Calls with such a kept
    pointer use the item where it is: nothing on the way to it is copied again.  [list] is
    the list and [id] the item the pointer was made for. *)
Definition kept_do (n : nat) (d : ldef (defT n)) (h : heap) (list id : Z) (o : item_op) : res (heap * bool) :=
  '(_, v) <- get h list ;
  match v with
  | CList l =>
      match lookup id (fst l) with
      | Some it =>
          '(h, it, b) <- hitem_do n h it d o ;
          '(c, _) <- get h list ;
          Ok (put h list (c, CList (assign id it (fst l), snd l)), b)
      | None => Panic
      end
  | _ => Panic
  end.

(* ------------------------------------------------------------------ *)
(** * Comparison by identity *)

(** structs/util/identity_equal_trait.rs L12-23: maps *)
Definition ident_map {A} (eq : A -> A -> bool) (m m' : hmap A) : bool :=
  (zlen m =? zlen m') && forallb (fun e => match hget (fst e) m' with Some v => eq (snd e) v | None => false end) m.

(** structs/list_sab_value.rs L48-64, structs/root_sab_value.rs L36-52 *)
Definition ident_lval (inner : Z -> Z -> bool) (v w : lval Z) : bool :=
  match v with
  | LParam p => match w with LParam q => identity_eq p q | _ => false end
  | LMil (Some a) => match w with LMil (Some b) => inner a b | _ => false end
  | LMil None => match w with LMil None => true | _ => false end
  | LCil _ => true
  end.

(** structs/util/identity_equal_trait.rs L25-30: the same address, or equal contents *)
Definition ident_vals (inner : Z -> Z -> bool) (h : heap) (a b : Z) : bool :=
  (a =? b) ||
  match lookup a (cells h), lookup b (cells h) with
  | Some (_, CVals m), Some (_, CVals m') => ident_map (ident_lval inner) m m'
  | _, _ => false
  end.
(** structs/ref_value.rs L60-64 *)
Definition ident_refs (h : heap) (a b : Z) : bool :=
  (a =? b) ||
  match lookup a (cells h), lookup b (cells h) with
  | Some (_, CRefs m), Some (_, CRefs m') => ident_map (qv_ident eqb_bytes) m m'
  | _, _ => false
  end.
(** structs/rust_list.rs L201-206 *)
Definition ident_item (inner : Z -> Z -> bool) (h : heap) (x y : Z * Z) : bool :=
  ident_vals inner h (fst x) (fst y) && ident_refs h (snd x) (snd y).
(** structs/rust_list.rs L116-120 with structs/util/identity_equal_trait.rs L25-30, L56-64 *)
Fixpoint ident_list (n : nat) (h : heap) (a b : Z) : bool :=
  match n with
  | O => false
  | S n =>
      (a =? b) ||
      match lookup a (cells h), lookup b (cells h) with
      | Some (_, CList l), Some (_, CList l') =>
          (zlen (fst l) =? zlen (fst l')) &&
          forallb (fun e => match lookup (fst e) (fst l') with Some y => ident_item (ident_list n h) h (snd e) y | None => false end) (fst l)
      | _, _ => false
      end
  end.

(** structs/root_obj.rs L116-122 *)
Definition contents_ptr_eq (a b : Z) : bool := a =? b.
Definition contents_eq (n : nat) (h : heap) (a b : Z) : bool := ident_vals (ident_list n h) h a b.

End Alloc.
