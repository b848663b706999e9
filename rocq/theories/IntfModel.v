(** Model of the accessors.  Citations are relative to
    /repo/dochy_core/src/imp/intf unless another crate is named.

    Pointers into a document ([RootObjectPtr], [MListPtr], [MItemPtr]) are paths: the
    member of the root, the id of an item, the member of that item, and so on.  Taking a
    pointer and using it is one step; a pointer kept across the removal of its item is
    undefined behaviour (mlist_ptr.rs L106) and not modelled. *)
From Verif Require Import Base LinkedModel LinkedSpec DocModel JsonModel ValidModel.

(* ------------------------------------------------------------------ *)
(** * Parameters *)

(** What a parameter holds, without the address of it.  The functions for the seven types
    differ only in the variant of [RustParam] they match on. *)
Inductive content : Type :=
| CBool (b : bool) | CFloat (bits : Z) | CInt (i : Z)
| CString (s : list Z) | CInts (l : list Z) | CFloats (l : list Z) | CBytes (l : list Z).

(** structs/qv.rs L39-45 map *)
Definition qv_map {A B} (f : A -> B) (q : qv A) : qv B :=
  match q with Val a => Val (f a) | Null => Null | Undefined => Undefined end.

Definition contents (p : param) : qv content :=
  match p with
  | PBool q => qv_map CBool q
  | PFloat q => qv_map CFloat q
  | PInt q => qv_map CInt q
  | PString q => qv_map (fun a => CString (snd a)) q
  | PIntArray q => qv_map (fun a => CInts (snd a)) q
  | PFloatArray q => qv_map CFloats q
  | PBinary q => qv_map (fun a => CBytes (snd a)) q
  end.

Definition eqb_type (a b : param_type) : bool :=
  match a, b with
  | TBool, TBool | TInt, TInt | TFloat, TFloat | TString, TString
  | TIntArray, TIntArray | TFloatArray, TFloatArray | TBinary, TBinary => true
  | _, _ => false
  end.

(** root.rs L26-193, mitem.rs L89-242, citem.rs L39-188: [get_bool], [get_int], [get_str],
    [get_immutable_str] and so on, on what [get_param] or [get_param_def] found *)
Definition get_as (t : param_type) (o : option param) : option (qv content) :=
  match o with Some p => if eqb_type (type_of p) t then Some (contents p) else None | None => None end.

(** structs/util/set_sabun.rs L4-12 *)
Definition verify_set_sabun (p : param) (vt : var_type) (sab : param) : bool :=
  param_acceptable p sab && acceptable vt (param_qv_type sab).

(** structs/rust_param.rs L86-96 to_default_value; [a] is the address of the new value *)
Definition to_default_value (a : Z) (p : param) (len : Z) : param :=
  let zeros := repeat 0 (Z.to_nat len) in
  match p with
  | PBool _ => PBool (Val false)
  | PFloat _ => PFloat (Val 0)
  | PInt _ => PInt (Val 0)
  | PString _ => PString (Val (a, []))
  | PFloatArray _ => PFloatArray (Val zeros)
  | PIntArray _ => PIntArray (Val (a, zeros))
  | PBinary _ => PBinary (Val (a, zeros))
  end.

(** Writing [new] through the reference that root.rs L195-240 and mitem.rs L260-303
    [get_mutable_str], [get_mutable_int_array], [get_mutable_float_array],
    [get_mutable_binary] give.  [Arc::make_mut] copies what is shared; [a] is the address of
    the copy.  What is not shared is overwritten in place; no other document holds its
    address, so a new address stands for that too. *)
Definition overwrite (t : param_type) (a : Z) (new : list Z) (p : param) : param :=
  match t, p with
  | TString, PString (Val _) => PString (Val (a, new))
  | TIntArray, PIntArray (Val _) => PIntArray (Val (a, new))
  | TFloatArray, PFloatArray (Val _) => PFloatArray (Val new)
  | TBinary, PBinary (Val _) => PBinary (Val (a, new))
  | _, _ => p
  end.

(* ------------------------------------------------------------------ *)
(** * Items *)

Section Items.
Context {D L : Type}.
Implicit Types (it : item L) (d : ldef D) (key : name).

(** mitem.rs L347-355, citem.rs L201-208 get_param_def *)
Definition item_param_def d key : option param :=
  match hget key (ld_members d) with Some (_, DParam p _) => Some p | _ => None end.

(** mitem.rs L336-345, citem.rs L190-199 get_param *)
Definition item_param it d key : option param :=
  match hget key (it_values it) with Some (LParam p) => Some p | _ => item_param_def d key end.

(** mitem.rs L327-333 set_sabun with structs/rust_list.rs L185-198; [unreachable!] if the
    value there was a list *)
Definition item_set it d key (p : param) : res (item L * bool) :=
  match hget key (ld_members d) with
  | Some (_, DParam p0 vt) =>
      if verify_set_sabun p0 vt p then
        match hget key (it_values it) with
        | None | Some (LParam _) => Ok (Item (hset key (LParam p) (it_values it)) (it_refs it), true)
        | Some _ => Panic
        end
      else Ok (it, false)
  | _ => Ok (it, false)
  end.

(** mitem.rs L357-373 get_param_mut: copies the default into the item *)
Definition item_param_mut it d key : item L * option param :=
  match hget key (it_values it) with
  | Some (LParam p) => (it, Some p)
  | _ => match hget key (ld_members d) with
         | Some (_, DParam p _) => (Item (hset key (LParam p) (it_values it)) (it_refs it), Some p)
         | _ => (it, None)
         end
  end.

(** [get_mutable_*] and writing [new], if there is something to write to; the answer is what
    [get_mutable_*] answers, without the reference *)
Definition item_write it d key (t : param_type) (a : Z) (new : list Z) : item L * option (qv unit) :=
  let '(it, o) := item_param_mut it d key in
  match o with
  | Some p =>
      if eqb_type (type_of p) t
      then (Item (hset key (LParam (overwrite t a new p)) (it_values it)) (it_refs it), Some (qv_map (fun _ => tt) (contents p)))
      else (it, None)
  | None => (it, None)
  end.

(** mitem.rs L408-416 set_initial_value *)
Definition item_initial it d key (a len : Z) : item L * bool :=
  match hget key (ld_members d) with
  | Some (_, DParam p _) => (Item (hset key (LParam (to_default_value a p len)) (it_values it)) (it_refs it), true)
  | _ => (it, false)
  end.

(** mitem.rs L419-422 is_unmodified *)
Definition item_unmodified it key : bool := negb (is_some (hget key (it_values it))).

(** mitem.rs L43-67 get_mil_mut; [empty] is a new list *)
Definition item_open it d key (empty : D -> L) : item L * option (D * L) :=
  match hget key (ld_members d) with
  | Some (_, DMil d' _) =>
      match hget key (it_values it) with
      | Some (LMil (Some l)) => (it, Some (d', l))
      | _ => (Item (hset key (LMil (Some (empty d'))) (it_values it)) (it_refs it), Some (d', empty d'))
      end
  | _ => (it, None)
  end.

(** mitem.rs L70-86 get_mil_const *)
Definition item_list it d key (empty : D -> L) : option (option L) :=
  match hget key (ld_members d) with
  | Some (_, DMil d' _) =>
      match hget key (it_values it) with
      | Some (LMil o) => Some o
      | _ => Some (Some (empty d'))
      end
  | _ => None
  end.

(** mitem.rs L375-379 set_ref *)
Definition item_set_ref it key (q : qv (list Z)) : item L * bool :=
  (Item (it_values it) (hset key q (it_refs it)), true).

(** mitem.rs L399-403 set_enum *)
Definition item_set_enum it key (id : list Z) : item L * bool :=
  item_set_ref (Item (it_values it) []) key (Val id).

(** mitem.rs L389-392 get_ref_id with citem.rs L224-236 get_ref_id_impl *)
Definition item_ref_id it d key : option (qv (list Z)) :=
  match hget key (it_refs it) with
  | Some q => Some q
  | None => match hget key (ld_refs d) with Some (_, (q, _)) => Some q | None => None end
  end.

(** mitem.rs L381-387 and citem.rs L210-217 get_ref with root.rs L242-247 get_table, table.rs
    L54-61 get_value and structs/qv.rs L47-53 opt_map; [tables] are the rows of the tables of
    the root; the [unwrap] of [get_table] is the panic *)
Definition item_ref {R} (tables : hmap (hmap R)) it d key : res (option (qv R)) :=
  match item_ref_id it d key with
  | None => Ok None
  | Some (Val id) =>
      match hget key tables with
      | None => Panic
      | Some rows => Ok (match hget id rows with Some r => Some (Val r) | None => None end)
      end
  | Some Null => Ok (Some Null)
  | Some Undefined => Ok (Some Undefined)
  end.

(** mitem.rs L394-397 get_enum with citem.rs L243-250 get_enum_impl: the first in the order
    of iteration *)
Definition item_enum (iter : forall A, hmap A -> hmap A) it : option (name * list Z) :=
  match flat_map (fun e => match snd e with Val v => [(fst e, v)] | _ => [] end) (iter _ (it_refs it)) with
  | x :: _ => Some x
  | [] => None
  end.

End Items.

(* ------------------------------------------------------------------ *)
(** * The root *)

Section Root.
Context {D L : Type}.
Implicit Types (s : hmap (rootsab L)) (def : hmap (Z * rootval D)) (key : name).

(** root.rs L330-336 get_param_def *)
Definition root_param_def def key : option param :=
  match hget key def with Some (_, RVParam p _) => Some p | _ => None end.

(** root.rs L298-308 get_param *)
Definition root_param s def key : option param :=
  match hget key s with Some (RParam p) => Some p | _ => root_param_def def key end.

(** root.rs L338-344 set_sabun with structs/root_obj.rs L85-101 set_sabun_param; where the
    value was a list it is replaced all the same *)
Definition root_set s def key (p : param) : hmap (rootsab L) * bool :=
  match hget key def with
  | Some (_, RVParam p0 vt) =>
      if verify_set_sabun p0 vt p
      then (hset key (RParam p) s, match hget key s with Some (RMut _) => false | _ => true end)
      else (s, false)
  | _ => (s, false)
  end.

(** root.rs L309-329 get_param_mut *)
Definition root_param_mut s def key : hmap (rootsab L) * option param :=
  match hget key s with
  | Some (RParam p) => (s, Some p)
  | _ => match hget key def with
         | Some (_, RVParam p _) => (hset key (RParam p) s, Some p)
         | _ => (s, None)
         end
  end.

(** as [item_write] *)
Definition root_write s def key (t : param_type) (a : Z) (new : list Z) : hmap (rootsab L) * option (qv unit) :=
  let '(s, o) := root_param_mut s def key in
  match o with
  | Some p =>
      if eqb_type (type_of p) t
      then (hset key (RParam (overwrite t a new p)) s, Some (qv_map (fun _ => tt) (contents p)))
      else (s, None)
  | None => (s, None)
  end.

(** root.rs L370-379 set_initial_value *)
Definition root_initial s def key (a len : Z) : hmap (rootsab L) * bool :=
  match hget key def with
  | Some (_, RVParam p _) => (hset key (RParam (to_default_value a p len)) s, true)
  | _ => (s, false)
  end.

(** root.rs L382-386 is_unmodified *)
Definition root_unmodified s key : bool := negb (is_some (hget key s)).

(** root.rs L259-281 get_mlist_mut *)
Definition root_open s def key (empty : D -> L) : hmap (rootsab L) * option (D * L) :=
  match hget key def with
  | Some (_, RVMList d _) =>
      match hget key s with
      | Some (RMut (Some l)) => (s, Some (d, l))
      | _ => (hset key (RMut (Some (empty d))) s, Some (d, empty d))
      end
  | _ => (s, None)
  end.

(** root.rs L283-296 get_mlist_const *)
Definition root_list s def key : option (option L) :=
  match hget key def with
  | Some (_, RVMList _ _) => match hget key s with Some (RMut o) => Some o | _ => None end
  | _ => None
  end.

End Root.

(* ------------------------------------------------------------------ *)
(** * Lists *)

(** What mlist_ptr.rs L91-133 offers.  *)
Inductive list_op : Type :=
| LInsertFirst | LInsertLast
| LRemove (id : Z) | LRemoveFirst | LRemoveLast
| LMoveToFirst (id : Z) | LMoveToLast (id : Z)
| LMoveToPrev (next_items_id id : Z) | LMoveToNext (prev_items_id id : Z).

(** mlist_ptr.rs L91-133.  The linked map does what [astep] says (C08_list_refines); taking
    an id that is in the list, or the last one, panics or is undefined behaviour.  So many
    items that they do not fit a machine abort the program.  [Arc::make_mut] copies a list
    that another document shares; the copy is as C13_copy says, but for the next id of a
    list without items (C09_ids_refuted), which is kept here. *)
Definition list_do {L} (l : mlist (item L)) (o : list_op) : res (mlist (item L) * bool) :=
  let told (x : mlist (item L) * lret) := (fst x, match snd x with RBool b => b | _ => true end) in
  match o with
  | LInsertFirst | LInsertLast =>
      if (snd l + 1 <? 2 ^ 64) && negb (has (snd l) (fst l)) && (zlen (fst l) + 1 <? 2 ^ 62)
      then Ok (told (astep l (match o with LInsertFirst => InsertFirst (Item [] []) | _ => InsertLast (Item [] []) end)))
      else Panic
  | LRemove id => Ok (told (astep l (Remove id)))
  | LRemoveFirst => Ok (told (astep l RemoveFirst))
  | LRemoveLast => Ok (told (astep l RemoveLast))
  | LMoveToFirst id => Ok (told (astep l (MoveToFirst id)))
  | LMoveToLast id => Ok (told (astep l (MoveToLast id)))
  | LMoveToPrev k id => Ok (told (astep l (MoveToPrev k id)))
  | LMoveToNext k id => Ok (told (astep l (MoveToNext k id)))
  end.

(* ------------------------------------------------------------------ *)
(** * Steps of a program that edits a document *)

(** calls with an item *)
Inductive item_op : Type :=
| ISet (key : name) (p : param)
| IWrite (key : name) (t : param_type) (a : Z) (new : list Z)
| IInitial (key : name) (a len : Z)
| IRef (key : name) (q : qv (list Z))
| IEnum (key : name) (id : list Z)
| IOpen (key : name).

(** calls with a list: with the list itself, with an item of it, with a list of an item *)
Inductive step : Type :=
| OnList (o : list_op)
| OnItem (id : Z) (o : item_op)
| Into (id : Z) (key : name) (s : step).

(** calls with the root *)
Inductive root_step : Type :=
| OSet (key : name) (p : param)
| OWrite (key : name) (t : param_type) (a : Z) (new : list Z)
| OInitial (key : name) (a len : Z)
| OOpen (key : name)
| OInto (key : name) (s : step).

(** structs/rust_list.rs L109 crate_empty_list *)
Definition empty_list (n : nat) : defT n -> mlistT n :=
  match n with O => fun d => match d with end | S _ => fun _ => ([], 0) end.

Definition item_do {n} (it : item (mlistT n)) (d : ldef (defT n)) (o : item_op) : res (item (mlistT n) * bool) :=
  match o with
  | ISet key p => item_set it d key p
  | IWrite key t a new => let '(it, r) := item_write it d key t a new in Ok (it, is_some r)
  | IInitial key a len => Ok (item_initial it d key a len)
  | IRef key q => Ok (item_set_ref it key q)
  | IEnum key id => Ok (item_set_enum it key id)
  | IOpen key => let '(it, r) := item_open it d key (empty_list n) in Ok (it, is_some r)
  end.

(** mlist_ptr.rs L69-71 get_item_mut, and the steps with what it gives.  The answer [false]
    stands for a call that failed or could not be made. *)
Fixpoint list_run (n : nat) : step -> defT n -> mlistT n -> res (mlistT n * bool) :=
  match n with
  | O => fun _ d _ => match d with end
  | S n => fun s d l =>
      match s with
      | OnList o => list_do l o
      | OnItem id o =>
          match lookup id (fst l) with
          | None => Ok (l, false)
          | Some it => '(it, b) <- item_do it d o ; Ok ((assign id it (fst l), snd l), b)
          end
      | Into id key s =>
          match lookup id (fst l) with
          | None => Ok (l, false)
          | Some it =>
              match item_open it d key (empty_list n) with
              | (it, None) => Ok (l, false)
              | (it, Some (d', l')) =>
                  '(l', b) <- list_run n s d' l' ;
                  Ok ((assign id (Item (hset key (LMil (Some l')) (it_values it)) (it_refs it)) (fst l), snd l), b)
              end
          end
      end
  end.

Definition root_run {n} (def : rootdef n) (s : sabun n) (o : root_step) : res (sabun n * bool) :=
  match o with
  | OSet key p => Ok (root_set s def key p)
  | OWrite key t a new => let '(s, r) := root_write s def key t a new in Ok (s, is_some r)
  | OInitial key a len => Ok (root_initial s def key a len)
  | OOpen key => let '(s, r) := root_open s def key (empty_list n) in Ok (s, is_some r)
  | OInto key st =>
      match root_open s def key (empty_list n) with
      | (s, None) => Ok (s, false)
      | (s, Some (d, l)) => '(l, b) <- list_run n st d l ; Ok (hset key (RMut (Some l)) s, b)
      end
  end.

(** a program: the calls one after another *)
Definition program_run {n} (def : rootdef n) (s : sabun n) (ops : list root_step) : res (sabun n) :=
  mfold (fun s o => '(s, _) <- root_run def s o ; Ok s) ops s.

(* ------------------------------------------------------------------ *)
(** * The generated accessors *)

(** /repo/dochy_intf/src/imp/structs/param_source.rs L33-62 get, L63-92 get_immutable,
    L93-122 get_mutable, L123-181 get_def and get_def_immutable: the first [unwrap], then structs/qv.rs L55-60
    into_value, structs/null_or.rs L61-67, L116-122 from_qv, and [unwrap] *)
Definition unwrapped {T} (vt : var_type) (o : option (qv T)) : res (qv T) :=
  match o, vt with
  | None, _ => Panic
  | Some (Val v), _ => Ok (Val v)
  | Some Null, (Nullable | UndefNullable) => Ok Null
  | Some Undefined, (Undefiable | UndefNullable) => Ok Undefined
  | _, _ => Panic
  end.

(** param_source.rs L33-92, the member of an item *)
Definition read_item {D L} (t : param_type) (vt : var_type) (it : item L) (d : ldef D) (key : name) : res (qv content) :=
  unwrapped vt (get_as t (item_param it d key)).
(** param_source.rs L33-92, a member of the root *)
Definition read_root {D L} (t : param_type) (vt : var_type) (s : hmap (rootsab L)) (def : hmap (Z * rootval D)) (key : name) : res (qv content) :=
  unwrapped vt (get_as t (root_param s def key)).

(** /repo/dochy_intf/src/imp/structs/ref_source.rs L35-53: the function [ref_*] *)
Definition read_ref {D L R} (tables : hmap (hmap R)) (vt : var_type) (it : item L) (d : ldef D) (key : name) : res (qv R) :=
  o <- item_ref tables it d key ; unwrapped vt o.

(** /repo/dochy_intf/src/imp/structs/refs_source.rs L23-27: the function [get_enum]; the
    [match] of [new] (L72-82) has the names of the references of the definition *)
Definition read_enum {D L R} (iter : forall A, hmap A -> hmap A) (tables : hmap (hmap R)) (it : item L) (d : ldef D) : res (name * R) :=
  match item_enum iter it with
  | None => Panic
  | Some (key, _) =>
      o <- item_ref tables it d key ;
      match o with
      | Some (Val r) => if is_some (hget key (ld_refs d)) then Ok (key, r) else Panic
      | _ => Panic
      end
  end.

(** /repo/dochy_intf/src/imp/structs/mil_source.rs L44-54 and mlist_source.rs L42-52: reading a
    list; [undefiable] chooses between the two forms *)
Definition read_list {L} (undefiable : bool) (o : option (option L)) : res (option L) :=
  match o with
  | None => Panic
  | Some None => if undefiable then Ok None else Panic
  | Some (Some l) => Ok (Some l)
  end.
