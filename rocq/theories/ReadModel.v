(** C64: the functions that read a loaded object, and what generated code makes of them.

    Pointers to items and their definitions ([CItemPtr], [MItemPtr]) are the values they point
    to; the wrappers [CItemConst], [MItemConst], [CTableConst] and so on only pass calls on.
    File names without a path are in /repo/dochy_core/src/imp/intf. *)
From Verif Require Import Base StringCompactionModel LinkedModel LinkedSpec DocModel ArchiveModel JsonModel IntfModel.

(** citem.rs L15-19, mitem.rs L18-22: an item and its definition *)
Definition spot : Type := citem * def.

(** citem.rs L190-199, mitem.rs L336-345 get_param *)
Definition spot_param (s : spot) (key : name) : option param :=
  match hget key (ci_values (fst s)) with
  | Some (VParam p) => Some p
  | _ => match hget key (ld_members (undef (snd s))) with Some (_, DParam p _) => Some p | _ => None end
  end.

(** citem.rs L27-37 get_cil: the items and their definition *)
Definition spot_cil (s : spot) (key : name) : option (list citem * def) :=
  match hget key (ld_members (undef (snd s))) with
  | Some (_, DCil d) =>
      match hget key (ci_values (fst s)) with
      | Some (VCil l) => Some (l, d)
      | _ => Some ([], d)
      end
  | _ => None
  end.

(** mitem.rs L70-88 get_mil_const *)
Definition spot_mil (s : spot) (key : name) : option (option (list (Z * citem)) * def) :=
  match hget key (ld_members (undef (snd s))) with
  | Some (_, DMil d _) =>
      match hget key (ci_values (fst s)) with
      | Some (VMil o) => Some (option_map fst o, d)
      | _ => Some (Some [], d)
      end
  | _ => None
  end.

(** clist.rs L34-37 get_value, with the panic of indexing *)
Definition clist_value (l : list citem * def) (i : nat) : res spot :=
  match nth_error (fst l) i with Some c => Ok (c, snd l) | None => Panic end.
(** clist.rs L39-64: the iterator, until it ends *)
Definition clist_iter (l : list citem * def) : list spot := map (fun c => (c, snd l)) (fst l).

(** mlist_ptr.rs L73-75 get_item_const; the linked map finds what [lookup] finds (C08) *)
Definition mlist_item (l : list (Z * citem)) (d : def) (id : Z) : option spot :=
  option_map (fun c => (c, d)) (lookup id l).

(** root.rs L242-247 get_table, table.rs L54-61 get_value *)
Definition root_table (r : root_obj) (key : name) : option (hmap citem * def) :=
  match hget key (ro_default r) with Some (_, WTable d rows _) => Some (rows, d) | _ => None end.
Definition table_value (t : hmap citem * def) (id : name) : option spot := option_map (fun c => (c, snd t)) (hget id (fst t)).

(** root.rs L250-257 get_clist *)
Definition root_clist (r : root_obj) (key : name) : option (list citem * def) :=
  match hget key (ro_default r) with Some (_, WCList d l) => Some (l, d) | _ => None end.

(** root.rs L283-296 get_mlist_const *)
Definition root_mlist (r : root_obj) (key : name) : option (option (list (Z * citem)) * def) :=
  match hget key (ro_default r), hget key (ro_sabun r) with
  | Some (_, WMList d _), Some (RMut o) => Some (option_map fst o, d)
  | _, _ => None
  end.

(** root.rs L298-308 get_param *)
Definition root_obj_param (r : root_obj) (key : name) : option param :=
  match hget key (ro_sabun r) with
  | Some (RParam p) => Some p
  | _ => match hget key (ro_default r) with Some (_, WParam p _) => Some p | _ => None end
  end.

(** citem.rs L218-236, mitem.rs L389-392 get_ref_id *)
Definition spot_ref_id (s : spot) (key : name) : option (qv (list Z)) :=
  match hget key (ci_refs (fst s)) with
  | Some q => Some q
  | None => match hget key (ld_refs (undef (snd s))) with Some (_, (q, _)) => Some q | None => None end
  end.
(** citem.rs L210-217, mitem.rs L381-387 get_ref; the [unwrap] of [get_table] is the panic,
    structs/qv.rs L47-53 opt_map *)
Definition spot_ref (r : root_obj) (s : spot) (key : name) : res (option (qv spot)) :=
  match spot_ref_id s key with
  | None => Ok None
  | Some (Val id) =>
      match root_table r key with
      | None => Panic
      | Some t => Ok (option_map Val (table_value t id))
      end
  | Some Null => Ok (Some Null)
  | Some Undefined => Ok (Some Undefined)
  end.
(** citem.rs L238-250, mitem.rs L394-397 get_enum: the first in the order of iteration *)
Definition spot_enum (iter : forall A, hmap A -> hmap A) (s : spot) : option (name * list Z) :=
  match flat_map (fun e => match snd e with Val v => [(fst e, v)] | _ => [] end) (iter _ (ci_refs (fst s))) with
  | x :: _ => Some x
  | [] => None
  end.

(* ------------------------------------------------------------------ *)
(** * Generated functions *)

Section Visit.
Variable iter : forall A, hmap A -> hmap A.
Variable r : root_obj.

Definition need {A} (o : option A) : res A := match o with Some a => Ok a | None => Panic end.

(** dochy_intf imp/structs/param_source.rs L33-92, a member of an item.  The type and the marks
    are those of the definition (member_desc.rs L94-103); there is no function for other names. *)
Definition get_param (s : spot) (key : name) : res (qv content) :=
  match hget key (ld_members (undef (snd s))) with
  | Some (_, DParam p vt) => unwrapped vt (get_as (type_of p) (spot_param s key))
  | _ => Panic
  end.
(** the same for a member of the root (member_desc.rs L61-69) *)
Definition get_root_param (key : name) : res (qv content) :=
  match hget key (ro_default r) with
  | Some (_, WParam p vt) => unwrapped vt (get_as (type_of p) (root_obj_param r key))
  | _ => Panic
  end.

(** ref_source.rs L35-53; refs_source.rs L22 and L32-36: there is this function unless the
    references are an enum *)
Definition get_ref (s : spot) (key : name) : res (qv spot) :=
  if ld_enum (undef (snd s)) then Panic else
  match hget key (ld_refs (undef (snd s))) with
  | Some (_, (_, vt)) => o <- spot_ref r s key ; unwrapped vt o
  | None => Panic
  end.
(** refs_source.rs L22-28 and L72-82: the name of the variant and the row; there is this
    function if the references are an enum *)
Definition get_enum (s : spot) : res (name * spot) :=
  if ld_enum (undef (snd s)) then
    e <- need (spot_enum iter s) ; o <- spot_ref r s (fst e) ; q <- need o ;
    match q with
    | Val row => if is_some (hget (fst e) (ld_refs (undef (snd s)))) then Ok (fst e, row) else Panic
    | _ => Panic
    end
  else Panic.

(** mil_source.rs L44-54, mlist_source.rs L42-52: reading a list; [undefiable] chooses the form *)
Definition get_list (undefiable : bool) (o : option (option (list (Z * citem)) * def)) : res (option (list (Z * citem)) * def) :=
  l <- need o ; match fst l with None => if undefiable then Ok l else Panic | Some _ => Ok l end.

(** How a program gets to an item: by a table and the name of a row, by a list and a position
    or an id; then by a list in the item, a reference, or a variant of an enum. *)
Inductive way : Type :=
| Row (table id : name)
| Elem (list : name) (i : nat)
| Entry (list : name) (id : Z)
| Cil (w : way) (key : name) (i : nat)
| Mil (w : way) (key : name) (id : Z)
| Ref (w : way) (key : name)
| Enum (w : way) (key : name).

Definition item_of_list (l : option (list (Z * citem)) * def) (id : Z) : option spot :=
  match fst l with Some items => mlist_item items (snd l) id | None => None end.

(** The item a way leads to.  [Ok None]: a list is undefined or has no item with this id, a
    reference is null or undefined, an enum has another variant.  Row: table_source.rs
    L66-68 and L94-96; Elem: clist_source.rs L39-48; Cil: cil_source.rs L31-45; Entry and Mil:
    mlist_const.rs L34-37. *)
Fixpoint visit (w : way) : res (option spot) :=
  match w with
  | Row table id => t <- need (root_table r table) ; s <- need (table_value t id) ; Ok (Some s)
  | Elem list i => l <- need (root_clist r list) ; s <- clist_value l i ; Ok (Some s)
  | Entry list id =>
      match hget list (ro_default r) with
      | Some (_, WMList _ u) => l <- get_list u (root_mlist r list) ; Ok (item_of_list l id)
      | _ => Panic
      end
  | Cil w key i =>
      o <- visit w ;
      match o with
      | None => Ok None
      | Some s => l <- need (spot_cil s key) ; x <- clist_value l i ; Ok (Some x)
      end
  | Mil w key id =>
      o <- visit w ;
      match o with
      | None => Ok None
      | Some s =>
          match hget key (ld_members (undef (snd s))) with
          | Some (_, DMil _ u) => l <- get_list u (spot_mil s key) ; Ok (item_of_list l id)
          | _ => Panic
          end
      end
  | Ref w key =>
      o <- visit w ;
      match o with
      | None => Ok None
      | Some s => q <- get_ref s key ; Ok (match q with Val x => Some x | _ => None end)
      end
  | Enum w key =>
      o <- visit w ;
      match o with
      | None => Ok None
      | Some s => e <- get_enum s ; Ok (if eqb_bytes (fst e) key then Some (snd e) else None)
      end
  end.

(** ways that lead through no list that can change *)
Fixpoint constant (w : way) : bool :=
  match w with
  | Row _ _ | Elem _ _ => true
  | Entry _ _ | Mil _ _ _ => false
  | Cil w _ _ | Ref w _ | Enum w _ => constant w
  end.

(** reading a parameter of the item a way leads to *)
Definition read_at (w : way) (key : name) : res (option (qv content)) :=
  o <- visit w ;
  match o with
  | None => Ok None
  | Some s => q <- get_param s key ; Ok (Some q)
  end.
End Visit.
