(** C65: everything generated functions tell about an object.

    The functions themselves are in ReadModel; here are the remaining ones, and all of them as
    one function.  [next_id] of lists is left out (see C12 and C59). *)
From Verif Require Import Base LinkedModel LinkedSpec DocModel ArchiveModel JsonModel IntfModel ReadModel.

Section Ask.
Variable iter : forall A, hmap A -> hmap A.
Variable r : root_obj.

(** /repo/dochy_intf/src/imp/structs/ref_source.rs L54-62: the name of the row a reference has *)
Definition get_ref_id (s : spot) (key : name) : res (qv (list Z)) :=
  if ld_enum (undef (snd s)) then Panic else
  match hget key (ld_refs (undef (snd s))) with
  | Some (_, (_, vt)) => unwrapped vt (spot_ref_id s key)
  | None => Panic
  end.
(** /repo/dochy_intf/src/imp/structs/refs_source.rs L28-30: the table and the row of an enum *)
Definition get_enum_ids (s : spot) : res (name * list Z) :=
  if ld_enum (undef (snd s)) then need (spot_enum iter s) else Panic.

(** What a program can ask: for a parameter of the root or of the item a way leads to, the row
    of a reference, the variant of an enum, whether there is such an item, and the items of a
    list in their order (mlist_const.rs L51-54, mlist_ptr.rs L81-89 and L136-160; first, last,
    len and contains_key follow from them). *)
Inductive question : Type :=
| RootParam (key : name)
| RootItems (key : name)
| There (w : way)
| Param (w : way) (key : name)
| RefId (w : way) (key : name)
| EnumIds (w : way)
| Items (w : way) (key : name).

(** what it is told; [Nothing]: the way leads to no item *)
Inductive answer : Type :=
| Nothing
| Something
| Value (q : qv content)
| RowName (q : qv (list Z))
| Variant (table row : list Z)
| Ids (l : option (list Z)).

Definition ids_of (l : option (list (Z * citem)) * def) : answer := Ids (option_map (map fst) (fst l)).

(** asking the item a way leads to *)
Definition at_item (w : way) (f : spot -> res answer) : res answer :=
  o <- visit iter r w ; match o with None => Ok Nothing | Some s => f s end.

(** mlist_source.rs L42-52 and mil_source.rs L44-54 for the lists, the functions above and those
    of ReadModel for the rest *)
Definition ask (q : question) : res answer :=
  match q with
  | RootParam key => v <- get_root_param r key ; Ok (Value v)
  | RootItems key =>
      match hget key (ro_default r) with
      | Some (_, WMList _ u) => l <- get_list u (root_mlist r key) ; Ok (ids_of l)
      | _ => Panic
      end
  | There w => at_item w (fun _ => Ok Something)
  | Param w key => at_item w (fun s => v <- get_param s key ; Ok (Value v))
  | RefId w key => at_item w (fun s => v <- get_ref_id s key ; Ok (RowName v))
  | EnumIds w => at_item w (fun s => e <- get_enum_ids s ; Ok (Variant (fst e) (snd e)))
  | Items w key => at_item w (fun s =>
      match hget key (ld_members (undef (snd s))) with
      | Some (_, DMil _ u) => l <- get_list u (spot_mil s key) ; Ok (ids_of l)
      | _ => Panic
      end)
  end.
End Ask.
