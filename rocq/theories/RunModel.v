(** C68: the functions of dochy_core that accessors call, on the values of a running program.
    Citations are relative to /repo/dochy_core/src/imp/intf unless another folder is named.

    The functions themselves are those of ReadModel and IntfModel; here they get the names and
    arguments they have in the text of accessors.  A document is fixed while an expression is
    evaluated; calls that change it are recorded one after another. *)
From Coq Require Import String.
From Verif Require Import Base StringCompactionModel LinkedModel LinkedSpec DocModel ArchiveModel JsonModel IntfModel GenModel CodeSpec ReadModel.

Local Notation text := (list Z).
Local Notation "! s" := (txt s%string) (at level 0, s at level 0).

(* ------------------------------------------------------------------ *)
(** * Values *)

(** where an item of a mutable list is: the list of the root and the id, then the list in that
    item and the id, and so on; nowhere for items that cannot change *)
Definition loc : Type := list (name * Z).

(** mitem.rs L18-22, citem.rs L15-19, table.rs L8-12, clist.rs L7-14, mlist_ptr.rs L24-29, and
    root.rs L15-24 [RootObjectPtr]: pointers are what they point to.  A [RootObject], a
    [RootObjectPtr] and a pointer to it are not told apart: there is one document. *)
Inductive ptr : Type :=
| PRoot
| PDef                                                         (* [*const RootDefObj] *)
| PItem (l : loc) (s : spot)
| PTable (t : hmap citem * def)
| PCList (c : list citem * def)
| PMList (l : loc) (key : name) (items : list (Z * citem)) (d : def).

(** A reference is the value it refers to. *)
Inductive val : Type :=
| VUnit | VNum (n : Z)
| VOf (c : content)                                            (* the value of a parameter, a text or a truth value *)
| VPair (a b : val)
| VList (l : list val)
| VMake (n v : text) (args : list val)                         (* a variant of an enum *)
| VStruct (n : text) (fields : list (text * val))
| VGuard (g : text) (item : option text) (v : val)             (* [CListConst<Item>] and so on *)
| VPtr (q : ptr)
| VClosure (n : text) (x : text) (e : expr) (G : list (text * val))
| VBox (v : val).

(** texts and truth values, whether they are those of a document or not *)
Notation VText s := (VOf (CString s)).
Notation VBool b := (VOf (CBool b)).

Definition some (v : val) : val := VMake !"Option" !"Some" [v].
Definition none : val := VMake !"Option" !"None" [].
Definition of_opt {A} (f : A -> val) (o : option A) : val := match o with Some a => some (f a) | None => none end.
(** structs/qv.rs L4 *)
Definition of_qv {A} (f : A -> val) (q : qv A) : val :=
  match q with Val a => VMake !"Qv" !"Val" [f a] | Null => VMake !"Qv" !"Null" [] | Undefined => VMake !"Qv" !"Undefined" [] end.

(** a call that changes the document, and where *)
Inductive effect : Type :=
| ESet (l : loc) (t : param_type) (key : name) (q : val)
| EWrite (l : loc) (t : param_type) (key : name)               (* a reference to write to was taken *)
| EOpen (l : loc) (key : name)
| ESetRef (l : loc) (key : name) (q : val)
| ESetEnum (l : loc) (key id : name)
| EList (l : loc) (key : name) (o : list_op).                  (* a method of a list was called *)
Definition trace : Type := list effect.

(* ------------------------------------------------------------------ *)
(** * Lists *)

(** the item at a place, if there is one: what the pointers of mlist_ptr.rs L24-29 and mitem.rs
    L18-22 lead to *)
Fixpoint item_below (s : spot) (a : loc) : option spot :=
  match a with
  | [] => Some s
  | (key, id) :: a =>
      match spot_mil s key with
      | Some (Some items, d) => match mlist_item items d id with Some s => item_below s a | None => None end
      | _ => None
      end
  end.
Definition item_at (r : root_obj) (a : loc) : option spot :=
  match a with
  | [] => None
  | (key, id) :: a =>
      match root_mlist r key with
      | Some (Some items, d) => match mlist_item items d id with Some s => item_below s a | None => None end
      | _ => None
      end
  end.
(** mlist_ptr.rs L77-79 next_id: of the list at a place; 0 in a list that was just made *)
Definition next_at (r : root_obj) (l : loc) (key : name) : Z :=
  match l with
  | [] => match hget key (ro_sabun r) with Some (RMut (Some x)) => snd x | _ => 0 end
  | _ =>
      match item_at r l with
      | Some s => match hget key (ci_values (fst s)) with Some (VMil (Some x)) => snd x | _ => 0 end
      | None => 0
      end
  end.

(** mlist_mut.rs L51-92, mlist_ptr.rs L91-133: the methods that change a list *)
Definition list_op_of (f : text) (args : list val) : option list_op :=
  match args with
  | [] => hget f [(!"insert", LInsertLast); (!"insert_last", LInsertLast); (!"insert_first", LInsertFirst); (!"remove_first", LRemoveFirst); (!"remove_last", LRemoveLast)]
  | [VNum id] => hget f [(!"remove", LRemove id); (!"move_to_first", LMoveToFirst id); (!"move_to_last", LMoveToLast id)]
  | [VNum k; VNum id] => hget f [(!"move_to_prev", LMoveToPrev k id); (!"move_to_next", LMoveToNext k id)]
  | _ => None
  end.
(** what they answer, see [list_do] of IntfModel; the first two answer with the new item *)
Definition list_answer {V} (l : list (Z * V) * Z) (o : list_op) : bool :=
  let told (x : list (Z * V) * Z * lret) := match snd x with RBool b => b | _ => true end in
  match o with
  | LInsertFirst | LInsertLast => true
  | LRemove id => told (astep l (Remove id))
  | LRemoveFirst => told (astep l RemoveFirst)
  | LRemoveLast => told (astep l RemoveLast)
  | LMoveToFirst id => told (astep l (MoveToFirst id))
  | LMoveToLast id => told (astep l (MoveToLast id))
  | LMoveToPrev k id => told (astep l (MoveToPrev k id))
  | LMoveToNext k id => told (astep l (MoveToNext k id))
  end.
(** whether inserting is possible, see [list_do] of IntfModel *)
Definition room {V} (l : list (Z * V) * Z) : bool := (snd l + 1 <? 2 ^ 64) && negb (has (snd l) (fst l)) && (zlen (fst l) + 1 <? 2 ^ 62).

(* ------------------------------------------------------------------ *)
(** * Functions *)

Inductive prim : Type :=
| FGet (t : param_type) | FDefault (t : param_type) | FMutable (t : param_type) | FSet (t : param_type)
| FTable | FCList | FCil | FList | FOpen | FRef | FRefId | FEnum | FSetRef | FSetEnum | FRow.

Definition types : list param_type := [TBool; TInt; TFloat; TString; TIntArray; TFloatArray; TBinary].
(** root.rs L26-193, mitem.rs L89-258, citem.rs L39-188 *)
Definition getters : list (text * prim) := flat_map (fun t =>
  [(!"get_" ++ nick t, FGet t); (!"get_" ++ nick t ++ !"_def", FDefault t)] ++
  (if by_reference t then [(!"get_immutable_" ++ nick t, FGet t)] else [])) types.
(** root.rs L195-240 and L346-364, mitem.rs L260-325 *)
Definition setters : list (text * prim) := flat_map (fun t =>
  (!"set_" ++ nick t, FSet t) :: (if by_reference t then [(!"get_mutable_" ++ nick t, FMutable t)] else [])) types.

(** the modules [use dochy::core::intf::*] brings into scope *)
Definition modules : list (text * list (text * prim)) :=
  [(* root.rs *)
   (!"root", getters ++ setters ++ [(!"get_table", FTable); (!"get_clist", FCList); (!"get_mlist_const", FList); (!"get_mlist_mut", FOpen)]);
   (* mitem.rs *)
   (!"mitem", getters ++ setters ++ [(!"get_mil_const", FList); (!"get_mil_mut", FOpen); (!"get_ref", FRef); (!"get_ref_id", FRefId); (!"get_enum", FEnum);
                                     (!"set_ref", FSetRef); (!"set_enum", FSetEnum)]);
   (* citem.rs *)
   (!"citem", getters ++ [(!"get_cil", FCil); (!"get_ref", FRef); (!"get_ref_id", FRefId); (!"get_enum", FEnum)]);
   (* table.rs *)
   (!"table", [(!"get_value", FRow)])].
Definition core_fn (m f : text) : option prim := match hget m modules with Some fs => hget f fs | None => None end.

Section Core.
Variable iter : forall A, hmap A -> hmap A.
Variable r : root_obj.
(** what the functions that change the document answer; generated text does not look at it *)
Variable told : effect -> bool.

(** root.rs L298-308, mitem.rs L336-345, citem.rs L190-199 get_param *)
Definition param_at (q : ptr) (key : name) : option param :=
  match q with PRoot => root_obj_param r key | PItem _ s => spot_param s key | _ => None end.
(** root.rs L330-336, mitem.rs L347-355, citem.rs L201-208 get_param_def *)
Definition default_at (q : ptr) (key : name) : option param :=
  match q with
  | PRoot => match hget key (ro_default r) with Some (_, WParam p _) => Some p | _ => None end
  | PItem _ s => item_param_def (undef (snd s)) key
  | _ => None
  end.
Definition loc_of (q : ptr) : loc := match q with PItem l _ => l | _ => [] end.

(** root.rs L283-296 get_mlist_const, mitem.rs L70-88 get_mil_const *)
Definition list_at (q : ptr) (key : name) : option (option (list (Z * citem)) * def) :=
  match q with PRoot => root_mlist r key | PItem _ s => spot_mil s key | _ => None end.
(** root.rs L259-281 get_mlist_mut, mitem.rs L43-67 get_mil_mut: a list that is undefined or
    missing is made *)
Definition open_at (q : ptr) (key : name) : option (list (Z * citem) * def) :=
  match q with
  | PRoot =>
      match hget key (ro_default r) with
      | Some (_, WMList d _) => Some (match hget key (ro_sabun r) with Some (RMut (Some l)) => fst l | _ => [] end, d)
      | _ => None
      end
  | PItem _ s =>
      match hget key (ld_members (undef (snd s))) with
      | Some (_, DMil d _) => Some (match hget key (ci_values (fst s)) with Some (VMil (Some l)) => fst l | _ => [] end, d)
      | _ => None
      end
  | _ => None
  end.

(** The functions by what they are given, pointers first; a function is never given anything
    else (C67), which here is an error.  [FTable]: root.rs L242-247; [FCList]: root.rs L250-257;
    [FCil]: citem.rs L27-37; [FRef]: citem.rs L210-217, mitem.rs L381-387; [FRefId]: citem.rs
    L218-236, mitem.rs L389-392; [FEnum]: citem.rs L238-250, mitem.rs L394-397; [FSetRef]:
    mitem.rs L375-379; [FSetEnum]: mitem.rs L399-403; [FRow]: table.rs L54-61. *)
Definition core_do (f : prim) (args : list val) (w : trace) : res (val * trace) :=
  match f, args with
  | FGet t, [VPtr q; VText key] => Ok (of_opt (of_qv VOf) (get_as t (param_at q key)), w)
  | FDefault t, [VPtr q; VText key] => Ok (of_opt (of_qv VOf) (get_as t (default_at q key)), w)
  | FMutable t, [VPtr q; VText key] => Ok (of_opt (of_qv VOf) (get_as t (param_at q key)), w ++ [EWrite (loc_of q) t key])
  | FSet t, [VPtr q; VText key; v] => let e := ESet (loc_of q) t key v in Ok (VBool (told e), w ++ [e])
  | FTable, [VPtr PDef; VText key] => Ok (of_opt (fun t => VPtr (PTable t)) (root_table r key), w)
  | FCList, [VPtr PRoot; VText key] => Ok (of_opt (fun c => VPtr (PCList c)) (root_clist r key), w)
  | FCil, [VPtr (PItem _ s); VText key] => Ok (of_opt (fun c => VPtr (PCList c)) (spot_cil s key), w)
  | FList, [VPtr q; VText key] =>
      Ok (of_opt (fun l => of_opt (fun items => VPtr (PMList (loc_of q) key items (snd l))) (fst l)) (list_at q key), w)
  | FOpen, [VPtr q; VText key] =>
      Ok (of_opt (fun l => VPtr (PMList (loc_of q) key (fst l) (snd l))) (open_at q key), w ++ [EOpen (loc_of q) key])
  | FRef, [VPtr (PItem _ s); VText key] => o <- spot_ref r s key ; Ok (of_opt (of_qv (fun s => VPtr (PItem [] s))) o, w)
  | FRefId, [VPtr (PItem _ s); VText key] => Ok (of_opt (of_qv (fun s => VText s)) (spot_ref_id s key), w)
  | FEnum, [VPtr (PItem _ s)] => Ok (of_opt (fun e => VPair (VText (fst e)) (VText (snd e))) (spot_enum iter s), w)
  | FSetRef, [VPtr (PItem l _); VText key; v] => let e := ESetRef l key v in Ok (VBool (told e), w ++ [e])
  | FSetEnum, [VPtr (PItem l _); VText key; VText id] => let e := ESetEnum l key id in Ok (VBool (told e), w ++ [e])
  | FRow, [VPtr (PTable t); VText id] => Ok (of_opt (fun s => VPtr (PItem [] s)) (table_value t id), w)
  | _, _ => Err
  end.
End Core.
