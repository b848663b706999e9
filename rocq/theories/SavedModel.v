(** C63: objects loaded from source files, saved as differences and moved to another version.

    An object is a [root_obj] here, as in the models of loading and of moving to a new
    version.  The model of differences speaks about documents whose depth is part of their
    type ([sabun n]); both stand for the same Rust values, and this file says how. *)
From Verif Require Import Base LinkedModel LinkedSpec DocModel DiffModel DiffWireModel WholeSpec ArchiveModel JsonModel ValidModel AdjustModel.

Fixpoint traverse {A B} (f : A -> option B) (l : list A) : option (list B) :=
  match l with
  | [] => Some []
  | a :: l => match f a, traverse f l with Some b, Some l => Some (b :: l) | _, _ => None end
  end.

(** dochy_core structs/list_value.rs L8-14, list_def_obj.rs L7-16: a definition that is at most
    [n] lists deep *)
Definition defval_of {D} (inner : def -> option D) (v : ldefval def) : option (ldefval D) :=
  match v with
  | DParam p vt => Some (DParam p vt)
  | DCil d => option_map DCil (inner d)
  | DMil d u => option_map (fun e => DMil e u) (inner d)
  end.
Fixpoint def_of (n : nat) : def -> option (defT n) :=
  match n with
  | O => fun _ => None
  | S n => fun d =>
      option_map (fun ms => LDef ms (ld_refs (undef d)) (ld_enum (undef d)) (ld_old (undef d)) (ld_ref_old (undef d)))
        (traverse (fun e => option_map (fun v => (fst e, (fst (snd e), v))) (defval_of (def_of n) (snd (snd e)))) (ld_members (undef d)))
  end.

(** structs/root_value.rs L10-16, root_def_obj.rs L4-7 *)
Definition rootval_of {n} (v : rootvalue) : option (rootval (defT n)) :=
  match v with
  | WParam p vt => Some (RVParam p vt)
  | WTable _ _ _ => Some RVTable
  | WCList _ _ => Some RVCList
  | WMList d u => option_map (fun e => RVMList e u) (def_of n d)
  end.
Definition rootdef_of (n : nat) (m : hmap (Z * rootvalue)) : option (rootdef n) :=
  traverse (fun e => option_map (fun v => (fst e, (fst (snd e), v))) (rootval_of (snd (snd e)))) m.

(** structs/list_sab_value.rs L9-15, rust_list.rs L145-163 and linked_m.rs L82-85 (the next id
    of a list without items is 0, see C09).  Mutable lists of validated sources contain no
    constant lists (C42). *)
Definition value_of {L} (inner : mutlist -> option L) (v : cval) : option (lval L) :=
  match v with
  | VParam p => Some (LParam p)
  | VCil _ => None
  | VMil None => Some (LMil None)
  | VMil (Some l) => option_map (fun l => LMil (Some l)) (inner l)
  end.
Definition item_of {L} (inner : mutlist -> option L) (c : citem) : option (item L) :=
  option_map (fun vs => Item vs (ci_refs c))
    (traverse (fun e => option_map (fun v => (fst e, v)) (value_of inner (snd e))) (ci_values c)).
Fixpoint mlist_of (n : nat) : mutlist -> option (mlistT n) :=
  match n with
  | O => fun _ => None
  | S n => fun l =>
      option_map (fun items => (items, match fst l with [] => 0 | _ => snd l end))
        (traverse (fun e => option_map (fun it => (fst e, it)) (item_of (mlist_of n) (snd e))) (fst l))
  end.

(** structs/root_sab_value.rs L5-9, root_obj.rs L10-28: the part that changes *)
Definition rootsab_of {n} (v : rootsab mutlist) : option (rootsab (mlistT n)) :=
  match v with
  | RParam p => Some (RParam p)
  | RMut None => Some (RMut None)
  | RMut (Some l) => option_map (fun l => RMut (Some l)) (mlist_of n l)
  end.
Definition sabun_of (n : nat) (s : hmap (rootsab mutlist)) : option (sabun n) :=
  traverse (fun e => option_map (fun v => (fst e, v)) (rootsab_of (snd e))) s.

(** the same in the other direction *)
Definition plain_value {L} (inner : L -> mutlist) (v : lval L) : cval :=
  match v with
  | LParam p => VParam p
  | LCil _ => VCil []
  | LMil o => VMil (option_map inner o)
  end.
Definition plain_item_of {L} (inner : L -> mutlist) (it : item L) : citem :=
  CItem (map (fun e => (fst e, plain_value inner (snd e))) (it_values it)) (it_refs it).
Fixpoint plain_list (n : nat) : mlistT n -> mutlist :=
  match n with
  | O => fun l => match l with end
  | S n => fun l => (map (fun e => (fst e, plain_item_of (plain_list n) (snd e))) (fst l), snd l)
  end.
Definition plain_sabun {n} (s : sabun n) : hmap (rootsab mutlist) :=
  map (fun e => (fst e, match snd e with RParam p => RParam p | RMut o => RMut (option_map (plain_list n) o) end)) s.

(** root_obj.rs L10-28: an object with other members *)
Definition with_members {n} (r : root_obj) (s : sabun n) : root_obj := RootObj (ro_default r) (plain_sabun s) (ro_old r) (ro_meta r).

Section Saved.
Variable addr : list Z -> Z.
Variable iter : forall A, hmap A -> hmap A.
Variable parse : list Z -> option jval.
(** the files of an archive (see C39) *)
Variable unpack : list Z -> res (smap (list Z)).

(** dochy_diff get_diff.rs L25-34 and apply_diff.rs L12-18, as in DiffWireModel, for objects; [n] is at least
    the depth of the lists *)
Definition difference (n : nat) (from to : root_obj) : res (list Z) :=
  match rootdef_of n (ro_default from), sabun_of n (ro_sabun from), sabun_of n (ro_sabun to) with
  | Some def, Some f, Some t => get_diff f t def
  | _, _, _ => Panic
  end.
Definition patch (n : nat) (from : root_obj) (bytes : list Z) : res root_obj :=
  match rootdef_of n (ro_default from), sabun_of n (ro_sabun from) with
  | Some def, Some f => x <- apply_placed addr def f bytes ; Ok (with_members from x)
  | _, _ => Panic
  end.

(** dochy_core imp/json_to_rust/roots/archive_file_to_root.rs L12-31, with validation *)
Definition archive_file_to_root (bytes : list Z) : res root_obj :=
  files <- unpack bytes ; load_root addr iter parse files true.

(** version_adjuster.rs L18-84, with validation *)
Definition move_to (new old : root_obj) : res root_obj := adjust_versions iter new old true.
End Saved.
