(** Edits of a document through the accessors, independent of how differences
    are computed.  Citations are relative to /repo/dochy_core/src/imp/intf. *)
From Verif Require Import Base CompactionModel CompactionSpec StringCompactionModel
  LinkedModel LinkedSpec DocModel DiffModel DiffWireModel DiffSpec.

(** reached by any number of steps *)
Inductive reached {A} (step : A -> A -> Prop) (a : A) : A -> Prop :=
| here : reached step a a
| more b c : reached step a b -> step b c -> reached step a c.

Section Edits.
(** with [ord], items are not moved *)
Variable ord : bool.

Inductive edit_item {L} (empty : L -> Prop) (inner : L -> L -> Prop) (it : item L) : item L -> Prop :=
(** mitem.rs L327-333 set_sabun, L408-416 set_initial_value; also L357-373
    get_param_mut with a change of the value *)
| set_param key p :
    match hget key (it_values it) with None | Some (LParam _) => True | _ => False end ->
    edit_item empty inner it (Item (hset key (LParam p) (it_values it)) (it_refs it))
(** mitem.rs L375-379 set_ref *)
| set_reference key q :
    edit_item empty inner it (Item (it_values it) (hset key q (it_refs it)))
(** mitem.rs L399-403 set_enum, when it does not leave another table *)
| set_kind key q :
    (forall k, hget k (it_refs it) <> None -> k = key) ->
    edit_item empty inner it (Item (it_values it) [(key, q)])
(** mitem.rs L43-53: opening a list that is absent or undefined *)
| open_list key l :
    match hget key (it_values it) with None | Some (LMil None) => True | _ => False end -> empty l ->
    edit_item empty inner it (Item (hset key (LMil (Some l)) (it_values it)) (it_refs it))
(** an edit of a nested list *)
| edit_nested key l l' :
    hget key (it_values it) = Some (LMil (Some l)) -> inner l l' ->
    edit_item empty inner it (Item (hset key (LMil (Some l')) (it_values it)) (it_refs it)).

Inductive edit_list {L} (empty : L -> Prop) (inner : L -> L -> Prop) : mlist (item L) -> mlist (item L) -> Prop :=
(** mlist_ptr.rs L91-117: a new item anywhere, under the next id *)
| insert_item l1 l2 next : edit_list empty inner (l1 ++ l2, next) (l1 ++ (next, Item [] []) :: l2, next + 1)
| remove_item l1 l2 id it next : edit_list empty inner (l1 ++ (id, it) :: l2, next) (l1 ++ l2, next)
| change_item l1 l2 id it it' next :
    edit_item empty inner it it' ->
    edit_list empty inner (l1 ++ (id, it) :: l2, next) (l1 ++ (id, it') :: l2, next)
(** mlist_ptr.rs L119-133: moves *)
| move_items l l' next : ord = false -> Permutation l l' -> edit_list empty inner (l, next) (l', next).

Definition empty_listT (n : nat) : mlistT n -> Prop :=
  match n with O => fun _ => False | S n => fun l => l = ([], 0) end.

Fixpoint editT (n : nat) : mlistT n -> mlistT n -> Prop :=
  match n with
  | O => fun _ _ => False
  | S n => edit_list (empty_listT n) (editT n)
  end.

Inductive edit_root {n} (s : sabun n) : sabun n -> Prop :=
(** root.rs L338-344 set_sabun, L370-379 set_initial_value, L309-329 get_param_mut *)
| set_root_param key p :
    match hget key s with None | Some (RParam _) => True | _ => False end ->
    edit_root s (hset key (RParam p) s)
(** edits of a list of the root *)
| edit_root_list key l l' :
    hget key s = Some (RMut (Some l)) -> editT n l l' ->
    edit_root s (hset key (RMut (Some l')) s).

End Edits.

(** every id is below the next id, in every list *)
Definition counted_item {L} (inner : L -> Prop) (it : item L) : Prop :=
  forall key l, hget key (it_values it) = Some (LMil (Some l)) -> inner l.
Definition counted_list {L} (inner : L -> Prop) (l : mlist (item L)) : Prop :=
  NoDup (ids (fst l)) /\ Forall (fun id => id < snd l) (ids (fst l)) /\
  forall id it, lookup id (fst l) = Some it -> counted_item inner it.
Fixpoint countedT (n : nat) : mlistT n -> Prop :=
  match n with O => fun _ => True | S n => counted_list (countedT n) end.
Definition counted_root {n} (s : sabun n) : Prop :=
  forall key l, hget key s = Some (RMut (Some l)) -> countedT n l.

(* ------------------------------------------------------------------ *)
(** * What a difference mentions *)

Definition mentioned {A} (id : Z) (m : bmap A) : Prop := In id (map fst m).

(** the only entry of a number *)
Definition only {A} (id : Z) (a : A) (m : list (Z * A)) : Prop :=
  exists m1 m2, m = m1 ++ (id, a) :: m2 /\ ~ In id (map fst m1) /\ ~ In id (map fst m2).

(** Members and references the difference does not mention are as before; so is
    what the differences of nested lists do not mention. *)
Definition frame_item {D L LD} (inner : D -> LD -> L -> L -> Prop) (def : ldef D) (d : itemdiff LD) (it it' : item L) : Prop :=
  (forall key, (forall id v, hget key (ld_members def) = Some (id, v) -> ~ mentioned id (df_params d) /\ ~ mentioned id (df_lists d)) ->
     hget key (it_values it') = hget key (it_values it)) /\
  (forall key, (forall id v, hget key (ld_refs def) = Some (id, v) -> ~ mentioned id (df_refs d)) ->
     hget key (it_refs it') = hget key (it_refs it)) /\
  (forall key id dd u x l, hget key (ld_members def) = Some (id, DMil dd u) -> ~ mentioned id (df_params d) ->
     only id (Some x) (df_lists d) -> hget key (it_values it) = Some (LMil (Some l)) ->
     exists l', hget key (it_values it') = Some (LMil (Some l')) /\ inner dd x l l').

(** Items the difference does not mention are as before and in the order they
    were in; a modified item is as before where its difference mentions nothing. *)
Definition frame_list {D L LD} (inner : D -> LD -> L -> L -> Prop) (def : ldef D) (d : listdiff LD) (a b : mlist (item L)) : Prop :=
  filter (fun e => negb (has (fst e) (fst d))) (fst b) = filter (fun e => negb (has (fst e) (fst d))) (fst a) /\
  (forall id x it, only id (Modify x) (fst d) -> lookup id (fst a) = Some it ->
     exists it', lookup id (fst b) = Some it' /\ frame_item inner def x it it').

Fixpoint frameT (n : nat) : defT n -> ldiffT n -> mlistT n -> mlistT n -> Prop :=
  match n with O => fun _ _ _ _ => True | S n => frame_list (frameT n) end.

Definition frame_root {n} (def : rootdef n) (d : rootdiff (ldiffT n)) (a b : sabun n) : Prop :=
  (forall key, (forall id v, hget key def = Some (id, v) -> ~ mentioned id (rd_params d) /\ ~ mentioned id (rd_lists d)) ->
     hget key b = hget key a) /\
  (forall key id dd u x l, hget key def = Some (id, RVMList dd u) -> ~ mentioned id (rd_params d) ->
     only id (Some x) (rd_lists d) -> hget key a = Some (RMut (Some l)) ->
     exists l', hget key b = Some (RMut (Some l')) /\ frameT n dd x l l').

(* ------------------------------------------------------------------ *)
(** * Documents without NaN *)

(** the exponent is all ones and the fraction is not zero *)
Definition is_nan (bits : Z) : Prop := (bits / 2 ^ 52) mod 2 ^ 11 = 2 ^ 11 - 1 /\ bits mod 2 ^ 52 <> 0.

Definition no_nan_param (p : param) : Prop :=
  match p with
  | PFloat (Val b) => ~ is_nan b
  | PFloatArray (Val a) => Forall (fun b => ~ is_nan b) a
  | _ => True
  end.
Definition no_nan_item {L} (inner : L -> Prop) (it : item L) : Prop :=
  forall key v, hget key (it_values it) = Some v ->
    match v with LParam p => no_nan_param p | LMil (Some l) => inner l | _ => True end.
Definition no_nan_list {L} (inner : L -> Prop) (l : mlist (item L)) : Prop :=
  forall id it, lookup id (fst l) = Some it -> no_nan_item inner it.
Fixpoint no_nanT (n : nat) : mlistT n -> Prop :=
  match n with O => fun _ => True | S n => no_nan_list (no_nanT n) end.
Definition no_nan_root {n} (s : sabun n) : Prop :=
  forall key v, hget key s = Some v -> match v with RParam p => no_nan_param p | RMut (Some l) => no_nanT n l | RMut None => True end.

(* ------------------------------------------------------------------ *)
(** * Bytes *)

(** the difference of two documents is a vector of fewer than [2^58] values, the
    most a vector of 32-byte values can hold *)
Definition fits_memory {n} (f t : sabun n) (def : rootdef n) : Prop :=
  forall T d ks, root_table def = Ok T -> get_root_diff f t def T = Ok d -> write_root d T = Ok ks -> zlen ks < 2 ^ 58.

(** the numbers a stored set makes the reader visit *)
Definition numbers_in (s : stored_ids) : list Z :=
  let collect := fun id acc r => Ok (acc ++ [id], r) in
  match match s with
        | SZero => Ok ([], [])
        | SU64 b => read_bits collect b [] []
        | SBits w => words_loop collect w 0 [] []
        | SNumbers l => numbers_loop collect l [] []
        end with
  | Ok (l, _) => l
  | _ => []
  end.

(** ids a list difference neither creates nor deletes *)
Definition stays {LD} (d : listdiff LD) (id : Z) : bool :=
  forallb (fun e => negb (fst e =? id) || match snd e with Modify _ => true | _ => false end) (fst d).
