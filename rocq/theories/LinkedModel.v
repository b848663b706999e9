(** Model of dochy_core/src/imp/structs/linked_m.rs and its cursors
    (linked_map_unsafe_iter.rs, linked_map_iter.rs, linked_map_iter_mut.rs, and
    the wrappers of dochy_core/src/imp/intf).
    Citations without a path are to linked_m.rs.

    Raw pointers are addresses in an explicit heap; address 0 is null.  Reading
    or writing through null or through a freed address is undefined behaviour in
    Rust and is [Panic] here.  Functions that mutate through [&mut self] take
    and return the heap and the map header.  A [Box::new] takes the address the
    allocator returns as an argument, so the theorems quantify over every
    allocator. *)
From Verif Require Import Base.

Section LinkedMap.
Context {V : Type}.

(** L23-28 MutNode *)
Record node : Type := Node { n_prev : Z; n_next : Z; n_item : V; n_id : Z }.

Definition heap : Type := Z -> option node.

Definition upd (h : heap) (a : Z) (n : option node) : heap := fun b => if b =? a then n else h b.

(** L14-19 LinkedMap.  The hash map from id to box is an association list whose
    order is never used. *)
Record lmap : Type := LMap { m_map : list (Z * Z); m_first : Z; m_last : Z; m_next : Z }.

(** [HashMap::get], [remove] and [insert] *)
Fixpoint mget (k : Z) (l : list (Z * Z)) : option Z :=
  match l with [] => None | (k', a) :: r => if k =? k' then Some a else mget k r end.
Definition mdel (k : Z) (l : list (Z * Z)) : list (Z * Z) := filter (fun p => negb (fst p =? k)) l.
Definition mput (k a : Z) (l : list (Z * Z)) : list (Z * Z) := (k, a) :: mdel k l.

(** dereference of a raw pointer *)
Definition deref (h : heap) (p : Z) : res node :=
  if p =? 0 then Panic else match h p with Some n => Ok n | None => Panic end.

(** L45-66 *)
Definition get_next (h : heap) (p : Z) : res Z := n <- deref h p ; Ok (n_next n).
Definition get_prev (h : heap) (p : Z) : res Z := n <- deref h p ; Ok (n_prev n).
Definition get_id (h : heap) (p : Z) : res Z := n <- deref h p ; Ok (n_id n).
Definition get_val (h : heap) (p : Z) : res V := n <- deref h p ; Ok (n_item n).
Definition set_next (h : heap) (p x : Z) : res heap :=
  n <- deref h p ; Ok (upd h p (Some (Node (n_prev n) x (n_item n) (n_id n)))).
Definition set_prev (h : heap) (p x : Z) : res heap :=
  n <- deref h p ; Ok (upd h p (Some (Node x (n_next n) (n_item n) (n_id n)))).

(** L79-81 new *)
Definition lnew : lmap := LMap [] 0 0 0.

(** dropping the box that [HashMap::insert] or [remove] hands back *)
Definition drop_box (h : heap) (old : option Z) : heap :=
  match old with Some a => upd h a None | None => h end.

(** the [for] loop of [construct], L92-98; [addrs] are the addresses of the boxes *)
Fixpoint construct_loop (h : heap) (mp : list (Z * Z)) (prev : Z) (items : list (Z * V)) (addrs : list Z)
  : res (heap * list (Z * Z) * Z) :=
  match items, addrs with
  | [], _ => Ok (h, mp, prev)
  | (id, v) :: items, a :: addrs =>
      let h := upd h a (Some (Node 0 0 v id)) in
      h <- set_next h prev a ;
      h <- set_prev h a prev ;
      let h := drop_box h (mget id mp) in
      construct_loop h (mput id a mp) a items addrs
  | _ :: _, [] => Panic
  end.

(** L82-101 construct: an empty item list gives [new()], whatever [next_id] is *)
Definition construct (h : heap) (items : list (Z * V)) (next_id : Z) (addrs : list Z) : res (heap * lmap) :=
  match items, addrs with
  | [], _ => Ok (h, lnew)
  | (id, v) :: items, a :: addrs =>
      let h := upd h a (Some (Node 0 0 v id)) in
      '(h, mp, last) <- construct_loop h (mput id a []) a items addrs ;
      Ok (h, LMap mp a last next_id)
  | _ :: _, [] => Panic
  end.

(** L105-106 *)
Definition next_id (m : lmap) : Z := m_next m.
Definition set_next_id (m : lmap) (n : Z) : lmap := LMap (m_map m) (m_first m) (m_last m) n.

(** L108-125 first, first_id, last, last_id *)
Definition lm_first (h : heap) (m : lmap) : res (option V) :=
  if m_first m =? 0 then Ok None else v <- get_val h (m_first m) ; Ok (Some v).
Definition first_id (h : heap) (m : lmap) : res (option Z) :=
  if m_first m =? 0 then Ok None else v <- get_id h (m_first m) ; Ok (Some v).
Definition lm_last (h : heap) (m : lmap) : res (option V) :=
  if m_last m =? 0 then Ok None else v <- get_val h (m_last m) ; Ok (Some v).
Definition last_id (h : heap) (m : lmap) : res (option Z) :=
  if m_last m =? 0 then Ok None else v <- get_id h (m_last m) ; Ok (Some v).

(** L130 get_item; L131 get_item_mut followed by an assignment *)
Definition get_item (h : heap) (m : lmap) (id : Z) : res (option V) :=
  match mget id (m_map m) with None => Ok None | Some a => v <- get_val h a ; Ok (Some v) end.
Definition set_item (h : heap) (m : lmap) (id : Z) (v : V) : res (heap * bool) :=
  match mget id (m_map m) with
  | None => Ok (h, false)
  | Some a => n <- deref h a ; Ok (upd h a (Some (Node (n_prev n) (n_next n) v (n_id n))), true)
  end.

(** L133-135 *)
Definition contains_key (m : lmap) (id : Z) : bool := match mget id (m_map m) with Some _ => true | None => false end.
Definition len (m : lmap) : Z := zlen (m_map m).
Definition is_empty (m : lmap) : bool := match m_map m with [] => true | _ => false end.

(** L137-150 pull_last *)
Definition pull_last (h : heap) (m : lmap) : res (heap * lmap * Z) :=
  if m_last m =? 0 then Ok (h, m, 0) else
  last <- deref h (m_last m) ;
  if n_prev last =? 0 then Ok (h, LMap (m_map m) 0 0 (m_next m), m_last m)
  else
    h <- set_next h (n_prev last) 0 ;
    h <- set_prev h (m_last m) 0 ;
    Ok (h, LMap (m_map m) (m_first m) (n_prev last) (m_next m), m_last m).

(** L152-165 pull_first *)
Definition pull_first (h : heap) (m : lmap) : res (heap * lmap * Z) :=
  if m_first m =? 0 then Ok (h, m, 0) else
  first <- deref h (m_first m) ;
  if n_next first =? 0 then Ok (h, LMap (m_map m) 0 0 (m_next m), m_first m)
  else
    h <- set_prev h (n_next first) 0 ;
    h <- set_next h (m_first m) 0 ;
    Ok (h, LMap (m_map m) (n_next first) (m_last m) (m_next m), m_first m).

(** L167-179 pull *)
Definition pull (h : heap) (m : lmap) (id : Z) : res (heap * lmap * Z) :=
  match mget id (m_map m) with
  | None => Ok (h, m, 0)
  | Some node =>
      if node =? m_first m then pull_first h m
      else if node =? m_last m then pull_last h m
      else
        prev <- get_prev h node ;
        next <- get_next h node ;
        h <- set_next h prev next ;
        h <- set_prev h next prev ;
        h <- set_next h node 0 ;
        h <- set_prev h node 0 ;
        Ok (h, m, node)
  end.

(** L181-193 put_first *)
Definition put_first (h : heap) (m : lmap) (node : Z) : res (heap * lmap) :=
  if m_first m =? 0 then Ok (h, LMap (m_map m) node node (m_next m))
  else if m_first m =? node then Panic
  else
    let next := m_first m in
    h <- set_next h node next ;
    h <- set_prev h next node ;
    Ok (h, LMap (m_map m) node (m_last m) (m_next m)).

(** L195-207 put_last *)
Definition put_last (h : heap) (m : lmap) (node : Z) : res (heap * lmap) :=
  if m_last m =? 0 then Ok (h, LMap (m_map m) node node (m_next m))
  else if m_last m =? node then Panic
  else
    let prev := m_last m in
    h <- set_next h prev node ;
    h <- set_prev h node prev ;
    Ok (h, LMap (m_map m) (m_first m) node (m_next m)).

(** L209-221 put_next *)
Definition put_next (h : heap) (m : lmap) (prev node : Z) : res (heap * lmap) :=
  if prev =? node then Panic
  else if m_last m =? 0 then Panic
  else if prev =? m_last m then put_last h m node
  else
    next <- get_next h prev ;
    h <- set_next h prev node ;
    h <- set_prev h node prev ;
    h <- set_next h node next ;
    h <- set_prev h next node ;
    Ok (h, m).

(** L223-236 put_prev *)
Definition put_prev (h : heap) (m : lmap) (next node : Z) : res (heap * lmap) :=
  if next =? node then Panic
  else if m_first m =? 0 then Panic
  else if next =? m_first m then put_first h m node
  else
    prev <- get_prev h next ;
    h <- set_next h prev node ;
    h <- set_prev h node prev ;
    h <- set_next h node next ;
    h <- set_prev h next node ;
    Ok (h, m).

(** [self.map.insert(id, node)], dropping a replaced box *)
Definition map_insert (h : heap) (m : lmap) (id a : Z) : heap * lmap :=
  (drop_box h (mget id (m_map m)), LMap (mput id a (m_map m)) (m_first m) (m_last m) (m_next m)).

(** [self.next_id += 1; return self.next_id - 1]; the sum overflows a u64 at
    its maximum, which panics in a build with overflow checks *)
Definition bump (h : heap) (m : lmap) : res (heap * lmap * Z) :=
  if m_next m + 1 <? 2 ^ 64
  then Ok (h, LMap (m_map m) (m_first m) (m_last m) (m_next m + 1), m_next m)
  else Panic.

(** L242-248 insert_last; [a] is the address of the new box.  L238-240 insert is
    the same function. *)
Definition insert_last (a : Z) (h : heap) (m : lmap) (v : V) : res (heap * lmap * Z) :=
  let h := upd h a (Some (Node 0 0 v (m_next m))) in
  '(h, m) <- put_last h m a ;
  let (h, m) := map_insert h m (m_next m) a in
  bump h m.

(** L299-305 insert_first *)
Definition insert_first (a : Z) (h : heap) (m : lmap) (v : V) : res (heap * lmap * Z) :=
  let h := upd h a (Some (Node 0 0 v (m_next m))) in
  '(h, m) <- put_first h m a ;
  let (h, m) := map_insert h m (m_next m) a in
  bump h m.

(** L253-261 insert_first_with_id *)
Definition insert_first_with_id (a : Z) (h : heap) (m : lmap) (id : Z) (v : V) : res (heap * lmap * bool) :=
  if contains_key m id then Ok (h, m, false) else
  let h := upd h a (Some (Node 0 0 v id)) in
  '(h, m) <- put_first h m a ;
  let (h, m) := map_insert h m id a in
  Ok (h, m, true).

(** L277-285 insert_last_with_id *)
Definition insert_last_with_id (a : Z) (h : heap) (m : lmap) (id : Z) (v : V) : res (heap * lmap * bool) :=
  if contains_key m id then Ok (h, m, false) else
  let h := upd h a (Some (Node 0 0 v id)) in
  '(h, m) <- put_last h m a ;
  let (h, m) := map_insert h m id a in
  Ok (h, m, true).

(** L266-272 insert_first_with_id_unchecked and L290-296
    insert_last_with_id_unchecked: panic if the id was present *)
Definition insert_first_with_id_unchecked (a : Z) (h : heap) (m : lmap) (id : Z) (v : V) : res (heap * lmap) :=
  let h := upd h a (Some (Node 0 0 v id)) in
  '(h, m) <- put_first h m a ;
  if contains_key m id then Panic else Ok (map_insert h m id a).
Definition insert_last_with_id_unchecked (a : Z) (h : heap) (m : lmap) (id : Z) (v : V) : res (heap * lmap) :=
  let h := upd h a (Some (Node 0 0 v id)) in
  '(h, m) <- put_last h m a ;
  if contains_key m id then Panic else Ok (map_insert h m id a).

(** [self.map.remove(&id)], dropping the box *)
Definition map_remove (h : heap) (m : lmap) (id : Z) : heap * lmap :=
  (drop_box h (mget id (m_map m)), LMap (mdel id (m_map m)) (m_first m) (m_last m) (m_next m)).

(** L307-312 remove *)
Definition lm_remove (h : heap) (m : lmap) (id : Z) : res (heap * lmap * bool) :=
  '(h, m, node) <- pull h m id ;
  if node =? 0 then Ok (h, m, false) else
  let (h, m) := map_remove h m id in Ok (h, m, true).

(** L313-318 remove_first, L320-325 remove_last *)
Definition remove_first (h : heap) (m : lmap) : res (heap * lmap * bool) :=
  '(h, m, node) <- pull_first h m ;
  if node =? 0 then Ok (h, m, false) else
  id <- get_id h node ;
  let (h, m) := map_remove h m id in Ok (h, m, true).
Definition remove_last (h : heap) (m : lmap) : res (heap * lmap * bool) :=
  '(h, m, node) <- pull_last h m ;
  if node =? 0 then Ok (h, m, false) else
  id <- get_id h node ;
  let (h, m) := map_remove h m id in Ok (h, m, true).

(** L327-332 move_to_first, L334-339 move_to_last *)
Definition move_to_first (h : heap) (m : lmap) (id : Z) : res (heap * lmap * bool) :=
  '(h, m, node) <- pull h m id ;
  if node =? 0 then Ok (h, m, false) else
  '(h, m) <- put_first h m node ; Ok (h, m, true).
Definition move_to_last (h : heap) (m : lmap) (id : Z) : res (heap * lmap * bool) :=
  '(h, m, node) <- pull h m id ;
  if node =? 0 then Ok (h, m, false) else
  '(h, m) <- put_last h m node ; Ok (h, m, true).

(** L341-348 move_to_prev *)
Definition move_to_prev (h : heap) (m : lmap) (next_items_id id : Z) : res (heap * lmap * bool) :=
  if id =? next_items_id then Ok (h, m, false) else
  match mget next_items_id (m_map m) with
  | None => Ok (h, m, false)
  | Some next =>
      '(h, m, node) <- pull h m id ;
      if node =? 0 then Ok (h, m, false) else
      '(h, m) <- put_prev h m next node ; Ok (h, m, true)
  end.

(** L350-357 move_to_next *)
Definition move_to_next (h : heap) (m : lmap) (prev_items_id id : Z) : res (heap * lmap * bool) :=
  if id =? prev_items_id then Ok (h, m, false) else
  match mget prev_items_id (m_map m) with
  | None => Ok (h, m, false)
  | Some prev =>
      '(h, m, node) <- pull h m id ;
      if node =? 0 then Ok (h, m, false) else
      '(h, m) <- put_next h m prev node ; Ok (h, m, true)
  end.

(* ------------------------------------------------------------------ *)
(** * Cursors *)

(** linked_map_unsafe_iter.rs L8-11: a cursor is the node address.  L35-45
    next_impl with L17-33 next_const / next_mut *)
Definition cur_next (h : heap) (m : lmap) (c : Z) : res (option (Z * V) * Z) :=
  if c =? 0 then Ok (None, c) else
  c' <- (if c =? m_last m then Ok 0 else get_next h c) ;
  n <- deref h c ; Ok (Some (n_id n, n_item n), c').

(** linked_map_unsafe_iter.rs L68-78 prev_impl with L50-66 *)
Definition cur_prev (h : heap) (m : lmap) (c : Z) : res (option (Z * V) * Z) :=
  if c =? 0 then Ok (None, c) else
  c' <- (if c =? m_first m then Ok 0 else get_prev h c) ;
  n <- deref h c ; Ok (Some (n_id n, n_item n), c').

(** linked_map_unsafe_iter.rs L80-90 current_mut / current_const *)
Definition cur_current (h : heap) (c : Z) : res (option (Z * V)) :=
  if c =? 0 then Ok None else n <- deref h c ; Ok (Some (n_id n, n_item n)).

(** linked_map_unsafe_iter.rs L94-96 *)
Definition cur_available (c : Z) : bool := negb (c =? 0).

(** linked_map_unsafe_iter.rs L98-118 is_first, is_last *)
Definition cur_is_first (h : heap) (m : lmap) (c : Z) : res bool :=
  if c =? 0 then Ok false else
  n <- deref h c ; f <- first_id h m ;
  Ok (match f with Some id => id =? n_id n | None => false end).
Definition cur_is_last (h : heap) (m : lmap) (c : Z) : res bool :=
  if c =? 0 then Ok false else
  n <- deref h c ; f <- last_id h m ;
  Ok (match f with Some id => id =? n_id n | None => false end).

(** linked_map_iter.rs L41-43 and linked_map_iter_mut.rs L38-40: [is_last] of the
    safe cursors calls [is_first] *)
Definition safe_is_last (h : heap) (m : lmap) (c : Z) : res bool := cur_is_first h m c.

(** ../intf/mlist_iter_mut.rs L31-35: [prev] of the mutable list cursor calls
    [next_mut] *)
Definition mlist_mut_prev (h : heap) (m : lmap) (c : Z) : res (option (Z * V) * Z) := cur_next h m c.

(** L359-363 iter, iter_from_last, iter_from_id *)
Definition iter (m : lmap) : Z := m_first m.
Definition iter_from_last (m : lmap) : Z := m_last m.
Definition iter_from_id (m : lmap) (id : Z) : option Z := mget id (m_map m).

(** [for x in iter]: call [next] until it returns [None].  Running out of fuel
    is the error [Err], which the theorems exclude. *)
Fixpoint collect (step : Z -> res (option (Z * V) * Z)) (fuel : nat) (c : Z) : res (list (Z * V)) :=
  match fuel with
  | O => Err
  | S fuel =>
      '(x, c) <- step c ;
      match x with
      | None => Ok []
      | Some x => r <- collect step fuel c ; Ok (x :: r)
      end
  end.

(** a fuel that suffices: one step per item and one more *)
Definition fuel_of (m : lmap) : nat := S (length (m_map m)).

Definition collect_fwd (h : heap) (m : lmap) (c : Z) : res (list (Z * V)) := collect (cur_next h m) (fuel_of m) c.
Definition collect_bwd (h : heap) (m : lmap) (c : Z) : res (list (Z * V)) := collect (cur_prev h m) (fuel_of m) c.

(** L437-455 LinkedMapIntoIter: ids in order, each taken out of the map *)
Fixpoint into_loop (h : heap) (mp : list (Z * Z)) (ids : list Z) : res (list (Z * V)) :=
  match ids with
  | [] => Ok []
  | id :: ids =>
      match mget id mp with
      | None => Ok []
      | Some a => n <- deref h a ;
          r <- into_loop h (mdel id mp) ids ;
          Ok ((id, n_item n) :: r)
      end
  end.
Definition into_iter (h : heap) (m : lmap) : res (list (Z * V)) :=
  l <- collect_fwd h m (iter m) ; into_loop h (m_map m) (map fst l).

(* ------------------------------------------------------------------ *)
(** * Copy and equality *)

(** L392 [self.map.clone()]: one new box per entry, links cleared (L29-33);
    values are immutable here, so their [clone] is the value itself *)
Fixpoint clone_boxes (h : heap) (mp : list (Z * Z)) (addrs : list Z) : res (heap * list (Z * Z)) :=
  match mp, addrs with
  | [], _ => Ok (h, [])
  | (k, a) :: mp, b :: addrs =>
      n <- deref h a ;
      '(h, r) <- clone_boxes (upd h b (Some (Node 0 0 (n_item n) (n_id n)))) mp addrs ;
      Ok (h, (k, b) :: r)
  | _ :: _, [] => Panic
  end.

Definition unwrap {A} (o : option A) : res A := match o with Some a => Ok a | None => Panic end.

(** L398-403 *)
Fixpoint clone_link (h : heap) (mp : list (Z * Z)) (prev : Z) (ids : list Z) : res heap :=
  match ids with
  | [] => Ok h
  | id :: ids =>
      current <- unwrap (mget id mp) ;
      h <- set_next h prev current ;
      h <- set_prev h current prev ;
      clone_link h mp current ids
  end.

(** L390-406 clone; [addrs] are the addresses of the new boxes *)
Definition clone (addrs : list Z) (h : heap) (m : lmap) : res (heap * lmap) :=
  if is_empty m then Ok (h, lnew) else
  '(h1, mp) <- clone_boxes h (m_map m) addrs ;
  fid <- first_id h m ; fid <- unwrap fid ; first_node <- unwrap (mget fid mp) ;
  lid <- last_id h m ; lid <- unwrap lid ; last_node <- unwrap (mget lid mp) ;
  l <- collect_fwd h m (iter m) ;
  h2 <- clone_link h1 mp first_node (map fst (tl l)) ;
  Ok (h2, LMap mp first_node last_node (m_next m)).

(** L408-419 PartialEq; [zip] stops at the shorter sequence *)
Fixpoint eq_zip (eqv : V -> V -> bool) (l r : list (Z * V)) : bool :=
  match l, r with
  | (a, v1) :: l, (b, v2) :: r => if negb (a =? b) then false else if negb (eqv v1 v2) then false else eq_zip eqv l r
  | _, _ => true
  end.
Definition leq (eqv : V -> V -> bool) (h1 : heap) (m1 : lmap) (h2 : heap) (m2 : lmap) : res bool :=
  if negb (len m1 =? len m2) then Ok false else
  l <- collect_fwd h1 m1 (iter m1) ;
  r <- collect_fwd h2 m2 (iter m2) ;
  Ok (eq_zip eqv l r).

(* ------------------------------------------------------------------ *)
(** * Operation sequences *)

(** The mutating operations.  The first group is reachable through
    ../intf/mlist_ptr.rs L88-133 and ../intf/mlist_mut.rs L55-88; the second
    group is used inside the crates only. *)
Inductive lop : Type :=
| InsertLast (v : V) | InsertFirst (v : V)
| Remove (id : Z) | RemoveFirst | RemoveLast
| MoveToFirst (id : Z) | MoveToLast (id : Z)
| MoveToPrev (next_items_id id : Z) | MoveToNext (prev_items_id id : Z)
| SetItem (id : Z) (v : V)
| InsertFirstWithId (id : Z) (v : V) | InsertLastWithId (id : Z) (v : V)
| InsertFirstUnchecked (id : Z) (v : V) | InsertLastUnchecked (id : Z) (v : V)
| SetNextId (n : Z).

Inductive lret : Type := RId (id : Z) | RBool (b : bool) | RUnit.

(** One operation; [a] is the address the allocator returns, if one is needed. *)
Definition lstep (a : Z) (h : heap) (m : lmap) (o : lop) : res (heap * lmap * lret) :=
  match o with
  | InsertLast v => '(h, m, id) <- insert_last a h m v ; Ok (h, m, RId id)
  | InsertFirst v => '(h, m, id) <- insert_first a h m v ; Ok (h, m, RId id)
  | Remove id => '(h, m, b) <- lm_remove h m id ; Ok (h, m, RBool b)
  | RemoveFirst => '(h, m, b) <- remove_first h m ; Ok (h, m, RBool b)
  | RemoveLast => '(h, m, b) <- remove_last h m ; Ok (h, m, RBool b)
  | MoveToFirst id => '(h, m, b) <- move_to_first h m id ; Ok (h, m, RBool b)
  | MoveToLast id => '(h, m, b) <- move_to_last h m id ; Ok (h, m, RBool b)
  | MoveToPrev n id => '(h, m, b) <- move_to_prev h m n id ; Ok (h, m, RBool b)
  | MoveToNext p id => '(h, m, b) <- move_to_next h m p id ; Ok (h, m, RBool b)
  | SetItem id v => '(h, b) <- set_item h m id v ; Ok (h, m, RBool b)
  | InsertFirstWithId id v => '(h, m, b) <- insert_first_with_id a h m id v ; Ok (h, m, RBool b)
  | InsertLastWithId id v => '(h, m, b) <- insert_last_with_id a h m id v ; Ok (h, m, RBool b)
  | InsertFirstUnchecked id v => '(h, m) <- insert_first_with_id_unchecked a h m id v ; Ok (h, m, RUnit)
  | InsertLastUnchecked id v => '(h, m) <- insert_last_with_id_unchecked a h m id v ; Ok (h, m, RUnit)
  | SetNextId n => Ok (h, set_next_id m n, RUnit)
  end.

(** Dropping a list: the struct (L14-19) owns its nodes through the boxes of the
    hash map, so the generated drop frees every one of them. *)
Definition drop_map (h : heap) (m : lmap) : heap := fold_left (fun h p => upd h (snd p) None) (m_map m) h.

(** What a program does with lists: [LinkedMap::new] (L79-81), [construct]
    (L82-101), an operation on the [i]-th list, [clone] (L390-406) of the [i]-th
    list into a new one, drop. *)
Inductive wop : Type :=
| WNew | WConstruct (its : list (Z * V)) (n : Z) | WOp (i : nat) (o : lop) | WClone (i : nat) | WDrop (i : nat).

(** replace the [i]-th element *)
Fixpoint lset {A} (i : nat) (x : A) (l : list A) : list A :=
  match l, i with [] , _ => [] | _ :: l, O => x :: l | y :: l, S i => y :: lset i x l end.

(** the addresses an allocator may return: not null, not in use, not twice *)
Fixpoint addresses_ok (h : heap) (al : list Z) : bool :=
  match al with
  | [] => true
  | a :: al => negb (a =? 0) && (match h a with None => true | Some _ => false end)
               && negb (existsb (Z.eqb a) al) && addresses_ok h al
  end.

(** how many boxes a step may allocate *)
Definition need (ms : list (option lmap)) (o : wop) : nat :=
  match o with
  | WConstruct its _ => length its
  | WOp _ _ => 1
  | WClone i => match nth_error ms i with Some (Some m) => length (m_map m) | _ => O end
  | _ => O
  end.

(** One step of a program on the heap and its lists ([None]: dropped).  [al] are
    the addresses the allocator returns.  [Err] stands for what the type system
    or the allocator exclude: using a list that does not exist, or an address
    in use. *)
Definition wstep (al : list Z) (h : heap) (ms : list (option lmap)) (o : wop)
  : res (heap * list (option lmap) * lret) :=
  if negb (addresses_ok h al && (length al =? need ms o)%nat) then Err else
  match o with
  | WNew => Ok (h, ms ++ [Some lnew], RUnit)
  | WConstruct its n => '(h, m) <- construct h its n al ; Ok (h, ms ++ [Some m], RUnit)
  | WOp i o =>
      match nth_error ms i with
      | Some (Some m) => '(h, m, r) <- lstep (hd 0 al) h m o ; Ok (h, lset i (Some m) ms, r)
      | _ => Err
      end
  | WClone i =>
      match nth_error ms i with
      | Some (Some m) => '(h, m') <- clone al h m ; Ok (h, ms ++ [Some m'], RUnit)
      | _ => Err
      end
  | WDrop i =>
      match nth_error ms i with
      | Some (Some m) => Ok (drop_map h m, lset i None ms, RUnit)
      | _ => Err
      end
  end.

Fixpoint wrun (h : heap) (ms : list (option lmap)) (prog : list (list Z * wop))
  : res (heap * list (option lmap) * list lret) :=
  match prog with
  | [] => Ok (h, ms, [])
  | (al, o) :: prog =>
      '(h, ms, r) <- wstep al h ms o ;
      '(h, ms, rs) <- wrun h ms prog ;
      Ok (h, ms, r :: rs)
  end.

(** A list followed through its copies: [inl o] is an operation on the current
    list, [inr tt] goes on with a [clone] (L390-406) of it. *)
Fixpoint lin_run (h : heap) (m : lmap) (prog : list (list Z * (lop + unit))) : res (heap * lmap * list lret) :=
  match prog with
  | [] => Ok (h, m, [])
  | (al, inl o) :: prog =>
      if negb (addresses_ok h al && (length al =? 1)%nat) then Err else
      '(h, m, r) <- lstep (hd 0 al) h m o ;
      '(h, m, rs) <- lin_run h m prog ; Ok (h, m, r :: rs)
  | (al, inr _) :: prog =>
      if negb (addresses_ok h al && (length al =? length (m_map m))%nat) then Err else
      '(h, m) <- clone al h m ; lin_run h m prog
  end.

End LinkedMap.

Arguments node : clear implicits.
Arguments heap : clear implicits.
Arguments lop : clear implicits.
Arguments wop : clear implicits.
