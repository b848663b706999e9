(** Model of computing and applying document differences.  Citations are relative
    to /repo/dochy_diff/src/imp.

    Functions over nested lists are written for one nesting depth, with the
    functions of the next inner depth as parameters, and then tied together by
    recursion on the depth (see DocModel). *)
From Verif Require Import Base FloatModel StringCompactionModel LinkedModel LinkedSpec DocModel.

(* ------------------------------------------------------------------ *)
(** * Differences *)

(** [BTreeMap<usize, A>]: entries in increasing order of keys *)
Definition bmap (A : Type) : Type := list (Z * A).

(** [BTreeMap::insert] *)
Fixpoint binsert {A} (k : Z) (v : A) (m : bmap A) : bmap A :=
  match m with
  | [] => [(k, v)]
  | (x, a) :: r =>
      if k <? x then (k, v) :: m
      else if k =? x then (k, v) :: r
      else (x, a) :: binsert k v r
  end.

(** structs_write.rs L45-63 ListItemDiffW and structs_read.rs L45-71 ListItemDiffR.
    The maps of the first are read back as the vectors of the second. *)
Record itemdiff (LD : Type) : Type := IDiff {
  df_params : bmap param;
  df_lists : bmap (option LD);
  df_refs : bmap (qv (list Z)) }.
Arguments IDiff {LD}.
Arguments df_params {LD}.
Arguments df_lists {LD}.
Arguments df_refs {LD}.

(** structs_write.rs L34-44 ListItemDiffEnumW with BS, structs_read.rs L34-43
    ListItemDiffEnumR with CS *)
Inductive enumdiff (LD : Type) : Type :=
| Delete
| Create (prev_id : option Z) (d : itemdiff LD)
| Modify (d : itemdiff LD).
Arguments Delete {LD}.
Arguments Create {LD}.
Arguments Modify {LD}.

(** structs_write.rs L19-33 ListDiffW, structs_read.rs L20-32 ListDiffR: the
    entries and the next id.  The reference to the meta tables in ListDiffW is
    left out; it is the table the enclosing table holds for the list
    (compare_items.rs L30, new_item.rs L23, get_root_diff.rs L53). *)
Definition listdiff (LD : Type) : Type := (list (Z * enumdiff LD) * Z)%type.

Fixpoint ldiffT (n : nat) : Type := match n with O => Empty_set | S n => listdiff (ldiffT n) end.

(** structs_write.rs L4-17 RootDiffW, structs_read.rs L3-17 RootDiffR *)
Record rootdiff (LD : Type) : Type := RDiff { rd_params : bmap param; rd_lists : bmap (option LD) }.
Arguments RDiff {LD}.
Arguments rd_params {LD}.
Arguments rd_lists {LD}.

(* ------------------------------------------------------------------ *)
(** * Computing a difference *)

Section Get.
Context {D M L LD : Type}.
Variable inner_diff : L -> L -> D -> M -> res (option LD).
Variable inner_new : L -> D -> M -> res LD.

Notation parts := (bmap param * bmap (option LD))%type.

(** prepare/new_item.rs L6-46.  One member value: L11-36. *)
Definition new_value (def : ldef D) (meta : metatables M) (acc : parts) (e : name * lval L) : res parts :=
  let '(params, lists) := acc in
  let '(key, value) := e in
  match value with
  | LParam p =>
      match hget key (ld_members def) with
      | Some (id, _) => Ok (binsert id p params, lists)
      | None => Panic
      end
  | LMil mil =>
      match hget key (ld_members def) with
      | Some (id, DMil d _) =>
          match mil with
          | Some mil =>
              match get_tables (mt_items meta) id with
              | Some tables =>
                  x <- inner_new mil d tables ;
                  Ok (params, binsert id (Some x) lists)
              | None => Panic
              end
          | None => Ok (params, binsert id None lists)
          end
      | _ => Ok acc
      end
  | LCil _ => Ok acc
  end.

(** L38-43 *)
Definition new_ref (def : ldef D) (refs : bmap (qv (list Z))) (e : name * qv (list Z)) : bmap (qv (list Z)) :=
  match hget (fst e) (ld_refs def) with
  | Some (id, _) => binsert id (snd e) refs
  | None => refs
  end.

Definition new_item (it : item L) (def : ldef D) (meta : metatables M) : res (itemdiff LD) :=
  '(params, lists) <- mfold (new_value def meta) (it_values it) ([], []) ;
  let refs := fold_left (new_ref def) (it_refs it) [] in
  Ok (IDiff params lists refs).

(** prepare/new_list.rs L5-16 *)
Definition new_list (mil : mlist (item L)) (def : ldef D) (meta : metatables M) : res (listdiff LD) :=
  '(result, _) <- mfold (fun acc e =>
      let '(result, prev_id) := acc in
      let '(id, it) := e in
      x <- new_item it def meta ;
      Ok (result ++ [(id, Create prev_id x)], Some id)) (fst mil) ([], None) ;
  Ok (result, snd mil).

(** prepare/compare_items.rs L8-86.  One member value: L15-64. *)
Definition compare_value (from : item L) (def : ldef D) (meta : metatables M)
    (acc : parts) (e : name * lval L) : res parts :=
  let '(params, lists) := acc in
  let '(key, value) := e in
  match value with
  | LParam p =>
      match hget key (ld_members def) with
      | Some (id, _) =>
          match hget key (it_values from) with
          | Some (LParam from_p) =>
              if negb (identity_eq p from_p) then Ok (binsert id p params, lists) else Ok acc
          | _ => Ok (binsert id p params, lists)
          end
      | None => Ok acc
      end
  | LMil mil =>
      match hget key (ld_members def) with
      | Some (id, DMil d _) =>
          match get_tables (mt_items meta) id with
          | None => Panic
          | Some tables =>
              match hget key (it_values from) with
              | Some (LMil None) =>
                  match mil with
                  | None => Ok acc
                  | Some mil => x <- inner_new mil d tables ; Ok (params, binsert id (Some x) lists)
                  end
              | Some (LMil (Some from_mil)) =>
                  match mil with
                  | Some mil =>
                      x <- inner_diff from_mil mil d tables ;
                      match x with
                      | Some diff => Ok (params, binsert id (Some diff) lists)
                      | None => Ok acc
                      end
                  | None => Ok (params, binsert id None lists)
                  end
              | _ =>
                  match mil with
                  | Some mil => x <- inner_new mil d tables ; Ok (params, binsert id (Some x) lists)
                  | None => Ok (params, binsert id None lists)
                  end
              end
          end
      | _ => Ok acc
      end
  | LCil _ => Ok acc
  end.

(** [Qv<String> == Qv<String>] *)
Definition qv_str_eq (a b : qv (list Z)) : bool := qv_ident eqb_bytes a b.

(** L66-79 *)
Definition compare_ref (from : item L) (def : ldef D) (refs : bmap (qv (list Z)))
    (e : name * qv (list Z)) : bmap (qv (list Z)) :=
  let '(key, to_val) := e in
  match hget key (ld_refs def) with
  | Some (id, _) =>
      match hget key (it_refs from) with
      | Some from_value => if negb (qv_str_eq from_value to_val) then binsert id to_val refs else refs
      | None => binsert id to_val refs
      end
  | None => refs
  end.

Definition compare_items (from to : item L) (def : ldef D) (meta : metatables M) : res (option (itemdiff LD)) :=
  '(params, lists) <- mfold (compare_value from def meta) (it_values to) ([], []) ;
  let refs := fold_left (compare_ref from def) (it_refs to) [] in
  match params, refs, lists with
  | [], [], [] => Ok None
  | _, _, _ => Ok (Some (IDiff params lists refs))
  end.

(** prepare/get_mlist_diff.rs L10-18 *)
Definition diff_from (to : mlist (item L)) (def : ldef D) (meta : metatables M)
    (result : list (Z * enumdiff LD)) (e : Z * item L) : res (list (Z * enumdiff LD)) :=
  let '(id, from_item) := e in
  match lookup id (fst to) with
  | Some to_item =>
      x <- compare_items from_item to_item def meta ;
      match x with Some d => Ok (result ++ [(id, Modify d)]) | None => Ok result end
  | None => Ok (result ++ [(id, Delete)])
  end.

(** L20-27 *)
Definition diff_to (from : mlist (item L)) (def : ldef D) (meta : metatables M)
    (acc : list (Z * enumdiff LD) * option Z) (e : Z * item L) : res (list (Z * enumdiff LD) * option Z) :=
  let '(result, prev_id) := acc in
  let '(id, to_item) := e in
  if negb (has id (fst from))
  then x <- new_item to_item def meta ; Ok (result ++ [(id, Create prev_id x)], Some id)
  else Ok (result, Some id).

(** prepare/get_mlist_diff.rs L6-34 *)
Definition get_mlist_diff (from to : mlist (item L)) (def : ldef D) (meta : metatables M)
    : res (option (listdiff LD)) :=
  result <- mfold (diff_from to def meta) (fst from) [] ;
  '(result, _) <- mfold (diff_to from def meta) (fst to) (result, None) ;
  match result with
  | [] => Ok None
  | _ => Ok (Some (result, snd to))
  end.

End Get.

Fixpoint new_listT (n : nat) : mlistT n -> defT n -> metaT n -> res (ldiffT n) :=
  match n with
  | O => fun l => match l with end
  | S n => new_list (new_listT n)
  end.

Fixpoint get_mlist_diffT (n : nat) : mlistT n -> mlistT n -> defT n -> metaT n -> res (option (ldiffT n)) :=
  match n with
  | O => fun l => match l with end
  | S n => get_mlist_diff (get_mlist_diffT n) (new_listT n)
  end.

(** prepare/get_root_diff.rs L23-74 *)
Definition root_value {n} (f : sabun n) (def : rootdef n) (meta : metatable (metaT n))
    (acc : bmap param * bmap (option (ldiffT n))) (e : name * rootsab (mlistT n))
    : res (bmap param * bmap (option (ldiffT n))) :=
  let '(params, lists) := acc in
  let '(key, to_val) := e in
  match to_val with
  | RParam p =>
      let put := match hget key def with
                 | Some (id, _) => Ok (binsert id p params, lists)
                 | None => Panic
                 end in
      match hget key f with
      | Some (RParam from_p) => if negb (identity_eq from_p p) then put else Ok acc
      | _ => put
      end
  | RMut to_list =>
      match hget key f with
      | Some (RMut from_list) =>
          match from_list, to_list with
          | None, None => Ok acc
          | _, _ =>
              match hget key def with
              | Some (id, RVMList d _) =>
                  match meta_get meta id with
                  | Some (_, MMList tables) =>
                      match from_list with
                      | Some from_list =>
                          match to_list with
                          | Some to_list =>
                              x <- get_mlist_diffT n from_list to_list d tables ;
                              match x with
                              | Some diff => Ok (params, binsert id (Some diff) lists)
                              | None => Ok acc
                              end
                          | None => Ok (params, binsert id None lists)
                          end
                      | None =>
                          match to_list with
                          | Some to_list =>
                              x <- new_listT n to_list d tables ;
                              Ok (params, binsert id (Some x) lists)
                          | None => Ok acc
                          end
                      end
                  | _ => Panic
                  end
              | _ => Panic
              end
          end
      | _ => Panic
      end
  end.

(** prepare/get_root_diff.rs L9-78 *)
Definition get_root_diff {n} (f t : sabun n) (def : rootdef n) (meta : metatable (metaT n))
    : res (rootdiff (ldiffT n)) :=
  '(params, lists) <- mfold (root_value f def meta) t ([], []) ;
  Ok (RDiff params lists).

(* ------------------------------------------------------------------ *)
(** * Applying a difference *)

(** apply/apply_params.rs L5-15 *)
Definition apply_params {L M} (params : bmap param) (meta : metatable M) (r : hmap (lval L)) : res (hmap (lval L)) :=
  mfold (fun r e => let '(id, p) := e in
    match meta_get meta id with
    | Some (key, _) => Ok (hset key (LParam p) r)
    | None => Err
    end) params r.

(** apply/apply_refs.rs L5-15 *)
Definition apply_refs {M} (refs : bmap (qv (list Z))) (meta : metatable M) (r : hmap (qv (list Z)))
    : res (hmap (qv (list Z))) :=
  mfold (fun r e => let '(id, q) := e in
    match meta_get meta id with
    | Some (key, _) => Ok (hset key q r)
    | None => Err
    end) refs r.

Section Apply.
Context {M L LD : Type}.
Variable inner_apply : L -> LD -> M -> res L.
Variable inner_make : LD -> M -> res L.

(** apply/apply_lists.rs L8-35; [inner_make] is diff_to_new_list below *)
Definition apply_lists (lists : bmap (option LD)) (meta : metatable M) (r : hmap (lval L)) : res (hmap (lval L)) :=
  mfold (fun r e => let '(id, op_list_diff) := e in
    match meta_get meta id with
    | None => Err
    | Some (key, MMList tables) | Some (key, MOptMil tables) =>
        match op_list_diff with
        | Some list_diff =>
            match hget key r with
            | Some (LMil (Some m)) =>
                m <- inner_apply m list_diff tables ; Ok (hset key (LMil (Some m)) r)
            | _ =>
                m <- inner_make list_diff tables ; Ok (hset key (LMil (Some m)) r)
            end
        | None => Ok (hset key (LMil None) r)
        end
    | Some (_, MParam _ _) => Err
    end) lists r.

(** apply/modify_item_from_diff.rs L8-19 *)
Definition modify_item_from_diff (it : item L) (diff : itemdiff LD) (meta : metatables M) : res (item L) :=
  values <- apply_params (df_params diff) (mt_items meta) (it_values it) ;
  values <- apply_lists (df_lists diff) (mt_items meta) values ;
  refs <- apply_refs (df_refs diff) (mt_refs meta) (it_refs it) ;
  Ok (Item values refs).

(** apply/new_item_from_diff.rs L9-20 *)
Definition new_item_from_diff (diff : itemdiff LD) (meta : metatables M) : res (item L) :=
  modify_item_from_diff (Item [] []) diff meta.

(** apply/apply_list_diff.rs L11-33, one entry.  The operations of the linked map
    are those of the ordered list it refines (LinkedProps, C08). *)
Definition apply_entry (meta : metatables M) (list : mlist (item L)) (e : Z * enumdiff LD) : res (mlist (item L)) :=
  let '(id, diff) := e in
  match diff with
  | Create prev_id diff =>
      it <- new_item_from_diff diff meta ;
      match astep list (InsertFirstWithId id it) with
      | (list, RBool true) =>
          match prev_id with
          | Some prev_id =>
              match astep list (MoveToNext prev_id id) with
              | (list, RBool true) => Ok list
              | _ => Err
              end
          | None => Ok list
          end
      | _ => Err
      end
  | Delete => Ok (fst (astep list (Remove id)))
  | Modify diff =>
      match lookup id (fst list) with
      | Some it =>
          it <- modify_item_from_diff it diff meta ;
          Ok (fst (astep list (SetItem id it)))
      | None => Err
      end
  end.

(** apply/apply_list_diff.rs L7-35 *)
Definition apply_list_diff (list : mlist (item L)) (diff : listdiff LD) (meta : metatables M) : res (mlist (item L)) :=
  let '(vec, next_id) := diff in
  mfold (apply_entry meta) vec (fst (astep list (SetNextId next_id))).

(** apply/diff_to_new_list.rs L6-12; the list starts empty, with next id 0
    (linked_m.rs L79-81) *)
Definition diff_to_new_list (diff : listdiff LD) (meta : metatables M) : res (mlist (item L)) :=
  apply_list_diff ([], 0) diff meta.

End Apply.

(** apply_list_diff and diff_to_new_list at every depth *)
Fixpoint appliers (n : nat) :
    (mlistT n -> ldiffT n -> metaT n -> res (mlistT n)) * (ldiffT n -> metaT n -> res (mlistT n)) :=
  match n with
  | O => (fun (l : Empty_set) _ _ => match l with end, fun (d : Empty_set) _ => match d with end)
  | S n => (apply_list_diff (fst (appliers n)) (snd (appliers n)),
            diff_to_new_list (fst (appliers n)) (snd (appliers n)))
  end.

Definition apply_list_diffT (n : nat) : mlistT n -> ldiffT n -> metaT n -> res (mlistT n) := fst (appliers n).
Definition diff_to_new_listT (n : nat) : ldiffT n -> metaT n -> res (mlistT n) := snd (appliers n).

(** apply/apply_root_diff.rs L12-17 *)
Definition apply_root_params {n} (meta : metatable (metaT n)) (params : bmap param) (s : sabun n) : res (sabun n) :=
  mfold (fun s e => let '(id, p) := e in
    match meta_get meta id with
    | Some (key, _) => Ok (hset key (RParam p) s)
    | None => Panic
    end) params s.

(** apply/apply_root_diff.rs L18-50 *)
Definition apply_root_lists {n} (meta : metatable (metaT n)) (lists : bmap (option (ldiffT n))) (s : sabun n)
    : res (sabun n) :=
  mfold (fun s e => let '(id, list_diff) := e in
    match meta_get meta id with
    | None => Panic
    | Some (key, MMList tables) | Some (key, MOptMil tables) =>
        match hget key s with
        | Some (RMut (Some m)) =>
            match list_diff with
            | Some list_diff => m <- apply_list_diffT n m list_diff tables ; Ok (hset key (RMut (Some m)) s)
            | None => Ok (hset key (RMut None) s)
            end
        | Some (RMut None) =>
            match list_diff with
            | Some list_diff => m <- diff_to_new_listT n list_diff tables ; Ok (hset key (RMut (Some m)) s)
            | None => Ok s
            end
        | _ => Panic
        end
    | Some (_, MParam _ _) => Panic
    end) lists s.

(** apply/apply_root_diff.rs L7-52 *)
Definition apply_root_diff {n} (s : sabun n) (diff : rootdiff (ldiffT n)) (meta : metatable (metaT n)) : res (sabun n) :=
  s <- apply_root_params meta (rd_params diff) s ;
  apply_root_lists meta (rd_lists diff) s.
