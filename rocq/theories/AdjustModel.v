(** Model of moving a document to a new version of its source.  Citations are relative to
    /repo/dochy_core/src/imp/version_adjuster.  The texts of errors and the [Names] they are
    made of are left out.

    A mutable list is its items in order and its next id.  The ids of a linked map are
    different, so that building a map from them keeps all items (C08); what happens to
    repeated ids of a source is C42_ids_refuted. *)
From Verif Require Import Base StringCompactionModel DocModel JsonModel ValidModel.

(** structs/rust_param.rs L61-73 *)
Definition to_undefined (p : param) : param :=
  match p with
  | PBool _ => PBool Undefined | PFloat _ => PFloat Undefined | PInt _ => PInt Undefined
  | PString _ => PString Undefined | PFloatArray _ => PFloatArray Undefined
  | PIntArray _ => PIntArray Undefined | PBinary _ => PBinary Undefined
  end.

(** structs/var_type.rs L13-18 *)
Definition undefiable (vt : var_type) : bool :=
  match vt with Undefiable | UndefNullable => true | _ => false end.

(** structs/linked_m.rs L82-101 [construct]: without items it is [new()] *)
Definition rebuild (items : list (Z * citem)) (next_id : Z) : mutlist :=
  match items with [] => ([], 0) | _ => (items, next_id) end.

Section Adjust.
(** the iteration order of hash maps *)
Variable iter : forall A, hmap A -> hmap A.

(** adjust_mut_list_item_ref.rs L9-25.  Every key comes once, so looking it up stands for
    removing it. *)
Definition adjust_refs (d : ldef def) (old : hmap (qv (list Z))) : hmap (qv (list Z)) :=
  fold_left (fun result e => let '(key, (_, (_, vt))) := e in
    match hget key old with
    | Some v => hset key v result
    | None => if undefiable vt then hset key Undefined result else result
    end) (iter _ (ld_refs d)) [].

(** adjust_mut_list_item_sabun.rs L10-65 without the inner lists: [old] has what L43-61
    makes of each value *)
Definition adjust_sabun (d : ldef def) (old : hmap (res cval)) : res (hmap cval) :=
  mfold (fun result e => let '(key, (_, dv)) := e in
    match hget key old with
    | Some r => v <- r ; Ok (hset key v result)
    | None =>
        match dv with
        | DParam p vt => Ok (if undefiable vt then hset key (VParam (to_undefined p)) result else result)
        | DMil _ u => Ok (if u then hset key (VMil None) result else result)
        | DCil _ => Err
        end
    end) (iter _ (ld_members d)) [].

(** adjust_mut_list.rs L11-22 and adjust_mut_list_item_sabun.rs L43-61.  As written there
    (L53), the items of an inner list are adjusted with the definition [d] of the outer one. *)
Fixpoint adjust_item (d : ldef def) (it : citem) {struct it} : res citem :=
  let 'CItem values refs := it in
  values <- adjust_sabun d (map (fun e => let '(key, v) := e in
    (key, match v with
          | VParam p => Ok (VParam p)
          | VMil None => Ok (VMil None)
          | VMil (Some (l, next)) =>
              l <- mmap (fun e => e) (map (fun e => let '(id, it) := e in it <- adjust_item d it ; Ok (id, it)) l) ;
              Ok (VMil (Some (rebuild l next)))
          | VCil _ => Err
          end)) values) ;
  Ok (CItem values (adjust_refs d refs)).

(** adjust_mut_list.rs L32-39 *)
Definition adjust_mut_list (d : def) (l : mutlist) : res mutlist :=
  items <- mmap (fun e => let '(id, it) := e in it <- adjust_item (undef d) it ; Ok (id, it)) (fst l) ;
  Ok (rebuild items (snd l)).

(** version_adjuster.rs L29-76: one member *)
Definition adjust_member (old : root_obj) (sabun : hmap (rootsab mutlist)) (e : name * (Z * rootvalue)) : res (hmap (rootsab mutlist)) :=
  let '(key, (_, v)) := e in
  let known := is_some (hget key (ro_default old)) in
  match v with
  | WParam p vt =>
      if undefiable vt && negb known then Ok (hset key (RParam (to_undefined p)) sabun)
      else Ok match hget key (ro_sabun old) with Some s => hset key s sabun | None => sabun end
  | WMList d u =>
      if u && negb known then Ok (hset key (RMut None) sabun)
      else match hget key (ro_sabun old) with
           | Some (RMut (Some l)) => l <- adjust_mut_list d l ; Ok (hset key (RMut (Some l)) sabun)
           | Some (RMut None) => Ok (hset key (RMut None) sabun)
           | _ => Ok sabun
           end
  | _ => Ok sabun
  end.

(** version_adjuster.rs L18-84 *)
Definition adjust_versions (new old : root_obj) (validation : bool) : res root_obj :=
  sabun <- mfold (adjust_member old) (iter _ (ro_default new)) (ro_sabun new) ;
  let r := RootObj (ro_default new) sabun (ro_old new) (ro_meta new) in
  _ <- (if validation then validate_root r true else Ok tt) ;
  Ok r.
End Adjust.
