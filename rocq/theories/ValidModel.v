(** Model of the validation of a loaded root.  Citations are relative to
    /repo/dochy_core/src/imp/json_to_rust/validation.  The texts of errors and the
    [Names] they are made of are left out. *)
From Verif Require Import Base StringCompactionModel LinkedModel DocModel ArchiveModel JsonModel.

(** A loop that stops at the first failure.  The calls have no effects, so all of them
    can be made before looking at the results. *)
Definition all_ok (l : list (res unit)) : res unit := mfold (fun _ r => r) l tt.

(** [HashSet::contains] *)
Definition has_name (k : name) (s : list name) : bool := existsb (eqb_bytes k) s.

(** structs/rust_param.rs L53-58: only the types are compared *)
Definition param_acceptable (p q : param) : bool :=
  match type_of p, type_of q with
  | TBool, TBool | TInt, TInt | TFloat, TFloat | TString, TString
  | TIntArray, TIntArray | TFloatArray, TFloatArray | TBinary, TBinary => true
  | _, _ => false
  end.

(** structs/list_value.rs L27-34 acceptable with L46-62 and structs/list_sab_value.rs
    L19-27 type_num, L39-45 qv_type *)
Definition def_acceptable (d : ldefval def) (v : cval) : bool :=
  match d, v with
  | DParam p vt, VParam q => param_acceptable p q && acceptable vt (param_qv_type q)
  | DCil _, VCil _ => true
  | DMil _ u, VMil o =>
      acceptable (if u then Undefiable else Normal) (match o with Some _ => QVal | None => QUndefined end)
  | _, _ => false
  end.

(** validate_old_def_mem.rs L10-17, L19-26, L28-35, L37-44 *)
Definition validate_old {A} (old : list name) (m : hmap A) : res unit :=
  all_ok (map (fun n => if is_some (hget n m) then Ok tt else Err) old).

(** validate_ref_def.rs L8-24 *)
Definition validate_ref_def (d : ldef def) : res unit :=
  _ <- (if ld_enum d
        then all_ok (map (fun e => match fst (snd (snd e)) with Null => Ok tt | _ => Err end) (ld_refs d))
        else Ok tt) ;
  validate_old (ld_ref_old d) (ld_refs d).

(** validate_list_def.rs L12-43 *)
Fixpoint validate_list_def (is_mut : bool) (d : def) {struct d} : res unit :=
  let 'Def l := d in
  _ <- validate_ref_def l ;
  _ <- validate_old (ld_old l) (ld_members l) ;
  all_ok (map (fun e => let '(_, (_, v)) := e in
                 match v with
                 | DMil d _ => if is_mut then validate_list_def is_mut d else Err
                 | DCil d => if is_mut then Err else validate_list_def is_mut d
                 | DParam _ _ => Ok tt
                 end) (ld_members l)).

(** The [for] loop over a linked map, structs/linked_m.rs IntoIterator, whose values
    stand for what the body of the loop gives. *)
Fixpoint visit (step : Z -> res (option (Z * res unit) * Z)) (fuel : nat) (c : Z) : res unit :=
  match fuel with
  | O => Err
  | S fuel =>
      '(x, c) <- step c ;
      match x with
      | None => Ok tt
      | Some (_, r) => _ <- r ; visit step fuel c
      end
  end.

Fixpoint boxes {A} (i : Z) (l : list A) : list Z := match l with [] => [] | _ :: l => i :: boxes (i + 1) l end.

(** The linked map made by [LinkedMap::construct] (tmp/tmp_list.rs L228), visited from its
    first node.  A box that was dropped because its id came twice is still linked;
    following the link is a panic here. *)
Definition visit_linked (items : list (Z * res unit)) (next_id : Z) : res unit :=
  '(h, m) <- construct (fun _ => None) items next_id (boxes 1 items) ;
  visit (cur_next h m) (fuel_of m) (LinkedModel.iter m).

Section Root.
Variable root : root_obj.
Variable can_use_old : bool.

(** validate_refs.rs L12-73 *)
Definition validate_refs (d : ldef def) (sabun : hmap (qv (list Z))) : res unit :=
  _ <- (if ld_enum d then (if zlen sabun =? 1 then Ok tt else Err)
        else all_ok (map (fun e => let '(nm, (_, (q, _))) := e in
               if is_some (hget nm sabun) then Ok tt
               else match q with Val v => if is_nil v then Err else Ok tt | _ => Ok tt end) (ld_refs d))) ;
  all_ok (map (fun e => let '(nm, q) := e in
    if negb can_use_old && has_name nm (ld_ref_old d) then Err
    else match hget nm (ld_refs d) with
         | None => Err
         | Some (_, (_, vt)) =>
             if negb (acceptable vt (qv_type_of q)) then Err
             else match q with
                  | Val id =>
                      if is_nil id then Err
                      else match hget nm (ro_default root) with
                           | Some (_, WTable _ rows old) =>
                               if negb (is_some (hget id rows)) then Err
                               else if negb can_use_old && has_name id old then Err else Ok tt
                           | _ => Err
                           end
                  | _ => Ok tt
                  end
         end) sabun).

(** validate_list_item.rs L13-60 with validate_list.rs L8-15 and validate_mut_list.rs L9-17 *)
Fixpoint validate_list_item (it : citem) (d : ldef def) {struct it} : res unit :=
  let 'CItem values refs := it in
  _ <- validate_refs d refs ;
  all_ok (map (fun e => let '(nm, v) := e in
    if negb can_use_old && has_name nm (ld_old d) then Err
    else match hget nm (ld_members d) with
         | None => Err
         | Some (_, dv) =>
             if negb (def_acceptable dv v) then Err
             else match dv with
                  | DCil d => match v with VCil l => all_ok (map (fun it => validate_list_item it (undef d)) l) | _ => Panic end
                  | DMil d u =>
                      match v with
                      | VMil (Some (l, next)) => visit_linked (map (fun e => let '(id, it) := e in (id, validate_list_item it (undef d))) l) next
                      | VMil None => if u then Ok tt else Err
                      | _ => Panic
                      end
                  | DParam _ _ => Ok tt
                  end
         end) values).

(** validate_list.rs L8-15 *)
Definition validate_const_list (d : def) (l : list citem) : res unit :=
  all_ok (map (fun it => validate_list_item it (undef d)) l).
(** validate_mut_list.rs L9-17 *)
Definition validate_mut_list (d : def) (l : mutlist) : res unit :=
  visit_linked (map (fun e => let '(id, it) := e in (id, validate_list_item it (undef d))) (fst l)) (snd l).
(** validate_data.rs L11-20 *)
Definition validate_table (d : def) (rows : hmap citem) (old : list name) : res unit :=
  _ <- validate_old old rows ;
  all_ok (map (fun e => validate_list_item (snd e) (undef d)) rows).

(** validate_root.rs L28-75 *)
Definition validate_root : res unit :=
  _ <- validate_old (ro_old root) (ro_default root) ;
  all_ok (map (fun e => let '(nm, (_, v)) := e in
    match v with
    | WParam p _ =>
        match hget nm (ro_sabun root) with
        | None => Ok tt
        | Some (RParam q) => if param_acceptable p q then Ok tt else Err
        | Some (RMut _) => Err
        end
    | WTable d rows old => _ <- validate_list_def false d ; validate_table d rows old
    | WCList d l => _ <- validate_list_def false d ; validate_const_list d l
    | WMList d u =>
        _ <- validate_list_def true d ;
        match hget nm (ro_sabun root) with
        | None => Ok tt
        | Some (RMut (Some l)) => validate_mut_list d l
        | Some (RMut None) => if u then Ok tt else Err
        | Some (RParam _) => Err
        end
    end) (ro_default root)).
End Root.

(** ../roots/json_dir_to_root.rs L14-23 *)
Definition load_root (addr : list Z -> Z) (iter : forall A, hmap A -> hmap A) (parse : list Z -> option jval)
    (files : smap (list Z)) (validation : bool) : res root_obj :=
  root <- files_to_root addr iter parse files ;
  _ <- (if validation then validate_root root false else Ok tt) ;
  Ok root.
