(** Model of printing a document as JSON.  Citations are relative to
    /repo/dochy_core/src/imp/rust_to_json unless they start with [structs/].

    A mutable list is its items in order and its next id.  A [BTreeMap] that is filled from
    a hash map does not depend on the order of iteration, as the keys of the hash map are
    different, so the members are taken in the order of the model. *)
From Coq Require Import String.
From Verif Require Import Base FloatModel StringCompactionModel DocModel ArchiveModel JsonModel.

(** structs/my_json.rs L4-13; a [Map] is a [BTreeMap] *)
Inductive mval : Type :=
| MBool (b : bool)
| MString (s : list Z)
| MNumber (bits : Z)
| MArray (l : list mval)
| MMap (m : smap mval)
| MNull
| MUndefined.

(* ------------------------------------------------------------------ *)
(** * Text *)

(** structs/my_json.rs L68-70 *)
Definition indent_str (level : nat) : list Z := concat (repeat (txt "  ") level).

(** structs/my_json.rs L35-66, with the texts of the elements *)
Definition write_array (array : list (list Z)) (level : nat) : list Z :=
  match array with
  | [] => txt "[]"
  | [a] => txt "[ " ++ a ++ txt " ]"
  | [a; b] => txt "[ " ++ a ++ txt ", " ++ b ++ txt " ]"
  | a :: rest =>
      txt "[" ++ [10] ++ indent_str level ++ a ++ txt "," ++ [10] ++
      concat (map (fun item => indent_str level ++ item ++ txt "," ++ [10]) (removelast rest)) ++
      indent_str level ++ last rest [] ++ [10] ++
      (if Nat.eqb level 0 then [] else indent_str (level - 1)) ++ txt "]"
  end.

(** structs/my_json.rs L72-95, with the texts of the values *)
Definition write_map (map' : smap (list Z)) (level : nat) : list Z :=
  match map' with
  | [] => txt "{}"
  | [(k, v)] => txt "{ " ++ [34] ++ k ++ [34] ++ txt " : " ++ v ++ txt " }"
  | _ =>
      txt "{" ++ [10] ++
      concat (map (fun e => indent_str level ++ [34] ++ fst e ++ [34] ++ txt " : " ++ snd e ++ txt "," ++ [10]) map') ++
      (if Nat.eqb level 0 then [] else indent_str (level - 1)) ++ txt "}"
  end.

Section Show.
(** [f64::to_string] *)
Variable show : Z -> list Z.

(** structs/my_json.rs L23-33 *)
Fixpoint write (value : mval) (level : nat) {struct value} : list Z :=
  match value with
  | MBool b => if b then txt "true" else txt "false"
  | MString s => [34] ++ s ++ [34]
  | MNull => txt "null"
  | MUndefined => txt "undefined"
  | MNumber bits => show bits
  | MArray l => write_array (map (fun x => write x (S level)) l) (S level)
  | MMap m => write_map (map (fun e => (fst e, write (snd e) (S level))) m) (S level)
  end.

(** structs/my_json.rs L16-20 *)
Definition to_string_pretty (v : mval) : list Z := write v 0.
End Show.

(* ------------------------------------------------------------------ *)
(** * Values *)

(** [BTreeMap] from an iterator, and [BTreeSet] (list/tmp_json_list.rs L113-119) *)
Definition bmap {A} (l : list (name * A)) : smap A := fold_left (fun m e => sm_insert (fst e) (snd e) m) l [].
Definition btree_set (s : list name) : list name := map fst (bmap (map (fun n => (n, tt)) s)).

(** string_set_to_json.rs L5-7 *)
Definition string_set_to_json_short (s : list name) : mval := MArray (map MString (btree_set s)).
(** string_set_to_json.rs L10-14 *)
Definition string_set_to_json (tag : list Z) (s : list name) : mval := MArray (MString tag :: map MString (btree_set s)).

(** get_param.rs L21-27 *)
Definition to_json {T} (q : qv T) (type_name : list Z) (f : T -> mval) : mval :=
  match q with
  | Val v => f v
  | Null => MArray [MString type_name; MNull]
  | Undefined => MArray [MString type_name; MUndefined]
  end.

(** get_param.rs L6-19 for a parameter that is no array; the elements of arrays are such *)
Definition json_int (n : Z) : mval := MNumber (i64_to_f64 n).
Definition json_float (n : Z) : mval := MArray [MString (txt "Float"); MNumber n].

(** rust_array_to_json.rs L7-40, with the elements as JSON *)
Definition rust_array_to_json (array : qv (list mval)) (at' : array_type) : mval :=
  let tag := match at' with
             | AtInt => match array with Val (_ :: _) => [] | _ => [MString (txt "IntArray")] end
             | AtFloat => [MString (txt "FloatArray")]
             | AtBinary => [MString (txt "Binary")]
             end in
  MArray (tag ++ match array with Val v => v | Undefined => [MUndefined] | Null => [MNull] end).

(** get_param.rs L6-19 with structs/rust_param.rs L75-84 to_rust_array *)
Definition get_param (p : param) : mval :=
  match p with
  | PBool b => to_json b (txt "Bool") MBool
  | PString s => to_json s (txt "Str") (fun s => MString (snd s))
  | PFloat n => to_json n (txt "Float") json_float
  | PInt n => to_json n (txt "Int") json_int
  | PFloatArray q => rust_array_to_json (match q with Val l => Val (map json_float l) | Undefined => Undefined | Null => Null end) AtFloat
  | PIntArray q => rust_array_to_json (match q with Val l => Val (map json_int (snd l)) | Undefined => Undefined | Null => Null end) AtInt
  | PBinary q => rust_array_to_json (match q with Val l => Val (map json_int (snd l)) | Undefined => Undefined | Null => Null end) AtBinary
  end.

(** list/ref_def_obj_to_json.rs L18-24 *)
Definition reconstruct_ref_value (nm : name) (value : qv (list Z)) (vt : var_type) : name * mval :=
  (nm ++ to_suffix vt, match value with Val v => MString v | Null => MNull | Undefined => MUndefined end).

(** list/ref_def_obj_to_json.rs L7-16 *)
Definition ref_def_obj_to_json (refs : hmap (Z * (qv (list Z) * var_type))) : smap mval :=
  bmap (map (fun e => let '(key, (_, (q, vt))) := e in reconstruct_ref_value key q vt) refs).

(** list/default_to_json.rs L10-23 with list/value_map_to_json.rs L6-15,
    list/inner_mut_def_to_json.rs L5-17, list/default_to_json.rs L25-30 and
    rust_value_to_json_value.rs L14-16, L29-39 for the members *)
Fixpoint default_to_json (d : def) : mval :=
  let 'Def l := d in
  let def' := bmap (map (fun e => let '(key, (_, v)) := e in
                match v with
                | DParam p vt => (name_with_suffix key vt, get_param p)
                | DCil d => (key, MArray [MString (txt "CilDef"); MArray [default_to_json d]])
                | DMil d u => (if u then name_with_suffix key Undefiable else key, MArray [MString (txt "MilDef"); MArray [default_to_json d]])
                end) (ld_members l)) in
  let def' := match ld_refs l with
              | [] => def'
              | refs => sm_insert (if ld_enum l then txt "Enum" else txt "Ref") (MMap (ref_def_obj_to_json refs)) def'
              end in
  MMap (match ld_old l with [] => def' | old => sm_insert (txt "Old") (string_set_to_json_short old) def' end).

(** list/tmp_json_list.rs L11-17 and list/tmp_list_to_json.rs L9-36, with the items as JSON *)
Definition rust_list_to_json (type : list Z) (old : option (list name)) (next_id : option Z) (default : option def) (vec : list mval) : mval :=
  MArray ([MString type] ++
          match old with Some old => [string_set_to_json (txt "Old") old] | None => [] end ++
          match next_id with Some n => [MArray [MString (txt "NextID"); MNumber (i64_to_f64 n)]] | None => [] end ++
          match default with Some d => [MArray [default_to_json d]] | None => [] end ++
          vec).

(** list/tmp_obj_to_json.rs L8-28 with list/tmp_refs_to_json.rs L7-19, for the objects of
    list/tmp_json_list.rs L27-42 and L58-62: no old names, no enum; the values as JSON *)
Definition tmp_obj_to_json (values : hmap mval) (refs : hmap (qv (list Z))) (id : option mval) : mval :=
  let result := bmap values in
  let result := match id with Some id => sm_insert (txt "ID") id result | None => result end in
  MMap (match refs with
        | [] => result
        | _ => sm_insert (txt "Ref") (MMap (bmap (map (fun e => reconstruct_ref_value (fst e) (snd e) Normal) refs))) result
        end).

(** list/tmp_json_list.rs L27-42, L102-110 and rust_value_to_json_value.rs L12-39 for the
    values of items, as structs/list_sab_value.rs into_rust_value_for_json makes them *)
Fixpoint cval_to_json (v : cval) : mval :=
  match v with
  | VParam p => get_param p
  | VCil l => rust_list_to_json (txt "Cil") None None None (map (fun it => citem_to_json it None) l)
  | VMil (Some (l, _)) => rust_list_to_json (txt "Mil") None None None (map (fun e => citem_to_json (snd e) (Some (MNumber (i64_to_f64 (fst e))))) l)
  | VMil None => MArray [MString (txt "__InnerMutUndefined")]
  end
with citem_to_json (it : citem) (id : option mval) : mval :=
  let 'CItem values refs := it in
  tmp_obj_to_json (map (fun e => (fst e, cval_to_json (snd e))) values) refs id.

(** rust_value_to_json_value.rs L12-40 with list/tmp_json_list.rs L74-95 *)
Definition rust_value_to_json_value (v : rvalue) (nm : name) : name * mval :=
  match v with
  | VaParam p vt => (name_with_suffix nm vt, get_param p)
  | VaTable d items old =>
      (nm, rust_list_to_json (txt "Table") (match old with [] => None | _ => Some old end) None (Some d)
             (map (fun e => citem_to_json (snd e) (Some (MString (fst e)))) (bmap items)))
  | VaCList d items => (nm, rust_list_to_json (txt "CList") None None (Some d) (map (fun it => citem_to_json it None) items))
  | VaMList d _ m =>
      let '(vec, next_id) := match m with
                             | Some (l, next_id) => (map (fun e => citem_to_json (snd e) (Some (MNumber (i64_to_f64 (fst e))))) l, next_id)
                             | None => ([], 0)
                             end in
      (nm, rust_list_to_json (txt "MList") None (Some next_id) (Some d) vec)
  | VaCil l => (nm, cval_to_json (VCil l))
  | VaMil o => (nm, cval_to_json (VMil o))
  | VaCilDef d => (nm, MArray [MString (txt "CilDef"); MArray [default_to_json d]])
  | VaMilDef d u => (if u then name_with_suffix nm Undefiable else nm, MArray [MString (txt "MilDef"); MArray [default_to_json d]])
  end.

(** structs/root_value.rs L20-33 *)
Definition into_rust_value (v : rootvalue) (sab : rootsab mutlist) : res rvalue :=
  match v with
  | WParam p vt => Ok (VaParam p vt)
  | WTable d items old => Ok (VaTable d items old)
  | WCList d items => Ok (VaCList d items)
  | WMList d u => match sab with RMut m => Ok (VaMList d u m) | RParam _ => Err end
  end.

(** root_to_json.rs L25-37; a member is looked at once, so that what [remove] leaves of the
    differences does not matter *)
Definition new_default (r : root_obj) : res (hmap rvalue) :=
  mfold (fun result e =>
           let '(nm, (_, val)) := e in
           match val with
           | WParam p vt =>
               Ok (hset nm (match hget nm (ro_sabun r) with Some (RParam q) => VaParam q vt | _ => VaParam p vt end) result)
           | _ =>
               match hget nm (ro_sabun r) with
               | Some sab => v <- into_rust_value val sab ; Ok (hset nm v result)
               | None => Ok result
               end
           end) (ro_default r) [].

(** root_to_json.rs L19-43 with list/value_map_to_json.rs L6-15 *)
Definition root_to_json (r : root_obj) : res mval :=
  result <- new_default r ;
  let map' := bmap (map (fun e => rust_value_to_json_value (snd e) (fst e)) result) in
  Ok (MMap (sm_insert (txt "Old") (string_set_to_json_short (ro_old r)) map')).
