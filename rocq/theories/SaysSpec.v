(** What a source says (C61): the meaning of the values of a source file, stated without
    the order of members, the numbers given to them and addresses in memory. *)
From Coq Require Import String.
From Coq Require Import Sorting.Permutation.
From Verif Require Import Base FloatModel StringCompactionModel DocModel ArchiveModel JsonModel JsonSpec LoadSpec.

(** an array that begins with a tag *)
Definition tagged_with (t : string) (l : list jval) : jval := JArray (JString (txt t) :: l).

(* ------------------------------------------------------------------ *)
(** * Parameters *)

(** [["Int", null]] and the like *)
Inductive nothing (A : Type) : jval -> qv A -> Prop :=
| nothing_null : nothing A JNull Null
| nothing_undefined : nothing A JUndefined Undefined.

(** a number where a float is expected *)
Inductive writes_float : jval -> Z -> Prop :=
| float_double b : writes_float (JDouble b) b
| float_int i : writes_float (JInt i) (i64_to_f64 i).

Inductive writes_param : jval -> param -> Prop :=
| writes_bool b : writes_param (JBool b) (PBool (Val b))
| writes_int i : writes_param (JInt i) (PInt (Val i))
| writes_double b : writes_param (JDouble b) (PFloat (Val b))
| writes_string a s : writes_param (JString s) (PString (Val (a, s)))
| writes_tagged_float v b : writes_float v b -> writes_param (tagged_with "Float" [v]) (PFloat (Val b))
| writes_no_bool v q : nothing _ v q -> writes_param (tagged_with "Bool" [v]) (PBool q)
| writes_no_int v q : nothing _ v q -> writes_param (tagged_with "Int" [v]) (PInt q)
| writes_no_float v q : nothing _ v q -> writes_param (tagged_with "Float" [v]) (PFloat q)
| writes_no_string v q : nothing _ v q -> writes_param (tagged_with "Str" [v]) (PString q)
| writes_ints a l : l <> [] -> writes_param (JArray (map JInt l)) (PIntArray (Val (a, l)))
| writes_tagged_ints a l : writes_param (tagged_with "IntArray" (map JInt l)) (PIntArray (Val (a, l)))
| writes_no_ints v q : nothing _ v q -> writes_param (tagged_with "IntArray" [v]) (PIntArray q)
| writes_floats l fs :
    Forall2 (fun v f => writes_float v f \/ exists w, v = tagged_with "Float" [w] /\ writes_float w f) l fs ->
    writes_param (tagged_with "FloatArray" l) (PFloatArray (Val fs))
| writes_no_floats v q : nothing _ v q -> writes_param (tagged_with "FloatArray" [v]) (PFloatArray q)
| writes_bytes a l : Forall (fun b => 0 <= b < 256) l -> writes_param (tagged_with "Binary" (map JInt l)) (PBinary (Val (a, l)))
| writes_no_bytes v q : nothing _ v q -> writes_param (tagged_with "Binary" [v]) (PBinary q).

(* ------------------------------------------------------------------ *)
(** * Objects *)

(** the member [n], with the marks of [vt], has the value [v] *)
Definition member (m : list (name * jval)) (n : name) (vt : var_type) (v : jval) : Prop :=
  exists key t, In (key, v) m /\ plain_name n /\ marks vt t /\ key = n ++ t.
(** after one of the words [Old], [ID], [Ref], [Enum] *)
Definition word (m : list (name * jval)) (s : system_name) (v : jval) : Prop := In (system_word s, v) m.
Definition no_word (m : list (name * jval)) (s : system_name) : Prop := forall v, ~ word m s v.

(** every key is a name with marks or one of the words *)
Definition known_keys (m : list (name * jval)) : Prop :=
  forall key v, In (key, v) m -> (exists n vt t, plain_name n /\ marks vt t /\ key = n ++ t) \/ exists s, key = system_word s.

(** a list of the names [ns] *)
Definition writes_names (l : list jval) (ns : list name) : Prop :=
  (forall v, In v l -> exists n, v = JString n /\ plain_name n /\ In n ns) /\ (forall n, In n ns -> In (JString n) l).

(** the former names *)
Definition says_old (m : list (name * jval)) (ns : list name) : Prop :=
  (forall v, word m SOld v -> exists l, v = JArray l /\ writes_names l ns) /\ (no_word m SOld -> ns = []).

(** an id: a text, or a natural number written as a double *)
Inductive writes_id : jval -> id_value -> Prop :=
| id_text s : writes_id (JString s) (IdStr s)
| id_number b n : fdec F64 b = FNum false (n * 2 ^ unit_exp) -> 0 <= n < 2 ^ 64 -> writes_id (JDouble b) (IdNum n).
Definition says_id (m : list (name * jval)) (o : option id_value) : Prop :=
  (forall v, word m SID v -> exists i, o = Some i /\ writes_id v i) /\ (no_word m SID -> o = None).

(** a reference: the name of a row, or an empty text *)
Inductive writes_ref : jval -> qv (list Z) -> Prop :=
| ref_text s : plain_name s \/ s = [] -> writes_ref (JString s) (Val s)
| ref_nothing v q : nothing _ v q -> writes_ref v q.

(** the object after [Ref] or [Enum] *)
Definition writes_refs (m : list (name * jval)) (refs : hmap (Z * (qv (list Z) * var_type))) (old : list name) : Prop :=
  known_keys m /\ no_word m SID /\ says_old m old /\
  (forall n vt v, member m n vt v -> exists i q, hget n refs = Some (i, (q, vt)) /\ writes_ref v q) /\
  (forall n x, hget n refs = Some x -> exists vt v, member m n vt v).
Definition says_refs (m : list (name * jval)) (refs : hmap (Z * (qv (list Z) * var_type))) (enum : bool) (old : list name) : Prop :=
  (forall v, word m SRef v \/ word m SEnum v -> exists r, v = JMap r /\ writes_refs r refs old) /\
  (no_word m SRef -> no_word m SEnum -> refs = [] /\ old = []) /\
  (enum = true <-> exists v, word m SEnum v).

(* ------------------------------------------------------------------ *)
(** * Values *)

(** which values are members of the definition of a list *)
Inductive in_def : rvalue -> ldefval def -> Prop :=
| def_param p vt : in_def (VaParam p vt) (DParam p vt)
| def_cil d : in_def (VaCilDef d) (DCil d)
| def_mil d u : in_def (VaMilDef d u) (DMil d u).
(** which values are members of an item of a list *)
Inductive in_item : rvalue -> cval -> Prop :=
| item_param p vt : in_item (VaParam p vt) (VParam p)
| item_cil l : in_item (VaCil l) (VCil l)
| item_mil o : in_item (VaMil o) (VMil o).
(** which values are members of the root *)
Inductive in_root : rvalue -> rootvalue -> option (rootsab mutlist) -> Prop :=
| root_is_param p vt : in_root (VaParam p vt) (WParam p vt) None
| root_is_table d rows old : in_root (VaTable d rows old) (WTable d rows old) None
| root_is_clist d l : in_root (VaCList d l) (WCList d l) None
| root_is_mlist d u o : in_root (VaMList d u o) (WMList d u) (Some (RMut o)).

(** mutable lists are [Normal] or may be undefined *)
Inductive writes_undefiable : var_type -> bool -> Prop :=
| not_undefiable : writes_undefiable Normal false
| is_undefiable : writes_undefiable Undefiable true.

(** the next id: written, or the number of objects *)
Inductive writes_next (objs : list (list (name * jval))) : list jval -> Z -> Prop :=
| next_written n : 0 <= n < 2 ^ 64 -> writes_next objs [tagged_with "NextID" [JInt n]] n
| next_counted : writes_next objs [] (zlen objs).

(** the former names of rows *)
Inductive writes_old : list jval -> list name -> Prop :=
| old_written l ns : writes_names l ns -> writes_old [tagged_with "Old" l] ns
| old_none : writes_old [] [].

(** the value [v] of a member with the marks of [vt] is [r] *)
Inductive says : var_type -> jval -> rvalue -> Prop :=
| says_param vt v p : writes_param v p -> says vt v (VaParam p vt)
| says_table attrs x old d ns objs rows :
    Permutation attrs (JArray x :: old) -> says_default x d -> writes_old old ns ->
    Forall2 (fun m e => says_id m (Some (IdStr (fst e))) /\ says_item m (snd e)) objs rows ->
    says Normal (tagged_with "Table" (attrs ++ map JMap objs)) (VaTable d rows ns)
| says_clist x d objs items :
    says_default x d -> Forall2 (fun m c => says_id m None /\ says_item m c) objs items ->
    says Normal (tagged_with "CList" (JArray x :: map JMap objs)) (VaCList d items)
| says_mlist vt u attrs x next d n objs items :
    writes_undefiable vt u -> Permutation attrs (JArray x :: next) -> says_default x d -> writes_next objs next n ->
    says_items 0 objs items ->
    says vt (tagged_with "MList" (attrs ++ map JMap objs)) (VaMList d u (Some (items, n)))
| says_cil objs items :
    Forall2 (fun m c => says_id m None /\ says_item m c) objs items ->
    says Normal (tagged_with "Cil" (map JMap objs)) (VaCil items)
| says_mil next n objs items :
    writes_next objs next n -> says_items 0 objs items ->
    says Normal (tagged_with "Mil" (next ++ map JMap objs)) (VaMil (Some (items, n)))
| says_mil_undefined vt : says vt (tagged_with "__InnerMutUndefined" []) (VaMil None)
| says_cil_def x d : says_default x d -> says Normal (tagged_with "CilDef" [JArray x]) (VaCilDef d)
| says_mil_def vt u x d : writes_undefiable vt u -> says_default x d -> says vt (tagged_with "MilDef" [JArray x]) (VaMilDef d u)
(** items of a mutable list, from position [i] on: without an id the position is the id *)
with says_items : Z -> list (list (name * jval)) -> list (Z * citem) -> Prop :=
| items_none i : says_items i [] []
| items_more i m objs id c items :
    says_id m (Some (IdNum id)) \/ says_id m None /\ id = i -> says_item m c -> says_items (i + 1) objs items ->
    says_items i (m :: objs) ((id, c) :: items)
(** [["Default", {..}]] or [[{..}]] *)
with says_default : list jval -> def -> Prop :=
| default_word m d : says_def m d -> says_default [JString (txt "Default"); JMap m] d
| default_bare m d : says_def m d -> says_default [JMap m] d
(** the definition of a list: the type and the initial value of each member *)
with says_def : list (name * jval) -> def -> Prop :=
| def_says m d :
    known_keys m -> no_word m SID -> says_old m (ld_old d) -> says_refs m (ld_refs d) (ld_enum d) (ld_ref_old d) ->
    (forall n vt v, member m n vt v -> exists i x r, hget n (ld_members d) = Some (i, x) /\ in_def r x /\ says vt v r) ->
    (forall n x, hget n (ld_members d) = Some x -> exists vt v, member m n vt v) ->
    says_def m (Def d)
(** an item of a list: the values of some members *)
with says_item : list (name * jval) -> citem -> Prop :=
| item_says m c refs enum :
    known_keys m -> says_old m [] -> says_refs m refs enum [] ->
    (forall n, hget n (ci_refs c) = option_map (fun x => fst (snd x)) (hget n refs)) ->
    (forall n vt v, member m n vt v -> exists x r, hget n (ci_values c) = Some x /\ in_item r x /\ says vt v r) ->
    (forall n x, hget n (ci_values c) = Some x -> exists vt v, member m n vt v) ->
    says_item m c.

(** what a value says in the root *)
Definition says_member (vt : var_type) (v : jval) (w : rootvalue) (s : option (rootsab mutlist)) : Prop :=
  exists r, says vt v r /\ in_root r w s.

(** the object of the root file *)
Definition says_root (m : list (name * jval)) (r : root_obj) : Prop :=
  known_keys m /\ no_word m SID /\ says_old m (ro_old r) /\ (exists enum old, says_refs m [] enum old) /\
  (forall n vt v, member m n vt v -> exists i w s, hget n (ro_default r) = Some (i, w) /\ hget n (ro_sabun r) = s /\ says_member vt v w s) /\
  (forall n x, hget n (ro_default r) = Some x -> exists vt v, member m n vt v) /\
  (forall n x, hget n (ro_sabun r) = Some x -> exists vt v, member m n vt v).

(* ------------------------------------------------------------------ *)
(** * Files *)

Section Files.
Variable parse : list Z -> option jval.

(** the file [root.json5] holds the root object; any other file is a member, named like the file *)
Definition file_member (files : smap (list Z)) (n : name) (vt : var_type) (v : jval) : Prop :=
  exists path content t, In (path, content) files /\ plain_name n /\ marks vt t /\ file_stem path = n ++ t /\
    file_stem path <> txt "root" /\ parse content = Some v.

Definition says_files (files : smap (list Z)) (r : root_obj) : Prop :=
  exists path content m,
    (* there is one root file *)
    In (path, content) files /\ file_stem path = txt "root" /\ parse content = Some (JMap m) /\
    (forall path' content', In (path', content') files -> file_stem path' = txt "root" -> path' = path) /\
    (* the other files have names and contents *)
    (forall path' content', In (path', content') files -> path' <> path -> exists n vt v, parse content' = Some v /\ file_member files n vt v /\ exists t, marks vt t /\ file_stem path' = n ++ t) /\
    known_keys m /\ no_word m SID /\ says_old m (ro_old r) /\ (exists enum old, says_refs m [] enum old) /\
    (forall n vt v, member m n vt v \/ file_member files n vt v ->
       exists i w s, hget n (ro_default r) = Some (i, w) /\ hget n (ro_sabun r) = s /\ says_member vt v w s) /\
    (forall n x, hget n (ro_default r) = Some x -> exists vt v, member m n vt v \/ file_member files n vt v) /\
    (forall n x, hget n (ro_sabun r) = Some x -> exists vt v, member m n vt v \/ file_member files n vt v).
End Files.

(* ------------------------------------------------------------------ *)
(** * Tidy sources *)

Definition is_word (s : system_name) (e : name * jval) : Prop := fst e = system_word s.

(** the ids of the rows of a table *)
Definition row_ids (l : list jval) : list (list Z) :=
  flat_map (fun v => match v with JMap m => match hget (txt "ID") m with Some (JString s) => [s] | _ => [] end | _ => [] end) l.

(** In an object no key comes twice, no name comes twice with different marks, there are not
    both [Ref] and [Enum], neither is in the other, and a number after [ID] is natural.  In an array no
    two rows have the same text as their id, the number after [NextID] is natural, and nothing
    follows [__InnerMutUndefined]. *)
Definition tidy_node (v : jval) : Prop :=
  match v with
  | JMap m =>
      NoDup (map fst m) /\ NoDup (member_names m) /\ (no_word m SRef \/ no_word m SEnum) /\
      (forall r, word m SRef (JMap r) \/ word m SEnum (JMap r) -> no_word r SRef /\ no_word r SEnum) /\
      (forall b, word m SID (JDouble b) -> exists n, 0 <= n < 2 ^ 64 /\ fdec F64 b = FNum false (n * 2 ^ unit_exp))
  | JArray l =>
      NoDup (row_ids l) /\ (forall n, l = [JString (txt "NextID"); JInt n] -> 0 <= n < 2 ^ 64) /\
      (forall r, l = JString (txt "__InnerMutUndefined") :: r -> r = [])
  | _ => True
  end.
Definition tidy (v : jval) : Prop := everywhere tidy_node v.
