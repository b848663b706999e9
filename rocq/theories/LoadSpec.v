(** Conditions on source files and on loaded items for C42 and C52. *)
From Coq Require Import String.
From Verif Require Import Base FloatModel CompactionSpec StringCompactionModel DocModel ArchiveModel JsonModel JsonSpec.

(** the condition [P] holds for a value and everything in it *)
Inductive everywhere (P : jval -> Prop) : jval -> Prop :=
| everywhere_in v : P v -> (forall l x, v = JArray l -> In x l -> everywhere P x) ->
    (forall m key x, v = JMap m -> In (key, x) m -> everywhere P x) -> everywhere P v.

(** the values the Rust types admit; an element of an array has at least 16 bytes *)
Definition rust_node (v : jval) : Prop :=
  match v with
  | JInt i => i64_range i
  | JDouble b => u64_range b
  | JString s => rust_string (2 ^ 63) s
  | JArray l => 16 * zlen l < 2 ^ 63
  | JMap m => 16 * zlen m < 2 ^ 63
  | _ => True
  end.

(** The ids of the objects in an array: the number after [ID], or else the position. *)
Definition item_id (i : Z) (m : list (name * jval)) : Z :=
  match hget (txt "ID") m with Some (JDouble b) => to_uint 64 (fdec F64 b) | _ => i end.
Fixpoint item_ids (i : Z) (l : list jval) : list Z :=
  match l with [] => [] | JMap m :: r => item_id i m :: item_ids (i + 1) r | _ :: r => item_ids i r end.

(** The number after [NextID], or else how many objects there are *)
Fixpoint written_next (l : list jval) : option Z :=
  match l with
  | [] => None
  | JArray [JString s; JInt n] :: r => if eqb_bytes s (txt "NextID") then Some (to_unsigned 64 n) else written_next r
  | _ :: r => written_next r
  end.
Definition next_of (l : list jval) : Z :=
  match written_next l with Some n => n | None => zlen (item_ids 0 l) end.

(** no two objects of an array have the same id *)
Definition unique_node (v : jval) : Prop := match v with JArray l => NoDup (item_ids 0 l) | _ => True end.
(** all ids are below the next one *)
Definition counted_node (v : jval) : Prop := match v with JArray l => Forall (fun id => id < next_of l) (item_ids 0 l) | _ => True end.

(** all files of a source satisfy a condition *)
Definition all_files (P : jval -> Prop) (parse : list Z -> option jval) (files : smap (list Z)) : Prop :=
  forall path content v, In (path, content) files -> parse content = Some v -> P v.

(* ------------------------------------------------------------------ *)
(** * Loaded items *)

Section Sound.
Variable PP : param -> Prop.
Variable PR : qv (list Z) -> Prop.
Variable QL : list Z -> Z -> Prop.
Variable few : Z -> Prop.

(** parameters satisfy [PP], references [PR], the ids and the next id of mutable lists [QL];
    no name comes twice *)
Inductive item_sound : citem -> Prop :=
| item_is_sound c :
    NoDup (map fst (ci_values c)) -> NoDup (map fst (ci_refs c)) ->
    (forall key p, In (key, VParam p) (ci_values c) -> PP p) ->
    (forall key q, In (key, q) (ci_refs c) -> PR q) ->
    (forall key l c1, In (key, VCil l) (ci_values c) -> In c1 l -> item_sound c1) ->
    (forall key l next, In (key, VMil (Some (l, next))) (ci_values c) -> QL (map fst l) next) ->
    (forall key l next id c1, In (key, VMil (Some (l, next))) (ci_values c) -> In (id, c1) l -> item_sound c1) ->
    item_sound c.

(** the numbers of members and references satisfy [few] *)
Inductive def_few : def -> Prop :=
| def_is_few d : few (zlen (ld_members d)) -> few (zlen (ld_refs d)) ->
    (forall key id d', In (key, (id, DCil d')) (ld_members d) -> def_few d') ->
    (forall key id d' u, In (key, (id, DMil d' u)) (ld_members d) -> def_few d') ->
    def_few (Def d).

Definition mut_sound (o : option mutlist) : Prop :=
  match o with
  | Some (l, next) => QL (map fst l) next /\ forall id c, In (id, c) l -> item_sound c
  | None => True
  end.

Definition rootvalue_sound (v : rootvalue) : Prop :=
  match v with
  | WParam p _ => PP p
  | WTable d rows _ => def_few d /\ forall i c, In (i, c) rows -> item_sound c
  | WCList d l => def_few d /\ forall c, In c l -> item_sound c
  | WMList d _ => def_few d
  end.
Definition rootsab_sound (s : rootsab mutlist) : Prop := match s with RParam _ => False | RMut o => mut_sound o end.
End Sound.
