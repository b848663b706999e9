(** What C44, C45 and C49 speak about: names, numbers of members, the tables that
    translate them, and sets of source files. *)
From Coq Require Import String.
From Coq Require Export Permutation.
From Verif Require Import Base DocModel DiffSpec ArchiveModel JsonModel.

(* ------------------------------------------------------------------ *)
(** * Names *)

Definition lower (c : Z) : Prop := 97 <= c <= 122.
Definition upper (c : Z) : Prop := 65 <= c <= 90.
Definition digit (c : Z) : Prop := 48 <= c <= 57.

(** a small letter, [@] or [_], then letters, digits and [_] *)
Definition plain_name (s : name) : Prop :=
  exists c r, s = c :: r /\ (c = 64 \/ lower c \/ c = 95) /\
    Forall (fun c => lower c \/ upper c \/ digit c \/ c = 95) r.

(** the marks after a name: [?] null is allowed, [!] undefined is allowed *)
Inductive marks : var_type -> list Z -> Prop :=
| marks_none : marks Normal []
| marks_null : marks Nullable [63]
| marks_undefined : marks Undefiable [33]
| marks_both : marks UndefNullable [33; 63]
| marks_both' : marks UndefNullable [63; 33].

Definition system_word (s : system_name) : name :=
  txt match s with SOld => "Old" | SID => "ID" | SRef => "Ref" | SEnum => "Enum" end.

(* ------------------------------------------------------------------ *)
(** * Numbers *)

(** at every level the members, and the references, are numbered 0, 1, 2, ... *)
Inductive well_numbered : def -> Prop :=
| numbers_ok d : numbered (ld_members d) -> numbered (ld_refs d) ->
    (forall key id d', In (key, (id, DCil d')) (ld_members d) -> well_numbered d') ->
    (forall key id d' u, In (key, (id, DMil d' u)) (ld_members d) -> well_numbered d') ->
    well_numbered (Def d).

Definition well_numbered_root (root : hmap (Z * rootvalue)) : Prop :=
  numbered root /\
  forall key id v, In (key, (id, v)) root ->
    match v with
    | WParam _ _ => True
    | WTable d _ _ | WCList d _ | WMList d _ => well_numbered d
    end.

(** The table [m] is that of the definition [d]: the entry with number [id] carries the
    name [key] exactly if the member [key] has the number [id] (constant lists have no
    entry), it tells the type of the member, and so on at every level. *)
Inductive describes : ldefval def -> metaval meta -> Prop :=
| describes_param p vt : describes (DParam p vt) (MParam (type_of p) vt)
| describes_list d m : matches d m -> describes (DMil d false) (MMList m)
| describes_option d m : matches d m -> describes (DMil d true) (MOptMil m)
with matches : def -> meta -> Prop :=
| matches_def d t :
    (forall key id v, hget key (ld_members d) = Some (id, v) -> (forall c, v <> DCil c) ->
       exists mv, meta_get (mt_items t) id = Some (key, mv) /\ describes v mv) ->
    (forall id key mv, meta_get (mt_items t) id = Some (key, mv) ->
       exists v, hget key (ld_members d) = Some (id, v) /\ describes v mv) ->
    (forall id key mv, meta_get (mt_refs t) id = Some (key, mv) <->
       exists q vt, hget key (ld_refs d) = Some (id, (q, vt)) /\ mv = MParam TString vt) ->
    matches (Def d) (Meta t).

(** the same for the root *)
Inductive describes_root : rootvalue -> metaval meta -> Prop :=
| root_param p vt : describes_root (WParam p vt) (MParam (type_of p) vt)
| root_list d m : matches d m -> describes_root (WMList d false) (MMList m)
| root_option d m : matches d m -> describes_root (WMList d true) (MOptMil m).

Definition variable (v : rootvalue) : Prop := match v with WParam _ _ | WMList _ _ => True | _ => False end.

Definition matches_root (root : hmap (Z * rootvalue)) (T : metatable meta) : Prop :=
  (forall key id v, hget key root = Some (id, v) -> variable v ->
     exists mv, meta_get T id = Some (key, mv) /\ describes_root v mv) /\
  (forall id key mv, meta_get T id = Some (key, mv) ->
     exists v, hget key root = Some (id, v) /\ describes_root v mv).

(* ------------------------------------------------------------------ *)
(** * Source files *)

(** the names of the members written in an object, without their marks *)
Definition member_names (m : list (name * jval)) : list name :=
  flat_map (fun e => match json_name (fst e) with Some (NName n _) => [n] | _ => [] end) m.

Section Files.
Variable parse : list Z -> option jval.

Definition is_root (path : list Z) : bool := if list_eq_dec Z.eq_dec (file_stem path) (txt "root") then true else false.

(** the members the files define: those of the root object and one for each other file *)
Definition names_of_file (f : list Z * list Z) : list name :=
  if is_root (fst f)
  then match parse (snd f) with Some (JMap m) => member_names m | _ => [] end
  else match json_name (file_stem (fst f)) with Some (NName n _) => [n] | _ => [] end.
Definition source_names (files : smap (list Z)) : list name := flat_map names_of_file files.
End Files.

(** a hash map is iterated in some order *)
Definition iterates (iter : forall A, hmap A -> hmap A) : Prop := forall A (m : hmap A), Permutation (iter A m) m.
