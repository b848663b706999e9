(** What C64 speaks about: where a way leads in the source files themselves. *)
From Coq Require Import String.
From Coq Require Import Sorting.Permutation.
From Verif Require Import Base FloatModel StringCompactionModel DocModel ArchiveModel JsonModel JsonSpec LoadSpec SaysSpec ReadModel.

(** an object of a source *)
Definition obj : Type := list (name * jval).

(** [dx] is the definition [x] of a list *)
Definition default_of (dx : list jval) (x : obj) : Prop := dx = [JString (txt "Default"); JMap x] \/ dx = [JMap x].
(** [l] has the definition [x] and the objects [objs] *)
Definition list_of (l : list jval) (x : obj) (objs : list obj) : Prop :=
  exists attrs dx, l = map JArray attrs ++ map JMap objs /\ In dx attrs /\ default_of dx x.

(** the number of the object [m] at the position [i] of a list *)
Definition numbered (m : obj) (i : nat) (id : Z) : Prop :=
  (exists b, word m SID (JDouble b) /\ fdec F64 b = FNum false (id * 2 ^ unit_exp)) \/ no_word m SID /\ id = Z.of_nat i.

(** what an object has under [Ref] or [Enum] for the name [key] *)
Definition has_ref (m : obj) (key : name) (v : jval) : Prop :=
  exists rs vt, (word m SRef (JMap rs) \/ word m SEnum (JMap rs)) /\ member rs key vt v.
(** an item of the definition [x] written [m] has the value [v] under [key]: its own, or the
    one of the definition *)
Definition has_value (x m : obj) (key : name) (v : jval) : Prop :=
  (exists vt, member m key vt v) \/ (forall vt v', ~ member m key vt v') /\ exists vt, member x key vt v.
Definition refers (x m : obj) (key : name) (v : jval) : Prop :=
  has_ref m key v \/ (forall v', ~ has_ref m key v') /\ has_ref x key v.

Section Leads.
Variable parse : list Z -> option jval.
Variable files : smap (list Z).

(** a member of the root: in the root file, or a file of its own *)
Definition top (n : name) (vt : var_type) (v : jval) : Prop :=
  (exists path content m, In (path, content) files /\ file_stem path = txt "root" /\ parse content = Some (JMap m) /\ member m n vt v) \/
  file_member parse files n vt v.

(** A way leads to an item with the definition [x], written [m]. *)
Inductive leads : way -> obj -> obj -> Prop :=
| leads_row t id vt l x objs m :
    top t vt (tagged_with "Table" l) -> list_of l x objs -> In m objs -> word m SID (JString id) -> leads (Row t id) x m
| leads_elem t i vt l x objs m :
    top t vt (tagged_with "CList" l) -> list_of l x objs -> nth_error objs i = Some m -> leads (Elem t i) x m
| leads_entry t id vt l x objs i m :
    top t vt (tagged_with "MList" l) -> list_of l x objs -> nth_error objs i = Some m -> numbered m i id -> leads (Entry t id) x m
| leads_cil w x m key vt dx x' vt' objs i m' :
    leads w x m -> member x key vt (tagged_with "CilDef" [JArray dx]) -> default_of dx x' ->
    member m key vt' (tagged_with "Cil" (map JMap objs)) -> nth_error objs i = Some m' -> leads (Cil w key i) x' m'
| leads_mil w x m key vt dx x' vt' attrs objs i id m' :
    leads w x m -> member x key vt (tagged_with "MilDef" [JArray dx]) -> default_of dx x' ->
    member m key vt' (tagged_with "Mil" (map JArray attrs ++ map JMap objs)) -> nth_error objs i = Some m' -> numbered m' i id -> leads (Mil w key id) x' m'
| leads_ref w x m key id x' m' :
    leads w x m -> (exists rs, word x SRef (JMap rs)) -> refers x m key (JString id) -> leads (Row key id) x' m' -> leads (Ref w key) x' m'
| leads_enum w x m key id x' m' :
    leads w x m -> (exists rs, word x SEnum (JMap rs)) -> has_ref m key (JString id) -> leads (Row key id) x' m' -> leads (Enum w key) x' m'.
End Leads.

(** files with different names, whose members have different names, tidy, and with different ids
    in every list *)
Definition clean_source (parse : list Z -> option jval) (files : smap (list Z)) : Prop :=
  NoDup (map fst files) /\ NoDup (source_names parse files) /\ all_files tidy parse files /\ all_files (everywhere unique_node) parse files.
