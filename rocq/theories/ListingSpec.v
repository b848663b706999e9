(** What C56 speaks about. *)
From Coq Require Import Permutation Sorted.
From Verif Require Import Base FileNameModel DocModel RemoveModel FolderModel ListingModel.

(** [e] is a folder of the source version [hash], and [content] what the system gives for it *)
Definition version_folder (e : entry) (hash : Z) (content : option (list (option inner))) : Prop :=
  0 <= hash < 2 ^ 128 /\ e = Some (hash_to_folder_name hash, TFolder content).
(** the folder cannot be entered, or it is not known what the entry is *)
Definition fails (e : entry) : Prop := e = None \/ (exists name, e = Some (name, TOdd)) \/ exists hash, version_folder e hash None.
Definition opens (e : entry) : Prop := exists hash d, version_folder e hash (Some d).
(** a file, or a folder whose name is no hash *)
Definition foreign (e : entry) : Prop := exists name t, e = Some (name, t) /\ (t = TOther \/ (exists c, t = TFolder c) /\ folder_name_to_hash name = Ok None).
(** a folder whose name ends the program (C23) *)
Definition crashing (e : entry) : Prop := exists name c, e = Some (name, TFolder c) /\ folder_name_to_hash name = Panic.

(** an entry of a folder, unless it is reserved or nothing is known of it *)
Definition shown (hash : Z) (e : option inner) : list file_data :=
  match e with
  | Some (Inner name _ (Some m)) => if is_reserved name then [] else [FileData hash (me_modified m) name (me_len m)]
  | _ => []
  end.
(** [v] is what the folders of [l] have to show, in the order of [l] *)
Inductive collected : list entry -> list file_data -> Prop :=
| col_nil : collected [] []
| col_folder e hash d l v : version_folder e hash (Some d) -> collected l v -> collected (e :: l) (flat_map (shown hash) d ++ v)
| col_other e l v : fails e \/ foreign e -> collected l v -> collected (e :: l) v.

Definition time_le (a b : systime) : Prop := fst a < fst b \/ fst a = fst b /\ snd a <= snd b.
Definition by_time (a b : file_data) : Prop := time_le (fd_modified a) (fd_modified b).
Definition at_time (t : systime) (x : file_data) : bool := (fst (fd_modified x) =? fst t) && (snd (fd_modified x) =? snd t).
(** [r] is [v] in the order of time; files of one time keep their order *)
Definition ordered (v r : list file_data) : Prop := StronglySorted by_time r /\ Permutation v r /\ forall t, filter (at_time t) r = filter (at_time t) v.

(** [l] lists the project [fs]: its folders and the files in them, in some order, and other
    entries of the project folder *)
Definition lists_folder (f : Z * hmap (list Z)) (e : entry) : Prop :=
  exists d, version_folder e (fst f) (Some d) /\
    exists files, Permutation d (map Some files) /\ map in_name files = map fst (snd f) /\ Forall (fun i => in_meta i <> None) files.
Definition lists (fs : project) (l : list entry) : Prop :=
  exists own others, Permutation l (own ++ others) /\ Forall2 lists_folder fs own /\ Forall foreign others.
