(** Model of a project folder with a folder for every source version: preparing
    the folder, named document files, and loading a listed history entry.
    Citations are relative to /repo/dochy_fs/src/imp. *)
From Verif Require Import Base StringCompactionModel FileNameModel DocModel PhaseModel TreeModel HistModel RemoveModel.

(** common/path/reserved_filename.rs L4 "src.archive", L7 "created_time.dat" *)
Definition archive_name : list Z := [115; 114; 99; 46; 97; 114; 99; 104; 105; 118; 101].
Definition time_name : list Z := [99; 114; 101; 97; 116; 101; 100; 95; 116; 105; 109; 101; 46; 100; 97; 116].
(** common/path/reserved_filename.rs L9-11 is_reserved_filename *)
Definition is_reserved (name : list Z) : bool := eqb_bytes name archive_name || eqb_bytes name time_name.

(* ------------------------------------------------------------------ *)
(** * Paths *)

(** A project folder ([folders] of RemoveModel): the files of each source version,
    by the hash that names the folder.  Folders inside these, links and other files
    of the project folder are left out.  Names are bytes, as on Unix. *)
Notation project := (folders (list Z)).

(** the parts of a path between slashes *)
Fixpoint components (cur s : list Z) : list (list Z) :=
  match s with
  | [] => [rev cur]
  | c :: r => if c =? 47 then rev cur :: components [] r else components (c :: cur) r
  end.

(** the folder of a name in the project folder, common/path/hash_dir_path.rs L7-10 *)
Definition folder_called {A} (name : list Z) (fs : folders A) : option Z :=
  option_map fst (find (fun e => eqb_bytes (hash_to_folder_name (fst e)) name) fs).

(** How the operating system follows a path, from the folder of a hash ([Some]) or
    the project folder ([None]) to a file of one of the folders.  [None]: the path
    leads nowhere, to a folder or out of the project. *)
Fixpoint walk {A} (fs : folders A) (here : option Z) (l : list (list Z)) : option (Z * list Z) :=
  match l with
  | [] => None
  | c :: r =>
      if eqb_bytes c [] || eqb_bytes c [46] then walk fs here r
      else if eqb_bytes c [46; 46] then match here with Some _ => walk fs None r | None => None end
      else match here with
           | Some hash => match r with [] => Some (hash, c) | _ => None end
           | None => match folder_called c fs with Some hash => walk fs (Some hash) r | None => None end
           end
  end.

(** [hash_dir.join(name)]: an absolute name replaces the folder, and leads out of
    the project; the system refuses names with a zero byte *)
Definition resolve {A} (hash : Z) (name : list Z) (fs : folders A) : option (Z * list Z) :=
  match name with
  | c :: _ => if (c =? 47) || existsb (Z.eqb 0) name then None else walk fs (Some hash) (components [] name)
  | [] => None
  end.

(** reading, writing and removing a file of a folder *)
Definition read_at (hash : Z) (name : list Z) (fs : project) : option (list Z) :=
  match get_folder hash fs with Some dir => hget name dir | None => None end.
Definition write_at (hash : Z) (name content : list Z) (fs : project) : project := in_folder hash (hset name content) fs.
Definition delete_at (hash : Z) (name : list Z) (fs : project) : project := in_folder hash (hdel name) fs.

(* ------------------------------------------------------------------ *)
(** * Preparing a folder: common/path/prepare_hash_dir.rs *)

(** The current source: its hash, and the bytes that common/current_src/current_src.rs
    L25-37 create_archive writes; [a_complete] is false if it then fails (an
    unreadable source file). *)
Record archive : Type := Archive { a_bytes : list Z; a_complete : bool }.

(** L21-31 get_or_make_hash_dir_path; the project folder exists.  [now] is the
    time of the system clock.  A time that cannot be written leaves an empty file. *)
Definition make_hash_dir (now : systime) (hash : Z) (fs : project) : res unit * project :=
  match get_folder hash fs with
  | Some _ => (Ok tt, fs)
  | None =>
      match create_time_dat now with
      | Ok bytes => (Ok tt, fs ++ [(hash, [(time_name, bytes)])])
      | Err => (Err, fs ++ [(hash, [(time_name, [])])])
      | Panic => (Panic, fs ++ [(hash, [(time_name, [])])])
      end
  end.

(** L11-19 prepare_hash_dir *)
Definition prepare_hash_dir (now : systime) (a : archive) (hash : Z) (fs : project) : res unit * project :=
  match make_hash_dir now hash fs with
  | (Ok _, fs) =>
      match read_at hash archive_name fs with
      | Some _ => (Ok tt, fs)
      | None => ((if a_complete a then Ok tt else Err), write_at hash archive_name (a_bytes a) fs)
      end
  | (r, fs) => (r, fs)
  end.

(* ------------------------------------------------------------------ *)
Section Folders.
Variable doc : Type.
(** dochy_diff get_diff and apply_diff, as in HistModel *)
Variable mkdiff : doc -> doc -> res (list Z).
Variable appdiff : doc -> list Z -> res doc.
(** dochy_core archive_file_to_root: the document of an archived source *)
Variable archive_root : list Z -> res doc.
(** dochy_core adjust_versions: [adjust new old] *)
Variable adjust : doc -> doc -> res doc.

(* ------------------------------------------------------------------ *)
(** * Named files: filesys/ *)

(** filesys/save_dir_info.rs L8-13, of the current source *)
Record source : Type := Source { so_hash : Z; so_root : doc; so_archive : archive }.

(** filesys/save_dochy_file.rs L12-30.  The lock of L16 is held throughout. *)
Definition save_dochy_file (now : systime) (cur : source) (name : list Z) (d : doc) (overwrite : bool) (fs : project) : res unit * project :=
  match prepare_hash_dir now (so_archive cur) (so_hash cur) fs with
  | (Ok _, fs) =>
      let target := resolve (so_hash cur) name fs in
      let exists_ := match target with Some (h, f) => match read_at h f fs with Some _ => true | None => false end | None => false end in
      if exists_ && negb overwrite then (Err, fs) else
      match mkdiff (so_root cur) d with
      | Ok diff =>
          match target with
          | Some (h, f) => (Ok tt, write_at h f diff fs)
          | None => (Err, fs)
          end
      | Err => (Err, fs)
      | Panic => (Panic, fs)
      end
  | (Err, fs) => (Err, fs)
  | (Panic, fs) => (Panic, fs)
  end.

(** filesys/load_dochy_file.rs L11-39, for the file [name] of the folder of
    [hash]: the name of the folder is read back to its hash (C23) *)
Definition load_dochy_file (cur : source) (hash : Z) (name : list Z) (fs : project) : res doc :=
  root <- (if so_hash cur =? hash then Ok (so_root cur)
           else bytes <- ok_or (read_at hash archive_name fs) ; archive_root bytes) ;
  content <- ok_or (read_at hash name fs) ;
  root <- appdiff root content ;
  if so_hash cur =? hash then Ok root else adjust (so_root cur) root.

(** filesys/remove_dochy_file.rs L7-15 *)
Definition remove_dochy_file (hash : Z) (name : list Z) (fs : project) : res unit * project :=
  if is_reserved name then (Err, fs) else
  match resolve hash name fs with
  | Some (h, f) => match read_at h f fs with Some _ => (Ok tt, delete_at h f fs) | None => (Err, fs) end
  | None => (Err, fs)
  end.

(* ------------------------------------------------------------------ *)
(** * Loading a listed history entry: history/pub_fn/load_history_file.rs *)

Variable op : options.

(** The state of a process: the project folder and what the lock protects. *)
Record pst : Type := Pst { ps_project : project; ps_cache : btree (list Z * doc); ps_cur : option (Z * props) }.

(** the folder of a hash, empty if there is none: no file of it can be opened *)
Definition files_of (hash : Z) (fs : project) : hmap (list Z) := match get_folder hash fs with Some dir => dir | None => [] end.

(** L36-57 load_impl.  The paths of the cache lie in the folder of the current
    source, so in the other branch no path is found in it. *)
Definition load_impl (cur : source) (hash : Z) (p : props) (h : tree) (s : pst) : res doc :=
  if negb (so_hash cur =? hash) then
    bytes <- ok_or (read_at hash archive_name (ps_project s)) ;
    root <- archive_root bytes ;
    loaded <- fst (load doc appdiff root op (filename p) h (St doc (files_of hash (ps_project s)) [] None)) ;
    adjust (so_root cur) loaded
  else fst (load doc appdiff (so_root cur) op (filename p) h (St doc (files_of hash (ps_project s)) (ps_cache s) (ps_cur s))).

(** L16-34 load_history_file; [id]: the loaded object *)
Definition load_entry (cur : source) (id : Z) (p : props) (h : tree) (s : pst) : res doc * pst :=
  match load_impl cur (so_hash cur) p h s with
  | Ok d => (Ok d, Pst (ps_project s) (ps_cache s) (Some (id, p)))
  | Err => (Err, s)
  | Panic => (Panic, s)
  end.

(** L59-63 load_history_file_data; history/file_hist/history_file_data.rs L8-12:
    the hash of the folder, its history and the file *)
Definition load_history_file_data (cur : source) (id : Z) (data : Z * tree * props) (s : pst) : res doc * pst :=
  let '(_, h, p) := data in load_entry cur id p h s.

(** history/pub_fn/list_histories.rs L8-21 and history/file_hist/file_histories.rs
    L19-25: the entries of the folders, in the order given by [order] (the
    creation times); folders that cannot be listed are skipped *)
Definition list_entries (order : list Z) (fs : project) : res (list (Z * tree * props)) :=
  fold_right (fun hash rest =>
    rest <- rest ;
    match create_file_history (map fst (files_of hash fs)) with
    | Ok h => Ok (map (fun p => (hash, h, p)) (list_files h) ++ rest)
    | Err => Ok rest
    | Panic => Panic
    end) (Ok []) order.

End Folders.
Arguments Source {doc}.
Arguments so_hash {doc}.
Arguments so_root {doc}.
Arguments so_archive {doc}.
Arguments Pst {doc}.
Arguments ps_project {doc}.
Arguments ps_cache {doc}.
Arguments ps_cur {doc}.
