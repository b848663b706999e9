(** Model of what a running process keeps about sources: the three static maps of dochy_fs,
    and a process that runs while sources change.  Citations are relative to
    /repo/dochy_fs/src/imp. *)
From Verif Require Import Base StringCompactionModel FileNameModel DocModel PhaseModel TreeModel HistModel RemoveModel FolderModel.

(** A path as it is compared by [PathBuf]: its components, joined. *)
Definition path : Type := list Z.

(** common/current_src/current_src.rs L10-14 *)
Inductive current_src : Type := SrcDir (p : path) | ArchiveFile (p : path).
(** L10 the derived [PartialEq] *)
Definition eqb_src (a b : current_src) : bool :=
  match a, b with
  | SrcDir p, SrcDir q | ArchiveFile p, ArchiveFile q => eqb_bytes p q
  | _, _ => false
  end.

Section Sources.
Context {doc V opt : Type}.
(** [V]: what can lie at the path of a source, nothing among it.
    common/current_src/current_src_map.rs L27-36 create_root_and_hash *)
Variable read : current_src -> V -> res (doc * Z).
(** common/current_src/current_src.rs L25-37 create_archive *)
Variable pack : current_src -> V -> archive.
(** history/algo/history_options.rs L98 the derived [PartialEq] *)
Variable eqb_opt : opt -> opt -> bool.
Variable mkdiff : doc -> doc -> res (list Z).

(** common/current_src/current_src_info.rs L5-9 *)
Record src_info : Type := SrcInfo { si_src : current_src; si_root : doc; si_hash : Z }.
(** filesys/save_dir_info.rs L8-13 *)
Record dir_info : Type := DirInfo { di_dir : path; di_src : current_src; di_hash : Z; di_root : doc }.
(** history/current_root_obj_info/history_cache_item.rs L26-32 PeekableCacheInfo, without the
    counter *)
Record hist_info : Type := HistInfo { hi_src : current_src; hi_hash : Z; hi_opt : opt; hi_root : doc }.

(** A process: the maps of common/current_src/current_src_map.rs L11-13,
    filesys/save_cache_map.rs L13-15 and history/current_root_obj_info/history_cache_map.rs
    L17-19, each with the mark that a thread panicked while it held the lock of the map
    (then [lock().unwrap()] panics). *)
Record process : Type := Process {
  pr_srcs : list (current_src * src_info); pr_srcs_poisoned : bool;
  pr_dirs : list (path * dir_info); pr_dirs_poisoned : bool;
  pr_hists : list (path * hist_info); pr_hists_poisoned : bool }.
Definition started : process := Process [] false [] false [] false.

(** what lies at the paths of sources *)
Definition disk : Type := current_src -> V.

Fixpoint find_src {A} (s : current_src) (l : list (current_src * A)) : option A :=
  match l with [] => None | (k, a) :: r => if eqb_src k s then Some a else find_src s r end.
Fixpoint find_path {A} (p : path) (l : list (path * A)) : option A :=
  match l with [] => None | (k, a) :: r => if eqb_bytes k p then Some a else find_path p r end.

(** common/current_src/current_src_map.rs L15-24 get_current_src_info *)
Definition get_current_src_info (d : disk) (s : current_src) (p : process) : res src_info * process :=
  if pr_srcs_poisoned p then (Panic, p) else
  match find_src s (pr_srcs p) with
  | Some i => (Ok i, p)
  | None =>
      match read s (d s) with
      | Ok (root, hash) =>
          let i := SrcInfo s root hash in
          (Ok i, Process ((s, i) :: pr_srcs p) false (pr_dirs p) (pr_dirs_poisoned p) (pr_hists p) (pr_hists_poisoned p))
      | Err => (Err, p)
      | Panic => (Panic, Process (pr_srcs p) true (pr_dirs p) (pr_dirs_poisoned p) (pr_hists p) (pr_hists_poisoned p))
      end
  end.

(** filesys/save_cache_map.rs L36-39, L44-51: making the info of a folder and putting it into
    the map; its lock is held *)
Definition put_dir_info (d : disk) (dir : path) (s : current_src) (p : process) : res dir_info * process :=
  match get_current_src_info d s p with
  | (Ok i, p) =>
      let j := DirInfo dir (si_src i) (si_hash i) (si_root i) in
      (Ok j, Process (pr_srcs p) (pr_srcs_poisoned p) ((dir, j) :: pr_dirs p) false (pr_hists p) (pr_hists_poisoned p))
  | (Err, p) => (Err, p)
  | (Panic, p) => (Panic, Process (pr_srcs p) (pr_srcs_poisoned p) (pr_dirs p) true (pr_hists p) (pr_hists_poisoned p))
  end.

(** filesys/save_cache_map.rs L17-27 cache_and_get_info, filesys/save_dir_info.rs L24-26 create *)
Definition create_info (d : disk) (dir : path) (s : current_src) (p : process) : res dir_info * process :=
  if pr_dirs_poisoned p then (Panic, p) else
  match find_path dir (pr_dirs p) with
  | Some j => (Ok j, p)
  | None => put_dir_info d dir s p
  end.

(** filesys/save_cache_map.rs L32-41 force_update_and_get_info_us *)
Definition force_info (d : disk) (dir : path) (s : current_src) (p : process) : res dir_info * process :=
  if pr_dirs_poisoned p then (Panic, p) else put_dir_info d dir s p.

(** history/current_root_obj_info/history_cache_map.rs L45-64 init_dochy_cache_impl, with
    history/diff_and_cache/dochy_cache.rs L32-41; the answer holds the path only *)
Definition put_hist_info (d : disk) (dir : path) (s : current_src) (o : opt) (p : process) : res path * process :=
  match get_current_src_info d s p with
  | (Ok i, p) =>
      (Ok dir, Process (pr_srcs p) (pr_srcs_poisoned p) (pr_dirs p) (pr_dirs_poisoned p) ((dir, HistInfo s (si_hash i) o (si_root i)) :: pr_hists p) false)
  | (Err, p) => (Err, p)
  | (Panic, p) => (Panic, Process (pr_srcs p) (pr_srcs_poisoned p) (pr_dirs p) (pr_dirs_poisoned p) (pr_hists p) true)
  end.

(** history_cache_map.rs L21-33 init_dochy_cache, history/history_info.rs L18-24 create *)
Definition create_hist (d : disk) (dir : path) (s : current_src) (o : opt) (p : process) : res path * process :=
  if pr_hists_poisoned p then (Panic, p) else
  match find_path dir (pr_hists p) with
  | Some j => if negb (eqb_src (hi_src j) s) then (Err, p) else if negb (eqb_opt (hi_opt j) o) then (Err, p) else (Ok dir, p)
  | None => put_hist_info d dir s o p
  end.

(** history_cache_map.rs L38-43 init_dochy_cache_us *)
Definition force_hist (d : disk) (dir : path) (s : current_src) (o : opt) (p : process) : res path * process :=
  if pr_hists_poisoned p then (Panic, p) else put_hist_info d dir s o p.

(** history_cache_map.rs L67-74 get_map_item with [unwrap] *)
Definition peek (dir : path) (p : process) : res hist_info :=
  if pr_hists_poisoned p then Panic else match find_path dir (pr_hists p) with Some j => Ok j | None => Panic end.

(* ------------------------------------------------------------------ *)
(** * Saving *)

(** filesys/save_dochy_file.rs L12-30 with the info of filesys/save_cache_map.rs L53-62: that of
    the folder, whatever info is given; [fs] is the folder *)
Definition save_in (now : systime) (d : disk) (dir : path) (name : list Z) (x : doc) (overwrite : bool) (p : process) (fs : project) : res unit * project :=
  if pr_dirs_poisoned p then (Panic, fs) else
  match find_path dir (pr_dirs p) with
  | None => (Panic, fs)
  | Some j => save_dochy_file doc mkdiff now (Source (di_hash j) (di_root j) (pack (di_src j) (d (di_src j)))) name x overwrite fs
  end.

(** history/pub_fn/save_history_file.rs L80-92: preparing the folder of the source version; what
    is saved into it after that is modelled in HistModel *)
Definition prepare_in (now : systime) (d : disk) (dir : path) (p : process) (fs : project) : res unit * project :=
  match peek dir p with
  | Ok j => prepare_hash_dir now (pack (hi_src j) (d (hi_src j))) (hi_hash j) fs
  | Err => (Err, fs)
  | Panic => (Panic, fs)
  end.

(* ------------------------------------------------------------------ *)
(** * Sessions *)

(** Paths that are spelled differently may lead to one folder of the file system. *)
Variable place : path -> Z.

Record state : Type := State { st_disk : disk; st_proc : process; st_projects : Z -> project }.

Definition set_project (k : Z) (fs : project) (f : Z -> project) : Z -> project := fun i => if i =? k then fs else f i.

(** what can happen: a source is edited, the process is started again, or it calls a function *)
Inductive event : Type :=
| Edit (d : disk)
| Restart
| Create (dir : path) (s : current_src)
| Force (dir : path) (s : current_src)
| CreateHist (dir : path) (s : current_src) (o : opt)
| ForceHist (dir : path) (s : current_src) (o : opt)
| Save (now : systime) (dir : path) (name : list Z) (x : doc) (overwrite : bool)
| Prepare (now : systime) (dir : path).

Definition happen (e : event) (s : state) : state :=
  let 'State d p f := s in
  match e with
  | Edit d' => State d' p f
  | Restart => State d started f
  | Create dir src => State d (snd (create_info d dir src p)) f
  | Force dir src => State d (snd (force_info d dir src p)) f
  | CreateHist dir src o => State d (snd (create_hist d dir src o p)) f
  | ForceHist dir src o => State d (snd (force_hist d dir src o p)) f
  | Save now dir name x ow => State d p (set_project (place dir) (snd (save_in now d dir name x ow p (f (place dir)))) f)
  | Prepare now dir => State d p (set_project (place dir) (snd (prepare_in now d dir p (f (place dir)))) f)
  end.

Fixpoint session (es : list event) (s : state) : state :=
  match es with [] => s | e :: r => session r (happen e s) end.

End Sources.
