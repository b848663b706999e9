(** Model of a process that stops while it saves a history file.  Citations are
    relative to /repo/dochy_fs/src/imp/history, in the last part to
    /repo/dochy_fs/src/imp. *)
From Verif Require Import Base CompactionModel FileNameModel DocModel PhaseModel TreeModel HistModel RemoveModel FolderModel.

Section Crash.
Variable doc : Type.
Variable mkdiff : doc -> doc -> res (list Z).
Variable appdiff : doc -> list Z -> res doc.
Variable src : doc.
Variable op : options.
Notation M := (M doc).
Notation "x <~ m ; k" := (bindM doc m (fun x => k)) (at level 60, m at next level, right associativity, only parsing).
Notation "' p <~ m ; k" := (bindM doc m (fun y => match y with p => k end))
  (at level 60, p pattern, m at next level, right associativity, only parsing).
Notation ret := (ret doc).

(** fs/write_phase_file.rs L6-13 in a process that stops after [k] bytes: the file
    is created empty (L8), and written from its start (L9, L11).  [Panic] stands
    for the stop: nothing is done after it. *)
Definition write_until (k : nat) (data : pdata) (path : list Z) (diff : list Z) : M unit := fun s =>
  let content := match encode (encode_pdata data) with Ok header => header ++ diff | _ => [] end in
  (Panic, St doc (hset path (firstn k content) (s_dir doc s)) (s_cache doc s) (s_cur doc s)).

(** The functions of HistModel that write, with the writing as a parameter. *)
Section With.
Variable write : pdata -> list Z -> list Z -> M unit.

(** fs/derive_impl.rs L15-64 *)
Definition derive_with (greater : Z -> Z -> Z -> Z -> bool) (tag : option (list Z)) (d : doc) (h : tree) (from : props) : M props :=
  match get_newest h with
  | None => ret Err
  | Some np =>
      next_ctl <~ ret (if props_eqb np from then Ok (p_control np) else u32_inc (p_control np)) ;
      content <~ (fun s => (open (s_dir doc s) (filename from), s)) ;
      '(decoded, _, _) <~ ret (decode content) ;
      data <~ ret (decode_pdata decoded) ;
      next_phase <~ ret (calc_next_phase greater data op) ;
      ancestors <~ ret (create_ancestors h from (max_phase op) (is_cumulative op)) ;
      '(deps, next_props) <~ ret (create_dependencies ancestors next_phase next_ctl tag (max_phase op) (is_cumulative op)) ;
      composed <~ apply_items_for_save doc appdiff src op (map filename deps) ;
      diff <~ ret (mkdiff composed d) ;
      data <~ ret (pop_and_push data next_phase (zlen diff)) ;
      _ <~ write data (filename next_props) diff ;
      _ <~ set_cache doc (filename next_props) d next_phase ;
      ret (Ok next_props)
  end.

(** fs/write_phase_0.rs L12-35 *)
Definition write_phase_0_with (tag : option (list Z)) (control : Z) (d : doc) : M props :=
  let file_name := calc_filename tag control None [0] in
  initial <~ apply_items_for_save doc appdiff src op [] ;
  diff <~ ret (mkdiff initial d) ;
  _ <~ write (pdata_new (zlen diff)) file_name diff ;
  _ <~ set_cache doc file_name d 0 ;
  p <~ ret (analyze_file_name file_name) ;
  ret (ok_or p).

(** fs/start_new.rs L14-40 *)
Definition start_with (tag : option (list Z)) (d : doc) : M props := fun s =>
  match create_file_history (map fst (s_dir doc s)) with
  | Ok h => match get_newest h with
            | Some p => (ctl <~ ret (u32_inc (p_control p)) ; write_phase_0_with tag ctl d) s
            | None => write_phase_0_with tag 0 d s
            end
  | Err => (Err, s)
  | Panic => (Panic, s)
  end.

(** pub_fn/save_history_file.rs L78-116 *)
Definition save_with (greater : Z -> Z -> Z -> Z -> bool) (tag : option (list Z)) (id : Z) (d : doc) : M props :=
  let fresh := saved <~ start_with tag d ; _ <~ set_cur doc id saved ; ret (Ok saved) in
  fun s =>
  match s_cur doc s with
  | Some (cur_id, base) =>
      if id =? cur_id then
        match create_file_history (map fst (s_dir doc s)) with
        | Ok h =>
            match get_newest h with
            | Some newest =>
                (from <~ ret (choose_from op h newest base) ;
                 saved <~ derive_with greater tag d h from ;
                 _ <~ set_cur doc id saved ;
                 ret (Ok saved)) s
            | None => fresh s
            end
        | Err => (Err, s)
        | Panic => (Panic, s)
        end
      else fresh s
  | None => fresh s
  end.
End With.

(** The folder a save leaves if its process stops at some point: before the file is
    created, or after [k] bytes (all of them, if [k] is large). *)
Definition stopped (greater : Z -> Z -> Z -> Z -> bool) (tag : option (list Z)) (id : Z) (d : doc) (s : st doc) (dir : hmap (list Z)) : Prop :=
  dir = s_dir doc s \/ exists k, dir = s_dir doc (snd (save_with (write_until k) greater tag id d s)).

End Crash.

(** * Preparing the folder of a source version *)

(** common/path/prepare_hash_dir.rs L11-31 in a process that stops: before anything
    is done, after the folder is made (L26), after [k] bytes of the file of the time
    (L28), after [k] bytes of the archive (L15-16). *)
Inductive prepare_stopped (now : systime) (a : archive) (hash : Z) (fs : project) : project -> Prop :=
| stop_before : prepare_stopped now a hash fs fs
| stop_folder : get_folder hash fs = None -> prepare_stopped now a hash fs (fs ++ [(hash, [])])
| stop_time k bytes : get_folder hash fs = None -> create_time_dat now = Ok bytes ->
    prepare_stopped now a hash fs (fs ++ [(hash, [(time_name, firstn k bytes)])])
| stop_archive k fs' : make_hash_dir now hash fs = (Ok tt, fs') -> read_at hash archive_name fs' = None ->
    prepare_stopped now a hash fs (write_at hash archive_name (firstn k (a_bytes a)) fs').
