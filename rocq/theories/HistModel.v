(** Model of saving and loading history files.  Citations are relative to
    /repo/dochy_fs/src/imp/history.

    The document, the difference of two documents and its application are
    parameters: diff_and_cache/diff_src.rs L4-7 is a trait.  A folder is the list
    of its files; the path of a file is its name, so names with a path separator
    in the tag are not covered.  Errors of the operating system other than a
    missing file are not modelled. *)
From Verif Require Import Base CompactionModel StringCompactionModel FileNameModel DocModel PhaseModel TreeModel.

(** file_name/file_name_props.rs L7: derived equality *)
Definition props_dec (p q : props) : {p = q} + {p <> q}.
Proof. repeat decide equality. Defined.
Definition props_eqb (p q : props) : bool := if props_dec p q then true else false.

(** u32 addition of a debug build *)
Definition u32_inc (n : Z) : res Z := if n + 1 <? 2 ^ 32 then Ok (n + 1) else Panic.

(* ------------------------------------------------------------------ *)
(** * Ancestors: file_hist/ancestors.rs *)

(** L107-125: the siblings before a file of the last phase, nearest first, and
    the file the loop ends with *)
Fixpoint siblings (h : tree) (base : list Z) (n : nat) (p : props) : res (list props * props) :=
  match n with
  | O => Ok ([], p)
  | S ind =>
      match get_props h (p_prev p) (base ++ [Z.of_nat ind]) with
      | Some q => '(l, r) <- siblings h base ind q ; Ok (q :: l, r)
      | None => Err
      end
  end.

(** L127-138: the loop to the first phase.  The order of a parent is shorter, so
    the fuel does not run out. *)
Fixpoint parents (fuel : nat) (h : tree) (p : props) : res (list props) :=
  if (2 <=? length (p_order p))%nat then
    match fuel with
    | O => Panic
    | S f => match get_parent h p with
             | Some q => l <- parents f h q ; Ok (q :: l)
             | None => Err
             end
    end
  else Ok [].

(** L94-141 create_ancestors_rev *)
Definition create_ancestors_rev (h : tree) (p : props) (max_phase : nat) (cumulative : bool) : res (list props) :=
  match p_order p with
  | [] => Ok [p]
  | _ =>
      '(l, q) <- (if (phase p =? max_phase)%nat && cumulative
                  then siblings h (order_base p) (Z.to_nat (order_last p)) p else Ok ([], p)) ;
      l' <- parents (length (p_order q)) h q ;
      Ok (p :: l ++ l')
  end.

(** L44-51 create_ancestors *)
Definition create_ancestors (h : tree) (p : props) (max_phase : nat) (cumulative : bool) : res (list props) :=
  l <- create_ancestors_rev h p max_phase cumulative ; Ok (rev l).

(** [*order.last_mut().unwrap() += 1] *)
Definition inc_last (order : list Z) : res (list Z) :=
  n <- u32_inc (last order 0) ; Ok (removelast order ++ [n]).

(** L54-91 create_dependencies *)
Definition create_dependencies (ancestors : list props) (next_phase : nat) (ctl : Z) (tag : option (list Z))
  (max_phase : nat) (cumulative : bool) : res (list props * props) :=
  match ancestors with
  | [] => Err
  | a :: _ =>
      let last_prop := last ancestors a in
      let order := p_order last_prop in
      '(order, prev_ctl) <-
        (if (length order - 1 <? max_phase)%nat then Ok (order ++ [0], p_control last_prop)
         else if (next_phase =? max_phase)%nat then order <- inc_last order ; Ok (order, p_control last_prop)
         else if (S next_phase <=? length order)%nat then
           order <- inc_last (firstn (S next_phase) order) ;
           match nth_error ancestors next_phase with
           | Some q => Ok (order, p_prev q)
           | None => Panic
           end
         else Panic) ;
      p <- ok_or (props_new ctl prev_ctl order tag) ;
      if (next_phase =? max_phase)%nat && cumulative then Ok (ancestors, p)
      else if (next_phase <=? length ancestors)%nat then Ok (firstn next_phase ancestors, p)
      else Err
  end.

(* ------------------------------------------------------------------ *)
Section History.
Variable doc : Type.
(** dochy_diff get_diff and apply_diff: [mkdiff from to], [appdiff from bytes] *)
Variable mkdiff : doc -> doc -> res (list Z).
Variable appdiff : doc -> list Z -> res doc.
(** the document of the source, diff_and_cache/dochy_cache.rs L15 *)
Variable src : doc.
Variable op : options.

(** diff_and_cache/dochy_cache.rs L18: file and document by phase *)
Notation cache := (btree (list Z * doc)).

(** The folder, the cache, and the base file of the document last saved or loaded
    (current_root_obj_info/current_root_obj_info.rs L5-8; a [Weak] is the number
    of the object it points to). *)
Record st : Type := St { s_dir : hmap (list Z); s_cache : cache; s_cur : option (Z * props) }.

(** An operation gives a result and the state it leaves, also when it fails. *)
Definition M (A : Type) : Type := st -> res A * st.
Definition ret {A} (r : res A) : M A := fun s => (r, s).
Definition bindM {A B} (m : M A) (f : A -> M B) : M B :=
  fun s => match m s with
           | (Ok a, s') => f a s'
           | (Err, s') => (Err, s')
           | (Panic, s') => (Panic, s')
           end.
Notation "x <~ m ; k" := (bindM m (fun x => k)) (at level 60, m at next level, right associativity, only parsing).
Notation "' p <~ m ; k" := (bindM m (fun y => match y with p => k end))
  (at level 60, p pattern, m at next level, right associativity, only parsing).

(* ------------------------------------------------------------------ *)
(** * Reading files *)

(** [File::open] *)
Definition open (dir : hmap (list Z)) (path : list Z) : res (list Z) := ok_or (hget path dir).

(** diff_and_cache/open_diff_file_without_metadata.rs L6-12 *)
Definition open_diff_file (dir : hmap (list Z)) (path : list Z) : res (list Z) :=
  content <- open dir path ;
  '(_, _, rest) <- decode content ;
  Ok rest.

(** one turn of the loop of ../common/apply_items.rs L10-20 apply_items_st; the
    multi-threaded variant (L23-68) is treated in ApplyModel *)
Definition apply_item (dir : hmap (list Z)) (root : doc) (path : list Z) : res doc :=
  rest <- open_diff_file dir path ; appdiff root rest.

Fixpoint apply_items (dir : hmap (list Z)) (root : doc) (paths : list (list Z)) : res doc :=
  match paths with
  | [] => Ok root
  | p :: r => root <- apply_item dir root p ; apply_items dir root r
  end.

(* ------------------------------------------------------------------ *)
(** * The cache: diff_and_cache/dochy_cache.rs *)

(** L101-113: the loop takes the entries off the end of an ordered map *)
Definition remove_upper_phase_cache (c : cache) (phase : nat) : cache :=
  filter (fun e => fst e <? Z.of_nat phase) c.

(** the loop of L142-148 *)
Fixpoint scan_cache (c : cache) (vec : list (list Z)) (i : nat) : option Z :=
  match i with
  | O => None
  | S i =>
      match bt_get (Z.of_nat i) c, nth_error vec i with
      | Some (path, _), Some p => if eqb_bytes path p then Some (Z.of_nat i) else scan_cache c vec i
      | _, _ => scan_cache c vec i
      end
  end.

(** L133-150 get_phase_cache *)
Definition get_phase_cache (c : cache) (vec : list (list Z)) : option Z :=
  match bt_last c, rev vec with
  | Some (index, (path, _)), last_path :: _ =>
      if eqb_bytes path last_path then Some index else scan_cache c vec (max_phase op)
  | _, _ => None
  end.

(** L115-131 get_cached_item *)
Definition get_cached_item (root : doc) (c : cache) (paths : list (list Z)) : res (doc * list (list Z)) :=
  match get_phase_cache c paths with
  | Some index =>
      match bt_get index c with
      | None => Panic
      | Some (_, root) => Ok (root, if index =? Z.of_nat (max_phase op) then [] else skipn (S (Z.to_nat index)) paths)
      end
  | None => Ok (root, paths)
  end.

(** L61-72: applying the files with [cache_func]; [i] is [current_index] *)
Fixpoint apply_caching (root : doc) (i : nat) (paths : list (list Z)) : M doc :=
  match paths with
  | [] => ret (Ok root)
  | p :: r => fun s =>
      match apply_item (s_dir s) root p with
      | Ok root =>
          if (i <? max_phase op)%nat
          then apply_caching root (S i) r (St (s_dir s) (bt_insert (Z.of_nat i) (p, root) (s_cache s)) (s_cur s))
          else apply_caching root i r s
      | Err => (Err, s)
      | Panic => (Panic, s)
      end
  end.

(** L50-78 apply_items_for_save *)
Definition apply_items_for_save (paths : list (list Z)) : M doc := fun s =>
  match get_cached_item src (s_cache s) paths with
  | Ok (root, rest) =>
      let num_cached := (length paths - length rest)%nat in
      apply_caching root num_cached rest (St (s_dir s) (remove_upper_phase_cache (s_cache s) num_cached) (s_cur s))
  | Err => (Err, s)
  | Panic => (Panic, s)
  end.

(** L80-92 apply_items_for_load *)
Definition apply_items_for_load (root : doc) (paths : list (list Z)) : M doc := fun s =>
  (('(root, rest) <- get_cached_item root (s_cache s) paths ; apply_items (s_dir s) root rest), s).

(** L94-97 set_cache *)
Definition set_cache (path : list Z) (d : doc) (phase : nat) : M unit := fun s =>
  (Ok tt, St (s_dir s) (bt_insert (Z.of_nat phase) (path, d) (remove_upper_phase_cache (s_cache s) phase)) (s_cur s)).

(* ------------------------------------------------------------------ *)
(** * Saving: fs/ *)

(** fs/write_phase_file.rs L6-13; [File::create] empties an existing file *)
Definition write_phase_file (data : pdata) (path : list Z) (diff : list Z) : M unit := fun s =>
  match encode (encode_pdata data) with
  | Ok header => (Ok tt, St (hset path (header ++ diff) (s_dir s)) (s_cache s) (s_cur s))
  | Err => (Err, St (hset path [] (s_dir s)) (s_cache s) (s_cur s))
  | Panic => (Panic, St (hset path [] (s_dir s)) (s_cache s) (s_cur s))
  end.

(** fs/derive_impl.rs L15-64; [greater] is the comparison of averages of PhaseModel *)
Definition derive_impl (greater : Z -> Z -> Z -> Z -> bool) (tag : option (list Z)) (d : doc) (h : tree) (from : props) : M props :=
  match get_newest h with
  | None => ret Err
  | Some np =>
      next_ctl <~ ret (if props_eqb np from then Ok (p_control np) else u32_inc (p_control np)) ;
      content <~ (fun s => (open (s_dir s) (filename from), s)) ;
      '(decoded, _, _) <~ ret (decode content) ;
      data <~ ret (decode_pdata decoded) ;
      next_phase <~ ret (calc_next_phase greater data op) ;
      ancestors <~ ret (create_ancestors h from (max_phase op) (is_cumulative op)) ;
      '(deps, next_props) <~ ret (create_dependencies ancestors next_phase next_ctl tag (max_phase op) (is_cumulative op)) ;
      composed <~ apply_items_for_save (map filename deps) ;
      diff <~ ret (mkdiff composed d) ;
      data <~ ret (pop_and_push data next_phase (zlen diff)) ;
      _ <~ write_phase_file data (filename next_props) diff ;
      _ <~ set_cache (filename next_props) d next_phase ;
      ret (Ok next_props)
  end.

(** fs/write_phase_0.rs L12-35 *)
Definition write_phase_0 (tag : option (list Z)) (control : Z) (d : doc) : M props :=
  let file_name := calc_filename tag control None [0] in
  initial <~ apply_items_for_save [] ;
  diff <~ ret (mkdiff initial d) ;
  _ <~ write_phase_file (pdata_new (zlen diff)) file_name diff ;
  _ <~ set_cache file_name d 0 ;
  p <~ ret (analyze_file_name file_name) ;
  ret (ok_or p).

(** fs/start_new.rs L14-40, with fs/first.rs L10-14 *)
Definition start_new (tag : option (list Z)) (d : doc) : M props := fun s =>
  match create_file_history (map fst (s_dir s)) with
  | Ok h => match get_newest h with
            | Some p => (ctl <~ ret (u32_inc (p_control p)) ; write_phase_0 tag ctl d) s
            | None => write_phase_0 tag 0 d s
            end
  | Err => (Err, s)
  | Panic => (Panic, s)
  end.

(** pub_fn/save_history_file.rs L98-103: the file to derive from *)
Definition choose_from (h : tree) (newest base : props) : res props :=
  if (phase base =? max_phase op)%nat && negb (props_eqb base newest) then ok_or (get_parent h base) else Ok base.

Definition set_cur (id : Z) (p : props) : M unit := fun s => (Ok tt, St (s_dir s) (s_cache s) (Some (id, p))).

(** pub_fn/save_history_file.rs L78-116 save_history_file_impl, with L23-27; the
    folder exists (L91, see FolderModel) *)
Definition save_history_file (greater : Z -> Z -> Z -> Z -> bool) (tag : option (list Z)) (id : Z) (d : doc) : M props :=
  let fresh := saved <~ start_new tag d ; _ <~ set_cur id saved ; ret (Ok saved) in
  fun s =>
  match s_cur s with
  | Some (cur_id, base) =>
      if id =? cur_id then
        match create_file_history (map fst (s_dir s)) with
        | Ok h =>
            match get_newest h with
            | Some newest =>
                (from <~ ret (choose_from h newest base) ;
                 saved <~ derive_impl greater tag d h from ;
                 _ <~ set_cur id saved ;
                 ret (Ok saved)) s
            | None => fresh s
            end
        | Err => (Err, s)
        | Panic => (Panic, s)
        end
      else fresh s
  | None => fresh s
  end.

(* ------------------------------------------------------------------ *)
(** * Loading *)

(** fs/load.rs L12-32 *)
Definition load (file_name : list Z) (h : tree) : M doc :=
  p <~ ret (analyze_file_name file_name) ;
  p <~ ret (ok_or p) ;
  ancestors <~ ret (create_ancestors h p (max_phase op) (is_cumulative op)) ;
  apply_items_for_load src (map filename ancestors).

(** pub_fn/load_history_file.rs L16-57, with the hash of the source (the other
    branch of L44-56 is never taken, see C36); [id]: the loaded object.  The
    history is that of the folder at the time of loading. *)
Definition load_history_file (id : Z) (p : props) : M doc := fun s =>
  match create_file_history (map fst (s_dir s)) with
  | Ok h => (d <~ load (filename p) h ; _ <~ set_cur id p ; ret (Ok d)) s
  | Err => (Err, s)
  | Panic => (Panic, s)
  end.

End History.
