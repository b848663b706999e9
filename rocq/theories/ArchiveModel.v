(** Model of source archives: collecting the files of a source folder, converting
    and hashing them, writing an archive and reading it back, on several threads.
    Citations are relative to /repo/dochy_archiver2/src/imp. *)
From Verif Require Import Base CompactionModel.

(* ------------------------------------------------------------------ *)
(** * Ordered maps from strings *)

(** the order of Rust strings: that of their bytes *)
Fixpoint bytes_lt (a b : list Z) : bool :=
  match a, b with
  | [], _ :: _ => true
  | x :: a, y :: b => (x <? y) || ((x =? y) && bytes_lt a b)
  | _, [] => false
  end.

(** std BTreeMap<String, A> (and BTreeSet<String>, with [A := unit]): ascending keys *)
Definition smap (A : Type) : Type := list (list Z * A).
Fixpoint sm_insert {A} (k : list Z) (v : A) (m : smap A) : smap A :=
  match m with
  | [] => [(k, v)]
  | (x, a) :: r =>
      if bytes_lt k x then (k, v) :: m
      else if bytes_lt x k then (x, a) :: sm_insert k v r
      else (k, v) :: r
  end.

(* ------------------------------------------------------------------ *)
(** * The files of a source folder: read_archive_data_from_directory.rs *)

(** A folder of the file system, in the order it is read.  Links and other kinds of
    entries are left out; names are valid UTF-8 (others are changed by
    [to_string_lossy], L34). *)
Inductive node : Type := File (content : list Z) | Folder (entries : list (list Z * node)).

(** structs/archive_options.rs L6-9 *)
Record archive_options : Type := ArchiveOptions { o_extensions : list (list Z); o_subfolders : bool }.
(** structs/archive_options.rs L14-20 *)
Definition is_archived (opt : archive_options) (ext : list Z) : bool :=
  match o_extensions opt with
  | [] => true
  | l => existsb (fun e => if list_eq_dec Z.eq_dec e ext then true else false) l
  end.

(** std Path::extension of a file name, [""] if there is none (L32): what follows
    the last dot, unless that is the first character.  [rest]: the name read from
    the end; [acc]: what has been read. *)
Fixpoint extension_from (rest acc : list Z) : list Z :=
  match rest with
  | [] => []
  | c :: r => if c =? 46 then match r with [] => [] | _ => acc end else extension_from r (c :: acc)
  end.
Definition extension (name : list Z) : list Z := extension_from (rev name) [].

(** std Path::join of a path and the name of an entry *)
Definition join (path name : list Z) : list Z :=
  match path with
  | [] => name
  | _ => if last path 0 =? 47 then path ++ name else path ++ 47 :: name
  end.

(** L26-41 for one entry of the folder [path]; together with each path the content
    that L16 reads there (the folder does not change meanwhile) *)
Fixpoint visit (opt : archive_options) (path name : list Z) (n : node) (set : smap (list Z)) {struct n} : smap (list Z) :=
  match n with
  | File content => if is_archived opt (extension name) then sm_insert (join path name) content set else set
  | Folder entries =>
      if o_subfolders opt then fold_left (fun set e => visit opt (join path name) (fst e) (snd e) set) entries set else set
  end.
(** L23-43 get_paths_from_dir *)
Definition get_paths (opt : archive_options) (path : list Z) (entries : list (list Z * node)) : smap (list Z) :=
  fold_left (fun set e => visit opt path (fst e) (snd e) set) entries [].

(** dochy_core/src/lib.rs L10-15 *)
Definition json_options : archive_options := ArchiveOptions [[106; 115; 111; 110; 53]] false.

(* ------------------------------------------------------------------ *)
Section Archive.
(** the converter and its results *)
Variable T : Type.
Variable convert : list Z -> list Z -> T.
(** snap::raw::Encoder::compress_vec and Decoder::decompress_vec; [None]: an error *)
Variable compress : list Z -> option (list Z).
Variable decompress : list Z -> option (list Z).
(** metrohash::MetroHash128: new, write, and finish128 with hash_thread.rs L49-53 *)
Variable H : Type.
Variable hash_new : H.
Variable hash_write : H -> list Z -> H.
Variable hash_finish : H -> Z.

(** structs/archive_data.rs L4-12: the files with their converted data and contents *)
Record data : Type := Data { d_tree : smap (T * list Z); d_hash : Z }.

(* ------------------------------------------------------------------ *)
(** * Writing: write_archive.rs, write_items.rs *)

(** write_archive.rs L17-27: what the task of a file sends *)
Definition compressed (file : list Z * (T * list Z)) : list Z * option (list Z) := (fst file, compress (snd (snd file))).

(** write_archive.rs L30-33: receiving the results, in the order they arrive *)
Fixpoint collect (arrivals : list (list Z * option (list Z))) (items : smap (list Z)) : res (smap (list Z)) :=
  match arrivals with
  | [] => Ok items
  | (path, Some c) :: r => collect r (sm_insert path c items)
  | (_, None) :: _ => Err
  end.

(** write_items.rs L7-25 *)
Definition write_items (items : smap (list Z)) : res (list Z) :=
  header <- encode (comp_int (zlen items) :: flat_map (fun e => [comp_str (fst e); comp_int (zlen (snd e))]) items) ;
  Ok (header ++ concat (map snd items)).

(** write_archive.rs L8-36 *)
Definition write_archive (arrivals : list (list Z * option (list Z))) : res (list Z) :=
  items <- collect arrivals [] ;
  write_items items.

(* ------------------------------------------------------------------ *)
(** * Reading: read_archive.rs *)

(** L18-25: the paths and sizes of [n] files *)
Fixpoint read_heads (kvals : list kval) (n : nat) {struct n} : res (list (list Z * Z)) :=
  match n with
  | O => Ok []
  | S n =>
      match kvals with
      | k1 :: k2 :: r =>
          match as_string k1, as_i64 k2 with
          | Some path, Some len => rest <- read_heads r n ; Ok ((path, len) :: rest)
          | _, _ => Err
          end
      | _ => Err
      end
  end.

(** L11-25.  A negative number of files cannot be allocated (L15).  More files than
    values are left end in an error; the test keeps the count small. *)
Definition read_header (input : list Z) : res (list (list Z * Z) * list Z) :=
  '(kvals, _, rest) <- decode input ;
  match kvals with
  | [] => Err
  | k :: r =>
      match as_i64 k with
      | Some len => if (len <? 0) || (zlen r <? len) then Err else heads <- read_heads r (Z.to_nat len) ; Ok (heads, rest)
      | None => Err
      end
  end.

(** The way of one file: not read; its compressed bytes read and the task of L51-57
    spawned; the result of the task sent (L54-55); received by the archiving
    thread, the task of archiver.rs L43-46 spawned; its result sent; received by
    archiver.rs L59. *)
Inductive slot : Type :=
| Unread
| Compressed (buf : list Z)
| Sent (content : option (list Z))
| Archived (content : list Z)
| Converted (content : list Z) (t : T)
| Finished.

(** The archiving thread (L29-45): receives file [k] (L31-33); in
    archiver.rs finish, receives the converted file [k] (L58-64), or waits for the
    hash (hash_thread.rs L45); has ended. *)
Inductive arch : Type :=
| Archiving (k : nat)
| Finishing (k : nat) (tree : smap (T * list Z))
| Waiting (tree : smap (T * list Z))
| Ended.

(** The hashing thread (hash_thread.rs L16-32): works, or has sent its result *)
Inductive hasher : Type := Hashing (h : H) | Hashed (hash : Z).

(** [s_main]: the file the calling thread reads next (L46); [s_rest]: the input left;
    [s_slots]: the files; [s_queue]: the channel of the hashing thread; [s_out]: the
    channel of L27; [s_result]: what the function has returned. *)
Record state : Type := State {
  s_main : nat;
  s_rest : list Z;
  s_slots : list slot;
  s_arch : arch;
  s_queue : list (option (list Z * list Z));
  s_hasher : hasher;
  s_out : option (res data);
  s_result : option (res data) }.

Definition set_nth (i : nat) (x : slot) (l : list slot) : list slot := firstn i l ++ x :: skipn (S i) l.

(** One step of one of the threads. *)
Inductive step (heads : list (list Z * Z)) : state -> state -> Prop :=
(** L46-51 *)
| step_read s path len : s_result s = None -> nth_error heads (s_main s) = Some (path, len) -> 0 <= len <= zlen (s_rest s) ->
    step heads s (State (S (s_main s)) (skipn (Z.to_nat len) (s_rest s))
      (set_nth (s_main s) (Compressed (firstn (Z.to_nat len) (s_rest s))) (s_slots s)) (s_arch s) (s_queue s) (s_hasher s) (s_out s) None)
(** the errors of L47 and L50 *)
| step_read_fails s path len : s_result s = None -> nth_error heads (s_main s) = Some (path, len) -> ~ 0 <= len <= zlen (s_rest s) ->
    step heads s (State (s_main s) (s_rest s) (s_slots s) (s_arch s) (s_queue s) (s_hasher s) (s_out s) (Some Err))
(** L51-57; tasks end in any order *)
| step_decompress s i buf : nth_error (s_slots s) i = Some (Compressed buf) ->
    step heads s (State (s_main s) (s_rest s) (set_nth i (Sent (decompress buf)) (s_slots s)) (s_arch s) (s_queue s) (s_hasher s) (s_out s) (s_result s))
(** L31-33, archiver.rs L35-53, hash_thread.rs L39-41 *)
| step_archive s k path len v : s_arch s = Archiving k -> nth_error heads k = Some (path, len) -> nth_error (s_slots s) k = Some (Sent (Some v)) ->
    step heads s (State (s_main s) (s_rest s) (set_nth k (Archived v) (s_slots s)) (Archiving (S k)) (s_queue s ++ [Some (path, v)]) (s_hasher s) (s_out s) (s_result s))
(** L34-37 *)
| step_archive_fails s k : s_arch s = Archiving k -> nth_error (s_slots s) k = Some (Sent None) ->
    step heads s (State (s_main s) (s_rest s) (s_slots s) Ended (s_queue s) (s_hasher s) (Some Err) (s_result s))
(** L38-41: the calling thread has returned without reading the file *)
| step_archive_gone s k r : s_arch s = Archiving k -> nth_error (s_slots s) k = Some Unread -> s_result s = Some r ->
    step heads s (State (s_main s) (s_rest s) (s_slots s) Ended (s_queue s) (s_hasher s) (Some Err) (s_result s))
(** L43 *)
| step_archived s k : s_arch s = Archiving k -> nth_error heads k = None ->
    step heads s (State (s_main s) (s_rest s) (s_slots s) (Finishing 0 []) (s_queue s) (s_hasher s) (s_out s) (s_result s))
(** archiver.rs L43-46; tasks end in any order *)
| step_convert s i path len v : nth_error heads i = Some (path, len) -> nth_error (s_slots s) i = Some (Archived v) ->
    step heads s (State (s_main s) (s_rest s) (set_nth i (Converted v (convert path v)) (s_slots s)) (s_arch s) (s_queue s) (s_hasher s) (s_out s) (s_result s))
(** archiver.rs L58-64 *)
| step_finish s k tree path len v t : s_arch s = Finishing k tree -> nth_error heads k = Some (path, len) -> nth_error (s_slots s) k = Some (Converted v t) ->
    step heads s (State (s_main s) (s_rest s) (set_nth k Finished (s_slots s)) (Finishing (S k) (sm_insert path (t, v) tree)) (s_queue s) (s_hasher s) (s_out s) (s_result s))
(** archiver.rs L65, hash_thread.rs L44 *)
| step_ask s k tree : s_arch s = Finishing k tree -> nth_error heads k = None ->
    step heads s (State (s_main s) (s_rest s) (s_slots s) (Waiting tree) (s_queue s ++ [None]) (s_hasher s) (s_out s) (s_result s))
(** hash_thread.rs L20-25 *)
| step_hash s h path v queue : s_hasher s = Hashing h -> s_queue s = Some (path, v) :: queue ->
    step heads s (State (s_main s) (s_rest s) (s_slots s) (s_arch s) queue (Hashing (hash_write (hash_write h path) v)) (s_out s) (s_result s))
(** hash_thread.rs L26, L30-31 *)
| step_hashed s h queue : s_hasher s = Hashing h -> s_queue s = None :: queue ->
    step heads s (State (s_main s) (s_rest s) (s_slots s) (s_arch s) queue (Hashed (hash_finish h)) (s_out s) (s_result s))
(** hash_thread.rs L45, archiver.rs L67, L44 *)
| step_end s tree hash : s_arch s = Waiting tree -> s_hasher s = Hashed hash ->
    step heads s (State (s_main s) (s_rest s) (s_slots s) Ended (s_queue s) (s_hasher s) (Some (Ok (Data tree hash))) (s_result s))
(** L61 *)
| step_return s r : s_result s = None -> nth_error heads (s_main s) = None -> s_out s = Some r ->
    step heads s (State (s_main s) (s_rest s) (s_slots s) (s_arch s) (s_queue s) (s_hasher s) (s_out s) (Some r)).

Inductive run (heads : list (list Z * Z)) (s0 : state) : nat -> state -> Prop :=
| run_start : run heads s0 0 s0
| run_step n s s' : run heads s0 n s -> step heads s s' -> run heads s0 (S n) s'.

(** L29 and L46: the threads start *)
Definition reading (heads : list (list Z * Z)) (input : list Z) : state :=
  State 0 input (map (fun _ => Unread) heads) (Archiving 0) [] (Hashing hash_new) None None.

(** L10-62: the results of reading an archive *)
Inductive read_archive (input : list Z) : res data -> Prop :=
| read_header_fails r : read_header input = r -> (forall x, r <> Ok x) -> read_archive input (match r with Panic => Panic | _ => Err end)
| read_returns heads rest n s r : read_header input = Ok (heads, rest) -> run heads (reading heads rest) n s -> s_result s = Some r ->
    read_archive input r.

(** read_archive_data_from_directory.rs L15-20: the calling thread does itself what
    the archiving thread does there, with the contents at hand (L16).  The size of
    a head is not used. *)
Definition archiving (files : smap (list Z)) : state :=
  State (length files) [] (map (fun f => Sent (Some (snd f))) files) (Archiving 0) [] (Hashing hash_new) None None.
Definition no_sizes (files : smap (list Z)) : list (list Z * Z) := map (fun f => (fst f, 0)) files.
Inductive read_directory (opt : archive_options) (path : list Z) (entries : list (list Z * node)) : res data -> Prop :=
| directory_returns n s r : run (no_sizes (get_paths opt path entries)) (archiving (get_paths opt path entries)) n s -> s_result s = Some r ->
    read_directory opt path entries r.

End Archive.
Arguments Data {T}.
Arguments d_tree {T}.
Arguments d_hash {T}.
Arguments State {T H}.
Arguments s_main {T H}.
Arguments s_rest {T H}.
Arguments s_slots {T H}.
Arguments s_arch {T H}.
Arguments s_queue {T H}.
Arguments s_hasher {T H}.
Arguments s_out {T H}.
Arguments s_result {T H}.
Arguments Unread {T}.
Arguments Compressed {T}.
Arguments Sent {T}.
Arguments Archived {T}.
Arguments Converted {T}.
Arguments Finished {T}.
Arguments Archiving {T}.
Arguments Finishing {T}.
Arguments Waiting {T}.
Arguments Ended {T}.
Arguments Hashing {H}.
Arguments Hashed {H}.
