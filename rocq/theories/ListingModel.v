(** Model of listing the saved files of a project folder.  Citations are relative to
    /repo/dochy_fs/src/imp. *)
From Verif Require Import Base StringCompactionModel FileNameModel DocModel PhaseModel TreeModel HistModel RemoveModel FolderModel.

(** What the system tells about an entry: the time of its last change and its length.  Here and
    below [None] is an error of the system. *)
Record meta : Type := Meta { me_modified : systime; me_len : Z }.
(** An entry of a folder in the project folder.  Names are UTF-8, so that
    [to_string_lossy] changes nothing; whether it is a folder is not looked at. *)
Record inner : Type := Inner { in_name : list Z; in_is_dir : bool; in_meta : option meta }.
(** An entry of the project folder: a folder and what [read_dir] gives for it, another entry,
    or one whose type cannot be asked for. *)
Inductive top : Type := TFolder (content : option (list (option inner))) | TOther | TOdd.
(** what [read_dir] gives for the project folder *)
Definition entry : Type := option (list Z * top).

(** common/list/file_data.rs L11-16 *)
Record file_data : Type := FileData { fd_hash : Z; fd_modified : systime; fd_name : list Z; fd_len : Z }.

(** common/list/find_next_dir.rs L5-20; with the entries that are left *)
Fixpoint find_next_dir (l : list entry) : res (option (list (option inner) * Z)) * list entry :=
  match l with
  | [] => (Ok None, [])
  | Some (name, TFolder content) :: r =>
      match folder_name_to_hash name with
      | Ok (Some hash) => match content with Some d => (Ok (Some (d, hash)), r) | None => (Err, r) end
      | Ok None => find_next_dir r
      | Err => (Err, r)
      | Panic => (Panic, r)
      end
  | Some (_, TOther) :: r => find_next_dir r
  | Some (_, TOdd) :: r => (Err, r)
  | None :: r => (Err, r)
  end.

(** common/list/list_files_iterator.rs L10-14 InnerIterator *)
Definition cursor : Type := (list entry * list (option inner) * Z)%type.

(** common/list/file_data.rs L25-31 *)
Definition data_from (hash : Z) (e : inner) : res file_data :=
  m <- ok_or (in_meta e) ; Ok (FileData hash (me_modified m) (in_name e) (me_len m)).

(** common/list/list_files_iterator.rs L40-75 next, L79-86 find_next_file; [fuel]: at most as
    many folders as there are entries *)
Fixpoint next_file (fuel : nat) (c : cursor) : option (res file_data) * cursor :=
  match fuel with
  | O => (None, c)
  | S fuel =>
      match c with
      | (rest, Some e :: dir, hash) => (Some (data_from hash e), (rest, dir, hash))
      | (rest, None :: dir, hash) => (Some Err, (rest, dir, hash))
      | (rest, [], hash) =>
          match find_next_dir rest with
          | (Ok (Some (dir, hash)), rest) => next_file fuel (rest, dir, hash)
          | (Ok None, rest) => (None, (rest, [], hash))
          | (Err, rest) => (Some Err, (rest, [], hash))
          | (Panic, rest) => (Some Panic, (rest, [], hash))
          end
      end
  end.

(** how many entries there are *)
Definition entries (l : list entry) : nat :=
  list_sum (map (fun e => S match e with Some (_, TFolder (Some d)) => length d | _ => 0 end) l).

(** common/list/list_files.rs L14-21 the loop; [fuel]: at most as many items as entries *)
Fixpoint collect (fuel : nat) (c : cursor) : res (list file_data) :=
  match fuel with
  | O => Ok []
  | S fuel =>
      match next_file (S (S (length (fst (fst c))))) c with
      | (None, _) => Ok []
      | (Some (Ok data), c) => r <- collect fuel c ; Ok (if is_reserved (fd_name data) then r else data :: r)
      | (Some Err, c) => collect fuel c
      | (Some Panic, _) => Panic
      end
  end.

(** the order of [SystemTime] *)
Definition time_leb (a b : systime) : bool := (fst a <? fst b) || ((fst a =? fst b) && (snd a <=? snd b)).
(** common/list/list_files.rs L23 [sort_by_key], which is stable *)
Fixpoint insert_file (x : file_data) (l : list file_data) : list file_data :=
  match l with
  | [] => [x]
  | y :: r => if time_leb (fd_modified x) (fd_modified y) then x :: l else y :: insert_file x r
  end.
Definition sort_files (l : list file_data) : list file_data := fold_right insert_file [] l.

(** common/list/list_files.rs L9-35 list_files and iterate_files, filesys/list_dochy_files.rs
    L6-8 *)
Definition list_dochy_files (l : option (list entry)) : res (list file_data) :=
  l <- ok_or l ;
  match find_next_dir l with
  | (Ok (Some (dir, hash)), rest) => v <- collect (S (entries rest + length dir)) (rest, dir, hash) ; Ok (sort_files v)
  | (Ok None, _) => Ok []
  | (Err, _) => Err
  | (Panic, _) => Panic
  end.

(** common/list/file_data.rs L46-50 calc_path: the folder and the name that are joined to the
    project folder *)
Definition calc_path (x : file_data) : list Z * list Z := (hash_to_folder_name (fd_hash x), fd_name x).
