(** What C39 and C40 speak about. *)
From Coq Require Import Sorting.Sorted.
From Verif Require Import Base CompactionModel CompactionSpec ArchiveModel.

(** alphabetical order of paths *)
Inductive before : list Z -> list Z -> Prop :=
| before_end x b : before [] (x :: b)
| before_here x y a b : x < y -> before (x :: a) (y :: b)
| before_there x a b : before a b -> before (x :: a) (x :: b).

(** a set of files: paths in alphabetical order, each once *)
Definition ordered {A} (m : smap A) : Prop := StronglySorted before (map fst m).

(** the files an archive can hold: Rust strings, and fewer than 2^56 of them *)
Definition storable (files : smap (list Z)) : Prop :=
  ordered files /\ Forall (fun f => rust_string (2 ^ 63) (fst f)) files /\ zlen files < 2 ^ 56.

Section Data.
Context {T H : Type}.
Variable convert : list Z -> list Z -> T.
Variable hash_new : H.
Variable hash_write : H -> list Z -> H.
Variable hash_finish : H -> Z.

(** the hash of files: path and content of one after the other *)
Fixpoint hash_files (h : H) (files : list (list Z * list Z)) : H :=
  match files with
  | [] => h
  | (path, content) :: r => hash_files (hash_write (hash_write h path) content) r
  end.

(** the files with their converted contents, and the hash *)
Definition data_of (files : smap (list Z)) : data T :=
  Data (map (fun f => (fst f, (convert (fst f) (snd f), snd f))) files) (hash_finish (hash_files hash_new files)).

(** reading files one after another; a file stored twice counts with its last content *)
Variable decompress : list Z -> option (list Z).
Fixpoint read_files (heads : list (list Z * Z)) (input : list Z) : option (list (list Z * list Z)) :=
  match heads with
  | [] => Some []
  | (path, len) :: r =>
      if (0 <=? len) && (len <=? zlen input) then
        match decompress (firstn (Z.to_nat len) input), read_files r (skipn (Z.to_nat len) input) with
        | Some content, Some files => Some ((path, content) :: files)
        | _, _ => None
        end
      else None
  end.
Definition as_map (files : list (list Z * list Z)) : smap (T * list Z) :=
  fold_left (fun m f => sm_insert (fst f) (convert (fst f) (snd f), snd f) m) files [].
Definition read_result (heads : list (list Z * Z)) (input : list Z) : res (data T) :=
  match read_files heads input with
  | Some files => Ok (Data (as_map files) (hash_finish (hash_files hash_new files)))
  | None => Err
  end.
End Data.

(** the data fed to the hash, in order *)
Definition fed (files : list (list Z * list Z)) : list Z := concat (map (fun f => fst f ++ snd f) files).

(** [contains path entries p c]: below the folder [path] with the entries [entries]
    lies a file with the path [p] and the content [c] whose extension is archived *)
Inductive contains (opt : archive_options) : list Z -> list (list Z * node) -> list Z -> list Z -> Prop :=
| contains_file path entries name content : In (name, File content) entries -> is_archived opt (extension name) = true ->
    contains opt path entries (join path name) content
| contains_below path entries name sub p content : In (name, Folder sub) entries -> o_subfolders opt = true ->
    contains opt (join path name) sub p content -> contains opt path entries p content.

(** a folder of a file system: entries have different, non-empty names without [/] *)
Inductive proper : list (list Z * node) -> Prop :=
| proper_folder entries : NoDup (map fst entries) -> (forall name n, In (name, n) entries -> name <> [] /\ ~ In 47 name) ->
    (forall name sub, In (name, Folder sub) entries -> proper sub) -> proper entries.
