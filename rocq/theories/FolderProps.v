(** C36 and C37: listed history entries and named document files. *)
From Verif Require Import Base CompactionModel FileNameModel FileNameSpec DocModel PhaseModel TreeModel TreeSpec HistModel HistSpec HistMainProofs HistProps
  RemoveModel FolderModel FolderSpec FolderProofs.

(** ** C36  Loading a listed history entry

    An entry of the folder of the current source gives the document saved in that
    file.  Missing from the full claim: entries of other source versions (see the
    refutations). *)
Theorem C36_current_partial : forall doc mkdiff appdiff (archive_root : list Z -> res doc) adjust op same later,
  reproduces mkdiff appdiff same later -> (exists b, build b = Ok op) ->
  forall (cur : source doc) junk n s F order fs l h p d id,
  reach mkdiff appdiff later (so_root cur) op (sound_save op) junk n s F -> Z.of_nat n + 1 < 100000000 ->
  get_folder (so_hash cur) fs = Some (s_dir doc s) -> list_entries order fs = Ok l -> In (so_hash cur, h, p) l -> In (p, d) F ->
  exists r, load_history_file_data doc appdiff archive_root adjust op cur id (so_hash cur, h, p) (Pst fs (s_cache doc s) (s_cur doc s))
      = (Ok r, Pst fs (s_cache doc s) (Some (id, p))) /\ same r d.
Proof. exact @entry_current. Qed.
Print Assumptions C36_current_partial.

(** what is loaded depends neither on the source version of the entry, nor on the
    archives of other versions and the adjustment of documents to a new version *)
Theorem C36_ignored : forall doc appdiff op (cur : source doc) id h p s hash hash' archive_root adjust archive_root' adjust',
  load_history_file_data doc appdiff archive_root adjust op cur id (hash, h, p) s =
  load_history_file_data doc appdiff archive_root' adjust' op cur id (hash', h, p) s.
Proof. intros. unfold load_history_file_data, load_entry, load_impl. now rewrite Z.eqb_refl. Qed.
Print Assumptions C36_ignored.

(** *** Two source versions: 1 with the history of HistProps, 2 with one file *)

Definition g1 := Eval vm_compute in snd (sv op2 1 [7] h0).
Definition both : folders (list Z) := [(1, s_dir _ h6); (2, s_dir _ g1)].
Definition root_of (bytes : list Z) : res (list Z) := match bytes with [0] => Ok [] | _ => Err end.
Definition keep_old (new old : list Z) : res (list Z) := Ok old.
Definition version (hash : Z) : source (list Z) := Source hash [] (Archive [0] true).
Definition both_entries := Eval vm_compute in list_entries [1; 2] both.
Notation load_listed := (load_history_file_data _ extend root_of keep_old op2).

Lemma newer : reach added extend extends [] op2 (sound_save op2) [src_name] 1 g1 [(at_ 0 0 [0], [7])].
Proof. apply (reach_save _ _ _ _ _ _ _ 0 h0 [] exact_greater 1); [|edit|left; reflexivity|vm_compute; reflexivity]. start. Qed.

Example C36_case : reproduces added extend eq extends /\ (exists b, build b = Ok op2) /\
  reach added extend extends (so_root (version 2)) op2 (sound_save op2) [src_name] 1 g1 [(at_ 0 0 [0], [7])] /\
  get_folder 2 both = Some (s_dir _ g1) /\
  exists l h, list_entries [1; 2] both = Ok l /\ In (2, h, at_ 0 0 [0]) l /\ length l = 6%nat.
Proof.
  split; [exact growing|]. split; [exact op2_built|]. split; [exact newer|]. split; [reflexivity|].
  eexists. eexists. split; [vm_compute; reflexivity|]. split; [|reflexivity]. do 5 right. left. reflexivity.
Qed.

(** The entry "_0_0" of version 1 holds [5; 6; 7; 8]; a process with version 2
    loads the file of the same name of version 2 instead. *)
Theorem C36_wrong_file_refuted : exists l h r s',
  reach added extend extends [] op2 (sound_save op2) [src_name] 5 h6 files /\ In (at_ 0 0 [0], [5; 6; 7; 8]) files /\
  get_folder 1 both = Some (s_dir _ h6) /\ list_entries [1; 2] both = Ok l /\ In (1, h, at_ 0 0 [0]) l /\
  load_listed (version 2) 9 (1, h, at_ 0 0 [0]) (Pst both [] None) = (Ok r, s') /\ r = [7].
Proof.
  eexists. eexists. eexists. eexists. split; [exact sample_history|]. split; [now left|]. split; [reflexivity|]. split; [vm_compute; reflexivity|].
  split; [left; reflexivity|]. split; [vm_compute; reflexivity|reflexivity].
Qed.
Print Assumptions C36_wrong_file_refuted.

(** An entry of version 1 whose name does not occur in version 2 is not loaded. *)
Theorem C36_missing_refuted : exists l h,
  reach added extend extends [] op2 (sound_save op2) [src_name] 5 h6 files /\ In (at_ 0 0 [0; 0], [5; 6; 7; 8; 9]) files /\
  list_entries [1; 2] both = Ok l /\ In (1, h, at_ 0 0 [0; 0]) l /\
  load_listed (version 2) 9 (1, h, at_ 0 0 [0; 0]) (Pst both [] None) = (Err, Pst both [] None).
Proof.
  eexists. eexists. split; [exact sample_history|]. split; [right; now left|]. split; [vm_compute; reflexivity|].
  split; [right; left; reflexivity|vm_compute; reflexivity].
Qed.
Print Assumptions C36_missing_refuted.

(** ** C37  Named files *)

(** a document saved under a plain name is loaded back *)
Theorem C37_round_trip_partial : forall doc mkdiff appdiff archive_root adjust same later, reproduces mkdiff appdiff same later ->
  forall now (cur : source doc) name d overwrite fs fs', later (so_root cur) d -> plain name ->
  save_dochy_file doc mkdiff now cur name d overwrite fs = (Ok tt, fs') ->
  exists r, load_dochy_file doc appdiff archive_root adjust cur (so_hash cur) name fs' = Ok r /\ same r d.
Proof. exact @round_trip. Qed.
Print Assumptions C37_round_trip_partial.

(** a process with another source version adjusts it; [bytes] is the archive the
    folder had, or else the one of the current source *)
Theorem C37_other_version : forall doc mkdiff appdiff archive_root adjust same later, reproduces mkdiff appdiff same later ->
  forall now (cur new : source doc) name d overwrite fs fs' bytes root, later (so_root cur) d -> plain name -> name <> archive_name ->
  save_dochy_file doc mkdiff now cur name d overwrite fs = (Ok tt, fs') -> so_hash new <> so_hash cur ->
  bytes = match read_at (so_hash cur) archive_name fs with Some b => b | None => a_bytes (so_archive cur) end ->
  archive_root bytes = Ok root -> same root (so_root cur) ->
  exists r, load_dochy_file doc appdiff archive_root adjust new (so_hash cur) name fs' = adjust (so_root new) r /\ same r d.
Proof. exact @other_version. Qed.
Print Assumptions C37_other_version.

(** saving under a new name, or with the overwrite flag, succeeds *)
Theorem C37_saves : forall doc mkdiff appdiff same later, reproduces mkdiff appdiff same later ->
  forall now (cur : source doc) name d overwrite fs t, later (so_root cur) d -> plain name ->
  create_time_dat now = Ok t -> a_complete (so_archive cur) = true ->
  overwrite = true \/ (is_reserved name = false /\ read_at (so_hash cur) name fs = None) ->
  exists fs', save_dochy_file doc mkdiff now cur name d overwrite fs = (Ok tt, fs').
Proof. exact @save_succeeds. Qed.
Print Assumptions C37_saves.

(** without the flag no file of the project is changed, whatever the name, and
    saving to an existing file fails *)
Theorem C37_no_overwrite : forall doc mkdiff now (cur : source doc) name d fs r fs',
  save_dochy_file doc mkdiff now cur name d false fs = (r, fs') ->
  (forall h f c, read_at h f fs = Some c -> read_at h f fs' = Some c) /\
  (forall h f c, resolve (so_hash cur) name fs = Some (h, f) -> read_at h f fs = Some c -> r <> Ok tt).
Proof. exact @no_overwrite. Qed.
Print Assumptions C37_no_overwrite.

(** with it no other file is changed *)
Theorem C37_other_files : forall doc mkdiff now (cur : source doc) name d overwrite fs r fs', plain name ->
  save_dochy_file doc mkdiff now cur name d overwrite fs = (r, fs') ->
  forall h f c, (h, f) <> (so_hash cur, name) -> read_at h f fs = Some c -> read_at h f fs' = Some c.
Proof. exact @save_frame. Qed.
Print Assumptions C37_other_files.

(** a name without a slash never removes a reserved file or any file but the one
    named *)
Theorem C37_reserved_partial : forall hash name fs r fs', ~ In 47 name -> remove_dochy_file hash name fs = (r, fs') ->
  (forall h f, is_reserved f = true -> read_at h f fs' = read_at h f fs) /\
  (forall h f, (h, f) <> (hash, name) -> read_at h f fs' = read_at h f fs) /\
  (r = Ok tt -> read_at hash name fs <> None /\ read_at hash name fs' = None).
Proof. exact remove_flat. Qed.
Print Assumptions C37_reserved_partial.

(** *** A folder with one saved file "a" *)

Definition name_a : list Z := [97].
Definition saved_a : folders (list Z) := Eval vm_compute in snd (save_dochy_file _ added (5, 0) (version 1) name_a [5; 6] false []).
Notation load_named := (load_dochy_file _ extend root_of keep_old).

Example C37_case : extends (so_root (version 1)) [5; 6] /\ plain name_a /\ name_a <> archive_name /\
  save_dochy_file _ added (5, 0) (version 1) name_a [5; 6] false [] = (Ok tt, saved_a) /\
  (exists t, create_time_dat (5, 0) = Ok t) /\ root_of (a_bytes (so_archive (version 1))) = Ok [] /\
  load_named (version 1) 1 name_a saved_a = Ok [5; 6] /\ load_named (version 2) 1 name_a saved_a = Ok [5; 6] /\
  resolve 1 name_a saved_a = Some (1, name_a) /\ save_dochy_file _ added (5, 0) (version 1) name_a [7] false saved_a = (Err, saved_a) /\
  (exists fs, remove_dochy_file 1 name_a saved_a = (Ok tt, fs)).
Proof.
  split; [grows|]. split; [unfold plain, name_a; cbn [In]; intuition congruence|]. split; [discriminate|]. split; [vm_compute; reflexivity|].
  split; [eexists; vm_compute; reflexivity|]. do 5 (split; [vm_compute; reflexivity|]). eexists. vm_compute. reflexivity.
Qed.

(** "./src.archive" is not recognised as a reserved file: the archive is removed,
    and the file saved before cannot be loaded by another source version. *)
Definition dot_archive : list Z := 46 :: 47 :: archive_name.
Theorem C37_reserved_refuted : exists fs,
  remove_dochy_file 1 archive_name saved_a = (Err, saved_a) /\ remove_dochy_file 1 dot_archive saved_a = (Ok tt, fs) /\
  read_at 1 archive_name saved_a = Some [0] /\ read_at 1 archive_name fs = None /\
  load_named (version 2) 1 name_a saved_a = Ok [5; 6] /\ load_named (version 2) 1 name_a fs = Err.
Proof. eexists. do 5 (split; [vm_compute; reflexivity|]). vm_compute. reflexivity. Qed.
Print Assumptions C37_reserved_refuted.

(** A document may be saved under the name of the archive, replacing it, with the
    same consequence. *)
Theorem C37_save_reserved_refuted : exists fs,
  save_dochy_file _ added (5, 0) (version 1) archive_name [7] true saved_a = (Ok tt, fs) /\
  read_at 1 archive_name saved_a = Some [0] /\ read_at 1 archive_name fs = Some [7] /\
  load_named (version 2) 1 name_a saved_a = Ok [5; 6] /\ load_named (version 2) 1 name_a fs = Err.
Proof. eexists. do 4 (split; [vm_compute; reflexivity|]). vm_compute. reflexivity. Qed.
Print Assumptions C37_save_reserved_refuted.
