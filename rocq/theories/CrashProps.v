(** C38 and C47: processes that stop while they write. *)
From Verif Require Import Base CompactionModel FileNameModel FileNameSpec DocModel PhaseModel PhaseSpec TreeModel TreeSpec TreeProofs
  HistModel HistSpec HistMainProofs HistProps RemoveModel FolderModel FolderSpec FolderProofs FolderProps CrashModel CrashProofs.

(** ** C38  A save that is stopped leaves all earlier files intact

    In any history, for any save without a tag and any moment: every file keeps its
    content, and the next process loads every version there was.  Missing from the
    full claim: saves with a tag (see C38_tag_refuted). *)
Theorem C38_stop_partial : forall doc mkdiff appdiff (src : doc) op same later, reproduces mkdiff appdiff same later ->
  (exists b, build b = Ok op) -> forall junk greater n s F id d dir',
  reach mkdiff appdiff later src op (sound_save op) junk n s F -> Z.of_nat n + 1 < 100000000 ->
  edited later src s F id d -> limited op -> stopped doc mkdiff appdiff src op greater None id d s dir' ->
  (forall name content, hget name (s_dir doc s) = Some content -> hget name dir' = Some content) /\
  (forall j q dq, In (q, dq) F -> exists r, load_history_file doc appdiff src op j q (St doc dir' [] None) = (Ok r, St doc dir' [] (Some (j, q))) /\ same r dq).
Proof. exact @stop_safe. Qed.
Print Assumptions C38_stop_partial.

(** what the writing stops in is the save of HistModel *)
Theorem C38_same_save : forall doc mkdiff appdiff (src : doc) op greater tag id d s,
  save_with doc mkdiff appdiff src op (write_phase_file doc) greater tag id d s = save_history_file doc mkdiff appdiff src op greater tag id d s.
Proof. exact @save_with_all. Qed.
Print Assumptions C38_same_save.

(** the history of HistProps, and the save of C33_case stopped after two bytes *)
Definition cut := Eval vm_compute in s_dir _ (snd (save_with _ added extend [] op2 (write_until _ 2) exact_greater None 2 [5; 6; 7; 8; 9; 3; 4] h6)).
Example C38_case : reproduces added extend eq extends /\ (exists b, build b = Ok op2) /\ limited op2 /\
  reach added extend extends [] op2 (sound_save op2) [src_name] 5 h6 files /\
  edited extends [] h6 files 2 [5; 6; 7; 8; 9; 3; 4] /\ stopped _ added extend [] op2 exact_greater None 2 [5; 6; 7; 8; 9; 3; 4] h6 cut /\
  length cut = S (length (s_dir _ h6)) /\ length files = 5%nat /\
  fst (ld op2 3 (at_ 1 1 [0; 0; 1]) (St _ cut [] None)) = Err.
Proof.
  split; [exact growing|]. split; [exact op2_built|]. split; [exact op2_limited|]. split; [exact sample_history|]. split; [edit|].
  split; [right; exists 2%nat; vm_compute; reflexivity|]. split; [reflexivity|]. split; [reflexivity|]. vm_compute. reflexivity.
Qed.

(** A save with a tag that overwrites an earlier one (C27_tag_refuted), stopped as
    soon as the file is created: the earlier version is gone (tagged files are not
    listed, C21, but they are files). *)
Theorem C38_tag_refuted : exists (s1 s2 s3 : st (list Z)) p q dir' x c,
  save_history_file _ added extend [] op2 exact_greater None 1 [1] h0 = (Ok q, s1) /\
  save_history_file _ added extend [] op2 exact_greater tag_a 1 [1; 2] s1 = (Ok p, s2) /\
  ld op2 1 q s2 = (Ok [1], s3) /\ hget (filename p) (s_dir _ s3) = Some (x :: c) /\
  stopped _ added extend [] op2 exact_greater tag_a 1 [1; 3] s3 dir' /\
  hget (filename p) dir' = Some [].
Proof.
  do 8 eexists. split; [vm_compute; reflexivity|]. split; [vm_compute; reflexivity|]. split; [vm_compute; reflexivity|]. split; [vm_compute; reflexivity|].
  split; [right; exists 0%nat; vm_compute; reflexivity|vm_compute; reflexivity].
Qed.
Print Assumptions C38_tag_refuted.

(** With one phase only, the incomplete file stands in the way: the newest complete
    version is loaded, but saving it fails (see C29_flat_refuted). *)
Theorem C38_continue_refuted : exists dir' s',
  reach added extend extends [] op0 (sound_save op0) [src_name] 1 c1 (firstn 1 flat_files) /\
  edited extends [] c1 (firstn 1 flat_files) 1 [5; 6; 7; 8; 9] /\
  stopped _ added extend [] op0 exact_greater None 1 [5; 6; 7; 8; 9] c1 dir' /\
  ld op0 2 (at_ 0 0 [0]) (St _ dir' [] None) = (Ok [5; 6; 7; 8], s') /\ fst (sv op0 2 [5; 6; 7; 8; 1] s') = Err.
Proof.
  do 2 eexists. split. { apply (reach_save _ _ _ _ _ _ _ 0 h0 [] exact_greater 1); [|edit|right; left; reflexivity|vm_compute; reflexivity]. start. }
  split; [edit|]. split; [right; exists 0%nat; vm_compute; reflexivity|]. split; [vm_compute; reflexivity|vm_compute; reflexivity].
Qed.
Print Assumptions C38_continue_refuted.

(** ** C47  Named files saved after a stop

    A process stops while it prepares the folder of its source version.  A file
    saved later is loaded by other source versions, unless the archive was created
    and not completed. *)
Theorem C47_later_partial : forall doc mkdiff appdiff archive_root adjust same later, reproduces mkdiff appdiff same later ->
  forall now (cur new : source doc) fs0 fs now' name d overwrite fs' root,
  prepare_stopped now (so_archive cur) (so_hash cur) fs0 fs ->
  (forall bytes, read_at (so_hash cur) archive_name fs = Some bytes -> bytes = a_bytes (so_archive cur)) ->
  later (so_root cur) d -> plain name -> name <> archive_name ->
  save_dochy_file doc mkdiff now' cur name d overwrite fs = (Ok tt, fs') -> so_hash new <> so_hash cur ->
  archive_root (a_bytes (so_archive cur)) = Ok root -> same root (so_root cur) ->
  exists r, load_dochy_file doc appdiff archive_root adjust new (so_hash cur) name fs' = adjust (so_root new) r /\ same r d.
Proof. exact @after_stop. Qed.
Print Assumptions C47_later_partial.

(** the only states a stop leaves *)
Theorem C47_archive : forall now a hash fs0 fs, prepare_stopped now a hash fs0 fs ->
  (forall h f c, read_at h f fs0 = Some c -> read_at h f fs = Some c) /\
  (read_at hash archive_name fs0 = None -> read_at hash archive_name fs = None \/ exists k, read_at hash archive_name fs = Some (firstn k (a_bytes a))).
Proof. exact stop_archive_states. Qed.
Print Assumptions C47_archive.

(** stopped before the archive: the next save completes the folder *)
Example C47_case : exists fs fs', prepare_stopped (5, 0) (so_archive (version 1)) 1 [] fs /\ read_at 1 archive_name fs = None /\ length fs = 1%nat /\
  save_dochy_file _ added (6, 0) (version 1) name_a [5; 6] false fs = (Ok tt, fs') /\ load_named (version 2) 1 name_a fs' = Ok [5; 6].
Proof. do 2 eexists. split; [apply stop_folder; reflexivity|]. do 3 (split; [vm_compute; reflexivity|]). vm_compute. reflexivity. Qed.

(** Stopped as soon as the archive is created: the empty archive is never
    completed, since it exists; files saved later are loaded with the current
    source, but with no other. *)
Theorem C47_refuted : exists fs fs', prepare_stopped (5, 0) (so_archive (version 1)) 1 [] fs /\ read_at 1 archive_name fs = Some [] /\
  save_dochy_file _ added (6, 0) (version 1) name_a [5; 6] false fs = (Ok tt, fs') /\ read_at 1 archive_name fs' = Some [] /\
  load_named (version 1) 1 name_a fs' = Ok [5; 6] /\ load_named (version 2) 1 name_a fs' = Err.
Proof.
  do 2 eexists. split; [apply (stop_archive _ _ _ _ 0); [vm_compute; reflexivity|reflexivity]|]. do 4 (split; [vm_compute; reflexivity|]). vm_compute. reflexivity.
Qed.
Print Assumptions C47_refuted.

(** The same without a stop: writing the archive fails once (a source file cannot
    be read), the save is refused, and the next save succeeds. *)
Theorem C47_failed_archive_refuted : exists fs fs', 
  save_dochy_file _ added (5, 0) (Source 1 [] (Archive [] false)) name_a [5; 6] false [] = (Err, fs) /\
  save_dochy_file _ added (6, 0) (version 1) name_a [5; 6] false fs = (Ok tt, fs') /\ load_named (version 2) 1 name_a fs' = Err.
Proof. do 2 eexists. do 2 (split; [vm_compute; reflexivity|]). vm_compute. reflexivity. Qed.
Print Assumptions C47_failed_archive_refuted.
