(** C56: the list of saved files. *)
From Coq Require Import Permutation Sorted.
From Verif Require Import Base StringCompactionModel FileNameModel FileNameProofs DocModel PhaseModel TreeModel HistModel HistSpec RemoveModel FolderModel FolderSpec FolderProofs ListingModel ListingSpec ListingProofs.

(* ------------------------------------------------------------------ *)
(** * What is listed, for every folder the system can show *)

(** If the first entry that is not foreign is a folder of a version, and no name ends the
    program, the files of all folders that can be read are listed by time; errors in other
    places are passed over. *)
Theorem C56_listed : forall pre e l, Forall foreign pre -> opens e -> ~ Exists crashing l ->
  exists v r, collected (e :: l) v /\ list_dochy_files (Some (pre ++ e :: l)) = Ok r /\ ordered v r.
Proof.
  intros pre e l P O N. destruct (collectable (e :: l)) as [v C].
  - intros X. inversion X as [? ? C|? ? T]; subst; [|contradiction]. apply crashing_not in C as (_ & _ & C). contradiction.
  - destruct (listed _ _ _ _ P O C) as (r & E & R). exists v, r. split; [exact C|]. split; assumption.
Qed.
Print Assumptions C56_listed.

(** nothing else, and nothing less, is among them *)
Theorem C56_files : forall l v x, collected l v -> (In x v <->
  exists e d i m, In e l /\ version_folder e (fd_hash x) (Some d) /\ In (Some i) d /\ in_meta i = Some m /\ is_reserved (in_name i) = false /\
    x = FileData (fd_hash x) (me_modified m) (in_name i) (me_len m)).
Proof. exact in_collected. Qed.
Print Assumptions C56_files.

(** otherwise: nothing, an error, or the end of the program *)
Theorem C56_otherwise : forall pre e l, Forall foreign pre ->
  list_dochy_files (Some pre) = Ok [] /\ list_dochy_files None = Err /\
  (fails e -> list_dochy_files (Some (pre ++ e :: l)) = Err) /\
  (crashing e \/ opens e /\ Exists crashing l -> list_dochy_files (Some (pre ++ e :: l)) = Panic) /\
  (opens e \/ fails e \/ foreign e \/ crashing e).
Proof.
  intros pre e l P. split; [now apply none_listed|]. split; [reflexivity|]. split; [now apply not_listed|]. split; [now apply crashes|]. apply entry_cases.
Qed.
Print Assumptions C56_otherwise.

(** the path of a listed file is that of its folder and its name, and the hash is read back from it *)
Theorem C56_path : forall l r x, list_dochy_files (Some l) = Ok r -> In x r ->
  folder_name_to_hash (fst (calc_path x)) = Ok (Some (fd_hash x)) /\
  exists d i, In (Some (fst (calc_path x), TFolder (Some d))) l /\ In (Some i) d /\ in_name i = snd (calc_path x).
Proof.
  intros l r x E I. destruct (first_own l) as [F|(pre & e & t & -> & F & N)]; [rewrite (none_listed _ F) in E; apply Ok_inj in E; subst r; destruct I|].
  destruct (entry_cases e) as [O|[O|[O|O]]]; [|rewrite (not_listed _ _ _ F O) in E; discriminate E|contradiction|rewrite (crashes _ _ _ F (or_introl O)) in E; discriminate E].
  assert (C : exists v, collected (e :: t) v).
  { destruct (Exists_dec crashing t) as [X|X].
    - intros y. destruct y as [[name [c| |]]|]; try (right; intros (? & ? & Y & _); discriminate Y). destruct (folder_name_to_hash name) as [h| |] eqn:Y;
        [right; intros (n' & c' & W & W'); injection W as <- <-; congruence|right; intros (n' & c' & W & W'); injection W as <- <-; congruence|left; exists name, c; split; [reflexivity|exact Y]].
    - rewrite (crashes _ _ _ F (or_intror (conj O X))) in E. discriminate E.
    - apply collectable. intros Y. inversion Y as [? ? C|? ? T]; subst; [|contradiction]. apply crashing_not in C as (_ & _ & C). contradiction. }
  destruct C as [v C]. destruct (listed _ _ _ _ F O C) as (r' & E' & _ & P & _). rewrite E in E'. apply Ok_inj in E'. subst r'.
  apply (Permutation_in _ (Permutation_sym P)), (in_collected _ _ _ C) in I as (e' & d & i & m & Ie & [B V] & Id & _ & _ & X). unfold calc_path. cbn [fst snd]. split.
  - now destruct (folder_name _ B) as (_ & _ & H).
  - exists d, i. subst e'. split; [apply in_or_app; right; exact Ie|]. split; [exact Id|]. rewrite X. reflexivity.
Qed.
Print Assumptions C56_path.

(* ------------------------------------------------------------------ *)
(** * What is listed of a project *)

(** exactly the files that are there and not reserved, whatever the order of the listing *)
Theorem C56_project_partial : forall (fs : project) l, NoDup (map fst fs) -> lists fs l -> exists r, list_dochy_files (Some l) = Ok r /\ StronglySorted by_time r /\
  forall h name, (exists x, In x r /\ fd_hash x = h /\ fd_name x = name) <-> read_at h name fs <> None /\ is_reserved name = false.
Proof. exact project_listed. Qed.
Print Assumptions C56_project_partial.

(** after saving, the file and what was there before *)
Theorem C56_saved_partial : forall doc mkdiff now (cur : source doc) name d overwrite fs fs' l, plain name -> is_reserved name = false ->
  save_dochy_file doc mkdiff now cur name d overwrite fs = (Ok tt, fs') -> NoDup (map fst fs') -> lists fs' l ->
  exists r, list_dochy_files (Some l) = Ok r /\
  forall h f, (exists x, In x r /\ fd_hash x = h /\ fd_name x = f) <-> (h = so_hash cur /\ f = name) \/ read_at h f fs <> None /\ is_reserved f = false.
Proof.
  intros doc mkdiff now cur name d ow fs fs' l P R S N L. destruct (project_listed _ _ N L) as (r & E & _ & H). exists r. split; [exact E|]. intros h f. rewrite H. clear H E r L N.
  destruct (saved _ _ _ _ _ _ _ _ P S) as (fs1 & diff & Ep & _ & ->). destruct (prepared _ _ _ _ _ _ Ep) as (_ & Fr & _ & Pk & _). destruct (Pk eq_refl) as [G _]. rewrite read_write.
  destruct ((h =? so_hash cur) && eqb_bytes name f) eqn:X.
  - apply andb_prop in X as [X1 X2]. apply Z.eqb_eq in X1. apply eqb_bytes_true in X2. subst. split; [auto|]. intros _. split; [|exact R]. destruct (get_folder (so_hash cur) fs1); [discriminate|contradiction].
  - split.
    + intros [A B]. right. split; [|exact B]. rewrite Fr in A; auto.
    + intros [[-> ->]|[A B]]; [rewrite Z.eqb_refl, FolderProofs.eqb_bytes_refl in X; discriminate X|]. split; [|exact B]. rewrite Fr; auto.
Qed.
Print Assumptions C56_saved_partial.

(** after removing, all others *)
Theorem C56_removed_partial : forall hash name fs fs' l, ~ In 47 name -> remove_dochy_file hash name fs = (Ok tt, fs') -> NoDup (map fst fs') -> lists fs' l ->
  exists r, list_dochy_files (Some l) = Ok r /\
  forall h f, (exists x, In x r /\ fd_hash x = h /\ fd_name x = f) <-> (h, f) <> (hash, name) /\ read_at h f fs <> None /\ is_reserved f = false.
Proof.
  intros hash name fs fs' l P S N L. destruct (project_listed _ _ N L) as (r & E & _ & H). exists r. split; [exact E|]. intros h f. rewrite H. clear H E r L N.
  destruct (remove_flat _ _ _ _ _ P S) as (_ & Fr & Rm). destruct (Rm eq_refl) as [_ Gone]. split.
  - intros [A B]. assert (D : (h, f) <> (hash, name)) by (intros X; injection X as -> ->; contradiction). split; [exact D|]. rewrite Fr in A by exact D. auto.
  - intros (D & A & B). rewrite Fr by exact D. auto.
Qed.
Print Assumptions C56_removed_partial.

(** *** An example: two versions, a file of another program, a folder "x" *)

Definition at_ (s : Z) : meta := Meta (s, 0) 7.
Definition entry_of (name : list Z) (s : Z) : option inner := Some (Inner name false (Some (at_ s))).
Definition two_versions : project := [(1, [(time_name, [0]); (archive_name, [1]); ([98], [2])]); (2 ^ 127, [(archive_name, [3]); ([97], [4]); ([98], [5])])].
Definition listing : list entry :=
  [Some ([120], TFolder None); Some (hash_to_folder_name (2 ^ 127), TFolder (Some [entry_of [98] 9; entry_of archive_name 1; entry_of [97] 5]));
   Some ([121], TOther); Some (hash_to_folder_name 1, TFolder (Some [entry_of archive_name 4; entry_of [98] 5; entry_of time_name 3]))].
Example C56_case : NoDup (map fst two_versions) /\ lists two_versions listing /\
  list_dochy_files (Some listing) = Ok [FileData (2 ^ 127) (5, 0) [97] 7; FileData 1 (5, 0) [98] 7; FileData (2 ^ 127) (9, 0) [98] 7].
Proof.
  split; [vm_compute; repeat constructor; intros []; [discriminate|contradiction]|]. split; [|vm_compute; reflexivity].
  exists [Some (hash_to_folder_name 1, TFolder (Some [entry_of archive_name 4; entry_of [98] 5; entry_of time_name 3]));
          Some (hash_to_folder_name (2 ^ 127), TFolder (Some [entry_of [98] 9; entry_of archive_name 1; entry_of [97] 5]))],
         [Some ([120], TFolder None); Some ([121], TOther)].
  split.
  { unfold listing. generalize (hash_to_folder_name 1) (hash_to_folder_name (2 ^ 127)). intros a b.
    eapply perm_trans; [|apply Permutation_app_comm]. cbn [app]. apply perm_skip. eapply perm_trans; [apply perm_swap|]. apply perm_skip. apply perm_swap. }
  split; [|constructor; [exists [120], (TFolder None); split; [reflexivity|right; split; [eauto|reflexivity]]|constructor; [exists [121], TOther; split; [reflexivity|now left]|constructor]]].
  constructor; [|constructor; [|constructor]].
  - eexists. split; [split; [split; vm_compute; [discriminate|reflexivity]|reflexivity]|].
    exists [Inner time_name false (Some (at_ 3)); Inner archive_name false (Some (at_ 4)); Inner [98] false (Some (at_ 5))].
    split; [|split; [reflexivity|repeat constructor; discriminate]]. cbn [map]. eapply perm_trans; [|apply perm_swap]. apply perm_skip. apply perm_swap.
  - eexists. split; [split; [split; vm_compute; [discriminate|reflexivity]|reflexivity]|].
    exists [Inner archive_name false (Some (at_ 1)); Inner [97] false (Some (at_ 5)); Inner [98] false (Some (at_ 9))].
    split; [|split; [reflexivity|repeat constructor; discriminate]]. cbn [map]. apply (Permutation_app_comm [_] [_; _]).
Qed.

(* ------------------------------------------------------------------ *)
(** * What does not hold *)

(** A folder in the folder of a version is listed as a file. *)
Theorem C56_folder_refuted : forall hash name m, 0 <= hash < 2 ^ 128 -> is_reserved name = false ->
  list_dochy_files (Some [Some (hash_to_folder_name hash, TFolder (Some [Some (Inner name true (Some m))]))]) = Ok [FileData hash (me_modified m) name (me_len m)].
Proof.
  intros hash name m B R. assert (V : version_folder (Some (hash_to_folder_name hash, TFolder (Some [Some (Inner name true (Some m))]))) hash (Some [Some (Inner name true (Some m))])) by (split; [exact B|reflexivity]).
  unfold list_dochy_files. cbn [ok_or bind]. rewrite (next_opens _ _ _ _ V). rewrite collect_entry, collect_end. cbn [bind shown]. rewrite R. reflexivity.
Qed.
Print Assumptions C56_folder_refuted.

(** Whether a folder that cannot be read is an error depends on the order in which the system
    lists the folders: before the first other one it is, after it the files in it are missing
    from the list without notice. *)
Theorem C56_order_refuted : forall hash hash' d, 0 <= hash < 2 ^ 128 -> 0 <= hash' < 2 ^ 128 ->
  let bad := Some (hash_to_folder_name hash, TFolder None) in let good := Some (hash_to_folder_name hash', TFolder (Some d)) in
  list_dochy_files (Some [bad; good]) = Err /\ exists r, list_dochy_files (Some [good; bad]) = Ok r /\ ordered (flat_map (shown hash') d) r.
Proof.
  intros hash hash' d B B' bad good. assert (F : fails bad) by (right; right; exists hash; split; [exact B|reflexivity]).
  assert (V : version_folder good hash' (Some d)) by (split; [exact B'|reflexivity]). split.
  - apply (not_listed [] bad [good]); [constructor|exact F].
  - apply (listed [] good [bad] _); [constructor|exists hash', d; exact V|]. rewrite <- (app_nil_r (flat_map _ _)). apply col_folder; [exact V|]. apply col_other; [now left|constructor].
Qed.
Print Assumptions C56_order_refuted.

(** A folder of another program whose name has 32 bytes, for instance 32 times [A] or
    [-], ends the program. *)
Theorem C56_crash_refuted : forall pre l c, Forall foreign pre -> list_dochy_files (Some (pre ++ Some (repeat 65 32, TFolder c) :: l)) = Panic.
Proof. intros pre l c P. apply crashes; [exact P|]. left. exists (repeat 65 32), c. split; reflexivity. Qed.
Print Assumptions C56_crash_refuted.
