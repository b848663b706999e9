(** C55: what a process knows of sources. *)
From Coq Require Import String.
From Verif Require Import Base StringCompactionModel FileNameModel DocModel PhaseModel TreeModel HistModel HistSpec HistMainProofs RemoveModel FolderModel FolderSpec FolderProofs JsonModel JsonProps ArchiveModel ValidModel SourceModel SourceSpec SourceProofs.

(* ------------------------------------------------------------------ *)
(** * What holds if sources do not change while they are in use *)

(** the info of a folder is that of a source as it is now, and so is that of a history; an info
    that is forced is that of the source asked for *)
Theorem C55_current_partial : forall doc V opt read pack eqb_opt mkdiff place d f es st,
  (forall i, right_archives read pack (f i)) -> calm [] d es -> st = @session doc V opt read pack eqb_opt mkdiff place es (State d started f) ->
  (forall dir s j p, create_info read (st_disk st) dir s (st_proc st) = (Ok j, p) -> di_dir j = dir /\ read (di_src j) (st_disk st (di_src j)) = Ok (di_root j, di_hash j)) /\
  (forall dir s j p, force_info read (st_disk st) dir s (st_proc st) = (Ok j, p) -> di_dir j = dir /\ di_src j = s /\ read s (st_disk st s) = Ok (di_root j, di_hash j)) /\
  (forall dir j, peek dir (st_proc st) = Ok j -> read (hi_src j) (st_disk st (hi_src j)) = Ok (hi_root j, hi_hash j)).
Proof. exact @infos_current. Qed.
Print Assumptions C55_current_partial.

(** the archive in a folder is that of a source whose hash names the folder *)
Theorem C55_archives_partial : forall doc V opt read pack eqb_opt mkdiff place d f es i,
  (forall i, right_archives read pack (f i)) -> calm [] d es ->
  right_archives read pack (st_projects (@session doc V opt read pack eqb_opt mkdiff place es (State d started f)) i).
Proof. exact @archives_right. Qed.
Print Assumptions C55_archives_partial.

(** a document that is saved then can be loaded with every source: with one of the same hash it
    is the document, with another it is the document adjusted to that *)
Theorem C55_loads_partial : forall doc V opt read pack eqb_opt mkdiff place appdiff archive_root adjust same later d f es st now dir name x overwrite fs' j,
  reproduces mkdiff appdiff same later -> coherent read pack archive_root same ->
  (forall i, right_archives read pack (f i)) -> calm [] d es -> st = @session doc V opt read pack eqb_opt mkdiff place es (State d started f) ->
  plain name -> name <> archive_name -> find_path dir (pr_dirs (st_proc st)) = Some j -> later (di_root j) x ->
  save_in pack mkdiff now (st_disk st) dir name x overwrite (st_proc st) (st_projects st (place dir)) = (Ok tt, fs') ->
  forall s v root hash a, read s v = Ok (root, hash) -> exists r,
    load_dochy_file doc appdiff archive_root adjust (Source hash root a) (di_hash j) name fs' = (if hash =? di_hash j then Ok r else adjust root r) /\ same r x.
Proof. intros. eapply saved_loads; eassumption. Qed.
Print Assumptions C55_loads_partial.

(** a history is opened with the source and the options asked for, or not at all *)
Theorem C55_history : forall doc V opt (read : current_src -> V -> res (doc * Z)) (eqb_opt : opt -> opt -> bool) d dir s o p x p', (forall o, eqb_opt o o = true) ->
  create_hist read eqb_opt d dir s o p = (Ok x, p') -> x = dir /\ exists j, peek dir p' = Ok j /\ hi_src j = s /\ eqb_opt (hi_opt j) o = true.
Proof. exact @hist_created. Qed.
Print Assumptions C55_history.

(* ------------------------------------------------------------------ *)
(** *** An example: the text of a source is a number, its document a list with this number *)

Definition read_num (s : current_src) (v : Z) : res (list Z * Z) := if v <? 0 then Panic else if v =? 0 then Err else Ok ([v], v).
Definition pack_num (s : current_src) (v : Z) : archive := Archive [v] true.
Definition root_num (bytes : list Z) : res (list Z) := Ok bytes.
Definition keep_num (new old : list Z) : res (list Z) := Ok old.
Definition here (p : path) : Z := match p with 47 :: c :: _ => c | c :: _ => c | [] => 0 end.
Definition src_a : current_src := SrcDir [97].
Definition src_b : current_src := SrcDir [98].
Definition two_sources (v w : Z) : current_src -> Z := fun s => if eqb_src s src_a then v else w.
Definition event_num := @event (list Z) Z Z.
Definition session_num (es : list event_num) (v w : Z) := session read_num pack_num Z.eqb added here es (State (two_sources v w) started (fun _ => [])).
Definition at_five : systime := (5, 0).
Definition save_dir : path := [115].
Definition hist_dir : path := [104].
Definition file_x : list Z := [120].

(** a process saves a document, the source changes, the next process saves another one, and is
    told of a second source *)
Definition versions : list event_num :=
  [Create save_dir src_a; Save at_five save_dir file_x [1; 7] false; Restart; Edit (two_sources 2 3); Create save_dir src_a; Edit (two_sources 2 4);
   CreateHist hist_dir src_b 10; Prepare at_five hist_dir; Save at_five save_dir file_x [2; 8] false].

Example C55_case : calm [] (two_sources 1 3) versions /\ (forall i : Z, right_archives read_num pack_num ((fun _ => []) i)) /\
  coherent read_num pack_num root_num eq /\
  (exists j p, create_info read_num (st_disk (session_num versions 1 3)) save_dir src_a (st_proc (session_num versions 1 3)) = (Ok j, p) /\ di_root j = [2] /\ di_hash j = 2) /\
  (exists j, peek hist_dir (st_proc (session_num versions 1 3)) = Ok j /\ hi_hash j = 4) /\
  (let fs := st_projects (session_num versions 1 3) 115 in
   read_at 1 archive_name fs = Some [1] /\ read_at 2 archive_name fs = Some [2] /\
   load_dochy_file _ extend root_num keep_num (Source 2 [2] (pack_num src_a 2)) 1 file_x fs = Ok [1; 7] /\
   load_dochy_file _ extend root_num keep_num (Source 2 [2] (pack_num src_a 2)) 2 file_x fs = Ok [2; 8]) /\
  read_at 4 archive_name (st_projects (session_num versions 1 3) 104) = Some [4].
Proof.
  assert (Pl : plain file_x /\ file_x <> archive_name).
  { split; [|discriminate]. unfold plain, file_x. split; [intros [H|[]]; discriminate H|]. split; [intros [H|[]]; discriminate H|]. split; [|split]; discriminate. }
  split.
  { cbn [calm versions]. destruct Pl as [P N]. split; [exact P|]. split; [exact N|]. split; [intros s []|]. split; [|split; [exact P|split; [exact N|exact I]]].
    intros s [<-|[]]. reflexivity. }
  split; [intros i hash bytes H; discriminate H|].
  split.
  { split.
    - intros s v root hash. unfold read_num. destruct (v <? 0); [discriminate|]. destruct (v =? 0); [discriminate|]. intros H. apply Ok_inj, pair_equal_spec in H as [<- _].
      exists [v]. split; reflexivity.
    - intros s v root s' v' root' hash. unfold read_num. destruct (v <? 0); [discriminate|]. destruct (v =? 0); [discriminate|]. destruct (v' <? 0); [discriminate|]. destruct (v' =? 0); [discriminate|].
      intros H H'. apply Ok_inj, pair_equal_spec in H as [<- <-]. apply Ok_inj, pair_equal_spec in H' as [<- ->]. reflexivity. }
  split; [do 2 eexists; split; [vm_compute; reflexivity|split; vm_compute; reflexivity]|].
  split; [eexists; split; vm_compute; reflexivity|].
  split; [|vm_compute; reflexivity].
  split; [vm_compute; reflexivity|]. split; [vm_compute; reflexivity|]. split; vm_compute; reflexivity.
Qed.

(* ------------------------------------------------------------------ *)
(** * What does not hold *)

(** Asked for a folder with another source than before, the process answers with the source of
    before; so it does for every two sources. *)
Theorem C55_source_refuted : forall doc V opt (read : current_src -> V -> res (doc * Z)) d dir s1 s2 root1 hash1 root2 hash2,
  s1 <> s2 -> read s1 (d s1) = Ok (root1, hash1) -> read s2 (d s2) = Ok (root2, hash2) ->
  exists j p p', create_info read d dir s1 (@started doc opt) = (Ok j, p) /\ create_info read d dir s2 p = (Ok j, p') /\ di_src j = s1 /\ di_hash j = hash1 /\ di_root j = root1.
Proof.
  intros doc V opt read d dir s1 s2 root1 hash1 root2 hash2 N R1 R2. do 3 eexists. split; [|split; [|split; [|split]]].
  - unfold create_info, put_dir_info, get_current_src_info. cbn [started pr_dirs_poisoned pr_dirs pr_srcs pr_srcs_poisoned find_path find_src]. rewrite R1. reflexivity.
  - unfold create_info. cbn [pr_dirs_poisoned pr_dirs find_path]. rewrite FolderProofs.eqb_bytes_refl. reflexivity.
  - reflexivity.
  - reflexivity.
  - reflexivity.
Qed.
Print Assumptions C55_source_refuted.

(** Once read, a source is never read again by the process: forcing the info gives what the
    source was at first, in this and in every other folder, whatever was edited since. *)
Theorem C55_update_refuted : forall doc V opt read pack eqb_opt mkdiff place d dir s p j p' d' es st,
  force_info read d dir s p = (Ok j, p') -> restarts es = false -> st = @session doc V opt read pack eqb_opt mkdiff place es (State d' p' (fun _ => [])) ->
  forall dir' j' p'', force_info read (st_disk st) dir' s (st_proc st) = (Ok j', p'') -> di_root j' = di_root j /\ di_hash j' = di_hash j /\ di_src j' = di_src j.
Proof. intros. eapply forced_same; eassumption. Qed.
Print Assumptions C55_update_refuted.

Example C55_update_case : let st := session_num [Create save_dir src_a; Edit (two_sources 2 3)] 1 3 in
  exists j p, force_info read_num (st_disk st) save_dir src_a (st_proc st) = (Ok j, p) /\ di_hash j = 1 /\ read_num src_a (st_disk st src_a) = Ok ([2], 2).
Proof. do 2 eexists. split; [vm_compute; reflexivity|]. split; vm_compute; reflexivity. Qed.

(** If the source is edited before the first save, its new archive is put into the folder of its
    old hash, whatever the versions are; what is saved there is a difference to the old one. *)
Theorem C55_archive_refuted : forall doc V opt (read : current_src -> V -> res (doc * Z)) pack eqb_opt mkdiff place s v1 v2 root1 hash1 diff dir name x now b,
  read s v1 = Ok (root1, hash1) -> mkdiff root1 x = Ok diff -> a_complete (pack s v2) = true -> create_time_dat now = Ok b ->
  plain name -> is_reserved name = false ->
  let st := @session doc V opt read pack eqb_opt mkdiff place [Create dir s; Edit (fun _ => v2); Save now dir name x false] (State (fun _ => v1) started (fun _ => [])) in
  read_at hash1 archive_name (st_projects st (place dir)) = Some (a_bytes (pack s v2)) /\ read_at hash1 name (st_projects st (place dir)) = Some diff.
Proof.
  intros doc V opt read pack eqb_opt mkdiff place s v1 v2 root1 hash1 diff dir name x now b R D C T P Rs st.
  assert (Na : eqb_bytes name archive_name = false) by (unfold is_reserved in Rs; apply orb_false_elim in Rs as [X _]; exact X).
  assert (Nt : eqb_bytes time_name name = false).
  { destruct (eqb_bytes time_name name) eqn:E; [|reflexivity]. apply eqb_bytes_true in E. subst name. discriminate Rs. }
  assert (Nb : eqb_bytes archive_name name = false).
  { destruct (eqb_bytes archive_name name) eqn:E; [|reflexivity]. apply eqb_bytes_true in E. subst name. discriminate Na. }
  assert (Sv : st_projects st (place dir) = [(hash1, [(time_name, b); (archive_name, a_bytes (pack s v2)); (name, diff)])]).
  { unfold st. cbn [session happen st_projects]. unfold set_project. rewrite Z.eqb_refl.
    unfold create_info, put_dir_info, get_current_src_info. cbn [started pr_dirs_poisoned pr_dirs pr_srcs pr_srcs_poisoned pr_hists pr_hists_poisoned find_path find_src].
    rewrite R. cbn [snd]. unfold save_in. cbn [pr_dirs_poisoned pr_dirs find_path]. rewrite FolderProofs.eqb_bytes_refl. cbn [di_hash di_root di_src si_hash si_root si_src].
    unfold save_dochy_file, prepare_hash_dir, make_hash_dir. cbn [so_archive so_hash so_root get_folder bt_get]. rewrite T. cbn [app].
    unfold read_at at 1. cbn [get_folder bt_get]. rewrite Z.eqb_refl. cbn [hget]. change (eqb_bytes time_name archive_name) with false. cbv iota beta.
    rewrite C. unfold write_at, in_folder. cbn [map fst snd]. rewrite Z.eqb_refl. cbn [hset]. change (eqb_bytes time_name archive_name) with false. cbv iota.
    rewrite (resolve_plain _ _ _ P). unfold read_at. cbn [get_folder bt_get]. rewrite Z.eqb_refl. cbn [hget]. rewrite Nt, Nb. cbn [andb]. rewrite D. cbn [snd map fst]. rewrite Z.eqb_refl. cbn [hset]. rewrite Nt, Nb. reflexivity. }
  rewrite Sv. unfold read_at. cbn [get_folder bt_get]. rewrite Z.eqb_refl. cbn [hget]. change (eqb_bytes time_name archive_name) with false. cbv iota.
  rewrite FolderProofs.eqb_bytes_refl, Nt, Nb, FolderProofs.eqb_bytes_refl. split; reflexivity.
Qed.
Print Assumptions C55_archive_refuted.

(** The next process, which reads the new source, then loads another document than was saved:
    the difference to version 1 is applied to version 2. *)
Theorem C55_lost_refuted : let st := session_num [Create save_dir src_a; Edit (two_sources 2 3); Save at_five save_dir file_x [1; 7] false; Restart; Create save_dir src_a] 1 3 in
  exists j p, create_info read_num (st_disk st) save_dir src_a (st_proc st) = (Ok j, p) /\ di_hash j = 2 /\
    load_dochy_file _ extend root_num keep_num (Source (di_hash j) (di_root j) (pack_num src_a 2)) 1 file_x (st_projects st 115) = Ok [2; 7].
Proof. do 2 eexists. split; [vm_compute; reflexivity|]. split; vm_compute; reflexivity. Qed.
Print Assumptions C55_lost_refuted.

(** A source that panics takes all others with it: until it is started again the process panics
    whenever it is asked for a folder, known or not, or saves to one. *)
Theorem C55_panic_refuted : forall doc V opt read pack eqb_opt mkdiff place d dir s p d' f es st,
  pr_dirs_poisoned p = false -> find_path dir (pr_dirs p) = None -> find_src s (pr_srcs p) = None -> read s (d s) = Panic ->
  restarts es = false -> st = @session doc V opt read pack eqb_opt mkdiff place es (State d' (snd (create_info read d dir s p)) f) ->
  forall dir' s', fst (create_info read (st_disk st) dir' s' (st_proc st)) = Panic /\ fst (force_info read (st_disk st) dir' s' (st_proc st)) = Panic /\
    (forall o, find_path dir' (pr_hists (st_proc st)) = None -> fst (create_hist read eqb_opt (st_disk st) dir' s' o (st_proc st)) = Panic) /\
    (forall now name x overwrite fs, save_in pack mkdiff now (st_disk st) dir' name x overwrite (st_proc st) fs = (Panic, fs)).
Proof.
  intros doc V opt read pack eqb_opt mkdiff place d dir s p d' f es st Pd Fp Fs R Re -> dir' s'.
  assert (S0 : spoiled (snd (create_info read d dir s p)) \/ pr_srcs_poisoned p = true /\ pr_dirs_poisoned (snd (create_info read d dir s p)) = true /\ pr_srcs_poisoned (snd (create_info read d dir s p)) = true).
  { unfold create_info, put_dir_info, get_current_src_info. rewrite Pd, Fp. destruct (pr_srcs_poisoned p) eqn:Po; [right; cbn [snd pr_dirs_poisoned pr_srcs_poisoned]; auto|left].
    rewrite Fs, R. split; reflexivity. }
  assert (S1 : spoiled (snd (create_info read d dir s p))) by (destruct S0 as [S|(_ & A & B)]; [exact S|split; assumption]). clear S0.
  assert (S := spoiled_stays read pack eqb_opt mkdiff place es (State d' (snd (create_info read d dir s p)) f) Re S1).
  set (st := session read pack eqb_opt mkdiff place es (State d' (snd (create_info read d dir s p)) f)) in *. destruct S as [A B].
  split; [unfold create_info; rewrite B; reflexivity|]. split; [unfold force_info; rewrite B; reflexivity|]. split.
  - intros o N. unfold create_hist, put_hist_info, get_current_src_info. destruct (pr_hists_poisoned (st_proc st)); [reflexivity|]. rewrite N, A. reflexivity.
  - intros now name x ow fs. unfold save_in. rewrite B. reflexivity.
Qed.
Print Assumptions C55_panic_refuted.

(** Such sources are those of C44: a member [a] and a member [a?]. *)
Example C55_panic_case : let read := fun (_ : current_src) (j : jval) => r <- load_root sample_addr in_place (texts [j]) [(txt "src/root.json5", [0])] false ; Ok (r, 1) in
  read src_a (JMap [(txt "a", JInt 1); (txt "a?", JInt 2)]) = Panic /\
  let st := session_num [Create save_dir src_b; Create hist_dir src_a] (-1) 3 in
  fst (create_info read_num (st_disk st) save_dir src_b (st_proc st)) = Panic /\
  save_in pack_num added at_five (st_disk st) save_dir file_x [3; 4] true (st_proc st) [] = (Panic, []).
Proof. split; [vm_compute; reflexivity|]. split; vm_compute; reflexivity. Qed.

(** The check of histories looks at the path as it is written: one folder under two paths is
    opened with two sources (and has two locks). *)
Theorem C55_alias_refuted : forall doc V opt (read : current_src -> V -> res (doc * Z)) eqb_opt (place : path -> Z) d dir1 dir2 s1 s2 o root1 hash1 root2 hash2,
  dir1 <> dir2 -> place dir1 = place dir2 -> s1 <> s2 -> read s1 (d s1) = Ok (root1, hash1) -> read s2 (d s2) = Ok (root2, hash2) ->
  exists p1 p2, create_hist read eqb_opt d dir1 s1 o (@started doc opt) = (Ok dir1, p1) /\ fst (create_hist read eqb_opt d dir1 s2 o p1) = Err /\
    create_hist read eqb_opt d dir2 s2 o p1 = (Ok dir2, p2) /\
    exists j1 j2, peek dir1 p2 = Ok j1 /\ peek dir2 p2 = Ok j2 /\ hi_hash j1 = hash1 /\ hi_hash j2 = hash2.
Proof.
  intros doc V opt read eqb_opt place d dir1 dir2 s1 s2 o root1 hash1 root2 hash2 N _ S R1 R2.
  assert (E : eqb_src s1 s2 = false) by (destruct (eqb_src s1 s2) eqn:X; [apply eqb_src_eq in X; contradiction|reflexivity]).
  assert (F : eqb_bytes dir1 dir2 = false) by (apply eqb_bytes_false; exact N).
  assert (G : eqb_bytes dir2 dir1 = false) by (apply eqb_bytes_false; intros X; apply N; symmetry; exact X).
  do 2 eexists. split; [|split; [|split]].
  - unfold create_hist, put_hist_info, get_current_src_info. cbn [started pr_hists_poisoned pr_hists pr_srcs pr_srcs_poisoned pr_dirs pr_dirs_poisoned find_path find_src]. rewrite R1. reflexivity.
  - unfold create_hist. cbn [pr_hists_poisoned pr_hists find_path]. rewrite FolderProofs.eqb_bytes_refl. cbn [hi_src]. rewrite E. reflexivity.
  - unfold create_hist, put_hist_info, get_current_src_info. cbn [pr_hists_poisoned pr_hists pr_srcs pr_srcs_poisoned pr_dirs pr_dirs_poisoned find_path find_src]. rewrite F, E, R2. reflexivity.
  - unfold peek. cbn [pr_hists_poisoned pr_hists find_path]. rewrite G, !FolderProofs.eqb_bytes_refl. do 2 eexists. split; [reflexivity|]. split; [reflexivity|]. split; reflexivity.
Qed.
Print Assumptions C55_alias_refuted.
