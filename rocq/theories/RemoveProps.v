(** C30 and C31: removing old history files. *)
From Verif Require Import Base CompactionModel StringCompactionModel FileNameModel FileNameSpec DocModel PhaseModel PhaseSpec TreeModel TreeSpec TreeProofs
  HistModel HistSpec HistMainProofs HistProps RemoveModel RemoveSpec RemoveMainProofs RemoveHistProofs RemoveFolderProofs.

(** ** C30  Files kept by a removal can be loaded

    In a history that is [regular] (see the refutations below): the newest [k]
    files are kept, and every kept file loads as before, whichever of the
    removable files were removed before an interruption. *)
Theorem C30_load_partial : forall doc mkdiff appdiff same later, reproduces mkdiff appdiff same later ->
  forall (src : doc) op, (exists b, build b = Ok op) -> forall junk n s F names h k,
  reach mkdiff appdiff later src op (sound_save op) junk n s F -> Z.of_nat n + 1 < 100000000 ->
  regular (max_phase op) (is_cumulative op) (map fst F) ->
  Permutation names (map fst (s_dir doc s)) -> create_file_history names = Ok h ->
  exists l, get_removable_old_items (max_phase op) (is_cumulative op) h k = Ok l /\
    incl l (map fst F) /\ (forall p, In p (lastn k (map fst F)) -> ~ In p l) /\
    forall gone p d id, incl gone l -> In (p, d) F -> ~ In p l -> exists r,
      load_history_file doc appdiff src op id p s = (Ok r, St doc (s_dir doc s) (s_cache doc s) (Some (id, p))) /\ same r d /\
      load_history_file doc appdiff src op id p (St doc (remove_files gone (s_dir doc s)) (s_cache doc s) (s_cur doc s)) =
        (Ok r, St doc (remove_files gone (s_dir doc s)) (s_cache doc s) (Some (id, p))).
Proof. exact @removal_loads. Qed.
Print Assumptions C30_load_partial.

(** any folder, whatever its files were made by: loading succeeds after a removal
    exactly if it did before *)
Theorem C30_folder_partial : forall (dir : hmap (list Z)) fs junk, folder dir fs junk -> separate fs ->
  forall op, (forall p, In p fs -> (phase p <= max_phase op)%nat) -> regular (max_phase op) (is_cumulative op) fs ->
  forall doc appdiff (src : doc) names h n l gone p id id' c cur cur' d s',
  Permutation names (map fst dir) -> create_file_history names = Ok h ->
  get_removable_old_items (max_phase op) (is_cumulative op) h n = Ok l -> incl gone l -> In p fs -> ~ In p l ->
  load_history_file doc appdiff src op id p (St doc dir c cur) = (Ok d, s') ->
  load_history_file doc appdiff src op id' p (St doc (remove_files gone dir) c cur') =
    (Ok d, St doc (remove_files gone dir) c (Some (id', p))).
Proof. exact @load_removed. Qed.
Print Assumptions C30_folder_partial.

(** what no file of the newest [k] needs is removed *)
Theorem C30_removed_partial : forall doc mkdiff appdiff same later, reproduces mkdiff appdiff same later ->
  forall (src : doc) op, (exists b, build b = Ok op) -> forall junk n s F names h k l q,
  reach mkdiff appdiff later src op (sound_save op) junk n s F -> Z.of_nat n + 1 < 100000000 ->
  regular (max_phase op) (is_cumulative op) (map fst F) ->
  Permutation names (map fst (s_dir doc s)) -> create_file_history names = Ok h ->
  get_removable_old_items (max_phase op) (is_cumulative op) h k = Ok l -> In q (map fst F) ->
  (forall p anc, In p (lastn k (map fst F)) -> create_ancestors h p (max_phase op) (is_cumulative op) = Ok anc ->
     ~ kept_for (max_phase op) (is_cumulative op) anc q) ->
  In q l.
Proof. exact @removal_rest. Qed.
Print Assumptions C30_removed_partial.

(** the history can be continued after a removal *)
Theorem C30_continue_partial : forall doc mkdiff appdiff same later, reproduces mkdiff appdiff same later ->
  forall (src : doc) op, (exists b, build b = Ok op) -> forall junk n s F names h k l,
  reach mkdiff appdiff later src op (sound_save op) junk n s F -> Z.of_nat n + 1 < 100000000 ->
  regular (max_phase op) (is_cumulative op) (map fst F) ->
  Permutation names (map fst (s_dir doc s)) -> create_file_history names = Ok h ->
  get_removable_old_items (max_phase op) (is_cumulative op) h k = Ok l ->
  (forall id base, s_cur doc s = Some (id, base) -> ~ In base l) ->
  exists F', reach mkdiff appdiff later src op (sound_save op) junk n
               (St doc (remove_files l (s_dir doc s)) (s_cache doc s) (s_cur doc s)) F' /\
    forall p d, In (p, d) F' <-> In (p, d) F /\ ~ In p l.
Proof. exact @removal_reached. Qed.
Print Assumptions C30_continue_partial.

(** Which histories are [regular]: all without cumulative files (by definition),
    and those with more than one phase that were only ever continued from the
    newest file and from which nothing was removed yet. *)
Theorem C30_linear : forall doc mkdiff appdiff same later, reproduces mkdiff appdiff same later ->
  forall (src : doc) op, (exists b, build b = Ok op) -> forall junk n s F,
  (1 <= max_phase op)%nat -> reach mkdiff appdiff later src op continues junk n s F -> Z.of_nat n + 1 < 100000000 -> length F = n ->
  regular (max_phase op) (is_cumulative op) (map fst F).
Proof. exact @linear_regular. Qed.
Print Assumptions C30_linear.

Theorem C30_not_cumulative : forall maxp files, regular maxp false files.
Proof. intros maxp files E. discriminate E. Qed.
Print Assumptions C30_not_cumulative.

(** ** A linear history with the default options (three phases below the first, cumulative) *)

Definition text : list Z := repeat 0 30.
Definition text2 : list Z := text ++ repeat 1 10.
Definition op3 := default_options.
Definition r1 := Eval vm_compute in snd (sv op3 1 text h0).
Definition r2 := Eval vm_compute in snd (sv op3 1 text2 r1).
Definition r3 := Eval vm_compute in snd (sv op3 1 (text2 ++ [2]) r2).
Definition r4 := Eval vm_compute in snd (sv op3 1 (text2 ++ [2; 3; 3; 3; 3]) r3).
Definition r5 := Eval vm_compute in snd (sv op3 1 (text2 ++ [2; 3; 3; 3; 3; 4]) r4).
Definition r6 := Eval vm_compute in snd (sv op3 1 (text2 ++ [2; 3; 3; 3; 3; 4; 5]) r5).
Definition line_files : list (props * list Z) :=
  [(at_ 0 0 [0], text); (at_ 0 0 [0; 0], text2); (at_ 0 0 [0; 0; 0], text2 ++ [2]); (at_ 0 0 [0; 0; 0; 0], text2 ++ [2; 3; 3; 3; 3]);
   (at_ 0 0 [0; 0; 1], text2 ++ [2; 3; 3; 3; 3; 4]); (at_ 0 0 [0; 0; 1; 0], text2 ++ [2; 3; 3; 3; 3; 4; 5])].

Lemma op3_built : exists b, build b = Ok op3.
Proof. exists op3. reflexivity. Qed.

Ltac newest := intros base E; first [discriminate E|inversion E; reflexivity].
Lemma line_start : reach added extend extends [] op3 continues [src_name] 5 r5 (firstn 5 line_files).
Proof.
  apply (reach_save _ _ _ _ _ _ _ 4 r4 (firstn 4 line_files) exact_greater 1); [|edit|newest|vm_compute; reflexivity].
  apply (reach_save _ _ _ _ _ _ _ 3 r3 (firstn 3 line_files) exact_greater 1); [|edit|newest|vm_compute; reflexivity].
  apply (reach_save _ _ _ _ _ _ _ 2 r2 (firstn 2 line_files) exact_greater 1); [|edit|newest|vm_compute; reflexivity].
  apply (reach_save _ _ _ _ _ _ _ 1 r1 (firstn 1 line_files) exact_greater 1); [|edit|newest|vm_compute; reflexivity].
  apply (reach_save _ _ _ _ _ _ _ 0 h0 [] exact_greater 1); [|edit|newest|vm_compute; reflexivity].
  start.
Qed.
Lemma line_history : reach added extend extends [] op3 continues [src_name] 6 r6 line_files.
Proof. apply (reach_save _ _ _ _ _ _ _ 5 r5 (firstn 5 line_files) exact_greater 1); [exact line_start|edit|newest|vm_compute; reflexivity]. Qed.

Definition as_sound {n s F} : reach added extend extends [] op3 continues [src_name] n s F -> reach added extend extends [] op3 (sound_save op3) [src_name] n s F :=
  reach_mono added extend extends [] op3 [src_name] continues (sound_save op3) (fun _ _ _ _ => or_introl eq_refl) n s F.

(** keeping the newest file keeps the four it needs and the one before one of these *)
Example C30_case : reproduces added extend eq extends /\ (exists b, build b = Ok op3) /\
  reach added extend extends [] op3 (sound_save op3) [src_name] 6 r6 line_files /\
  regular (max_phase op3) (is_cumulative op3) (map fst line_files) /\
  exists h l, create_file_history (map fst (s_dir _ r6)) = Ok h /\ get_removable_old_items 3 true h 1 = Ok l /\
    l = [at_ 0 0 [0; 0; 0; 0]] /\
    (exists s, ld op3 9 (at_ 0 0 [0; 0; 1; 0]) (St _ (remove_files l (s_dir _ r6)) [] None) = (Ok (text2 ++ [2; 3; 3; 3; 3; 4; 5]), s)) /\
    (forall anc, create_ancestors h (at_ 0 0 [0; 0; 1; 0]) 3 true = Ok anc -> ~ kept_for 3 true anc (at_ 0 0 [0; 0; 0; 0])).
Proof.
  split; [exact growing|]. split; [exact op3_built|]. split; [exact (as_sound line_history)|].
  split; [apply (C30_linear _ _ _ _ _ growing [] op3 op3_built [src_name] 6 r6 line_files); [cbn; lia|exact line_history|reflexivity|reflexivity]|].
  eexists. eexists. split; [vm_compute; reflexivity|]. split; [vm_compute; reflexivity|]. split; [reflexivity|]. split; [eexists; vm_compute; reflexivity|].
  intros anc E. vm_compute in E. apply Ok_inj in E. subst anc. intros [J|(_ & a & J & Ph & Ec & Eb & Pq & _)].
  - cbn [In] in J. intuition discriminate.
  - cbn [In] in J. repeat (destruct J as [<-|J]; [cbn in *; congruence|]). destruct J.
Qed.

(** ** Findings *)

(** The default options, only continuing from the newest file: after the save
    "_0_0_0_1" keep the newest file, which removes "_0_0_0_0"; save "_0_0_0_1_0";
    keep the newest file again.  Nothing is left that it can be loaded from. *)
Definition keep_newest op (s : st (list Z)) : st (list Z) :=
  match create_file_history (map fst (s_dir _ s)) with
  | Ok h => match get_removable_old_items (max_phase op) (is_cumulative op) h 1 with
            | Ok l => St _ (remove_files l (s_dir _ s)) (s_cache _ s) (s_cur _ s)
            | _ => s
            end
  | _ => s
  end.
Definition q5 := Eval vm_compute in keep_newest op3 r5.
Definition q6 := Eval vm_compute in snd (sv op3 1 (text2 ++ [2; 3; 3; 3; 3; 4; 5]) q5).
Definition twice_files : list (props * list Z) :=
  [(at_ 0 0 [0], text); (at_ 0 0 [0; 0], text2); (at_ 0 0 [0; 0; 1], text2 ++ [2; 3; 3; 3; 3; 4]); (at_ 0 0 [0; 0; 1; 0], text2 ++ [2; 3; 3; 3; 3; 4; 5])].
Theorem C30_twice_refuted : reach added extend extends [] op3 continues [src_name] 6 q6 twice_files /\
  (exists h l, create_file_history (map fst (s_dir _ q6)) = Ok h /\ get_removable_old_items 3 true h 1 = Ok l /\
     keep_newest op3 q6 = St _ (remove_files l (s_dir _ q6)) (s_cache _ q6) (s_cur _ q6) /\
     list_files h = map fst twice_files /\ ~ In (at_ 0 0 [0; 0; 1; 0]) l) /\
  (exists s, ld op3 9 (at_ 0 0 [0; 0; 1; 0]) q6 = (Ok (text2 ++ [2; 3; 3; 3; 3; 4; 5]), s)) /\
  (forall id, fst (ld op3 id (at_ 0 0 [0; 0; 1; 0]) (keep_newest op3 q6)) = Err) /\
  (* after a restart *)
  forall id p, In p (map fst twice_files) -> fst (ld op3 id p (St _ (s_dir _ (keep_newest op3 q6)) [] None)) = Err.
Proof.
  split.
  - apply (reach_save _ _ _ _ _ _ _ 5 q5 (firstn 3 twice_files) exact_greater 1); [|edit|newest|vm_compute; reflexivity].
    pose proof (reach_remove added extend extends [] op3 continues [src_name] 5 r5 (firstn 5 line_files) (fun name => eqb_bytes name (filename (at_ 0 0 [0; 0; 0])) || eqb_bytes name (filename (at_ 0 0 [0; 0; 0; 0]))) line_start) as R.
    apply R; clear R.
    + apply Forall_cons; [vm_compute; reflexivity|apply Forall_nil].
    + intros p d h' anc J G Ch' Ea. vm_compute in Ch'. apply Ok_inj in Ch'. subst h'. cbn [In firstn line_files] in J.
      repeat (destruct J as [J|J]; [inversion J; subst p; first [vm_compute in G; discriminate G|vm_compute in Ea; apply Ok_inj in Ea; subst anc; repeat (apply Forall_cons; [vm_compute; reflexivity|]); apply Forall_nil]|]). destruct J.
    + intros id base E. inversion E. vm_compute. reflexivity.
  - split; [|split; [|split]].
    + eexists. eexists. split; [vm_compute; reflexivity|]. split; [vm_compute; reflexivity|]. split; [vm_compute; reflexivity|]. split; [vm_compute; reflexivity|]. cbn [In]. intuition discriminate.
    + eexists. vm_compute. reflexivity.
    + intros id. vm_compute. reflexivity.
    + intros id p J. cbn [map fst In twice_files] in J. repeat (destruct J as [<-|J]; [vm_compute; reflexivity|]). destruct J.
Qed.
Print Assumptions C30_twice_refuted.

(** A branch, nothing removed before: with "_0_0", "_0_0_0", "(0)_1_0_0_0",
    "(0)_1_0_1", "_1_0_1_0" keeping the newest file removes "_0_0". *)
Definition g1 := Eval vm_compute in snd (sv op2 1 text h0).
Definition g2 := Eval vm_compute in snd (sv op2 1 (text ++ [1]) g1).
Definition g3 := Eval vm_compute in snd (sv op2 1 (text ++ [1; 2]) g2).
Definition g4 := Eval vm_compute in snd (ld op2 2 (at_ 0 0 [0; 0]) g3).
Definition g5 := Eval vm_compute in snd (sv op2 2 (text ++ [1; 3; 3; 3; 3]) g4).
Definition g6 := Eval vm_compute in snd (sv op2 2 (text ++ [1; 3; 3; 3; 3; 4]) g5).
Definition g7 := Eval vm_compute in snd (sv op2 2 (text ++ [1; 3; 3; 3; 3; 4; 5]) g6).
Definition fork_files : list (props * list Z) :=
  [(at_ 0 0 [0], text); (at_ 0 0 [0; 0], text ++ [1]); (at_ 0 0 [0; 0; 0], text ++ [1; 2]); (at_ 1 0 [0; 0; 0], text ++ [1; 3; 3; 3; 3]);
   (at_ 1 0 [0; 1], text ++ [1; 3; 3; 3; 3; 4]); (at_ 1 1 [0; 1; 0], text ++ [1; 3; 3; 3; 3; 4; 5])].
Theorem C30_fork_refuted : reach added extend extends [] op2 (sound_save op2) [src_name] 6 g7 fork_files /\
  exists h l p d, create_file_history (map fst (s_dir _ g7)) = Ok h /\ get_removable_old_items 2 true h 1 = Ok l /\
    get_newest h = Some p /\ In (p, d) fork_files /\ ~ In p l /\ (exists s, ld op2 9 p g7 = (Ok d, s)) /\
    forall id, fst (ld op2 id p (St _ (remove_files l (s_dir _ g7)) (s_cache _ g7) (s_cur _ g7))) = Err.
Proof.
  split.
  - apply (reach_save _ _ _ _ _ _ _ 5 g6 (firstn 5 fork_files) exact_greater 2); [|edit|left; reflexivity|vm_compute; reflexivity].
    apply (reach_save _ _ _ _ _ _ _ 4 g5 (firstn 4 fork_files) exact_greater 2); [|edit|left; reflexivity|vm_compute; reflexivity].
    apply (reach_save _ _ _ _ _ _ _ 3 g4 (firstn 3 fork_files) exact_greater 2); [|edit|left; reflexivity|vm_compute; reflexivity].
    eapply (reach_load _ _ _ _ _ _ _ 3 g3 _ 2 (at_ 0 0 [0; 0])); [|cbn; auto|vm_compute; reflexivity].
    apply (reach_save _ _ _ _ _ _ _ 2 g2 (firstn 2 fork_files) exact_greater 1); [|edit|left; reflexivity|vm_compute; reflexivity].
    apply (reach_save _ _ _ _ _ _ _ 1 g1 (firstn 1 fork_files) exact_greater 1); [|edit|left; reflexivity|vm_compute; reflexivity].
    apply (reach_save _ _ _ _ _ _ _ 0 h0 [] exact_greater 1); [|edit|left; reflexivity|vm_compute; reflexivity].
    start.
  - eexists. eexists. exists (at_ 1 1 [0; 1; 0]), (text ++ [1; 3; 3; 3; 3; 4; 5]). split; [vm_compute; reflexivity|]. split; [vm_compute; reflexivity|]. split; [vm_compute; reflexivity|].
    split; [cbn; auto 10|]. split; [cbn [In]; intuition discriminate|]. split; [eexists; vm_compute; reflexivity|]. intros id. vm_compute. reflexivity.
Qed.
Print Assumptions C30_fork_refuted.

(** One phase, cumulative: every file needs all before it, but only the newest
    ones are kept. *)
Definition op0c : options := Options 0 true (Some (Cumulative None None)).
Definition f1 := Eval vm_compute in snd (sv op0c 1 [1] h0).
Definition f2 := Eval vm_compute in snd (sv op0c 1 [1; 2] f1).
Definition one_phase_files : list (props * list Z) := [(at_ 0 0 [0], [1]); (at_ 0 0 [1], [1; 2])].
Theorem C30_one_phase_refuted : (exists b, build b = Ok op0c) /\
  reach added extend extends [] op0c continues [src_name] 2 f2 one_phase_files /\
  exists h l, create_file_history (map fst (s_dir _ f2)) = Ok h /\ get_removable_old_items 0 true h 1 = Ok l /\
    (exists s, ld op0c 9 (at_ 0 0 [1]) f2 = (Ok [1; 2], s)) /\
    fst (ld op0c 9 (at_ 0 0 [1]) (St _ (remove_files l (s_dir _ f2)) (s_cache _ f2) (s_cur _ f2))) = Err.
Proof.
  split; [exists op0c; reflexivity|]. split.
  - apply (reach_save _ _ _ _ _ _ _ 1 f1 (firstn 1 one_phase_files) exact_greater 1); [|edit|newest|vm_compute; reflexivity].
    apply (reach_save _ _ _ _ _ _ _ 0 h0 [] exact_greater 1); [|edit|newest|vm_compute; reflexivity].
    start.
  - eexists. eexists. split; [vm_compute; reflexivity|]. split; [vm_compute; reflexivity|]. split; [eexists; vm_compute; reflexivity|vm_compute; reflexivity].
Qed.
Print Assumptions C30_one_phase_refuted.

(** ** C31  Removing across source versions

    The newest [n] files keep their content; all of a source folder goes exactly
    if the folders after it have more than [n] files. *)
Theorem C31_newest : forall A maxp cum vec n (fs : folders A), histories_of fs vec -> exists fs',
  remove_old_files maxp cum vec n fs = (Ok tt, fs') /\
  (forall hash p, In (hash, p) (lastn n (all_files vec)) -> exists dir dir' content,
     get_folder hash fs = Some dir /\ get_folder hash fs' = Some dir' /\
     hget (filename p) dir = Some content /\ hget (filename p) dir' = Some content) /\
  (forall k hash h, (1 <= n)%nat -> nth_error vec k = Some (hash, h) ->
     (get_folder hash fs' = None <-> (n < length (all_files (skipn (S k) vec)))%nat)) /\
  (forall hash, ~ In hash (map fst vec) -> get_folder hash fs' = get_folder hash fs).
Proof. exact @remove_old_ok. Qed.
Print Assumptions C31_newest.

(** three source folders with two, one and six files; seven are kept *)
Definition tree_of (s : st (list Z)) : tree := match create_file_history (map fst (s_dir _ s)) with Ok h => h | _ => Node [] [] end.
Definition three : folders (list Z) := [(7, s_dir _ r2); (8, s_dir _ r1); (9, s_dir _ r6)].
Definition three_vec : list (Z * tree) := [(7, tree_of r2); (8, tree_of r1); (9, tree_of r6)].
Definition counts (fs : folders (list Z)) : list (Z * nat) := map (fun e => (fst e, length (snd e))) fs.

Lemma line_folders : forall k s, In (k, s) [(6%nat, r6); (2%nat, r2); (1%nat, r1)] -> folder (s_dir _ s) (map fst (firstn k line_files)) [src_name].
Proof.
  intros k s J. cbn [In] in J. destruct J as [J|[J|[J|[]]]]; inversion J; subst k s;
  (split; [vm_compute; repeat (apply NoDup_cons; [cbn [In]; intuition congruence|]); apply NoDup_nil|];
   split; [apply (Permutation_app_comm [src_name])|]; split; [|split];
   [repeat (apply Forall_cons; [unfold valid_props, u32; cbn; repeat split; try lia; try discriminate; repeat (apply Forall_cons; [lia|]); apply Forall_nil|]); apply Forall_nil
   |repeat (apply Forall_cons; [unfold readable; cbn; repeat split; try lia; repeat (apply Forall_cons; [lia|]); apply Forall_nil|]); apply Forall_nil
   |apply Forall_cons; [vm_compute; reflexivity|apply Forall_nil]]).
Qed.

Example C31_case : histories_of three three_vec /\ length (all_files three_vec) = 9%nat /\
  counts (snd (remove_old_files 3 true three_vec 7 three)) = [(7, 3%nat); (8, 2%nat); (9, 7%nat)] /\
  counts (snd (remove_old_files 3 true three_vec 6 three)) = [(8, 2%nat); (9, 7%nat)] /\
  counts (snd (remove_old_files 3 true three_vec 1 three)) = [(9, 6%nat)] /\
  counts (snd (remove_old_files 3 true three_vec 0 three)) = [].
Proof.
  split.
  - split; [cbn; repeat (apply NoDup_cons; [cbn [In]; intuition congruence|]); apply NoDup_nil|]. intros hash h J. cbn [In three_vec] in J. destruct J as [J|[J|[J|[]]]]; inversion J; subst hash h.
    + exists (s_dir _ r2), (map fst (firstn 2 line_files)), [src_name], (map fst (s_dir _ r2)). split; [reflexivity|]. split; [apply line_folders; cbn; auto|]. split; [reflexivity|vm_compute; reflexivity].
    + exists (s_dir _ r1), (map fst (firstn 1 line_files)), [src_name], (map fst (s_dir _ r1)). split; [reflexivity|]. split; [apply line_folders; cbn; auto|]. split; [reflexivity|vm_compute; reflexivity].
    + exists (s_dir _ r6), (map fst (firstn 6 line_files)), [src_name], (map fst (s_dir _ r6)). split; [reflexivity|]. split; [apply line_folders; cbn; auto|]. split; [reflexivity|vm_compute; reflexivity].
  - repeat split; vm_compute; reflexivity.
Qed.

(** ** C46  The newest file across source versions is the last listed *)

Theorem C46_newest_partial : forall A vec (fs : folders A), histories_of fs vec ->
  (forall hash h, last_of vec = Some (hash, h) -> list_files h <> []) ->
  all_newest vec = last_of (all_files vec).
Proof. exact @newest_all. Qed.
Print Assumptions C46_newest_partial.

Example C46_case : all_newest three_vec = Some (9, at_ 0 0 [0; 0; 1; 0]) /\
  (forall hash h, last_of three_vec = Some (hash, h) -> list_files h <> []).
Proof. split; [vm_compute; reflexivity|]. intros hash h E. inversion E. vm_compute. discriminate. Qed.

(** a new source whose folder was prepared but has no history file yet: there are
    files, but no newest one *)
Definition prepared : folders (list Z) := [(7, s_dir _ r2); (9, s_dir _ h0)].
Definition prepared_vec : list (Z * tree) := [(7, tree_of r2); (9, tree_of h0)].
Theorem C46_newest_refuted : histories_of prepared prepared_vec /\ length (all_files prepared_vec) = 2%nat /\ all_newest prepared_vec = None.
Proof.
  split; [|split; vm_compute; reflexivity]. split; [cbn; repeat (apply NoDup_cons; [cbn [In]; intuition congruence|]); apply NoDup_nil|].
  intros hash h J. cbn [In prepared_vec] in J. destruct J as [J|[J|[]]]; inversion J; subst hash h.
  - exists (s_dir _ r2), (map fst (firstn 2 line_files)), [src_name], (map fst (s_dir _ r2)). split; [reflexivity|]. split; [apply line_folders; cbn; auto|]. split; [reflexivity|vm_compute; reflexivity].
  - exists (s_dir _ h0), [], [src_name], (map fst (s_dir _ h0)). split; [reflexivity|]. split; [|split; [reflexivity|vm_compute; reflexivity]].
    split; [apply NoDup_cons; [intros []|apply NoDup_nil]|]. split; [reflexivity|]. split; [constructor|]. split; [constructor|]. apply Forall_cons; [vm_compute; reflexivity|apply Forall_nil].
Qed.
Print Assumptions C46_newest_refuted.
