(** C27, C28, C29, C32 and C33: histories of saves and loads. *)
From Verif Require Import Base CompactionModel FileNameModel FileNameSpec DocModel PhaseModel PhaseSpec TreeModel TreeSpec TreeProofs
  HistModel HistSpec HistMainProofs.

(** ** C27  A save never overwrites a history file and becomes the newest

    For every folder, cache, base file and difference implementation.  Saves
    without a tag (see C27_tag_refuted); the numbers of the files there are below
    99999999 (see C27_digits_refuted). *)
Theorem C27_new_newest_partial : forall doc mkdiff appdiff (src : doc) op greater id d fs junk s p s',
  folder (s_dir doc s) fs junk -> Forall room fs ->
  (forall id base, s_cur doc s = Some (id, base) -> valid_props base /\ room base) ->
  save_history_file doc mkdiff appdiff src op greater None id d s = (Ok p, s') ->
  ~ In (filename p) (map fst (s_dir doc s)) /\ folder (s_dir doc s') (fs ++ [p]) junk /\
  (forall name content, hget name (s_dir doc s) = Some content -> hget name (s_dir doc s') = Some content) /\
  (forall names, Permutation names (map fst (s_dir doc s')) ->
     exists h, create_file_history names = Ok h /\ get_newest h = Some p).
Proof. exact @save_new. Qed.
Print Assumptions C27_new_newest_partial.

(** in a history *)
Theorem C27_reached_partial : forall doc mkdiff appdiff same later, reproduces mkdiff appdiff same later ->
  forall (src : doc) op, (exists b, build b = Ok op) -> forall junk greater n s F id d p s',
  reach mkdiff appdiff later src op (sound_save op) junk n s F -> Z.of_nat n + 1 < 100000000 ->
  save_history_file doc mkdiff appdiff src op greater None id d s = (Ok p, s') ->
  ~ In (filename p) (map fst (s_dir doc s)) /\
  (forall name content, hget name (s_dir doc s) = Some content -> hget name (s_dir doc s') = Some content) /\
  (forall names, Permutation names (map fst (s_dir doc s')) -> exists h, create_file_history names = Ok h /\ get_newest h = Some p).
Proof. exact @reached_new. Qed.
Print Assumptions C27_reached_partial.

(** ** C28  Every history file can be loaded and gives the saved document

    [reach]: any sequence of saves without tags, loads, restarts and removals, of
    fewer than 99999999 saves, for any options the builder accepts and any
    implementation of differences satisfying C14.  [sound_save] excludes one kind
    of save (see C28_branch_refuted). *)
Theorem C28_load_partial : forall doc mkdiff appdiff same later, reproduces mkdiff appdiff same later ->
  forall (src : doc) op, (exists b, build b = Ok op) -> forall junk n s F id p d,
  reach mkdiff appdiff later src op (sound_save op) junk n s F -> Z.of_nat n + 1 < 100000000 -> In (p, d) F ->
  exists r, load_history_file doc appdiff src op id p s = (Ok r, St doc (s_dir doc s) (s_cache doc s) (Some (id, p))) /\ same r d.
Proof. exact @load_reached. Qed.
Print Assumptions C28_load_partial.

(** a save in a history succeeds, or fails without changing anything because the
    base file cannot be continued (see C29_flat_refuted) *)
Theorem C28_save_partial : forall doc mkdiff appdiff same later, reproduces mkdiff appdiff same later ->
  forall (src : doc) op, (exists b, build b = Ok op) -> forall junk greater n s F id d s' r,
  reach mkdiff appdiff later src op (sound_save op) junk n s F -> Z.of_nat n + 1 < 100000000 ->
  edited later src s F id d -> limited op ->
  save_history_file doc mkdiff appdiff src op greater None id d s = (r, s') ->
  (exists p, r = Ok p) \/
  (r = Err /\ s' = s /\ exists base, s_cur doc s = Some (id, base) /\ ~ continuable op (map fst F) base).
Proof. exact @failed_save. Qed.
Print Assumptions C28_save_partial.

(** ** C29  Files derived from an older version can be loaded

    Load [p], edit, save: the new file [q] and all others can be loaded, the
    other files are as they were, and the history can be continued. *)
Theorem C29_branch_partial : forall doc mkdiff appdiff same later, reproduces mkdiff appdiff same later ->
  forall (src : doc) op, (exists b, build b = Ok op) -> forall junk greater n s F id p d d',
  reach mkdiff appdiff later src op (sound_save op) junk n s F -> Z.of_nat n + 2 < 100000000 ->
  In (p, d) F -> later src d' -> later d d' -> limited op -> continuable op (map fst F) p ->
  (is_cumulative op = true \/ (phase p < max_phase op)%nat \/ p_prev p = p_control p \/
   exists q, In q (map fst F) /\ earlier (position p) (position q)) ->
  exists r s1 q s2,
    load_history_file doc appdiff src op id p s = (Ok r, s1) /\ same r d /\
    save_history_file doc mkdiff appdiff src op greater None id d' s1 = (Ok q, s2) /\
    ~ In (filename q) (map fst (s_dir doc s)) /\
    (forall name content, hget name (s_dir doc s) = Some content -> hget name (s_dir doc s2) = Some content) /\
    reach mkdiff appdiff later src op (sound_save op) junk (S n) s2 (F ++ [(q, d')]) /\
    forall id' x dx, In (x, dx) (F ++ [(q, d')]) ->
      exists r' s3, load_history_file doc appdiff src op id' x s2 = (Ok r', s3) /\ same r' dx.
Proof. exact @branch. Qed.
Print Assumptions C29_branch_partial.

(** ** C32  In a history the listing is the order of saving *)

Theorem C32_saving_order : forall doc mkdiff appdiff same later, reproduces mkdiff appdiff same later ->
  forall (src : doc) op, (exists b, build b = Ok op) -> forall junk n s F names,
  reach mkdiff appdiff later src op (sound_save op) junk n s F -> Z.of_nat n + 1 < 100000000 ->
  Permutation names (map fst (s_dir doc s)) ->
  exists h, create_file_history names = Ok h /\ list_files h = map fst F /\ get_newest h = last_of (map fst F).
Proof. exact @reached_list. Qed.
Print Assumptions C32_saving_order.

(** ** C33  The cache never changes a result *)

Theorem C33_load : forall doc mkdiff appdiff same later, reproduces mkdiff appdiff same later ->
  forall (src : doc) op, (exists b, build b = Ok op) -> forall junk n s F id p d,
  reach mkdiff appdiff later src op (sound_save op) junk n s F -> Z.of_nat n + 1 < 100000000 -> In (p, d) F ->
  exists r s1 r' s1', load_history_file doc appdiff src op id p s = (Ok r, s1) /\
    load_history_file doc appdiff src op id p (St doc (s_dir doc s) [] (s_cur doc s)) = (Ok r', s1') /\
    same r d /\ same r' d /\ same r r'.
Proof. exact @cache_load. Qed.
Print Assumptions C33_load.

(** a save with the cache succeeds only if the save without does, creates the
    same file, and all files then give the same documents *)
Theorem C33_save : forall doc mkdiff appdiff same later, reproduces mkdiff appdiff same later ->
  forall (src : doc) op, (exists b, build b = Ok op) -> forall junk greater n s F id d p s1,
  reach mkdiff appdiff later src op (sound_save op) junk n s F -> Z.of_nat n + 2 < 100000000 ->
  edited later src s F id d -> sound_save op s F id -> limited op ->
  save_history_file doc mkdiff appdiff src op greater None id d s = (Ok p, s1) ->
  exists s1', save_history_file doc mkdiff appdiff src op greater None id d (St doc (s_dir doc s) [] (s_cur doc s)) = (Ok p, s1') /\
    forall id' x dx, In (x, dx) (F ++ [(p, d)]) -> exists r s2 r' s2',
      load_history_file doc appdiff src op id' x s1 = (Ok r, s2) /\
      load_history_file doc appdiff src op id' x s1' = (Ok r', s2') /\ same r dx /\ same r' dx.
Proof. exact @cache_save. Qed.
Print Assumptions C33_save.

(** ** A history

    Growing texts, two phases below the first, cumulative files.  Object 1 is
    saved four times; the second file is loaded as object 2 and saved: a branch. *)

Definition exact_greater (size1 len1 size2 len2 : Z) : bool := size2 * len1 <? size1 * len2.
Definition op2 : options := Options 2 true (Some (Cumulative (Some 1) (Some 10))).
Definition at_ (ctl prev : Z) (order : list Z) : props := Props ctl prev order None.
Definition sv op (id : Z) (d : list Z) (s : st (list Z)) := save_history_file _ added extend [] op exact_greater None id d s.
Definition ld op (id : Z) (p : props) (s : st (list Z)) := load_history_file _ extend [] op id p s.
Definition src_name : list Z := [115; 114; 99].
Definition h0 : st (list Z) := St _ [(src_name, [])] [] None.
Definition h1 := Eval vm_compute in snd (sv op2 1 [5; 6; 7; 8] h0).
Definition h2 := Eval vm_compute in snd (sv op2 1 [5; 6; 7; 8; 9] h1).
Definition h3 := Eval vm_compute in snd (sv op2 1 [5; 6; 7; 8; 9; 1] h2).
Definition h4 := Eval vm_compute in snd (sv op2 1 [5; 6; 7; 8; 9; 1; 2] h3).
Definition h5 := Eval vm_compute in snd (ld op2 2 (at_ 0 0 [0; 0]) h4).
Definition h6 := Eval vm_compute in snd (sv op2 2 [5; 6; 7; 8; 9; 3] h5).
Definition files : list (props * list Z) :=
  [(at_ 0 0 [0], [5; 6; 7; 8]); (at_ 0 0 [0; 0], [5; 6; 7; 8; 9]); (at_ 0 0 [0; 0; 0], [5; 6; 7; 8; 9; 1]);
   (at_ 0 0 [0; 0; 1], [5; 6; 7; 8; 9; 1; 2]); (at_ 1 0 [0; 0; 0], [5; 6; 7; 8; 9; 3])].

Ltac grows := split; [vm_compute; reflexivity|eexists; cbn [app]; reflexivity].
(** an edit of a document of a listed file *)
Ltac edit := split; [grows|intros base d0 E J; first [discriminate E|
  inversion E; subst base; cbn [In] in J; repeat (destruct J as [J|J]; [inversion J; subst; grows|]); destruct J]].
Ltac start := apply reach_start; split; [apply NoDup_cons; [intros []|apply NoDup_nil]|];
  split; [apply Permutation_refl|]; split; [constructor|]; split; [constructor|]; apply Forall_cons; [vm_compute; reflexivity|apply Forall_nil].

Example sample_history : reach added extend extends [] op2 (sound_save op2) [src_name] 5 h6 files.
Proof.
  apply (reach_save _ _ _ _ _ _ _ 4 h5 (firstn 4 files) exact_greater 2); [|edit|left; reflexivity|vm_compute; reflexivity].
  eapply (reach_load _ _ _ _ _ _ _ 4 h4 _ 2 (at_ 0 0 [0; 0])); [|cbn; auto|vm_compute; reflexivity].
  apply (reach_save _ _ _ _ _ _ _ 3 h3 (firstn 3 files) exact_greater 1); [|edit|left; reflexivity|vm_compute; reflexivity].
  apply (reach_save _ _ _ _ _ _ _ 2 h2 (firstn 2 files) exact_greater 1); [|edit|left; reflexivity|vm_compute; reflexivity].
  apply (reach_save _ _ _ _ _ _ _ 1 h1 (firstn 1 files) exact_greater 1); [|edit|left; reflexivity|vm_compute; reflexivity].
  apply (reach_save _ _ _ _ _ _ _ 0 h0 [] exact_greater 1); [|edit|left; reflexivity|vm_compute; reflexivity].
  start.
Qed.

Lemma op2_built : exists b, build b = Ok op2.
Proof. exists op2. reflexivity. Qed.
Lemma op2_limited : limited op2.
Proof. intros c nth E E'. apply Some_inj in E. subst c. apply Some_inj in E'. subst nth. cbn. lia. Qed.

(** the hypotheses of C28 and C33 in this history, and what is loaded *)
Example C28_case : reproduces added extend eq extends /\ (exists b, build b = Ok op2) /\ limited op2 /\
  reach added extend extends [] op2 (sound_save op2) [src_name] 5 h6 files /\ Z.of_nat 5 + 2 < 100000000 /\
  (exists s, ld op2 9 (at_ 0 0 [0; 0; 1]) h6 = (Ok [5; 6; 7; 8; 9; 1; 2], s)) /\
  (exists s, ld op2 9 (at_ 1 0 [0; 0; 0]) h6 = (Ok [5; 6; 7; 8; 9; 3], s)) /\
  length (s_cache _ h6) = 3%nat.
Proof.
  split; [exact growing|]. split; [exact op2_built|]. split; [exact op2_limited|]. split; [exact sample_history|]. split; [reflexivity|].
  split; [eexists; vm_compute; reflexivity|]. split; [eexists; vm_compute; reflexivity|reflexivity].
Qed.

(** the base files of C29 in this history: "_0_0_0_0" is of the last phase and
    not the newest, but there is a file at its parent's position *)
Example C29_case : In (at_ 0 0 [0; 0; 0], [5; 6; 7; 8; 9; 1]) files /\ continuable op2 (map fst files) (at_ 0 0 [0; 0; 0]) /\
  extends [] [5; 6; 7; 8; 9; 1; 8] /\ extends [5; 6; 7; 8; 9; 1] [5; 6; 7; 8; 9; 1; 8] /\
  exists s1 s2, ld op2 3 (at_ 0 0 [0; 0; 0]) h6 = (Ok [5; 6; 7; 8; 9; 1], s1) /\
    sv op2 3 [5; 6; 7; 8; 9; 1; 8] s1 = (Ok (at_ 2 0 [0; 0; 0]), s2).
Proof.
  split; [cbn; auto|]. split; [right; right; exists (at_ 0 0 [0; 0]); split; [cbn; auto|reflexivity]|]. split; [grows|]. split; [grows|].
  eexists. eexists. split; [vm_compute; reflexivity|vm_compute; reflexivity].
Qed.

Example C27_case : folder (s_dir _ h6) (map fst files) [src_name] /\ Forall room (map fst files) /\
  s_cur _ h6 = Some (2, at_ 1 0 [0; 0; 0]) /\ valid_props (at_ 1 0 [0; 0; 0]) /\ room (at_ 1 0 [0; 0; 0]) /\
  exists s, sv op2 2 [5; 6; 7; 8; 9; 3; 3] h6 = (Ok (at_ 1 1 [0; 0; 1]), s).
Proof.
  split.
  - split; [vm_compute; repeat (apply NoDup_cons; [cbn [In]; intuition congruence|]); apply NoDup_nil|].
    split; [apply (Permutation_app_comm [src_name] (map filename (map fst files)))|]. split; [|split].
    + repeat (apply Forall_cons; [unfold valid_props, u32; cbn; repeat split; try lia; try discriminate; repeat (apply Forall_cons; [lia|]); apply Forall_nil|]). apply Forall_nil.
    + repeat (apply Forall_cons; [unfold readable; cbn; repeat split; try lia; repeat (apply Forall_cons; [lia|]); apply Forall_nil|]). apply Forall_nil.
    + apply Forall_cons; [vm_compute; reflexivity|apply Forall_nil].
  - assert (R : forall c p o, c < 99999999 -> Forall (fun n => n < 99999999) o -> room (at_ c p o)) by (intros; split; assumption).
    split; [repeat (apply Forall_cons; [apply R; [lia|repeat (apply Forall_cons; [lia|]); apply Forall_nil]|]); apply Forall_nil|].
    split; [reflexivity|]. split; [unfold valid_props, u32; cbn; repeat split; try lia; try discriminate; repeat (apply Forall_cons; [lia|]); apply Forall_nil|].
    split; [apply R; [lia|repeat (apply Forall_cons; [lia|]); apply Forall_nil]|]. eexists. vm_compute. reflexivity.
Qed.

Example C32_saving_case : exists h, create_file_history (map fst (s_dir _ h6)) = Ok h /\
  map position (list_files h) = [[0; 0]; [0; 0; 0]; [0; 0; 0; 0]; [0; 0; 0; 1]; [1; 0; 0; 0]].
Proof. eexists. split; [vm_compute; reflexivity|vm_compute; reflexivity]. Qed.

(** with and without the cache *)
Example C33_case : edited extends [] h6 files 2 [5; 6; 7; 8; 9; 3; 4] /\
  (exists s1 s2, sv op2 2 [5; 6; 7; 8; 9; 3; 4] h6 = (Ok (at_ 1 1 [0; 0; 1]), s1) /\
     sv op2 2 [5; 6; 7; 8; 9; 3; 4] (St _ (s_dir _ h6) [] (s_cur _ h6)) = (Ok (at_ 1 1 [0; 0; 1]), s2) /\ s_dir _ s1 = s_dir _ s2).
Proof.
  split; [edit|]. eexists. eexists. split; [vm_compute; reflexivity|]. split; [vm_compute; reflexivity|reflexivity].
Qed.

(** ** Findings *)

(** A tag: the file of a tagged save is not seen by the next one, which takes the
    same number and, with the same tag, overwrites it. *)
Definition tag_a : option (list Z) := Some [97].
Theorem C27_tag_refuted : exists (s1 s2 s3 s4 : st (list Z)) p q,
  save_history_file _ added extend [] op2 exact_greater None 1 [1] h0 = (Ok (at_ 0 0 [0]), s1) /\
  save_history_file _ added extend [] op2 exact_greater tag_a 1 [1; 2] s1 = (Ok p, s2) /\
  ld op2 1 (at_ 0 0 [0]) s2 = (Ok [1], s3) /\
  save_history_file _ added extend [] op2 exact_greater tag_a 1 [1; 3] s3 = (Ok q, s4) /\
  filename p = filename q /\ hget (filename p) (s_dir _ s2) <> hget (filename p) (s_dir _ s4).
Proof.
  do 6 eexists. split; [vm_compute; reflexivity|]. split; [vm_compute; reflexivity|]. split; [vm_compute; reflexivity|].
  split; [vm_compute; reflexivity|]. split; [reflexivity|]. vm_compute. discriminate.
Qed.
Print Assumptions C27_tag_refuted.

(** a first save with a tag writes the file and reports an error *)
Theorem C27_first_tag_refuted : exists s1 : st (list Z),
  save_history_file _ added extend [] op2 exact_greater tag_a 1 [1] h0 = (Err, s1) /\ length (s_dir _ s1) = 2%nat.
Proof. eexists. split; [vm_compute; reflexivity|reflexivity]. Qed.
Print Assumptions C27_first_tag_refuted.

(** After control number 99999999 a derived file gets nine digits and is not
    seen: the next derivation overwrites it. *)
Definition far : st (list Z) :=
  Eval vm_compute in
  St _ [(filename (at_ 99999999 99999999 [0]), match hget (filename (at_ 0 0 [0])) (s_dir _ h1) with Some c => c | None => [] end);
        (filename (at_ 99999998 99999998 [0]), match hget (filename (at_ 0 0 [0])) (s_dir _ h1) with Some c => c | None => [] end)] [] None.
Theorem C27_digits_refuted : exists (s1 s2 s3 s4 : st (list Z)) p r,
  ld op2 1 (at_ 99999998 99999998 [0]) far = (Ok [5; 6; 7; 8], s1) /\
  sv op2 1 [5; 6; 7; 8; 1] s1 = (Ok p, s2) /\
  ld op2 1 (at_ 99999998 99999998 [0]) s2 = (Ok r, s3) /\
  sv op2 1 [5; 6; 7; 8; 2] s3 = (Ok p, s4) /\
  hget (filename p) (s_dir _ s2) <> hget (filename p) (s_dir _ s4).
Proof.
  do 6 eexists. split; [vm_compute; reflexivity|]. split; [vm_compute; reflexivity|]. split; [vm_compute; reflexivity|].
  split; [vm_compute; reflexivity|]. vm_compute. discriminate.
Qed.
Print Assumptions C27_digits_refuted.

(** Not cumulative, one phase below the first: "_0_0", "_0_0_0"; a branch from
    "_0_0" gives "(0)_1_0_0"; continuing it gives "_1_0_1", which records control
    number 1 as that of its parent and cannot be loaded. *)
Definition op1 : options := Options 1 true None.
Definition b1 := Eval vm_compute in snd (sv op1 1 [5; 6; 7; 8] h0).
Definition b2 := Eval vm_compute in snd (sv op1 1 [5; 6; 7; 8; 9] b1).
Definition b3 := Eval vm_compute in snd (ld op1 2 (at_ 0 0 [0]) b2).
Definition b4 := Eval vm_compute in snd (sv op1 2 [5; 6; 7; 8; 1] b3).
Definition b5 := Eval vm_compute in snd (sv op1 2 [5; 6; 7; 8; 1; 2] b4).
Definition branch_files : list (props * list Z) :=
  [(at_ 0 0 [0], [5; 6; 7; 8]); (at_ 0 0 [0; 0], [5; 6; 7; 8; 9]); (at_ 1 0 [0; 0], [5; 6; 7; 8; 1]); (at_ 1 1 [0; 1], [5; 6; 7; 8; 1; 2])].
Theorem C28_branch_refuted : (exists b, build b = Ok op1) /\ limited op1 /\
  reach added extend extends [] op1 (fun _ _ _ => True) [src_name] 4 b5 branch_files /\
  exists p d, In (p, d) branch_files /\ forall id, fst (ld op1 id p b5) = Err.
Proof.
  split; [exists op1; reflexivity|]. split; [intros c nth E; discriminate E|]. split.
  - apply (reach_save _ _ _ _ _ _ _ 3 b4 (firstn 3 branch_files) exact_greater 2); [|edit|exact I|vm_compute; reflexivity].
    apply (reach_save _ _ _ _ _ _ _ 2 b3 (firstn 2 branch_files) exact_greater 2); [|edit|exact I|vm_compute; reflexivity].
    eapply (reach_load _ _ _ _ _ _ _ 2 b2 _ 2 (at_ 0 0 [0])); [|cbn; auto|vm_compute; reflexivity].
    apply (reach_save _ _ _ _ _ _ _ 1 b1 (firstn 1 branch_files) exact_greater 1); [|edit|exact I|vm_compute; reflexivity].
    apply (reach_save _ _ _ _ _ _ _ 0 h0 [] exact_greater 1); [|edit|exact I|vm_compute; reflexivity].
    start.
  - exists (at_ 1 1 [0; 1]), [5; 6; 7; 8; 1; 2]. split; [cbn; auto|]. intros id. vm_compute. reflexivity.
Qed.
Print Assumptions C28_branch_refuted.

(** With one phase only, an older file can be loaded but not saved from. *)
Definition op0 : options := Options 0 true None.
Definition c1 := Eval vm_compute in snd (sv op0 1 [5; 6; 7; 8] h0).
Definition c2 := Eval vm_compute in snd (sv op0 1 [5; 6; 7; 8; 9] c1).
Definition flat_files : list (props * list Z) := [(at_ 0 0 [0], [5; 6; 7; 8]); (at_ 0 0 [1], [5; 6; 7; 8; 9])].
Theorem C29_flat_refuted : (exists b, build b = Ok op0) /\ limited op0 /\
  reach added extend extends [] op0 (sound_save op0) [src_name] 2 c2 flat_files /\
  exists p d d' s1, In (p, d) flat_files /\ extends d d' /\ ld op0 2 p c2 = (Ok d, s1) /\ fst (sv op0 2 d' s1) = Err.
Proof.
  split; [exists op0; reflexivity|]. split; [intros c nth E; discriminate E|]. split.
  - apply (reach_save _ _ _ _ _ _ _ 1 c1 (firstn 1 flat_files) exact_greater 1); [|edit|right; left; reflexivity|vm_compute; reflexivity].
    apply (reach_save _ _ _ _ _ _ _ 0 h0 [] exact_greater 1); [|edit|right; left; reflexivity|vm_compute; reflexivity].
    start.
  - exists (at_ 0 0 [0]), [5; 6; 7; 8], [5; 6; 7; 8; 1]. eexists. split; [cbn; auto|]. split; [grows|]. split; [vm_compute; reflexivity|vm_compute; reflexivity].
Qed.
Print Assumptions C29_flat_refuted.

(** Cumulative, one phase below the first: a branch "(0)_2_0_0" and its successor
    "_2_0_1"; once another file is the newest, "_2_0_1" can be loaded but not
    saved from. *)
Definition op1c : options := Options 1 true (Some (Cumulative None None)).
Definition e1 := Eval vm_compute in snd (sv op1c 1 [5; 6; 7; 8] h0).
Definition e2 := Eval vm_compute in snd (sv op1c 2 [5; 6; 7; 8] e1).
Definition e3 := Eval vm_compute in snd (ld op1c 3 (at_ 0 0 [0]) e2).
Definition e4 := Eval vm_compute in snd (sv op1c 3 [5; 6; 7; 8; 1] e3).
Definition e5 := Eval vm_compute in snd (sv op1c 3 [5; 6; 7; 8; 1; 2] e4).
Definition e6 := Eval vm_compute in snd (sv op1c 4 [5; 6; 7; 8] e5).
Definition deep_files : list (props * list Z) :=
  [(at_ 0 0 [0], [5; 6; 7; 8]); (at_ 1 1 [0], [5; 6; 7; 8]); (at_ 2 0 [0; 0], [5; 6; 7; 8; 1]); (at_ 2 2 [0; 1], [5; 6; 7; 8; 1; 2]); (at_ 3 3 [0], [5; 6; 7; 8])].
Theorem C29_deep_refuted : (exists b, build b = Ok op1c) /\ limited op1c /\
  reach added extend extends [] op1c (sound_save op1c) [src_name] 5 e6 deep_files /\
  exists p d d' s1, In (p, d) deep_files /\ extends d d' /\ ld op1c 5 p e6 = (Ok d, s1) /\ fst (sv op1c 5 d' s1) = Err.
Proof.
  split; [exists op1c; reflexivity|]. split; [intros c nth E E'; apply Some_inj in E; subst c; discriminate E'|]. split.
  - apply (reach_save _ _ _ _ _ _ _ 4 e5 (firstn 4 deep_files) exact_greater 4); [|edit|left; reflexivity|vm_compute; reflexivity].
    apply (reach_save _ _ _ _ _ _ _ 3 e4 (firstn 3 deep_files) exact_greater 3); [|edit|left; reflexivity|vm_compute; reflexivity].
    apply (reach_save _ _ _ _ _ _ _ 2 e3 (firstn 2 deep_files) exact_greater 3); [|edit|left; reflexivity|vm_compute; reflexivity].
    eapply (reach_load _ _ _ _ _ _ _ 2 e2 _ 3 (at_ 0 0 [0])); [|cbn; auto|vm_compute; reflexivity].
    apply (reach_save _ _ _ _ _ _ _ 1 e1 (firstn 1 deep_files) exact_greater 2); [|edit|left; reflexivity|vm_compute; reflexivity].
    apply (reach_save _ _ _ _ _ _ _ 0 h0 [] exact_greater 1); [|edit|left; reflexivity|vm_compute; reflexivity].
    start.
  - exists (at_ 2 2 [0; 1]), [5; 6; 7; 8; 1; 2], [5; 6; 7; 8; 1; 2; 3]. eexists. split; [cbn; auto|]. split; [grows|]. split; [vm_compute; reflexivity|vm_compute; reflexivity].
Qed.
Print Assumptions C29_deep_refuted.
