(** C32: the listing of a history. *)
From Verif Require Import Base FileNameModel FileNameSpec TreeModel TreeSpec TreeProofs.

(** ** C32  The newest file is the last listed

    [fs]: the history files of a folder; [junk]: the names in it that are not
    those of history files; [names]: what the folder lists, in any order.
    [separate]: no two files at the same position (see the refutation below). *)
Theorem C32_listing_partial : forall fs junk names, Forall valid_props fs -> Forall readable fs ->
  Forall (fun n => analyze_file_name n = Ok None) junk -> separate fs ->
  Permutation names (map filename fs ++ junk) ->
  exists h, create_file_history names = Ok h /\ chronological (list_files h) /\
    Permutation (list_files h) fs /\ get_newest h = last_of (list_files h).
Proof. exact folder_listing. Qed.
Print Assumptions C32_listing_partial.

(** without [separate]: of the files at one position the last added is listed *)
Theorem C32_listing_any : forall fs, Forall valid_props fs ->
  let h := fold_left (fun h p => add p h) fs t_empty in
  chronological (list_files h) /\ (forall p, In p (list_files h) <-> last_at fs p) /\
  get_newest h = last_of (list_files h).
Proof. exact listing. Qed.
Print Assumptions C32_listing_any.

(** there is only one such list *)
Theorem C32_one_order : forall l m, chronological l -> chronological m -> Permutation l m -> l = m.
Proof. exact chronological_unique. Qed.
Print Assumptions C32_one_order.

Ltac all_lia := repeat (apply Forall_cons; [lia|]); apply Forall_nil.

(** a folder with a branch, a file of a later phase, and another file *)
Definition sample_files : list props :=
  [Props 1 0 [0; 1] None; Props 0 0 [0; 0; 0] None; Props 0 0 [0] None; Props 1 1 [0; 2] None; Props 0 0 [1] None; Props 0 0 [0; 0] None].
Definition sample_junk : list (list Z) := [[115; 114; 99]].
Example C32_case :
  (Forall valid_props sample_files /\ Forall readable sample_files /\ separate sample_files /\
   Forall (fun n => analyze_file_name n = Ok None) sample_junk) /\
  exists h, create_file_history (sample_junk ++ map filename sample_files) = Ok h /\
    map position (list_files h) = [[0; 0]; [0; 0; 0]; [0; 0; 0; 0]; [0; 1]; [1; 0; 1]; [1; 0; 2]] /\
    get_newest h = Some (Props 1 1 [0; 2] None).
Proof.
  split.
  - split; [|split; [|split]].
    + repeat (apply Forall_cons; [unfold valid_props, u32; cbn [p_control p_prev p_order p_tag]; repeat split; try lia; try discriminate; all_lia|]). apply Forall_nil.
    + repeat (apply Forall_cons; [unfold readable; cbn [p_control p_prev p_order p_tag]; repeat split; try lia; all_lia|]). apply Forall_nil.
    + unfold separate. vm_compute. repeat (apply NoDup_cons; [cbn [In]; intuition congruence|]). apply NoDup_nil.
    + constructor; [vm_compute; reflexivity|constructor].
  - eexists. split; [vm_compute; reflexivity|]. split; vm_compute; reflexivity.
Qed.

(** two files at one position, "_1_0.his" and "(0)_1_0.his": one is not listed *)
Theorem C32_same_position_refuted : exists fs h, Forall valid_props fs /\ Forall readable fs /\ NoDup (map filename fs) /\
  create_file_history (map filename fs) = Ok h /\ length fs = 2%nat /\ length (list_files h) = 1%nat.
Proof.
  exists [Props 1 1 [0] None; Props 1 0 [0] None]. eexists. split; [|split; [|split; [|split; [vm_compute; reflexivity|split; vm_compute; reflexivity]]]].
  - repeat (apply Forall_cons; [unfold valid_props, u32; cbn [p_control p_prev p_order p_tag]; repeat split; try lia; try discriminate; all_lia|]). apply Forall_nil.
  - repeat (apply Forall_cons; [unfold readable; cbn [p_control p_prev p_order p_tag]; repeat split; try lia; all_lia|]). apply Forall_nil.
  - vm_compute. repeat (apply NoDup_cons; [cbn [In]; intuition congruence|]). apply NoDup_nil.
Qed.
Print Assumptions C32_same_position_refuted.
