(** C34: applying files on several threads. *)
From Verif Require Import Base CompactionModel DocModel DiffModel DiffWireModel HistModel ApplyModel ApplyProofs.

(** ** C34  Multi-threaded loading equals sequential loading

    [run paths root n o]: any interleaving of the reading thread, the tasks and
    the receiving loop.  If applying the files in order gives [x], then no
    interleaving is aborted or stuck, each has a bounded number of steps, and when
    the function returns it returns [x]. *)
Theorem C34_equal : forall doc D prepare apply dir paths (root x : doc),
  apply_items doc (appdiff prepare apply) dir root paths = Ok x ->
  forall n (o : outcome doc D), run prepare apply dir paths root n o ->
  (n <= 3 * length paths + 2)%nat /\
  exists s, o = Running s /\ (m_result s = Some (Ok x) \/ (m_result s = None /\ exists o', step prepare apply dir paths s o')).
Proof. exact @mt_runs. Qed.
Print Assumptions C34_equal.

(** in any case: if the function returns, it returns what applying in order gives
    (an error where that panics while reading), and the callback has seen the
    same documents in the same order *)
Theorem C34_returned_partial : forall doc D prepare apply dir paths (root : doc) n (s : mt doc D) r,
  run prepare apply dir paths root n (Running s) -> m_result s = Some r ->
  m_seen s = snd (apply_items_st prepare apply dir root paths) /\
  match apply_items doc (appdiff prepare apply) dir root paths with
  | Ok x => r = Ok x
  | Err => r = Err
  | Panic => r = Panic \/ r = Err
  end.
Proof. exact @mt_returns. Qed.
Print Assumptions C34_returned_partial.

(** a missing file, or one whose recorded sizes cannot be read, gives an error in
    every interleaving *)
Theorem C34_read_fails : forall doc D prepare apply dir paths (root : doc) a p b r,
  paths = a ++ p :: b -> apply_items doc (appdiff prepare apply) dir root a = Ok r -> (forall v, open_diff_file dir p <> Ok v) ->
  forall n (o : outcome doc D), run prepare apply dir paths root n o ->
  (n <= 3 * length paths + 2)%nat /\
  exists s, o = Running s /\ (m_result s = Some Err \/ (m_result s = None /\ exists o', step prepare apply dir paths s o')).
Proof. exact @mt_missing. Qed.
Print Assumptions C34_read_fails.

(** preparing on one thread and applying on another is apply_diff *)
Theorem C34_dochy : forall n (def : rootdef n) root bytes,
  appdiff (dochy_prepare def) (dochy_apply def) root bytes = apply_diff root def bytes.
Proof.
  intros n def root bytes. unfold appdiff, dochy_prepare, dochy_apply, apply_diff. destruct (root_table def) as [meta| |]; cbn [bind]; [|reflexivity|reflexivity].
  destruct (decode bytes) as [[[kvals k] rest]| |]; cbn [bind]; [|reflexivity|reflexivity]. destruct (read_root meta kvals) as [[d k']| |]; reflexivity.
Qed.
Print Assumptions C34_dochy.

(** ** Two files; the second is prepared first *)

Definition prep (v : list Z) : res (list Z) := match v with [] => Err | _ => Ok v end.
Definition app (d v : list Z) : res (list Z) := match v with 9 :: _ => Err | _ => Ok (d ++ v) end.
Definition no_sizes : list Z := Eval vm_compute in match encode [] with Ok l => l | _ => [] end.
Definition two : hmap (list Z) := [([1], no_sizes ++ [5]); ([2], no_sizes ++ [6]); ([3], no_sizes ++ [9]); ([4], no_sizes)].
Notation go := (run prep app two).
Ltac forward R tac := match type of R with run _ _ _ ?paths ?root ?n (Running ?s) =>
  let St := fresh in eassert (St : step prep app two paths s _); [tac|]; apply (run_step _ _ _ _ _ _ _ _ R) in St; clear R; rename St into R end.
Ltac reads i := eapply (step_read _ _ _ _ _ i); reflexivity.
Ltac sends a i := eapply (step_send _ _ _ _ _ a i); reflexivity.
Ltac receives i := eapply (step_receive _ _ _ _ _ i); [reflexivity|cbn; lia|reflexivity].
Ltac returns := eapply step_return; reflexivity.
Ltac none := intros ?; vm_compute; discriminate.

Example C34_case : apply_items _ (appdiff prep app) two [0] [[1]; [2]] = Ok [0; 5; 6] /\
  exists s, go [[1]; [2]] [0] 7 (Running s) /\ m_result s = Some (Ok [0; 5; 6]) /\ m_seen s = [[0; 5]; [0; 5; 6]].
Proof.
  split; [vm_compute; reflexivity|]. pose proof (run_start prep app two [[1]; [2]] [0]) as R.
  forward R ltac:(reads 0%nat).
  forward R ltac:(reads 1%nat).
  forward R ltac:(sends ([(0%nat, [5])] : list (nat * list Z)) 1%nat).
  forward R ltac:(sends ([] : list (nat * list Z)) 0%nat).
  forward R ltac:(receives 1%nat).
  forward R ltac:(receives 0%nat).
  forward R ltac:(returns).
  eexists. split; [exact R|]. split; vm_compute; reflexivity.
Qed.

Example C34_missing_case : apply_items _ (appdiff prep app) two [0] [[1]] = Ok [0; 5] /\ (forall v, open_diff_file two [7] <> Ok v).
Proof. split; [vm_compute; reflexivity|]. intros v. vm_compute. discriminate. Qed.

(** ** Findings *)

(** A file whose difference cannot be read: in order this is an error, on several
    threads the process is aborted. *)
Theorem C34_unreadable_refuted : apply_items _ (appdiff prep app) two [0] [[4]] = Err /\ exists s, go [[4]] [0] 2 (Aborted s).
Proof.
  split; [vm_compute; reflexivity|]. pose proof (run_start prep app two [[4]] [0]) as R.
  forward R ltac:(reads 0%nat).
  forward R ltac:(eapply (step_prepare_fails _ _ _ _ _ [] 0%nat); [reflexivity|none]). eauto.
Qed.
Print Assumptions C34_unreadable_refuted.

(** A difference that cannot be applied: the function returns the error while
    another file is being prepared, whose task then fails to send. *)
Theorem C34_inapplicable_refuted : apply_items _ (appdiff prep app) two [0] [[3]; [1]] = Err /\
  exists s n, go [[3]; [1]] [0] n (Aborted s) /\ m_result s = Some Err.
Proof.
  split; [vm_compute; reflexivity|]. pose proof (run_start prep app two [[3]; [1]] [0]) as R.
  forward R ltac:(reads 0%nat).
  forward R ltac:(reads 1%nat).
  forward R ltac:(sends ([] : list (nat * list Z)) 0%nat).
  forward R ltac:(receives 0%nat).
  forward R ltac:(eapply (step_send_fails _ _ _ _ _ [] 1%nat); reflexivity).
  eexists. eexists. split; [exact R|]. vm_compute. reflexivity.
Qed.
Print Assumptions C34_inapplicable_refuted.
