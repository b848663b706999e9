(** C35: background saves.  [steps perform (start x0) s]: the history folder was
    opened with the data [x0], any threads called save, load and the background
    saves in any order and interleaving, and [s] is the state now. *)
From Verif Require Import Base QueueModel QueueSpec QueueProofs.

(** Background saves are performed in the order requested: those performed are the
    first of those requested, and the data of the folder is what all operations
    performed leave, one after the other. *)
Theorem C35_order {op shared} (perform : op -> shared -> shared) x0 s : steps perform (start x0) s ->
  (exists later, q_requested s = performed_bg s ++ later) /\ q_shared s = perform_all perform (q_log s) x0.
Proof. exact (in_order perform x0 s). Qed.
Print Assumptions C35_order.

(** One at a time: of two threads inside save or load, one still waits for the lock. *)
Theorem C35_one_at_a_time {op shared} (perform : op -> shared -> shared) x0 s a t b t' c : steps perform (start x0) s ->
  threads s = a ++ t :: b ++ t' :: c -> snd t <> Waiting -> snd t' = Waiting.
Proof. exact (one_at_a_time perform x0 s a t b t' c). Qed.
Print Assumptions C35_one_at_a_time.

(** No deadlock: from every state all requested background saves can be performed. *)
Theorem C35_all_done {op shared} (perform : op -> shared -> shared) x0 s : steps perform (start x0) s ->
  exists s', steps perform s s' /\ q_requested s' = q_requested s /\ performed_bg s' = q_requested s.
Proof. exact (all_done perform x0 s). Qed.
Print Assumptions C35_all_done.

(** A conditional background save is skipped exactly when some thread is between
    raising and lowering the counter.  Missing from the full claim: saves that are
    queued or wait for the lock are not noticed, and loads are; see the refutations. *)
Theorem C35_skipped_partial {op shared} (perform : op -> shared -> shared) x0 s o : steps perform (start x0) s ->
  (snd (request_if_vacant s o) = false <-> exists t, In t (threads s) /\ (snd t = Counted \/ snd t = Performed)).
Proof. exact (check_exact perform x0 s o). Qed.
Print Assumptions C35_skipped_partial.

(** ** Concrete runs: operations are (is it a save, what it appends) *)

Definition append (o : bool * Z) (x : list Z) : list Z := if fst o then x ++ [snd o] else x.
Notation reach := (steps append (start [])).

Ltac go H tac := match type of H with steps _ _ ?s => let St := fresh in eassert (St : step append s _); [tac|]; let H' := fresh in pose proof (steps_step append _ _ _ H St) as H'; cbv in H'; clear St H; rename H' into H end.
Ltac ask o := apply (step_request append _ o).
Ltac ask_if_vacant o := apply (step_if_vacant append _ o).
Ltac call o := apply (step_call append _ o).
Ltac take := eapply step_take; reflexivity.
Ltac work := eapply step_worker; reflexivity.
Ltac caller := eapply (step_caller append _ []); reflexivity.

(** two requests, both performed while a load waits *)
Definition two_done : state (bool * Z) (list Z) :=
  State [(true, 1); (true, 2)] [] None [((false, 0), Waiting)] false 0 [1; 2] [(true, (true, 1)); (true, (true, 2))].
Example C35_case : reach two_done /\ performed_bg two_done = [(true, 1); (true, 2)] /\ q_shared two_done = [1; 2].
Proof.
  split; [|split; reflexivity]. assert (H : reach (start [])) by constructor. cbv in H.
  go H ltac:(ask (true, 1)). go H ltac:(ask (true, 2)). go H ltac:(take). go H ltac:(call (false, 0)).
  do 5 (go H ltac:(work)). go H ltac:(take). do 5 (go H ltac:(work)). exact H.
Qed.

(** a save being performed: a conditional save is skipped *)
Definition busy : state (bool * Z) (list Z) := State [(true, 1)] [] (Some ((true, 1), Counted)) [] true 1 [] [].
Example C35_skip_case : reach busy /\ snd (request_if_vacant busy (true, 2)) = false /\ unfinished fst busy.
Proof.
  split; [|split; [reflexivity|exists (true, 1); split; [reflexivity|right; exists Counted; now left]]].
  assert (H : reach (start [])) by constructor. cbv in H. go H ltac:(ask (true, 1)). go H ltac:(take). do 2 (go H ltac:(work)). exact H.
Qed.

(** ** The full claim fails in both directions *)

(** A save that is requested but not begun does not stop a conditional save. *)
Definition pending : state (bool * Z) (list Z) := State [(true, 1)] [(true, 1)] None [] false 0 [] [].
Theorem C35_pending_refuted : exists s, reach s /\ unfinished fst s /\ snd (request_if_vacant s (true, 2)) = true.
Proof.
  exists pending. split; [|split; [exists (true, 1); split; [reflexivity|left; now left]|reflexivity]].
  assert (H : reach (start [])) by constructor. cbv in H. go H ltac:(ask (true, 1)). exact H.
Qed.
Print Assumptions C35_pending_refuted.

(** A load alone makes a conditional save be skipped, with no save ever asked for. *)
Definition loading : state (bool * Z) (list Z) := State [] [] None [((false, 0), Counted)] true 1 [] [].
Theorem C35_load_refuted : exists s, reach s /\ ~ unfinished fst s /\ snd (request_if_vacant s (true, 2)) = false.
Proof.
  exists loading. split; [|split; [|reflexivity]].
  - assert (H : reach (start [])) by constructor. cbv in H. go H ltac:(call (false, 0)). do 2 (go H ltac:(caller)). exact H.
  - intros (o & So & [[]|(p & [E|[]])]). apply (f_equal fst) in E. cbn in E. subst o. discriminate.
Qed.
Print Assumptions C35_load_refuted.
