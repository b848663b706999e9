(** C57: saving named files from several threads. *)
From Coq Require Import Permutation.
From Verif Require Import Base StringCompactionModel FileNameModel DocModel PhaseModel TreeModel HistModel HistSpec HistMainProofs RemoveModel FolderModel FolderSpec FolderProofs ThreadsModel ThreadsSpec ThreadsProofs.

(* ------------------------------------------------------------------ *)
(** * What holds for every interleaving *)

(** The results, and the folders whenever no file is open, are those of the same saves one after
    the other.  Every save is still running, has returned the result it has there, has panicked,
    or has found the lock poisoned. *)
Theorem C57_serial : forall doc mkdiff (cur : source doc) fs s, steps mkdiff cur (start fs) s ->
  fst (one_by_one mkdiff cur (map fst (th_log s)) fs) = th_log s /\ (none_open s -> th_fs s = snd (one_by_one mkdiff cur (map fst (th_log s)) fs)) /\
  Permutation (th_log s) (pending s ++ th_returned s ++ map (fun o => (o, Panic)) (th_crashed s)) /\
  Permutation (th_started s) (map fst (th_threads s) ++ map fst (th_returned s) ++ th_crashed s ++ th_lost s).
Proof. exact @serial. Qed.
Print Assumptions C57_serial.

(** at most one thread is past the lock *)
Theorem C57_exclusive : forall doc mkdiff (cur : source doc) fs s a o p b, steps mkdiff cur (start fs) s -> th_threads s = a ++ (o, p) :: b -> p <> Waiting ->
  forall o' p', In (o', p') (a ++ b) -> p' = Waiting.
Proof. exact @exclusive. Qed.
Print Assumptions C57_exclusive.

(** no deadlock: from everywhere all threads can end *)
Theorem C57_ends : forall doc mkdiff (cur : source doc) fs s, steps mkdiff cur (start fs) s ->
  exists s', steps mkdiff cur (start fs) s' /\ steps mkdiff cur s s' /\ th_started s' = th_started s /\ th_threads s' = [].
Proof. exact @ends. Qed.
Print Assumptions C57_ends.

(** and if no difference panics, with a result for every save *)
Theorem C57_results : forall doc mkdiff (cur : source doc) fs s, (forall d, mkdiff (so_root cur) d <> Panic) -> steps mkdiff cur (start fs) s -> th_threads s = [] ->
  Permutation (map fst (th_returned s)) (th_started s) /\ Permutation (th_returned s) (th_log s).
Proof.
  intros doc mkdiff cur fs s N H E. pose proof (inv_reached _ _ _ _ H) as I. destruct (serial _ _ _ _ H) as (Lg & _ & P & Q).
  assert (C : th_crashed s = []).
  { destruct (th_crashed s) as [|o l] eqn:X; [reflexivity|]. exfalso. assert (J : In (o, Panic) (th_log s)).
    { apply (Permutation_in _ (Permutation_sym P)). apply in_or_app. right. apply in_or_app. right. now left. }
    rewrite <- Lg in J. clear - N J. revert fs J. induction (map fst (th_log s)) as [|o' l IH]; intros fs J; [destruct J|]. cbn [one_by_one] in J.
    pose proof (begin_exact mkdiff cur o' fs) as Y. cbv beta in Y. destruct (save_dochy_file _ _ _ _ _ _ _ _) as [r fs1]. specialize (IH fs1). destruct (one_by_one mkdiff cur l fs1) as [rs fs2].
    destruct J as [J|J]; [|now apply IH]. injection J as -> ->. unfold begin_save in Y. destruct (prepare_hash_dir (sv_now o) (so_archive cur) (so_hash cur) fs) as [[[]| |] fs3] eqn:Ep.
    - destruct (_ && _); [discriminate Y|]. specialize (N (sv_doc o)). destruct (mkdiff _ _); [destruct (resolve _ _ _) as [[? ?]|]; discriminate Y|discriminate Y|contradiction].
    - discriminate Y.
    - unfold prepare_hash_dir, make_hash_dir, create_time_dat in Ep. destruct (get_folder (so_hash cur) fs).
      + destruct (read_at _ _ _); [discriminate Ep|destruct (a_complete _); discriminate Ep].
      + destruct (fst (sv_now o) <? 0); [discriminate Ep|]. destruct (read_at _ _ _); [discriminate Ep|destruct (a_complete _); discriminate Ep]. }
  assert (L : th_lost s = []).
  { destruct (th_lost s) as [|o l] eqn:X; [reflexivity|]. exfalso. assert (Z : th_poisoned s = true) by (apply (i_lost _ _ _ _ I); congruence). apply (i_crashed _ _ _ _ I) in Z. contradiction. }
  unfold pending in P. rewrite E, C, L in *. cbn [flat_map map app] in *. rewrite app_nil_r in *. split; now symmetry.
Qed.
Print Assumptions C57_results.

(** a save that must not overwrite does not succeed after another one under its name, whatever
    the order in which the threads ran *)
Theorem C57_once : forall doc mkdiff (cur : source doc) fs s a o1 b o2 c, steps mkdiff cur (start fs) s ->
  th_log s = a ++ (o1, Ok tt) :: b ++ (o2, Ok tt) :: c -> sv_name o1 = sv_name o2 -> plain (sv_name o1) -> sv_overwrite o2 = true.
Proof. exact @only_once. Qed.
Print Assumptions C57_once.

(** the last save of a name that succeeded is what is loaded *)
Theorem C57_last : forall doc mkdiff (cur : source doc) fs appdiff archive_root adjust same later s a o b, reproduces mkdiff appdiff same later -> later (so_root cur) (sv_doc o) ->
  steps mkdiff cur (start fs) s -> none_open s -> th_log s = a ++ (o, Ok tt) :: b -> plain (sv_name o) ->
  (forall o' r, In (o', r) b -> plain (sv_name o')) -> (forall o', In (o', Ok tt) b -> sv_name o' <> sv_name o) ->
  exists r, load_dochy_file doc appdiff archive_root adjust cur (so_hash cur) (sv_name o) (th_fs s) = Ok r /\ same r (sv_doc o).
Proof. exact @last_saved. Qed.
Print Assumptions C57_last.

(** the number of queued threads is one while a thread is between the changes of the counter, and
    zero otherwise.  Full statement: it is the number of saves that are not over. *)
Theorem C57_counter_partial : forall doc mkdiff (cur : source doc) fs s, steps mkdiff cur (start fs) s ->
  (queued_threads s = 0 \/ queued_threads s = 1) /\ (queued_threads s = 1 <-> exists o p, In (o, p) (th_threads s) /\ counted p = true).
Proof. exact @counter_exact. Qed.
Print Assumptions C57_counter_partial.

(* ------------------------------------------------------------------ *)
(** *** An example: two saves under one name; the second is faster *)

Definition cur1 : source (list Z) := Source 1 [1] (Archive [1] true).
Definition file_x : list Z := [120].
Definition first : save (list Z) := Save (5, 0) file_x [1; 7] true.
Definition second : save (list Z) := Save (5, 0) file_x [1; 8] true.

(** a thread that is alone past the lock, from its lock to its end *)
Lemma run_save : forall doc mkdiff (cur : source doc) (s : state doc) a o b fs' r, th_threads s = a ++ (o, Waiting) :: b -> th_lock s = false -> th_poisoned s = false ->
  save_dochy_file doc mkdiff (sv_now o) cur (sv_name o) (sv_doc o) (sv_overwrite o) (th_fs s) = (r, fs') -> r <> Panic ->
  steps mkdiff cur s (State (th_started s) (a ++ b) false false (th_counter s) fs' (th_log s ++ [(o, r)]) (th_returned s ++ [(o, r)]) (th_crashed s) (th_lost s)).
Proof.
  intros doc mkdiff cur s a o b fs' r E L P S N. pose proof (begin_exact mkdiff cur o (th_fs s)) as B. cbv beta in B. rewrite S in B.
  assert (X : steps mkdiff cur s (State (th_started s) (a ++ (o, Counted) :: b) true false (th_counter s + 1) (th_fs s) (th_log s) (th_returned s) (th_crashed s) (th_lost s))).
  { eapply steps_step; [eapply steps_step; [apply steps_refl|]|]. { eapply step_lock; eassumption. } rewrite P. apply (step_count _ _ (State (th_started s) (a ++ (o, Locked) :: b) true false _ _ _ _ _ _)). reflexivity. }
  set (s1 := State (th_started s) (a ++ (o, Counted) :: b) true false (th_counter s + 1) (th_fs s) (th_log s) (th_returned s) (th_crashed s) (th_lost s)) in X.
  assert (Y : steps mkdiff cur s (State (th_started s) (a ++ (o, Performed r) :: b) true false (th_counter s + 1) fs' (th_log s ++ [(o, r)]) (th_returned s) (th_crashed s) (th_lost s))).
  { destruct (begin_save mkdiff cur o (th_fs s)) as [[[h f] diff]|r'] eqn:Bg; apply pair_equal_spec in B as [-> ->].
    - eapply steps_step; [eapply steps_step; [exact X|]|]. { eapply (step_open _ _ s1 a o b h f diff); [reflexivity|exact Bg]. }
      rewrite <- (write_twice h f diff []). apply (step_write mkdiff cur (State (th_started s) (a ++ (o, Opened h f diff) :: b) true false (th_counter s + 1) _ (th_log s) (th_returned s) (th_crashed s) (th_lost s)) a o b h f diff). reflexivity.
    - eapply steps_step; [exact X|]. apply (step_fail _ _ s1 a o b r'); [reflexivity|exact Bg]. }
  eapply steps_step; [eapply steps_step; [exact Y|]|].
  { apply (step_uncount mkdiff cur (State (th_started s) (a ++ (o, Performed r) :: b) true false (th_counter s + 1) fs' (th_log s ++ [(o, r)]) (th_returned s) (th_crashed s) (th_lost s)) a o b r). reflexivity. }
  cbn [th_started th_threads th_lock th_poisoned th_counter th_fs th_log th_returned th_crashed th_lost]. replace (th_counter s + 1 - 1) with (th_counter s) by lia.
  apply (step_unlock mkdiff cur (State (th_started s) (a ++ (o, Uncounted r) :: b) true false (th_counter s) fs' (th_log s ++ [(o, r)]) (th_returned s) (th_crashed s) (th_lost s)) a o b r); [reflexivity|exact N].
Qed.

(** any number of saves, none of which has begun *)
Lemma all_waiting : forall doc mkdiff (cur : source doc) fs l, steps mkdiff cur (start fs) (State l (map (fun o => (o, Waiting)) l) false false 0 fs [] [] [] []).
Proof.
  intros doc mkdiff cur fs l. induction l as [|o l IH] using rev_ind; [apply steps_refl|]. eapply steps_step; [exact IH|]. rewrite map_app. exact (step_start mkdiff cur _ o).
Qed.

Definition after_second : project := snd (save_dochy_file _ added (5, 0) cur1 file_x [1; 8] true []).
Definition after_both : project := snd (save_dochy_file _ added (5, 0) cur1 file_x [1; 7] true after_second).
Lemma steps_trans : forall doc mkdiff (cur : source doc) s s1 s2, steps mkdiff cur s s1 -> steps mkdiff cur s1 s2 -> steps mkdiff cur s s2.
Proof. intros doc mkdiff cur s s1 s2 A B. induction B as [|? ? ? ? IHB T]; [exact A|]. eapply steps_step; [apply IHB; exact A|exact T]. Qed.

Definition two_done : state (list Z) := State [first; second] [] false false 0 after_both [(second, Ok tt); (first, Ok tt)] [(second, Ok tt); (first, Ok tt)] [] [].
Lemma two_run : steps added cur1 (start []) two_done.
Proof.
  eapply steps_trans; [apply (all_waiting _ _ _ _ [first; second])|].
  eapply steps_trans; [eapply (run_save _ _ _ _ [(first, Waiting)] second [] after_second (Ok tt)); [reflexivity|reflexivity|reflexivity|vm_compute; reflexivity|discriminate]|].
  eapply steps_trans; [eapply (run_save _ _ _ _ [] first [] after_both (Ok tt)); [reflexivity|reflexivity|reflexivity|vm_compute; reflexivity|discriminate]|].
  apply steps_refl.
Qed.

Example C57_case : steps added cur1 (start []) two_done /\ none_open two_done /\ (forall d, added (so_root cur1) d <> Panic) /\
  th_log two_done = [(second, Ok tt)] ++ (first, Ok tt) :: [] /\ plain file_x /\ extends (so_root cur1) (sv_doc first) /\ fst (one_by_one added cur1 [second; first] []) = th_log two_done.
Proof.
  split; [exact two_run|]. split; [intros o h f diff []|].
  split; [discriminate|]. split; [reflexivity|].
  split; [unfold plain, file_x; split; [intros [H|[]]; discriminate H|]; split; [intros [H|[]]; discriminate H|]; split; [|split]; discriminate|].
  split; [split; [reflexivity|exists [7]; reflexivity]|]. vm_compute. reflexivity.
Qed.

(* ------------------------------------------------------------------ *)
(** * What does not hold *)

(** The counter says nothing about saves that wait: any number of them is unfinished while it is
    zero, and while it is one. *)
Theorem C57_counter_refuted : forall doc mkdiff (cur : source doc) fs (l : list (save doc)),
  (exists s, steps mkdiff cur (start fs) s /\ th_started s = l /\ unfinished s = length l /\ queued_threads s = 0) /\
  (forall o, exists s, steps mkdiff cur (start fs) s /\ th_started s = o :: l /\ unfinished s = S (length l) /\ queued_threads s = 1).
Proof.
  intros doc mkdiff cur fs l. split.
  - eexists. split; [apply all_waiting|]. split; [reflexivity|]. split; [|reflexivity]. unfold unfinished. cbn [th_threads]. apply map_length.
  - intros o. eexists. split; [|split; [|split]].
    + eapply steps_step; [eapply steps_step; [apply (all_waiting _ _ _ _ (o :: l))|]|].
      * apply (step_lock _ _ _ [] o (map (fun o => (o, Waiting)) l)); reflexivity.
      * apply (step_count _ _ _ [] o (map (fun o => (o, Waiting)) l)). reflexivity.
    + reflexivity.
    + unfold unfinished. cbn [th_threads app length]. now rewrite map_length.
    + reflexivity.
Qed.
Print Assumptions C57_counter_refuted.

(** Threads are not served in order: the document saved first remains. *)
Theorem C57_order_refuted : exists s, steps added cur1 (start []) s /\ th_started s = [first; second] /\ th_threads s = [] /\
  load_dochy_file _ extend (fun b => Ok b) (fun _ old => Ok old) cur1 1 file_x (th_fs s) = Ok (sv_doc first).
Proof. exists two_done. split; [exact two_run|]. split; [reflexivity|]. split; [reflexivity|]. vm_compute. reflexivity. Qed.
Print Assumptions C57_order_refuted.

(** Loading takes no lock: whenever a save succeeds there is a moment at which the file is empty,
    also if it was there before. *)
Theorem C57_torn_refuted : forall doc mkdiff (cur : source doc) fs o fs', plain (sv_name o) ->
  save_dochy_file doc mkdiff (sv_now o) cur (sv_name o) (sv_doc o) (sv_overwrite o) fs = (Ok tt, fs') ->
  exists s, steps mkdiff cur (start fs) s /\ read_at (so_hash cur) (sv_name o) (th_fs s) = Some [].
Proof.
  intros doc mkdiff cur fs o fs' P S. pose proof (begin_exact mkdiff cur o fs) as B. cbv beta in B. rewrite S in B.
  destruct (saved _ _ _ _ _ _ _ _ P S) as (fs1 & diff & Ep & Ed & W). destruct (prepared _ _ _ _ _ _ Ep) as (_ & _ & _ & Pk & _). destruct (Pk eq_refl) as [G _].
  assert (Bg : begin_save mkdiff cur o fs = inl (so_hash cur, sv_name o, diff)).
  { unfold begin_save in *. rewrite Ep in *. rewrite (resolve_plain _ _ _ P) in *. destruct (_ && _); [discriminate B|]. rewrite Ed. reflexivity. }
  eexists. split.
  - eapply steps_step; [eapply steps_step; [eapply steps_step; [apply (all_waiting _ _ _ _ [o])|]|]|].
    + apply (step_lock _ _ _ [] o []); reflexivity.
    + apply (step_count _ _ _ [] o []). reflexivity.
    + apply (step_open _ _ _ [] o [] (so_hash cur) (sv_name o) diff); [reflexivity|exact Bg].
  - cbn [th_fs]. rewrite Ep. cbn [snd]. rewrite read_write, Z.eqb_refl, FolderProofs.eqb_bytes_refl. cbn [andb]. destruct (get_folder _ fs1); [reflexivity|contradiction].
Qed.
Print Assumptions C57_torn_refuted.

(** A document whose difference panics (C14: a list of the root that may be undefined) poisons the
    lock: from then on nothing is saved to the folder and no callback is called, although no
    thread counts as queued. *)
Theorem C57_panic_refuted : forall doc mkdiff (cur : source doc) fs o t, plain (sv_name o) -> sv_overwrite o = true ->
  mkdiff (so_root cur) (sv_doc o) = Panic -> create_time_dat (sv_now o) = Ok t -> a_complete (so_archive cur) = true ->
  exists s, steps mkdiff cur (start fs) s /\ queued_threads s = 0 /\ th_threads s = [] /\
    forall s', steps mkdiff cur s s' -> th_returned s' = [] /\ th_log s' = [(o, Panic)] /\ th_fs s' = th_fs s.
Proof.
  intros doc mkdiff cur fs o t P Ow M T C. destruct (prepare_hash_dir (sv_now o) (so_archive cur) (so_hash cur) fs) as [r fs1] eqn:Ep.
  destruct (prepared _ _ _ _ _ _ Ep) as (_ & _ & _ & _ & R). rewrite (R t T C) in Ep.
  assert (Bg : begin_save mkdiff cur o fs = inr Panic) by (unfold begin_save; rewrite Ep, Ow, andb_false_r, M; reflexivity).
  set (s := State [o] [] false true 0 fs1 [(o, Panic)] [] [o] [] : state doc).
  assert (H : steps mkdiff cur (start fs) s).
  { eapply steps_step; [eapply steps_step; [eapply steps_step; [eapply steps_step; [eapply steps_step; [apply (all_waiting _ _ _ _ [o])|]|]|]|]|].
    + apply (step_lock _ _ _ [] o []); reflexivity.
    + apply (step_count _ _ _ [] o []). reflexivity.
    + apply (step_fail _ _ _ [] o [] Panic); [reflexivity|exact Bg].
    + apply (step_uncount _ _ _ [] o [] Panic). reflexivity.
    + cbn [th_started th_threads th_lock th_poisoned th_counter th_fs th_log th_returned th_crashed th_lost app]. rewrite Ep. cbn [snd].
      apply (step_unwind mkdiff cur (State [o] [(o, Uncounted Panic)] true false 0 fs1 [(o, Panic)] [] [] []) [] o []). reflexivity. }
  exists s. split; [exact H|]. split; [reflexivity|]. split; [reflexivity|]. intros s' W.
  destruct (poisoned_stays _ _ _ _ _ (inv_reached _ _ _ _ H) eq_refl W) as (_ & L & F & Rt). rewrite L, F, Rt. auto.
Qed.
Print Assumptions C57_panic_refuted.
