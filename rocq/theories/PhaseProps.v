(** Properties C25 and C26: the position of the next save and the recorded sizes. *)
From Verif Require Import Base CompactionModel CompactionSpec PhaseModel PhaseSpec PhaseProofs.

(** ** C25  The next save position is always admissible *)

(** Full statement: for every option set the builder accepts.  What holds: for
    those whose [limit_nth] is at most the number of phases. *)
Theorem C25_next_position_partial : forall greater b op saves d,
  build b = Ok op -> recorded op saves d -> moderate saves ->
  (forall c nth, cumul op = Some c -> limit_nth c = Some nth -> 1 <= nth <= Z.of_nat (max_phase op) + 1) ->
  exists j, calc_next_phase greater d op = Ok j /\ (j <= max_phase op)%nat /\
    (length d <= max_phase op -> j = length d)%nat /\ (update_phase_0 op = false -> 1 <= j)%nat.
Proof. exact next_position. Qed.
Print Assumptions C25_next_position_partial.

(** sizes 100, 20, 5 and 5 with two phases below the first and no rewriting of the
    first one: the path is full, and the next save goes to position 1 or 2 *)
Example C25_case : let op := Options 2 false (Some (Cumulative (Some 2) (Some 3))) in
  let saves := [(0%nat, 100); (1%nat, 20); (2%nat, 5); (2%nat, 5)] in
  exists d, build op = Ok op /\ recorded op saves d /\ moderate saves /\ length d = 3%nat /\
    calc_next_phase (fun _ _ _ _ => true) d op = Ok 1%nat /\
    calc_next_phase (fun _ _ _ _ => false) d op = Ok 2%nat.
Proof.
  eexists. split; [reflexivity|]. split.
  { apply (recorded_next _ (fun _ _ _ _ => false) [(0%nat, 100); (1%nat, 20); (2%nat, 5)] [PItem 100 25 2; PItem 20 5 1; PItem 5 0 0] 2 5);
      [|reflexivity|lia|vm_compute; reflexivity].
    apply (recorded_next _ (fun _ _ _ _ => false) [(0%nat, 100); (1%nat, 20)] [PItem 100 20 1; PItem 20 0 0] 2 5);
      [|reflexivity|lia|vm_compute; reflexivity].
    apply (recorded_next _ (fun _ _ _ _ => false) [(0%nat, 100)] [PItem 100 0 0] 1 20); [|reflexivity|lia|vm_compute; reflexivity].
    apply (recorded_first _ 100). lia. }
  split; [split; vm_compute; reflexivity|]. split; [reflexivity|]. split; [vm_compute; reflexivity|vm_compute; reflexivity].
Qed.

(** whatever the options, choosing the position fails in no other way than by a
    [limit_nth] above the number of phases *)
Theorem C25_only_failure : forall greater b op saves d,
  build b = Ok op -> recorded op saves d -> moderate saves ->
  (forall c nth, cumul op = Some c -> limit_nth c = Some nth -> 0 <= nth) ->
  (exists j, calc_next_phase greater d op = Ok j) \/
  (exists c nth, cumul op = Some c /\ limit_nth c = Some nth /\ Z.of_nat (max_phase op) + 1 < nth).
Proof. exact only_failure. Qed.
Print Assumptions C25_only_failure.

(** the builder accepts "the third largest of two": the second save panics the
    next one *)
Theorem C25_refuted : exists greater op saves d,
  build op = Ok op /\ recorded op saves d /\ moderate saves /\ calc_next_phase greater d op = Panic.
Proof.
  exists (fun _ _ _ _ => false), (Options 1 true (Some (Cumulative (Some 3) (Some 10)))), [(0%nat, 100); (1%nat, 20)], [PItem 100 20 1; PItem 20 0 0].
  split; [reflexivity|]. split.
  - apply (recorded_next _ (fun _ _ _ _ => false) [(0%nat, 100)] [PItem 100 0 0] 1 20); [|reflexivity|lia|vm_compute; reflexivity].
    apply (recorded_first _ 100). lia.
  - split; [split; vm_compute; reflexivity|vm_compute; reflexivity].
Qed.
Print Assumptions C25_refuted.

(** ** C26  Recorded descendant sizes are exact *)

Theorem C26_sizes : forall saves d, kept saves d -> exact_sizes saves d.
Proof. exact kept_exact. Qed.
Print Assumptions C26_sizes.

(** recording a save at any position does not fail *)
Theorem C26_recording : forall saves d j size, kept saves d -> 0 <= size -> total saves + size < 2 ^ 64 -> zlen saves < 2 ^ 64 - 1 ->
  exists d', pop_and_push d j size = Ok d'.
Proof. exact kept_step. Qed.
Print Assumptions C26_recording.

(** the bytes written at the start of a file give the sizes back, whatever follows *)
Theorem C26_file : forall saves d rest, kept saves d -> moderate saves -> zlen d < 2 ^ 50 ->
  exists bytes, encode (encode_pdata d) = Ok bytes /\
    exists vals, decode (bytes ++ rest) = Ok (vals, zlen bytes, rest) /\ decode_pdata vals = Ok d.
Proof.
  intros saves d rest K M L. destruct (pdata_file d rest (kept_in_range _ _ K M) L) as (bytes & E & _ & H). eauto.
Qed.
Print Assumptions C26_file.

Example C26_case : let saves := [(0%nat, 1000000); (1%nat, 300); (2%nat, 20); (2%nat, 10); (1%nat, 90)] in
  kept saves [PItem 1000000 420 4; PItem 90 0 0] /\
  encode (encode_pdata [PItem 1000000 420 4; PItem 90 0 0]) = Ok [1; 7; 1; 4; 102; 140; 183; 64; 2; 64; 66; 15; 164; 1; 4; 90].
Proof.
  split; [|vm_compute; reflexivity].
  apply (kept_next [(0%nat, 1000000); (1%nat, 300); (2%nat, 20); (2%nat, 10)] [PItem 1000000 330 3; PItem 300 30 2; PItem 10 0 0] 1 90);
    [|cbn; lia|lia|vm_compute; reflexivity].
  apply (kept_next [(0%nat, 1000000); (1%nat, 300); (2%nat, 20)] [PItem 1000000 320 2; PItem 300 20 1; PItem 20 0 0] 2 10);
    [|cbn; lia|lia|vm_compute; reflexivity].
  apply (kept_next [(0%nat, 1000000); (1%nat, 300)] [PItem 1000000 300 1; PItem 300 0 0] 2 20); [|cbn; lia|lia|vm_compute; reflexivity].
  apply (kept_next [(0%nat, 1000000)] [PItem 1000000 0 0] 1 300); [|cbn; lia|lia|vm_compute; reflexivity].
  apply (kept_first 1000000). lia.
Qed.

(** ** C53  The limits of the last phase are kept *)

(** Full statement: the files of the last phase are fewer than [limit_count], and their total
    size is less than the [limit_nth] largest file they build on.  What holds: they are at
    most [limit_count], unless the first phase is the only other one and never saved again. *)
Theorem C53_count_partial : forall b op saves d c n run,
  build b = Ok op -> recorded op saves d -> (2 <= max_phase op \/ update_phase_0 op = true)%nat ->
  cumul op = Some c -> limit_count c = Some n -> 0 <= n -> last_run op saves run -> (1 <= max_phase op)%nat -> zlen run <= n.
Proof. exact count_limit. Qed.
Print Assumptions C53_count_partial.

(** When a further file is put into the last phase, the files in it so far are together
    smaller than [limit_nth] files of the path. *)
Theorem C53_size_partial : forall greater b op saves d c n run,
  build b = Ok op -> recorded op saves d -> (2 <= max_phase op \/ update_phase_0 op = true)%nat ->
  (1 <= max_phase op)%nat -> cumul op = Some c -> limit_nth c = Some n -> 0 <= n -> last_run op saves run -> run <> [] ->
  calc_next_phase greater d op = Ok (max_phase op) -> larger n (total run) d.
Proof. exact size_limit. Qed.
Print Assumptions C53_size_partial.

(** the comparison of the averages, without rounding *)
Definition by_average (size1 len1 size2 len2 : Z) : bool := size2 * len1 <? size1 * len2.

Example C53_case : let op := Options 1 true (Some (Cumulative (Some 1) (Some 3))) in
  let saves := [(0%nat, 100); (1%nat, 20); (1%nat, 20); (1%nat, 20)] in
  exists d, build op = Ok op /\ recorded op saves d /\ last_run op saves [(1%nat, 20); (1%nat, 20); (1%nat, 20)] /\
    calc_next_phase by_average d op = Ok 0%nat /\
    calc_next_phase by_average d (Options 1 true (Some (Cumulative (Some 1) (Some 4)))) = Ok 1%nat /\
    recorded op (saves ++ [(0%nat, 100)]) [PItem 100 0 0].
Proof.
  set (op := Options 1 true (Some (Cumulative (Some 1) (Some 3)))). set (saves := [(0%nat, 100); (1%nat, 20); (1%nat, 20); (1%nat, 20)]).
  assert (R : recorded op saves [PItem 100 60 3; PItem 20 0 0]).
  { apply (recorded_next op by_average [(0%nat, 100); (1%nat, 20); (1%nat, 20)] [PItem 100 40 2; PItem 20 0 0] 1 20); [|reflexivity|lia|vm_compute; reflexivity].
    apply (recorded_next op by_average [(0%nat, 100); (1%nat, 20)] [PItem 100 20 1; PItem 20 0 0] 1 20); [|reflexivity|lia|vm_compute; reflexivity].
    apply (recorded_next op by_average [(0%nat, 100)] [PItem 100 0 0] 1 20); [|reflexivity|lia|vm_compute; reflexivity].
    apply (recorded_first op 100). lia. }
  eexists. split; [reflexivity|]. split; [exact R|]. split; [split; [exists [(0%nat, 100)]; reflexivity|repeat constructor]|].
  split; [reflexivity|]. split; [reflexivity|].
  apply (recorded_next op by_average saves [PItem 100 60 3; PItem 20 0 0] 0 100 _ R); [reflexivity|lia|vm_compute; reflexivity].
Qed.

(** the documented limit, "fewer than this", is reached; and the total size can be above
    the largest file *)
Theorem C53_strict_refuted :
  (exists op c saves d run, build op = Ok op /\ recorded op saves d /\ cumul op = Some c /\ limit_count c = Some (zlen run) /\
    last_run op saves run /\ update_phase_0 op = true) /\
  (exists op c saves d run, build op = Ok op /\ recorded op saves d /\ cumul op = Some c /\ limit_nth c = Some 1 /\
    last_run op saves run /\ update_phase_0 op = true /\ ~ larger 1 (total run) d).
Proof.
  split.
  - exists (Options 1 true (Some (Cumulative None (Some 1)))), (Cumulative None (Some 1)), [(0%nat, 100); (1%nat, 20)], [PItem 100 20 1; PItem 20 0 0], [(1%nat, 20)].
    split; [reflexivity|]. split; [|split; [reflexivity|split; [reflexivity|split; [split; [exists [(0%nat, 100)]; reflexivity|repeat constructor]|reflexivity]]]].
    apply (recorded_next _ by_average [(0%nat, 100)] [PItem 100 0 0] 1 20); [|reflexivity|lia|vm_compute; reflexivity]. apply (recorded_first _ 100). lia.
  - exists (Options 1 true (Some (Cumulative (Some 1) None))), (Cumulative (Some 1) None), [(0%nat, 100); (1%nat, 90); (1%nat, 90)], [PItem 100 180 2; PItem 90 0 0], [(1%nat, 90); (1%nat, 90)].
    split; [reflexivity|]. split; [|split; [reflexivity|split; [reflexivity|split; [split; [exists [(0%nat, 100)]; reflexivity|repeat constructor]|split; [reflexivity|vm_compute; lia]]]]].
    apply (recorded_next _ by_average [(0%nat, 100); (1%nat, 90)] [PItem 100 90 1; PItem 90 0 0] 1 90); [|reflexivity|lia|vm_compute; reflexivity].
    apply (recorded_next _ by_average [(0%nat, 100)] [PItem 100 0 0] 1 90); [|reflexivity|lia|vm_compute; reflexivity]. apply (recorded_first _ 100). lia.
Qed.
Print Assumptions C53_strict_refuted.

(** With one phase after a first that is never saved again, no limit has any effect. *)
Theorem C53_no_limit_refuted : forall c n, build (Options 1 false (Some c)) = Ok (Options 1 false (Some c)) ->
  limit_nth c = None -> Z.of_nat n < 2 ^ 60 ->
  exists saves d run, recorded (Options 1 false (Some c)) saves d /\ last_run (Options 1 false (Some c)) saves run /\ zlen run = Z.of_nat n.
Proof.
  intros c n B Nn L. set (op := Options 1 false (Some c)) in *.
  assert (G : forall k, (k <= n)%nat -> exists d, recorded op ((0%nat, 100) :: repeat (1%nat, 1) k) d /\
    (d = [PItem 100 0 0] /\ k = O \/ d = [PItem 100 (Z.of_nat k) (Z.of_nat k); PItem 1 0 0] /\ k <> O)).
  { induction k as [|k IH]; intros Hk; [eexists; split; [apply (recorded_first op 100); lia|now left]|].
    destruct (IH ltac:(lia)) as (d & R & D). exists [PItem 100 (Z.of_nat (S k)) (Z.of_nat (S k)); PItem 1 0 0]. split; [|right; split; [reflexivity|discriminate]].
    cbn [repeat]. rewrite repeat_cons, app_comm_cons. apply (recorded_next op by_average _ d 1 1 _ R); [|lia|].
    - destruct D as [[-> _]|[-> _]]; [reflexivity|]. unfold calc_next_phase. cbn [length Nat.leb max_phase op rev app climb my_size desc_size desc_len bind].
      unfold should_shift. repeat (rewrite uadd_fits by lia; cbn [bind]).
      destruct (by_average _ _ _ _); [reflexivity|]. unfold over_limit. cbn [cumul op]. destruct (match limit_count c with Some _ => _ | None => _ end); [reflexivity|]. rewrite Nn. reflexivity.
    - unfold pop_and_push. destruct D as [[-> ->]|[-> _]]; [vm_compute; reflexivity|]. cbn [firstn]. unfold push. cbn [add_all]. unfold pitem_add. cbn [my_size desc_size desc_len].
      rewrite !uadd_fits by lia. cbn [bind app]. rewrite !Nat2Z.inj_succ. reflexivity. }
  destruct (G n ltac:(lia)) as (d & R & _). exists ((0%nat, 100) :: repeat (1%nat, 1) n), d, (repeat (1%nat, 1) n). split; [exact R|]. split.
  - split; [exists [(0%nat, 100)]; reflexivity|]. apply Forall_forall. intros e I. apply repeat_spec in I. now subst e.
  - unfold zlen. rewrite repeat_length. reflexivity.
Qed.
Print Assumptions C53_no_limit_refuted.
