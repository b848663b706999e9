(** Property C62: the phase of the next save, with the averages computed by floats as the
    program does. *)
From Verif Require Import Base CompactionModel FloatModel PhaseModel PhaseSpec PhaseProofs AverageModel AverageSpec AverageProofs AverageProofs2.

(** ** C62  The next save goes where the average sizes say *)

(** Full statement: for all saves.  What holds: for those whose total size times number is
    below 2^51, like a million files of a gigabyte altogether.  The position chosen is the one
    described, and only one is. *)
Theorem C62_choice_partial : forall b op saves d,
  build b = Ok op -> recorded op saves d -> precise saves -> length d = S (max_phase op) ->
  (forall c nth, cumul op = Some c -> limit_nth c = Some nth -> 1 <= nth <= Z.of_nat (max_phase op) + 1) ->
  forall p, calc_next_phase f64_greater d op = Ok p <-> next_save op saves d p.
Proof.
  intros b op saves d B R P L N p. destruct (choice b op saves d B R P L N) as (p0 & C & S0). split.
  - intros E. rewrite C in E. apply Ok_inj in E. now subst p0.
  - intros H. rewrite C. f_equal. exact (next_save_unique _ _ _ _ _ S0 H).
Qed.
Print Assumptions C62_choice_partial.

Theorem C62_exists_partial : forall b op saves d,
  build b = Ok op -> recorded op saves d -> precise saves -> length d = S (max_phase op) ->
  (forall c nth, cumul op = Some c -> limit_nth c = Some nth -> 1 <= nth <= Z.of_nat (max_phase op) + 1) ->
  exists p, calc_next_phase f64_greater d op = Ok p /\ next_save op saves d p.
Proof. exact choice. Qed.
Print Assumptions C62_exists_partial.

(** Of two averages, floats tell the greater one, if the cross products are below 2^53 *)
Theorem C62_averages_partial : forall size1 len1 size2 len2,
  0 <= size1 < 2 ^ 53 -> 0 <= size2 < 2 ^ 53 -> 1 <= len1 < 2 ^ 53 -> 1 <= len2 < 2 ^ 53 ->
  size1 * len2 + size2 * len1 < 2 ^ 53 ->
  (f64_greater size1 len1 size2 len2 = true <-> size2 * len1 < size1 * len2).
Proof. intros s1 l1 s2 l2 S1 S2 L1 L2 B. rewrite (greater_exact s1 l1 s2 l2 S1 S2 L1 L2 B). apply Z.ltb_lt. Qed.
Print Assumptions C62_averages_partial.

(** An average told to be greater is greater, if sizes and numbers are below 2^53 *)
Theorem C62_no_false_alarm_partial : forall size1 len1 size2 len2,
  0 <= size1 < 2 ^ 53 -> 0 <= size2 < 2 ^ 53 -> 1 <= len1 < 2 ^ 53 -> 1 <= len2 < 2 ^ 53 ->
  f64_greater size1 len1 size2 len2 = true -> size2 * len1 < size1 * len2.
Proof. exact greater_true. Qed.
Print Assumptions C62_no_false_alarm_partial.

(** Two positions after the first, which is never saved again; at most three files in the last
    one.  After sizes 100, 20, 5 and 5 the last position stays; after a third 5 it is full, and
    the group of 20, 5, 5, 5 is lighter than all of them: the next save replaces the 20. *)
Example C62_case : let op := Options 2 false (Some (Cumulative (Some 2) (Some 3))) in
  let saves := [(0%nat, 100); (1%nat, 20); (2%nat, 5); (2%nat, 5)] in
  exists d d', build op = Ok op /\ recorded op saves d /\ recorded op (saves ++ [(2%nat, 5)]) d' /\
    precise (saves ++ [(2%nat, 5)]) /\ next_save op saves d 2 /\ next_save op (saves ++ [(2%nat, 5)]) d' 1.
Proof.
  intros op saves. set (d := [PItem 100 30 3; PItem 20 10 2; PItem 5 0 0]). set (d' := [PItem 100 35 4; PItem 20 15 3; PItem 5 0 0]).
  assert (R : recorded op saves d).
  { apply (recorded_next _ f64_greater [(0%nat, 100); (1%nat, 20); (2%nat, 5)] [PItem 100 25 2; PItem 20 5 1; PItem 5 0 0] 2 5);
      [|vm_compute; reflexivity|lia|vm_compute; reflexivity].
    apply (recorded_next _ f64_greater [(0%nat, 100); (1%nat, 20)] [PItem 100 20 1; PItem 20 0 0] 2 5);
      [|reflexivity|lia|vm_compute; reflexivity].
    apply (recorded_next _ f64_greater [(0%nat, 100)] [PItem 100 0 0] 1 20); [|reflexivity|lia|vm_compute; reflexivity].
    apply (recorded_first _ 100). lia. }
  assert (R' : recorded op (saves ++ [(2%nat, 5)]) d') by (apply (recorded_next _ f64_greater saves d 2 5); [exact R|vm_compute; reflexivity|lia|vm_compute; reflexivity]).
  exists d, d'. split; [reflexivity|]. split; [exact R|]. split; [exact R'|]. split; [split; vm_compute; reflexivity|].
  split; (eapply (C62_choice_partial op); [reflexivity| | | | |vm_compute; reflexivity]; [assumption|split; vm_compute; reflexivity|reflexivity|]);
    cbn [cumul op]; intros c nth E E2; apply Some_inj in E; subst c; cbn [limit_nth] in E2; apply Some_inj in E2; subst nth; cbn; lia.
Qed.

(** Two files of 2^53 + 1 bytes: neither is larger, and the position is left all the same.  And
    2^60 bytes followed by 2^60 + 1: the second is larger, and the position is kept. *)
Theorem C62_refuted : let op := Options 1 true None in build op = Ok op /\
  (exists saves d, recorded op saves d /\ moderate saves /\ length d = S (max_phase op) /\
    calc_next_phase f64_greater d op = Ok 0%nat /\ next_save op saves d 1 /\ ~ next_save op saves d 0) /\
  (exists saves d, recorded op saves d /\ moderate saves /\ length d = S (max_phase op) /\
    calc_next_phase f64_greater d op = Ok 1%nat /\ next_save op saves d 0 /\ ~ next_save op saves d 1).
Proof.
  intros op. assert (NL : forall d q, ~ at_limit op d q) by (intros d q (c & E & _); discriminate E). split; [reflexivity|]. split.
  - set (x := 9007199254740993). set (saves := [(0%nat, x); (1%nat, x)]). set (d := [PItem x x 1; PItem x 0 0]).
    assert (S1 : next_save op saves d 1).
    { split; [reflexivity|]. split; [intros j J; cbn in J; lia|]. right. right. split; [lia|]. exists [(1%nat, x)], saves.
      split; [exists [(0%nat, x)], x, []; auto|]. split; [exists [], x, [(1%nat, x)]; split; [reflexivity|split; [reflexivity|repeat constructor]]|].
      split; [unfold heavier; vm_compute; discriminate|]. intros _. apply NL. }
    exists saves, d. split; [|split; [split; vm_compute; reflexivity|split; [reflexivity|split; [vm_compute; reflexivity|split; [exact S1|intros S0; discriminate (next_save_unique _ _ _ _ _ S0 S1)]]]]].
    apply (recorded_next _ f64_greater [(0%nat, x)] [PItem x 0 0] 1 x); [|reflexivity|lia|vm_compute; reflexivity]. apply (recorded_first _ x). lia.
  - set (x := 1152921504606846976). set (y := 1152921504606846977). set (saves := [(0%nat, x); (1%nat, y)]). set (d := [PItem x y 1; PItem y 0 0]).
    assert (S1 : next_save op saves d 0).
    { split; [cbn; lia|]. split; [|left; split; reflexivity]. intros j J. assert (j = 1%nat) as -> by (cbn in J; lia). exists [(1%nat, y)], saves.
      split; [exists [(0%nat, x)], y, []; auto|]. split; [exists [], x, [(1%nat, y)]; split; [reflexivity|split; [reflexivity|repeat constructor]]|].
      left. unfold heavier; vm_compute. reflexivity. }
    exists saves, d. split; [|split; [split; vm_compute; reflexivity|split; [reflexivity|split; [vm_compute; reflexivity|split; [exact S1|intros S0; discriminate (next_save_unique _ _ _ _ _ S0 S1)]]]]].
    apply (recorded_next _ f64_greater [(0%nat, x)] [PItem x 0 0] 1 y); [|reflexivity|lia|vm_compute; reflexivity]. apply (recorded_first _ x). lia.
Qed.
Print Assumptions C62_refuted.
