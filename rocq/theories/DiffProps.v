(** Properties C14 to C20: differences between documents. *)
From Verif Require Import Base CompactionModel CompactionSpec FloatModel StringCompactionModel
  LinkedModel LinkedSpec DocModel DiffModel DiffWireModel DiffSpec DiffEditSpec DiffProofs DiffFrameProofs DiffEndProofs DiffSamples.

(** ** C14  Applying a diff reproduces the later document *)

(** Full statement: also the next id of every list is reproduced, set_enum may
    switch to another table, and items with lists may have any number of members.
    What holds: with definitions that have at most 11 members in every item that
    contains a list, and no list of the root that may be undefined, every
    document reached by edits is reproduced with all values, items, ids and
    their order, from any document that equals the earlier one. *)
Theorem C14_edits_partial : forall mem n (def : rootdef n) (f t : sabun n),
  wf_rootdef def -> small_rootdef def -> (forall key id d, hget key def <> Some (id, RVMList d true)) ->
  typed_root mem f def -> typed_root mem t def -> counted_root f -> fits_memory f t def ->
  reached (edit_root true) f t ->
  exists bytes, get_diff f t def = Ok bytes /\ wf_bytes bytes /\
    forall f', same_root true false f' f -> exists r, apply_diff f' def bytes = Ok r /\ same_root true false r t.
Proof. intros. eapply edits_reproduced; eassumption. Qed.
Print Assumptions C14_edits_partial.

Example C14_edits_case :
  wf_rootdef a_def /\ small_rootdef a_def /\ (forall key id d, hget key a_def <> Some (id, RVMList d true)) /\
  typed_root a_mem doc_f a_def /\ typed_root a_mem doc_t a_def /\ counted_root doc_f /\ fits_memory doc_f doc_t a_def /\
  reached (edit_root true) doc_f doc_t /\
  get_diff doc_f doc_t a_def = Ok [1; 41; 1; 13; 218; 147; 117; 126; 246; 238; 238; 245; 23; 253; 206;
          255; 184; 6; 104; 105; 4; 4; 2; 5; 4; 122; 2; 3].
Proof.
  split; [exact a_def_wf|]. split; [exact a_def_small|]. split; [exact a_def_fixed|]. split; [exact doc_f_typed|].
  split; [exact doc_t_typed|]. split; [exact doc_f_counted|]. split; [exact doc_fits|]. split; [exact doc_edits|]. vm_compute. reflexivity.
Qed.

(** the same for any two documents of which the second is a later version of the
    first; next ids are reproduced too where something else changed in their list *)
Theorem C14_later_versions : forall mem nx n (def : rootdef n) (f t : sabun n),
  wf_rootdef def -> small_rootdef def -> typed_root mem f def -> typed_root mem t def ->
  later_root true def f t -> (nx = true -> next_root true f t) -> fits_memory f t def ->
  exists bytes, get_diff f t def = Ok bytes /\ wf_bytes bytes /\
    forall f', same_root true nx f' f -> exists r, apply_diff f' def bytes = Ok r /\ same_root true nx r t.
Proof. intros mem nx n. exact (later_reproduced mem true nx). Qed.
Print Assumptions C14_later_versions.

Example C14_later_versions_case : exists r, same_root true true r doc_t /\
  (b <- get_diff doc_f doc_t a_def ; apply_diff doc_f a_def b) = Ok r.
Proof.
  eexists. split; [|vm_compute; reflexivity]. intros key. cbn [hget doc_t].
  destruct (eqb_bytes [97] key); [left; reflexivity|]. destruct (eqb_bytes [108] key); [|destruct (eqb_bytes [115] key); [reflexivity|exact I]].
  split; [reflexivity|]. split; [|reflexivity]. intros id. cbn [fst lookup].
  destruct (id =? 1); [|destruct (id =? 3); [|destruct (id =? 2); [|exact I]]]; (split; [|intros k; reflexivity]); intros k; cbn [hget it_values].
  - destruct (eqb_bytes [109] k); [|exact I]. split; [reflexivity|]. split; [|reflexivity]. intros i. cbn [fst lookup inner_list'].
    destruct (i =? 4); [|destruct (i =? 0); [|destruct (i =? 3); [|exact I]]]; (split; [|intros ?; reflexivity]); intros j; cbn [hget it_values leaf];
      try exact I; destruct (eqb_bytes [119] j); try exact I; reflexivity.
  - exact I.
  - destruct (eqb_bytes [118] k); [reflexivity|exact I].
Qed.

(** an item is inserted and removed again: the next id of the list changes, but
    the diff is empty and the next id is not reproduced *)
Theorem C14_next_id_refuted : exists (def : rootdef 1) (f t r : sabun 1) bytes,
  wf_rootdef def /\ small_rootdef def /\ typed_root a_mem f def /\ typed_root a_mem t def /\ counted_root f /\
  reached (edit_root true) f t /\ get_diff f t def = Ok bytes /\ apply_diff f def bytes = Ok r /\ ~ same_root true true r t.
Proof.
  set (l := ([(0, leaf 1)], 1) : mlistT 1). set (l' := ([(0, leaf 1)], 2) : mlistT 1).
  exists (one_def (n := 1) in_def), (one_doc (n := 1) l), (one_doc (n := 1) l'), (one_doc (n := 1) l). eexists.
  split; [apply one_def_wf, in_def_wf|]. split; [apply one_def_small, in_def_small|].
  assert (T : forall next, u64_range next -> typed_root a_mem (one_doc (n := 1) ([(0, leaf 1)], next)) (one_def (n := 1) in_def)).
  { intros next R. apply one_doc_typed. apply leaves_typed; [nodup|all_of; unfold u64_range; lia|exact R|cbn; lia|].
    constructor; [|constructor]. right. exists 1. split; [unfold i64_range; lia|reflexivity]. }
  split; [apply T; unfold u64_range; lia|]. split; [apply T; unfold u64_range; lia|].
  split; [apply one_doc_counted, leaves_counted; [nodup|all_of]|]. split.
  { apply more with (b := one_doc (n := 1) ([(0, leaf 1); (1, Item [] [])], 2)).
    - eapply more; [apply here|]. apply (edit_root_list true (n := 1) (one_doc (n := 1) l) [108] l _ eq_refl).
      exact (insert_item true (empty_listT 0) (editT true 0) [(0, leaf 1)] [] 1).
    - apply (edit_root_list true (n := 1) (one_doc (n := 1) ([(0, leaf 1); (1, Item [] [])], 2)) [108] _ l' eq_refl).
      exact (remove_item true (empty_listT 0) (editT true 0) [(0, leaf 1)] [] 1 (Item [] []) 2). }
  split; [vm_compute; reflexivity|]. split; [vm_compute; reflexivity|].
  intros S. apply one_doc_same in S. destruct S as (_ & _ & S). specialize (S eq_refl). discriminate S.
Qed.
Print Assumptions C14_next_id_refuted.

(** set_enum from table "x" to table "y" clears the reference to "x"; the applied
    diff leaves it set *)
Theorem C14_set_enum_refuted : exists (def : rootdef 1) (f t r : sabun 1) bytes it,
  wf_rootdef def /\ typed_root a_mem f def /\ typed_root a_mem t def /\
  f = one_doc (n := 1) ([(0, Item [] [([120], Val [112])])], 1) /\ t = one_doc (n := 1) ([(0, Item [] [([121], Val [112])])], 1) /\
  get_diff f t def = Ok bytes /\ apply_diff f def bytes = Ok r /\ r = one_doc (n := 1) ([(0, it)], 1) /\
  hget [120] (it_refs it) = Some (Val [112]) /\ hget [121] (it_refs it) = Some (Val [112]).
Proof.
  exists (one_def (n := 1) enum_def), (enum_doc 120), (enum_doc 121). do 3 eexists.
  split; [apply one_def_wf, enum_def_wf|]. split; [apply enum_doc_typed; auto|]. split; [apply enum_doc_typed; auto|].
  split; [reflexivity|]. split; [reflexivity|]. split; [vm_compute; reflexivity|]. split; [vm_compute; reflexivity|].
  split; [reflexivity|]. split; [vm_compute; reflexivity|vm_compute; reflexivity].
Qed.
Print Assumptions C14_set_enum_refuted.

(** a list of the root that may be undefined: defining it makes get_diff panic *)
Theorem C14_undefiable_list_refuted : exists (def : rootdef 1) (f t : sabun 1),
  wf_rootdef def /\ small_rootdef def /\ typed_root a_mem f def /\ typed_root a_mem t def /\
  f = [([108], RMut None)] /\ t = [([108], RMut (Some ([], 0)))] /\
  get_diff f t def = Panic /\ get_diff t t def = Panic.
Proof.
  exists [([108], (0, RVMList (in_def : defT 1) true))], [([108], RMut None)], [([108], RMut (Some (([], 0) : mlistT 1)))].
  split. { split; [split; [nodup|split; [nodup|all_of]]|]. split; [intros key e H; apply hget_in in H as [H|[]]; inversion H; subst; cbn; lia|].
    constructor; [exact in_def_wf|constructor]. }
  split. { intros key id d' u H. apply hget_in in H as [H|[]]. inversion H; subst. exact in_def_small. }
  split. { split; [nodup|]. intros key v H. apply hget_in in H as [H|[]]. inversion H; subst. exists 0, in_def, true. split; reflexivity. }
  split. { split; [nodup|]. intros key v H. apply hget_in in H as [H|[]]. inversion H; subst. exists 0, in_def, true. split; [reflexivity|].
    apply leaves_typed; [constructor|constructor|cbn; unfold u64_range; lia|cbn; lia|constructor]. }
  split; [reflexivity|]. split; [reflexivity|]. split; [vm_compute; reflexivity|vm_compute; reflexivity].
Qed.
Print Assumptions C14_undefiable_list_refuted.

(** A list emptied by removals forgets its next id when it is copied (C09), so a
    new item may get the id of a removed one.  Then the diff cannot tell that the
    old item's values are gone. *)
Theorem C14_reused_id_refuted : exists (def : rootdef 1) (f t : sabun 1) bytes,
  wf_rootdef def /\ small_rootdef def /\ typed_root a_mem f def /\ typed_root a_mem t def /\ counted_root f /\ counted_root t /\
  get_diff f t def = Ok bytes /\ apply_diff f def bytes = Ok f /\
  f = one_doc (n := 1) ([(0, leaf 1)], 1) /\ t = one_doc (n := 1) ([(0, Item [] [])], 1).
Proof.
  exists (one_def (n := 1) in_def), (one_doc (n := 1) ([(0, leaf 1)], 1)), (one_doc (n := 1) ([(0, Item [] [])], 1)). eexists.
  split; [apply one_def_wf, in_def_wf|]. split; [apply one_def_small, in_def_small|].
  split. { apply one_doc_typed, leaves_typed; [nodup|all_of; unfold u64_range; lia|cbn; unfold u64_range; lia|cbn; lia|].
    constructor; [|constructor]. right. exists 1. split; [unfold i64_range; lia|reflexivity]. }
  split. { apply one_doc_typed, leaves_typed; [nodup|all_of; unfold u64_range; lia|cbn; unfold u64_range; lia|cbn; lia|].
    constructor; [|constructor]. left. reflexivity. }
  split; [apply one_doc_counted, leaves_counted; [nodup|all_of]|]. split; [apply one_doc_counted, leaves_counted; [nodup|all_of]|].
  split; [vm_compute; reflexivity|]. split; [vm_compute; reflexivity|]. split; reflexivity.
Qed.
Print Assumptions C14_reused_id_refuted.

(** the sign of a zero is not reproduced *)
Theorem C14_negative_zero_refuted : exists (f t : sabun 2) bytes,
  f = [([97], RParam (PFloat (Val 0)))] /\ t = [([97], RParam (PFloat (Val (2 ^ 63))))] /\
  get_diff f t a_def = Ok bytes /\ apply_diff f a_def bytes = Ok f.
Proof. do 3 eexists. split; [reflexivity|]. split; [reflexivity|]. split; [vm_compute; reflexivity|vm_compute; reflexivity]. Qed.
Print Assumptions C14_negative_zero_refuted.

(** ** C15  Reordering *)

(** two items change places: the diff is empty *)
Theorem C15_refuted : exists (def : rootdef 1) (f t : sabun 1) bytes,
  wf_rootdef def /\ small_rootdef def /\ typed_root a_mem f def /\ typed_root a_mem t def /\ counted_root f /\
  reached (edit_root false) f t /\ get_diff f t def = Ok bytes /\ apply_diff f def bytes = Ok f /\ ~ same_root true false f t.
Proof.
  set (l := ([(0, leaf 1); (1, leaf 2)], 2) : mlistT 1). set (l' := ([(1, leaf 2); (0, leaf 1)], 2) : mlistT 1).
  exists (one_def (n := 1) in_def), (one_doc (n := 1) l), (one_doc (n := 1) l'). eexists.
  split; [apply one_def_wf, in_def_wf|]. split; [apply one_def_small, in_def_small|].
  assert (W : forall w, w = 1 \/ w = 2 -> exists w', i64_range w' /\ leaf w = leaf w') by (intros w H; exists w; split; [unfold i64_range; lia|reflexivity]).
  split. { apply one_doc_typed, leaves_typed; [nodup|all_of; unfold u64_range; lia|cbn; unfold u64_range; lia|cbn; lia|].
    constructor; [right; apply W; auto|]. constructor; [right; apply W; auto|constructor]. }
  split. { apply one_doc_typed, leaves_typed; [nodup|all_of; unfold u64_range; lia|cbn; unfold u64_range; lia|cbn; lia|].
    constructor; [right; apply W; auto|]. constructor; [right; apply W; auto|constructor]. }
  split; [apply one_doc_counted, leaves_counted; [nodup|all_of]|]. split.
  { eapply more; [apply here|]. apply (edit_root_list false (n := 1) (one_doc (n := 1) l) [108] l l' eq_refl).
    exact (move_items false (empty_listT 0) (editT false 0) _ _ 2 eq_refl (perm_swap _ _ _)). }
  split; [vm_compute; reflexivity|]. split; [vm_compute; reflexivity|].
  intros S. apply one_doc_same in S. destruct S as (S & _). discriminate S.
Qed.
Print Assumptions C15_refuted.

(** no difference whatever reorders items it neither creates nor deletes *)
Theorem C15_never_reorders : forall n (a : mlistT (S n)) (d : ldiffT (S n)) m b,
  apply_list_diffT (S n) a d m = Ok b -> filter (stays d) (ids (fst b)) = filter (stays d) (ids (fst a)).
Proof. exact never_reorders. Qed.
Print Assumptions C15_never_reorders.

Example C15_never_reorders_case : exists m b, apply_list_diffT 1 ([(0, leaf 1); (1, leaf 2); (2, leaf 3)], 3)
    ([(1, Delete); (2, Modify (IDiff [(0, PInt (Val 9))] [] [])); (3, Create (Some 0) (IDiff [] [] []))], 4) m = Ok b /\
  ids (fst b) = [0; 3; 2].
Proof. exists (Tables [Some ([119], MParam TInt Normal)] []). eexists. split; [vm_compute; reflexivity|vm_compute; reflexivity]. Qed.

(** Full statement: also the order is reproduced.  What holds: whatever is moved,
    every id gets its item with all values, in some order. *)
Theorem C15_moves_partial : forall mem n (def : rootdef n) (f t : sabun n),
  wf_rootdef def -> small_rootdef def -> (forall key id d, hget key def <> Some (id, RVMList d true)) ->
  typed_root mem f def -> typed_root mem t def -> counted_root f -> fits_memory f t def ->
  reached (edit_root false) f t ->
  exists bytes, get_diff f t def = Ok bytes /\ wf_bytes bytes /\
    forall f', same_root false false f' f -> exists r, apply_diff f' def bytes = Ok r /\ same_root false false r t.
Proof. intros. eapply edits_reproduced; eassumption. Qed.
Print Assumptions C15_moves_partial.

Example C15_moves_case : reached (edit_root false) (one_doc (n := 1) ([(0, leaf 1); (1, leaf 2)], 2)) (one_doc (n := 1) ([(1, leaf 2); (2, Item [] []); (0, leaf 1)], 3)) /\
  (b <- get_diff (one_doc (n := 1) ([(0, leaf 1); (1, leaf 2)], 2)) (one_doc (n := 1) ([(1, leaf 2); (2, Item [] []); (0, leaf 1)], 3)) (one_def (n := 1) in_def) ;
   apply_diff (one_doc (n := 1) ([(0, leaf 1); (1, leaf 2)], 2)) (one_def (n := 1) in_def) b) = Ok (one_doc (n := 1) ([(0, leaf 1); (1, leaf 2); (2, Item [] [])], 3)).
Proof.
  split; [|vm_compute; reflexivity].
  apply more with (b := one_doc (n := 1) ([(1, leaf 2); (0, leaf 1)], 2)).
  - eapply more; [apply here|]. apply (edit_root_list false (n := 1) (one_doc (n := 1) ([(0, leaf 1); (1, leaf 2)], 2)) [108] _ ([(1, leaf 2); (0, leaf 1)], 2) eq_refl).
    exact (move_items false (empty_listT 0) (editT false 0) _ _ 2 eq_refl (perm_swap _ _ _)).
  - apply (edit_root_list false (n := 1) (one_doc (n := 1) ([(1, leaf 2); (0, leaf 1)], 2)) [108] _ ([(1, leaf 2); (2, Item [] []); (0, leaf 1)], 3) eq_refl).
    exact (insert_item false (empty_listT 0) (editT false 0) [(1, leaf 2)] [(0, leaf 1)] 2).
Qed.

(** ** C16  Diff files round-trip *)

(** Full statement: for every diff of the definition.  What holds: for every one in
    which no item with changed lists has its member numbers written one by one;
    what is read is the same diff with its texts and arrays at new addresses. *)
Theorem C16_round_trip_partial : forall mem n (def : rootdef n) T d,
  wf_rootdef def -> root_table def = Ok T -> typed_rootdiff mem d def -> readable_root d ->
  exists ks, write_root d T = Ok ks /\
    (zlen ks < 2 ^ 58 -> exists bytes, encode ks = Ok bytes /\ wf_bytes bytes /\
       forall rest, decode (bytes ++ rest) = Ok (map plain ks, zlen bytes, rest) /\
                    forall more, read_root T (map plain ks ++ more) = Ok (fresh_root d, more)).
Proof. intros mem n. exact (diff_bytes mem). Qed.
Print Assumptions C16_round_trip_partial.

(** small definitions: every diff *)
Theorem C16_small_definitions : forall mem n (def : rootdef n) d,
  wf_rootdef def -> small_rootdef def -> typed_rootdiff mem d def -> readable_root d.
Proof. exact small_readable. Qed.
Print Assumptions C16_small_definitions.

Example C16_case : exists T d ks, root_table a_def = Ok T /\ get_root_diff doc_f doc_t a_def T = Ok d /\ rd_lists d <> [] /\
  typed_rootdiff a_mem d a_def /\ readable_root d /\ write_root d T = Ok ks /\ zlen ks = 41.
Proof.
  assert (H : exists T d, root_table a_def = Ok T /\ get_root_diff doc_f doc_t a_def T = Ok d) by (do 2 eexists; split; vm_compute; reflexivity).
  destruct H as (T & d & ET & Ed).
  assert (Ty : typed_rootdiff a_mem d a_def) by (exact (produced_typed_root a_mem 2 doc_f doc_t a_def T d a_def_wf ET doc_f_typed doc_t_typed Ed)).
  exists T, d. eexists. split; [exact ET|]. split; [exact Ed|].
  split. { vm_compute in ET. apply Ok_inj in ET; subst T. vm_compute in Ed. apply Ok_inj in Ed; subst d. discriminate. }
  split; [exact Ty|]. split; [exact (small_readable a_mem 2 a_def d a_def_wf a_def_small Ty)|].
  vm_compute in ET. apply Ok_inj in ET; subst T. vm_compute in Ed. apply Ok_inj in Ed; subst d. split; [vm_compute; reflexivity|vm_compute; reflexivity].
Qed.

(** a nested list under member number 12 gets an item: the bytes are written but
    cannot be read back, so the diff cannot be applied *)
Theorem C16_refuted : exists (def : rootdef 2) (f t : sabun 2) bytes,
  wf_rootdef def /\ typed_root a_mem f def /\ typed_root a_mem t def /\ counted_root f /\ reached (edit_root true) f t /\
  get_diff f t def = Ok bytes /\ apply_diff f def bytes = Err.
Proof.
  exists (one_def (n := 2) big_def), (big_doc ([], 0)), (big_doc ([(0, Item [] [])], 1)). eexists.
  split; [apply one_def_wf, big_def_wf|].
  split. { apply big_doc_typed, leaves_typed; [constructor|constructor|cbn; unfold u64_range; lia|cbn; lia|constructor]. }
  split. { apply big_doc_typed, leaves_typed; [nodup|all_of; unfold u64_range; lia|cbn; unfold u64_range; lia|cbn; lia|].
    constructor; [left; reflexivity|constructor]. }
  split; [apply big_doc_counted, leaves_counted; constructor|]. split.
  { eapply more; [apply here|]. apply big_doc_edit. exact (insert_item true (empty_listT 0) (editT true 0) [] [] 0). }
  split; [vm_compute; reflexivity|vm_compute; reflexivity].
Qed.
Print Assumptions C16_refuted.

(** ** C17  Nothing else changes *)
Theorem C17_frame : forall n (def : rootdef n) T (a b : sabun n) d, wf_rootdef def -> root_table def = Ok T ->
  apply_root_diff a d T = Ok b -> frame_root def d a b.
Proof. intros n. exact root_frame. Qed.
Print Assumptions C17_frame.

(** the sample diff applied to a document with a further item and a further value *)
Example C17_case : exists T d b, root_table a_def = Ok T /\ get_root_diff doc_f doc_t a_def T = Ok d /\
  apply_root_diff (with_list ([(0, Item [] []); (1, Item [([109], LMil (Some ([(9, leaf 8)], 10))); ([118], LParam (PInt (Val 3)))] []);
                               (7, Item [([118], LParam (PInt (Val 4)))] []); (2, Item [] [])], 9)) d T = Ok b /\
  match hget [108] b with
  | Some (RMut (Some l)) => ids (fst l) = [1; 3; 7; 2] /\ lookup 7 (fst l) = Some (Item [([118], LParam (PInt (Val 4)))] []) /\
      match lookup 1 (fst l) with
      | Some it => hget [118] (it_values it) = Some (LParam (PInt (Val 3))) /\
          hget [109] (it_values it) = Some (LMil (Some ([(4, Item [] []); (9, leaf 8)], 5)))
      | None => False
      end
  | _ => False
  end.
Proof. do 3 eexists. split; [vm_compute; reflexivity|]. split; [vm_compute; reflexivity|]. split; [vm_compute; reflexivity|]. vm_compute. auto. Qed.

(** ** C18  A document and itself *)

(** Full statement: for every document.  What holds: for documents without NaN
    whose definition has no list of the root that may be undefined. *)
Theorem C18_same_partial : forall mem n (def : rootdef n) (f : sabun n), wf_rootdef def -> typed_root mem f def -> no_nan_root f ->
  (forall key id d, hget key def <> Some (id, RVMList d true)) ->
  exists T bytes, root_table def = Ok T /\ get_root_diff f f def T = Ok (RDiff [] []) /\ get_diff f f def = Ok bytes /\
    forall s : sabun n, apply_diff s def bytes = Ok s.
Proof. exact @same_reproduced'. Qed.
Print Assumptions C18_same_partial.

Example C18_case : wf_rootdef a_def /\ typed_root a_mem doc_t a_def /\ no_nan_root doc_t /\
  (forall key id d, hget key a_def <> Some (id, RVMList d true)) /\ exists bytes, get_diff doc_t doc_t a_def = Ok bytes /\ bytes <> [].
Proof.
  split; [exact a_def_wf|]. split; [exact doc_t_typed|]. split.
  { intros key v H. each H; [intros (N & _); vm_compute in N; discriminate N| |exact I].
    intros id it H. item_of H; intros k v H; each H; try exact I.
    intros id it H. item_of H; intros k v H; each H; exact I. }
  split; [exact a_def_fixed|]. eexists. split; [vm_compute; reflexivity|discriminate].
Qed.

(** a NaN differs from itself *)
Theorem C18_nan_refuted : exists (f : sabun 2) T d, typed_root a_mem f a_def /\ root_table a_def = Ok T /\
  get_root_diff f f a_def T = Ok d /\ d <> RDiff [] [].
Proof.
  exists [([97], RParam (PFloat (Val (2047 * 2 ^ 52 + 2 ^ 51))))]. do 2 eexists. split.
  { split; [nodup|]. intros key v H. apply hget_in in H as [H|[]]. inversion H; subst. exists 0, (PFloat (Val 0)), Normal.
    split; [reflexivity|]. split; [reflexivity|]. split; [reflexivity|]. cbn. unfold u64_range. lia. }
  split; [vm_compute; reflexivity|]. split; [vm_compute; reflexivity|discriminate].
Qed.
Print Assumptions C18_nan_refuted.

(** ** C19  Values survive *)
Theorem C19_values : forall mem p vt, acceptable vt (param_qv_type p) = true -> wf_param mem p ->
  exists ks bytes, write_param p vt = Ok ks /\ encode ks = Ok bytes /\
    decode bytes = Ok (map plain ks, zlen bytes, []) /\
    forall rest, read_param (type_of p) vt (map plain ks ++ rest) = Ok (fresh_param p, rest).
Proof. exact param_bytes. Qed.
Print Assumptions C19_values.

(** what is read is the same value: type, kind and content *)
Theorem C19_same_value : forall p, same_param (fresh_param p) p.
Proof. exact fresh_same. Qed.
Print Assumptions C19_same_value.

Example C19_case : acceptable UndefNullable (param_qv_type (PIntArray (Val (3, [-1; 2 ^ 63 - 1])))) = true /\
  wf_param (fun _ => [-1; 2 ^ 63 - 1]) (PIntArray (Val (3, [-1; 2 ^ 63 - 1]))) /\
  (ks <- write_param (PIntArray (Val (3, [-1; 2 ^ 63 - 1]))) UndefNullable ; read_param TIntArray UndefNullable (map plain ks))
  = Ok (PIntArray (Val (0, [-1; 2 ^ 63 - 1])), []).
Proof.
  split; [reflexivity|]. split; [|vm_compute; reflexivity]. split; [reflexivity|]. split; [|cbn; lia].
  constructor; [unfold i64_range; lia|]. constructor; [unfold i64_range; lia|constructor].
Qed.

(** a value its kind does not accept is refused *)
Theorem C19_refused : forall p vt, acceptable vt (param_qv_type p) = false -> write_param p vt = Err.
Proof. exact param_refused. Qed.
Print Assumptions C19_refused.

Example C19_refused_case : acceptable Nullable (param_qv_type (PInt Undefined)) = false.
Proof. reflexivity. Qed.

(** ** C20  Sets of member numbers *)
Theorem C20_numbers : forall params lists, StronglySorted Z.lt params -> StronglySorted Z.lt lists ->
  Forall (fun i => 0 <= i < 2 ^ 62) params -> Forall (fun i => 0 <= i < 2 ^ 62) lists -> (forall i, In i params -> ~ In i lists) ->
  exists s, store_ids params lists = Ok s /\
    (forall rest, read_stored_ids (map plain (write_stored_ids s) ++ rest) = Ok (s, rest)) /\
    NoDup (numbers_in s) /\ forall i, In i (numbers_in s) <-> In i params \/ In i lists.
Proof. exact numbers_exact. Qed.
Print Assumptions C20_numbers.

Example C20_case : store_ids [0; 63] [5] = Ok (SNumbers [0; 63; 5]) /\ store_ids [0; 1; 2; 63] [5; 6] = Ok (SU64 (2 ^ 63 + 103)) /\
  store_ids [1; 64] [70; 80] = Ok (SBits [2; 65601]) /\ numbers_in (SBits [2; 65601]) = [1; 64; 70; 80].
Proof. repeat split. Qed.
