(** Sample documents for the properties of differences. *)
From Verif Require Import Base CompactionModel CompactionSpec FloatModel StringCompactionModel
  LinkedModel LinkedSpec DocModel DiffModel DiffWireModel DiffSpec DiffEditSpec DiffProofs.

(* ------------------------------------------------------------------ *)
(** * A sample definition and documents *)

(** items with an integer "w" *)
Definition in_def : defT 1 := LDef [([119], (0, DParam (PInt (Val 0)) Normal))] [] false [] [].
(** items with a nullable integer "v", a list "m" and a reference "r" *)
Definition it_def : defT 2 := LDef
  [([109], (1, DMil in_def false)); ([118], (0, DParam (PInt (Val 7)) Nullable))]
  [([114], (0, (Val [120], Normal)))] false [] [].
(** a float "a", a string "s" and a list "l" *)
Definition a_def : rootdef 2 :=
  [([97], (0, RVParam (PFloat (Val 0)) Normal)); ([108], (2, RVMList it_def false)); ([115], (1, RVParam (PString (Val (1, [104]))) Normal))].

Definition a_mem (a : Z) : list Z := if a =? 1 then [104] else [104; 105].

Definition leaf (w : Z) : item (mlistT 0) := Item [([119], LParam (PInt (Val w)))] [].
Definition inner_list : mlistT 1 := ([(0, leaf 5); (3, leaf (-1))], 4).

Definition doc_f : sabun 2 :=
  [([97], RParam (PFloat (Val 0)));
   ([108], RMut (Some ([(0, Item [([118], LParam (PInt (Val 1)))] []); (1, Item [([109], LMil (Some inner_list))] [([114], Val [121])]); (2, Item [] [])], 3)))].

(** "s" is set, item 0 removed, item 2 gets a null "v", an item is inserted before
    it, and the nested list of item 1 gets one at its front *)
Definition inner_list' : mlistT 1 := ([(4, Item [] []); (0, leaf 5); (3, leaf (-1))], 5).
Definition doc_t : sabun 2 :=
  [([97], RParam (PFloat (Val 0)));
   ([108], RMut (Some ([(1, Item [([109], LMil (Some inner_list'))] [([114], Val [122])]); (3, Item [] []); (2, Item [([118], LParam (PInt Null))] [])], 4)));
   ([115], RParam (PString (Val (2, [104; 105]))))].

Ltac each H := apply hget_in in H; cbn [In it_values it_refs ld_members ld_refs a_def doc_f doc_t it_def in_def leaf app] in H;
  repeat match type of H with _ \/ _ => destruct H as [H|H] end; try contradiction H; inversion H; subst; clear H.
Ltac item_of H := apply lookup_in' in H; cbn [In fst inner_list inner_list'] in H;
  repeat match type of H with _ \/ _ => destruct H as [H|H] end; try contradiction H; inversion H; subst; clear H.
Ltac all_of := repeat (constructor; cbn; try lia).
Ltac nodup := repeat (apply NoDup_cons; [cbn; intuition discriminate|]); apply NoDup_nil.

Ltac text := split; [repeat constructor; cbv; discriminate|split; vm_compute; reflexivity].

Lemma in_def_wf : wf_defT 1 in_def.
Proof. split; [|split]; [split; [nodup|split; [nodup|all_of]]|split; [nodup|split; [nodup|all_of]]|all_of]. Qed.
Lemma it_def_wf : wf_defT 2 it_def.
Proof.
  split; [|split]; [split; [nodup|split; [nodup|all_of]]|split; [nodup|split; [nodup|all_of]]|].
  constructor; [exact in_def_wf|]. constructor; [exact I|constructor].
Qed.
Lemma a_def_wf : wf_rootdef a_def.
Proof.
  split; [split; [nodup|split; [nodup|all_of]]|]. split; [intros key e H; each H; cbn; lia|].
  constructor; [exact I|]. constructor; [exact it_def_wf|]. constructor; [exact I|constructor].
Qed.
Lemma a_def_small : small_rootdef a_def.
Proof.
  intros key id d u H. each H. split; [cbn; lia|]. intros k i d' u' H. each H. split; [|intros k i d' u' H; each H].
  intros (k & i & d' & u' & H). each H.
Qed.
Lemma a_def_fixed : forall key id d, hget key a_def <> Some (id, RVMList d true).
Proof. intros key id d H. each H. Qed.

Lemma few_in : few_numbers (ld_members in_def) /\ few_numbers (ld_refs in_def).
Proof. split; intros key e H; each H; cbn; lia. Qed.
Lemma few_it : few_numbers (ld_members it_def) /\ few_numbers (ld_refs it_def).
Proof. split; intros key e H; each H; cbn; lia. Qed.

Lemma leaf_typed w : i64_range w -> typed_item a_mem (typedT a_mem 0) (leaf w) in_def.
Proof.
  intros R. split; [nodup|]. split; [nodup|]. split; intros key v H; each H.
  exists 0, (PInt (Val 0)), Normal. split; [reflexivity|]. split; [reflexivity|]. split; [reflexivity|exact R].
Qed.
Lemma empty_typed {D L} (inner : L -> D -> Prop) def : typed_item a_mem inner (Item [] []) def.
Proof. split; [constructor|]. split; [constructor|]. split; intros key v H; discriminate H. Qed.

Lemma doc_f_typed : typed_root a_mem doc_f a_def.
Proof.
  split; [nodup|]. intros key v H. each H.
  - exists 0, (PFloat (Val 0)), Normal. split; [reflexivity|]. split; [reflexivity|]. split; [reflexivity|]. cbn. unfold u64_range. lia.
  - exists 2, it_def, false. split; [reflexivity|]. split; [nodup|]. split; [all_of|]. split; [cbn; unfold u64_range; lia|]. split; [cbn; lia|].
    split; [apply few_it|]. split; [apply few_it|]. intros id it H. item_of H.
    + split; [nodup|]. split; [nodup|]. split; intros key v H; each H.
      exists 0, (PInt (Val 7)), Nullable. split; [reflexivity|]. split; [reflexivity|]. split; [reflexivity|]. cbn. unfold i64_range. lia.
    + split; [nodup|]. split; [nodup|]. split; intros key v H; each H.
      * exists 1, in_def, false. split; [reflexivity|]. split; [nodup|]. split; [all_of|]. split; [cbn; unfold u64_range; lia|]. split; [cbn; lia|].
        split; [apply few_in|]. split; [apply few_in|]. intros id it H. item_of H; apply leaf_typed; unfold i64_range; lia.
      * exists 0, (Val [120]), Normal. split; [reflexivity|]. split; [reflexivity|]. text.
    + apply empty_typed.
Qed.

Lemma doc_t_typed : typed_root a_mem doc_t a_def.
Proof.
  split; [nodup|]. intros key v H. each H.
  - exists 0, (PFloat (Val 0)), Normal. split; [reflexivity|]. split; [reflexivity|]. split; [reflexivity|]. cbn. unfold u64_range. lia.
  - exists 2, it_def, false. split; [reflexivity|]. split; [nodup|]. split; [all_of|]. split; [cbn; unfold u64_range; lia|]. split; [cbn; lia|].
    split; [apply few_it|]. split; [apply few_it|]. intros id it H. item_of H.
    + split; [nodup|]. split; [nodup|]. split; intros key v H; each H.
      * exists 1, in_def, false. split; [reflexivity|]. split; [nodup|]. split; [all_of|]. split; [cbn; unfold u64_range; lia|]. split; [cbn; lia|].
        split; [apply few_in|]. split; [apply few_in|]. intros id it H. item_of H; [apply empty_typed|apply leaf_typed; unfold i64_range; lia..].
      * exists 0, (Val [120]), Normal. split; [reflexivity|]. split; [reflexivity|]. text.
    + apply empty_typed.
    + split; [nodup|]. split; [nodup|]. split; intros key v H; each H.
      exists 0, (PInt (Val 7)), Nullable. split; [reflexivity|]. split; [reflexivity|]. split; [reflexivity|]. exact I.
  - exists 1, (PString (Val (1, [104]))), Normal. split; [reflexivity|]. split; [reflexivity|]. split; [reflexivity|].
    split; [reflexivity|]. text.
Qed.

Lemma doc_f_counted : counted_root doc_f.
Proof.
  intros key l H. each H. split; [nodup|]. split; [all_of|]. intros id it H. item_of H; intros key l H; each H.
  split; [nodup|]. split; [all_of|]. intros id it H. item_of H; intros key l H; each H.
Qed.

Definition with_list (l : mlistT 2) : sabun 2 := [([97], RParam (PFloat (Val 0))); ([108], RMut (Some l))].

Lemma list_step (ord : bool) l l' : editT ord 2 l l' -> edit_root ord (with_list l) (with_list l').
Proof. intros H. exact (edit_root_list ord (n := 2) (with_list l) [108] l l' eq_refl H). Qed.

Lemma doc_edits : reached (edit_root true) doc_f doc_t.
Proof.
  set (i0 := Item [([118], LParam (PInt (Val 1)))] [] : item (mlistT 1)).
  set (i1 := Item [([109], LMil (Some inner_list))] [([114], Val [121])] : item (mlistT 1)).
  set (i1' := Item [([109], LMil (Some inner_list'))] [([114], Val [121])] : item (mlistT 1)).
  set (i1'' := Item [([109], LMil (Some inner_list'))] [([114], Val [122])] : item (mlistT 1)).
  set (e := Item [] [] : item (mlistT 1)).
  set (i2 := Item [([118], LParam (PInt Null))] [] : item (mlistT 1)).
  assert (R0 : reached (edit_root true) doc_f (with_list ([(0, i0); (1, i1); (2, e)], 3))) by apply here.
  assert (R1 : reached (edit_root true) doc_f (with_list ([(1, i1); (2, e)], 3))).
  { eapply more; [exact R0|]. apply list_step. exact (remove_item true _ _ [] [(1, i1); (2, e)] 0 i0 3). }
  assert (R2 : reached (edit_root true) doc_f (with_list ([(1, i1); (2, i2)], 3))).
  { eapply more; [exact R1|]. apply list_step. apply (change_item true _ _ [(1, i1)] [] 2 e i2 3).
    exact (set_param _ _ e [118] (PInt Null) I). }
  assert (R3 : reached (edit_root true) doc_f (with_list ([(1, i1'); (2, i2)], 3))).
  { eapply more; [exact R2|]. apply list_step. apply (change_item true _ _ [] [(2, i2)] 1 i1 i1' 3).
    apply (edit_nested (empty_listT 1) (editT true 1) i1 [109] inner_list inner_list' eq_refl).
    exact (insert_item true (empty_listT 0) (editT true 0) [] [(0, leaf 5); (3, leaf (-1))] 4). }
  assert (R4 : reached (edit_root true) doc_f (with_list ([(1, i1''); (2, i2)], 3))).
  { eapply more; [exact R3|]. apply list_step. apply (change_item true _ _ [] [(2, i2)] 1 i1' i1'' 3).
    exact (set_reference _ _ i1' [114] (Val [122])). }
  assert (R5 : reached (edit_root true) doc_f (with_list ([(1, i1''); (3, e); (2, i2)], 4))).
  { eapply more; [exact R4|]. apply list_step. exact (insert_item true _ _ [(1, i1'')] [(2, i2)] 3). }
  eapply more; [exact R5|]. exact (set_root_param true (n := 2) (with_list ([(1, i1''); (3, e); (2, i2)], 4)) [115] (PString (Val (2, [104; 105]))) I).
Qed.

Lemma doc_fits : fits_memory doc_f doc_t a_def.
Proof.
  intros T d ks ET Ed Ew. vm_compute in ET. apply Ok_inj in ET; subst T. vm_compute in Ed. apply Ok_inj in Ed; subst d.
  vm_compute in Ew. apply Ok_inj in Ew; subst ks. reflexivity.
Qed.

(* ------------------------------------------------------------------ *)
(** * Documents with one list *)

Definition one_def {n} (d : defT n) : rootdef n := [([108], (0, RVMList d false))].
Definition one_doc {n} (l : mlistT n) : sabun n := [([108], RMut (Some l))].

Lemma one_def_wf {n} (d : defT n) : wf_defT n d -> wf_rootdef (one_def d).
Proof.
  intros W. split; [split; [nodup|split; [nodup|all_of]]|]. split; [intros key e H; apply hget_in in H as [H|[]]; inversion H; subst; cbn; lia|].
  constructor; [exact W|constructor].
Qed.
Lemma one_def_small {n} (d : defT n) : small_defT n d -> small_rootdef (one_def d).
Proof. intros S key id d' u H. apply hget_in in H as [H|[]]. inversion H; subst. exact S. Qed.
Lemma one_def_fixed {n} (d : defT n) : forall key id d', hget key (one_def d) <> Some (id, RVMList d' true).
Proof. intros key id d' H. apply hget_in in H as [H|[]]. inversion H. Qed.
Lemma one_doc_typed {n} (l : mlistT n) d : typedT a_mem n l d -> typed_root a_mem (one_doc l) (one_def d).
Proof.
  intros T. split; [nodup|]. intros key v H. apply hget_in in H as [H|[]]. inversion H; subst. exists 0, d, false. split; [reflexivity|exact T].
Qed.
Lemma one_doc_counted {n} (l : mlistT n) : countedT n l -> counted_root (one_doc l).
Proof. intros C key l' H. apply hget_in in H as [H|[]]. inversion H; subst. exact C. Qed.
Lemma one_doc_same ord nx {n} (l l' : mlistT n) : same_root ord nx (one_doc l) (one_doc l') -> sameT ord nx n l l'.
Proof. intros S. exact (S [108]). Qed.

Lemma in_def_small : small_defT 1 in_def.
Proof. split; [intros (k & i & d' & u' & H); each H|intros k i d' u' H; each H]. Qed.

Lemma leaves_typed (l : mlistT 1) : NoDup (ids (fst l)) -> Forall u64_range (ids (fst l)) -> u64_range (snd l) -> zlen (fst l) < 2 ^ 62 ->
  Forall (fun e => snd e = Item [] [] \/ exists w, i64_range w /\ snd e = leaf w) (fst l) -> typedT a_mem 1 l in_def.
Proof.
  intros H1 H2 H3 H4 H5. split; [exact H1|]. split; [exact H2|]. split; [exact H3|]. split; [exact H4|]. split; [apply few_in|]. split; [apply few_in|].
  intros id it H. apply lookup_in' in H. rewrite Forall_forall in H5. destruct (H5 _ H) as [E|(w & Hw & E)]; cbn [snd] in E; rewrite E.
  - apply empty_typed.
  - apply leaf_typed; exact Hw.
Qed.
Lemma leaves_counted (l : mlistT 1) : NoDup (ids (fst l)) -> Forall (fun id => id < snd l) (ids (fst l)) -> countedT 1 l.
Proof. intros H1 H2. split; [exact H1|]. split; [exact H2|]. intros id it _ key []. Qed.

(** items with two references *)
Definition enum_def : defT 1 := LDef [] [([120], (0, (Undefined, Undefiable))); ([121], (1, (Undefined, Undefiable)))] true [] [].
Lemma enum_def_wf : wf_defT 1 enum_def.
Proof. split; [|split]; [split; [nodup|split; [nodup|all_of]]|split; [nodup|split; [nodup|all_of]]|all_of]. Qed.
Definition enum_doc (key : Z) : sabun 1 := one_doc (n := 1) ([(0, Item [] [([key], Val [112])])], 1).
Lemma enum_doc_typed key : key = 120 \/ key = 121 -> typed_root a_mem (enum_doc key) (one_def enum_def).
Proof.
  intros K. apply one_doc_typed. split; [nodup|]. split; [all_of; unfold u64_range; lia|]. split; [cbn; unfold u64_range; lia|]. split; [cbn; lia|].
  split; [intros k e H; discriminate H|]. split; [intros k e H; apply hget_in in H as [H|[H|[]]]; inversion H; subst; cbn; lia|].
  intros id it H. item_of H. split; [nodup|]. split; [nodup|]. split; [intros k v H; discriminate H|].
  intros k q H. apply hget_in in H as [H|[]]; inversion H; subst. destruct K as [-> | ->].
  - exists 0, Undefined, Undefiable. split; [reflexivity|]. split; [reflexivity|]. text.
  - exists 1, Undefined, Undefiable. split; [reflexivity|]. split; [reflexivity|]. text.
Qed.

(** items with twelve integers and a list *)
Definition big_def : defT 2 := LDef
  [([109], (12, DMil in_def false));
   ([97], (0, DParam (PInt (Val 0)) Normal)); ([98], (1, DParam (PInt (Val 0)) Normal)); ([99], (2, DParam (PInt (Val 0)) Normal));
   ([100], (3, DParam (PInt (Val 0)) Normal)); ([101], (4, DParam (PInt (Val 0)) Normal)); ([102], (5, DParam (PInt (Val 0)) Normal));
   ([103], (6, DParam (PInt (Val 0)) Normal)); ([104], (7, DParam (PInt (Val 0)) Normal)); ([105], (8, DParam (PInt (Val 0)) Normal));
   ([106], (9, DParam (PInt (Val 0)) Normal)); ([107], (10, DParam (PInt (Val 0)) Normal)); ([108], (11, DParam (PInt (Val 0)) Normal))]
  [] false [] [].
Lemma big_def_wf : wf_defT 2 big_def.
Proof.
  split; [|split]; [split; [nodup|split; [nodup|all_of]]|split; [nodup|split; [nodup|all_of]]|].
  constructor; [exact in_def_wf|]. all_of.
Qed.
Definition big_doc (l : mlistT 1) : sabun 2 := one_doc (n := 2) ([(0, Item [([109], LMil (Some l))] [])], 1).
Lemma big_doc_typed l : typedT a_mem 1 l in_def -> typed_root a_mem (big_doc l) (one_def big_def).
Proof.
  intros T. apply one_doc_typed. split; [nodup|]. split; [all_of; unfold u64_range; lia|]. split; [cbn; unfold u64_range; lia|]. split; [cbn; lia|].
  split; [intros k e H; apply hget_in in H; cbn [In ld_members big_def] in H;
          repeat match type of H with _ \/ _ => destruct H as [H|H] end; try contradiction H; inversion H; subst; cbn; lia|].
  split; [intros k e H; discriminate H|].
  intros id it H. item_of H. split; [nodup|]. split; [nodup|]. split; [|intros k v H; discriminate H].
  intros k v H. apply hget_in in H as [H|[]]; inversion H; subst. exists 12, in_def, false. split; [reflexivity|exact T].
Qed.
Lemma big_doc_counted l : countedT 1 l -> counted_root (big_doc l).
Proof.
  intros C. apply one_doc_counted. split; [nodup|]. split; [all_of|]. intros id it H. item_of H.
  intros k l' H. apply hget_in in H as [H|[]]; inversion H; subst. exact C.
Qed.
Lemma big_doc_edit ord l l' : editT ord 1 l l' -> edit_root ord (big_doc l) (big_doc l').
Proof.
  intros E. apply (edit_root_list ord (n := 2) (big_doc l) [108] _ ([(0, Item [([109], LMil (Some l'))] [])], 1) eq_refl).
  apply (change_item ord (empty_listT 1) (editT ord 1) [] [] 0 _ (Item [([109], LMil (Some l'))] []) 1).
  exact (edit_nested (empty_listT 1) (editT ord 1) (Item [([109], LMil (Some l))] []) [109] l l' eq_refl E).
Qed.
