(** Property C63: named files and updates of the source. *)
From Coq Require Import String.
From Verif Require Import Base CompactionModel CompactionSpec StringCompactionModel LinkedModel LinkedSpec DocModel DiffModel DiffWireModel DiffSpec DiffEditSpec DiffProofs DiffSamples
  FileNameModel FileNameSpec PhaseModel HistModel RemoveModel FolderModel FolderSpec
  ArchiveModel JsonModel JsonSpec JsonProofs JsonProps ValidModel ValidSpec ValidProofs ValidProps LoadSpec LoadProofs EmbedSpec EmbedProofs EmbedProps IntfModel IntfSpec IntfProofs
  SizeSpec AdjustModel AdjustSpec AdjustProofs AdjustProps SavedModel SavedProofs.

(* ------------------------------------------------------------------ *)
(** * C63 *)

(** Loaded objects can be seen as documents of the model of differences. *)
Theorem C63_depth : forall addr mem iter parse files r, iterates iter -> (forall s, mem (addr s) = s) ->
  NoDup (source_names parse files) -> zlen (source_names parse files) <= 2 ^ 62 ->
  all_files (everywhere rust_node) parse files -> all_files (everywhere unique_node) parse files -> all_files (everywhere counted_node) parse files ->
  load_root addr iter parse files true = Ok r ->
  exists n (def : rootdef n) (f : sabun n), rootdef_of n (ro_default r) = Some def /\ sabun_of n (ro_sabun r) = Some f.
Proof. intros addr mem iter parse files r It Hm N L R U C E. exact (loaded_depth addr mem iter parse (fun _ => Err) It Hm files r N L R U C E). Qed.
Print Assumptions C63_depth.

(** An object loaded from source files is edited by a program and saved under a name.  It is
    then loaded again by a process with the same source, which gives the object that was saved;
    or by one with another version of the source, which gives this object moved to that version.
    Full statement: by any such process.  What holds: by processes in which hash maps are
    iterated in the same order, if no list of the root can be undefined and the program moves no
    items and changes no table of an enum; the next ids of lists may be smaller. *)
Theorem C63_loads_partial : forall addr mem iter parse unpack files r, iterates iter -> (forall s, mem (addr s) = s) ->
  NoDup (source_names parse files) -> zlen (source_names parse files) <= 2 ^ 62 ->
  all_files (everywhere rust_node) parse files -> all_files (everywhere unique_node) parse files -> all_files (everywhere counted_node) parse files ->
  load_root addr iter parse files true = Ok r ->
  forall n (def : rootdef n) (f : sabun n), rootdef_of n (ro_default r) = Some def -> sabun_of n (ro_sabun r) = Some f ->
  small_rootdef def -> (forall key id d, hget key def <> Some (id, RVMList d true)) ->
  forall ops d t, Forall (ok_root_step mem def) ops -> calm_program true def f ops -> program_run def f ops = Ok d ->
  size_root f + size_root d < 2 ^ 58 -> sabun_of n (ro_sabun t) = Some d ->
  forall now (cur : FolderModel.source root_obj) name overwrite fs fs', so_root cur = r -> FolderSpec.plain name ->
  save_dochy_file root_obj (difference n) now cur name t overwrite fs = (Ok tt, fs') ->
  let load src := load_dochy_file root_obj (patch addr n) (archive_file_to_root addr iter parse unpack) (move_to iter) src (so_hash cur) name fs' in
  exists x, DiffSpec.same_root true false x d /\ load cur = Ok (with_members r x) /\
    forall new, so_hash new <> so_hash cur -> name <> archive_name ->
      unpack (match read_at (so_hash cur) archive_name fs with Some b => b | None => a_bytes (so_archive cur) end) = Ok files ->
      load new = adjust_versions iter (so_root new) (with_members r x) true.
Proof.
  intros addr mem iter parse unpack files r It Hm N L R U C E n def f Ed Ef Sm Un ops d t O Ca Er Z Et now cur name ow fs fs' Eo P Sa.
  destruct (loaded_typed addr mem iter parse unpack It Hm files r N L R U C E n def f Ed Ef) as (D & W & T & Co & Fe & Th & V).
  destruct (saved_loaded addr mem iter parse unpack files r E def f Ed Ef D W T Co Fe Th V Sm Un t d ops now cur name ow fs fs' O Ca Er Z Et Eo P Sa) as (x & Sx & _ & _ & A & B).
  exists x. split; [exact Sx|]. split; [exact A|exact B].
Qed.
Print Assumptions C63_loads_partial.

(** The moved object has what the saved one has, as far as the new version knows it (see C43). *)
Theorem C63_moved_partial : forall addr mem iter parse unpack files r, iterates iter -> (forall s, mem (addr s) = s) ->
  NoDup (source_names parse files) -> zlen (source_names parse files) <= 2 ^ 62 ->
  all_files (everywhere rust_node) parse files -> all_files (everywhere unique_node) parse files -> all_files (everywhere counted_node) parse files ->
  load_root addr iter parse files true = Ok r ->
  forall n (def : rootdef n) (f : sabun n), rootdef_of n (ro_default r) = Some def -> sabun_of n (ro_sabun r) = Some f ->
  small_rootdef def -> (forall key id d, hget key def <> Some (id, RVMList d true)) ->
  forall ops d t, Forall (ok_root_step mem def) ops -> calm_program true def f ops -> program_run def f ops = Ok d ->
  size_root f + size_root d < 2 ^ 58 -> sabun_of n (ro_sabun t) = Some d ->
  forall now (cur : FolderModel.source root_obj) name overwrite fs fs', so_root cur = r -> FolderSpec.plain name ->
  save_dochy_file root_obj (difference n) now cur name t overwrite fs = (Ok tt, fs') ->
  forall new z, so_hash new <> so_hash cur -> name <> archive_name -> different_names (so_root new) ->
  unpack (match read_at (so_hash cur) archive_name fs with Some b => b | None => a_bytes (so_archive cur) end) = Ok files ->
  load_dochy_file root_obj (patch addr n) (archive_file_to_root addr iter parse unpack) (move_to iter) new (so_hash cur) name fs' = Ok z ->
  ro_default z = ro_default (so_root new) /\
  exists x, DiffSpec.same_root true false x d /\
    forall key i v, hget key (ro_default (so_root new)) = Some (i, v) ->
      carried_root flat v (hget key (ro_sabun (so_root new))) (is_some (hget key (ro_default r))) (hget key (plain_sabun x)) (hget key (ro_sabun z)).
Proof.
  intros addr mem iter parse unpack files r It Hm N L R U C E n def f Ed Ef Sm Un ops d t O Ca Er Z Et now cur name ow fs fs' Eo P Sa new z Nh Na Dn Eu Ez.
  destruct (C63_loads_partial addr mem iter parse unpack files r It Hm N L R U C E n def f Ed Ef Sm Un ops d t O Ca Er Z Et now cur name ow fs fs' Eo P Sa) as (x & Sx & _ & B).
  cbv zeta in B. rewrite (B new Nh Na Eu) in Ez. destruct (C43_members_partial iter (so_root new) (with_members r x) true z It Dn Ez) as (A1 & _ & _ & A2). split; [exact A1|].
  exists x. split; [exact Sx|]. intros key i v G. specialize (A2 key). rewrite G in A2. exact A2.
Qed.
Print Assumptions C63_moved_partial.

(** In short: a parameter of the root that both versions know keeps its value, a list its items
    and their order. *)
Theorem C63_kept_partial : forall addr mem iter parse unpack files r, iterates iter -> (forall s, mem (addr s) = s) ->
  NoDup (source_names parse files) -> zlen (source_names parse files) <= 2 ^ 62 ->
  all_files (everywhere rust_node) parse files -> all_files (everywhere unique_node) parse files -> all_files (everywhere counted_node) parse files ->
  load_root addr iter parse files true = Ok r ->
  forall n (def : rootdef n) (f : sabun n), rootdef_of n (ro_default r) = Some def -> sabun_of n (ro_sabun r) = Some f ->
  small_rootdef def -> (forall key id d, hget key def <> Some (id, RVMList d true)) ->
  forall ops d t, Forall (ok_root_step mem def) ops -> calm_program true def f ops -> program_run def f ops = Ok d ->
  size_root f + size_root d < 2 ^ 58 -> sabun_of n (ro_sabun t) = Some d ->
  forall now (cur : FolderModel.source root_obj) name overwrite fs fs', so_root cur = r -> FolderSpec.plain name ->
  save_dochy_file root_obj (difference n) now cur name t overwrite fs = (Ok tt, fs') ->
  forall new z, so_hash new <> so_hash cur -> name <> archive_name -> different_names (so_root new) ->
  unpack (match read_at (so_hash cur) archive_name fs with Some b => b | None => a_bytes (so_archive cur) end) = Ok files ->
  load_dochy_file root_obj (patch addr n) (archive_file_to_root addr iter parse unpack) (move_to iter) new (so_hash cur) name fs' = Ok z ->
  forall key i v j w, hget key (ro_default (so_root new)) = Some (i, v) -> hget key (ro_default r) = Some (j, w) ->
  match v, hget key d with
  | WParam _ _, Some (RParam p) => exists q, hget key (ro_sabun z) = Some (RParam q) /\ same_param q p
  | WMList _ _, Some (RMut (Some l)) => exists l', hget key (ro_sabun z) = Some (RMut (Some l')) /\ map fst (fst l') = map fst (fst (plain_list n l))
  | _, _ => True
  end.
Proof.
  intros addr mem iter parse unpack files r It Hm N L R U C E n def f Ed Ef Sm Un ops d t O Ca Er Z Et now cur name ow fs fs' Eo P Sa new z Nh Na Dn Eu Ez key i v j w Gn Go.
  destruct (C63_moved_partial addr mem iter parse unpack files r It Hm N L R U C E n def f Ed Ef Sm Un ops d t O Ca Er Z Et now cur name ow fs fs' Eo P Sa new z Nh Na Dn Eu Ez) as (_ & x & Sx & M).
  specialize (M key i v Gn). rewrite Go in M. cbn [is_some] in M. specialize (Sx key). rewrite plain_get in M.
  destruct v as [p0 vt| | |e u]; try exact Logic.I; destruct (hget key d) as [[p|[l|]]|]; try exact Logic.I; destruct (hget key x) as [[q|[l'|]]|]; cbn in Sx; try contradiction; cbn [option_map] in M.
  - exists q. split; [|exact Sx]. inversion M; subst; try discriminate; reflexivity.
  - inversion M as [| | | |d1 u1 s1 k1 lo ln K1 Cl| |d1 u1 s1 k1 o1 K1 No| |]; subst.
    + exists ln. split; [reflexivity|]. destruct Cl as (Ei & _). rewrite Ei. eapply (plain_ids true false); [exact Sx|reflexivity].
    + destruct (No _ eq_refl).
Qed.
Print Assumptions C63_kept_partial.

(** Loading fails only if the moved object does not fit the new version. *)
Theorem C63_reported_partial : forall addr mem iter parse unpack files r, iterates iter -> (forall s, mem (addr s) = s) ->
  NoDup (source_names parse files) -> zlen (source_names parse files) <= 2 ^ 62 ->
  all_files (everywhere rust_node) parse files -> all_files (everywhere unique_node) parse files -> all_files (everywhere counted_node) parse files ->
  load_root addr iter parse files true = Ok r ->
  forall n (def : rootdef n) (f : sabun n), rootdef_of n (ro_default r) = Some def -> sabun_of n (ro_sabun r) = Some f ->
  small_rootdef def -> (forall key id d, hget key def <> Some (id, RVMList d true)) ->
  forall ops d t, Forall (ok_root_step mem def) ops -> calm_program true def f ops -> program_run def f ops = Ok d ->
  size_root f + size_root d < 2 ^ 58 -> sabun_of n (ro_sabun t) = Some d ->
  forall now (cur : FolderModel.source root_obj) name overwrite fs fs', so_root cur = r -> FolderSpec.plain name ->
  save_dochy_file root_obj (difference n) now cur name t overwrite fs = (Ok tt, fs') ->
  forall new, so_hash new <> so_hash cur -> name <> archive_name -> different_names (so_root new) -> root_valid (so_root new) false -> distinct_root (so_root new) ->
  unpack (match read_at (so_hash cur) archive_name fs with Some b => b | None => a_bytes (so_archive cur) end) = Ok files ->
  let load := load_dochy_file root_obj (patch addr n) (archive_file_to_root addr iter parse unpack) (move_to iter) new (so_hash cur) name fs' in
  exists x z, DiffSpec.same_root true false x d /\ adjust_versions iter (so_root new) (with_members r x) false = Ok z /\
    (root_valid z true -> load = Ok z) /\ (~ root_valid z true -> load = Err).
Proof.
  intros addr mem iter parse unpack files r It Hm N L R U C E n def f Ed Ef Sm Un ops d t O Ca Er Z Et now cur name ow fs fs' Eo P Sa new Nh Na Dn Vn Di Eu.
  destruct (loaded_typed addr mem iter parse unpack It Hm files r N L R U C E n def f Ed Ef) as (D & W & T & Co & Fe & Th & V).
  destruct (saved_loaded addr mem iter parse unpack files r E def f Ed Ef D W T Co Fe Th V Sm Un t d ops now cur name ow fs fs' O Ca Er Z Et Eo P Sa) as (x & Sx & _ & Cx & _ & B).
  destruct (C43_reported iter (so_root new) (with_members r x) It Dn Vn Di Cx) as (z & Ez & A1 & A2). exists x, z. split; [exact Sx|]. split; [exact Ez|].
  cbv zeta. rewrite (B new Nh Na Eu). split; assumption.
Qed.
Print Assumptions C63_reported_partial.

(* ------------------------------------------------------------------ *)
(** * Two versions of a source *)

Definition old_root : jval := JMap [(txt "num", JInt 1); (txt "gone", JInt 2); (txt "text", JString (txt "a"));
  (txt "mlist", AdjustProps.mlist_of [(txt "bar", JInt 0); (txt "baz", JInt 1)] [JMap [(txt "bar", JInt 1); (txt "baz", JInt 2)]; JMap [(txt "baz", JInt 3)]; JMap [(txt "bar", JInt 3)]])].
Definition new_root : jval := JMap [(txt "text", JString (txt "b")); (txt "num", JInt 5); (txt "more", JInt 6);
  (txt "mlist", AdjustProps.mlist_of [(txt "qux", JInt 0); (txt "baz", JInt 100)] [JMap [(txt "qux", JInt 2)]])].
Definition both_texts := texts [old_root; new_root].
Definition old_files : smap (list Z) := [(txt "src/root.json5", [0])].
Definition new_files : smap (list Z) := [(txt "src/root.json5", [1])].
Definition load_at (iter : forall A, hmap A -> hmap A) (files : smap (list Z)) : res root_obj := load_root text_addr iter both_texts files true.
Definition object (r : res root_obj) : root_obj := match r with Ok r => r | _ => RootObj [] [] [] [] end.
Definition old_object : root_obj := Eval vm_compute in object (load_at in_place old_files).
Definition new_object : root_obj := Eval vm_compute in object (load_at in_place new_files).
Definition the_def : rootdef 1 := Eval vm_compute in match rootdef_of 1 (ro_default old_object) with Some d => d | None => [] end.
Definition the_start : sabun 1 := Eval vm_compute in match sabun_of 1 (ro_sabun old_object) with Some d => d | None => [] end.
Definition edits : list root_step :=
  [OSet (txt "num") (PInt (Val 7)); OSet (txt "gone") (PInt (Val 8)); OInto (txt "mlist") (OnItem 1 (ISet (txt "baz") (PInt (Val 9))));
   OInto (txt "mlist") (OnList (LRemove 0)); OInto (txt "mlist") (OnList LInsertLast)].
Definition the_end : sabun 1 := Eval vm_compute in match program_run the_def the_start edits with Ok d => d | _ => [] end.
Definition edited : root_obj := with_members old_object the_end.
Definition unpack_both (bytes : list Z) : res (smap (list Z)) := match bytes with [1] => Ok old_files | [2] => Ok new_files | _ => Err end.
Definition old_version : FolderModel.source root_obj := Source 1 old_object (Archive [1] true).
Definition new_version : FolderModel.source root_obj := Source 2 new_object (Archive [2] true).
Definition file_a : list Z := txt "a".
Definition kept_files : project := Eval vm_compute in snd (save_dochy_file root_obj (difference 1) (5, 0) old_version file_a edited false []).
Definition moved : root_obj := Eval vm_compute in
  object (load_dochy_file root_obj (patch text_addr 1) (archive_file_to_root text_addr in_place both_texts unpack_both) (move_to in_place) new_version 1 file_a kept_files).

Ltac each_of H := apply DiffProofs.hget_in in H; vm_compute in H; repeat match type of H with _ \/ _ => destruct H as [H|H] end; try contradiction H; inversion H; subst; clear H.

Lemma old_nodes : NoDup (source_names both_texts old_files) /\ zlen (source_names both_texts old_files) <= 2 ^ 62 /\
  all_files (everywhere rust_node) both_texts old_files /\ all_files (everywhere unique_node) both_texts old_files /\ all_files (everywhere counted_node) both_texts old_files.
Proof.
  split; [repeat constructor; cbn; intuition discriminate|]. split; [vm_compute; discriminate|]. split; [|split].
  all: intros path content v [E|[]]; injection E as <- <-; cbn; intros E; injection E as <-; nodes.
  all: try exact Logic.I.
  all: try (vm_compute; repeat constructor; cbn; intuition discriminate).
  all: try (split; [repeat constructor|split; reflexivity]).
  all: try (unfold rust_node, i64_range, u64_range; lia).
Qed.

Lemma new_facts : different_names new_object /\ root_valid new_object false /\ distinct_root new_object.
Proof.
  split.
  { split; [repeat constructor; cbn; intuition discriminate|]. intros key id d u H. cbn in H. repeat (destruct H as [H|H]; [inversion H; subst|]); [|destruct H]. split; repeat constructor; cbn; intuition discriminate. }
  assert (U : all_files (everywhere unique_node) both_texts new_files).
  { intros path content v [E|[]]; injection E as <- <-; cbn; intros E; injection E as <-; nodes; try exact Logic.I. all: vm_compute; repeat constructor; cbn; intuition discriminate. }
  assert (E : load_root text_addr in_place both_texts new_files true = Ok new_object) by (vm_compute; reflexivity).
  unfold load_root in E. apply bind_ok in E as (r0 & E1 & E). apply bind_ok in E as ([] & E2 & E). apply Ok_inj in E; subst r0.
  pose proof (loaded_distinct text_addr in_place both_texts new_files _ in_place_iterates U E1) as D. split; [apply (validate_root_iff _ false D), E2|exact D].
Qed.

(** The old version has num, gone, text and a list with bar and baz; the new one text, num, more
    and a list with qux and baz.  The object edited with the old version is loaded by the new. *)
Example C63_case : iterates in_place /\ (forall s, text_at (text_addr s) = s) /\
  NoDup (source_names both_texts old_files) /\ zlen (source_names both_texts old_files) <= 2 ^ 62 /\
  all_files (everywhere rust_node) both_texts old_files /\ all_files (everywhere unique_node) both_texts old_files /\ all_files (everywhere counted_node) both_texts old_files /\
  load_root text_addr in_place both_texts old_files true = Ok old_object /\ load_root text_addr in_place both_texts new_files true = Ok new_object /\
  rootdef_of 1 (ro_default old_object) = Some the_def /\ sabun_of 1 (ro_sabun old_object) = Some the_start /\
  small_rootdef the_def /\ (forall key id d, hget key the_def <> Some (id, RVMList d true)) /\
  Forall (ok_root_step text_at the_def) edits /\ calm_program true the_def the_start edits /\ program_run the_def the_start edits = Ok the_end /\
  size_root the_start + size_root the_end < 2 ^ 58 /\ sabun_of 1 (ro_sabun edited) = Some the_end /\ FolderSpec.plain file_a /\ file_a <> archive_name /\
  save_dochy_file root_obj (difference 1) (5, 0) old_version file_a edited false [] = (Ok tt, kept_files) /\
  different_names new_object /\ root_valid new_object false /\ distinct_root new_object /\ unpack_both [1] = Ok old_files /\
  load_dochy_file root_obj (patch text_addr 1) (archive_file_to_root text_addr in_place both_texts unpack_both) (move_to in_place) new_version 1 file_a kept_files = Ok moved /\
  ro_sabun moved = [(txt "mlist", RMut (Some ([(1, CItem [(txt "baz", VParam (PInt (Val 9)))] []); (2, CItem [] []); (3, CItem [] [])], 4))); (txt "num", RParam (PInt (Val 7)))].
Proof.
  split; [exact in_place_iterates|]. split; [exact text_at_addr|]. destruct old_nodes as (N1 & N2 & N3 & N4 & N5).
  split; [exact N1|]. split; [exact N2|]. split; [exact N3|]. split; [exact N4|]. split; [exact N5|].
  split; [vm_compute; reflexivity|]. split; [vm_compute; reflexivity|]. split; [vm_compute; reflexivity|]. split; [vm_compute; reflexivity|].
  split; [intros key id d u H; each_of H; split; [intros (k & i & d' & u' & H); each_of H|intros k i d' u' H; each_of H]|]. split; [intros key id d H; each_of H|].
  split.
  { unfold edits. repeat apply Forall_cons; try apply Forall_nil; cbn [ok_root_step]; try (cbn; unfold i64_range; lia); intros id d u H; each_of H; try exact Logic.I; cbn; unfold i64_range; lia. }
  split; [unfold edits; repeat (cbn [calm_program]; split; [first [exact Logic.I|intros ? ?; first [exact Logic.I|hnf; intros; exact Logic.I]]|intros ? ? E; vm_compute in E; apply Ok_inj, pair_equal_spec in E as [<- _]]); exact Logic.I|].
  split; [vm_compute; reflexivity|]. split; [vm_compute; reflexivity|]. split; [vm_compute; reflexivity|].
  split; [unfold FolderSpec.plain; vm_compute; intuition congruence|]. split; [discriminate|]. split; [vm_compute; reflexivity|].
  destruct new_facts as (F1 & F2 & F3). split; [exact F1|]. split; [exact F2|]. split; [exact F3|].
  split; [reflexivity|]. split; [vm_compute; reflexivity|vm_compute; reflexivity].
Qed.

(* ------------------------------------------------------------------ *)
(** * Processes that iterate hash maps in another order *)

(** The members of a list are numbered in the order in which a hash map is iterated, and saved
    files contain these numbers.  A process with the same source in which the map is iterated in
    another order loads the value of baz as one of bar, without an error. *)
Theorem C63_order_refuted : exists iter iter', iterates iter /\ iterates iter' /\
  exists addr mem parse unpack files r r', (forall s, mem (addr s) = s) /\ NoDup (source_names parse files) /\
  all_files (everywhere rust_node) parse files /\ all_files (everywhere unique_node) parse files /\ all_files (everywhere counted_node) parse files /\
  load_root addr iter parse files true = Ok r /\ load_root addr iter' parse files true = Ok r' /\
  exists ops (def : rootdef 1) f d t, rootdef_of 1 (ro_default r) = Some def /\ sabun_of 1 (ro_sabun r) = Some f /\ program_run def f ops = Ok d /\ t = with_members r d /\
  exists now hash a name fs z, FolderSpec.plain name /\
    save_dochy_file root_obj (difference 1) now (Source hash r a) name t false [] = (Ok tt, fs) /\
    load_dochy_file root_obj (patch addr 1) (archive_file_to_root addr iter' parse unpack) (move_to iter') (Source hash r' a) hash name fs = Ok z /\
    hget (txt "mlist") (ro_sabun t) = Some (RMut (Some ([(0, CItem [] []); (1, CItem [(txt "baz", VParam (PInt (Val 9)))] [])], 2))) /\
    hget (txt "mlist") (ro_sabun z) = Some (RMut (Some ([(0, CItem [] []); (1, CItem [(txt "bar", VParam (PInt (Val 9)))] [])], 2))).
Proof.
  exists in_place, backwards. split; [exact in_place_iterates|]. split; [exact backwards_iterates|].
  exists text_addr, text_at, (texts [JMap [(txt "mlist", AdjustProps.mlist_of [(txt "bar", JInt 0); (txt "baz", JInt 1)] [JMap []; JMap []])]]), (fun _ => Err), old_files.
  do 2 eexists. split; [exact text_at_addr|]. split; [repeat constructor; cbn; intuition discriminate|]. split; [|split; [|split]].
  1-3: intros path content v [E|[]]; injection E as <- <-; cbn; intros E; injection E as <-; nodes;
    try exact Logic.I; try (vm_compute; repeat constructor; cbn; intuition discriminate); try (split; [repeat constructor|split; reflexivity]); try (unfold rust_node, i64_range, u64_range; lia).
  split; [vm_compute; reflexivity|]. split; [vm_compute; reflexivity|].
  exists [OInto (txt "mlist") (OnItem 1 (ISet (txt "baz") (PInt (Val 9))))]. do 4 eexists.
  split; [vm_compute; reflexivity|]. split; [vm_compute; reflexivity|]. split; [vm_compute; reflexivity|]. split; [reflexivity|].
  exists (5, 0), 1, (Archive [1] true), file_a. do 2 eexists. split; [unfold FolderSpec.plain; vm_compute; intuition congruence|].
  split; [vm_compute; reflexivity|]. split; [vm_compute; reflexivity|]. split; vm_compute; reflexivity.
Qed.
Print Assumptions C63_order_refuted.
