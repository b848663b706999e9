(** Property C65: what a program reads before saving it reads after loading. *)
From Coq Require Import String.
From Verif Require Import Base CompactionModel CompactionSpec StringCompactionModel LinkedModel LinkedSpec DocModel DiffModel DiffWireModel DiffSpec DiffEditSpec DiffProofs DiffSamples
  FileNameModel FileNameSpec PhaseModel PhaseSpec TreeModel TreeSpec HistModel HistSpec HistProps WholeSpec WholeProofs WholeProps RemoveModel FolderModel FolderSpec
  ArchiveModel JsonModel JsonSpec JsonProofs JsonProps ValidModel ValidSpec ValidProofs ValidProps LoadSpec LoadProofs EmbedSpec EmbedProofs EmbedProps IntfModel IntfSpec IntfProofs
  SizeSpec SizeProofs AdjustModel AdjustSpec AdjustProofs AdjustProps SavedModel SavedProofs SavedProps SaysSpec ReadModel ReadProps AgainModel AgainSpec AgainProofs.

(* ------------------------------------------------------------------ *)
(** * C65 *)

(** An object loaded from source files is edited by a program of generated functions and saved
    under a name.  A process with the same source that loads it gets the same answer from every
    generated function, along every way, as the program that saved it: the same values but for
    the sign of zeros, the same rows of references and variants of enums, the same items of lists
    in the same order, and a panic where there was one.  Both may iterate hash maps in any order
    while they read.
    Full statement: for every edit and every such process.  What holds: if hash maps are iterated
    in the same order while the source is loaded, no list of the root can be undefined, and the
    program moves no items and changes no table of an enum (see C63). *)
Theorem C65_answers_partial : forall addr mem iter parse unpack files r, iterates iter -> (forall s, mem (addr s) = s) ->
  NoDup (source_names parse files) -> zlen (source_names parse files) <= 2 ^ 62 ->
  all_files (everywhere rust_node) parse files -> all_files (everywhere unique_node) parse files -> all_files (everywhere counted_node) parse files ->
  load_root addr iter parse files true = Ok r ->
  forall n (def : rootdef n) (f : sabun n), rootdef_of n (ro_default r) = Some def -> sabun_of n (ro_sabun r) = Some f ->
  small_rootdef def -> (forall key id d, hget key def <> Some (id, RVMList d true)) ->
  forall ops d t, Forall (ok_root_step mem def) ops -> Forall (generated_root_step def) ops -> calm_program true def f ops -> program_run def f ops = Ok d ->
  size_root f + size_root d < 2 ^ 58 -> sabun_of n (ro_sabun t) = Some d -> ro_default t = ro_default r ->
  forall now (cur : FolderModel.source root_obj) name overwrite fs fs', so_root cur = r -> FolderSpec.plain name ->
  save_dochy_file root_obj (difference n) now cur name t overwrite fs = (Ok tt, fs') ->
  exists z, load_dochy_file root_obj (patch addr n) (archive_file_to_root addr iter parse unpack) (move_to iter) cur (so_hash cur) name fs' = Ok z /\
    forall saver reader q, iterates saver -> iterates reader -> same_told (ask saver t q) (ask reader z q).
Proof.
  intros addr mem iter parse unpack files r It Hm N L R U C E n def f Ed Ef Sm Un ops d t O Og Ca Er Z Et Dt now cur name ow fs fs' Eo P Sa.
  destruct (loaded_typed addr mem iter parse unpack It Hm files r N L R U C E n def f Ed Ef) as (D & W & T & Co & Fe & Th & V).
  destruct (saved_loaded addr mem iter parse unpack files r E def f Ed Ef D W T Co Fe Th V Sm Un t d ops now cur name ow fs fs' O Ca Er Z Et Eo P Sa) as (x & Sx & Cx & _ & A & _).
  exists (with_members r x). split; [exact A|]. intros saver reader q Is Ir.
  pose proof (typed_clean _ _ _ _ (program_typed mem n def ops Fe O f d T Er)) as Cd.
  pose proof (program_sole n def ops Og f d (valid_sole_root r false n f def V D Ef) Er) as So.
  exact (answers_same r false n def t d x V D Dt Et So Sx Cd Cx saver reader q Is Ir).
Qed.
Print Assumptions C65_answers_partial.

(** Every item that can be reached in the edited object has at most one variant. *)
Theorem C65_variants : forall addr mem iter parse files r, iterates iter -> (forall s, mem (addr s) = s) ->
  NoDup (source_names parse files) -> zlen (source_names parse files) <= 2 ^ 62 ->
  all_files (everywhere rust_node) parse files -> all_files (everywhere unique_node) parse files -> all_files (everywhere counted_node) parse files ->
  load_root addr iter parse files true = Ok r ->
  forall n (def : rootdef n) (f : sabun n), rootdef_of n (ro_default r) = Some def -> sabun_of n (ro_sabun r) = Some f ->
  forall ops d t, Forall (generated_root_step def) ops -> program_run def f ops = Ok d ->
  sabun_of n (ro_sabun t) = Some d -> ro_default t = ro_default r -> single_variants t.
Proof.
  intros addr mem iter parse files r It Hm N L R U C E n def f Ed Ef ops d t Og Er Et Dt saver w s Ev.
  destruct (loaded_typed addr mem iter parse (fun _ => Err) It Hm files r N L R U C E n def f Ed Ef) as (D & W & T & Co & Fe & Th & V).
  pose proof (program_sole n def ops Og f d (valid_sole_root r false n f def V D Ef) Er) as So.
  exact (counted_few _ _ _ (visit_counted r false saver n def t d V D Dt Et So w s Ev)).
Qed.
Print Assumptions C65_variants.

(** The same for a history (see C59): what the object that was saved answered, the object loaded
    from the file answers, after any number of saves, loads, edits and restarts. *)
Theorem C65_history_partial : forall addr mem iter parse files r, iterates iter -> (forall s, mem (addr s) = s) ->
  NoDup (source_names parse files) -> zlen (source_names parse files) <= 2 ^ 62 ->
  all_files (everywhere rust_node) parse files -> all_files (everywhere unique_node) parse files -> all_files (everywhere counted_node) parse files ->
  load_root addr iter parse files true = Ok r ->
  forall n (def : rootdef n) (f : sabun n), rootdef_of n (ro_default r) = Some def -> sabun_of n (ro_sabun r) = Some f ->
  small_rootdef def -> (forall key id d, hget key def <> Some (id, RVMList d true)) ->
  forall docs op junk, keepable docs -> docs f -> (exists b, build b = Ok op) ->
  let appdiff := apply_placed addr def in
  forall k s F o, session mem def appdiff f op docs junk k s F o -> Z.of_nat k + 1 < 100000000 ->
  forall id p d, In (p, d) F -> single_variants (with_members r d) ->
  exists x s', load_history_file (sabun n) appdiff f op id p s = (Ok x, s') /\
    forall saver reader q, iterates saver -> iterates reader -> same_told (ask saver (with_members r d) q) (ask reader (with_members r x) q).
Proof.
  intros addr mem iter parse files r It Hm N L R U C E n def f Ed Ef Sm Un docs op junk K Df B appdiff k s F o Se Ks id p d I Si.
  destruct (loaded_typed addr mem iter parse (fun _ => Err) It Hm files r N L R U C E n def f Ed Ef) as (D & W & T & Co & Fe & Th & V).
  pose proof (C59_placed addr mem Hm n def) as Ap.
  destruct (C59_load_partial mem n def appdiff docs f op junk W Sm Fe Un T Co Th Ap K Df B k s F o Se Ks id p d I) as (x & Ex & Tx & Sx).
  exists x. eexists. split; [exact Ex|]. intros saver reader q Is Ir.
  apply (plain_answers r n d x true saver reader q Sx); [|exact (typed_clean _ _ _ _ Tx)|exact Is|exact Ir|exact (Si saver)].
  exact (typed_clean _ _ _ _ (session_kept mem def appdiff docs W Sm Un Ap K f op B junk Fe T Co Th Df k s F o p d Se Ks I)).
Qed.
Print Assumptions C65_history_partial.

(* ------------------------------------------------------------------ *)
(** * A source with tables, references and enums *)

Definition its_root : jval :=
  JMap [(txt "n", JInt 5);
        (txt "list", tagged_with "MList" [
           JArray [JMap [(txt "x", JInt 1); (txt "Ref", JMap [(txt "t?", JNull)]);
                         (txt "l", tagged_with "MilDef" [JArray [JMap [(txt "y", JInt 0); (txt "Enum", JMap [(txt "t", JNull); (txt "u", JNull)])]]])]];
           JMap [(txt "x", JInt 3)];
           JMap [(txt "Ref", JMap [(txt "t", JString (txt "r"))]);
                 (txt "l", tagged_with "Mil" [JMap [(txt "y", JInt 4); (txt "Enum", JMap [(txt "u", JString (txt "b"))])]])]]);
        (txt "u", tagged_with "Table" [JArray [JMap [(txt "z", JInt 20)]]; JMap [(txt "ID", JString (txt "a")); (txt "z", JInt 21)]; JMap [(txt "ID", JString (txt "b"))]])].
Definition its_texts := texts [its_root; target_table].
Definition its_paths : smap (list Z) := [(txt "src/root.json5", [0]); (txt "src/t.json5", [1])].

Definition start : root_obj := Eval vm_compute in object (load_root text_addr in_place its_texts its_paths true).
Definition its_def : rootdef 2 := Eval vm_compute in match rootdef_of 2 (ro_default start) with Some d => d | None => [] end.
Definition its_start : sabun 2 := Eval vm_compute in match sabun_of 2 (ro_sabun start) with Some d => d | None => [] end.
Definition list_ : name := Eval vm_compute in txt "list".
(** in the list: the reference of item 0 becomes the row r; item 1 gets x = 11, and the item in its
    list another row of the table u; then an item is inserted *)
Definition its_edits : list root_step := Eval vm_compute in
  [OSet (txt "n") (PInt (Val 6)); OInto list_ (OnItem 0 (IRef (txt "t") (Val (txt "r")))); OInto list_ (OnItem 1 (ISet (txt "x") (PInt (Val 11))));
   OInto list_ (Into 1 (txt "l") (OnItem 0 (IEnum (txt "u") (txt "a")))); OInto list_ (OnList LInsertFirst)].
Definition its_end : sabun 2 := Eval vm_compute in match program_run its_def its_start its_edits with Ok d => d | _ => [] end.
Definition its_object : root_obj := Eval vm_compute in with_members start its_end.
Definition its_source : FolderModel.source root_obj := Source 1 start (Archive [1] true).
Definition its_files : project := Eval vm_compute in snd (save_dochy_file root_obj (difference 2) (5, 0) its_source file_a its_object false []).
Definition unpack_it (bytes : list Z) : res (smap (list Z)) := Ok its_paths.
Definition again : root_obj := Eval vm_compute in
  object (load_dochy_file root_obj (patch text_addr 2) (archive_file_to_root text_addr in_place its_texts unpack_it) (move_to in_place) its_source 1 file_a its_files).

Lemma its_nodes : NoDup (source_names its_texts its_paths) /\ zlen (source_names its_texts its_paths) <= 2 ^ 62 /\
  all_files (everywhere rust_node) its_texts its_paths /\ all_files (everywhere unique_node) its_texts its_paths /\ all_files (everywhere counted_node) its_texts its_paths.
Proof.
  split; [repeat constructor; cbn; intuition discriminate|]. split; [vm_compute; discriminate|]. split; [|split].
  all: intros path content v [E|[E|[]]]; injection E as <- <-; cbn; intros E; injection E as <-; nodes.
  all: try exact Logic.I.
  all: try (vm_compute; repeat constructor; cbn; intuition discriminate).
  all: try (split; [repeat constructor|split; reflexivity]).
  all: try (unfold rust_node, i64_range, u64_range; lia).
Qed.

Lemma its_ok : Forall (ok_root_step text_at its_def) its_edits.
Proof.
  unfold its_edits. repeat apply Forall_cons; try apply Forall_nil; cbn [ok_root_step]; try (cbn; unfold i64_range; lia); intros id d u H; each_of H; try exact Logic.I; cbn [ok_step ok_item_op]; try (cbn; unfold i64_range; lia).
    - do 3 eexists. split; [vm_compute; reflexivity|]. split; [reflexivity|]. split; [repeat constructor; unfold wf_byte; lia|split; vm_compute; reflexivity].
    - intros id d u H; each_of H. cbn [ok_step ok_item_op]. do 3 eexists. split; [vm_compute; reflexivity|]. split; [reflexivity|]. split; [repeat constructor; unfold wf_byte; lia|split; vm_compute; reflexivity].
Qed.
Lemma its_generated : Forall (generated_root_step its_def) its_edits.
Proof.
  unfold its_edits. repeat apply Forall_cons; try apply Forall_nil; cbn [generated_root_step]; try exact Logic.I; intros id d u H; each_of H; cbn [generated_step generated_op]; try exact Logic.I; try reflexivity.
    intros id d u H; each_of H. reflexivity.
Qed.
Lemma its_calm : calm_program true its_def its_start its_edits.
Proof.
  unfold its_edits. repeat (cbn [calm_program]; split; [|intros ? ? E; vm_compute in E; apply Ok_inj, pair_equal_spec in E as [<- _]]); try exact Logic.I.
    all: intros l H; vm_compute in H; injection H as <-; cbn [calm_step calm_item_op calm_list_op]; try exact Logic.I; try (intros; exact Logic.I).
    intros it l' H1 H2. vm_compute in H1. injection H1 as <-. vm_compute in H2. injection H2 as <-. intros it H3. vm_compute in H3. injection H3 as <-. intros k Hk. cbn [it_refs hget] in Hk.
    destruct (eqb_bytes _ k) eqn:E; [apply StringCompactionProofs.eqb_bytes_eq in E; symmetry; exact E|contradiction].
Qed.

(** the enum of the item in the list of item 1 *)
Definition its_way : way := Mil (Entry list_ 1) (txt "l") 0.

Example C65_case : iterates in_place /\ (forall s, text_at (text_addr s) = s) /\
  NoDup (source_names its_texts its_paths) /\ zlen (source_names its_texts its_paths) <= 2 ^ 62 /\
  all_files (everywhere rust_node) its_texts its_paths /\ all_files (everywhere unique_node) its_texts its_paths /\ all_files (everywhere counted_node) its_texts its_paths /\
  load_root text_addr in_place its_texts its_paths true = Ok start /\
  rootdef_of 2 (ro_default start) = Some its_def /\ sabun_of 2 (ro_sabun start) = Some its_start /\
  small_rootdef its_def /\ (forall key id d, hget key its_def <> Some (id, RVMList d true)) /\
  Forall (ok_root_step text_at its_def) its_edits /\ Forall (generated_root_step its_def) its_edits /\ calm_program true its_def its_start its_edits /\ program_run its_def its_start its_edits = Ok its_end /\
  size_root its_start + size_root its_end < 2 ^ 58 /\ sabun_of 2 (ro_sabun its_object) = Some its_end /\ ro_default its_object = ro_default start /\ FolderSpec.plain file_a /\
  save_dochy_file root_obj (difference 2) (5, 0) its_source file_a its_object false [] = (Ok tt, its_files) /\
  load_dochy_file root_obj (patch text_addr 2) (archive_file_to_root text_addr in_place its_texts unpack_it) (move_to in_place) its_source 1 file_a its_files = Ok again /\
  ask backwards again (RootParam (txt "n")) = Ok (Value (Val (CInt 6))) /\
  ask backwards again (RootItems list_) = Ok (Ids (Some [2; 0; 1])) /\
  ask backwards again (RefId (Entry list_ 0) (txt "t")) = Ok (RowName (Val (txt "r"))) /\
  ask backwards again (EnumIds its_way) = Ok (Variant (txt "u") (txt "a")) /\
  ask backwards again (Param (Enum its_way (txt "u")) (txt "z")) = Ok (Value (Val (CInt 21))) /\
  ask backwards start (Param (Enum its_way (txt "u")) (txt "z")) = Ok (Value (Val (CInt 20))) /\
  ask backwards again (There (Entry list_ 3)) = Ok Nothing /\
  ask backwards again (RootParam (txt "m")) = Panic.
Proof.
  split; [exact in_place_iterates|]. split; [exact text_at_addr|]. destruct its_nodes as (N1 & N2 & N3 & N4 & N5).
  split; [exact N1|]. split; [exact N2|]. split; [exact N3|]. split; [exact N4|]. split; [exact N5|].
  split; [vm_compute; reflexivity|]. split; [vm_compute; reflexivity|]. split; [vm_compute; reflexivity|].
  split.
  { intros key id d u H; each_of H. split; [intros _; vm_compute; discriminate|]. intros k i d' u' H; each_of H. split; [intros (k & i & d1 & u1 & H); each_of H|intros k i d1 u1 H; each_of H]. }
  split; [intros key id d H; each_of H|].
  split; [exact its_ok|]. split; [exact its_generated|]. split; [exact its_calm|].
  split; [vm_compute; reflexivity|]. split; [vm_compute; reflexivity|]. split; [vm_compute; reflexivity|]. split; [reflexivity|].
  split; [unfold FolderSpec.plain; vm_compute; intuition congruence|]. split; [vm_compute; reflexivity|]. split; [vm_compute; reflexivity|].
  split; [vm_compute; reflexivity|]. split; [vm_compute; reflexivity|]. split; [vm_compute; reflexivity|]. split; [vm_compute; reflexivity|]. split; [vm_compute; reflexivity|]. split; [vm_compute; reflexivity|]. split; vm_compute; reflexivity.
Qed.

(** The same object saved to a history and loaded by another process. *)
Definition its_docs (d : sabun 2) : Prop := d = its_start \/ d = its_end.
Definition its_apply := apply_placed text_addr its_def.
Definition s_before : st (sabun 2) := St _ [(src_name, [])] [] None.
Definition s_saved : st (sabun 2) := Eval vm_compute in
  snd (save_history_file (sabun 2) (fun f t => get_diff f t its_def) its_apply its_start op2 exact_greater None 1 its_end s_before).
Definition s_after : st (sabun 2) := St _ (s_dir _ s_saved) [] None.
Definition it_saved : props := HistProps.at_ 0 0 [0].
Definition its_loaded : sabun 2 := Eval vm_compute in
  match fst (load_history_file (sabun 2) its_apply its_start op2 7 it_saved s_after) with Ok d => d | _ => [] end.

Lemma its_keepable : keepable its_docs.
Proof.
  split.
  - intros d [->| ->]; (split; [|vm_compute; reflexivity]).
    all: intros key l H; each_of H; (split; [discriminate|]); intros id it H; item_of' H; intros key l H; each_of H; (split; [discriminate|]); intros id it H; item_of' H; intros key l H; each_of H.
  - intros a b [->| ->] [->| ->].
    all: intros key x y Hx Hy; each_of Hx; each_of Hy; (split; [intros (E & _); first [reflexivity|discriminate E]|]).
    all: intros id it it' Hi Hj; item_of' Hi; item_of' Hj; intros key x y Hx Hy; each_of Hx; each_of Hy.
    all: (split; [intros (E & _); first [reflexivity|discriminate E]|]).
    all: intros id it it' Hi Hj; item_of' Hi; item_of' Hj; intros key x y Hx Hy; each_of Hx; each_of Hy.
Qed.

Example C65_history_case : keepable its_docs /\ its_docs its_start /\ (exists b, build b = Ok op2) /\
  (exists o, session text_at its_def its_apply its_start op2 its_docs [src_name] 1 s_after [(it_saved, its_end)] o) /\
  single_variants (with_members start its_end) /\
  fst (load_history_file (sabun 2) its_apply its_start op2 7 it_saved s_after) = Ok its_loaded /\
  ask backwards (with_members start its_loaded) (Param (Enum its_way (txt "u")) (txt "z")) = Ok (Value (Val (CInt 21))).
Proof.
  destruct its_nodes as (N1 & N2 & N3 & N4 & N5).
  split; [exact its_keepable|]. split; [left; reflexivity|]. split; [exact op2_built|]. split; [|split; [|split; vm_compute; reflexivity]].
  - exists (fun _ => None).
    apply (ses_restart text_at its_def its_apply its_start op2 its_docs [src_name] 1 s_saved _ (WholeSpec.put 1 its_end (WholeSpec.put 1 its_start (fun _ => None)))).
    apply (ses_save text_at its_def its_apply its_start op2 its_docs [src_name] 0 s_before [] _ exact_greater 1 its_end it_saved);
      [|reflexivity|right; reflexivity|left; reflexivity|vm_compute; reflexivity].
    apply (ses_edit text_at its_def its_apply its_start op2 its_docs [src_name] 0 s_before [] _ 1 its_start its_edits); [|reflexivity|exact its_ok|exact its_calm|vm_compute; reflexivity].
    destruct (loaded_typed text_addr text_at in_place its_texts (fun _ => Err) in_place_iterates text_at_addr its_paths start N1 N2 N3 N4 N5 ltac:(vm_compute; reflexivity) 2%nat its_def its_start ltac:(vm_compute; reflexivity) ltac:(vm_compute; reflexivity)) as (D & W & T & Co & Fe & Th & V).
    apply ses_new; [|apply GrownProofs.same_root_refl|exact (typed_clean _ _ _ _ T)|intros key v H; each_of H; try exact Logic.I; intros id it H; item_of' H; intros key v H; each_of H; try exact Logic.I; intros id it H; item_of' H; intros key v H; each_of H; exact Logic.I|discriminate].
    apply ses_start. split; [apply NoDup_cons; [intros []|apply NoDup_nil]|]. split; [apply Permutation_refl|]. split; [constructor|]. split; [constructor|]. apply Forall_cons; [vm_compute; reflexivity|apply Forall_nil].
  - apply (C65_variants text_addr text_at in_place its_texts its_paths start in_place_iterates text_at_addr N1 N2 N3 N4 N5 ltac:(vm_compute; reflexivity) 2%nat its_def its_start ltac:(vm_compute; reflexivity) ltac:(vm_compute; reflexivity)
      its_edits its_end (with_members start its_end) its_generated ltac:(vm_compute; reflexivity)); vm_compute; reflexivity.
Qed.
