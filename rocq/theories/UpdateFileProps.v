(** C76, continued: files of an older version. *)
From Coq Require Import String.
From Verif Require Import Base CompactionModel CompactionSpec StringCompactionModel LinkedModel LinkedSpec DocModel DiffModel DiffWireModel DiffSpec DiffEditSpec DiffProofs DiffSamples
  FileNameModel FileNameSpec PhaseModel PhaseSpec TreeModel TreeSpec HistModel HistSpec HistProps WholeSpec WholeProofs WholeProps RemoveModel FolderModel FolderSpec
  ArchiveModel JsonModel JsonSpec JsonProofs JsonProps ValidModel ValidSpec ValidProofs ValidProps LoadSpec LoadProofs EmbedSpec EmbedProofs EmbedProps IntfModel IntfSpec IntfProofs
  SizeSpec SizeProofs AdjustModel AdjustSpec AdjustProofs AdjustProps SavedModel SavedProofs SavedProps SaysSpec ReadModel ReadProps AgainModel AgainSpec AgainProofs AgainProps.
From Verif Require GenModel GenSpec GenCheckProofs.
From Verif Require Import CodeSpec ApiModel RunModel RunSpec RunWayProofs RunProps WroteSpec ThroughSpec ToldSpec ToldProps AcrossSpec AcrossProps UpdateSpec UpdateProps.

Local Notation "! s" := (txt s%string) (at level 0, s at level 0).
Local Notation "'var' s" := (EVar (txt s%string)) (at level 0, s at level 0).

(** A program of accessors of the old version edits a document and saves it under a name.  A
    program of the new version that loads the file has the document [o] moved to its version, and
    in [o] the accessors of the old version read what they read when it was saved.  So C76_root,
    C76_items and C76_kept say what the accessors of the new version read. *)
Theorem C76_file : forall addr mem iter parse unpack files r, iterates iter -> (forall s, mem (addr s) = s) ->
  NoDup (source_names parse files) -> zlen (source_names parse files) <= 2 ^ 62 ->
  all_files (everywhere rust_node) parse files -> all_files (everywhere unique_node) parse files -> all_files (everywhere counted_node) parse files ->
  load_root addr iter parse files true = Ok r ->
  forall n (def : rootdef n) (f : sabun n), rootdef_of n (ro_default r) = Some def -> sabun_of n (ro_sabun r) = Some f ->
  small_rootdef def -> (forall key id d, hget key def <> Some (id, RVMList d true)) ->
  forall old p, accessible old r p ->
  forall saver told G es vs steps d, executes p saver r told G def f es vs steps d ->
  Forall (ok_root_step mem def) steps -> Forall (generated_root_step def) steps -> calm_program true def f steps ->
  size_root f + size_root d < 2 ^ 58 -> none_emptied d ->
  forall now (cur : FolderModel.source root_obj) name overwrite fs fs', so_root cur = r -> FolderSpec.plain name ->
  save_dochy_file root_obj (difference n) now cur name (with_members r d) overwrite fs = (Ok tt, fs') ->
  forall new z, so_hash new <> so_hash cur -> name <> archive_name ->
  unpack (match FolderModel.read_at (so_hash cur) archive_name fs with Some b => b | None => a_bytes (so_archive cur) end) = Ok files ->
  load_dochy_file root_obj (patch addr n) (archive_file_to_root addr iter parse unpack) (move_to iter) new (so_hash cur) name fs' = Ok z ->
  exists o, ro_default o = ro_default r /\ ro_old o = ro_old r /\ changeable_lists (ro_sabun o) /\ adjust_versions iter (so_root new) o true = Ok z /\
    forall reader told' G', iterates saver -> iterates reader -> has_root G -> has_root G' ->
    reads_same old (ro_default r) (evals p saver (with_members r d) told G) (evals p reader o told' G').
Proof.
  intros addr mem iter parse unpack files r It Hm N L R U C E n def f Ed Ef Sm Un old p Ac saver told G es vs steps d Ex O Og Ca Sz Ne now cur name ow fs fs' Eo P Sa new z Nh Na Eu Ez.
  pose proof (executes_run _ _ _ _ _ _ _ _ _ _ _ Ex) as Er.
  destruct (loaded_typed addr mem iter parse unpack It Hm files r N L R U C E n def f Ed Ef) as (D & W & T & Co & Fe & Th & V).
  destruct (saved_loaded addr mem iter parse unpack files r E def f Ed Ef D W T Co Fe Th V Sm Un (with_members r d) d steps now cur name ow fs fs' O Ca Er Sz Ne Eo P Sa) as (x & Sx & Cx & Cl & _ & B).
  exists (with_members r x). split; [reflexivity|]. split; [reflexivity|]. split; [exact Cl|]. split; [rewrite (B new Nh Na Eu) in Ez; exact Ez|]. intros reader told' G' Is Ir HG HG'.
  pose proof (typed_clean _ _ _ _ (program_typed mem n def steps Fe O f d T Er)) as Cd.
  pose proof (program_sole n def steps Og f d (valid_sole_root r false n f def V D Ef) Er) as So.
  apply answers_read; [exact Ac|exact HG|exact HG'|reflexivity|reflexivity|]. intros q.
  exact (answers_same r false n def (with_members r d) d x V D eq_refl Ne So Sx Cd Cx saver reader q Is Ir).
Qed.
Print Assumptions C76_file.

(* ------------------------------------------------------------------ *)
(** * A case *)

(** another version of the source of [C74_case] *)
Definition file_new : root_obj := Eval vm_compute in
  object (AdjustProps.source [(txt "n?", JInt 50); (txt "later!", JInt 100); (txt "list", AdjustProps.mlist_of [(txt "x", JInt 7); (txt "extra!", JInt 2)] [])]).
Definition file_source : FolderModel.source root_obj := Source 2 file_new (Archive [2] true).
Definition file_moved : root_obj := Eval vm_compute in
  object (load_dochy_file root_obj (patch text_addr 2) (archive_file_to_root text_addr in_place its_texts unpack_it) (move_to in_place) file_source 1 file_a across_files).
Definition file_list : ldef JsonModel.def := match hget list_ (ro_default file_new) with Some (_, WMList (Def l) _) => l | _ => LDef [] [] false [] [] end.

Lemma file_goes : goes (ro_old file_new) (ro_default file_new) (Entry !"list" 1) false !"list" file_list across_reads.
Proof. eapply (goes_entry (ro_old file_new) (ro_default file_new) !"list" _ file_list false 1); RunProps.found. Qed.
Lemma file_x : exists i, In (!"x", (i, DParam (PInt (Val 7)) Normal)) (ld_members file_list).
Proof. eexists. RunProps.found. Qed.
Lemma file_later : exists i, In (!"later", (i, WParam (PInt (Val 100)) Undefiable)) (ro_default file_new).
Proof. eexists. RunProps.found. Qed.
Lemma file_n : exists i, In (!"n", (i, WParam (PInt (Val 50)) Nullable)) (ro_default file_new).
Proof. eexists. RunProps.found. Qed.

(** The program of [C74_case], where the other hypotheses are, has saved the file.  A program with
    the new version of the source loads it, and reads the values 6 and 11. *)
Example C76_file_case : so_hash file_source <> so_hash its_source /\ file_a <> archive_name /\
  unpack_it (match FolderModel.read_at (so_hash its_source) archive_name [] with Some b => b | None => a_bytes (so_archive its_source) end) = Ok its_paths /\
  load_dochy_file root_obj (patch text_addr 2) (archive_file_to_root text_addr in_place its_texts unpack_it) (move_to in_place) file_source 1 file_a across_files = Ok file_moved /\
  exists p, accessible (ro_old file_new) file_new p /\ forall told tr, let E := evals p backwards file_moved told [(!"root", root_value)] in
    E (do var"root" !"n" []) tr (Ok (VMake !"NullOr" !"Val" [VOf (CInt 6)], tr)) /\ E (do var"root" !"later" []) tr (Ok (VMake !"UndefOr" !"Undefined" [], tr)) /\
    E (asks across_reads !"x") tr (Ok (some (VOf (CInt 11)), tr)).
Proof.
  split; [discriminate|]. split; [vm_compute; congruence|]. split; [reflexivity|]. split; [vm_compute; reflexivity|].
  destruct (update_accessible file_new) as (p & A); [apply GenCheckProofs.tameb_tame; vm_compute; reflexivity|]. exists p. split; [exact A|]. intros told tr E.
  assert (HG : has_root [(!"root", root_value)]) by reflexivity. assert (A' : accessible (ro_old file_new) file_moved p) by exact A. split; [|split].
  - destruct file_n as (i & I). destruct (C68_root (ro_old file_new) backwards file_moved told p [(!"root", root_value)] !"n" i (PInt (Val 50)) Nullable tr A' HG I) as (X & _). eapply evals_R; [exact X|vm_compute; reflexivity].
  - destruct file_later as (i & I). destruct (C68_root (ro_old file_new) backwards file_moved told p [(!"root", root_value)] !"later" i (PInt (Val 100)) Undefiable tr A' HG I) as (X & _). eapply evals_R; [exact X|vm_compute; reflexivity].
  - destruct file_x as (i & I). pose proof (C68_read (ro_old file_new) backwards file_moved told p [(!"root", root_value)] (Entry !"list" 1) false !"list" file_list across_reads !"x" i (PInt (Val 7)) Normal tr A' HG file_goes I) as X. eapply evals_R; [exact X|vm_compute; reflexivity].
Qed.
