(** C74: what a program of accessors wrote, saved and loaded again, is read by the accessors of
    another program. *)
From Coq Require Import String.
From Verif Require Import Base CompactionModel CompactionSpec StringCompactionModel LinkedModel LinkedSpec DocModel DiffModel DiffWireModel DiffSpec DiffEditSpec DiffProofs DiffSamples
  FileNameModel FileNameSpec PhaseModel PhaseSpec TreeModel TreeSpec HistModel HistSpec HistProps WholeSpec WholeProofs WholeProps RemoveModel FolderModel FolderSpec
  ArchiveModel JsonModel JsonSpec JsonProofs JsonProps ValidModel ValidSpec ValidProofs ValidProps LoadSpec LoadProofs EmbedSpec EmbedProofs EmbedProps IntfModel IntfSpec IntfProofs
  SizeSpec SizeProofs AdjustModel AdjustSpec AdjustProofs AdjustProps SavedModel SavedProofs SavedProps SaysSpec ReadModel ReadProps AgainModel AgainSpec AgainProofs AgainProps.
From Verif Require GenModel GenSpec GenProofs GenWellProofs GenCheckProofs CodeNameProofs CodeProps.
From Verif Require Import CodeSpec ApiModel RunModel RunSpec RunWayProofs RunProps WroteSpec ThroughSpec ToldSpec ToldProps AcrossSpec.

Local Notation "! s" := (txt s%string) (at level 0, s at level 0).
Local Notation "'var' s" := (EVar (txt s%string)) (at level 0, s at level 0).

(** the calls of a program in order *)
Lemma run_both {n} (def : rootdef n) a b f d : program_run def f a = Ok d -> program_run def f (a ++ b) = program_run def d b.
Proof.
  unfold program_run. revert f. induction a as [|o a IH]; intros f E; [apply Ok_inj in E; subst; reflexivity|]. cbn [app mfold] in *.
  destruct (root_run def f o) as [[s x]| |]; cbn [bind] in *; try discriminate. apply IH, E.
Qed.
Lemma executes_run p iter r told G {n} (def : rootdef n) f es vs steps d : executes p iter r told G def f es vs steps d -> program_run def f steps = Ok d.
Proof. intros X. induction X as [f|f e x new v effects steps d es vs more d' Ev Pe R X IH]; [reflexivity|]. rewrite (run_both def steps more f d R). exact IH. Qed.

(** accessors of two documents that give the same answers *)
Lemma answers_read old r p saver reader told told' G G' t z : accessible old r p -> has_root G -> has_root G' -> ro_default t = ro_default r -> ro_default z = ro_default r ->
  (forall q, same_told (ask saver t q) (ask reader z q)) ->
  reads_same old (ro_default r) (evals p saver t told G) (evals p reader z told' G').
Proof.
  intros A HG HG' Dt Dz Sa.
  assert (At : accessible old t p) by (unfold accessible; rewrite Dt; exact A). assert (Az : accessible old z p) by (unfold accessible; rewrite Dz; exact A). pose proof A as (T & _).
  split; [|split].
  - intros key i p0 vt tr I e. exists (get_root_param t key), (get_root_param z key).
    split; [rewrite <- Dt in I; exact (proj1 (C68_root old saver t told p G key i p0 vt tr At HG I))|]. split; [rewrite <- Dz in I; exact (proj1 (C68_root old reader z told' p G' key i p0 vt tr Az HG' I))|].
    specialize (Sa (RootParam key)). cbn [ask] in Sa. destruct (get_root_param t key), (get_root_param z key); exact Sa.
  - intros q key l e fn args f tr Re In. pose proof Re as Rt. rewrite <- Dt in Rt. pose proof Re as Rz. rewrite <- Dz in Rz. exists (informed f tr (ask saver t q)).
    split; [exact (C75_tells old saver t told p G q key l e fn args f tr At HG Rt In)|]. eapply evals_R; [exact (C75_tells old reader z told' p G' q key l e fn args f tr Az HG' Rz In)|].
    specialize (Sa q). destruct (ask saver t q) as [a| |]; destruct (ask reader z q) as [b| |]; cbn [same_told] in Sa; try contradiction; try reflexivity. destruct a, b; cbn [same_answer] in Sa; try contradiction; try discriminate Sa; try (injection Sa as <-); reflexivity.
  - intros w c stem l e Go. pose proof Go as Gt. rewrite <- Dt in Gt. pose proof Go as Gz. rewrite <- Dz in Gz.
    assert (Tt : GenSpec.tame (ro_default t)) by (rewrite Dt; exact T). assert (Tz : GenSpec.tame (ro_default z)) by (rewrite Dz; exact T).
    pose proof (goes_spot old saver t Tt w c stem l e Gt) as St. pose proof (goes_spot old reader z Tz w c stem l e Gz) as Sz.
    split; [|split].
    + intros key i p0 vt tr I e'. exists (ReadModel.read_at saver t w key), (ReadModel.read_at reader z w key).
      split; [exact (C68_read old saver t told p G w c stem l e key i p0 vt tr At HG Gt I)|]. split; [exact (C68_read old reader z told' p G' w c stem l e key i p0 vt tr Az HG' Gz I)|].
      specialize (Sa (Param w key)). cbn [ask] in Sa. unfold at_item in Sa. unfold ReadModel.read_at.
      destruct (visit saver t w) as [[s|]| |]; cbn [bind] in *; [destruct (get_param s key); cbn [bind] in *|..]; destruct (visit reader z w) as [[s'|]| |]; cbn [bind] in *; try destruct (get_param s' key); cbn [bind] in *; try exact Sa; try discriminate Sa; try contradiction; exact Logic.I.
    + intros En key i q vt tr I e'. pose proof (C68_ref_id old saver t told p G w c stem l e key i q vt tr At HG Gt En I) as X. pose proof (C68_ref_id old reader z told' p G' w c stem l e key i q vt tr Az HG' Gz En I) as Y.
      assert (L : GenSpec.listed (ro_default r) stem l) by (pose proof (goes_listed old r w c stem l e Go) as L; destruct c; [apply GenProofs.clisted_listed, L|apply GenProofs.mlisted_listed, L]).
      pose proof (refs_get' r T stem l key _ L I) as Hk. eexists. split; [exact X|]. eapply evals_R; [exact Y|]. f_equal.
      specialize (Sa (RefId w key)). cbn [ask] in Sa. unfold at_item in Sa. unfold get_ref_id in Sa. unfold if_there.
      destruct (visit saver t w) as [[s|]| |]; destruct (visit reader z w) as [[s'|]| |]; cbn [bind] in Sa; rewrite ?St, ?Sz in Sa; cbn [undef] in Sa; rewrite ?En, ?Hk in Sa; try reflexivity.
      all: try destruct (unwrapped vt (spot_ref_id s key)); try destruct (unwrapped vt (spot_ref_id s' key)); cbn [bind same_told same_answer] in Sa; try contradiction; try discriminate Sa; try reflexivity.
      injection Sa as ->. reflexivity.
    + intros En tr e'. pose proof (C68_enum_ids old saver t told p G w c stem l e tr At HG Gt En) as X. pose proof (C68_enum_ids old reader z told' p G' w c stem l e tr Az HG' Gz En) as Y.
      eexists. split; [exact X|]. eapply evals_R; [exact Y|]. f_equal.
      specialize (Sa (EnumIds w)). cbn [ask] in Sa. unfold at_item in Sa. unfold get_enum_ids in Sa. unfold if_there.
      destruct (visit saver t w) as [[s|]| |]; destruct (visit reader z w) as [[s'|]| |]; cbn [bind] in Sa; rewrite ?St, ?Sz in Sa; cbn [undef] in Sa; rewrite ?En in Sa; try reflexivity.
      all: try destruct (spot_enum saver s) as [[a b]|]; try destruct (spot_enum reader s') as [[a' b']|]; cbn [need bind same_told same_answer fst snd] in Sa |- *; try contradiction; try discriminate Sa; try reflexivity.
      injection Sa as -> ->. reflexivity.
Qed.

(** A program of accessors on a loaded document, saved under a name.  A program that loads the file
    reads with the accessors what the accessors read when it was saved. *)
Theorem C74_saved : forall addr mem iter parse unpack files r, iterates iter -> (forall s, mem (addr s) = s) ->
  NoDup (source_names parse files) -> zlen (source_names parse files) <= 2 ^ 62 ->
  all_files (everywhere rust_node) parse files -> all_files (everywhere unique_node) parse files -> all_files (everywhere counted_node) parse files ->
  load_root addr iter parse files true = Ok r ->
  forall n (def : rootdef n) (f : sabun n), rootdef_of n (ro_default r) = Some def -> sabun_of n (ro_sabun r) = Some f ->
  small_rootdef def -> (forall key id d, hget key def <> Some (id, RVMList d true)) ->
  forall old p, accessible old r p ->
  forall saver told G es vs steps d, executes p saver r told G def f es vs steps d ->
  Forall (ok_root_step mem def) steps -> Forall (generated_root_step def) steps -> calm_program true def f steps ->
  size_root f + size_root d < 2 ^ 58 -> none_emptied d ->
  forall now (cur : FolderModel.source root_obj) name overwrite fs fs', so_root cur = r -> FolderSpec.plain name ->
  save_dochy_file root_obj (difference n) now cur name (with_members r d) overwrite fs = (Ok tt, fs') ->
  exists z, load_dochy_file root_obj (patch addr n) (archive_file_to_root addr iter parse unpack) (move_to iter) cur (so_hash cur) name fs' = Ok z /\ ro_default z = ro_default r /\
    forall reader told' G', iterates saver -> iterates reader -> has_root G -> has_root G' ->
    reads_same old (ro_default r) (evals p saver (with_members r d) told G) (evals p reader z told' G').
Proof.
  intros addr mem iter parse unpack files r It Hm N L R U C E n def f Ed Ef Sm Un old p Ac saver told G es vs steps d Ex O Og Ca Sz Ne now cur name ow fs fs' Eo P Sa.
  pose proof (executes_run _ _ _ _ _ _ _ _ _ _ _ Ex) as Er.
  destruct (loaded_typed addr mem iter parse unpack It Hm files r N L R U C E n def f Ed Ef) as (D & W & T & Co & Fe & Th & V).
  destruct (saved_loaded addr mem iter parse unpack files r E def f Ed Ef D W T Co Fe Th V Sm Un (with_members r d) d steps now cur name ow fs fs' O Ca Er Sz Ne Eo P Sa) as (x & Sx & Cx & _ & A & _).
  exists (with_members r x). split; [exact A|]. split; [reflexivity|]. intros reader told' G' Is Ir HG HG'.
  pose proof (typed_clean _ _ _ _ (program_typed mem n def steps Fe O f d T Er)) as Cd.
  pose proof (program_sole n def steps Og f d (valid_sole_root r false n f def V D Ef) Er) as So.
  apply answers_read; [exact Ac|exact HG|exact HG'|reflexivity|reflexivity|]. intros q.
  exact (answers_same r false n def (with_members r d) d x V D eq_refl Ne So Sx Cd Cx saver reader q Is Ir).
Qed.
Print Assumptions C74_saved.

(** The same for a history: every file of it, after any number of saves, loads, edits and restarts. *)
Theorem C74_history : forall addr mem iter parse files r, iterates iter -> (forall s, mem (addr s) = s) ->
  NoDup (source_names parse files) -> zlen (source_names parse files) <= 2 ^ 62 ->
  all_files (everywhere rust_node) parse files -> all_files (everywhere unique_node) parse files -> all_files (everywhere counted_node) parse files ->
  load_root addr iter parse files true = Ok r ->
  forall n (def : rootdef n) (f : sabun n), rootdef_of n (ro_default r) = Some def -> sabun_of n (ro_sabun r) = Some f ->
  small_rootdef def -> (forall key id d, hget key def <> Some (id, RVMList d true)) ->
  forall old p, accessible old r p ->
  forall docs op junk, keepable docs -> docs f -> (exists b, build b = Ok op) ->
  let appdiff := apply_placed addr def in
  forall k s F o, session mem def appdiff f op docs junk k s F o -> Z.of_nat k + 1 < 100000000 ->
  forall id at_ d, In (at_, d) F -> single_variants (with_members r d) ->
  exists x s', load_history_file (sabun n) appdiff f op id at_ s = (Ok x, s') /\
    forall saver reader told told' G G', iterates saver -> iterates reader -> has_root G -> has_root G' ->
    reads_same old (ro_default r) (evals p saver (with_members r d) told G) (evals p reader (with_members r x) told' G').
Proof.
  intros addr mem iter parse files r It Hm N L R U C E n def f Ed Ef Sm Un old p Ac docs op junk K Df B appdiff k s F o Se Ks id at_ d I Si.
  destruct (C65_history_partial addr mem iter parse files r It Hm N L R U C E n def f Ed Ef Sm Un docs op junk K Df B k s F o Se Ks id at_ d I Si) as (x & s' & Ld & Sa).
  exists x, s'. split; [exact Ld|]. intros saver reader told told' G G' Is Ir HG HG'. apply answers_read; [exact Ac|exact HG|exact HG'|reflexivity|reflexivity|]. intros q. exact (Sa saver reader q Is Ir).
Qed.
Print Assumptions C74_history.

(* ------------------------------------------------------------------ *)
(** * A case *)

(** [root.set_n(a); root.list_mut().get_mut(1).unwrap().set_x(b);
    root.list_mut().get_mut(1).unwrap().l_mut().get_mut(0).unwrap().set_enum(LKind::U(UID::A))] *)
Definition across_item : expr := do (do (do var"root" !"list_mut" []) !"get_mut" [ENum 1]) !"unwrap" [].
Definition across_inner : expr := do (do (do across_item !"l_mut" []) !"get_mut" [ENum 0]) !"unwrap" [].
Definition across_program : list (expr * (Z * list Z)) :=
  [(do var"root" !"set_n" [var"a"], (0, [])); (do across_item !"set_x" [var"b"], (0, []));
   (do across_inner !"set_enum" [path (GenModel.kind_type !"l") (GenModel.to_type_name !"u") [id_text !"u" [] !"a"]], (0, []))].
Definition across_env : env := [(!"root", root_value); (!"a", VOf (CInt 6)); (!"b", VOf (CInt 11))].
Definition across_1 : list root_step := Eval vm_compute in [OSet (txt "n") (PInt (Val 6))].
Definition across_2 : list root_step := Eval vm_compute in [OOpen list_; OInto list_ (OnItem 1 (ISet (txt "x") (PInt (Val 11))))].
Definition across_3 : list root_step := Eval vm_compute in [OOpen list_; OInto list_ (OnItem 1 (IOpen (txt "l"))); OInto list_ (Into 1 (txt "l") (OnItem 0 (IntfModel.IEnum (txt "u") (txt "a"))))].
Definition across_steps : list root_step := across_1 ++ across_2 ++ across_3 ++ [].
Definition across_run f steps : sabun 2 := match program_run its_def f steps with Ok d => d | _ => [] end.
Definition across_f1 : sabun 2 := Eval vm_compute in across_run its_start across_1.
Definition across_f2 : sabun 2 := Eval vm_compute in across_run across_f1 across_2.
Definition across_end : sabun 2 := Eval vm_compute in across_run across_f2 across_3.
Definition across_files : project := Eval vm_compute in snd (save_dochy_file root_obj (difference 2) (5, 0) its_source file_a (with_members AgainProps.start across_end) false []).
Definition across_again : root_obj := Eval vm_compute in
  object (load_dochy_file root_obj (patch text_addr 2) (archive_file_to_root text_addr in_place its_texts unpack_it) (move_to in_place) its_source 1 file_a across_files).
Definition across_list : ldef JsonModel.def := match hget list_ (ro_default AgainProps.start) with Some (_, WMList (Def l) _) => l | _ => LDef [] [] false [] [] end.
Definition across_l : ldef JsonModel.def := match hget !"l" (ld_members across_list) with Some (_, DMil (Def l) _) => l | _ => LDef [] [] false [] [] end.

Lemma across_accessible : exists p, accessible (ro_old AgainProps.start) AgainProps.start p.
Proof.
  assert (T : GenSpec.tame (ro_default AgainProps.start)) by (apply GenCheckProofs.tameb_tame; vm_compute; reflexivity).
  destruct (CodeProps.C66_written (ro_old AgainProps.start) _ (CodeNameProofs.tame_speakable _ T)) as (p & D & _). exists p. split; [exact T|exact D].
Qed.
Lemma across_seizes_item : seizes (ro_old AgainProps.start) (ro_default AgainProps.start) [(!"list", 1)] !"list" across_list across_item.
Proof. eapply (seizes_root (ro_old AgainProps.start) (ro_default AgainProps.start) !"list" _ across_list false 1); RunProps.found. Qed.
Lemma across_seizes_inner : seizes (ro_old AgainProps.start) (ro_default AgainProps.start) [(!"list", 1); (!"l", 0)] !"l" across_l across_inner.
Proof. eapply (seizes_item (ro_old AgainProps.start) (ro_default AgainProps.start) [(!"list", 1)] !"list" across_list _ !"l" _ across_l false 0); [exact across_seizes_item|RunProps.found]. Qed.

Lemma across_executes p told : accessible (ro_old AgainProps.start) AgainProps.start p -> executes p in_place AgainProps.start told across_env its_def its_start across_program [VUnit; VUnit; VUnit] across_steps across_end.
Proof.
  intros A. assert (HG : has_root across_env) by reflexivity. unfold across_program, across_steps.
  assert (Va : forall r', plainly p in_place r' told across_env var"a" (as_marked VOf Normal (Val (CInt 6)))) by (intros r' tr; exists 1%nat; intros [|k] K; [lia|reflexivity]).
  assert (Vb : forall r', plainly p in_place r' told across_env var"b" (as_marked VOf Normal (Val (CInt 11)))) by (intros r' tr; exists 1%nat; intros [|k] K; [lia|reflexivity]).
  eapply (executes_call _ _ _ _ _ _ _ _ _ _ _ [ESet [] TInt !"n" (of_qv VOf (Val (CInt 6)))] across_1 across_f1).
  - eapply evals_R; [eapply (C68_root_set (ro_old AgainProps.start) in_place (with_members AgainProps.start its_start) told p across_env !"n" _ (PInt (Val 5)) Normal (Val (CInt 6)) var"a" [] A HG); [RunProps.found|exact Logic.I|apply Va]|reflexivity].
  - constructor; [|constructor]. apply through_call. exact (performs_set [] TInt !"n" (PInt (Val 6)) eq_refl).
  - vm_compute. reflexivity.
  - eapply (executes_call _ _ _ _ _ _ _ _ _ _ _ [EOpen [] !"list"; ESet [(!"list", 1)] TInt !"x" (of_qv VOf (Val (CInt 11)))] across_2 across_f2).
    + eapply evals_R; [eapply (C68_set (ro_old AgainProps.start) in_place (with_members AgainProps.start across_f1) told p across_env _ _ across_list _ !"x" _ (PInt (Val 1)) Normal (Val (CInt 11)) var"b" [] A HG across_seizes_item); [RunProps.found|exact Logic.I|apply Vb]|vm_compute; reflexivity].
    + constructor; [apply through_call; exact (performs_open [] !"list")|constructor; [|constructor]]. apply through_call. exact (performs_set [(!"list", 1)] TInt !"x" (PInt (Val 11)) eq_refl).
    + vm_compute. reflexivity.
    + eapply (executes_call _ _ _ _ _ _ _ _ _ _ _ [EOpen [] !"list"; EOpen [(!"list", 1)] !"l"; ESetEnum [(!"list", 1); (!"l", 0)] !"u" !"a"] across_3 across_end).
      * eapply evals_R; [eapply (C68_set_enum (ro_old AgainProps.start) in_place (with_members AgainProps.start across_f2) told p across_env _ _ across_l _ !"u" _ _ _ _ [] !"a" _ [] A HG across_seizes_inner); [vm_compute; reflexivity|RunProps.found|RunProps.found|RunProps.found]|vm_compute; reflexivity].
      * constructor; [apply through_call; exact (performs_open [] !"list")|]. constructor; [apply through_call; exact (performs_open [(!"list", 1)] !"l")|]. constructor; [|constructor]. apply through_call. apply (performs_enum [(!"list", 1); (!"l", 0)] !"u" !"a"). discriminate.
      * vm_compute. reflexivity.
      * apply executes_end.
Qed.
Lemma across_calm : calm_program true its_def its_start across_steps.
Proof.
  unfold across_steps, across_1, across_2, across_3. cbn [app].
  repeat (cbn [calm_program]; split; [|intros ? ? E; vm_compute in E; apply Ok_inj, pair_equal_spec in E as [<- _]]); try exact Logic.I.
  all: intros l H; vm_compute in H; injection H as <-; cbn [calm_step calm_item_op calm_list_op]; try exact Logic.I; try (intros; exact Logic.I).
  intros it l' H1 H2. vm_compute in H1. injection H1 as <-. vm_compute in H2. injection H2 as <-. intros it H3. vm_compute in H3. injection H3 as <-. intros k Hk. cbn [it_refs hget] in Hk.
  destruct (eqb_bytes _ k) eqn:E; [apply StringCompactionProofs.eqb_bytes_eq in E; symmetry; exact E|contradiction].
Qed.

(** [root.list().get_item(1)], and [get_item(0)] of its list [l] *)
Definition across_reads : expr := do (do var"root" !"list" []) !"get_item" [ENum 1].
Definition across_reads_inner : expr := if_some !"x" across_reads (do (do var"x" !"l" []) !"get_item" [ENum 0]).
Lemma across_goes : goes (ro_old AgainProps.start) (ro_default AgainProps.start) (Entry !"list" 1) false !"list" across_list across_reads.
Proof. eapply (goes_entry (ro_old AgainProps.start) (ro_default AgainProps.start) !"list" _ across_list false 1); RunProps.found. Qed.
Lemma across_goes_inner : goes (ro_old AgainProps.start) (ro_default AgainProps.start) (Mil (Entry !"list" 1) !"l" 0) false !"l" across_l across_reads_inner.
Proof. eapply (goes_mil (ro_old AgainProps.start) (ro_default AgainProps.start) (Entry !"list" 1) !"list" across_list _ !"l" _ across_l false 0); [exact across_goes|RunProps.found]. Qed.

Lemma across_x : exists i, In (!"x", (i, DParam (PInt (Val 1)) Normal)) (ld_members across_list).
Proof. eexists. RunProps.found. Qed.
Lemma in_member r key p0 vt : option_map snd (hget key (ro_default r)) = Some (WParam p0 vt) -> exists i, In (key, (i, WParam p0 vt)) (ro_default r).
Proof. destruct (hget key (ro_default r)) as [[i v]|] eqn:H; intros E; [|discriminate E]. injection E as ->. exists i. apply DiffProofs.hget_in, H. Qed.

(** The hypotheses about the source are in [C65_case].  The others hold, and another program, whose hash maps run backwards, reads 6 from
    [root.n()], 11 from the member [x] of item 1, and the row a of u from the enum in its list. *)
Example C74_case : exists p, accessible (ro_old AgainProps.start) AgainProps.start p /\
  (forall told, executes p in_place AgainProps.start told across_env its_def its_start across_program [VUnit; VUnit; VUnit] across_steps across_end) /\
  Forall (ok_root_step text_at its_def) across_steps /\ Forall (generated_root_step its_def) across_steps /\ calm_program true its_def its_start across_steps /\
  size_root its_start + size_root across_end < 2 ^ 58 /\ none_emptied across_end /\ FolderSpec.plain file_a /\
  save_dochy_file root_obj (difference 2) (5, 0) its_source file_a (with_members AgainProps.start across_end) false [] = (Ok tt, across_files) /\
  load_dochy_file root_obj (patch text_addr 2) (archive_file_to_root text_addr in_place its_texts unpack_it) (move_to in_place) its_source 1 file_a across_files = Ok across_again /\
  forall told' tr, let G' := [(!"root", root_value)] in let E := evals p backwards across_again told' G' in
  E (do var"root" !"n" []) tr (Ok (VOf (CInt 6), tr)) /\
  E (asks across_reads !"x") tr (Ok (some (VOf (CInt 11)), tr)) /\ E (asks across_reads_inner !"get_enum_ids") tr (Ok (some (VPair (VText !"u") (VText !"a")), tr)).
Proof.
  destruct across_accessible as (p & A). exists p. split; [exact A|]. split; [intros told; exact (across_executes p told A)|].
  split.
  { unfold across_steps, across_1, across_2, across_3. cbn [app]. repeat apply Forall_cons; try apply Forall_nil; cbn [ok_root_step]; try exact Logic.I; try (cbn; unfold i64_range; lia); intros id d u H; each_of H; try exact Logic.I; cbn [ok_step ok_item_op]; try exact Logic.I; try (cbn; unfold i64_range; lia).
    intros id d u H; each_of H. cbn [ok_step ok_item_op]. do 3 eexists. split; [vm_compute; reflexivity|]. split; [reflexivity|]. split; [repeat constructor; unfold wf_byte; lia|split; vm_compute; reflexivity]. }
  split.
  { unfold across_steps, across_1, across_2, across_3. cbn [app]. repeat apply Forall_cons; try apply Forall_nil; cbn [generated_root_step]; try exact Logic.I; intros id d u H; each_of H; cbn [generated_step generated_op]; try exact Logic.I; try reflexivity.
    intros id d u H; each_of H. reflexivity. }
  split; [exact across_calm|]. split; [vm_compute; reflexivity|]. split; [vm_compute; reflexivity|]. split; [unfold FolderSpec.plain; vm_compute; intuition congruence|].
  split; [vm_compute; reflexivity|]. split; [vm_compute; reflexivity|]. intros told' tr G' E.
  assert (HG : has_root G') by reflexivity. assert (A' : accessible (ro_old AgainProps.start) across_again p) by exact A. split.
  - destruct (in_member across_again !"n" (PInt (Val 5)) Normal) as (i & I); [vm_compute; reflexivity|]. destruct (C68_root (ro_old AgainProps.start) backwards across_again told' p G' !"n" i (PInt (Val 5)) Normal tr A' HG I) as (X & _).
    eapply evals_R; [exact X|vm_compute; reflexivity].
  - split.
    + destruct across_x as (i & I). pose proof (C68_read (ro_old AgainProps.start) backwards across_again told' p G' (Entry !"list" 1) false !"list" across_list across_reads !"x" i (PInt (Val 1)) Normal tr A' HG across_goes I) as X.
      eapply evals_R; [exact X|vm_compute; reflexivity].
    + pose proof (C68_enum_ids (ro_old AgainProps.start) backwards across_again told' p G' (Mil (Entry !"list" 1) !"l" 0) false !"l" across_l across_reads_inner tr A' HG across_goes_inner eq_refl) as X.
      eapply evals_R; [exact X|vm_compute; reflexivity].
Qed.
