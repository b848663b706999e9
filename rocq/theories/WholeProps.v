(** Property C59: sessions, from the source to files that are loaded again. *)
From Coq Require Import String.
From Verif Require Import Base CompactionModel CompactionSpec StringCompactionModel LinkedModel LinkedSpec DocModel DiffModel DiffWireModel DiffSpec DiffEditSpec DiffProofs DiffSamples
  ArchiveModel JsonModel JsonSpec JsonProofs ValidModel ValidSpec LoadSpec EmbedSpec EmbedProofs EmbedProps IntfModel IntfSpec IntfProofs IntfLoadProofs IntfProps
  FileNameModel FileNameSpec PhaseModel PhaseSpec TreeModel TreeSpec HistModel HistSpec HistProps
  SizeSpec SizeProofs WholeSpec WholeProofs PlaceProofs.

(** ** C59  Every file of a session can be loaded and gives the document that was saved

    The objects of a process are made from one source, edited by any programs of accessor
    calls that move no items and change no table of an enum, saved to a history and loaded
    from it, in any order; the process may be restarted.  The differences are those of C14. *)
Theorem C59_load_partial : forall mem n (def : rootdef n) appdiff docs src op junk,
  wf_rootdef def -> small_rootdef def -> few_rootdef def -> (forall key id d, hget key def <> Some (id, RVMList d true)) ->
  typed_root mem src def -> counted_root src -> lists_there def src ->
  applies mem def appdiff -> keepable docs -> docs src -> (exists b, build b = Ok op) ->
  forall k s F o, session mem def appdiff src op docs junk k s F o -> Z.of_nat k + 1 < 100000000 ->
  forall id p d, In (p, d) F -> exists r,
    load_history_file (sabun n) appdiff src op id p s = (Ok r, St (sabun n) (s_dir _ s) (s_cache _ s) (Some (id, p))) /\
    typed_root mem r def /\ same_root true true r d.
Proof. intros mem n def appdiff docs src op junk W S Few Un T C L A K D B k s F o Se Sm id p d I. eapply session_loads; eassumption. Qed.
Print Assumptions C59_load_partial.

(** A save writes a new file, the newest, and changes no other; or it fails and changes
    nothing, because the file the object is based on cannot be continued. *)
Theorem C59_save_partial : forall mem n (def : rootdef n) appdiff docs src op junk,
  wf_rootdef def -> small_rootdef def -> few_rootdef def -> (forall key id d, hget key def <> Some (id, RVMList d true)) ->
  typed_root mem src def -> counted_root src -> lists_there def src ->
  applies mem def appdiff -> keepable docs -> docs src -> (exists b, build b = Ok op) -> limited op ->
  forall k s F o, session mem def appdiff src op docs junk k s F o -> Z.of_nat k + 1 < 100000000 ->
  forall greater id d r s', o id = Some d -> docs d ->
  save_history_file (sabun n) (fun f t => get_diff f t def) appdiff src op greater None id d s = (r, s') ->
  (exists p, r = Ok p /\ ~ In (filename p) (map fst (s_dir _ s)) /\
     (forall name content, hget name (s_dir _ s) = Some content -> hget name (s_dir _ s') = Some content) /\
     (forall names, Permutation names (map fst (s_dir _ s')) -> exists h, create_file_history names = Ok h /\ get_newest h = Some p)) \/
  (r = Err /\ s' = s /\ exists base, s_cur _ s = Some (id, base) /\ ~ continuable op (map fst F) base).
Proof. intros mem n def appdiff docs src op junk W S Few Un T C L A K D B Lm k s F o Se Sm greater id d r s' Ho Hd E. eapply session_saves; eassumption. Qed.
Print Assumptions C59_save_partial.

(** The same from source files: what is loaded from them (see C52) is a source of sessions. *)
Theorem C59_source_partial : forall addr mem iter parse files r, iterates iter -> (forall s, mem (addr s) = s) ->
  NoDup (source_names parse files) -> zlen (source_names parse files) <= 2 ^ 62 ->
  all_files (everywhere rust_node) parse files -> all_files (everywhere unique_node) parse files -> all_files (everywhere counted_node) parse files ->
  load_root addr iter parse files true = Ok r ->
  exists n (def : rootdef n) (src : sabun n), is_rootdef (ro_default r) def /\ is_sabun (ro_sabun r) src /\
    (small_rootdef def -> (forall key id d, hget key def <> Some (id, RVMList d true)) ->
     forall appdiff docs op junk, applies mem def appdiff -> keepable docs -> docs src -> (exists b, build b = Ok op) ->
     forall k s F o, session mem def appdiff src op docs junk k s F o -> Z.of_nat k + 1 < 100000000 ->
     forall id p d, In (p, d) F -> exists r s',
       load_history_file (sabun n) appdiff src op id p s = (Ok r, s') /\ typed_root mem r def /\ same_root true true r d).
Proof.
  intros addr mem iter parse files r It Hm N L R U C E.
  destruct (loaded_root addr mem iter parse files r true It Hm N L R U ltac:(auto) E) as (n & def & f & A & B & W & T & Hc).
  pose proof E as E0. unfold load_root in E0. apply bind_ok in E0 as (r0 & E1 & E2). apply bind_ok in E2 as ([] & E2 & E3). apply Ok_inj in E3; subst r0.
  pose proof (loaded_few addr mem iter parse files r n def It Hm R U E1 A W) as Few.
  pose proof (loaded_there addr iter parse files r n def f E1 A B) as Th.
  exists n, def, f. split; [exact A|]. split; [exact B|]. intros S Un appdiff docs op junk Ap K Ds Bu k s F o Se Sm id p d I.
  destruct (C59_load_partial mem n def appdiff docs f op junk W S Few Un T (Hc eq_refl) Th Ap K Ds Bu k s F o Se Sm id p d I) as (x & Ex & Tx & Sx).
  exists x. eexists. split; [exact Ex|]. split; assumption.
Qed.
Print Assumptions C59_source_partial.

(** Applying differences as C14 does and placing what was read in the memory is an
    implementation. *)
Theorem C59_placed : forall addr mem, (forall s, mem (addr s) = s) -> forall n (def : rootdef n), applies mem def (apply_placed addr def).
Proof. intros addr mem H n def. apply placed_applies. exact H. Qed.
Print Assumptions C59_placed.

(* ------------------------------------------------------------------ *)
(** * A session *)

(** as [a_program] of C41, with a text that is set *)
Definition hi : list Z := [104; 105].
Definition first_program : list root_step := firstn 6 a_program ++ [OSet [115] (PString (Val (text_addr hi, hi)))].
Definition second_program : list root_step := [OInto [108] (OnList LInsertLast); OInto [108] (OnItem 4 (ISet [118] (PInt (Val 9))))].
Definition run_doc (f : sabun 2) (ops : list root_step) : sabun 2 := match program_run a_def f ops with Ok d => d | _ => [] end.
Definition first_doc : sabun 2 := Eval vm_compute in run_doc doc_f first_program.
Definition second_doc : sabun 2 := Eval vm_compute in run_doc first_doc second_program.
Definition the_docs (d : sabun 2) : Prop := d = doc_f \/ d = first_doc \/ d = second_doc.

Definition app_ := apply_placed text_addr a_def.
Definition save_ (id : Z) (d : sabun 2) (s : st (sabun 2)) := save_history_file (sabun 2) (fun f t => get_diff f t a_def) app_ doc_f op2 exact_greater None id d s.
Definition load_ (id : Z) (p : props) (s : st (sabun 2)) := load_history_file (sabun 2) app_ doc_f op2 id p s.
Definition restart_ (s : st (sabun 2)) : st (sabun 2) := St _ (s_dir _ s) [] None.
Definition s0 : st (sabun 2) := St _ [(src_name, [])] [] None.
Definition s1 := Eval vm_compute in snd (save_ 1 first_doc s0).
Definition s2 := Eval vm_compute in snd (load_ 7 (HistProps.at_ 0 0 [0]) (restart_ s1)).
Definition s3 := Eval vm_compute in snd (save_ 7 second_doc s2).
Definition the_files : list (props * sabun 2) := [(HistProps.at_ 0 0 [0], first_doc); (HistProps.at_ 0 0 [0; 0], second_doc)].

Lemma doc_f_held : typed_root text_at doc_f a_def.
Proof.
  eapply (typed_same text_at a_mem doc_f doc_f); [apply GrownProofs.same_root_refl| |eapply typed_clean; exact doc_f_typed|exact doc_f_typed].
  intros key v H. each H; [exact Logic.I|]. intros id it H. item_of H; intros key v H; each H; try exact Logic.I. intros id it H. item_of H; intros key v H; each H; exact Logic.I.
Qed.

Lemma few_a : few_rootdef a_def.
Proof. exact (proj1 C41_program_case). Qed.

Ltac docs_of H := unfold the_docs in H; repeat match type of H with _ \/ _ => destruct H as [H|H] end; subst.
Ltac each' H := apply hget_in in H; cbn [In it_values it_refs a_def doc_f first_doc second_doc inner_list leaf] in H;
  repeat match type of H with _ \/ _ => destruct H as [H|H] end; try contradiction H; inversion H; subst; clear H.
Ltac item_of' H := apply lookup_in' in H; cbn [In fst inner_list] in H;
  repeat match type of H with _ \/ _ => destruct H as [H|H] end; try contradiction H; inversion H; subst; clear H.

Lemma docs_keepable : keepable the_docs.
Proof.
  split.
  - intros d H. docs_of H; (split; [|vm_compute; reflexivity]).
    all: intros key l H; each' H; (split; [discriminate|]); intros id it H; item_of' H; intros key l H; each' H; (split; [discriminate|]); intros id it H; item_of' H; intros key l H; each' H.
  - intros a b Ha Hb. docs_of Ha; docs_of Hb.
    all: intros key x y Hx Hy; each' Hx; each' Hy; (split; [intros (E & _); first [reflexivity|discriminate E]|]).
    all: intros id it it' Hi Hj; item_of' Hi; item_of' Hj; intros key x y Hx Hy; each' Hx; each' Hy.
    all: (split; [intros (E & _); first [reflexivity|discriminate E]|]).
    all: intros id it it' Hi Hj; item_of' Hi; item_of' Hj; intros key x y Hx Hy; each' Hx; each' Hy.
Qed.

Ltac ok_program := repeat apply Forall_cons; try apply Forall_nil; cbn [ok_root_step].
Ltac calm := repeat (cbn [calm_program]; split; [first [exact Logic.I|intros ? ?; first [exact Logic.I|hnf; intros; exact Logic.I]]|intros ? ? E; vm_compute in E; apply Ok_inj, pair_equal_spec in E as [<- _]]); exact Logic.I.

(** An object is edited and saved; the process is restarted, the file loaded, edited and
    saved as another one. *)
Example C59_case : wf_rootdef a_def /\ small_rootdef a_def /\ few_rootdef a_def /\ (forall key id d, hget key a_def <> Some (id, RVMList d true)) /\
  typed_root text_at doc_f a_def /\ counted_root doc_f /\ lists_there a_def doc_f /\
  applies text_at a_def app_ /\ keepable the_docs /\ the_docs doc_f /\ (exists b, build b = Ok op2) /\ limited op2 /\
  exists o, session text_at a_def app_ doc_f op2 the_docs [src_name] 2 s3 the_files o /\ o 7 = Some second_doc.
Proof.
  split; [exact a_def_wf|]. split; [exact a_def_small|]. split; [exact few_a|]. split; [exact a_def_fixed|]. split; [exact doc_f_held|]. split; [exact doc_f_counted|].
  split; [intros key id d u H; each H; discriminate|]. split; [apply C59_placed; exact text_at_addr|]. split; [exact docs_keepable|]. split; [left; reflexivity|]. split; [exact op2_built|]. split; [exact op2_limited|].
  exists (put 7 second_doc (put 7 first_doc (fun _ => None))). split.
  - apply (ses_save text_at a_def app_ doc_f op2 the_docs [src_name] 1 s2 (firstn 1 the_files) _ exact_greater 7 second_doc (HistProps.at_ 0 0 [0; 0]));
      [|reflexivity|right; right; reflexivity|left; reflexivity|vm_compute; reflexivity].
    apply (ses_edit text_at a_def app_ doc_f op2 the_docs [src_name] 1 s2 (firstn 1 the_files) _ 7 first_doc second_program); [|reflexivity| | |vm_compute; reflexivity].
    + apply (ses_load text_at a_def app_ doc_f op2 the_docs [src_name] 1 (restart_ s1) (firstn 1 the_files) _ 7 (HistProps.at_ 0 0 [0]) first_doc); [|left; reflexivity|vm_compute; reflexivity].
      apply (ses_restart text_at a_def app_ doc_f op2 the_docs [src_name] 1 s1 (firstn 1 the_files) (put 1 first_doc (put 1 doc_f (fun _ => None)))).
      apply (ses_save text_at a_def app_ doc_f op2 the_docs [src_name] 0 s0 [] _ exact_greater 1 first_doc (HistProps.at_ 0 0 [0]));
        [|reflexivity|right; left; reflexivity|left; reflexivity|vm_compute; reflexivity].
      apply (ses_edit text_at a_def app_ doc_f op2 the_docs [src_name] 0 s0 [] (put 1 doc_f (fun _ => None)) 1 doc_f first_program); [|reflexivity| | |vm_compute; reflexivity].
      * apply ses_new; [|apply GrownProofs.same_root_refl|eapply typed_clean; exact doc_f_held| |discriminate].
        -- apply ses_start. split; [apply NoDup_cons; [intros []|apply NoDup_nil]|]. split; [apply Permutation_refl|]. split; [constructor|]. split; [constructor|]. apply Forall_cons; [vm_compute; reflexivity|apply Forall_nil].
        -- intros key v H. each H; [exact Logic.I|]. intros id it H. item_of H; intros key v H; each H; try exact Logic.I. intros id it H. item_of H; intros key v H; each H; exact Logic.I.
      * unfold first_program, a_program. cbn [firstn app]. ok_program.
        -- intros; exact Logic.I.
        -- intros id d u H. each H. exact Logic.I.
        -- intros id d u H. each H. intros i d' u' H. exact Logic.I.
        -- intros id d u H. each H. exists 0, (Val [120]), Normal. split; [reflexivity|]. split; [reflexivity|]. text.
        -- intros; exact Logic.I.
        -- intros id d u H. each H. intros i d' u' H. exact Logic.I.
        -- split; [symmetry; apply text_at_addr|text].
      * unfold first_program, a_program. cbn [firstn app]. calm.
    + unfold second_program. ok_program; [intros; exact Logic.I|]. intros id d u H. each H. cbn. unfold i64_range. lia.
    + unfold second_program. calm.
  - reflexivity.
Qed.

(* ------------------------------------------------------------------ *)
(** * What the conditions exclude *)

Definition names_of (d : sabun 2) : list Z := match hget [108] d with Some (RMut (Some l)) => ids (fst l) | _ => [] end.
Definition next_of (d : sabun 2) : Z := match hget [108] d with Some (RMut (Some l)) => snd l | _ => 0 end.

(** An object is edited, saved, and loaded by another process.  If items were moved, they
    are where they were before. *)
Theorem C59_moved_refuted : exists ops d p s r s',
  program_run a_def doc_f ops = Ok d /\ save_ 1 d s0 = (Ok p, s) /\ load_ 7 p (restart_ s) = (Ok r, s') /\
  names_of doc_f = [0; 1; 2] /\ names_of d = [2; 0; 1] /\ names_of r = [0; 1; 2].
Proof.
  exists [OInto [108] (OnList (LMoveToFirst 2))]. do 5 eexists. split; [vm_compute; reflexivity|]. split; [vm_compute; reflexivity|]. split; [vm_compute; reflexivity|].
  split; [reflexivity|]. split; reflexivity.
Qed.
Print Assumptions C59_moved_refuted.

(** An item that is inserted and removed again before saving: the document saved and the
    one loaded give different ids to the next item.  [keepable] excludes this. *)
Theorem C59_next_refuted : exists ops d p s r s',
  calm_program true a_def doc_f ops /\ program_run a_def doc_f ops = Ok d /\ save_ 1 d s0 = (Ok p, s) /\ load_ 7 p (restart_ s) = (Ok r, s') /\
  names_of r = names_of d /\ next_of d = 4 /\ next_of r = 3.
Proof.
  exists [OInto [108] (OnList LInsertLast); OInto [108] (OnList (LRemove 3))]. do 5 eexists. split; [calm|]. split; [vm_compute; reflexivity|]. split; [vm_compute; reflexivity|]. split; [vm_compute; reflexivity|].
  split; [reflexivity|]. split; reflexivity.
Qed.
Print Assumptions C59_next_refuted.
