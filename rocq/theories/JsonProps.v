(** C44, C45 and C51: names and numbers of members. *)
From Coq Require Import String.
From Verif Require Import Base StringCompactionModel DocModel DiffSpec ArchiveModel JsonModel JsonSpec JsonNameProofs JsonProofs JsonOrderProofs.

(* ------------------------------------------------------------------ *)
(** * Examples *)

(** a file consists of one byte, which selects its content *)
Definition texts (l : list jval) (content : list Z) : option jval :=
  match content with [i] => nth_error l (Z.to_nat i) | _ => None end.

(** texts are equal if their addresses are *)
Definition sample_addr (s : list Z) : Z := fold_left (fun a c => a * 257 + (c + 1)) s 0.

Definition in_place (A : Type) (m : hmap A) : hmap A := m.
Definition backwards (A : Type) (m : hmap A) : hmap A := rev m.
Lemma in_place_iterates : iterates in_place.
Proof. intros A m. reflexivity. Qed.
Lemma backwards_iterates : iterates backwards.
Proof. intros A m. symmetry. apply Permutation_rev. Qed.

(** [{ x: 1, "y?": ["Str", null], "l!": ["MilDef", [{ z: 0.0 }]], Ref: { t: "", "u?": null } }] *)
Definition sample_member_def : jval :=
  JMap [(txt "x", JInt 1); (txt "y?", JArray [JString (txt "Str"); JNull]);
        (txt "l!", JArray [JString (txt "MilDef"); JArray [JMap [(txt "z", JDouble 0)]]]);
        (txt "Ref", JMap [(txt "t", JString []); (txt "u?", JNull)])].

(** [root.json5]: two values, a list and what was once there *)
Definition sample_root : jval :=
  JMap [(txt "b", JString (txt "text")); (txt "Old", JArray [JString (txt "b")]); (txt "a?", JInt 7);
        (txt "list!", JArray [JString (txt "MList"); JArray [sample_member_def]; JMap [(txt "x", JInt 3)]])].
(** [t.json5]: a table *)
Definition sample_table : jval :=
  JArray [JString (txt "Table"); JArray [JString (txt "Default"); JMap [(txt "v", JBool true)]];
          JMap [(txt "ID", JString (txt "row")); (txt "v", JBool false)]].
Definition sample_files : smap (list Z) :=
  [(txt "src/root.json5", [0]); (txt "src/t.json5", [1]); (txt "src/u.json5", [2])].
Definition sample_texts := texts [sample_root; sample_table; JDouble 0].

(* ------------------------------------------------------------------ *)
(** * C45 *)

(** Exactly the names followed by marks are read as names, and the name and the
    marks are those written. *)
Theorem C45_names : forall s n vt,
  json_name s = Some (NName n vt) <-> plain_name n /\ exists t, marks vt t /\ s = n ++ t.
Proof. exact json_name_plain. Qed.
Print Assumptions C45_names.

(** The four reserved words are told from names. *)
Theorem C45_system : forall s x, json_name s = Some (NSystem x) <-> s = system_word x.
Proof. exact json_name_system. Qed.
Print Assumptions C45_system.

(** A name written with its marks is read back. *)
Theorem C45_written : forall n vt, plain_name n -> json_name (name_with_suffix n vt) = Some (NName n vt).
Proof. exact json_name_written. Qed.
Print Assumptions C45_written.

(** Where no marks are allowed exactly the names are accepted. *)
Theorem C45_simple : forall s n, json_simple_name s = Some n <-> plain_name s /\ n = s.
Proof. exact simple_name_spec. Qed.
Print Assumptions C45_simple.

(** No text can be read in two ways. *)
Theorem C45_unambiguous : forall n1 n2 vt1 vt2 t1 t2, plain_name n1 -> plain_name n2 -> marks vt1 t1 -> marks vt2 t2 ->
  n1 ++ t1 = n2 ++ t2 -> n1 = n2 /\ vt1 = vt2.
Proof.
  intros n1 n2 vt1 vt2 t1 t2 P1 P2 M1 M2 E.
  assert (A : json_name (n1 ++ t1) = Some (NName n1 vt1)) by (apply json_name_plain; eauto).
  assert (B : json_name (n1 ++ t1) = Some (NName n2 vt2)) by (apply json_name_plain; eauto).
  rewrite A in B. injection B as -> ->. auto.
Qed.
Print Assumptions C45_unambiguous.

Example C45_case :
  json_name (txt "@fooBar_1?!") = Some (NName (txt "@fooBar_1") UndefNullable) /\
  json_name (txt "Ref") = Some (NSystem SRef) /\
  json_name (txt "Foo") = None /\ json_name (txt "a??") = None /\ json_name (txt "a?b") = None /\ json_name [] = None /\
  plain_name (txt "_x9").
Proof.
  repeat (split; [reflexivity|]). exists 95, (txt "x9"). split; [reflexivity|]. split; [auto|]. unfold lower, upper, digit. cbn. repeat (apply Forall_cons; [lia|]). apply Forall_nil.
Qed.

(* ------------------------------------------------------------------ *)
(** * C44 *)

(** The tables built from a definition whose members are numbered 0, 1, 2, ... translate
    between its names and numbers, at every level; building them does not panic. *)
Theorem C44_tables : forall iter root, iterates iter -> well_numbered_root root ->
  exists T, meta_of iter root = Ok T /\ matches_root root T.
Proof. intros iter root It W. exact (meta_of_ok (fun _ => 0) iter It root W). Qed.
Print Assumptions C44_tables.

(** Loading source files that give different names to the members of the root gives
    such a definition with its tables, or fails with an error. *)
Theorem C44_loaded_partial : forall addr iter parse files, iterates iter -> NoDup (source_names parse files) ->
  files_to_root addr iter parse files <> Panic /\
  forall r, files_to_root addr iter parse files = Ok r ->
    well_numbered_root (ro_default r) /\ matches_root (ro_default r) (ro_meta r) /\
    Permutation (map fst (ro_default r)) (source_names parse files).
Proof.
  intros addr iter parse files It N. pose proof (files_wf addr iter It parse files N) as G. split; [exact (good_panic _ _ G)|].
  intros r E. destruct (good_ok _ _ _ G E) as [(A & B & _) C]. auto.
Qed.
Print Assumptions C44_loaded_partial.

(** Inside lists names need not be different: every definition read from a file is
    numbered properly, and reading a file with one member never panics. *)
Theorem C44_nested : forall addr iter v vt, iterates iter ->
  json_item_str_to_rust addr iter v vt <> Panic /\
  forall d, (exists items old, json_item_str_to_rust addr iter v vt = Ok (VaTable d items old)) \/
            (exists items, json_item_str_to_rust addr iter v vt = Ok (VaCList d items)) \/
            (exists u items, json_item_str_to_rust addr iter v vt = Ok (VaMList d u items)) ->
    well_numbered d.
Proof.
  intros addr iter v vt It. pose proof (item_str_wf addr iter It v vt) as G. split; [exact (good_panic _ _ G)|].
  intros d [(items & old & E)|[(items & E)|(u & items & E)]]; exact (good_ok _ _ _ G E).
Qed.
Print Assumptions C44_nested.

(** A root object with [a] and [a?] makes loading panic. *)
Theorem C44_panic_refuted : exists parse files, forall addr iter, iterates iter ->
  files_to_root addr iter parse files = Panic.
Proof.
  exists (texts [JMap [(txt "a", JInt 1); (txt "a?", JInt 2)]]), [(txt "root.json5", [0])].
  intros addr iter It.
  assert (S1 : forall A (x : name * A), iter A [x] = [x]) by (intros A x; apply Permutation_length_1_inv, Permutation_sym, It).
  assert (S0 : forall A, iter A [] = []) by (intros A; apply Permutation_nil, Permutation_sym, It).
  assert (E : json_root_to_rust addr iter (JMap [(txt "a", JInt 1); (txt "a?", JInt 2)]) = Panic).
  { unfold json_root_to_rust, obj_of, into_root_obj, to_root_hash, new_root, meta_of. cbn. rewrite S1. cbn. rewrite S1. reflexivity. }
  unfold files_to_root, json_file_to_rust. cbn [map fst snd].
  replace (eqb_bytes (file_stem (txt "root.json5")) (txt "root")) with true by reflexivity.
  cbn [texts nth_error Z.to_nat ok_or bind]. rewrite E. reflexivity.
Qed.
Print Assumptions C44_panic_refuted.

(** A file named like a member of the root object takes the number of the file after it:
    two members with one number, of which the tables know only one. *)
Theorem C44_number_refuted : exists parse files, forall addr, exists r id v1 v2 n mv,
  files_to_root addr in_place parse files = Ok r /\
  hget (txt "a") (ro_default r) = Some (id, v1) /\ hget (txt "c") (ro_default r) = Some (id, v2) /\ variable v1 /\ variable v2 /\
  meta_get (ro_meta r) id = Some (n, mv) /\ n = txt "c" /\
  forall id' mv', meta_get (ro_meta r) id' <> Some (txt "a", mv').
Proof.
  exists (texts [JMap [(txt "a", JInt 1); (txt "b", JInt 2)]; JInt 3; JInt 4]), [(txt "s/a.json5", [1]); (txt "s/c.json5", [2]); (txt "s/root.json5", [0])].
  intros addr. do 6 eexists. split; [vm_compute; reflexivity|]. split; [reflexivity|]. split; [reflexivity|]. split; [exact I|]. split; [exact I|]. split; [reflexivity|].
  split; [reflexivity|]. intros id' mv'. unfold meta_get, zget. cbn [ro_meta]. destruct (id' <? 0); [discriminate|].
  destruct (Z.to_nat id') as [|[|[|[|]]]]; cbn; discriminate.
Qed.
Print Assumptions C44_number_refuted.

Example C44_case : exists r d,
  NoDup (source_names sample_texts sample_files) /\
  files_to_root sample_addr backwards sample_texts sample_files = Ok r /\
  hget (txt "list") (ro_default r) = Some (2, WMList d true) /\
  map (fun e => (fst e, fst (snd e))) (ld_members (undef d)) = [(txt "l", 0); (txt "y", 1); (txt "x", 2)] /\
  map fst (ro_default r) = [txt "list"; txt "a"; txt "b"; txt "t"; txt "u"] /\
  (exists m, meta_get (ro_meta r) 2 = Some (txt "list", MOptMil m)) /\
  meta_get (ro_meta r) 3 = None.
Proof.
  do 2 eexists. split; [|split; [vm_compute; reflexivity|]].
  - repeat (constructor; [cbn; intuition discriminate|]). constructor.
  - split; [vm_compute; reflexivity|]. split; [reflexivity|]. split; [reflexivity|]. split; [eexists; reflexivity|reflexivity].
Qed.

(* ------------------------------------------------------------------ *)
(** * C51 *)

(** The numbers of the members of a list depend on the order in which a hash map is
    iterated, although the source is the same. *)
Theorem C51_refuted : exists parse files addr iter1 iter2 r1 r2 id1 id2 d1 d2 i1 i2 v1 v2,
  iterates iter1 /\ iterates iter2 /\
  files_to_root addr iter1 parse files = Ok r1 /\ files_to_root addr iter2 parse files = Ok r2 /\
  hget (txt "list") (ro_default r1) = Some (id1, WMList d1 true) /\ hget (txt "list") (ro_default r2) = Some (id2, WMList d2 true) /\
  hget (txt "x") (ld_members (undef d1)) = Some (i1, v1) /\ hget (txt "x") (ld_members (undef d2)) = Some (i2, v2) /\
  v1 = v2 /\ i1 <> i2.
Proof.
  exists sample_texts, sample_files, sample_addr, in_place, backwards. do 10 eexists.
  split; [exact in_place_iterates|]. split; [exact backwards_iterates|]. split; [vm_compute; reflexivity|]. split; [vm_compute; reflexivity|].
  split; [reflexivity|]. split; [reflexivity|]. split; [reflexivity|]. split; [reflexivity|]. split; [reflexivity|]. discriminate.
Qed.
Print Assumptions C51_refuted.

(** The numbers of the members of the root do not. *)
Theorem C51_root_partial : forall addr parse iter1 iter2 files r1 r2, iterates iter1 -> iterates iter2 ->
  files_to_root addr iter1 parse files = Ok r1 -> files_to_root addr iter2 parse files = Ok r2 ->
  forall key, option_map fst (hget key (ro_default r1)) = option_map fst (hget key (ro_default r2)).
Proof. intros addr parse iter1 iter2 files r1 r2 It1 It2. exact (root_numbers_order addr parse iter1 iter2 It1 It2 files r1 r2). Qed.
Print Assumptions C51_root_partial.

Example C51_case : exists r1 r2,
  files_to_root sample_addr in_place sample_texts sample_files = Ok r1 /\ files_to_root sample_addr backwards sample_texts sample_files = Ok r2 /\
  map fst (ro_default r1) <> map fst (ro_default r2) /\
  map (fun e => fst (snd e)) (ro_default r1) = [0; 1; 2; 3; 4].
Proof. do 2 eexists. split; [vm_compute; reflexivity|]. split; [vm_compute; reflexivity|]. split; [discriminate|reflexivity]. Qed.
