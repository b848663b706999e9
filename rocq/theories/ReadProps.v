(** C64: what generated functions return for a loaded source is what the source says. *)
From Coq Require Import String.
From Coq Require Import Sorting.Permutation.
From Verif Require Import Base FloatModel FloatProofs StringCompactionModel LinkedModel LinkedSpec DocModel DiffSpec DiffProofs ArchiveModel JsonModel JsonSpec JsonNameProofs JsonProofs JsonProps
  LoadSpec LoadProofs ValidModel ValidSpec ValidProofs ValidProps SaysSpec SaysProofs SaysProofs2 SaysProofs3 SaysProofs4 SameSpec SaysProofs5 SaysProps IntfModel ReadModel ReadSpec ReadProofs.

Lemma source_facts addr iter parse files r : iterates iter -> clean_source parse files -> load_root addr iter parse files true = Ok r ->
  NoDup (map fst files) /\ all_files tidy parse files /\ says_files parse files r /\ root_valid r false /\ distinct_root r.
Proof.
  intros It (Np & Ns & T & U) E. destruct (C42_loaded_partial addr iter parse files It Ns U) as [_ C]. apply C in E as [E V].
  split; [exact Np|]. split; [exact T|]. split; [exact (files_say addr iter It parse files r Np Ns T E)|]. split; [exact V|exact (loaded_distinct addr iter parse files r It U E)].
Qed.
Ltac facts It C E := destruct (source_facts _ _ _ _ _ It C E) as (Np & T & SF & V & D).

(** A program gets to an item of the loaded document along a way exactly if the way leads to
    an item of the source: the row with that text as its id, the item at that position or with that number, an item of
    a list inside, the row referred to, or the row of the enum. *)
Theorem C64_ways_partial : forall addr iter parse files r w, iterates iter -> clean_source parse files -> load_root addr iter parse files true = Ok r ->
  ((exists s, visit iter r w = Ok (Some s)) <-> exists x m, leads parse files w x m).
Proof.
  intros addr iter parse files r w It C E. facts It C E. split.
  - intros (s & Ev). destruct (ways_back iter It parse files r Np T SF V D w s Ev) as (x & m & L & _). eauto.
  - intros (x & m & L). destruct (ways_forward iter It parse files r Np T SF V D w x m L) as (s & Ev & _). eauto.
Qed.
Print Assumptions C64_ways_partial.

(** The function for a member returns what is written in the item, and otherwise what is
    written in the definition, provided the marks of the definition allow it. *)
Theorem C64_value_partial : forall addr iter parse files r w x m n vt v0 p0 v q, iterates iter -> clean_source parse files -> load_root addr iter parse files true = Ok r ->
  leads parse files w x m -> member x n vt v0 -> writes_param v0 p0 -> has_value x m n v -> writes_param v q ->
  (exists vt', member m n vt' v) \/ allows_param vt q -> read_at iter r w n = Ok (Some (contents q)).
Proof. intros addr iter parse files r w x m n vt v0 p0 v q It C E. facts It C E. exact (param_read iter It parse files r Np T SF V D w x m n vt v0 p0 v q). Qed.
Print Assumptions C64_value_partial.

(** The same for members of the root. *)
Theorem C64_root_partial : forall addr iter parse files r n vt v q, iterates iter -> clean_source parse files -> load_root addr iter parse files true = Ok r ->
  top parse files n vt v -> writes_param v q -> allows_param vt q -> get_root_param r n = Ok (contents q).
Proof. intros addr iter parse files r n vt v q It C E. facts It C E. exact (root_read parse files r Np T SF n vt v q). Qed.
Print Assumptions C64_root_partial.

(** A reference written in an item leads to a row. *)
Theorem C64_reference_partial : forall addr iter parse files r w x m key id, iterates iter -> clean_source parse files -> load_root addr iter parse files true = Ok r ->
  leads parse files w x m -> (exists rs, word x SRef (JMap rs)) -> has_ref m key (JString id) ->
  exists x' m' s, leads parse files (Ref w key) x' m' /\ visit iter r (Ref w key) = Ok (Some s).
Proof.
  intros addr iter parse files r w x m key id It C E L W H. facts It C E. destruct (ref_leads iter It parse files r Np T SF V D w x m key id L W H) as (x' & m' & L').
  destruct (ways_forward iter It parse files r Np T SF V D _ _ _ L') as (s & Ev & _). eauto 6.
Qed.
Print Assumptions C64_reference_partial.

(** In an item of a list with [Enum] exactly one variant is written; unless null is written
    after it, it leads to a row. *)
Theorem C64_enum_partial : forall addr iter parse files r w x m, iterates iter -> clean_source parse files -> load_root addr iter parse files true = Ok r ->
  leads parse files w x m -> (exists rs, word x SEnum (JMap rs)) ->
  exists key v, has_ref m key v /\ (forall key' v', has_ref m key' v' -> key' = key) /\
    forall id, v = JString id -> exists x' m' s, leads parse files (Enum w key) x' m' /\ visit iter r (Enum w key) = Ok (Some s).
Proof.
  intros addr iter parse files r w x m It C E L W. facts It C E. destruct (enum_leads iter It parse files r Np T SF V D w x m L W) as (key & v & H & O & R). exists key, v. split; [exact H|]. split; [exact O|].
  intros id Ei. destruct (R id Ei) as (x' & m' & L'). destruct (ways_forward iter It parse files r Np T SF V D _ _ _ L') as (s & Ev & _). eauto 6.
Qed.
Print Assumptions C64_enum_partial.

(** Going through a constant list gives the items in the order they are written. *)
Theorem C64_iteration_partial : forall addr iter parse files r t vt l x objs, iterates iter -> clean_source parse files -> load_root addr iter parse files true = Ok r ->
  top parse files t vt (tagged_with "CList" l) -> list_of l x objs ->
  exists c, root_clist r t = Some c /\ Forall2 (fun i s => visit iter r (Elem t i) = Ok (Some s)) (seq 0 (length objs)) (clist_iter c).
Proof. intros addr iter parse files r t vt l x objs It C E. facts It C E. exact (clist_order iter parse files r Np T SF V D t vt l x objs). Qed.
Print Assumptions C64_iteration_partial.

(** A mutable list has the items in the order they are written, with the numbers written or their positions. *)
Theorem C64_list_partial : forall addr iter parse files r t vt l x objs, iterates iter -> clean_source parse files -> load_root addr iter parse files true = Ok r ->
  top parse files t vt (tagged_with "MList" l) -> list_of l x objs ->
  exists items d, root_mlist r t = Some (Some items, d) /\ length items = length objs /\
    forall i id c, nth_error items i = Some (id, c) -> visit iter r (Entry t id) = Ok (Some (c, d)) /\ exists m, nth_error objs i = Some m /\ numbered m i id.
Proof. intros addr iter parse files r t vt l x objs It C E. facts It C E. exact (mlist_order iter parse files r Np T SF V D t vt l x objs). Qed.
Print Assumptions C64_list_partial.

(** Exactly when these functions panic.  A function for a parameter: the item does not write it and the
    definition says null or undefined without the mark for it. *)
Theorem C64_value_panics_partial : forall addr iter parse files r, iterates iter -> clean_source parse files -> load_root addr iter parse files true = Ok r ->
  (forall w x m n vt v0 p0, leads parse files w x m -> member x n vt v0 -> writes_param v0 p0 ->
     (read_at iter r w n = Panic <-> (forall vt' v', ~ member m n vt' v') /\ ~ allows_param vt p0)) /\
  (forall n vt v q, top parse files n vt v -> writes_param v q -> (get_root_param r n = Panic <-> ~ allows_param vt q)).
Proof. intros addr iter parse files r It C E. facts It C E. split; [exact (param_panics iter It parse files r Np T SF V D)|exact (root_panics parse files r Np T SF)]. Qed.
Print Assumptions C64_value_panics_partial.

(** A function for a reference: the item does not write it, and the definition says null or undefined without the
    mark for it or names no row.  The function for an enum: the item names no row. *)
Theorem C64_reference_panics_partial : forall addr iter parse files r, iterates iter -> clean_source parse files -> load_root addr iter parse files true = Ok r ->
  (forall w x m key rs vt v, leads parse files w x m -> word x SRef (JMap rs) -> member rs key vt v ->
     (visit iter r (Ref w key) = Panic <-> (forall v', ~ has_ref m key v') /\
        ((exists q, nothing _ v q /\ ~ allows (T := list Z) vt q) \/ exists id, v = JString id /\ forall x' m', ~ leads parse files (Row key id) x' m'))) /\
  (forall w x m key, leads parse files w x m -> (exists rs, word x SEnum (JMap rs)) ->
     (visit iter r (Enum w key) = Panic <-> forall key' id, ~ has_ref m key' (JString id))).
Proof. intros addr iter parse files r It C E. facts It C E. split; [exact (ref_panics iter It parse files r Np T SF V D)|exact (enum_panics iter It parse files r Np T SF V D)]. Qed.
Print Assumptions C64_reference_panics_partial.

(** Mutable lists are read without panic, whatever the id; constant lists at the positions they have. *)
Theorem C64_lists_total_partial : forall addr iter parse files r, iterates iter -> clean_source parse files -> load_root addr iter parse files true = Ok r ->
  (forall t vt l id, top parse files t vt (tagged_with "MList" l) -> visit iter r (Entry t id) <> Panic) /\
  (forall w x m key vt dx id, leads parse files w x m -> member x key vt (tagged_with "MilDef" [JArray dx]) -> visit iter r (Mil w key id) <> Panic) /\
  (forall w x m key vt dx vt' objs i, leads parse files w x m -> member x key vt (tagged_with "CilDef" [JArray dx]) ->
     member m key vt' (tagged_with "Cil" (map JMap objs)) -> (i < length objs)%nat -> visit iter r (Cil w key i) <> Panic).
Proof.
  intros addr iter parse files r It C E. facts It C E. split; [exact (entry_total iter parse files r Np T SF V D)|].
  split; [exact (mil_total iter It parse files r Np T SF V D)|exact (cil_total iter It parse files r Np T SF V D)].
Qed.
Print Assumptions C64_lists_total_partial.

(** Whatever happens to the parameters and mutable lists of the root, ways through tables and
    constant lists lead to the same items. *)
Theorem C64_constant : forall iter r r' w, ro_default r = ro_default r' -> constant w = true -> visit iter r w = visit iter r' w.
Proof. exact constant_visit. Qed.
Print Assumptions C64_constant.

(* ------------------------------------------------------------------ *)
(** * A source *)

Ltac number := match goal with |- exists n, 0 <= n < 2 ^ 64 /\ fdec F64 4619567317775286272 = _ => exists 7; split; [lia|vm_compute; reflexivity] end.
Ltac tidy_numbers :=
  match goal with
  | |- everywhere _ (JArray _) => apply everywhere_list; [tidy_one|repeat (apply Forall_cons; [tidy_numbers|]); apply Forall_nil]
  | |- everywhere _ (JMap _) => apply everywhere_obj; [tidy_one; try match goal with H : (_, JDouble _) = _ |- _ => injection H as <-; number end|repeat (apply Forall_cons; [cbn [snd]; tidy_numbers|]); apply Forall_nil]
  | |- everywhere _ _ => apply everywhere_leaf; [exact Logic.I|discriminate|discriminate]
  end.
Ltac unique_all :=
  match goal with
  | |- everywhere _ (JArray _) => apply everywhere_list; [unfold unique_node; distinct|repeat (apply Forall_cons; [unique_all|]); apply Forall_nil]
  | |- everywhere _ (JMap _) => apply everywhere_obj; [exact Logic.I|repeat (apply Forall_cons; [cbn [snd]; unique_all|]); apply Forall_nil]
  | |- everywhere _ _ => apply everywhere_leaf; [exact Logic.I|discriminate|discriminate]
  end.

(** a parameter; a list whose second item has the number 7 and a list of its own; a constant list with lists; a table that refers to another *)
Definition read_root : jval :=
  JMap [(txt "n?", JInt 5);
        (txt "list", tagged_with "MList" [
           JArray [JMap [(txt "x", JInt 1); (txt "Ref", JMap [(txt "t?", JNull)]);
                         (txt "l", tagged_with "MilDef" [JArray [JMap [(txt "y", JInt 0); (txt "Enum", JMap [(txt "t", JNull); (txt "u", JNull)])]]])]];
           JMap [(txt "x", JInt 3)];
           JMap [(txt "ID", JDouble 4619567317775286272); (txt "Ref", JMap [(txt "t", JString (txt "r"))]);
                 (txt "l", tagged_with "Mil" [JMap [(txt "y", JInt 4); (txt "Enum", JMap [(txt "u", JString (txt "b"))])]])]]);
        (txt "c", tagged_with "CList" [
           JArray [JMap [(txt "z", JInt 8); (txt "in", tagged_with "CilDef" [JArray [JMap [(txt "s", JString (txt "none"))]]])]];
           JMap [(txt "in", tagged_with "Cil" [JMap []; JMap [(txt "s", JString (txt "here"))]])]; JMap [(txt "z", JInt 9)]]);
        (txt "u", tagged_with "Table" [JArray [JMap [(txt "Ref", JMap [(txt "t", JString (txt "r"))])]]; JMap [(txt "ID", JString (txt "a"))]; JMap [(txt "ID", JString (txt "b"))]])].
Definition read_texts := texts [read_root; target_table].
Definition read_files : smap (list Z) := [(txt "src/root.json5", [0]); (txt "src/t.json5", [1])].

Lemma read_clean : clean_source read_texts read_files.
Proof.
  split; [distinct|]. split; [distinct|]. split.
  - intros p c v [I|[I|[]]] E; injection I as <- <-; injection E as <-; unfold tidy, read_root, target_table, tagged_with; tidy_numbers.
  - intros p c v [I|[I|[]]] E; injection I as <- <-; injection E as <-; unfold read_root, target_table, tagged_with; unique_all.
Qed.

(** by the enum of the item in the list of the item with the number 7, and the reference of its row *)
Definition long_way : way := Ref (Enum (Mil (Entry (txt "list") 7) (txt "l") 0) (txt "u")) (txt "t").

Definition read_doc : root_obj := Eval vm_compute in
  match load_root sample_addr backwards read_texts read_files true with Ok r => r | _ => RootObj [] [] [] [] end.
Lemma read_loaded : load_root sample_addr backwards read_texts read_files true = Ok read_doc.
Proof. vm_compute. reflexivity. Qed.

Example C64_case : load_root sample_addr backwards read_texts read_files true = Ok read_doc /\ clean_source read_texts read_files /\
  (exists x m, leads read_texts read_files long_way x m) /\
  read_at backwards read_doc long_way (txt "v") = Ok (Some (Val (CBool true))) /\
  read_at backwards read_doc (Entry (txt "list") 7) (txt "x") = Ok (Some (Val (CInt 1))) /\
  read_at backwards read_doc (Entry (txt "list") 0) (txt "x") = Ok (Some (Val (CInt 3))) /\
  visit backwards read_doc (Ref (Entry (txt "list") 0) (txt "t")) = Ok None /\
  read_at backwards read_doc (Cil (Elem (txt "c") 0) (txt "in") 0) (txt "s") = Ok (Some (Val (CString (txt "none")))) /\
  read_at backwards read_doc (Cil (Elem (txt "c") 0) (txt "in") 1) (txt "s") = Ok (Some (Val (CString (txt "here")))) /\
  get_root_param read_doc (txt "n") = Ok (Val (CInt 5)).
Proof.
  split; [exact read_loaded|]. split; [exact read_clean|]. split.
  - apply (C64_ways_partial sample_addr backwards read_texts read_files read_doc long_way backwards_iterates read_clean read_loaded). eexists. vm_compute. reflexivity.
  - split; [vm_compute; reflexivity|]. split; [vm_compute; reflexivity|]. split; [vm_compute; reflexivity|]. split; [vm_compute; reflexivity|]. split; [vm_compute; reflexivity|]. split; vm_compute; reflexivity.
Qed.

(* ------------------------------------------------------------------ *)
(** * Where it is not so *)

(** An item may have null for its enum; then [get_enum] panics. *)
Theorem C64_enum_refuted : exists parse files w x m rs vt, clean_source parse files /\ leads parse files w x m /\ word x SEnum (JMap rs) /\ member rs (txt "t") vt JNull /\
  forall addr, exists r s, load_root addr in_place parse files true = Ok r /\ visit in_place r w = Ok (Some s) /\ get_enum in_place r s = Panic.
Proof.
  set (def := [(txt "x", JInt 1); (txt "Enum", JMap [(txt "t?", JNull)])]).
  set (item := [(txt "x", JInt 2); (txt "Enum", JMap [(txt "t", JNull)])]).
  exists (texts [JMap [(txt "list", tagged_with "CList" [JArray [JMap def]; JMap item])]; target_table]), read_files, (Elem (txt "list") 0), def, item, [(txt "t?", JNull)], Nullable.
  split; [|split; [|split; [|split]]].
  - split; [distinct|]. split; [distinct|]. split.
    + intros p c v [I|[I|[]]] E; injection I as <- <-; injection E as <-; unfold tidy, target_table, tagged_with; tidy_all.
    + intros p c v [I|[I|[]]] E; injection I as <- <-; injection E as <-; unfold target_table, tagged_with; unique_all.
  - eapply (leads_elem _ _ _ _ Normal _ _ [item]); [left; do 3 eexists; split; [left; reflexivity|]; split; [reflexivity|]; split; [reflexivity|]; apply member_iff; eexists; split; [left; reflexivity|reflexivity]| |reflexivity].
    exists [[JMap def]], [JMap def]. split; [reflexivity|]. split; [left; reflexivity|right; reflexivity].
  - right. left. reflexivity.
  - apply member_iff. exists (txt "t?"). split; [left; reflexivity|vm_compute; reflexivity].
  - intros addr. eexists. eexists. split; [vm_compute; reflexivity|]. split; vm_compute; reflexivity.
Qed.
Print Assumptions C64_enum_refuted.

(** A member whose definition says null although its marks do not allow it: the functions panic. *)
Theorem C64_null_refuted : exists parse files, clean_source parse files /\ forall addr, exists r s, load_root addr in_place parse files true = Ok r /\
  visit in_place r (Elem (txt "list") 0) = Ok (Some s) /\ get_param s (txt "x") = Panic /\ get_root_param r (txt "a") = Panic.
Proof.
  exists (texts [JMap [(txt "a", JArray [JString (txt "Int"); JNull]); (txt "list", JArray [JString (txt "CList"); JArray [JMap [(txt "x", JArray [JString (txt "Int"); JNull])]]; JMap []])]]),
    [(txt "src/root.json5", [0])]. split.
  - split; [distinct|]. split; [distinct|]. split; intros p c v [I|[]] E; injection I as <- <-; injection E as <-; [unfold tidy; tidy_all|unique_all].
  - intros addr. eexists. eexists. split; [vm_compute; reflexivity|]. split; [vm_compute; reflexivity|]. split; vm_compute; reflexivity.
Qed.
Print Assumptions C64_null_refuted.

(** A definition that refers to a row that does not exist: the function for the reference panics. *)
Theorem C64_default_refuted : exists parse files, clean_source parse files /\ forall addr, exists r s, load_root addr in_place parse files true = Ok r /\
  visit in_place r (Elem (txt "list") 0) = Ok (Some s) /\ get_ref r s (txt "t") = Panic.
Proof.
  exists (texts [JMap [(txt "list", JArray [JString (txt "CList"); JArray [JMap [(txt "x", JInt 1); (txt "Ref", JMap [(txt "t", JString (txt "gone"))])]]; JMap [(txt "x", JInt 2)]])]; target_table]), read_files. split.
  - split; [distinct|]. split; [distinct|]. split; intros p c v [I|[I|[]]] E; injection I as <- <-; injection E as <-; [unfold tidy; tidy_all|unfold tidy, target_table, tagged_with; tidy_all|unique_all|unfold target_table, tagged_with; unique_all].
  - intros addr. eexists. eexists. split; [vm_compute; reflexivity|]. split; vm_compute; reflexivity.
Qed.
Print Assumptions C64_default_refuted.
