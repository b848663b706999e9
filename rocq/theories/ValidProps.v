(** C42: validated documents. *)
From Coq Require Import String.
From Verif Require Import Base DocModel ArchiveModel JsonModel JsonSpec JsonProofs JsonProps ValidModel ValidSpec ValidProofs LoadSpec LoadProofs.

(* ------------------------------------------------------------------ *)
(** * Examples *)

(** [t.json5]: a table with the rows [r] and [s]; [s] is old *)
Definition target_table : jval :=
  JArray [JString (txt "Table"); JArray [JString (txt "Default"); JMap [(txt "v", JBool true)]];
          JArray [JString (txt "Old"); JString (txt "s")];
          JMap [(txt "ID", JString (txt "r"))]; JMap [(txt "ID", JString (txt "s")); (txt "v", JBool false)]].

(** [list] has items with a number, a reference and a list of references *)
Definition referring (items : list jval) : jval :=
  JMap [(txt "list", JArray (JString (txt "MList") :: JArray [
          JMap [(txt "x", JInt 1); (txt "Ref", JMap [(txt "t?", JNull)]);
                (txt "l!", JArray [JString (txt "MilDef"); JArray [JMap [(txt "Ref", JMap [(txt "t", JString [])])]]])]] :: items))].

(** two items, the second with two references one level down *)
Definition good_root : jval := referring
  [JMap [(txt "x", JInt 3)];
   JMap [(txt "Ref", JMap [(txt "t", JString (txt "r"))]);
         (txt "l", JArray [JString (txt "Mil"); JMap [(txt "Ref", JMap [(txt "t", JString (txt "r"))])]; JMap [(txt "Ref", JMap [(txt "t", JString (txt "r"))])]])]].

Definition load_sample (iter : forall A, hmap A -> hmap A) (root : jval) : res root_obj :=
  load_root sample_addr iter (texts [root; target_table]) [(txt "src/root.json5", [0]); (txt "src/t.json5", [1])] true.

(* ------------------------------------------------------------------ *)
(** * C42 *)

(** Where ids differ validation does not panic and accepts exactly the valid documents. *)
Theorem C42_valid : forall root can_use_old, distinct_root root ->
  validate_root root can_use_old <> Panic /\ (validate_root root can_use_old = Ok tt <-> root_valid root can_use_old).
Proof. intros root can D. destruct (validate_root_iff root can D) as [A B]. auto. Qed.
Print Assumptions C42_valid.

(** The own references of all items at any depth name rows that are not old. *)
Theorem C42_references_partial : forall root c c' key id, distinct_root root -> validate_root root false = Ok tt ->
  root_item root c -> inside c c' -> In (key, Val id) (ci_refs c') ->
  exists n d rows old row, hget key (ro_default root) = Some (n, WTable d rows old) /\ hget id rows = Some row /\ ~ In id old.
Proof.
  intros root c c' key id D V R Is I. apply (validate_root_iff root false D) in V. destruct (root_item_valid root false c V R) as [d W].
  destruct (inside_valid root false c c' Is d W) as [d' W']. inversion W' as [d0 c0 [_ A] B E1 E2]; subst.
  destruct (A _ _ I) as (_ & (_ & n & d1 & rows & old & row & E & G & [U|U]) & _); [discriminate|]. exists n, d1, rows, old, row. auto.
Qed.
Print Assumptions C42_references_partial.

(** The own values and references of all items at any depth are declared, with the type and
    the possible absence of the declaration, and not old. *)
Theorem C42_types_partial : forall root c c', distinct_root root -> validate_root root false = Ok tt ->
  root_item root c -> inside c c' -> exists d : ldef def,
    (forall key q, In (key, VParam q) (ci_values c') -> ~ In key (ld_old d) /\
       exists id p vt, hget key (ld_members d) = Some (id, DParam p vt) /\ type_of q = type_of p /\ allows_param vt q) /\
    (forall key l, In (key, VCil l) (ci_values c') -> ~ In key (ld_old d) /\ exists id d', hget key (ld_members d) = Some (id, DCil d')) /\
    (forall key o, In (key, VMil o) (ci_values c') -> ~ In key (ld_old d) /\ exists id d' u, hget key (ld_members d) = Some (id, DMil d' u) /\ (o = None -> u = true)) /\
    (forall key q, In (key, q) (ci_refs c') -> ~ In key (ld_ref_old d) /\ exists id q0 vt, hget key (ld_refs d) = Some (id, (q0, vt)) /\ allows vt q).
Proof.
  intros root c c' D V R Is. apply (validate_root_iff root false D) in V. destruct (root_item_valid root false c V R) as [d0 W].
  destruct (inside_valid root false c c' Is d0 W) as [d' W']. inversion W' as [d c0 [_ A] B E1 E2]; subst. exists d.
  assert (U : forall old key, usable false old key -> ~ In key old) by (intros old key [H|H]; [discriminate|exact H]).
  split; [|split; [|split]].
  - intros key q I. destruct (B _ _ I) as (N & id & dv & G & H). split; [apply U, N|]. inversion H as [p vt q1 T L| | |]; subst. eauto 6.
  - intros key l I. destruct (B _ _ I) as (N & id & dv & G & H). split; [apply U, N|]. inversion H; subst. eauto.
  - intros key o I. destruct (B _ _ I) as (N & id & dv & G & H). split; [apply U, N|]. inversion H; subst; do 3 eexists; (split; [exact G|]); [discriminate|reflexivity].
  - intros key q I. destruct (A _ _ I) as (N & _ & H). split; [apply U, N|exact H].
Qed.
Print Assumptions C42_types_partial.

(** The references items get from their definition are not checked: an item refers to
    a row that does not exist. *)
Theorem C42_default_refuted : exists parse files, forall addr, exists root c n d n0 vt nt dt rows old,
  load_root addr in_place parse files true = Ok root /\
  hget (txt "list") (ro_default root) = Some (n, WCList (Def d) [c]) /\ hget (txt "t") (ci_refs c) = None /\
  hget (txt "t") (ld_refs d) = Some (n0, (Val (txt "gone"), vt)) /\
  hget (txt "t") (ro_default root) = Some (nt, WTable dt rows old) /\ hget (txt "gone") rows = None.
Proof.
  exists (texts [JMap [(txt "list", JArray [JString (txt "CList"); JArray [JMap [(txt "x", JInt 1); (txt "Ref", JMap [(txt "t", JString (txt "gone"))])]]; JMap [(txt "x", JInt 2)]])]; target_table]),
    [(txt "src/root.json5", [0]); (txt "src/t.json5", [1])].
  intros addr. do 10 eexists. split; [vm_compute; reflexivity|]. split; [reflexivity|]. split; [reflexivity|]. split; [reflexivity|]. split; reflexivity.
Qed.
Print Assumptions C42_default_refuted.

(** Neither are the values: a member that allows no null is null. *)
Theorem C42_null_refuted : exists parse files, forall addr, exists root n c d n1 n2,
  load_root addr in_place parse files true = Ok root /\
  hget (txt "a") (ro_default root) = Some (n2, WParam (PInt Null) Normal) /\
  hget (txt "list") (ro_default root) = Some (n, WCList (Def d) [c]) /\ hget (txt "x") (ci_values c) = None /\
  hget (txt "x") (ld_members d) = Some (n1, DParam (PInt Null) Normal).
Proof.
  exists (texts [JMap [(txt "a", JArray [JString (txt "Int"); JNull]); (txt "list", JArray [JString (txt "CList"); JArray [JMap [(txt "x", JArray [JString (txt "Int"); JNull])]]; JMap []])]]),
    [(txt "src/root.json5", [0])].
  intros addr. do 6 eexists. split; [vm_compute; reflexivity|]. split; [reflexivity|]. split; [reflexivity|]. split; reflexivity.
Qed.
Print Assumptions C42_null_refuted.

(** A list with one id twice is read; visiting it, as validation does, follows a link to an
    item that was dropped. *)
Theorem C42_ids_refuted : exists parse files, forall addr, 
  (exists root, load_root addr in_place parse files false = Ok root) /\
  load_root addr in_place parse files true = Panic.
Proof.
  exists (texts [referring [JMap [(txt "ID", JDouble (i64_to_f64 1))]; JMap [(txt "ID", JDouble (i64_to_f64 1))]; JMap [(txt "x", JInt 2)]]]), [(txt "src/root.json5", [0])].
  intros addr. split; [eexists|]; vm_compute; reflexivity.
Qed.
Print Assumptions C42_ids_refuted.

(** Source files that give different names to the members of the root and different ids
    to the items of every list are read without panic, and accepted exactly if the
    document is valid. *)
Theorem C42_loaded_partial : forall addr iter parse files, iterates iter ->
  NoDup (source_names parse files) -> all_files (everywhere unique_node) parse files ->
  load_root addr iter parse files true <> Panic /\
  forall r, load_root addr iter parse files true = Ok r <-> files_to_root addr iter parse files = Ok r /\ root_valid r false.
Proof.
  intros addr iter parse files It N U. unfold load_root. pose proof (loaded_distinct addr iter parse files) as D.
  destruct (C44_loaded_partial addr iter parse files It N) as [NP _].
  destruct (files_to_root addr iter parse files) as [r| |]; cbn [bind].
  - destruct (validate_root_iff r false (D r It U eq_refl)) as [V2 V1]. split.
    + destruct (validate_root r false); cbn; congruence.
    + intros r'. split.
      * destruct (validate_root r false) as [[]| |]; cbn; try discriminate. intros E; injection E as <-. split; [reflexivity|apply V2; reflexivity].
      * intros [E V]. injection E as <-. apply V2 in V. rewrite V. reflexivity.
  - split; [discriminate|]. intros r. split; [discriminate|intros [E _]; discriminate].
  - contradiction.
Qed.
Print Assumptions C42_loaded_partial.

Ltac nodes := match goal with
  | |- everywhere _ _ => constructor; [|intros ? ? E H; try discriminate E; injection E as <-; cbn in H; nodes|intros ? ? ? E H; try discriminate E; injection E as <-; cbn in H; nodes]
  | H : _ \/ _ |- _ => destruct H; nodes
  | H : False |- _ => destruct H
  | H : (_, _) = (_, _) |- _ => injection H as <- <-; nodes
  | H : _ = ?x |- _ => is_var x; subst x; nodes
  | _ => idtac
  end.

Lemma good_unique : all_files (everywhere unique_node) (texts [good_root; target_table]) [(txt "src/root.json5", [0]); (txt "src/t.json5", [1])].
Proof.
  intros path content v [E|[E|[]]]; injection E as <- <-; cbn; intros E; injection E as <-; nodes; vm_compute; exact I || (repeat constructor; cbn; intuition discriminate).
Qed.

Example C42_case : exists r n d u c1 c2 c3 c4 next next',
  load_sample backwards good_root = Ok r /\ hget (txt "list") (ro_default r) = Some (n, WMList d u) /\
  hget (txt "list") (ro_sabun r) = Some (RMut (Some ([(0, c1); (1, c2)], next))) /\
  ci_values c2 = [(txt "l", VMil (Some ([(0, c3); (1, c4)], next')))] /\
  In (txt "t", Val (txt "r")) (ci_refs c4) /\ root_item r c2 /\ inside c2 c4 /\ distinct_root r /\ validate_root r false = Ok tt /\
  (* a reference to an old row, a reference to no row, none where one is needed, a value of another type *)
  load_sample backwards (referring [JMap [(txt "Ref", JMap [(txt "t", JString (txt "s"))])]]) = Err /\
  load_sample backwards (referring [JMap [(txt "Ref", JMap [(txt "t", JString (txt "q"))])]]) = Err /\
  load_sample backwards (referring [JMap [(txt "l", JArray [JString (txt "Mil"); JMap []])]]) = Err /\
  load_sample backwards (referring [JMap [(txt "x", JBool true)]]) = Err.
Proof.
  do 10 eexists. split; [vm_compute; reflexivity|]. split; [reflexivity|]. split; [reflexivity|]. split; [reflexivity|]. split; [left; reflexivity|].
  split; [|split; [|split; [|split; [vm_compute; reflexivity|repeat (split; [vm_compute; reflexivity|])]]]].
  - exists (txt "list"). do 2 eexists. split; [left; reflexivity|]. cbn beta iota. do 3 eexists. split; [reflexivity|right; left; reflexivity].
  - eapply inside_mut; [left; reflexivity|right; left; reflexivity|apply inside_self].
  - apply (loaded_distinct sample_addr backwards (texts [good_root; target_table]) [(txt "src/root.json5", [0]); (txt "src/t.json5", [1])] _ backwards_iterates good_unique).
    vm_compute; reflexivity.
  - vm_compute; reflexivity.
Qed.

Example C42_loaded_case : exists r,
  NoDup (source_names (texts [good_root; target_table]) [(txt "src/root.json5", [0]); (txt "src/t.json5", [1])]) /\
  all_files (everywhere unique_node) (texts [good_root; target_table]) [(txt "src/root.json5", [0]); (txt "src/t.json5", [1])] /\
  load_sample backwards good_root = Ok r /\
  (* explicit ids and a list one level down *)
  everywhere unique_node (referring [JMap [(txt "ID", JDouble 4617315517961601024)]; JMap [(txt "l", JArray [JString (txt "Mil"); JMap []; JMap []])]]) /\
  (* the second has the id 1 by position *)
  ~ everywhere unique_node (referring [JMap [(txt "ID", JDouble 4607182418800017408)]; JMap []]).
Proof.
  eexists. split; [|split; [|split; [vm_compute; reflexivity|split]]].
  - repeat constructor; cbn; intuition discriminate.
  - exact good_unique.
  - nodes; vm_compute; exact I || (repeat constructor; cbn; intuition discriminate).
  - intros H. inversion H as [v A B C]; subst. specialize (C _ _ _ eq_refl (or_introl eq_refl)). inversion C as [v A' B' C']; subst.
    vm_compute in A'. inversion A' as [|x l N1 N2]; subst. apply N1. left; reflexivity.
Qed.
