(** Property C43: moving documents to a new version of their source. *)
From Coq Require Import String.
From Verif Require Import Base DocModel JsonModel JsonSpec JsonProps ValidModel ValidSpec ValidProofs ValidProps LoadSpec LoadProofs AdjustModel AdjustSpec AdjustProofs.

(* ------------------------------------------------------------------ *)
(** * Examples *)

(** a root with the members [members] and a table [t] *)
Definition source (members : list (name * jval)) : res root_obj := load_sample in_place (JMap members).
Definition mlist_of (def : list (name * jval)) (items : list jval) : jval := JArray (JString (txt "MList") :: JArray [JMap def] :: items).

(** the document after setting a member of the root *)
Definition with_value (r : root_obj) (key : name) (s : rootsab mutlist) : root_obj :=
  RootObj (ro_default r) (hset key s (ro_sabun r)) (ro_old r) (ro_meta r).
Definition list_of (r : root_obj) (key : name) : list (Z * citem) :=
  match hget key (ro_sabun r) with Some (RMut (Some l)) => fst l | _ => [] end.

(** the two versions of the manual (version_awareness.md) *)
Definition old_source := source [(txt "mlist", mlist_of [(txt "bar", JInt 0); (txt "baz", JInt 1)]
  [JMap [(txt "bar", JInt 1); (txt "baz", JInt 2)]; JMap [(txt "baz", JInt 3)]; JMap [(txt "bar", JInt 3)]])].
Definition new_source := source [(txt "mlist", mlist_of [(txt "baz", JInt 100); (txt "qux", JInt (-1))]
  [JMap [(txt "baz", JInt 1001); (txt "qux", JInt 2)]; JMap [(txt "baz", JInt 1002); (txt "qux", JInt 3)]])].

(* ------------------------------------------------------------------ *)
(** * C43 *)

(** Every member of the new root has the value [carried_root] says; lists keep their ids
    and their order.  Full statement: for all items.  What holds: for items whose inner
    lists are empty. *)
Theorem C43_members_partial : forall iter new old validation r, iterates iter -> different_names new ->
  adjust_versions iter new old validation = Ok r ->
  ro_default r = ro_default new /\ ro_old r = ro_old new /\ ro_meta r = ro_meta new /\
  forall key, match hget key (ro_default new) with
              | Some (_, v) => carried_root flat v (hget key (ro_sabun new)) (is_some (hget key (ro_default old))) (hget key (ro_sabun old)) (hget key (ro_sabun r))
              | None => hget key (ro_sabun r) = hget key (ro_sabun new)
              end.
Proof.
  intros iter new old v r It D H. destruct (adjust_root iter It _ _ _ _ D H) as (A & B & C & O & _). split; [exact A|]. split; [exact B|]. split; [exact C|].
  intros key. destruct (hget key (ro_default new)) as [[id w]|] eqn:G; [|apply O, G]. apply (root_carried iter It _ _ _ _ D H key id w). apply DiffProofs.hget_in, G.
Qed.
Print Assumptions C43_members_partial.

(** Moving itself does not fail, and validation afterwards reports exactly the documents
    that do not fit the new definitions. *)
Theorem C43_reported : forall iter new old, iterates iter -> different_names new -> root_valid new false -> distinct_root new -> changeable_lists (ro_sabun old) ->
  exists r, adjust_versions iter new old false = Ok r /\
    (root_valid r true -> adjust_versions iter new old true = Ok r) /\ (~ root_valid r true -> adjust_versions iter new old true = Err).
Proof.
  intros iter new old It D V Dn C. destruct (adjust_exists iter It new old false V D C) as [r H]. exists r. split; [exact H|].
  destruct (adjust_validated iter It new old r D Dn C H) as [A B]. split; [apply A|exact B].
Qed.
Print Assumptions C43_reported.

Theorem C43_conforms : forall iter new old r, iterates iter -> different_names new -> distinct_root new -> changeable_lists (ro_sabun old) ->
  adjust_versions iter new old true = Ok r -> root_valid r true.
Proof.
  intros iter new old r It D Dn C H. destruct (adjust_root iter It _ _ _ _ D H) as (_ & _ & _ & _ & _ & V).
  apply (validate_root_iff r true (adjusted_distinct iter It _ _ _ _ D Dn C H)), V, eq_refl.
Qed.
Print Assumptions C43_conforms.

(** When the definitions stay the same everything is kept.  Full statement: always.  What
    holds: without items in inner lists and without members of lists that can be undefined. *)
Theorem C43_same_partial : forall iter new old, iterates iter -> different_names new ->
  ro_default old = ro_default new -> root_valid new false -> root_valid old true -> distinct_root new -> changeable_lists (ro_sabun old) ->
  (forall key id d u, In (key, (id, WMList d u)) (ro_default new) -> no_undefined (undef d)) ->
  (forall key l next id c, hget key (ro_sabun old) = Some (RMut (Some (l, next))) -> In (id, c) l -> plain_item c) ->
  exists r, adjust_versions iter new old true = Ok r /\ ro_default r = ro_default new /\
    forall key id w s, In (key, (id, w)) (ro_default new) -> hget key (ro_sabun old) = Some s ->
      match w with
      | WParam _ _ => hget key (ro_sabun r) = Some s
      | WMList _ _ => s = RMut None /\ hget key (ro_sabun r) = Some s \/
          exists l l', s = RMut (Some l) /\ hget key (ro_sabun r) = Some (RMut (Some l')) /\ same_list l l'
      | _ => True
      end.
Proof. intros iter new old It. exact (adjust_same iter It new old). Qed.
Print Assumptions C43_same_partial.

Lemma params_changeable c : forallb (fun e => match snd e with VParam _ => true | _ => false end) (ci_values c) = true -> changeable c.
Proof.
  intros H. assert (G : forall key v, In (key, v) (ci_values c) -> exists p, v = VParam p).
  { intros key v I. rewrite forallb_forall in H. specialize (H _ I). cbn in H. destruct v; try discriminate. eauto. }
  split.
  - constructor; intros; match goal with I : In (_, ?v) (ci_values c) |- _ => destruct (G _ _ I) as [p E]; discriminate E end.
  - intros c' key l Is I. destruct Is as [c|c k l1 c1 c' I1 _ _|c k l1 n i c1 c' I1 _ _]; match goal with I : In (_, ?v) (ci_values c) |- _ => destruct (G _ _ I) as [p E]; discriminate E end.
Qed.

Definition files2 : list (name * list Z) := [(txt "src/root.json5", [0]); (txt "src/t.json5", [1])].
Lemma source_valid members r : all_files (everywhere unique_node) (texts [JMap members; target_table]) files2 ->
  source members = Ok r -> distinct_root r /\ root_valid r false.
Proof.
  intros U E. unfold source, load_sample, load_root in E. apply bind_ok in E as (r0 & E1 & E). apply bind_ok in E as ([] & E2 & E). apply Ok_inj in E. subst r0.
  pose proof (loaded_distinct sample_addr in_place _ _ r in_place_iterates U E1) as D. split; [exact D|]. apply (validate_root_iff r false D), E2.
Qed.

Ltac unique_files := intros path content v [E|[E|[]]]; injection E as <- <-; cbn; intros E; injection E as <-; nodes; vm_compute; exact I || (repeat constructor; cbn; intuition discriminate).

Lemma new_valid r : new_source = Ok r -> distinct_root r /\ root_valid r false.
Proof. apply source_valid. unique_files. Qed.

Example C43_case : exists new old r, new_source = Ok new /\ old_source = Ok old /\ adjust_versions backwards new old true = Ok r /\
  different_names new /\ root_valid new false /\ distinct_root new /\ changeable_lists (ro_sabun old) /\
  map (fun e => (fst e, hget (txt "bar") (ci_values (snd e)), hget (txt "baz") (ci_values (snd e)), hget (txt "qux") (ci_values (snd e)))) (list_of r (txt "mlist")) =
    [(0, None, Some (VParam (PInt (Val 2))), None); (1, None, Some (VParam (PInt (Val 3))), None); (2, None, None, None)].
Proof.
  destruct new_source as [new| |] eqn:En; [|vm_compute in En; discriminate En|vm_compute in En; discriminate En]. exists new.
  assert (distinct_root new /\ root_valid new false) as [Dn Vn] by (apply new_valid, En).
  vm_compute in En. apply Ok_inj in En. subst new. do 2 eexists.
  split; [vm_compute; reflexivity|]. split; [vm_compute; reflexivity|]. split; [vm_compute; reflexivity|]. split.
  { split; [repeat constructor; cbn; intuition discriminate|]. intros key id d u [E|[E|[]]]; injection E as <- <- <- <- || discriminate E. split; repeat constructor; cbn; intuition discriminate. }
  split; [exact Vn|]. split; [exact Dn|]. split; [|vm_compute; reflexivity].
  intros key l next E. apply DiffProofs.hget_in in E. destruct E as [E|[]]. injection E as <- <- <-. split; [repeat constructor; cbn; intuition lia|].
  intros id c [E|[E|[E|[]]]]; injection E as <- <-; apply params_changeable; reflexivity.
Qed.

(** the old version of the manual, with a value set *)
Lemma old_valid r : old_source = Ok r -> distinct_root r /\ root_valid r false.
Proof. apply source_valid. unique_files. Qed.

Example C43_same_case : exists old r, old_source = Ok old /\ adjust_versions backwards old old true = Ok r /\
  different_names old /\ root_valid old false /\ root_valid old true /\ distinct_root old /\ changeable_lists (ro_sabun old) /\
  (forall key id d u, In (key, (id, WMList d u)) (ro_default old) -> no_undefined (undef d)) /\
  (forall key l next id c, hget key (ro_sabun old) = Some (RMut (Some (l, next))) -> In (id, c) l -> plain_item c) /\
  length (list_of r (txt "mlist")) = 3%nat.
Proof.
  destruct old_source as [old| |] eqn:En; [|vm_compute in En; discriminate En|vm_compute in En; discriminate En]. exists old.
  assert (distinct_root old /\ root_valid old false) as [Dn Vn] by (apply old_valid, En).
  assert (root_valid old true) as Vt. { apply (validate_root_iff old true Dn). vm_compute in En. apply Ok_inj in En. subst old. vm_compute. reflexivity. }
  vm_compute in En. apply Ok_inj in En. subst old. eexists.
  split; [vm_compute; reflexivity|]. split; [vm_compute; reflexivity|]. split.
  { split; [repeat constructor; cbn; intuition discriminate|]. intros key id d u [E|[E|[]]]; injection E as <- <- <- <- || discriminate E. split; repeat constructor; cbn; intuition discriminate. }
  split; [exact Vn|]. split; [exact Vt|]. split; [exact Dn|]. split; [|split; [|split; [|vm_compute; reflexivity]]].
  - intros key l next E. apply DiffProofs.hget_in in E. destruct E as [E|[]]. injection E as <- <- <-. split; [repeat constructor; cbn; intuition lia|].
    intros id c [E|[E|[E|[]]]]; injection E as <- <-; apply params_changeable; reflexivity.
  - intros key id d u [E|[E|[]]]; injection E as <- <- <- <- || discriminate E. cbn [undef]. split; [|split].
    + intros key id p vt [E|[E|[]]]; injection E as <- <- <- <-; intros [A|A]; discriminate A.
    + intros key id d' u [E|[E|[]]]; discriminate E.
    + intros key id q vt [].
  - intros key l next id c E I. apply DiffProofs.hget_in in E. destruct E as [E|[]]. injection E as <- <- <-.
    destruct I as [E|[E|[E|[]]]]; injection E as <- <-; (split; [|split; repeat constructor; cbn; intuition discriminate]); intros key l n E; apply DiffProofs.hget_in in E; cbn [In ci_values] in E; intuition discriminate.
Qed.

(** ** What does not hold *)

(** Definitions and document are the same before and after, only the number in an inner
    list is lost. *)
Theorem C43_inner_lost_refuted : exists r0 r c c' l l' next,
  source [(txt "list", mlist_of [(txt "l", JArray [JString (txt "MilDef"); JArray [JMap [(txt "y", JInt 1)]]])]
    [JMap [(txt "l", JArray [JString (txt "Mil"); JMap [(txt "y", JInt 5)]])]])] = Ok r0 /\
  adjust_versions in_place r0 r0 true = Ok r /\
  list_of r0 (txt "list") = [(0, c)] /\ hget (txt "l") (ci_values c) = Some (VMil (Some (l, next))) /\ map (fun e => hget (txt "y") (ci_values (snd e))) l = [Some (VParam (PInt (Val 5)))] /\
  list_of r (txt "list") = [(0, c')] /\ hget (txt "l") (ci_values c') = Some (VMil (Some (l', next))) /\ map (fun e => hget (txt "y") (ci_values (snd e))) l' = [None].
Proof.
  do 7 eexists. split; [vm_compute; reflexivity|]. split; [vm_compute; reflexivity|]. split; [reflexivity|]. split; [reflexivity|]. split; [reflexivity|]. split; [reflexivity|]. split; reflexivity.
Qed.
Print Assumptions C43_inner_lost_refuted.

(** A valid document with an inner list that can be undefined cannot be moved at all, even
    to the same definitions. *)
Theorem C43_inner_fails_refuted : exists r, load_sample in_place good_root = Ok r /\ adjust_versions in_place r r true = Err.
Proof. eexists. split; vm_compute; reflexivity. Qed.
Print Assumptions C43_inner_fails_refuted.

(** A member of a list that exists before and after with the same default becomes undefined. *)
Theorem C43_undefined_refuted : exists r0 r c c',
  source [(txt "list", mlist_of [(txt "x!", JInt 1)] [JMap []])] = Ok r0 /\ adjust_versions in_place r0 r0 true = Ok r /\
  list_of r0 (txt "list") = [(0, c)] /\ hget (txt "x") (ci_values c) = None /\
  list_of r (txt "list") = [(0, c')] /\ hget (txt "x") (ci_values c') = Some (VParam (PInt Undefined)).
Proof. do 4 eexists. split; [vm_compute; reflexivity|]. split; [vm_compute; reflexivity|]. split; [reflexivity|]. split; [reflexivity|]. split; reflexivity. Qed.
Print Assumptions C43_undefined_refuted.

(** A null of the root is kept where the new version allows none, and validation accepts it. *)
Theorem C43_null_refuted : exists new old r id,
  source [(txt "a", JInt 5)] = Ok new /\ source [(txt "a?", JInt 5)] = Ok old /\
  adjust_versions in_place new (with_value old (txt "a") (RParam (PInt Null))) true = Ok r /\
  hget (txt "a") (ro_default r) = Some (id, WParam (PInt (Val 5)) Normal) /\ hget (txt "a") (ro_sabun r) = Some (RParam (PInt Null)).
Proof. do 4 eexists. split; [vm_compute; reflexivity|]. split; [vm_compute; reflexivity|]. split; [vm_compute; reflexivity|]. split; reflexivity. Qed.
Print Assumptions C43_null_refuted.

(** The next id of a list without items is lost, so that the ids of removed items come again. *)
Theorem C43_next_refuted : exists old r,
  source [(txt "list", mlist_of [(txt "x", JInt 1)] [])] = Ok old /\
  adjust_versions in_place old (with_value old (txt "list") (RMut (Some ([], 7)))) true = Ok r /\
  hget (txt "list") (ro_sabun r) = Some (RMut (Some ([], 0))).
Proof. do 2 eexists. split; [vm_compute; reflexivity|]. split; [vm_compute; reflexivity|]. reflexivity. Qed.
Print Assumptions C43_next_refuted.

(** Adding a variant that can be undefined to an enum makes all documents with an item of
    it unreadable. *)
Theorem C43_enum_refuted : exists new old,
  source [(txt "list", mlist_of [(txt "Enum", JMap [(txt "t", JNull); (txt "u!", JNull)])] [])] = Ok new /\
  source [(txt "list", mlist_of [(txt "Enum", JMap [(txt "t", JNull)])] [JMap [(txt "Enum", JMap [(txt "t", JString (txt "r"))])]])] = Ok old /\
  adjust_versions in_place new old true = Err.
Proof. do 2 eexists. split; [vm_compute; reflexivity|]. split; vm_compute; reflexivity. Qed.
Print Assumptions C43_enum_refuted.

(** A value whose member has become a list is dropped without a report. *)
Theorem C43_kind_refuted : exists new old r,
  source [(txt "a", mlist_of [(txt "x", JInt 1)] [])] = Ok new /\ source [(txt "a", JInt 5)] = Ok old /\
  adjust_versions in_place new (with_value old (txt "a") (RParam (PInt (Val 7)))) true = Ok r /\
  hget (txt "a") (ro_sabun r) = hget (txt "a") (ro_sabun new).
Proof. do 3 eexists. split; [vm_compute; reflexivity|]. split; [vm_compute; reflexivity|]. split; [vm_compute; reflexivity|]. reflexivity. Qed.
Print Assumptions C43_kind_refuted.
