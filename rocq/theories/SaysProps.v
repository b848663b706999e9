(** C61: what is loaded is what the source says. *)
From Coq Require Import String.
From Coq Require Import Sorting.Permutation.
From Verif Require Import Base FloatModel FloatProofs StringCompactionModel DocModel DiffSpec DiffProofs ArchiveModel JsonModel JsonSpec JsonNameProofs JsonProofs JsonProps
  LoadSpec LoadProofs SaysSpec SaysProofs SaysProofs2 SaysProofs3 SaysProofs4 SameSpec SaysProofs5.

(* ------------------------------------------------------------------ *)
(** * What is loaded *)

(** If the files of a tidy source are loaded, then what is loaded is what they say: the members of the
    root are those written in the root file and the other files, each with the value,
    definition and items written for it. *)
Theorem C61_loaded_partial : forall addr iter parse files r, iterates iter ->
  NoDup (map fst files) -> NoDup (source_names parse files) -> all_files tidy parse files ->
  files_to_root addr iter parse files = Ok r -> says_files parse files r.
Proof. intros addr iter parse files r It Np Ns T E. exact (files_say addr iter It parse files r Np Ns T E). Qed.
Print Assumptions C61_loaded_partial.

(** Every tidy source that says something is loaded. *)
Theorem C61_accepted_partial : forall addr iter parse files, iterates iter ->
  NoDup (map fst files) -> NoDup (source_names parse files) -> all_files tidy parse files ->
  (exists r, says_files parse files r) -> exists r, files_to_root addr iter parse files = Ok r.
Proof. intros addr iter parse files It Np Ns T [r S]. exact (files_load addr iter It parse files r Np Ns T S). Qed.
Print Assumptions C61_accepted_partial.

(** The same for the value of one file. *)
Theorem C61_value_partial : forall addr iter v vt, iterates iter -> tidy v ->
  (forall r, json_item_str_to_rust addr iter v vt = Ok r -> says vt v r) /\
  ((exists r, says vt v r) -> exists r, json_item_str_to_rust addr iter v vt = Ok r).
Proof.
  intros addr iter v vt It T. split; [intros r E; exact (item_str_says addr iter It v vt r T E)|intros M; exact (item_str_ok addr iter It v vt T M)].
Qed.
Print Assumptions C61_value_partial.

(** A tidy source says only one thing. *)
Theorem C61_one_meaning_partial : forall parse files r r', NoDup (map fst files) -> all_files tidy parse files ->
  says_files parse files r -> says_files parse files r' -> same_root r r'.
Proof. exact says_files_fun. Qed.
Print Assumptions C61_one_meaning_partial.

(** So neither the order in which hash maps are iterated nor the placement in memory changes what is loaded, or whether it is loaded. *)
Theorem C61_order_partial : forall addr addr' iter iter' parse files r, iterates iter -> iterates iter' ->
  NoDup (map fst files) -> NoDup (source_names parse files) -> all_files tidy parse files ->
  files_to_root addr iter parse files = Ok r -> exists r', files_to_root addr' iter' parse files = Ok r' /\ same_root r r'.
Proof.
  intros addr addr' iter iter' parse files r It It' Np Ns T E. pose proof (C61_loaded_partial addr iter parse files r It Np Ns T E) as S.
  destruct (C61_accepted_partial addr' iter' parse files It' Np Ns T (ex_intro _ r S)) as (r' & E'). exists r'. split; [exact E'|].
  eapply C61_one_meaning_partial; [exact Np|exact T|exact S|exact (C61_loaded_partial addr' iter' parse files r' It' Np Ns T E')].
Qed.
Print Assumptions C61_order_partial.

(* ------------------------------------------------------------------ *)
(** * A source *)

Lemma everywhere_leaf (P : jval -> Prop) v : P v -> (forall l, v <> JArray l) -> (forall m, v <> JMap m) -> everywhere P v.
Proof. intros H A M. constructor; [exact H|intros l x E; exfalso; eapply A, E|intros m k x E; exfalso; eapply M, E]. Qed.
Lemma everywhere_list (P : jval -> Prop) l : P (JArray l) -> Forall (everywhere P) l -> everywhere P (JArray l).
Proof. intros H F. constructor; [exact H| |discriminate]. intros l' x E I. injection E as <-. rewrite Forall_forall in F. auto. Qed.
Lemma everywhere_obj (P : jval -> Prop) m : P (JMap m) -> Forall (fun e => everywhere P (snd e)) m -> everywhere P (JMap m).
Proof. intros H F. constructor; [exact H|discriminate|]. intros m' k x E I. injection E as <-. rewrite Forall_forall in F. apply (F (k, x) I). Qed.

Ltac distinct := repeat (constructor; [vm_compute; intuition discriminate|]); constructor.
Ltac absent := let v := fresh "v" in let H := fresh "H" in intros v H; vm_compute in H; intuition discriminate.
Ltac tidy_one :=
  match goal with
  | |- tidy_node (JMap _) =>
      split; [distinct|]; split; [distinct|]; split; [first [left; absent|right; absent]|]; split;
      [let r := fresh "r" in let H := fresh "H" in intros r H; vm_compute in H; repeat (destruct H as [H|H]); try discriminate H; try (exfalso; exact H);
         injection H as <-; split; absent
      |let b := fresh "b" in let H := fresh "H" in intros b H; vm_compute in H; repeat (destruct H as [H|H]); try discriminate H; try (exfalso; exact H)]
  | |- tidy_node (JArray _) =>
      split; [distinct|]; split; [let n := fresh "n" in let H := fresh "H" in intros n H; vm_compute in H; try discriminate H|
                                  let r := fresh "r" in let H := fresh "H" in intros r H; vm_compute in H; try discriminate H]
  | |- tidy_node _ => exact Logic.I
  end.
Ltac tidy_all :=
  match goal with
  | |- everywhere _ (JArray _) => apply everywhere_list; [try tidy_one|repeat (apply Forall_cons; [tidy_all|]); apply Forall_nil]
  | |- everywhere _ (JMap _) => apply everywhere_obj; [try tidy_one|repeat (apply Forall_cons; [cbn [snd]; tidy_all|]); apply Forall_nil]
  | |- everywhere _ _ => apply everywhere_leaf; [exact Logic.I|discriminate|discriminate]
  end.

Example C61_case : exists r,
  NoDup (map fst sample_files) /\ NoDup (source_names sample_texts sample_files) /\ all_files tidy sample_texts sample_files /\
  files_to_root sample_addr backwards sample_texts sample_files = Ok r /\ says_files sample_texts sample_files r.
Proof.
  assert (A : NoDup (map fst sample_files)) by distinct.
  assert (B : NoDup (source_names sample_texts sample_files)) by distinct.
  assert (C : all_files tidy sample_texts sample_files).
  { intros p c v [I|[I|[I|[]]]] E; injection I as <- <-; injection E as <-; unfold tidy, sample_root, sample_member_def, sample_table; tidy_all. }
  eexists. split; [exact A|]. split; [exact B|]. split; [exact C|]. split; [vm_compute; reflexivity|].
  eapply (C61_loaded_partial sample_addr backwards); [exact backwards_iterates|exact A|exact B|exact C|vm_compute; reflexivity].
Qed.

(* ------------------------------------------------------------------ *)
(** * Where it is not so *)

(** Of two rows with the same id only the last is kept; the source is not refused. *)
Definition two_rows : jval :=
  tagged_with "Table" [JArray [JMap [(txt "v", JBool true)]];
    JMap [(txt "ID", JString (txt "row")); (txt "v", JBool false)]; JMap [(txt "ID", JString (txt "row")); (txt "v", JBool true)]].
Theorem C61_rows_refuted : exists addr iter d c, iterates iter /\
  json_item_str_to_rust addr iter two_rows Normal = Ok (VaTable d [(txt "row", c)] []) /\
  hget (txt "v") (ci_values c) = Some (VParam (PBool (Val true))) /\
  ~ says Normal two_rows (VaTable d [(txt "row", c)] []).
Proof.
  exists sample_addr, in_place. do 2 eexists. split; [exact in_place_iterates|]. split; [vm_compute; reflexivity|]. split; [reflexivity|].
  intros S. inversion S as [|attrs x old d' ns objs rows P D O F E0 E| | | | | | |]; subst; clear S.
  assert (L : length objs = 1%nat) by (rewrite (forall2_length _ _ _ F); reflexivity). destruct objs as [|o [|]]; try discriminate L.
  destruct attrs as [|a1 [|a2 [|a3 attrs]]]; try discriminate E.
  - cbn in E. injection E as -> -> _. inversion O as [l ns' W|]; subst; clear O.
    + assert (I : In (JMap [(txt "ID", JString (txt "row")); (txt "v", JBool false)]) [JArray x; tagged_with "Old" l]) by (eapply Permutation_in; [exact P|right; left; reflexivity]).
      destruct I as [I|[I|[]]]; discriminate I.
    + apply Permutation_length in P. discriminate P.
  - cbn in E. injection E as _ _ _ E. destruct attrs; discriminate E.
Qed.
Print Assumptions C61_rows_refuted.

(** A negative number after [ID] is read as 0. *)
Definition negative_id : jval :=
  tagged_with "MList" [JArray [JMap [(txt "v", JBool true)]]; JMap [(txt "ID", JDouble 13830554455654793216)]].
Theorem C61_number_refuted : exists addr iter d c, iterates iter /\
  fdec F64 13830554455654793216 = FNum true (2 ^ unit_exp) /\
  json_item_str_to_rust addr iter negative_id Normal = Ok (VaMList d false (Some ([(0, c)], 1))) /\
  ~ says Normal negative_id (VaMList d false (Some ([(0, c)], 1))).
Proof.
  exists sample_addr, in_place. do 2 eexists. split; [exact in_place_iterates|]. split; [vm_compute; reflexivity|]. split; [vm_compute; reflexivity|].
  intros S. inversion S as [| | |vt u attrs x next d' n objs items U P D N F E0 E| | | | |]; subst; clear S.
  inversion F as [|i m objs' id c' items' Hi Hm F']; subst. inversion F'; subst. destruct attrs as [|a1 [|a2 attrs]]; try discriminate E.
  - cbn in E. injection E as _ ->.
    assert (W : word [(txt "ID", JDouble 13830554455654793216)] SID (JDouble 13830554455654793216)) by (left; reflexivity).
    destruct Hi as [[Hi _]|[[Hi _] _]]; destruct (Hi _ W) as (i & Ei & Wi); [|discriminate Ei]. inversion Wi as [|b n' Hb]; subst. vm_compute in Hb. discriminate Hb.
  - cbn in E. injection E as _ _ E. destruct attrs; discriminate E.
Qed.
Print Assumptions C61_number_refuted.

(** A negative number after [NextID] is read as a huge one. *)
Definition negative_next : jval := tagged_with "MList" [JArray [JMap [(txt "v", JBool true)]]; tagged_with "NextID" [JInt (-1)]].
Theorem C61_next_refuted : exists addr iter d, iterates iter /\
  json_item_str_to_rust addr iter negative_next Normal = Ok (VaMList d false (Some ([], 2 ^ 64 - 1))) /\
  ~ says Normal negative_next (VaMList d false (Some ([], 2 ^ 64 - 1))).
Proof.
  exists sample_addr, in_place. eexists. split; [exact in_place_iterates|]. split; [vm_compute; reflexivity|].
  intros S. inversion S as [| | |vt u attrs x next d' n objs items U P D N F E0 E| | | | |]; subst; clear S.
  inversion F; subst. cbn [map] in E. rewrite app_nil_r in E. subst attrs. inversion N as [n' Hn|]; subst.
  apply (Permutation_in (tagged_with "NextID" [JInt (-1)])) in P; [|right; left; reflexivity]. destruct P as [P|[P|[]]]; [|discriminate P].
  injection P as ->. inversion D.
Qed.
Print Assumptions C61_next_refuted.

(** Whatever follows [__InnerMutUndefined] is ignored. *)
Theorem C61_undefined_refuted : exists addr iter v, iterates iter /\
  json_item_str_to_rust addr iter v Normal = Ok (VaMil None) /\ ~ says Normal v (VaMil None).
Proof.
  exists sample_addr, in_place, (tagged_with "__InnerMutUndefined" [JInt 5; JNull]). split; [exact in_place_iterates|]. split; [vm_compute; reflexivity|].
  intros S. inversion S.
Qed.
Print Assumptions C61_undefined_refuted.

(** Of the members "v" and "v?" of a definition inside a list only the last is kept. *)
Definition two_marks : jval := tagged_with "CilDef" [JArray [JMap [(txt "v", JInt 1); (txt "v?", JInt 2)]]].
Theorem C61_marks_refuted : exists addr iter d i, iterates iter /\
  json_item_str_to_rust addr iter two_marks Normal = Ok (VaCilDef d) /\
  ld_members (undef d) = [(txt "v", (i, DParam (PInt (Val 2)) Nullable))] /\
  ~ says Normal two_marks (VaCilDef d).
Proof.
  exists sample_addr, in_place. do 2 eexists. split; [exact in_place_iterates|]. split; [vm_compute; reflexivity|]. split; [reflexivity|].
  intros S. inversion S as [| | | | | | |x d' D E0 E|]; subst; clear S. inversion D as [|m d' H]; subst; clear D. inversion H as [m d' K Ni O R M M2 E1 E2]; subst; clear H. cbn [ld_members] in M.
  destruct (M (txt "v") Normal (JInt 1)) as (i & x & r & G & In & S).
  { apply member_iff. exists (txt "v"). split; [left; reflexivity|reflexivity]. }
  cbn in G. injection G as <- <-. inversion In; subst. inversion S as [vt v p W| | | | | | | |]; subst; inversion W.
Qed.
Print Assumptions C61_marks_refuted.

(** Whether [Ref] and [Enum] may be together depends on which comes first. *)
Definition enum_then_ref : list (name * jval) := [(txt "Enum", JMap []); (txt "Ref", JMap [(txt "t", JString [])])].
Theorem C61_refs_refuted : exists addr iter m' d, iterates iter /\ Permutation enum_then_ref m' /\
  json_item_str_to_rust addr iter (tagged_with "CilDef" [JArray [JMap enum_then_ref]]) Normal = Ok (VaCilDef d) /\ ld_enum (undef d) = false /\
  json_item_str_to_rust addr iter (tagged_with "CilDef" [JArray [JMap m']]) Normal = Err.
Proof.
  exists sample_addr, in_place, (rev enum_then_ref). eexists. split; [exact in_place_iterates|]. split; [apply Permutation_rev|].
  split; [vm_compute; reflexivity|]. split; reflexivity.
Qed.
Print Assumptions C61_refs_refuted.

(** A whole number after [ID] is refused, unless it is written as a float. *)
Definition item_with_id (v : jval) : jval := tagged_with "MList" [JArray [JMap [(txt "v", JBool true)]]; JMap [(txt "ID", v)]].
Theorem C61_id_refuted : exists addr iter d c, iterates iter /\
  fdec F64 4613937818241073152 = FNum false (3 * 2 ^ unit_exp) /\
  json_item_str_to_rust addr iter (item_with_id (JDouble 4613937818241073152)) Normal = Ok (VaMList d false (Some ([(3, c)], 1))) /\
  json_item_str_to_rust addr iter (item_with_id (JInt 3)) Normal = Err.
Proof.
  exists sample_addr, in_place. do 2 eexists. split; [exact in_place_iterates|]. split; [vm_compute; reflexivity|]. split; vm_compute; reflexivity.
Qed.
Print Assumptions C61_id_refuted.
