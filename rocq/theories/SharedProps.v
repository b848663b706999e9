(** C78: only functions that take [&mut self] change a document, and where the types do not see to it. *)
From Coq Require Import String.
From Verif Require Import Base StringCompactionModel StringCompactionProofs LinkedModel LinkedSpec DocModel DiffSpec DiffProofs ArchiveModel JsonModel JsonProps ValidSpec IntfModel GenModel GenSpec GenProofs CodeSpec ApiModel TypeSpec TypeGenProofs ReadModel RunModel RunSpec RunProofs RunGenProofs RunWayProofs RunAskProofs.
From Verif Require RunProps WroteProps.
Import RunProps(allows_unwrapped, evals_EV).
Import WroteProps(wrote_doc, wrote_accessible, wrote_list, wrote_l, wrote_goes).
From Verif Require Import SharedSpec SharedProofs SharedGenProofs SharedPassProofs.

Local Notation text := (list Z).
Local Notation "! s" := (txt s%string) (at level 0, s at level 0).
Local Notation "'var' s" := (EVar (txt s%string)) (at level 0, s at level 0).

Lemma handed_unboxed w n a s : match handed w n (item_value n a s) with VBox v => v | _ => handed w n (item_value n a s) end = handed w n (item_value n a s).
Proof. destruct w; reflexivity. Qed.
Section Props.
Variable old : list name.
Variable iter : forall A, hmap A -> hmap A.
Variable r : root_obj.
Variable told : effect -> bool.
Variable p : list CodeSpec.item.
Variable G : env.

(** A program around the accessors of a document that calls nothing of dochy_core that changes a
    document, and gets by without the accessors that take [&mut self], changes nothing.  With them it
    does the same. *)
Theorem C78_shared : forall e v tr tr', accessible old r p -> still_env G -> quiet [] e = true -> evals (shared p) iter r told G e tr (Ok (v, tr')) ->
  tr' = tr /\ still v /\ evals p iter r told G e tr (Ok (v, tr)).
Proof.
  intros e v tr tr' A HG Q E. assert (X : tr' = tr /\ still v).
  { destruct E as (k0 & E). exact (calm_eval (shared p) iter r told (accessible_quiet old r p A) k0 [] G e HG Q tr v tr' (E k0 (le_n k0))). }
  destruct X as [-> Sv]. split; [reflexivity|]. split; [exact Sv|]. apply evals_below; [exact E|discriminate].
Qed.
(** So does one that panics. *)
Theorem C78_panics : forall e tr, evals (shared p) iter r told G e tr Panic -> evals p iter r told G e tr Panic.
Proof. intros e tr E. apply evals_below; [exact E|discriminate]. Qed.

(** A generated function that does not take [&mut self] returns no reference one can write to and
    no guard that lets one change a list or an item. *)
Theorem C78_signature : forall n f t, accessible old r p -> fn_of p n f -> f_self f <> ByMut -> f_ret f = Some t -> gives_mut t = false.
Proof. intros n f t A F N R. pose proof (fn_of_plain old r p n f A F N) as X. rewrite R in X. exact X. Qed.

(** Still, around a shared reference to the root one can write a safe program that changes any
    member of any item of a mutable list: the items implement [Copy], and one may change a copy of one. *)
Theorem C78_copied : forall w stem l e key i p0 vt c tr, accessible old r p -> has_root G -> goes old (ro_default r) w false stem l e -> Forall (fun x => 0 <= snd x < 2 ^ 64) (loc_at w) ->
  In (key, (i, DParam p0 vt)) (ld_members l) -> allows vt c -> hget !"v" G = Some (as_marked VOf vt c) ->
  let program := if_some !"x" e (some_of (do (EBlock (EDeref var"x")) (!"set_" ++ with_old key (contains (ld_old l) key)) [var"v"])) in
  passes p [(!"root", RRef (RName !"RootIntf")); (!"v", of_ty [] (marked vt (param_ty (type_of p0))))] program (RApp !"Option" (RName !"()")) /\
  forall s, ReadModel.visit iter r w = Ok (Some s) ->
    evals p iter r told G program tr (Ok (some VUnit, tr ++ [ESet (loc_at w) (type_of p0) key (of_qv VOf c)])).
Proof.
  intros w stem l e key i p0 vt c tr (T & parts & D & ->) HG H B I Al Hv program. split.
  - eapply (leak_passes old r T parts D w stem l e key i p0 vt); [exact H|exact B|exact I|reflexivity|]. apply hget_next; [vm_compute; reflexivity|]. apply hget_here. vm_compute. reflexivity.
  - intros s V. apply evals_EV. unfold program. eapply if_some_rule; [apply (way_rule old iter r told T parts D w false stem l e H); exact HG|]. rewrite V. cbv iota.
    pose proof (goes_listed old r w false stem l e H) as Li. cbv iota in Li.
    eapply ev_some; [unfold do; eapply ev_call1; [eapply ev_block, ev_deref; [apply ev_var; [shut|look]|apply handed_unboxed]|apply ev_var; [shut|]; apply hget_next; [shut|exact Hv]|]|].
    + eapply (call_set old iter r told T parts D stem l key i p0 vt c); [exact Li|exact I|apply allows_unwrapped, Al|apply handed_bare].
    + reflexivity.
Qed.
End Props.
Print Assumptions C78_shared.
Print Assumptions C78_panics.
Print Assumptions C78_signature.
Print Assumptions C78_copied.

(* ------------------------------------------------------------------ *)
(** * A case *)

(** [root.list().len()] gets by without accessors that take [&mut self]. *)
Lemma shared_root old r iter told parts m vs w R : tame (ro_default r) -> Forall2 declares (generate old (ro_default r)) parts -> In m (root_methods old (strip_root (ro_default r))) ->
  (forall f, written m f -> shut_fn f = f /\ Enter (shared (concat parts)) iter r told !"RootIntf" f (Some root_value) vs w R) -> Method (shared (concat parts)) iter r told root_value (m_name m) vs w R.
Proof.
  intros T D I H. destruct (method_found old (ro_default r) T parts D !"RootIntf" _ m (generated_root old (ro_default r)) I) as (f & W & N). destruct (H f W) as [Sf X]. eapply conv_ext; [|exact X]. intros k. cbv beta.
  unfold root_value. cbn [method_of]. unfold own_method. rewrite own_shared, named_shared, N. cbn [option_map]. rewrite Sf. reflexivity.
Qed.
Lemma wrote_two : exists items, root_mlist wrote_doc !"list" = Some (Some items, Def wrote_list) /\ zlen items = 2.
Proof. eexists. split; vm_compute; reflexivity. Qed.
Lemma wrote_method : exists i, In (!"list", (i, WMList (Def wrote_list) false)) (ro_default wrote_doc).
Proof. eexists. vm_compute. tauto. Qed.
Lemma wrote_list_named : contains (ro_old wrote_doc) !"list" = false. Proof. vm_compute. reflexivity. Qed.
Example C78_shared_case : exists p, accessible (ro_old wrote_doc) wrote_doc p /\ forall told tr, let G := [(!"root", root_value)] in let e := do (do var"root" !"list" []) !"len" [] in
  still_env G /\ quiet [] e = true /\ evals (shared p) in_place wrote_doc told G e tr (Ok (VNum 2, tr)) /\ evals p in_place wrote_doc told G e tr (Ok (VNum 2, tr)).
Proof.
  destruct wrote_accessible as (p & A). exists p. split; [exact A|]. intros told tr G e.
  assert (SG : still_env G) by (apply Forall_cons; [apply still_struct; repeat apply Forall_cons; try apply Forall_nil; first [apply still_ptr|apply still_box, still_ptr]|apply Forall_nil]).
  assert (Q : quiet [] e = true) by (vm_compute; reflexivity).
  assert (X : evals (shared p) in_place wrote_doc told G e tr (Ok (VNum 2, tr))).
  { pose proof A as (T & parts & D & ->). destruct wrote_method as (i & I). destruct wrote_two as (items & Wi & Z2). apply evals_EV. unfold e, do.
    eapply ev_call0; [eapply ev_call0; [apply ev_var; [shut|look]|]|].
    - cbn [and_then]. change !"list" with (m_name (Meth !"list" [] (CList AtRoot false !"list") [mitem_type !"list"] [])). eapply (shared_root (ro_old wrote_doc)); [exact T|exact D| |].
      + eapply (root_in (ro_old wrote_doc) wrote_doc); [exact I|]. cbv beta iota. rewrite wrote_list_named. left. reflexivity.
      + intros f W. split; [inversion W; subst; reflexivity|]. eapply list_rule; [exact root_points|exact W].
    - cbn [list_at]. rewrite Wi. cbn [and_then gives]. apply conv_now. intros k. cbn. rewrite Z2. reflexivity. }
  split; [exact SG|]. split; [exact Q|]. split; [exact X|]. exact (proj2 (proj2 (C78_shared (ro_old wrote_doc) in_place wrote_doc told p G e (VNum 2) tr tr A SG Q X))).
Qed.

(** That safe programs around a shared reference to the root change nothing is wrong. *)
Lemma wrote_visit : exists s, ReadModel.visit in_place wrote_doc (Mil (Entry !"list" 7) !"l" 0) = Ok (Some s).
Proof. eexists. vm_compute. reflexivity. Qed.
Lemma wrote_y : exists i, In (!"y", (i, DParam (PInt (Val 0)) Normal)) (ld_members wrote_l) /\ contains (ld_old wrote_l) !"y" = false.
Proof. eexists. split; [vm_compute; tauto|vm_compute; reflexivity]. Qed.
Theorem C78_refuted : ~ (forall old iter r told p e t v tr tr', accessible old r p -> passes p [(!"root", RRef (RName !"RootIntf")); (!"v", RName !"i64")] e t ->
  evals p iter r told [(!"root", root_value); (!"v", VOf (CInt 9))] e tr (Ok (v, tr')) -> tr' = tr).
Proof.
  intros X. destruct wrote_accessible as (p & A). destruct wrote_visit as (s & V). destruct wrote_y as (i & Y & _). set (G := [(!"root", root_value); (!"v", VOf (CInt 9))]).
  destruct (C78_copied (ro_old wrote_doc) in_place wrote_doc (fun _ => true) p G _ _ _ _ !"y" i (PInt (Val 0)) Normal (Val (CInt 9)) [] A eq_refl wrote_goes) as (P & E);
    [repeat constructor; cbn [snd]; lia|exact Y|exact Logic.I|reflexivity|].
  specialize (X _ _ _ _ _ _ _ _ _ _ A P (E s V)). discriminate X.
Qed.
Print Assumptions C78_refuted.
