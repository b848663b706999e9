(** Proof of C78: what the signatures of generated functions say, and that programs that copy items
    out of their guards pass the compiler. *)
From Coq Require Import String.
From Verif Require Import Base StringCompactionModel StringCompactionProofs LinkedModel LinkedSpec DocModel DiffSpec DiffProofs ArchiveModel JsonModel IntfModel GenModel GenSpec GenNameProofs GenProofs CodeSpec ApiModel TypeSpec TypeGenProofs ReadModel RunModel RunSpec RunProofs RunGenProofs RunWayProofs SharedSpec SharedProofs SharedGenProofs.

Local Notation text := (list Z).
Local Notation "! s" := (txt s%string) (at level 0, s at level 0).
Local Notation "'var' s" := (EVar (txt s%string)) (at level 0, s at level 0).

(* ------------------------------------------------------------------ *)
(** * Signatures *)

Definition plain_fn (f : fn) : Prop := f_self f <> ByMut -> match f_ret f with Some t => gives_mut t = false | None => True end.
Lemma written_plain m f : written m f -> plain_fn f.
Proof.
  intros W. unfold plain_fn. destruct W; unfold getter, public; cbn [f_self f_ret]; intros N; try (exfalso; apply N; reflexivity); try exact Logic.I; try reflexivity.
  all: try (destruct vt; try destruct t; vm_compute; reflexivity).
Qed.
Lemma fn_of_plain old r p n f : accessible old r p -> fn_of p n f -> plain_fn f.
Proof.
  intros (T & parts & D & ->) (fns & I & J). destruct (part_in old (ro_default r) parts D _ I) as (d & part & G & De & K & _).
  assert (W : forall ms gs, Forall2 written ms gs -> In f gs -> plain_fn f).
  { intros ms gs F. induction F as [|m g ms gs W F IH]; intros X; [destruct X|]. destruct X as [<-|X]; [eapply written_plain, W|apply IH, X]. }
  destruct De as [ms gs F|y ms gs F|y ms gs F|y ms gs F|? ? ? ? ? ? ?|? ? ? ?|? ? ?]; unfold wrapper in K; cbn [In] in K;
    repeat (destruct K as [K|K]; [try discriminate K; injection K as <- <-|]); try destruct K; try (eapply W; [exact F|exact J]).
  all: cbn [In] in J; repeat (destruct J as [<-|J]; [intros _; reflexivity|]); destruct J.
Qed.

(* ------------------------------------------------------------------ *)
(** * Items that are copied *)

Lemma own_fn_of p n f : In f (own_fns p n) -> fn_of p n f.
Proof.
  unfold own_fns. intros I. apply in_flat_map in I as (i & J & I). destruct i; try destruct I. destruct (eqb_bytes n0 n) eqn:E; [|destruct I]. apply eqb_bytes_eq in E as ->. eexists. split; [exact J|exact I].
Qed.

Section Passes.
Variable old : list name.
Variable r : root_obj.
Local Notation root := (ro_default r).
Hypothesis T : tame root.
Variable parts : list (list CodeSpec.item).
Hypothesis D : Forall2 declares (generate old root) parts.
Local Notation p := (concat parts).

Lemma fine_named n m : fine m -> named n m = m.
Proof. intros F. unfold named. rewrite (fine_eqb m !"Self" F) by (do 3 right; left; reflexivity). reflexivity. Qed.

Lemma struct_passes n ms m G e t : generated old root (DStruct n ms) -> In m ms -> passes p G e t -> seen_as t n ->
  (forall f, written m f -> f_self f = ByRef /\ f_unsafe f = false /\ f_args f = []) -> forall t', (forall f, written m f -> f_ret f = Some t') -> passes p G (EMethod e (m_name m) []) (of_ty n t').
Proof.
  intros Ge M P S W t' R. destruct (method_found old root T parts D n ms m Ge M) as (f & Wf & Ff). destruct (W f Wf) as (F1 & F2 & F3).
  assert (Nm : f_name f = m_name m) by (unfold fn_named in Ff; apply find_some in Ff as [_ Ff]; apply eqb_bytes_eq in Ff; exact Ff). rewrite <- Nm.
  eapply pa_read; [exact P|exact S|apply own_fn_of; eapply fn_named_in, Ff|exact F1|exact F2|exact F3|apply R, Wf].
Qed.

(** what the function of a list returns *)
Definition list_ty (u : bool) (n : text) : ty := if u then TyApp !"Option" (TyApp !"MListConst" (TyName n)) else TyApp !"MListConst" (TyName n).
Lemma list_passes n ms nm at_ u key stem G e t : generated old root (DStruct n ms) -> In (Meth nm [] (CList at_ u key) [mitem_type stem] []) ms -> passes p G e t -> seen_as t n ->
  passes p G (do e nm []) (of_ty n (list_ty u (mitem_type stem))).
Proof.
  intros Ge M P S. refine (struct_passes n ms (Meth nm [] (CList at_ u key) [mitem_type stem] []) G e t Ge M P S _ _ _).
  - intros f W. inversion W; subst; split; [reflexivity|split; reflexivity|reflexivity|split; reflexivity].
  - intros f W. inversion W; subst; reflexivity.
Qed.
Lemma item_passes G e n u stem id : 0 <= id < 2 ^ 64 -> passes p G e (of_ty n (list_ty u (mitem_type stem))) ->
  passes p G (item_in u e id) (RApp !"Option" (RApp !"MItemConst" (RName (mitem_type stem)))).
Proof.
  intros B P. unfold item_in. destruct u; cbn [list_ty of_ty] in P; rewrite (fine_named n _ (fine_mitem stem)) in P.
  - eapply pa_if_some; [exact P|]. apply pa_get; [apply pa_var; apply hget_here; vm_compute; reflexivity|apply pa_num, B].
  - apply pa_get; [exact P|apply pa_num, B].
Qed.

Lemma goes_passes w c stem l e : goes old root w c stem l e -> c = false -> Forall (fun x => 0 <= snd x < 2 ^ 64) (loc_at w) -> forall G, hget !"root" G = Some (RRef (RName !"RootIntf")) ->
  passes p G e (RApp !"Option" (RApp !"MItemConst" (RName (mitem_type stem)))).
Proof.
  induction 1 as [| |t i l u id I|? ? ? ? ? ? ? ? ? ? ?|w stem l e key i l' u id H IH I| |]; intros C B G HG; try discriminate C.
  - cbn [loc_at] in B. apply Forall_inv in B. cbn [snd] in B. eapply (item_passes G _ !"RootIntf"); [exact B|].
    eapply (list_passes _ _ (with_old t (contains old t)) AtRoot u t t); [apply generated_root| |apply pa_var; exact HG|apply seen_ref].
    eapply (root_in old r); [exact I|]. cbn [list_methods]. unfold list_methods. rewrite (root_snake_name r T t _ I). left. reflexivity.
  - cbn [loc_at] in B. apply Forall_app in B as [B1 B2]. apply Forall_inv in B2. cbn [snd] in B2. eapply pa_if_some; [apply IH; [reflexivity|exact B1|exact HG]|].
    pose proof (goes_listed old r w false stem l e H) as Li. cbv iota in Li. eapply (item_passes _ _ (mitem_type stem)); [exact B2|].
    eapply (list_passes _ _ (with_old key (contains (ld_old l) key)) AtMItem u key key); [apply generated_mitem; exact Li| |apply pa_var; apply hget_here; vm_compute; reflexivity|apply seen_guard; right; left; reflexivity].
    unfold mitem_methods. apply in_or_app. left. apply in_flat_map. exists (key, (i, DMil (Def l') u)). split; [exact I|]. cbv beta iota. unfold list_methods.
    rewrite (member_snake r T stem l key _ (mlisted_listed _ _ _ Li) I). left. reflexivity.
Qed.

Lemma leak_passes w stem l e key i p0 vt G : goes old root w false stem l e -> Forall (fun x => 0 <= snd x < 2 ^ 64) (loc_at w) -> In (key, (i, DParam p0 vt)) (ld_members l) ->
  hget !"root" G = Some (RRef (RName !"RootIntf")) -> hget !"v" G = Some (of_ty [] (marked vt (param_ty (type_of p0)))) ->
  passes p G (if_some !"x" e (some_of (do (EBlock (EDeref var"x")) (!"set_" ++ with_old key (contains (ld_old l) key)) [var"v"]))) (RApp !"Option" (RName !"()")).
Proof.
  intros H B I HG Hv. pose proof (goes_listed old r w false stem l e H) as Li. cbv iota in Li. pose proof (mlisted_listed _ _ _ Li) as L.
  eapply pa_if_some; [eapply goes_passes; [exact H|reflexivity|exact B|exact HG]|]. apply pa_some.
  set (m := Meth (!"set_" ++ with_old key (contains (ld_old l) key)) [key] (CSet AtMItem (type_of p0) vt key) [] []).
  assert (M : In m (mitem_methods stem l)).
  { unfold mitem_methods. apply in_or_app. left. apply in_flat_map. exists (key, (i, DParam p0 vt)). split; [exact I|]. cbv beta iota. unfold param_methods, m. rewrite (member_snake r T stem l key _ L I). destruct (by_reference (type_of p0)); cbn [In]; tauto. }
  destruct (method_found old root T parts D (mitem_type stem) (mitem_methods stem l) m (generated_mitem old root stem l Li) M) as (f & Wf & Ff).
  assert (Nm : f_name f = m_name m) by (unfold fn_named in Ff; apply find_some in Ff as [_ Ff]; apply eqb_bytes_eq in Ff; exact Ff). change (!"set_" ++ with_old key (contains (ld_old l) key)) with (m_name m). rewrite <- Nm.
  inversion Wf; subst. unfold do.
  eapply (pa_temporary p _ (EDeref var"x") (mitem_type stem) _ key (marked vt (param_ty (type_of p0)))).
  - apply pa_copy; [apply pa_var, hget_here; vm_compute; reflexivity|]. destruct (mitem_part old root parts D stem l Li) as (fns & _ & In0).
    eapply (i_derived _ _ _ (map txt ["Debug"; "PartialEq"; "Clone"; "Copy"]%string)); [apply In0; left; reflexivity|]. cbn [map In]. tauto.
  - apply own_fn_of. eapply fn_named_in, Ff.
  - reflexivity.
  - reflexivity.
  - reflexivity.
  - reflexivity.
  - apply pa_var. apply hget_next; [vm_compute; reflexivity|]. rewrite Hv. f_equal. destruct vt, (type_of p0); vm_compute; reflexivity.
Qed.
End Passes.
