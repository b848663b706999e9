(** Proof of C79: values and computations. *)
From Coq Require Import String.
From Verif Require Import Base StringCompactionModel StringCompactionProofs LinkedModel LinkedSpec DocModel DiffSpec DiffProofs ArchiveModel JsonModel IntfModel IntfProofs GenModel GenSpec CodeSpec ApiModel TypeSpec TypeProofs ReadModel RunModel RunSpec SoundSpec.

Local Notation text := (list Z).
Local Notation "! s" := (txt s%string) (at level 0, s at level 0).

(* ------------------------------------------------------------------ *)
(** * Types are compared *)

Fixpoint eqb_rt (a b : rt) : bool :=
  match a, b with
  | RVar x, RVar y | RName x, RName y => eqb_bytes x y
  | RApp x a, RApp y b => eqb_bytes x y && eqb_rt a b
  | RRef a, RRef b | RMut a, RMut b | RPtr a, RPtr b | RPtrMut a, RPtrMut b | RSlice a, RSlice b => eqb_rt a b
  | RPair a b, RPair c d | RFun a b, RFun c d => eqb_rt a c && eqb_rt b d
  | _, _ => false
  end.
Lemma eqb_rt_eq a : forall b, eqb_rt a b = true -> a = b.
Proof.
  induction a as [x|x|x a IH|a IH|a IH|a IH|a IH|a IHa b IHb|a IH|a IHa b IHb]; intros c; destruct c; cbn [eqb_rt]; intros H; try discriminate H;
    repeat match goal with H : _ && _ = true |- _ => apply andb_prop in H as [? ?] end;
    repeat match goal with H : eqb_bytes _ _ = true |- _ => apply eqb_bytes_eq in H; subst end; f_equal; auto.
Qed.
Fixpoint eqb_rts (a b : list rt) : bool :=
  match a, b with [], [] => true | x :: a, y :: b => eqb_rt x y && eqb_rts a b | _, _ => false end.
Lemma eqb_rts_eq a : forall b, eqb_rts a b = true -> a = b.
Proof.
  induction a as [|x a IH]; intros [|y b]; cbn [eqb_rts]; intros H; try discriminate H; [reflexivity|]. apply andb_prop in H as [H1 H2].
  f_equal; [apply eqb_rt_eq, H1|apply IH, H2].
Qed.

(* ------------------------------------------------------------------ *)
(** * What functions of dochy_core are for *)

Definition str_of : rt := RRef (RName !"str").
Definition places : list rt := [RName !"RootObjectPtr"; RName !"MItemPtr"; RName !"CItemPtr"].
Definition changing_places : list rt := [RName !"RootObjectPtr"; RName !"MItemPtr"].
Definition item_places : list rt := [RName !"MItemPtr"; RName !"CItemPtr"].
Definition optional (t : rt) : rt := RApp !"Option" t.
Definition marked_as (t : rt) : rt := RApp !"Qv" t.
Definition plain_ty (t : param_type) : rt := of_ty [] (param_ty t).
Definition listed_var : rt := RVar !"T".
Definition expected (f : prim) : list (list rt * rt) :=
  match f with
  | FGet t | FDefault t | FMutable t =>
      flat_map (fun q => map (fun x => ([q; str_of], optional (marked_as x))) [plain_ty t; RRef (plain_ty t); RMut (plain_ty t)]) places
  | FSet t => map (fun q => ([q; str_of; marked_as (plain_ty t)], RName !"bool")) changing_places
  | FTable => [([RPtr (RName !"RootDefObj"); str_of], optional (RName !"TablePtr"))]
  | FCList => [([RName !"RootObjectPtr"; str_of], optional (RApp !"CListPtr" listed_var))]
  | FCil => [([RName !"CItemPtr"; str_of], optional (RApp !"CListPtr" listed_var))]
  | FList => map (fun q => ([q; str_of], optional (optional (RApp !"MListPtr" listed_var)))) changing_places
  | FOpen => map (fun q => ([q; str_of], optional (RApp !"MListPtr" listed_var))) changing_places
  | FRef => map (fun q => ([q; str_of], optional (marked_as (RName !"CItemPtr")))) item_places
  | FRefId => map (fun q => ([q; str_of], optional (marked_as (RRef (RName !"String"))))) item_places
  | FEnum => map (fun q => ([q], optional (RPair (RName !"String") (RName !"String")))) item_places
  | FSetRef => [([RName !"MItemPtr"; str_of; marked_as (RName !"String")], RName !"bool")]
  | FSetEnum => [([RName !"MItemPtr"; str_of; str_of], RName !"bool")]
  | FRow => [([RName !"TablePtr"; str_of], optional (RName !"CItemPtr"))]
  end.
Definition as_expected (m : text) (s : string) : bool :=
  match read_fn [] s with
  | Some (f, g) => match core_fn m f with Some q => existsb (fun x => eqb_rts (fst x) (g_args g) && eqb_rt (snd x) (g_ret g)) (expected q) | None => false end
  | None => false
  end.
Lemma all_expected : forallb (fun e => forallb (as_expected (txt (fst e))) (snd e)) core_modules = true.
Proof. vm_compute. reflexivity. Qed.
Lemma find_fn_in vs f l g : find_fn vs f l = Some g -> exists s, In s l /\ read_fn vs s = Some (f, g).
Proof.
  induction l as [|s l IH]; cbn [find_fn]; intros H; [discriminate H|]. destruct (read_fn vs s) as [[f' g']|] eqn:E; [|discriminate H].
  destruct (eqb_bytes f' f) eqn:B; [apply eqb_bytes_eq in B as ->; apply Some_inj in H as ->; exists s; split; [left; reflexivity|exact E]|].
  destruct (IH H) as (s' & I & X). exists s'. split; [right; exact I|exact X].
Qed.
Lemma module_prim m f g : module_fn m f = Some g -> exists q, core_fn m f = Some q /\ In (g_args g, g_ret g) (expected q).
Proof.
  unfold module_fn. destruct (find _ core_modules) as [[m' fns]|] eqn:F; [|discriminate]. intros H. apply find_some in F as [I M]. cbn [fst] in M. apply eqb_bytes_eq in M as <-.
  apply find_fn_in in H as (s & Is & R). pose proof all_expected as X. rewrite forallb_forall in X. specialize (X _ I). cbn [fst snd] in X. rewrite forallb_forall in X. specialize (X _ Is).
  unfold as_expected in X. rewrite R in X. destruct (core_fn (txt m') f) as [q|]; [|discriminate X]. exists q. split; [reflexivity|].
  apply existsb_exists in X as ((a & t) & J & E). cbn [fst snd] in E. apply andb_prop in E as [E1 E2]. apply eqb_rts_eq in E1. apply eqb_rt_eq in E2. subst a t. exact J.
Qed.

(** those of types *)
Definition impl_table : list (text * (text * (rt * (receiver * (list rt * rt))))) :=
  flat_map (fun e => match read_impl (fst e) with
    | Some (vs, t) => match head t with
        | Some n => flat_map (fun s => match read_fn vs s with Some (f, g) => [(n, (f, (t, (g_self g, (g_args g, g_ret g)))))] | None => [] end) (snd e)
        | None => []
        end
    | None => []
    end) core_impls.
Lemma type_fn_in n f t g : type_fn n f = Some (t, g) -> In (n, (f, (t, (g_self g, (g_args g, g_ret g))))) impl_table.
Proof.
  unfold type_fn, impl_table. induction core_impls as [|[s fns] l IH]; cbn [find_impl flat_map fst snd]; intros H; [discriminate H|].
  destruct (read_impl s) as [[vs t']|]; [|discriminate H]. apply in_or_app. destruct (head t') as [n'|]; [|right; exact (IH H)].
  destruct (eqb_bytes n' n) eqn:E; [left|right; exact (IH H)]. apply eqb_bytes_eq in E as ->. destruct (find_fn vs f fns) as [g'|] eqn:F; [|discriminate H].
  apply Some_inj in H. apply pair_equal_spec in H as [-> ->]. apply find_fn_in in F as (x & I & R). apply in_flat_map. exists x. split; [exact I|]. rewrite R. left. reflexivity.
Qed.
Local Notation V := (RVar (txt "V")).
Local Notation T := (RVar (txt "T")).
Local Notation U := (RVar (txt "U")).
Definition holder_fns (h : text) : list (text * (text * (rt * (receiver * (list rt * rt))))) :=
  [(h, (!"map", (RApp h T, (ByValue, ([RFun T U], RApp h U)))));
   (h, (!"from_qv", (RApp h T, (NoSelf, ([RApp !"Qv" T], optional (RApp h T))))));
   (h, (!"into_qv", (RApp h T, (ByValue, ([], RApp !"Qv" T)))))].
Definition impl_list : list (text * (text * (rt * (receiver * (list rt * rt))))) :=
  [(!"CListConst", (!"new", (RApp !"CListConst" V, (NoSelf, ([RApp !"CListPtr" V; RRef T], RApp !"CListConst" V)))));
   (!"CItemConst", (!"new", (RApp !"CItemConst" V, (NoSelf, ([V; RRef T], RApp !"CItemConst" V)))));
   (!"CTableConst", (!"new", (RApp !"CTableConst" T, (NoSelf, ([T; RRef U], RApp !"CTableConst" T)))));
   (!"MListConst", (!"new", (RApp !"MListConst" V, (NoSelf, ([RApp !"MListPtr" V; RRef T], RApp !"MListConst" V)))));
   (!"MListMut", (!"new", (RApp !"MListMut" V, (NoSelf, ([RApp !"MListPtr" V; RMut T], RApp !"MListMut" V)))));
   (!"RootObjectPtr", (!"new", (RName !"RootObjectPtr", (NoSelf, ([RPtrMut (RName !"RootObject")], RName !"RootObjectPtr")))));
   (!"RootObjectPtr", (!"def", (RName !"RootObjectPtr", (ByRef, ([], RPtr (RName !"RootDefObj"))))));
   (!"Qv", (!"map", (RApp !"Qv" T, (ByValue, ([RFun T U], RApp !"Qv" U)))));
   (!"Qv", (!"into_value", (RApp !"Qv" T, (ByValue, ([], optional T)))));
   (!"Qv", (!"into_qv", (RApp !"Qv" T, (ByValue, ([], RApp !"Qv" T)))))] ++
  holder_fns !"NullOr" ++ holder_fns !"UndefOr" ++
  [(!"Option", (!"unwrap", (RApp !"Option" T, (ByValue, ([], T)))));
   (!"Option", (!"map", (RApp !"Option" T, (ByValue, ([RFun T U], RApp !"Option" U)))));
   (!"Box", (!"new", (RApp !"Box" T, (NoSelf, ([T], RApp !"Box" T)))));
   (!"Box", (!"as_ref", (RApp !"Box" T, (ByRef, ([], RRef T)))));
   (!"Box", (!"as_mut", (RApp !"Box" T, (ByMut, ([], RMut T)))));
   (!"str", (!"to_string", (RName !"str", (ByRef, ([], RName !"String")))))].
Lemma impls_are : impl_table = impl_list. Proof. vm_compute. reflexivity. Qed.

(* ------------------------------------------------------------------ *)
(** * Computations *)

Section Program.
Variable p : list CodeSpec.item.
Variable out : res (val * trace).
Local Notation sound := (sound p out).
Local Notation of_type := (of_type p).

Lemma sound_ret {A} (a : A) (P : A -> Prop) : P a -> sound (ret a) P.
Proof. intros H w. cbn [ret]. split; [exact H|]. exists []. split; [symmetry; apply app_nil_r|apply Forall_nil]. Qed.
Lemma sound_panic {A} (P : A -> Prop) : sound panic P.
Proof. intros w. exact Logic.I. Qed.
Lemma sound_seq {A B} (m : M A) (f : A -> M B) P Q : sound m P -> (forall a, P a -> sound (f a) Q) -> sound (seq m f) Q.
Proof.
  intros Hm Hf w. unfold seq. specialize (Hm w). destruct (m w) as [[a w1]| |]; [|exact Hm|exact Logic.I]. destruct Hm as (Pa & es & -> & F). specialize (Hf a Pa (w ++ es)).
  destruct (f a (w ++ es)) as [[b w2]| |]; [|exact Hf|exact Logic.I]. destruct Hf as (Qb & es' & -> & F'). split; [exact Qb|]. exists (es ++ es'). split; [symmetry; apply app_assoc|apply Forall_app; split; assumption].
Qed.
Lemma sound_here {A} (o : option A) a (P : A -> Prop) : o = Some a -> P a -> sound (here o) P.
Proof. intros -> H. apply sound_ret, H. Qed.
Lemma sound_imp {A} (m : M A) (P Q : A -> Prop) : (forall a, P a -> Q a) -> sound m P -> sound m Q.
Proof. intros H X w. specialize (X w). destruct (m w) as [[a w1]| |]; [|exact X|exact X]. destruct X as (Pa & Y). split; [apply H, Pa|exact Y]. Qed.

Hypothesis POK : program_ok p.

Lemma core_known n : existsb (eqb_bytes n) core_names = true -> In n core_names.
Proof. intros E. apply existsb_exists in E as (x & I & E). apply eqb_bytes_eq in E as ->. exact I. Qed.
Lemma not_core n : In n (type_names p) -> existsb (eqb_bytes n) core_names = true -> False.
Proof. intros I E. exact (po_core p POK n I (core_known n E)). Qed.
Definition named_by (i : CodeSpec.item) : list text := match i with IStruct _ n _ | CodeSpec.IEnum _ n _ => [n] | _ => [] end.
Lemma once (l : list CodeSpec.item) i j n : NoDup (flat_map named_by l) -> In i l -> In j l -> named_by i = [n] -> named_by j = [n] -> i = j.
Proof.
  induction l as [|x l IH]; cbn [flat_map]; intros D Ii Ij Ni Nj; [destruct Ii|].
  assert (X : forall y, In y l -> named_by y = [n] -> named_by x = [n] -> False).
  { intros y Y Ny Nx. rewrite Nx in D. cbn [app] in D. inversion D as [|? ? D1 _]; subst. apply D1. apply in_flat_map. exists y. split; [exact Y|]. rewrite Ny. left. reflexivity. }
  destruct Ii as [<-|Ii], Ij as [<-|Ij]; [reflexivity|exfalso; exact (X j Ij Nj Ni)|exfalso; exact (X i Ii Ni Nj)|]. apply IH; try assumption.
  destruct (named_by x) as [|a [|b t]]; cbn [app] in D; [exact D|inversion D; assumption|]. inversion D; subst. match goal with H : NoDup (b :: _) |- _ => inversion H; subst end.
  clear - H4. induction t as [|c t IHt]; [exact H4|]. apply IHt. inversion H4; assumption.
Qed.
Lemma struct_named n fields : struct_fields p n fields -> In n (type_names p).
Proof. intros (d & I). apply in_flat_map. eexists. split; [exact I|]. left. reflexivity. Qed.
Lemma enum_named n vs : enum_variants p n vs -> In n (type_names p).
Proof. intros (d & I). apply in_flat_map. eexists. split; [exact I|]. left. reflexivity. Qed.
Lemma struct_once n f1 f2 : struct_fields p n f1 -> struct_fields p n f2 -> f1 = f2.
Proof. intros (d1 & I1) (d2 & I2). pose proof (once p _ _ n (po_names p POK) I1 I2 eq_refl eq_refl) as E. injection E as _ E. exact E. Qed.
Lemma enum_once n f1 f2 : enum_variants p n f1 -> enum_variants p n f2 -> f1 = f2.
Proof. intros (d1 & I1) (d2 & I2). pose proof (once p _ _ n (po_names p POK) I1 I2 eq_refl eq_refl) as E. injection E as _ E. exact E. Qed.
Lemma not_both n f1 f2 : struct_fields p n f1 -> enum_variants p n f2 -> False.
Proof. intros (d1 & I1) (d2 & I2). pose proof (once p _ _ n (po_names p POK) I1 I2 eq_refl eq_refl) as E. discriminate E. Qed.

(* ------------------------------------------------------------------ *)
(** * What values of a type are *)

Ltac no_core := exfalso; match goal with
  | H : struct_fields p _ _ |- _ => apply struct_named in H; eapply not_core; [exact H|vm_compute; reflexivity]
  | H : enum_variants p _ _ |- _ => apply enum_named in H; eapply not_core; [exact H|vm_compute; reflexivity]
  end.
Ltac among := match goal with H : In _ [_; _] |- _ => cbn [In] in H; destruct H as [H|[H|[]]] | H : In _ [_; _; _] |- _ => cbn [In] in H; destruct H as [H|[H|[H|[]]]] end.
Ltac clash := match goal with H : txt ?a = txt ?b |- _ => exfalso; vm_compute in H; discriminate H end.

Lemma in_ref v t : of_type v (RRef t) -> of_type v t. Proof. intros H. inversion H; subst. assumption. Qed.
Lemma in_mut v t : of_type v (RMut t) -> of_type v t. Proof. intros H. inversion H; subst. assumption. Qed.
Lemma in_text v : of_type v (RName !"str") -> exists s, v = VOf (CString s).
Proof. intros H. inversion H; subst; try no_core. eexists; reflexivity. Qed.
Lemma in_string v : of_type v (RName !"String") -> exists s, v = VOf (CString s).
Proof. intros H. inversion H; subst; try no_core. eexists; reflexivity. Qed.
Lemma in_num v : of_type v (RName !"usize") -> exists n, v = VNum n.
Proof. intros H. inversion H; subst; try no_core. eexists; reflexivity. Qed.
Lemma in_root_ptr v : of_type v (RName !"RootObjectPtr") -> v = VPtr PRoot.
Proof. intros H. inversion H; subst; try no_core. reflexivity. Qed.
Lemma in_root v : of_type v (RName !"RootObject") -> v = VPtr PRoot.
Proof. intros H. inversion H; subst; try no_core. reflexivity. Qed.
Lemma in_def v : of_type v (RName !"RootDefObj") -> v = VPtr PDef.
Proof. intros H. inversion H; subst; try no_core. reflexivity. Qed.
Lemma in_mitem v : of_type v (RName !"MItemPtr") -> exists l s, v = VPtr (PItem l s) /\ l <> [].
Proof. intros H. inversion H; subst; try no_core. eexists; eexists; split; [reflexivity|assumption]. Qed.
Lemma in_citem v : of_type v (RName !"CItemPtr") -> exists s, v = VPtr (PItem [] s).
Proof. intros H. inversion H; subst; try no_core. eexists; reflexivity. Qed.
Lemma in_table v : of_type v (RName !"TablePtr") -> exists s, v = VPtr (PTable s).
Proof. intros H. inversion H; subst; try no_core. eexists; reflexivity. Qed.
Lemma in_option v t : of_type v (RApp !"Option" t) -> (exists x, v = some x /\ of_type x t) \/ v = none.
Proof. intros H. inversion H; subst; try (among; clash); [left; eexists; split; [reflexivity|assumption]|right; reflexivity]. Qed.
Lemma in_holder h v t : In h [!"Qv"; !"NullOr"; !"UndefOr"] -> of_type v (RApp h t) ->
  (exists x, v = VMake h !"Val" [x] /\ of_type x t) \/ (In h [!"Qv"; !"NullOr"] /\ v = VMake h !"Null" []) \/ (In h [!"Qv"; !"UndefOr"] /\ v = VMake h !"Undefined" []).
Proof.
  intros I H. inversion H; subst; try (cbn [In] in I; exfalso; intuition discriminate).
  - left. eexists. split; [reflexivity|assumption].
  - right; left. split; [assumption|reflexivity].
  - right; right. split; [assumption|reflexivity].
  - exfalso. repeat among; subst; clash.
  - exfalso. repeat among; subst; clash.
Qed.
Lemma in_box v t : of_type v (RApp !"Box" t) -> exists x, v = VBox x /\ of_type x t.
Proof. intros H. inversion H; subst; try (among; clash). eexists; split; [reflexivity|assumption]. Qed.
Lemma in_pair v a b : of_type v (RPair a b) -> exists x y, v = VPair x y /\ of_type x a /\ of_type y b.
Proof. intros H. inversion H; subst. eexists; eexists; split; [reflexivity|split; assumption]. Qed.
Lemma in_slice v t : of_type v (RSlice t) -> exists l, v = VList l /\ forall x, In x l -> of_type x t.
Proof. intros H. inversion H; subst. eexists; split; [reflexivity|assumption]. Qed.
Lemma in_struct v n fields : struct_fields p n fields -> of_type v (RName n) -> exists fs, v = VStruct n fs /\ forall x t, In (x, t) fields -> exists v, hget x fs = Some v /\ of_type v (of_ty n t).
Proof.
  intros F H. inversion H; subst; try no_core.
  - eexists. split; [reflexivity|]. match goal with X : struct_fields p n ?f |- _ => rewrite (struct_once n fields f F X) end. assumption.
  - exfalso. eapply not_both; eassumption.
  - exfalso. eapply not_both; eassumption.
Qed.
Lemma in_enum v n vs : enum_variants p n vs -> of_type v (RName n) ->
  (exists c, v = VMake n c [] /\ In (c, None) vs) \/ (exists c t x, v = VMake n c [x] /\ In (c, Some t) vs /\ of_type x (of_ty n t)).
Proof.
  intros F H. inversion H; subst; try no_core.
  - exfalso. eapply not_both; eassumption.
  - left. eexists. split; [reflexivity|]. match goal with X : enum_variants p n ?f, I : In _ ?f |- _ => rewrite (enum_once n vs f F X); exact I end.
  - right. eexists; eexists; eexists. split; [reflexivity|]. split; [|eassumption]. match goal with X : enum_variants p n ?f, I : In _ ?f |- _ => rewrite (enum_once n vs f F X); exact I end.
Qed.
Lemma in_fun v a b : of_type v (RFun a b) -> exists n x e G C u, v = VClosure n x e G /\ env_of p G C /\ has p n ((x, (a, false)) :: C) u e b.
Proof. intros H. inversion H; subst. do 6 eexists. split; [reflexivity|]. split; [unfold env_of; eassumption|eassumption]. Qed.
Lemma fits_type v t t' : fits t t' -> of_type v t -> of_type v t'.
Proof.
  intros F H. destruct F.
  - exact H.
  - apply in_ref, in_string in H as (s & ->). apply ot_ref, ot_str.
  - apply ot_ptr_mut, in_mut, H.
  - apply ot_ref, in_mut, H.
Qed.
Lemma stamp_type n t : forall v, of_type v (of_ty n t) -> of_type (stamp t v) (of_ty n t).
Proof.
  induction t as [m|m t IH|t IH|t IH|t IH|a IHa b IHb|t IH]; intros v H; try exact H.
  cbn [of_ty] in *. assert (X : of_type (match v with VMake a c [v] => VMake a c [stamp t v] | _ => v end) (RApp m (of_ty n t))).
  { inversion H; subst; try first [exact H|apply ot_ints|apply ot_floats|apply ot_bytes].
    - apply ot_some, IH. assumption.
    - apply ot_val; [assumption|]. apply IH. assumption. }
  destruct t; cbn [stamp]; try exact X. destruct v; try exact X. inversion H; subst.
  - apply ot_guard; assumption.
  - apply ot_guard_clist; assumption.
  - apply ot_guard_mlist; assumption.
Qed.

(* ------------------------------------------------------------------ *)
(** * The functions of dochy_core *)

Lemma type_opt {A} (f : A -> val) o t : (forall a, o = Some a -> of_type (f a) t) -> of_type (of_opt f o) (RApp !"Option" t).
Proof. intros H. destruct o as [a|]; [apply ot_some, H; reflexivity|apply ot_none]. Qed.
Lemma type_qv {A} (f : A -> val) q t : (forall a, of_type (f a) t) -> of_type (of_qv f q) (RApp !"Qv" t).
Proof. intros H. destruct q; [apply (ot_val p !"Qv"); [left; reflexivity|apply H]|apply (ot_undefined p !"Qv"); left; reflexivity|apply (ot_null p !"Qv"); left; reflexivity]. Qed.
Lemma got_type t o q : get_as t o = Some q -> of_type (of_qv VOf q) (RApp !"Qv" (plain_ty t)).
Proof.
  unfold get_as. destruct o as [x|]; [|discriminate]. destruct (eqb_type (type_of x) t) eqn:E; [|discriminate]. apply eqb_type_iff in E as <-. intros H. apply Some_inj in H as <-.
  destruct x as [q|q|q|q|q|q|q]; cbn [contents type_of]; destruct q; cbn [qv_map of_qv];
    first [apply (ot_undefined p !"Qv"); left; reflexivity|apply (ot_null p !"Qv"); left; reflexivity|apply (ot_val p !"Qv"); [left; reflexivity|]];
    first [apply ot_bool|apply ot_int|apply ot_float|apply ot_string|apply ot_ints|apply ot_floats|apply ot_bytes].
Qed.
Lemma qv_ref q t : of_type q (RApp !"Qv" t) -> of_type q (RApp !"Qv" (RRef t)) /\ of_type q (RApp !"Qv" (RMut t)).
Proof.
  intros H. apply in_holder in H as [(x & -> & X)|[(_ & ->)|(_ & ->)]]; [| | |left; reflexivity]; split.
  - apply (ot_val p !"Qv"); [left; reflexivity|apply ot_ref, X].
  - apply (ot_val p !"Qv"); [left; reflexivity|apply ot_mut, X].
  - apply (ot_null p !"Qv"); left; reflexivity.
  - apply (ot_null p !"Qv"); left; reflexivity.
  - apply (ot_undefined p !"Qv"); left; reflexivity.
  - apply (ot_undefined p !"Qv"); left; reflexivity.
Qed.
Lemma in_place v t : In t places -> of_type v t -> exists q, v = VPtr q.
Proof.
  unfold places. intros I H. cbn [In] in I. destruct I as [<-|[<-|[<-|[]]]].
  - apply in_root_ptr in H as ->. eexists; reflexivity.
  - apply in_mitem in H as (l & s & -> & _). eexists; reflexivity.
  - apply in_citem in H as (s & ->). eexists; reflexivity.
Qed.
Lemma in_item v t : In t item_places -> of_type v t -> exists l s, v = VPtr (PItem l s).
Proof.
  unfold item_places. intros I H. cbn [In] in I. destruct I as [<-|[<-|[]]].
  - apply in_mitem in H as (l & s & -> & _). eexists; eexists; reflexivity.
  - apply in_citem in H as (s & ->). eexists; eexists; reflexivity.
Qed.
Lemma in_str v : of_type v str_of -> exists s, v = VOf (CString s).
Proof. intros H. apply in_ref, in_text in H. exact H. Qed.
Lemma plain_subst s t : subst s (plain_ty t) = plain_ty t. Proof. destruct t; reflexivity. Qed.
Lemma place_subst s q : In q places -> subst s q = q. Proof. unfold places. cbn [In]. intros [<-|[<-|[<-|[]]]]; reflexivity. Qed.

Variable iter : forall A, hmap A -> hmap A.
Variable r : root_obj.
Variable told : effect -> bool.

Lemma sound_ok {A} (a : A) (P : A -> Prop) : P a -> sound (fun w => Ok (a, w)) P. Proof. exact (sound_ret a P). Qed.
Lemma sound_does {A} (a : A) e (P : A -> Prop) : P a -> effect_ok p e -> sound (fun w => Ok (a, w ++ [e])) P.
Proof. intros H E w. split; [exact H|]. exists [e]. split; [reflexivity|]. apply Forall_cons; [exact E|apply Forall_nil]. Qed.

Ltac args2 := match goal with F : Forall2 _ _ [_; _] |- _ => inversion F as [|v1 t1 vs1 ts1 A1 F1]; subst; inversion F1 as [|v2 t2 vs2 ts2 A2 F2]; subst; inversion F2; subst; clear F F1 F2 end.
Ltac args3 := match goal with F : Forall2 _ _ [_; _; _] |- _ => inversion F as [|v1 t1 vs1 ts1 A1 F1]; subst; inversion F1 as [|v2 t2 vs2 ts2 A2 F2]; subst; inversion F2 as [|v3 t3 vs3 ts3 A3 F3]; subst; inversion F3; subst; clear F F1 F2 F3 end.

Lemma get_forms s q x o t : In (q, x) (map (fun x => ([o; str_of], optional (marked_as x))) [plain_ty t; RRef (plain_ty t); RMut (plain_ty t)]) -> q = [o; str_of] /\
  forall v, of_type v (RApp !"Qv" (plain_ty t)) -> exists y, subst s x = RApp !"Option" y /\ of_type v y.
Proof.
  cbn [map In]. intros [E|[E|[E|[]]]]; apply pair_equal_spec in E as [<- <-]; (split; [reflexivity|]); intros v H; unfold optional, marked_as; cbn [subst]; rewrite plain_subst; eexists; (split; [reflexivity|]).
  - exact H.
  - apply qv_ref, H.
  - apply qv_ref, H.
Qed.
Lemma got_opt s q x o t y : In (q, x) (map (fun x => ([o; str_of], optional (marked_as x))) [plain_ty t; RRef (plain_ty t); RMut (plain_ty t)]) -> of_type (of_opt (of_qv VOf) (get_as t y)) (subst s x).
Proof.
  intros I. destruct (get_forms s q x o t I) as (_ & H). destruct (H (of_qv VOf Undefined)) as (z & E & _); [apply (ot_undefined p !"Qv"); left; reflexivity|]. rewrite E. apply type_opt. intros a Ea.
  destruct (H (of_qv VOf a) (got_type t y a Ea)) as (z' & E' & X). rewrite E in E'. injection E' as <-. exact X.
Qed.
Lemma core_sound f args t s vs : In (args, t) (expected f) -> Forall2 of_type vs (map (subst s) args) -> sound (core_do iter r told f vs) (fun v => of_type v (subst s t)).
Proof.
  intros I F. destruct f as [pt|pt|pt|pt| | | | | | | | | | |]; cbn [expected] in I.
  1-3: apply in_flat_map in I as (q & Q & I); destruct (get_forms s args t q pt I) as (-> & _); cbn [map] in F; rewrite (place_subst s q Q) in F; args2;
    apply (in_place _ _ Q) in A1 as (o & ->); apply in_str in A2 as (key & ->); cbn [core_do].
  - apply sound_ok. eapply got_opt, I.
  - apply sound_ok. eapply got_opt, I.
  - apply sound_does; [eapply got_opt, I|exact Logic.I].
  - apply in_map_iff in I as (q & E & Q). apply pair_equal_spec in E as [<- <-]. unfold marked_as in F. cbn [map subst] in F. rewrite plain_subst in F. assert (Q' : In q places) by (unfold changing_places in Q; unfold places; cbn [In] in *; tauto). rewrite (place_subst s q Q') in F. args3.
    apply (in_place _ _ Q') in A1 as (o & ->); apply in_str in A2 as (key & ->); cbn [core_do]. apply sound_does; [apply ot_bool|exact A3].
  - destruct I as [E|[]]. apply pair_equal_spec in E as [<- <-]. cbn [map subst] in F. args2. assert (B : of_type v1 (RName !"RootDefObj")) by (inversion A1; subst; assumption).
    apply in_def in B as ->. apply in_str in A2 as (key & ->). cbn [core_do]. apply sound_ok. apply type_opt. intros a _. apply ot_table.
  - destruct I as [E|[]]. apply pair_equal_spec in E as [<- <-]. cbn [map subst] in F. args2. apply in_root_ptr in A1 as ->. apply in_str in A2 as (key & ->). cbn [core_do]. apply sound_ok. apply type_opt. intros a _. apply ot_clist.
  - destruct I as [E|[]]. apply pair_equal_spec in E as [<- <-]. cbn [map subst] in F. args2. apply in_citem in A1 as (x & ->). apply in_str in A2 as (key & ->). cbn [core_do]. apply sound_ok. apply type_opt. intros a _. apply ot_clist.
  - apply in_map_iff in I as (q & E & Q). apply pair_equal_spec in E as [<- <-]. cbn [map subst] in F. assert (Q' : In q places) by (unfold changing_places in Q; unfold places; cbn [In] in *; tauto). rewrite (place_subst s q Q') in F. args2.
    apply (in_place _ _ Q') in A1 as (o & ->); apply in_str in A2 as (key & ->); cbn [core_do]. apply sound_ok. apply type_opt. intros a _. apply type_opt. intros b _. apply ot_mlist.
  - apply in_map_iff in I as (q & E & Q). apply pair_equal_spec in E as [<- <-]. cbn [map subst] in F. assert (Q' : In q places) by (unfold changing_places in Q; unfold places; cbn [In] in *; tauto). rewrite (place_subst s q Q') in F. args2.
    apply (in_place _ _ Q') in A1 as (o & ->); apply in_str in A2 as (key & ->); cbn [core_do]. apply sound_does; [|exact Logic.I]. apply type_opt. intros a _. apply ot_mlist.
  - apply in_map_iff in I as (q & E & Q). apply pair_equal_spec in E as [<- <-]. cbn [map subst] in F. assert (Q' : In q places) by (unfold item_places in Q; unfold places; cbn [In] in *; tauto). rewrite (place_subst s q Q') in F. args2.
    apply (in_item _ _ Q) in A1 as (l & x & ->); apply in_str in A2 as (key & ->); clear Q Q'. intros w. cbn [core_do]. unfold spot_ref.
    destruct (spot_ref_id x key) as [[id| |]|]; cbn [bind]; [destruct (root_table r key); cbn [bind]; [|exact Logic.I]| | |];
      (split; [apply type_opt; intros a _; apply type_qv; intros b; apply ot_citem|exists []; split; [symmetry; apply app_nil_r|apply Forall_nil]]).
  - apply in_map_iff in I as (q & E & Q). apply pair_equal_spec in E as [<- <-]. cbn [map subst] in F. assert (Q' : In q places) by (unfold item_places in Q; unfold places; cbn [In] in *; tauto). rewrite (place_subst s q Q') in F. args2.
    apply (in_item _ _ Q) in A1 as (l & x & ->); apply in_str in A2 as (key & ->); cbn [core_do]. apply sound_ok. apply type_opt. intros a _. apply type_qv. intros b. apply ot_ref, ot_string.
  - apply in_map_iff in I as (q & E & Q). apply pair_equal_spec in E as [<- <-]. cbn [map subst] in F. assert (Q' : In q places) by (unfold item_places in Q; unfold places; cbn [In] in *; tauto). rewrite (place_subst s q Q') in F.
    inversion F as [|v1 t1 vs1 ts1 A1 F1]; subst; inversion F1; subst. apply (in_item _ _ Q) in A1 as (l & x & ->); cbn [core_do]. apply sound_ok. apply type_opt. intros a _. apply ot_pair; apply ot_string.
  - destruct I as [E|[]]. apply pair_equal_spec in E as [<- <-]. cbn [map subst] in F. args3. apply in_mitem in A1 as (l & x & -> & L). apply in_str in A2 as (key & ->). cbn [core_do]. apply sound_does; [apply ot_bool|]. split; [exact L|exact A3].
  - destruct I as [E|[]]. apply pair_equal_spec in E as [<- <-]. cbn [map subst] in F. args3. apply in_mitem in A1 as (l & x & -> & L). apply in_str in A2 as (key & ->). apply in_str in A3 as (id & ->). cbn [core_do]. apply sound_does; [apply ot_bool|exact L].
  - destruct I as [E|[]]. apply pair_equal_spec in E as [<- <-]. cbn [map subst] in F. args2. apply in_table in A1 as (x & ->). apply in_str in A2 as (id & ->). cbn [core_do]. apply sound_ok. apply type_opt. intros a _. apply ot_citem.
Qed.

(* ------------------------------------------------------------------ *)
(** * Patterns *)

Definition binds_as (H : env) (g : ctx) : Prop := Forall2 (fun x y => fst x = fst y /\ of_type (snd x) (fst (snd y))) H g.
Lemma env_app H g G C : binds_as H g -> env_of p G C -> env_of p (H ++ G) (g ++ C).
Proof.
  intros B E. induction B as [|[x v] [y [t m]] H g [N X] B IH]; [exact E|]. cbn [fst snd] in N, X. subst y. intros y t' m' V. cbn [app var_of] in V. cbn [app hget].
  destruct (eqb_bytes x y); [|exact (IH y t' m' V)]. injection V as <- <-. exists v. split; [reflexivity|exact X].
Qed.
Lemma named_own n a : In a (type_names p) -> named n a = a.
Proof. intros I. unfold named. destruct (eqb_bytes a !"Self") eqn:E; [|reflexivity]. apply eqb_bytes_eq in E as ->. exfalso. eapply not_core; [exact I|vm_compute; reflexivity]. Qed.
Lemma variants_once e vs c x y : enum_variants p e vs -> In (c, x) vs -> In (c, y) vs -> x = y.
Proof.
  intros (d & I) A B. pose proof (po_items p POK) as F. rewrite Forall_forall in F. specialize (F _ I). inversion F as [| | |? ? ? D _ _| |]; subst. clear F I.
  induction vs as [|[c' z] vs IH]; [destruct A|]. cbn [map fst] in D. inversion D as [|? ? D1 D2]; subst. destruct A as [A|A], B as [B|B].
  - congruence.
  - exfalso. injection A as -> ->. apply D1. apply in_map_iff. exists (c, y). split; [reflexivity|exact B].
  - exfalso. injection B as -> ->. apply D1. apply in_map_iff. exists (c, x). split; [reflexivity|exact A].
  - exact (IH A B D2).
Qed.
Lemma bound_as n q t g : binds p n q t g -> forall v H, of_type v t -> bound n q v = Some H -> binds_as H g.
Proof.
  intros B. induction B as [t|x t|s|k K|e v vs E I|e v vs E I|e v vs t x E I|e v vs t x E I|v t x I|a b ta tb ga gb Ba IHa Bb IHb]; intros w H X Y.
  - cbn [bound] in Y. injection Y as <-. apply Forall2_nil.
  - cbn [bound] in Y. injection Y as <-. apply Forall2_cons; [split; [reflexivity|exact X]|apply Forall2_nil].
  - apply in_ref, in_text in X as (s' & ->). cbn [bound] in Y. destruct (eqb_bytes s s'); [|discriminate Y]. injection Y as <-. apply Forall2_nil.
  - apply in_num in X as (k' & ->). cbn [bound] in Y. destruct (k =? k'); [|discriminate Y]. injection Y as <-. apply Forall2_nil.
  - apply (in_enum _ _ _ E) in X as [(c & -> & _)|(c & t & x & -> & _)]; cbn [bound] in Y; [|discriminate Y]. destruct (_ && _); [|discriminate Y]. injection Y as <-. apply Forall2_nil.
  - apply in_ref in X. apply (in_enum _ _ _ E) in X as [(c & -> & _)|(c & t & x & -> & _)]; cbn [bound] in Y; [|discriminate Y]. destruct (_ && _); [|discriminate Y]. injection Y as <-. apply Forall2_nil.
  - apply (in_enum _ _ _ E) in X as [(c & -> & _)|(c & t' & y & -> & I' & X)]; cbn [bound] in Y; [discriminate Y|]. destruct (_ && _) eqn:Q; [|discriminate Y]. injection Y as <-.
    apply andb_prop in Q as [_ Q]. apply eqb_bytes_eq in Q as <-. pose proof (variants_once e vs v _ _ E I I') as Z. injection Z as <-. apply Forall2_cons; [split; [reflexivity|exact X]|apply Forall2_nil].
  - apply in_ref in X. apply (in_enum _ _ _ E) in X as [(c & -> & _)|(c & t' & y & -> & I' & X)]; cbn [bound] in Y; [discriminate Y|]. destruct (_ && _) eqn:Q; [|discriminate Y]. injection Y as <-.
    apply andb_prop in Q as [_ Q]. apply eqb_bytes_eq in Q as <-. pose proof (variants_once e vs v _ _ E I I') as Z. injection Z as <-. apply Forall2_cons; [split; [reflexivity|apply ot_ref, X]|apply Forall2_nil].
  - apply in_holder in X as [(y & -> & X)|[(_ & ->)|(_ & ->)]]; cbn [bound] in Y; try discriminate Y; [|left; reflexivity]. destruct (_ && _); [|discriminate Y]. injection Y as <-.
    apply Forall2_cons; [split; [reflexivity|exact X]|apply Forall2_nil].
  - apply in_pair in X as (x & y & -> & Xa & Xb). cbn [bound] in Y. destruct (bound n a x) as [Ga|] eqn:Ea; [|discriminate Y]. destruct (bound n b y) as [Gb|] eqn:Eb; [|discriminate Y]. injection Y as <-.
    apply Forall2_app; [exact (IHa _ _ Xa Ea)|exact (IHb _ _ Xb Eb)].
Qed.
Lemma sure_bound n q t g : binds p n q t g -> forall v, of_type v t -> sure q = true -> exists H, bound n q v = Some H.
Proof.
  intros B. induction B as [t|x t|s|k K|e v vs E I|e v vs E I|e v vs t x E I|e v vs t x E I|v t x I|a b ta tb ga gb Ba IHa Bb IHb]; intros w X Y; cbn [sure] in Y; try discriminate Y.
  - eexists; reflexivity.
  - eexists; reflexivity.
  - apply in_pair in X as (x & y & -> & Xa & Xb). apply andb_prop in Y as [Ya Yb]. destruct (IHa _ Xa Ya) as (Ga & Ea), (IHb _ Xb Yb) as (Gb & Eb). exists (Ga ++ Gb). cbn [bound]. rewrite Ea, Eb. reflexivity.
Qed.
Lemma path_bound n e vs c : enum_variants p e vs -> bound n (PPath e c) (VMake e c []) = Some [].
Proof. intros E. cbn [bound]. rewrite (named_own n e (enum_named _ _ E)), !eqb_bytes_refl. reflexivity. Qed.
Lemma tuple_bound n e vs c x v : enum_variants p e vs -> bound n (PTuple e c x) (VMake e c [v]) = Some [(x, v)].
Proof. intros E. cbn [bound]. rewrite (named_own n e (enum_named _ _ E)), !eqb_bytes_refl. reflexivity. Qed.
Lemma covered n pats t v : covers p pats t -> of_type v t -> exists q H, In q pats /\ bound n q v = Some H.
Proof.
  assert (X : forall e vs, enum_variants p e vs -> Forall (variant_covered e pats) vs -> of_type v (RName e) -> exists q H, In q pats /\ bound n q v = Some H).
  { intros e vs E F T. rewrite Forall_forall in F. apply (in_enum _ _ _ E) in T as [(c & -> & I)|(c & t' & y & -> & I & _)]; specialize (F _ I); cbn [variant_covered fst snd] in F.
    - eexists; eexists. split; [exact F|]. eapply path_bound, E.
    - destruct F as (x & F). eexists; eexists. split; [exact F|]. eapply tuple_bound, E. }
  intros C T. destruct C as [t I|e vs E F|e vs E N F].
  - exists PAny, []. split; [exact I|destruct v; reflexivity].
  - eapply X; eassumption.
  - apply in_ref in T. eapply X; eassumption.
Qed.
Lemma arm_found n C u t t' arms v q H : armed p n C u t t' arms -> of_type v t -> In q (map fst arms) -> bound n q v = Some H ->
  exists H e g, arm_for n v arms = Some (H, e) /\ binds_as H g /\ has p n (g ++ C) u e t'.
Proof.
  intros A T. induction arms as [|[q' e] arms IH]; cbn [map In fst]; intros I B; [destruct I|]. inversion A as [|? ? ? ? ? g ? ? Bq He Ar]; subst. cbn [arm_for].
  destruct (bound n q' v) as [H'|] eqn:E.
  - exists H', e, g. split; [reflexivity|]. split; [exact (bound_as _ _ _ _ Bq _ _ T E)|exact He].
  - destruct I as [->|I]; [rewrite E in B; discriminate B|]. exact (IH Ar I B).
Qed.

(* ------------------------------------------------------------------ *)
(** * Functions are found *)

Hypothesis NAMED : plainly_named p.
Lemma own_item n fns : In (IImpl n fns) p -> In n (type_names p) /\ NoDup (map f_name fns) /\ Forall (fn_ok p n) fns.
Proof. intros I. pose proof (po_items p POK) as F. rewrite Forall_forall in F. specialize (F _ I). inversion F; subst. tauto. Qed.
Lemma own_fns_are n fns : In (IImpl n fns) p -> own_fns p n = fns.
Proof.
  intros I. pose proof (po_impls p POK) as D. unfold own_fns, impl_names in *. clear NAMED POK. revert I D. generalize p. intros l. induction l as [|i l IH]; [intros []|]. intros I D.
  assert (Z : forall l', ~ In n (flat_map (fun i => match i with IImpl n _ => [n] | _ => [] end) l') -> flat_map (fun i => match i with IImpl m fns => if eqb_bytes m n then fns else [] | _ => [] end) l' = []).
  { intros l'. induction l' as [|j l' IH']; [reflexivity|]. intros N. cbn [flat_map] in *. rewrite IH' by (intros X; apply N, in_or_app; right; exact X). destruct j; try reflexivity.
    destruct (eqb_bytes n0 n) eqn:E; [|reflexivity]. apply eqb_bytes_eq in E as ->. exfalso. apply N. left. reflexivity. }
  cbn [flat_map] in *. destruct I as [->|I].
  - rewrite eqb_bytes_refl. cbn [app] in D. inversion D as [|? ? D1 D2]; subst. rewrite Z by exact D1. apply app_nil_r.
  - destruct i; try exact (IH I D). cbn [app] in D. inversion D as [|? ? D1 D2]; subst. destruct (eqb_bytes n0 n) eqn:E; [|exact (IH I D2)]. apply eqb_bytes_eq in E as ->. exfalso. apply D1.
    apply in_flat_map. exists (IImpl n fns). split; [exact I|left; reflexivity].
Qed.
Lemma named_in f fns : NoDup (map f_name fns) -> In f fns -> fn_named (f_name f) fns = Some f.
Proof.
  unfold fn_named. induction fns as [|g fns IH]; [intros _ []|]. cbn [map find In]. intros D I. inversion D as [|? ? D1 D2]; subst. destruct I as [->|I]; [rewrite eqb_bytes_refl; reflexivity|].
  destruct (eqb_bytes (f_name g) (f_name f)) eqn:E; [|exact (IH D2 I)]. apply eqb_bytes_eq in E. exfalso. apply D1. rewrite E. apply in_map, I.
Qed.
Lemma named_app f l l' : fn_named f (l ++ l') = match fn_named f l with Some g => Some g | None => fn_named f l' end.
Proof. unfold fn_named. induction l as [|g l IH]; [reflexivity|]. cbn [app find]. destruct (eqb_bytes (f_name g) f); [reflexivity|exact IH]. Qed.
Lemma fn_found n f : fn_of p n f -> fn_named (f_name f) (own_fns p n) = Some f /\ fn_ok p n f /\ In n (type_names p).
Proof.
  intros (fns & I & J). destruct (own_item _ _ I) as (N & D & F). rewrite (own_fns_are _ _ I). split; [apply named_in; assumption|]. rewrite Forall_forall in F. split; [apply F, J|exact N].
Qed.
Lemma own_fns_in n f : In f (own_fns p n) -> fn_of p n f.
Proof.
  unfold own_fns, fn_of. intros H. apply in_flat_map in H as (i & I & H). destruct i; try destruct H. destruct (eqb_bytes n0 n) eqn:E; [|destruct H]. apply eqb_bytes_eq in E as ->. exists fns. split; assumption.
Qed.
Lemma from_found n t : made_from p n t -> (forall f, fn_of p n f -> f_name f <> !"from") -> exists f, fn_named !"from" (own_fns p n ++ trait_fns p n) = Some f /\ fn_ok p n f /\ In n (type_names p) /\
  f_self f = NoSelf /\ (exists x t', f_args f = [(x, t')] /\ of_ty n t' = t) /\ exists r, f_ret f = Some r /\ of_ty n r = RName n.
Proof.
  intros (t' & fns & I & T) NO. pose proof (po_items p POK) as F. rewrite Forall_forall in F. specialize (F _ I). inversion F as [| | | | |? ? f x N FO FN FS FU FA FR]; subst. exists f.
  assert (E : trait_fns p n = [f]).
  { pose proof (pn_from p NAMED) as D. unfold trait_fns, from_names in *. clear - I D. revert I D. generalize p. intros l. induction l as [|i l IH]; [intros []|]. intros I D.
    assert (Z : forall l', ~ In n (flat_map (fun i => match i with IImplFor _ n _ => [n] | _ => [] end) l') -> flat_map (fun i => match i with IImplFor _ m fns => if eqb_bytes m n then fns else [] | _ => [] end) l' = []).
    { intros l'. induction l' as [|j l' IH']; [reflexivity|]. intros N. cbn [flat_map] in *. rewrite IH' by (intros X; apply N, in_or_app; right; exact X). destruct j; try reflexivity.
      destruct (eqb_bytes n0 n) eqn:E; [|reflexivity]. apply eqb_bytes_eq in E as ->. exfalso. apply N. left. reflexivity. }
    cbn [flat_map] in *. destruct I as [->|I].
    - rewrite eqb_bytes_refl. cbn [app] in D. inversion D as [|? ? D1 D2]; subst. rewrite Z by exact D1. apply app_nil_r.
    - destruct i; try exact (IH I D). cbn [app] in D. inversion D as [|? ? D1 D2]; subst. destruct (eqb_bytes n0 n) eqn:E; [|exact (IH I D2)]. apply eqb_bytes_eq in E as ->. exfalso. apply D1.
      apply in_flat_map. exists (IImplFor (TyApp !"From" t') n [f]). split; [exact I|left; reflexivity]. }
  split; [|split; [exact FO|split; [exact N|split; [exact FS|split; [exists x, t'; split; [exact FA|reflexivity]|exact FR]]]]].
  rewrite named_app, E. destruct (fn_named !"from" (own_fns p n)) as [g|] eqn:G.
  - exfalso. unfold fn_named in G. apply find_some in G as [G1 G2]. apply eqb_bytes_eq in G2. exact (NO g (own_fns_in _ _ G1) G2).
  - unfold fn_named. cbn [find]. rewrite FN, eqb_bytes_refl. reflexivity.
Qed.
Lemma variant_found n vs v o : enum_variants p n vs -> In (v, o) vs -> fn_named v (own_fns p n ++ trait_fns p n) = None /\ is_variant p n v = true.
Proof.
  intros E I. split.
  - destruct (fn_named v _) as [f|] eqn:F; [|reflexivity]. exfalso. unfold fn_named in F. apply find_some in F as [F1 F2]. apply eqb_bytes_eq in F2 as <-.
    apply (pn_variants p NAMED n vs f E F1). apply in_map_iff. exists (f_name f, o). split; [reflexivity|exact I].
  - destruct E as (d & E). unfold is_variant. apply existsb_exists. eexists. split; [exact E|]. cbn beta iota. rewrite eqb_bytes_refl. cbn [andb]. apply existsb_exists. exists (v, o). split; [exact I|apply eqb_bytes_refl].
Qed.
(** names of the program are not those of dochy_core *)
Lemma assoc_own ev n f vs : In n (type_names p) -> assoc p iter r told ev n f vs =
  match fn_named f (own_fns p n ++ trait_fns p n) with Some g => enter ev n g None vs | None => if is_variant p n f then ret (VMake n f vs) else stuck end.
Proof.
  intros N. assert (NC : forall l, forallb (fun x => existsb (eqb_bytes x) core_names) l = true -> existsb (eqb_bytes n) l = false).
  { intros l A. destruct (existsb (eqb_bytes n) l) eqn:E; [|reflexivity]. apply existsb_exists in E as (x & I & E). apply eqb_bytes_eq in E as <-. rewrite forallb_forall in A. exfalso. exact (not_core n N (A n I)). }
  assert (NE : forall x, existsb (eqb_bytes x) core_names = true -> eqb_bytes n x = false).
  { intros x A. destruct (eqb_bytes n x) eqn:E; [|reflexivity]. apply eqb_bytes_eq in E as <-. exfalso. exact (not_core n N A). }
  unfold assoc. assert (CF : core_fn n f = None).
  { unfold core_fn. assert (X : hget n modules = None); [|rewrite X; reflexivity].
    assert (Y : existsb (eqb_bytes n) (map fst modules) = false) by (apply NC; vm_compute; reflexivity).
    revert Y. generalize modules. intros l. induction l as [|[k x] l IH]; [reflexivity|]. cbn [map fst existsb hget]. intros Y. apply orb_false_elim in Y as [Y1 Y2].
    destruct (eqb_bytes k n) eqn:K; [|exact (IH Y2)]. apply eqb_bytes_eq in K as ->. rewrite eqb_bytes_refl in Y1. discriminate Y1. }
  rewrite CF. unfold one_of. rewrite (NC guards), (NC holders), (NE !"Box"), (NE !"RootObjectPtr"); [reflexivity|vm_compute; reflexivity..].
Qed.
Lemma not_holder n : In n (type_names p) -> one_of holders n = false.
Proof.
  intros N. unfold one_of. destruct (existsb (eqb_bytes n) holders) eqn:E; [|reflexivity]. apply existsb_exists in E as (x & I & E). apply eqb_bytes_eq in E as <-. exfalso. apply (not_core n N).
  assert (A : forallb (fun x => existsb (eqb_bytes x) core_names) holders = true) by (vm_compute; reflexivity). rewrite forallb_forall in A. exact (A n I).
Qed.
End Program.
