(** Proof of C79: evaluation. *)
From Coq Require Import String.
From Verif Require Import Base StringCompactionModel StringCompactionProofs LinkedModel LinkedSpec DocModel DiffSpec DiffProofs ArchiveModel JsonModel IntfModel IntfProofs GenModel GenSpec CodeSpec ApiModel TypeSpec TypeProofs ReadModel RunModel RunSpec SoundSpec SoundProofs.

Local Notation text := (list Z).
Local Notation "! s" := (txt s%string) (at level 0, s at level 0).

Section Program.
Variable p : list CodeSpec.item.
Variable out : res (val * trace).
Hypothesis POK : program_ok p.
Hypothesis NAMED : plainly_named p.
Hypothesis OUT : out = Err \/ out = Panic.
Variable iter : forall A, hmap A -> hmap A.
Variable r : root_obj.
Variable told : effect -> bool.
Local Notation sound := (SoundSpec.sound p out).
Local Notation of_type := (SoundSpec.of_type p).

Section Step.
Variable ev : text -> env -> expr -> M val.
Hypothesis EV : forall n C u e t G, env_of p G C -> has p n C u e t -> sound (ev n G e) (fun v => of_type v t).
Hypothesis EL : forall n C e t o m G, env_of p G C -> located p C e t o m -> sound (ev n G e) (fun v => of_type v t).
Hypothesis EA : forall n C u es t G, env_of p G C -> given p n C u es (map (fun _ => t) es) -> sound (ev n G (EArray es)) (fun v => of_type v (RSlice t)).

Lemma each_sound n C u G es : forall ts, env_of p G C -> given p n C u es ts -> sound (each ev n G es) (fun vs => Forall2 of_type vs ts).
Proof.
  induction es as [|e es IH]; intros ts E H; inversion H as [|? ? ? t t' ? ts' X F Y]; subst; cbn [each].
  - apply sound_ret. apply Forall2_nil.
  - eapply sound_seq; [exact (EV n C u e t' G E X)|]. intros v V. cbn beta in V. eapply sound_seq; [exact (IH ts' E Y)|]. intros vs W. apply sound_ret. apply Forall2_cons; [exact (fits_type p POK _ _ _ F V)|exact W].
Qed.
Lemma lets_sound n u ss : forall C C' G, env_of p G C -> stmts_ok p n u C ss C' -> sound (lets ev n G ss) (fun G' => env_of p G' C').
Proof.
  induction ss as [|s ss IH]; intros C C' G E H; inversion H as [|? x m e t ? ? X Y|? q e t g ? ? SU X B Y|? e t ? ? X Y]; subst; cbn [lets].
  - apply sound_ret, E.
  - eapply sound_seq; [exact (EV n C u e t G E X)|]. intros v V. cbn beta in V. cbn [bound]. apply IH with (C := (x, (t, m)) :: C); [|exact Y].
    apply (env_app p [(x, v)] [(x, (t, m))]); [|exact E]. apply Forall2_cons; [split; [reflexivity|exact V]|apply Forall2_nil].
  - eapply sound_seq; [exact (EV n C u e t G E X)|]. intros v V. cbn beta in V. destruct (sure_bound p n q t g B v V SU) as (H' & BH). rewrite BH. apply IH with (C := g ++ C); [|exact Y].
    apply env_app; [|exact E]. exact (bound_as p POK n q t g B v H' V BH).
  - eapply sound_seq; [exact (EV n C u e t G E X)|]. intros v _. exact (IH C C' G E Y).
Qed.
Lemma var_of_app y a b : var_of y (a ++ b) = match var_of y a with Some x => Some x | None => var_of y b end.
Proof. induction a as [|[k x] a IH]; [reflexivity|]. cbn [app var_of]. destruct (eqb_bytes k y); [reflexivity|exact IH]. Qed.
Lemma args_env n (l : list (text * ty)) y t m : forall args, Forall2 of_type args (map (fun x => of_ty n (snd x)) l) ->
  var_of y (map (fun a => (fst a, (of_ty n (snd a), false))) l) = Some (t, m) -> In y (map fst l) /\ exists v, hget y (combine (map fst l) args) = Some v /\ of_type v t.
Proof.
  induction l as [|[x a] l IH]; intros args F V; [discriminate V|]. cbn [map fst snd] in F. inversion F as [|v ? vs ? X F']; subst. cbn [map fst snd var_of] in V. cbn [map fst combine hget In].
  destruct (eqb_bytes x y) eqn:E.
  - apply eqb_bytes_eq in E as ->. injection V as <- <-. split; [left; reflexivity|]. exists v. split; [reflexivity|exact X].
  - destruct (IH vs F' V) as (I & W). split; [right; exact I|exact W].
Qed.
Lemma enter_returned n f self args : fn_ok p n f -> args_typed p n f args -> self_typed p n (f_self f) self -> sound (enter ev n f self args) (returned p n f).
Proof.
  intros F A ST. destruct (fo_body p n f F) as (C & SS & B). unfold enter, returned.
  set (G0 := match self with Some v => [(!"self", v)] | None => [] end ++ combine (map fst (f_args f)) args).
  assert (E : env_of p G0 (map (fun a => (fst a, (of_ty n (snd a), false))) (f_args f) ++ self_of n (f_self f))).
  { destruct (fo_args p n f F) as (D & NS). intros y ty m V. rewrite var_of_app in V. destruct (var_of y (map _ (f_args f))) as [[ty' m']|] eqn:VA.
    - injection V as -> ->. destruct (args_env n (f_args f) y ty m args A VA) as (I & v & HG & T). exists v. split; [|exact T]. unfold G0. destruct self as [x|]; [|exact HG]. cbn [app hget].
      destruct (eqb_bytes !"self" y) eqn:Q; [|exact HG]. apply eqb_bytes_eq in Q as <-. exfalso. exact (NS I).
    - unfold self_of in V. unfold self_typed in ST. destruct (f_self f); [discriminate V| | |]; destruct ST as (v & -> & T); cbn [var_of] in V; destruct (eqb_bytes !"self" y) eqn:Q; try discriminate V; injection V as <- <-;
        exists v; unfold G0; cbn [app hget]; rewrite Q; (split; [reflexivity|]); [exact T|apply ot_ref, T|apply ot_mut, T]. }
  eapply sound_seq; [exact (lets_sound n _ _ _ _ _ E SS)|]. intros G EG. cbn beta in EG.
  destruct (f_ret f) as [t|], (f_value f) as [e|]; [|contradiction B|contradiction B|apply sound_ret; reflexivity]. inversion B as [|? ? ? ? t' ? ? X FT _]; subst.
  eapply sound_seq; [exact (EV n C _ e t' G EG X)|]. intros v V. cbn beta in V. apply sound_ret. apply stamp_type. exact (fits_type p POK _ _ _ FT V).
Qed.
Lemma enter_sound n f self args t : fn_ok p n f -> Forall2 of_type args (map (fun x => of_ty n (snd x)) (f_args f)) -> self_typed p n (f_self f) self -> f_ret f = Some t ->
  sound (enter ev n f self args) (fun v => of_type v (of_ty n t)).
Proof. intros F A ST R. pose proof (enter_returned n f self args F A ST) as H. unfold returned in H. rewrite R in H. exact H. Qed.
Lemma apply_sound g x a b : of_type g (RFun a b) -> of_type x a -> sound (apply ev g x) (fun v => of_type v b).
Proof.
  intros H X. apply in_fun in H as (n & y & e & G & C & u & -> & E & He). cbn [apply]. apply (EV n ((y, (a, false)) :: C) u e b); [|exact He].
  apply (env_app p [(y, x)] [(y, (a, false))]); [|exact E]. apply Forall2_cons; [split; [reflexivity|exact X]|apply Forall2_nil].
Qed.
Lemma receives_sound n C u rc e t G : env_of p G C -> receives p n C u rc e t -> rc <> NoSelf /\ sound (ev n G e) (fun v => of_type v t).
Proof.
  intros E H. inversion H; subst; (split; [discriminate|]).
  - eapply EV; eassumption.
  - eapply sound_imp; [|eapply EV; eassumption]. intros v V. apply in_ref in V. exact V.
  - eapply EL; eassumption.
  - eapply EL; eassumption.
Qed.
Lemma step_located n C e t o m G : env_of p G C -> located p C e t o m -> sound (eval_step p iter r told ev n G e) (fun v => of_type v t).
Proof.
  intros E H. inversion H as [x ? ? V N|e' n' fields x ty ? ? L F I|e' n' fields x ty o' m' L F I|e' n' fields x ty o' m' L F I|e' ? ? ? L]; subst; cbn [eval_step].
  - rewrite N. destruct (E _ _ _ V) as (v & HG & T). eapply sound_here; [exact HG|exact T].
  - eapply sound_seq; [exact (EL n C e' _ _ _ G E L)|]. intros v V. cbn beta in V. apply (in_struct p POK _ _ _ F) in V as (fs & -> & W). destruct (W _ _ I) as (v & HG & T). eapply sound_here; [exact HG|exact T].
  - eapply sound_seq; [exact (EL n C e' _ _ _ G E L)|]. intros v V. cbn beta in V. apply in_ref in V. apply (in_struct p POK _ _ _ F) in V as (fs & -> & W). destruct (W _ _ I) as (v & HG & T). eapply sound_here; [exact HG|exact T].
  - eapply sound_seq; [exact (EL n C e' _ _ _ G E L)|]. intros v V. cbn beta in V. apply in_mut in V. apply (in_struct p POK _ _ _ F) in V as (fs & -> & W). destruct (W _ _ I) as (v & HG & T). eapply sound_here; [exact HG|exact T].
  - eapply sound_seq; [exact (EL n C e' _ _ _ G E L)|]. intros v V. cbn beta in V. apply in_box in V as (x & -> & T). apply sound_ret, T.
Qed.
Lemma step_array n C u es t G : env_of p G C -> given p n C u es (map (fun _ => t) es) -> sound (eval_step p iter r told ev n G (EArray es)) (fun v => of_type v (RSlice t)).
Proof.
  intros E H. cbn [eval_step]. eapply sound_seq; [exact (each_sound n C u G es _ E H)|]. intros vs F. cbn beta in F. apply sound_ret. apply ot_slice. intros v I.
  clear H. revert es F. induction vs as [|x vs IH]; intros es F; [destruct I|]. destruct es as [|e es]; cbn [map] in F; inversion F as [|? ? ? ? X F']; subst. destruct I as [->|I]; [exact X|exact (IH I es F')].
Qed.

(** those of dochy_core *)
Ltac entry E := apply pair_equal_spec in E as [<- E]; apply pair_equal_spec in E as [<- E]; apply pair_equal_spec in E as [<- E]; apply pair_equal_spec in E as [GS E]; apply pair_equal_spec in E as [GA GR].
Ltac args F := cbn [map subst] in F; repeat match type of F with
  | Forall2 _ _ (_ :: _) => let F' := fresh "F" in let A := fresh "A" in inversion F as [|? ? ? ? A F']; subst; clear F; rename F' into F
  | Forall2 _ _ [] => inversion F; subst; clear F
  end.
Lemma from_qv_sound h v t : In h [!"NullOr"; !"UndefOr"] -> of_type v (RApp !"Qv" t) -> sound (from_qv h v) (fun v => of_type v (RApp !"Option" (RApp h t))).
Proof.
  intros I V. apply in_holder in V as [(x & -> & X)|[(_ & ->)|(_ & ->)]]; [| | |left; reflexivity].
  - change (from_qv h (VMake !"Qv" !"Val" [x])) with (ret (some (VMake h !"Val" [x])) : M val). apply sound_ret. apply ot_some, ot_val; [right; exact I|exact X].
  - destruct I as [<-|[<-|[]]].
    + change (from_qv !"NullOr" (VMake !"Qv" !"Null" [])) with (ret (some (VMake !"NullOr" !"Null" [])) : M val). apply sound_ret. apply ot_some, ot_null. right; left; reflexivity.
    + change (from_qv !"UndefOr" (VMake !"Qv" !"Null" [])) with (ret none : M val). apply sound_ret. apply ot_none.
  - destruct I as [<-|[<-|[]]].
    + change (from_qv !"NullOr" (VMake !"Qv" !"Undefined" [])) with (ret none : M val). apply sound_ret. apply ot_none.
    + change (from_qv !"UndefOr" (VMake !"Qv" !"Undefined" [])) with (ret (some (VMake !"UndefOr" !"Undefined" [])) : M val). apply sound_ret. apply ot_some, ot_undefined. right; left; reflexivity.
Qed.
Lemma assoc_sound n a f self_ g s vs : type_fn a f = Some (self_, g) -> g_self g = NoSelf -> Forall2 of_type vs (map (subst s) (g_args g)) ->
  sound (assoc p iter r told ev (named n a) f vs) (fun v => of_type v (subst s (g_ret g))).
Proof.
  intros TF NS F. apply type_fn_in in TF. rewrite impls_are, NS in TF. cbn [impl_list holder_fns app In] in TF.
  repeat match type of TF with _ \/ _ => destruct TF as [E|TF]; [first [exfalso; apply pair_equal_spec in E as [_ E]; apply pair_equal_spec in E as [_ E]; apply pair_equal_spec in E as [_ E]; apply pair_equal_spec in E as [E _]; discriminate E|entry E; rewrite <- GA in F; rewrite <- GR; args F]|] | False => destruct TF end.
  - match goal with A : of_type ?v (RApp !"CListPtr" _) |- SoundSpec.sound _ _ (assoc _ _ _ _ _ ?n ?f ?vs) _ => change (assoc p iter r told ev n f vs) with (ret (VGuard !"CListConst" None v) : M val) end.
    apply sound_ret. apply ot_guard_clist. assumption.
  - match goal with |- SoundSpec.sound _ _ (assoc _ _ _ _ _ ?n ?f [?v; ?u]) _ => change (assoc p iter r told ev n f [v; u]) with (ret (VGuard !"CItemConst" None v) : M val) end.
    apply sound_ret. apply ot_guard; [right; left; reflexivity|assumption].
  - match goal with |- SoundSpec.sound _ _ (assoc _ _ _ _ _ ?n ?f [?v; ?u]) _ => change (assoc p iter r told ev n f [v; u]) with (ret (VGuard !"CTableConst" None v) : M val) end.
    apply sound_ret. apply ot_guard; [left; reflexivity|assumption].
  - match goal with |- SoundSpec.sound _ _ (assoc _ _ _ _ _ ?n ?f [?v; ?u]) _ => change (assoc p iter r told ev n f [v; u]) with (ret (VGuard !"MListConst" None v) : M val) end.
    apply sound_ret. apply ot_guard_mlist; [left; reflexivity|assumption].
  - match goal with |- SoundSpec.sound _ _ (assoc _ _ _ _ _ ?n ?f [?v; ?u]) _ => change (assoc p iter r told ev n f [v; u]) with (ret (VGuard !"MListMut" None v) : M val) end.
    apply sound_ret. apply ot_guard_mlist; [right; left; reflexivity|assumption].
  - match goal with |- SoundSpec.sound _ _ (assoc _ _ _ _ _ ?n ?f [?v]) _ => change (assoc p iter r told ev n f [v]) with (ret v : M val) end.
    apply sound_ret. match goal with A : of_type _ (RPtrMut _) |- _ => inversion A; subst end. match goal with A : of_type _ (RName !"RootObject") |- _ => apply in_root in A as ->; [apply ot_root_ptr|exact POK] end.
  - match goal with |- SoundSpec.sound _ _ (assoc _ _ _ _ _ ?n ?f [?v]) _ => change (assoc p iter r told ev n f [v]) with (from_qv !"NullOr" v) end.
    apply from_qv_sound; [left; reflexivity|assumption].
  - match goal with |- SoundSpec.sound _ _ (assoc _ _ _ _ _ ?n ?f [?v]) _ => change (assoc p iter r told ev n f [v]) with (from_qv !"UndefOr" v) end.
    apply from_qv_sound; [right; left; reflexivity|assumption].
  - match goal with |- SoundSpec.sound _ _ (assoc _ _ _ _ _ ?n ?f [?v]) _ => change (assoc p iter r told ev n f [v]) with (ret (VBox v) : M val) end.
    apply sound_ret. apply ot_box. assumption.
Qed.
Lemma map_sound h v g a b : In h [!"Qv"; !"NullOr"; !"UndefOr"] -> of_type v (RApp h a) -> of_type g (RFun a b) -> sound (method_of p r ev v !"map" [g]) (fun v => of_type v (RApp h b)).
Proof.
  intros I V X. assert (OH : one_of holders h = true) by (destruct I as [<-|[<-|[<-|[]]]]; reflexivity). apply (in_holder p _ _ _ I) in V as [(x & -> & T)|[(J & ->)|(J & ->)]]; cbn [method_of]; rewrite OH.
  - change (holder_fn (apply ev) h !"Val" [x] !"map" [g]) with (seq (apply ev g x) (fun y => ret (VMake h !"Val" [y]))). eapply sound_seq; [exact (apply_sound g x a b X T)|]. intros y Y. apply sound_ret. apply ot_val; assumption.
  - change (holder_fn (apply ev) h !"Null" [] !"map" [g]) with (ret (VMake h !"Null" []) : M val). apply sound_ret. apply ot_null, J.
  - change (holder_fn (apply ev) h !"Undefined" [] !"map" [g]) with (ret (VMake h !"Undefined" []) : M val). apply sound_ret. apply ot_undefined, J.
Qed.
Lemma into_qv_sound h v a : In h [!"Qv"; !"NullOr"; !"UndefOr"] -> of_type v (RApp h a) -> sound (method_of p r ev v !"into_qv" []) (fun v => of_type v (RApp !"Qv" a)).
Proof.
  intros I V. assert (OH : one_of holders h = true) by (destruct I as [<-|[<-|[<-|[]]]]; reflexivity). apply (in_holder p _ _ _ I) in V as [(x & -> & T)|[(J & ->)|(J & ->)]]; cbn [method_of]; rewrite OH.
  - change (holder_fn (apply ev) h !"Val" [x] !"into_qv" []) with (ret (VMake !"Qv" !"Val" [x]) : M val). apply sound_ret. apply ot_val; [left; reflexivity|exact T].
  - change (holder_fn (apply ev) h !"Null" [] !"into_qv" []) with (ret (VMake !"Qv" !"Null" []) : M val). apply sound_ret. apply ot_null. left; reflexivity.
  - change (holder_fn (apply ev) h !"Undefined" [] !"into_qv" []) with (ret (VMake !"Qv" !"Undefined" []) : M val). apply sound_ret. apply ot_undefined. left; reflexivity.
Qed.
Lemma method_sound a f self_ g s v vs : type_fn a f = Some (self_, g) -> g_self g <> NoSelf -> of_type v (subst s self_) -> Forall2 of_type vs (map (subst s) (g_args g)) ->
  sound (method_of p r ev v f vs) (fun v => of_type v (subst s (g_ret g))).
Proof.
  intros TF NS V F. apply type_fn_in in TF. rewrite impls_are in TF. cbn [impl_list holder_fns app In] in TF.
  repeat match type of TF with _ \/ _ => destruct TF as [E|TF]; [entry E; first [exfalso; apply NS; symmetry; exact GS|rewrite <- GA in F; rewrite <- GR; args F; cbn [subst optional] in V |- *]|] | False => destruct TF end.
  - apply in_root_ptr in V as ->; [|exact POK]. match goal with |- SoundSpec.sound _ _ ?m _ => change m with (ret (VPtr PDef) : M val) end. apply sound_ret. apply ot_ptr, ot_def.
  - eapply map_sound; [left; reflexivity|exact V|assumption].
  - apply in_holder in V as [(x & -> & T)|[(J & ->)|(J & ->)]]; [| | |left; reflexivity].
    + match goal with |- SoundSpec.sound _ _ ?m _ => change m with (ret (some x) : M val) end. apply sound_ret. apply ot_some, T.
    + match goal with |- SoundSpec.sound _ _ ?m _ => change m with (ret none : M val) end. apply sound_ret. apply ot_none.
    + match goal with |- SoundSpec.sound _ _ ?m _ => change m with (ret none : M val) end. apply sound_ret. apply ot_none.
  - eapply into_qv_sound; [left; reflexivity|exact V].
  - eapply map_sound; [right; left; reflexivity|exact V|assumption].
  - eapply into_qv_sound; [right; left; reflexivity|exact V].
  - eapply map_sound; [right; right; left; reflexivity|exact V|assumption].
  - eapply into_qv_sound; [right; right; left; reflexivity|exact V].
  - apply in_option in V as [(x & -> & T)| ->].
    + match goal with |- SoundSpec.sound _ _ ?m _ => change m with (ret x : M val) end. apply sound_ret, T.
    + match goal with |- SoundSpec.sound _ _ ?m _ => change m with (panic : M val) end. apply sound_panic.
  - match goal with X : of_type ?g (RFun _ _) |- _ => rename g into h; rename X into XH end. apply in_option in V as [(x & -> & T)| ->].
    + match goal with |- SoundSpec.sound _ _ ?m _ => change m with (seq (apply ev h x) (fun y => ret (VMake !"Option" !"Some" [y]))) end. eapply sound_seq; [exact (apply_sound _ x _ _ XH T)|]. intros y Y. apply sound_ret. apply ot_some, Y.
    + match goal with |- SoundSpec.sound _ _ ?m _ => change m with (ret none : M val) end. apply sound_ret. apply ot_none.
  - apply in_box in V as (x & -> & T). match goal with |- SoundSpec.sound _ _ ?m _ => change m with (ret x : M val) end. apply sound_ret, ot_ref, T.
  - apply in_box in V as (x & -> & T). match goal with |- SoundSpec.sound _ _ ?m _ => change m with (ret x : M val) end. apply sound_ret, ot_mut, T.
  - apply in_text in V as (x & ->); [|exact POK]. match goal with |- SoundSpec.sound _ _ ?m _ => change m with (ret (VOf (CString x)) : M val) end. apply sound_ret, ot_string.
Qed.
Lemma own_sound a f v vs t : fn_of p a f -> f_self f <> NoSelf -> of_type v (RName a) -> Forall2 of_type vs (map (fun x => of_ty a (snd x)) (f_args f)) -> f_ret f = Some t ->
  sound (method_of p r ev v (f_name f) vs) (fun v => of_type v (of_ty a t)).
Proof.
  intros F S_ V A R. destruct (fn_found p POK a f F) as (FN & FO & I).
  assert (X : sound (own_method p ev a v (f_name f) vs) (fun v => of_type v (of_ty a t))).
  { unfold own_method. rewrite FN. apply enter_sound; try assumption. unfold self_typed. destruct (f_self f); [exfalso; apply S_; reflexivity| | |]; exists v; split; [reflexivity|exact V|reflexivity|exact V|reflexivity|exact V]. }
  pose proof I as J. unfold type_names in J. apply in_flat_map in J as (i & J & K). destruct i as [path|tr m|d m fields|d m variants|m fns|tr m fns]; cbn [In] in K; try contradiction K; destruct K as [->|[]].
  - apply (in_struct p POK v a fields) in V as (fs & -> & _); [exact X|]. exists d. exact J.
  - apply (in_enum p POK v a variants) in V as [(c & -> & _)|(c & t' & x & -> & _)]; [| |exists d; exact J]; cbn [method_of]; rewrite (not_holder p POK a I); exact X.
Qed.
Lemma fields_sound G C n a u fields : env_of p G C -> ~ In !"None" (map fst fields) -> given p n C u (map (fun x => EVar (fst x)) fields) (map (fun x => of_ty a (snd x)) fields) ->
  exists fs, fields_of G (map fst fields) = Some fs /\ forall x t, In (x, t) fields -> NoDup (map fst fields) -> exists v, hget x fs = Some v /\ of_type v (of_ty a t).
Proof.
  intros E. induction fields as [|[x t] fields IH]; cbn [map fst snd fields_of]; intros N H; [exists []; split; [reflexivity|intros x t []]|]. inversion H as [|? ? ? ? t' ? ? X F Y]; subst.
  destruct IH as (fs & EF & W); [intros Z; apply N; right; exact Z|exact Y|].
  assert (Z : exists v, hget x G = Some v /\ of_type v t').
  { inversion X as [? ? ? ? ? L|? ? ? ? ? ? L _| | | | | | | | | |? ? ? NV EN| | | | | | | | | | | | | | |]; subst.
    - inversion L; subst. eapply E; eassumption.
    - inversion L; subst. eapply E; eassumption.
    - exfalso. apply N. left. reflexivity. }
  destruct Z as (v & HG & T). rewrite HG, EF. eexists. split; [reflexivity|]. intros y ty I D. inversion D as [|? ? D1 D2]; subst. cbn [hget]. destruct I as [I|I].
  - injection I as <- <-. rewrite eqb_bytes_refl. exists v. split; [reflexivity|exact (fits_type p POK _ _ _ F T)].
  - destruct (eqb_bytes x y) eqn:Q; [apply eqb_bytes_eq in Q as ->; exfalso; apply D1; apply in_map_iff; exists (y, ty); split; [reflexivity|exact I]|]. exact (W y ty I D2).
Qed.
Lemma core_not_self m f q n : core_fn m f = Some q -> named n m = m.
Proof.
  intros H. unfold named. destruct (eqb_bytes m !"Self") eqn:E; [|reflexivity]. apply eqb_bytes_eq in E as ->. unfold core_fn in H.
  change (hget !"Self" modules) with (@None (list (text * prim))) in H. discriminate H.
Qed.
Lemma struct_nodup n fields : struct_fields p n fields -> NoDup (map fst fields).
Proof. intros (d & I). pose proof (po_items p POK) as F. rewrite Forall_forall in F. specialize (F _ I). inversion F; subst. assumption. Qed.
Lemma from_self n a : In a (type_names p) -> named n a = a. Proof. apply named_own, POK. Qed.

Lemma step_has n C u e t G : env_of p G C -> has p n C u e t -> sound (eval_step p iter r told ev n G e) (fun v => of_type v t).
Proof.
  intros E H. destruct H as
    [C u e t m L|C u e t o m L _|C u s|C u k K|C u m f args g s MF NS B GV|C u a f args self_ g s TF NS B GV|C u a f args FO NS UN GV t R|C u a e t NO MF GV|C u a v vs e t EV_ I GV|C u v e t I GV
    |C u a v vs EV_ I|C u e t N GV|C u t N|C u e f args a self_ g s TF B RC GV|C u e args a f FO UN RC GV t R|C u e t o m L|C u a b ta tb Ha Hb|C u a fields SF NN GV|C u mv x e a b He
    |C u e t o m arms t' L AR CO|C u q e t g a b t' He B Ha Hb|C u t|C u s es ts t PR HO|C u e t He|C u e i t He Hi _|C u es t GV|C u e t He].
  - exact (step_located n C e t true m G E L).
  - exact (step_located n C e t o m G E L).
  - cbn [eval_step]. apply sound_ret, ot_ref, ot_str.
  - cbn [eval_step]. apply sound_ret, ot_usize.
  - cbn [eval_step]. eapply sound_seq; [exact (each_sound n C u G args _ E GV)|]. intros vs F. cbn beta in F. destruct (module_prim m f g MF) as (q & CF & I). rewrite (core_not_self m f q n CF). unfold assoc. rewrite CF.
    exact (core_sound p out POK iter r told q _ _ s vs I F).
  - cbn [eval_step]. eapply sound_seq; [exact (each_sound n C u G args _ E GV)|]. intros vs F. cbn beta in F. exact (assoc_sound n a f self_ g s vs TF NS F).
  - cbn [eval_step]. eapply sound_seq; [exact (each_sound n C u G args _ E GV)|]. intros vs F. cbn beta in F. destruct (fn_found p POK _ f FO) as (FN & OKF & I).
    rewrite (assoc_own p POK iter r told ev (named n a) (f_name f) vs I), named_app, FN. apply enter_sound; try assumption. rewrite NS. reflexivity.
  - cbn [eval_step]. eapply sound_seq; [exact (each_sound n C u G [e] _ E GV)|]. intros vs F. cbn beta in F. destruct (from_found p POK NAMED a t MF NO) as (f & FN & OKF & I & NS & (x & t' & FA & T) & r' & R & TR).
    rewrite (from_self n a I), (assoc_own p POK iter r told ev a _ vs I), FN. rewrite <- TR. apply enter_sound; try assumption; [|rewrite NS; reflexivity]. rewrite FA. cbn [map snd]. rewrite T. exact F.
  - cbn [eval_step]. eapply sound_seq; [exact (each_sound n C u G [e] _ E GV)|]. intros ws F. cbn beta in F. inversion F as [|w ? ws' ? W F']; subst. inversion F'; subst.
    rewrite (assoc_own p POK iter r told ev _ _ _ (enum_named p _ _ EV_)). destruct (variant_found p NAMED _ vs v (Some t) EV_ I) as (FN & IV). rewrite FN, IV. apply sound_ret. eapply ot_variant; eassumption.
  - cbn [eval_step]. eapply sound_seq; [exact (each_sound n C u G [e] _ E GV)|]. intros ws F. cbn beta in F. inversion F as [|w ? ws' ? W F']; subst. inversion F'; subst.
    unfold qv_variants in I. cbn [In] in I. destruct I as [I|[I|[I|[]]]]; [|discriminate I|discriminate I]. injection I as <-.
    match goal with |- SoundSpec.sound _ _ ?m _ => change m with (ret (VMake !"Qv" !"Val" [w]) : M val) end. apply sound_ret. apply ot_val; [left; reflexivity|exact W].
  - cbn [eval_step]. destruct (variant_found p NAMED _ vs v None EV_ I) as (_ & IV). rewrite IV. apply sound_ret. eapply ot_unit; eassumption.
  - match goal with |- SoundSpec.sound _ _ ?m _ => change m with (seq (each ev n G [e]) (fun vs => ret (VMake !"Option" !"Some" vs))) end. eapply sound_seq; [exact (each_sound n C u G [e] _ E GV)|]. intros ws F. cbn beta in F.
    inversion F as [|w ? ws' ? W F']; subst. inversion F'; subst. apply sound_ret. apply ot_some, W.
  - match goal with |- SoundSpec.sound _ _ ?m _ => change m with (ret none : M val) end. apply sound_ret, ot_none.
  - cbn [eval_step]. destruct (receives_sound n C u _ e _ G E RC) as (NS & RS). eapply sound_seq; [exact RS|]. intros v V. cbn beta in V. eapply sound_seq; [exact (each_sound n C u G args _ E GV)|]. intros vs F. cbn beta in F.
    exact (method_sound a f self_ g s v vs TF NS V F).
  - cbn [eval_step]. destruct (receives_sound n C u _ e _ G E RC) as (NS & RS). eapply sound_seq; [exact RS|]. intros v V. cbn beta in V. eapply sound_seq; [exact (each_sound n C u G args _ E GV)|]. intros vs F. cbn beta in F.
    exact (own_sound a f v vs t FO NS V F R).
  - cbn [eval_step]. eapply sound_imp; [|exact (EL n C e t o m G E L)]. intros v V. apply ot_ref, V.
  - cbn [eval_step]. eapply sound_seq; [exact (EV n C u a ta G E Ha)|]. intros x X. cbn beta in X. eapply sound_seq; [exact (EV n C u b tb G E Hb)|]. intros y Y. cbn beta in Y. apply sound_ret, ot_pair; assumption.
  - cbn [eval_step]. destruct (fields_sound G C n _ u fields E NN GV) as (fs & EF & W). eapply sound_seq with (P := fun x => x = fs); [eapply sound_here; [exact EF|reflexivity]|]. intros fs' ->. apply sound_ret. eapply ot_struct; [exact SF|].
    intros x t I. exact (W x t I (struct_nodup _ _ SF)).
  - cbn [eval_step]. apply sound_ret. eapply ot_closure; [exact E|exact He].
  - cbn [eval_step]. eapply sound_seq; [exact (EL n C e t o m G E L)|]. intros v V. cbn beta in V. destruct (covered p POK n _ t v CO V) as (q & H & I & BQ).
    destruct (arm_found p POK n C u t t' arms v q H AR V I BQ) as (H' & e' & g & AF & BA & HE). rewrite AF. apply (EV n (g ++ C) u e' t' (H' ++ G)); [apply env_app; assumption|exact HE].
  - cbn [eval_step]. eapply sound_seq; [exact (EV n C u e t G E He)|]. intros v V. cbn beta in V. destruct (bound n q v) as [H|] eqn:BQ.
    + apply (EV n (g ++ C) u a t' (H ++ G)); [|exact Ha]. apply env_app; [exact (bound_as p POK n q t g B v H V BQ)|exact E].
    + exact (EV n C u b t' G E Hb).
  - cbn [eval_step]. apply sound_panic.
  - cbn [eval_step]. apply sound_panic.
  - cbn [eval_step]. exact (EV n C true e t G E He).
  - cbn [eval_step]. eapply sound_seq; [exact (EV n C u e _ G E He)|]. intros v V. cbn beta in V. apply in_ref, in_slice in V as (l & -> & W). eapply sound_seq; [exact (EV n C u i _ G E Hi)|]. intros k K. cbn beta in K.
    apply in_num in K as (k' & ->); [|exact POK]. destruct (zget l k') as [x|] eqn:Z; [|apply sound_panic]. apply sound_ret. apply W. unfold zget in Z. destruct (k' <? 0); [discriminate Z|]. exact (nth_error_In _ _ Z).
  - cbn [eval_step]. eapply sound_imp; [|exact (EA n C u es t G E GV)]. intros v V. apply ot_ref, V.
  - cbn [eval_step]. exact (EV n C u e t G E He).
Qed.
End Step.

Lemma timed_sound k : (forall n C u e t G, env_of p G C -> has p n C u e t -> sound (timed p iter r told out k n G e) (fun v => of_type v t)) /\
  (forall n C e t o m G, env_of p G C -> located p C e t o m -> sound (timed p iter r told out k n G e) (fun v => of_type v t)) /\
  (forall n C u es t G, env_of p G C -> given p n C u es (map (fun _ => t) es) -> sound (timed p iter r told out k n G (EArray es)) (fun v => of_type v (RSlice t))).
Proof.
  induction k as [|k (IH1 & IH2 & IH3)].
  - assert (X : forall P, sound (fun _ => out) P) by (intros P w; destruct OUT as [E|E]; rewrite E; [reflexivity|exact Logic.I]).
    split; [|split]; intros; apply X.
  - cbn [timed]. split; [|split].
    + intros n C u e t G E H. exact (step_has _ IH1 IH2 IH3 n C u e t G E H).
    + intros n C e t o m G E H. exact (step_located _ IH2 n C e t o m G E H).
    + intros n C u es t G E H. exact (step_array _ IH1 n C u es t G E H).
Qed.
(** calls of functions of the program *)
Lemma timed_enter k n f self args : fn_of p n f -> args_typed p n f args -> self_typed p n (f_self f) self -> sound (enter (timed p iter r told out k) n f self args) (returned p n f).
Proof. intros F. apply enter_returned; [|exact (proj1 (proj2 (fn_found p POK n f F)))]. intros n' C u e t' G. apply (proj1 (timed_sound k)). Qed.
End Program.
