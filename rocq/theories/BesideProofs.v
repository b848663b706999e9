(** Proof of C82: what is written beside a program does not change what it does. *)
From Coq Require Import String.
From Verif Require Import Base StringCompactionModel StringCompactionProofs LinkedModel LinkedSpec DocModel DiffSpec DiffProofs ArchiveModel JsonModel IntfModel IntfProofs GenModel GenSpec CodeSpec ApiModel TypeSpec TypeProofs ReadModel RunModel RunSpec SoundSpec SoundProofs SoundStepProofs TimeProofs EndProofs BesideSpec.

Local Notation text := (list Z).
Local Notation "! s" := (txt s%string) (at level 0, s at level 0).

Section Program.
Variable p q : list CodeSpec.item.
Hypothesis POK : program_ok p.
Hypothesis NAMED : plainly_named p.
Hypothesis APART : apart p q.
Variable iter : forall A, hmap A -> hmap A.
Variable r : root_obj.
Variable told : effect -> bool.
Variable out : res (val * trace).
Hypothesis OUT : out = Err \/ out = Panic.
Local Notation pq := (p ++ q).
Local Notation of_type := (SoundSpec.of_type p).

Lemma none_beside {A} (f : CodeSpec.item -> list A) n : In n (type_names p) -> (forall i, match i with IStruct _ m _ | IEnum _ m _ | IImpl m _ | IImplFor _ m _ => m <> n | IUse _ | IUnsafeImpl _ _ => True end -> f i = []) -> flat_map f pq = flat_map f p.
Proof.
  intros I H. rewrite flat_map_app. assert (X : flat_map f q = []); [|rewrite X; apply app_nil_r].
  assert (Y : forall i, In i q -> f i = []) by (intros i J; apply H; exact (APART i n J I)). clear - Y. induction q as [|i l IH]; [reflexivity|]. cbn [flat_map]. rewrite (Y i (or_introl eq_refl)). apply IH. intros j J. apply Y. right. exact J.
Qed.
Lemma ne_eqb (a b : text) : a <> b -> eqb_bytes a b = false.
Proof. intros N. destruct (eqb_bytes a b) eqn:E; [apply eqb_bytes_eq in E; contradiction|reflexivity]. Qed.
Lemma own_beside n : In n (type_names p) -> own_fns pq n = own_fns p n.
Proof. intros I. apply (none_beside _ n I). intros i H. destruct i; try reflexivity. rewrite (ne_eqb _ _ H). reflexivity. Qed.
Lemma trait_beside n : In n (type_names p) -> trait_fns pq n = trait_fns p n.
Proof. intros I. apply (none_beside _ n I). intros i H. destruct i; try reflexivity. rewrite (ne_eqb _ _ H). reflexivity. Qed.
Lemma variant_beside n v : In n (type_names p) -> is_variant pq n v = is_variant p n v.
Proof.
  intros I. unfold is_variant. rewrite existsb_app. match goal with |- _ || ?b = _ => assert (X : b = false) end; [|rewrite X; apply orb_false_r].
  rewrite <- not_true_iff_false. intros X. apply existsb_exists in X as (i & J & X). specialize (APART i n J I). destruct i; try discriminate X. rewrite (ne_eqb _ _ APART) in X. discriminate X.
Qed.
Lemma assoc_beside ev n f vs : In n (type_names p) -> assoc pq iter r told ev n f vs = assoc p iter r told ev n f vs.
Proof. intros I. unfold assoc. rewrite (own_beside n I), (trait_beside n I), (variant_beside n f I). reflexivity. Qed.
Lemma method_beside ev a v f vs : In a (type_names p) -> of_type v (RName a) -> method_of pq r ev v f vs = own_method p ev a v f vs.
Proof.
  intros I V. assert (X : own_method p ev a v f vs = own_method pq ev a v f vs) by (unfold own_method; rewrite (own_beside a I); reflexivity). rewrite X. clear X.
  pose proof I as J. unfold type_names in J. apply in_flat_map in J as (i & J & K). destruct i as [path|tr m|d m fields|d m variants|m fns|tr m fns]; cbn [In] in K; try contradiction K; destruct K as [->|[]].
  - apply (in_struct p POK v a fields) in V as (fs & -> & _); [reflexivity|]. exists d. exact J.
  - apply (in_enum p POK v a variants) in V as [(c & -> & _)|(c & t' & x & -> & _)]; [| |exists d; exact J]; cbn [method_of]; rewrite (not_holder p POK a I); reflexivity.
Qed.

Section Step.
Variable k : nat.
Let ev := timed p iter r told out k.
Let ev' := timed pq iter r told out k.
Hypothesis EV : forall n C u e t G, env_of p G C -> has p n C u e t -> same (ev n G e) (ev' n G e) anything.
Hypothesis EL : forall n C e t b m G, env_of p G C -> located p C e t b m -> same (ev n G e) (ev' n G e) anything.
Hypothesis EA : forall n C u es t G, env_of p G C -> given p n C u es (map (fun _ => t) es) -> same (ev n G (EArray es)) (ev' n G (EArray es)) anything.

Let SOUND := timed_sound p out POK NAMED OUT iter r told k.
Lemma ty {A} (m m' : M A) (P : A -> Prop) : same m m' anything -> sound p out m P -> same m m' P.
Proof. intros H S_ w. destruct (H w) as [E _]. split; [exact E|]. intros a w' X. specialize (S_ w). rewrite X in S_. exact (proj1 S_). Qed.
Lemma ev_has n C u e t G : env_of p G C -> has p n C u e t -> same (ev n G e) (ev' n G e) (fun v => of_type v t).
Proof. intros E H. eapply ty; [exact (EV n C u e t G E H)|exact (proj1 SOUND n C u e t G E H)]. Qed.
Lemma ev_located n C e t b m G : env_of p G C -> located p C e t b m -> same (ev n G e) (ev' n G e) (fun v => of_type v t).
Proof. intros E H. eapply ty; [exact (EL n C e t b m G E H)|exact (proj1 (proj2 SOUND) n C e t b m G E H)]. Qed.
Lemma each_beside n C u G es : forall ts, env_of p G C -> given p n C u es ts -> same (each ev n G es) (each ev' n G es) (fun vs => Forall2 of_type vs ts).
Proof.
  induction es as [|e es IH]; intros ts E H; inversion H as [|? ? ? t t' ? ts' X F Y]; subst; cbn [each].
  - apply same_ret. apply Forall2_nil.
  - eapply same_seq; [exact (ev_has n C u e t' G E X)|]. intros v V. cbn beta in V. eapply same_seq; [exact (IH ts' E Y)|]. intros vs W. apply same_ret. apply Forall2_cons; [exact (fits_type p POK _ _ _ F V)|exact W].
Qed.
Lemma lets_beside n u ss : forall C C' G, env_of p G C -> stmts_ok p n u C ss C' -> same (lets ev n G ss) (lets ev' n G ss) (fun G' => env_of p G' C').
Proof.
  induction ss as [|s ss IH]; intros C C' G E H; inversion H as [|? x m e t ? ? X Y|? w e t g ? ? SU X B Y|? e t ? ? X Y]; subst; cbn [lets].
  - apply same_ret, E.
  - eapply same_seq; [exact (ev_has n C u e t G E X)|]. intros v V. cbn beta in V. cbn [bound]. apply IH with (C := (x, (t, m)) :: C); [|exact Y].
    apply (env_app p [(x, v)] [(x, (t, m))]); [|exact E]. apply Forall2_cons; [split; [reflexivity|exact V]|apply Forall2_nil].
  - eapply same_seq; [exact (ev_has n C u e t G E X)|]. intros v V. cbn beta in V. destruct (sure_bound p n w t g B v V SU) as (H' & BH). rewrite BH. apply IH with (C := g ++ C); [|exact Y].
    apply env_app; [|exact E]. exact (bound_as p POK n w t g B v H' V BH).
  - eapply same_seq; [exact (ev_has n C u e t G E X)|]. intros v _. exact (IH C C' G E Y).
Qed.
Lemma enter_beside n f self args : fn_ok p n f -> args_typed p n f args -> self_typed p n (f_self f) self -> same (enter ev n f self args) (enter ev' n f self args) anything.
Proof.
  intros F A ST. destruct (fo_body p n f F) as (C & SS & B). unfold enter. eapply same_seq; [exact (lets_beside n _ _ _ _ _ (begins_env p n f self args F A ST) SS)|]. intros G EG. cbn beta in EG.
  destruct (f_ret f) as [t|], (f_value f) as [e|]; [|contradiction B|contradiction B|apply same_any]. inversion B as [|? ? ? ? t' ? ? X FT _]; subst.
  eapply same_seq; [exact (EV n C _ e t' G EG X)|]. intros v _. apply same_any.
Qed.
Lemma apply_beside g x a b : of_type g (RFun a b) -> of_type x a -> same (apply ev g x) (apply ev' g x) anything.
Proof.
  intros H X. apply in_fun in H as (n & y & e & G & C & u & -> & E & He). cbn [apply]. apply (EV n ((y, (a, false)) :: C) u e b); [|exact He].
  apply (env_app p [(y, x)] [(y, (a, false))]); [|exact E]. apply Forall2_cons; [split; [reflexivity|exact X]|apply Forall2_nil].
Qed.
Lemma receives_beside n C u rc e t G : env_of p G C -> receives p n C u rc e t -> same (ev n G e) (ev' n G e) (fun v => of_type v t).
Proof.
  intros E H. eapply ty; [inversion H; subst; first [eapply EV; eassumption|eapply EL; eassumption]|]. eapply receives_sound; [exact (proj1 SOUND)|exact (proj1 (proj2 SOUND))|exact E|exact H].
Qed.
Lemma located_step n C e t b m G : env_of p G C -> located p C e t b m -> same (eval_step p iter r told ev n G e) (eval_step pq iter r told ev' n G e) anything.
Proof.
  intros E H. inversion H; subst; cbn [eval_step]; try apply same_any; (eapply same_seq; [eapply EL; eassumption|]); intros v _; apply same_any.
Qed.
Lemma array_step n C u es t G : env_of p G C -> given p n C u es (map (fun _ => t) es) -> same (eval_step p iter r told ev n G (EArray es)) (eval_step pq iter r told ev' n G (EArray es)) anything.
Proof. intros E H. cbn [eval_step]. eapply same_seq; [exact (each_beside n C u G es _ E H)|]. intros vs _. apply same_any. Qed.

Lemma known_beside a f vs : one_of guards a || one_of holders a || eqb_bytes a !"Box" || eqb_bytes a !"RootObjectPtr" = true -> assoc pq iter r told ev' a f vs = assoc p iter r told ev a f vs.
Proof.
  intros H. unfold assoc. destruct (core_fn a f); [reflexivity|]. destruct (one_of guards a); [reflexivity|]. destruct (one_of holders a); [reflexivity|]. destruct (eqb_bytes a !"Box"); [reflexivity|].
  destruct (eqb_bytes a !"RootObjectPtr"); [reflexivity|discriminate H].
Qed.
Lemma assoc_core n a f self_ g vs : type_fn a f = Some (self_, g) -> g_self g = NoSelf -> assoc pq iter r told ev' (named n a) f vs = assoc p iter r told ev (named n a) f vs.
Proof.
  intros TF NS. apply type_fn_in in TF. rewrite impls_are, NS in TF. cbn [impl_list holder_fns app In] in TF.
  repeat match type of TF with _ \/ _ => destruct TF as [E|TF]; [first [exfalso; apply pair_equal_spec in E as [_ E]; apply pair_equal_spec in E as [_ E]; apply pair_equal_spec in E as [_ E]; apply pair_equal_spec in E as [E _]; discriminate E|apply pair_equal_spec in E as [<- E]; apply known_beside; vm_compute; reflexivity]|] | False => destruct TF end.
Qed.
Lemma map_beside v g A B : held (fun x => of_type x A) v -> of_type g (RFun A B) -> same (method_of p r ev v !"map" [g]) (method_of pq r ev' v !"map" [g]) anything.
Proof.
  intros (a & c & xs & -> & HO & V) X. cbn [method_of]. rewrite HO.
  assert (Y : forall f, holder_fn f a c xs !"map" [g] = match xs with [] => ret (VMake a c []) | [y] => seq (f g y) (fun z => ret (VMake a c [z])) | _ => stuck end) by reflexivity.
  rewrite !Y. destruct xs as [|y [|y' xs]]; [apply same_any| |apply same_any]. eapply same_seq; [eapply apply_beside; [exact X|apply V; left; reflexivity]|]. intros z _. apply same_any.
Qed.
Ltac entry E := apply pair_equal_spec in E as [<- E]; apply pair_equal_spec in E as [<- E]; apply pair_equal_spec in E as [<- E]; apply pair_equal_spec in E as [GS E]; apply pair_equal_spec in E as [GA GR].
Lemma method_other a f self_ g s v vs : type_fn a f = Some (self_, g) -> g_self g <> NoSelf -> of_type v (subst s self_) -> eqb_bytes f !"map" = false -> method_of pq r ev' v f vs = method_of p r ev v f vs.
Proof.
  intros TF NS V NM. apply type_fn_in in TF. rewrite impls_are in TF. cbn [impl_list holder_fns app In] in TF.
  repeat match type of TF with _ \/ _ => destruct TF as [E|TF]; [entry E; first [exfalso; apply NS; symmetry; exact GS|discriminate NM|cbn [subst optional] in V]|] | False => destruct TF end.
  - apply in_root_ptr in V as ->; [reflexivity|exact POK].
  - apply in_holder in V as [(x & -> & _)|[(_ & ->)|(_ & ->)]]; [reflexivity..|left; reflexivity].
  - apply in_holder in V as [(x & -> & _)|[(_ & ->)|(_ & ->)]]; [reflexivity..|left; reflexivity].
  - apply in_holder in V as [(x & -> & _)|[(_ & ->)|(_ & ->)]]; [reflexivity..|right; left; reflexivity].
  - apply in_holder in V as [(x & -> & _)|[(_ & ->)|(_ & ->)]]; [reflexivity..|right; right; left; reflexivity].
  - apply in_option in V as [(x & -> & _)| ->]; reflexivity.
  - apply in_box in V as (x & -> & _). reflexivity.
  - apply in_box in V as (x & -> & _). reflexivity.
  - apply in_text in V as (x & ->); [reflexivity|exact POK].
Qed.

Lemma has_step n C u e t G : env_of p G C -> has p n C u e t -> same (eval_step p iter r told ev n G e) (eval_step pq iter r told ev' n G e) anything.
Proof.
  intros E H. destruct H as
    [C u e t m L|C u e t b m L _|C u s|C u i K|C u m f args g s MF NS B GV|C u a f args self_ g s TF NS B GV|C u a f args FO NS UN GV t R|C u a e t NO MF GV|C u a v vs e t EV_ I GV|C u v e t I GV
    |C u a v vs EV_ I|C u e t N GV|C u t N|C u e f args a self_ g s TF B RV GV|C u e args a f FO UN RV GV t R|C u e t b m L|C u a b ta tb Ha Hb|C u a fields SF NN GV|C u mv x e a b He
    |C u e t b m arms t' L AR CO|C u w e t g a b t' He B Ha Hb|C u t|C u s es ts t PR HO|C u e t He|C u e i t He Hi _|C u es t GV|C u e t He].
  - exact (located_step n C e t true m G E L).
  - exact (located_step n C e t b m G E L).
  - apply same_any.
  - apply same_any.
  - cbn [eval_step]. eapply same_seq; [exact (each_beside n C u G args _ E GV)|]. intros vs _. destruct (module_prim m f g MF) as (c & CF & _). rewrite (core_not_self m f c n CF). unfold assoc. rewrite CF. apply same_any.
  - cbn [eval_step]. eapply same_seq; [exact (each_beside n C u G args _ E GV)|]. intros vs _. rewrite (assoc_core n a f self_ g vs TF NS). apply same_any.
  - cbn [eval_step]. eapply same_seq; [exact (each_beside n C u G args _ E GV)|]. intros vs F. cbn beta in F. destruct (fn_found p POK _ f FO) as (FN & OKF & I).
    rewrite (assoc_beside ev' _ _ vs I), !(assoc_own p POK iter r told _ (named n a) (f_name f) vs I), !named_app, FN. apply enter_beside; [exact OKF|exact F|rewrite NS; reflexivity].
  - cbn [eval_step]. eapply same_seq; [exact (each_beside n C u G [e] _ E GV)|]. intros vs F. cbn beta in F. destruct (from_found p POK NAMED a t MF NO) as (f & FN & OKF & I & NS & (x & t' & FA & T) & r' & R & TR).
    rewrite (from_self p POK n a I), (assoc_beside ev' _ _ vs I), !(assoc_own p POK iter r told _ a _ vs I), FN. apply enter_beside; [exact OKF| |rewrite NS; reflexivity]. unfold args_typed. rewrite FA. cbn [map snd]. rewrite T. exact F.
  - cbn [eval_step]. eapply same_seq; [exact (each_beside n C u G [e] _ E GV)|]. intros ws _.
    rewrite (assoc_beside ev' _ _ ws (enum_named p _ _ EV_)), !(assoc_own p POK iter r told _ _ _ _ (enum_named p _ _ EV_)). destruct (variant_found p NAMED _ vs v (Some t) EV_ I) as (FN & IV). rewrite FN, IV. apply same_any.
  - cbn [eval_step]. eapply same_seq; [exact (each_beside n C u G [e] _ E GV)|]. intros ws _. change (named n !"Qv") with !"Qv". rewrite known_beside by (vm_compute; reflexivity). apply same_any.
  - cbn [eval_step]. rewrite (variant_beside _ _ (enum_named p _ _ EV_)). apply same_any.
  - cbn [eval_step]. change (eqb_bytes !"Some" !"Some") with true. cbv iota. eapply same_seq; [exact (each_beside n C u G [e] _ E GV)|]. intros ws _. apply same_any.
  - apply same_any.
  - cbn [eval_step]. eapply same_seq; [exact (receives_beside n C u _ e _ G E RV)|]. intros v V. cbn beta in V. eapply same_seq; [exact (each_beside n C u G args _ E GV)|]. intros vs F. cbn beta in F. destruct (eqb_bytes f !"map") eqn:FM.
    + apply eqb_bytes_eq in FM as ->. destruct (map_typed p POK a self_ g s v TF V) as (A & B_ & GA & HV). rewrite GA in F. cbn [map subst] in F. inversion F as [|x ? xs ? X F']; subst. inversion F'; subst. eapply map_beside; [exact HV|exact X].
    + rewrite (method_other a f self_ g s v vs TF (receives_kind p _ _ _ _ _ _ RV) V FM). apply same_any.
  - cbn [eval_step]. eapply same_seq; [exact (receives_beside n C u _ e _ G E RV)|]. intros v V. cbn beta in V. eapply same_seq; [exact (each_beside n C u G args _ E GV)|]. intros vs F. cbn beta in F.
    destruct (fn_found p POK a f FO) as (FN & OKF & I). pose proof (receives_kind p _ _ _ _ _ _ RV) as NS. rewrite (method_beside ev' a v _ vs I V), (method_own p POK r _ a v _ vs I V). unfold own_method. rewrite FN.
    apply enter_beside; [exact OKF|exact F|]. unfold self_typed. destruct (f_self f); [contradiction NS; reflexivity|exists v; split; [reflexivity|exact V]..].
  - exact (EL n C e t b m G E L).
  - cbn [eval_step]. eapply same_seq; [exact (EV n C u a ta G E Ha)|]. intros x _. eapply same_seq; [exact (EV n C u b tb G E Hb)|]. intros y _. apply same_any.
  - apply same_any.
  - apply same_any.
  - cbn [eval_step]. eapply same_seq; [exact (ev_located n C e t b m G E L)|]. intros v V. cbn beta in V. destruct (arm_for n v arms) as [[H e']|] eqn:AF; [|apply same_stuck].
    destruct (arm_has p POK n C u t t' arms v H e' AR V AF) as (g & w & I & BA & HE). eapply EV; [|exact HE]. apply env_app; assumption.
  - cbn [eval_step]. eapply same_seq; [exact (ev_has n C u e t G E He)|]. intros v V. cbn beta in V. destruct (bound n w v) as [H|] eqn:BQ; [|eapply EV; eassumption]. eapply EV; [|exact Ha]. apply env_app; [exact (bound_as p POK n w t g B v H V BQ)|exact E].
  - apply same_any.
  - apply same_any.
  - exact (EV n C true e t G E He).
  - cbn [eval_step]. eapply same_seq; [exact (EV n C u e _ G E He)|]. intros v _. eapply same_seq; [exact (EV n C u i _ G E Hi)|]. intros j _. apply same_any.
  - exact (EA n C u es t G E GV).
  - exact (EV n C u e t G E He).
Qed.
End Step.

Lemma timed_beside k : (forall n C u e t G, env_of p G C -> has p n C u e t -> same (timed p iter r told out k n G e) (timed pq iter r told out k n G e) anything) /\
  (forall n C e t b m G, env_of p G C -> located p C e t b m -> same (timed p iter r told out k n G e) (timed pq iter r told out k n G e) anything) /\
  (forall n C u es t G, env_of p G C -> given p n C u es (map (fun _ => t) es) -> same (timed p iter r told out k n G (EArray es)) (timed pq iter r told out k n G (EArray es)) anything).
Proof.
  induction k as [|k (IH1 & IH2 & IH3)]; [repeat split; intros; exact Logic.I|]. split; [|split].
  - intros n C u e t G E H. exact (has_step k IH1 IH2 IH3 n C u e t G E H).
  - intros n C e t b m G E H. exact (located_step k IH2 n C e t b m G E H).
  - intros n C u es t G E H. exact (array_step k IH1 n C u es t G E H).
Qed.
Lemma timed_enter_beside k n f self args : fn_ok p n f -> args_typed p n f args -> self_typed p n (f_self f) self -> same (enter (timed p iter r told out k) n f self args) (enter (timed pq iter r told out k) n f self args) anything.
Proof. intros F A ST. apply enter_beside; try assumption. exact (proj1 (timed_beside k)). Qed.
End Program.
