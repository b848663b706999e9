(** Proof of C81: programs end. *)
From Coq Require Import String.
From Verif Require Import Base StringCompactionModel StringCompactionProofs LinkedModel LinkedSpec DocModel DiffSpec DiffProofs ArchiveModel JsonModel IntfModel IntfProofs GenModel GenSpec CodeSpec ApiModel TypeSpec TypeProofs ReadModel RunModel RunSpec SoundSpec SoundProofs SoundStepProofs TimeProofs EndSpec.

Local Notation text := (list Z).
Local Notation "! s" := (txt s%string) (at level 0, s at level 0).

Section Program.
Variable p : list CodeSpec.item.
Hypothesis POK : program_ok p.
Hypothesis NAMED : plainly_named p.
Variable iter : forall A, hmap A -> hmap A.
Variable r : root_obj.
Variable told : effect -> bool.
Variable o o' : res (val * trace).
Hypothesis OUT : o = Err \/ o = Panic.
Hypothesis OWN : forall n f, fn_of p n f -> brief p iter r told o o' 10 n f.
Hypothesis FROM : forall n f, In f (trait_fns p n) -> f_lets f = [] /\ exists a fs, f_value f = Some (EStruct a fs).
Local Notation T := (timed p iter r told).
Local Notation Sm := (TimeProofs.Sm p iter r told o o').
Local Notation Sl := (TimeProofs.Sl p iter r told o o').
Local Notation of_type := (SoundSpec.of_type p).

Lemma same_typed {A} (m m' : M A) (P : A -> Prop) : same m m' anything -> sound p o m P -> same m m' P.
Proof. intros H S_ w. destruct (H w) as [E _]. split; [exact E|]. intros a w' X. specialize (S_ w). rewrite X in S_. exact (proj1 S_). Qed.
Lemma sm_has k n C u e t G : env_of p G C -> has p n C u e t -> Sm k n G e anything -> Sm k n G e (fun v => of_type v t).
Proof. intros E H X. eapply same_typed; [exact X|]. exact (proj1 (timed_sound p o POK NAMED OUT iter r told k) n C u e t G E H). Qed.
Lemma sm_located k n C e t b m G : env_of p G C -> located p C e t b m -> Sm k n G e anything -> Sm k n G e (fun v => of_type v t).
Proof. intros E H X. eapply same_typed; [exact X|]. exact (proj1 (proj2 (timed_sound p o POK NAMED OUT iter r told k)) n C e t b m G E H). Qed.
Lemma sl_given k n C u es ts G : env_of p G C -> given p n C u es ts -> Sl k n G es -> same (each (T o k) n G es) (each (T o' k) n G es) (fun vs => Forall2 of_type vs ts).
Proof. intros E H X. eapply same_typed; [exact X|]. eapply each_sound; [exact POK| |exact E|exact H]. intros n' C' u' e t G'. apply (proj1 (timed_sound p o POK NAMED OUT iter r told k)). Qed.

(** methods of dochy_core other than [map] evaluate nothing *)
Ltac entry E := apply pair_equal_spec in E as [<- E]; apply pair_equal_spec in E as [<- E]; apply pair_equal_spec in E as [<- E]; apply pair_equal_spec in E as [GS E]; apply pair_equal_spec in E as [GA GR].
Lemma method_static ev ev' a f self_ g s v vs : type_fn a f = Some (self_, g) -> g_self g <> NoSelf -> of_type v (subst s self_) -> eqb_bytes f !"map" = false -> method_of p r ev v f vs = method_of p r ev' v f vs.
Proof.
  intros TF NS V NM. apply type_fn_in in TF. rewrite impls_are in TF. cbn [impl_list holder_fns app In] in TF.
  repeat match type of TF with _ \/ _ => destruct TF as [E|TF]; [entry E; first [exfalso; apply NS; symmetry; exact GS|discriminate NM|cbn [subst optional] in V]|] | False => destruct TF end.
  - apply in_root_ptr in V as ->; [reflexivity|exact POK].
  - apply in_holder in V as [(x & -> & _)|[(_ & ->)|(_ & ->)]]; [reflexivity..|left; reflexivity].
  - apply in_holder in V as [(x & -> & _)|[(_ & ->)|(_ & ->)]]; [reflexivity..|left; reflexivity].
  - apply in_holder in V as [(x & -> & _)|[(_ & ->)|(_ & ->)]]; [reflexivity..|right; left; reflexivity].
  - apply in_holder in V as [(x & -> & _)|[(_ & ->)|(_ & ->)]]; [reflexivity..|right; right; left; reflexivity].
  - apply in_option in V as [(x & -> & _)| ->]; reflexivity.
  - apply in_box in V as (x & -> & _). reflexivity.
  - apply in_box in V as (x & -> & _). reflexivity.
  - apply in_text in V as (x & ->); [reflexivity|exact POK].
Qed.
Lemma map_typed a self_ g s v : type_fn a !"map" = Some (self_, g) -> of_type v (subst s self_) -> exists A B, g_args g = [RFun A B] /\ held (fun x => of_type x (subst s A)) v.
Proof.
  intros TF V. apply type_fn_in in TF. rewrite impls_are in TF. cbn [impl_list holder_fns app In] in TF.
  repeat match type of TF with _ \/ _ => destruct TF as [E|TF]; [first [exfalso; apply pair_equal_spec in E as [_ E]; apply pair_equal_spec in E as [E _]; discriminate E|apply pair_equal_spec in E as [<- E]; apply pair_equal_spec in E as [_ E]; apply pair_equal_spec in E as [<- E]; apply pair_equal_spec in E as [GS E]; apply pair_equal_spec in E as [GA GR]; cbn [subst optional] in V]|] | False => destruct TF end.
  - do 2 eexists. split; [symmetry; exact GA|]. eapply held_type; [exact POK|left; reflexivity|exact V].
  - do 2 eexists. split; [symmetry; exact GA|]. eapply held_type; [exact POK|right; left; reflexivity|exact V].
  - do 2 eexists. split; [symmetry; exact GA|]. eapply held_type; [exact POK|right; right; left; reflexivity|exact V].
  - do 2 eexists. split; [symmetry; exact GA|]. apply in_option in V as [(x & -> & X)| ->]; do 3 eexists; (split; [reflexivity|]); (split; [vm_compute; reflexivity|]); [intros y [<-|[]]; exact X|intros y []].
Qed.
Lemma map_args a self_ g : type_fn a !"map" = Some (self_, g) -> exists A B, g_args g = [RFun A B].
Proof.
  intros TF. apply type_fn_in in TF. rewrite impls_are in TF. cbn [impl_list holder_fns app In] in TF.
  repeat match type of TF with _ \/ _ => destruct TF as [E|TF]; [first [exfalso; apply pair_equal_spec in E as [_ E]; apply pair_equal_spec in E as [E _]; discriminate E|apply pair_equal_spec in E as [_ E]; apply pair_equal_spec in E as [_ E]; apply pair_equal_spec in E as [_ E]; apply pair_equal_spec in E as [_ E]; apply pair_equal_spec in E as [GA _]; do 2 eexists; symmetry; exact GA]|] | False => destruct TF end.
Qed.
Lemma assoc_static ev ev' n a f self_ g vs : type_fn a f = Some (self_, g) -> g_self g = NoSelf -> assoc p iter r told ev (named n a) f vs = assoc p iter r told ev' (named n a) f vs.
Proof.
  intros TF NS. apply type_fn_in in TF. rewrite impls_are, NS in TF. cbn [impl_list holder_fns app In] in TF.
  repeat match type of TF with _ \/ _ => destruct TF as [E|TF]; [first [exfalso; apply pair_equal_spec in E as [_ E]; apply pair_equal_spec in E as [_ E]; apply pair_equal_spec in E as [_ E]; apply pair_equal_spec in E as [E _]; discriminate E|apply pair_equal_spec in E as [<- E]; apply assoc_known; vm_compute; reflexivity]|] | False => destruct TF end.
Qed.

(** the first step and those inside *)
Lemma sl_all k n C u G es : (forall e t, In e es -> has p n C u e t -> Sm k n G e anything) -> forall ts, given p n C u es ts -> Sl k n G es.
Proof.
  induction es as [|e es IH]; intros H ts X; [apply sl_nil|]. inversion X as [|? ? ? ? t' ? ? Y F Z]; subst. eapply sl_cons; [eapply H; [left; reflexivity|exact Y]|]. eapply IH; [|exact Z]. intros e2 t2 I. apply H. right. exact I.
Qed.
Lemma located_ends d : forall n C e t b m G k, plain d e = true -> located p C e t b m -> env_of p G C -> Sm (10 + (d + k)) n G e anything.
Proof.
  induction d as [|d IH]; intros n C e t b m G k P L E; [discriminate P|]. replace (10 + (S d + k))%nat with (S (10 + (d + k))) by lia.
  inversion L; subst; cbn [plain] in P; try (apply sm_leaf; exact Logic.I).
  1-3: apply sm_field; (eapply same_imp; [|eapply IH; eassumption]); intros v _ m' fs y _ _; exact Logic.I.
  eapply sm_deref. eapply IH; eassumption.
Qed.
Lemma receives_has k n C u rc e t G : env_of p G C -> receives p n C u rc e t -> Sm k n G e anything -> Sm k n G e (fun v => of_type v t).
Proof.
  intros E H X. eapply same_typed; [exact X|]. eapply receives_sound; [| |exact E|exact H].
  - intros n' C' u' e' t' G'. apply (proj1 (timed_sound p o POK NAMED OUT iter r told k)).
  - intros n' C' e' t' b' m' G'. apply (proj1 (proj2 (timed_sound p o POK NAMED OUT iter r told k))).
Qed.
Lemma receives_kind n C u rc e t : receives p n C u rc e t -> rc <> NoSelf.
Proof. intros H. inversion H; discriminate. Qed.
Lemma arm_has n C u t t' arms v H e : armed p n C u t t' arms -> of_type v t -> arm_for n v arms = Some (H, e) -> exists g q, In (q, e) arms /\ binds_as p H g /\ has p n (g ++ C) u e t'.
Proof.
  intros A V. induction arms as [|[q e'] arms IH]; intros X; [discriminate X|]. inversion A as [|? ? ? ? ? g ? ? Bq He Ar]; subst. cbn [arm_for] in X. destruct (bound n q v) as [H'|] eqn:Bd.
  - injection X as <- <-. exists g, q. split; [left; reflexivity|]. split; [exact (bound_as p POK n q t g Bq v H' V Bd)|exact He].
  - destruct (IH Ar X) as (g' & q' & I & Y). exists g', q'. split; [right; exact I|exact Y].
Qed.

Lemma ends d : forall n C u e t G k, plain d e = true -> env_of p G C -> has p n C u e t -> Sm (10 + (d + k)) n G e anything.
Proof.
  induction d as [d IHd] using lt_wf_ind. intros n C u e t G k P E H. destruct d as [|d]; [discriminate P|]. pose proof (IHd d (Nat.lt_succ_diag_r d)) as IH.
  assert (LOC : forall e t b m, plain (S d) e = true -> located p C e t b m -> Sm (10 + (S d + k)) n G e anything) by (intros e' t' b m Q L; eapply located_ends; eassumption).
  replace (10 + (S d + k))%nat with (S (10 + (d + k))) in * by lia.
  assert (LS : forall u es ts, forallb (plain d) es = true -> given p n C u es ts -> same (each (T o (10 + (d + k))) n G es) (each (T o' (10 + (d + k))) n G es) (fun vs => Forall2 of_type vs ts)).
  { intros u' es ts Q X. eapply sl_given; [exact E|exact X|]. eapply sl_all; [|exact X]. intros e' t' I Y. rewrite forallb_forall in Q. eapply IH; [apply Q, I|exact E|exact Y]. }
  assert (RC : forall u rc e t, plain d e = true -> receives p n C u rc e t -> Sm (10 + (d + k)) n G e (fun v => of_type v t)).
  { intros u' rc e' t' Q X. eapply receives_has; [exact E|exact X|]. inversion X; subst; first [eapply IH; [exact Q|exact E|eassumption]|eapply located_ends; [exact Q|eassumption|exact E]]. }
  destruct H as
    [C u e t m L|C u e t b m L _|C u s|C u i K|C u m f args g s MF NS B GV|C u a f args self_ g s TF NS B GV|C u a f args FO NS UN GV t R|C u a e t NO MF GV|C u a v vs e t EV_ I GV|C u v e t I GV
    |C u a v vs EV_ I|C u e t N GV|C u t N|C u e f args a self_ g s TF B RV GV|C u e args a f FO UN RV GV t R|C u e t b m L|C u a b ta tb Ha Hb|C u a fields SF NN GV|C u mv x e a b He
    |C u e t b m arms t' L AR CO|C u q e t g a b t' He B Ha Hb|C u t|C u s es ts t PR HO|C u e t He|C u e i t He Hi _|C u es t GV|C u e t He].
  - exact (LOC e t true m P L).
  - exact (LOC e t b m P L).
  - apply sm_leaf. exact Logic.I.
  - apply sm_leaf. exact Logic.I.
  - cbn [plain] in P. destruct (module_prim m f g MF) as (q & CF & _). eapply core_any; [exact CF|]. eapply same_weak, LS; eassumption.
  - cbn [plain] in P. unfold TimeProofs.Sm. cbn [timed eval_step]. eapply same_seq; [eapply LS; eassumption|]. intros vs _. rewrite (assoc_static (T o' (10 + (d + k))) (T o (10 + (d + k))) n a f self_ g vs TF NS). apply same_any.
  - cbn [plain] in P. unfold TimeProofs.Sm. cbn [timed eval_step]. eapply same_seq; [eapply LS; eassumption|]. intros vs F. cbn beta in F. destruct (fn_found p POK _ f FO) as (FN & OKF & I).
    rewrite !(assoc_own p POK iter r told _ (named n a) (f_name f) vs I), !named_app, FN. apply (OWN _ _ FO); [rewrite NS; reflexivity|exact F].
  - cbn [plain] in P. unfold TimeProofs.Sm. cbn [timed eval_step]. eapply same_seq; [eapply LS; eassumption|]. intros vs F. cbn beta in F. destruct (from_found p POK NAMED a t MF NO) as (f & FN & OKF & I & _).
    rewrite (from_self p POK n a I), !(assoc_own p POK iter r told _ a _ vs I), FN. unfold fn_named in FN. apply find_some in FN as [J Q]. apply eqb_bytes_eq in Q. apply in_app_or in J as [J|J]; [contradiction (NO f (own_fns_in p a f J))|].
    destruct (FROM a f J) as (FL & x & fs & FV). apply enter_value; [exact FL|]. rewrite FV. apply sm_leaf. exact Logic.I.
  - cbn [plain] in P. unfold TimeProofs.Sm. cbn [timed eval_step]. eapply same_seq; [eapply LS; eassumption|]. intros ws _.
    rewrite !(assoc_own p POK iter r told _ _ _ _ (enum_named p _ _ EV_)). destruct (variant_found p NAMED _ vs v (Some t) EV_ I) as (FN & IV). rewrite FN, IV. apply same_any.
  - cbn [plain] in P. apply sm_known; [reflexivity|vm_compute; reflexivity|]. eapply same_weak, LS; eassumption.
  - apply sm_leaf. exact Logic.I.
  - cbn [plain] in P. apply sm_some. eapply same_weak, LS; eassumption.
  - apply sm_leaf. exact Logic.I.
  - cbn [plain] in P. apply andb_prop in P as [P1 P2]. pose proof (RC u _ e _ P1 RV) as RE. destruct (eqb_bytes f !"map") eqn:FM.
    + apply eqb_bytes_eq in FM as ->.
      destruct (map_args a self_ g TF) as (A & B_ & GA). rewrite GA in GV. cbn [map subst] in GV. destruct args as [|c [|c' args]]; [inversion GV| |destruct c; discriminate P2].
      destruct c as [| | | | | | | | | | |mv x b| | | | | | |]; try discriminate P2. inversion GV as [|? ? ? ? t' ? ? HC FT _]; subst.
      inversion HC as [? ? ? ? ? L|? ? ? ? ? ? L _| | | | | | | | | | | | | | | | |? ? ? ? ? ta tb Hb| | | | | | | |]; subst; [inversion L|inversion L|]. inversion FT; subst.
      change (10 + (d + k))%nat with (S (9 + (d + k))) in *. eapply sm_map with (P := fun x => of_type x (subst s A)).
      * eapply same_imp; [|exact RE]. intros v V. cbn beta in V. destruct (map_typed a self_ g s v TF V) as (A' & B' & GA' & HV). rewrite GA in GA'. injection GA' as <- <-. exact HV.
      * intros v V. eapply IH; [exact P2| |exact Hb]. apply (env_app p [(x, v)] [(x, (subst s A, false))]); [|exact E]. apply Forall2_cons; [split; [reflexivity|exact V]|apply Forall2_nil].
    + unfold TimeProofs.Sm. cbn [timed eval_step]. eapply same_seq; [exact RE|]. intros v V. cbn beta in V. eapply same_seq; [eapply LS; eassumption|]. intros vs _.
      rewrite (method_static (T o' (10 + (d + k))) (T o (10 + (d + k))) a f self_ g s v vs TF (receives_kind _ _ _ _ _ _ RV) V FM). apply same_any.
  - cbn [plain] in P. apply andb_prop in P as [P1 P2]. pose proof (RC u _ e _ P1 RV) as RE. destruct (fn_found p POK a f FO) as (FN & _ & I). pose proof (receives_kind _ _ _ _ _ _ RV) as NS.
    assert (AS : same (each (T o (10 + (d + k))) n G args) (each (T o' (10 + (d + k))) n G args) (fun vs => Forall2 of_type vs (map (fun x => of_ty a (snd x)) (f_args f)))).
    { destruct (eqb_bytes (f_name f) !"map"); [|eapply LS; eassumption]. destruct args as [|c [|c' args]]; [eapply LS; [reflexivity|exact GV]| |destruct c; discriminate P2].
      destruct c; try discriminate P2. eapply sl_given; [exact E|exact GV|]. eapply sl_cons; [|apply sl_nil]. change (10 + (d + k))%nat with (S (9 + (d + k))). apply sm_leaf. exact Logic.I. }
    unfold TimeProofs.Sm. cbn [timed eval_step]. eapply same_seq; [exact RE|]. intros v V. cbn beta in V. eapply same_seq; [exact AS|]. intros vs F. cbn beta in F.
    rewrite !(method_own p POK r _ a v _ vs I V). unfold own_method. rewrite FN. apply (OWN _ _ FO); [|exact F]. unfold self_typed. destruct (f_self f); [contradiction NS; reflexivity|exists v; split; [reflexivity|exact V]..].
  - cbn [plain] in P. apply sm_ref. eapply located_ends; eassumption.
  - cbn [plain] in P. apply andb_prop in P as [P1 P2]. eapply sm_pair; eapply IH; eassumption.
  - apply sm_leaf. exact Logic.I.
  - apply sm_leaf. exact Logic.I.
  - cbn [plain] in P. apply andb_prop in P as [P1 P2]. unfold TimeProofs.Sm. cbn [timed eval_step]. eapply same_seq; [eapply sm_located; [exact E|exact L|eapply located_ends; eassumption]|]. intros v V. cbn beta in V.
    destruct (arm_for n v arms) as [[H e']|] eqn:AF; [|apply same_stuck]. destruct (arm_has n C u t t' arms v H e' AR V AF) as (g & q & I & BA & HE). rewrite forallb_forall in P2. eapply IH; [exact (P2 _ I)| |exact HE]. apply env_app; assumption.
  - cbn [plain] in P. apply andb_prop in P as [P1 P3]. apply andb_prop in P1 as [P1 P2]. unfold TimeProofs.Sm. cbn [timed eval_step]. eapply same_seq; [eapply sm_has; [exact E|exact He|eapply IH; eassumption]|]. intros v V. cbn beta in V.
    destruct (bound n q v) as [H|] eqn:BQ; [|eapply IH; eassumption]. eapply IH; [exact P2| |exact Ha]. apply env_app; [exact (bound_as p POK n q t g B v H V BQ)|exact E].
  - apply sm_leaf. exact Logic.I.
  - apply sm_leaf. exact Logic.I.
  - cbn [plain] in P. apply sm_unsafe. eapply IH; eassumption.
  - cbn [plain] in P. apply andb_prop in P as [P1 P2]. eapply sm_index; eapply IH; eassumption.
  - cbn [plain] in P. apply sm_ref. destruct d as [|d]; [discriminate P|]. cbn [plain] in P. replace (10 + (S d + k))%nat with (S (10 + (d + k))) in * by lia. apply sm_array.
    eapply sl_all; [|exact GV]. intros e' t' I Y. rewrite forallb_forall in P. eapply (IHd d); [lia|apply P, I|exact E|exact Y].
  - cbn [plain] in P. apply sm_block. eapply IH; eassumption.
Qed.

(** functions with statements *)
Lemma lets_end d n u k ss : forall C C' G, forallb (fun s => match s with SLet _ _ e | SExpr e => plain d e end) ss = true -> env_of p G C -> stmts_ok p n u C ss C' ->
  Lt p iter r told o o' (10 + (d + k)) n G ss (fun G' => env_of p G' C').
Proof.
  induction ss as [|s ss IH]; intros C C' G P E H; inversion H as [|? x m e t ? ? X Y|? q e t g ? ? SU X B Y|? e t ? ? X Y]; subst.
  - apply lt_nil, E.
  - cbn [forallb] in P. apply andb_prop in P as [P1 P2]. eapply lt_let; [eapply sm_has; [exact E|exact X|eapply ends; eassumption]|]. intros v H' V Bd. cbn beta in V. cbn [bound] in Bd. injection Bd as <-.
    eapply IH; [exact P2| |exact Y]. apply (env_app p [(x, v)] [(x, (t, m))]); [|exact E]. apply Forall2_cons; [split; [reflexivity|exact V]|apply Forall2_nil].
  - cbn [forallb] in P. apply andb_prop in P as [P1 P2]. eapply lt_let; [eapply sm_has; [exact E|exact X|eapply ends; eassumption]|]. intros v H' V Bd. cbn beta in V.
    eapply IH; [exact P2| |exact Y]. apply env_app; [|exact E]. exact (bound_as p POK n q t g B v H' V Bd).
  - cbn [forallb] in P. apply andb_prop in P as [P1 P2]. eapply lt_expr; [eapply ends; eassumption|]. eapply IH; eassumption.
Qed.
Lemma begins_env n f self args : fn_ok p n f -> args_typed p n f args -> self_typed p n (f_self f) self ->
  env_of p (begins f self args) (map (fun a => (fst a, (of_ty n (snd a), false))) (f_args f) ++ self_of n (f_self f)).
Proof.
  intros F A ST. destruct (fo_args p n f F) as (D & NS). intros y ty m V. rewrite var_of_app in V. destruct (var_of y (map _ (f_args f))) as [[ty' m']|] eqn:VA.
  - injection V as -> ->. destruct (args_env p n (f_args f) y ty m args A VA) as (I & v & HG & T_). exists v. split; [|exact T_]. unfold begins. destruct self as [x|]; [|exact HG]. cbn [app hget].
    destruct (eqb_bytes !"self" y) eqn:Q; [|exact HG]. apply eqb_bytes_eq in Q as <-. exfalso. exact (NS I).
  - unfold self_of in V. unfold self_typed in ST. destruct (f_self f); [discriminate V| | |]; destruct ST as (v & -> & T_); cbn [var_of] in V; destruct (eqb_bytes !"self" y) eqn:Q; try discriminate V; injection V as <- <-;
      exists v; unfold begins; cbn [app hget]; rewrite Q; (split; [reflexivity|]); [exact T_|apply ot_ref, T_|apply ot_mut, T_].
Qed.
Lemma fn_ends d n f k self args : plain_fn d f = true -> fn_ok p n f -> args_typed p n f args -> self_typed p n (f_self f) self ->
  same (enter (T o (10 + (d + k))) n f self args) (enter (T o' (10 + (d + k))) n f self args) anything.
Proof.
  intros P F A ST. unfold plain_fn in P. apply andb_prop in P as [P1 P2]. destruct (fo_body p n f F) as (C & SS & B). eapply enter_same; [eapply lets_end; [exact P1|exact (begins_env n f self args F A ST)|exact SS]|].
  intros G EG. cbn beta in EG. destruct (f_ret f) as [t|], (f_value f) as [e|]; try exact Logic.I; [|contradiction B]. inversion B as [|? ? ? ? t' ? ? X FT _]; subst. eapply ends; eassumption.
Qed.
End Program.
