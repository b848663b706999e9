(** Proof of C83: programs of several functions end. *)
From Coq Require Import String.
From Verif Require Import Base StringCompactionModel StringCompactionProofs LinkedModel LinkedSpec DocModel DiffSpec DiffProofs ArchiveModel JsonModel IntfModel IntfProofs GenModel GenSpec CodeSpec ApiModel TypeSpec TypeProofs ReadModel RunModel RunSpec SoundSpec SoundProofs SoundStepProofs TimeProofs EndSpec EndProofs LayerSpec.

Local Notation text := (list Z).
Local Notation "! s" := (txt s%string) (at level 0, s at level 0).

Section Program.
Variable p : list CodeSpec.item.
Hypothesis POK : program_ok p.
Hypothesis NAMED : plainly_named p.
Variable iter : forall A, hmap A -> hmap A.
Variable r : root_obj.
Variable told : effect -> bool.
Variable o o' : res (val * trace).
Hypothesis OUT : o = Err \/ o = Panic.
Variable al : text -> bool.
Variable j : nat.
Hypothesis OWN : forall n f, fn_of p n f -> al (f_name f) = true -> brief p iter r told o o' (S j) n f.
Hypothesis FROM : forall n f, In f (trait_fns p n) -> f_lets f = [] /\ exists a fs, f_value f = Some (EStruct a fs).
Local Notation T := (timed p iter r told).
Local Notation Sm := (TimeProofs.Sm p iter r told o o').
Local Notation Sl := (TimeProofs.Sl p iter r told o o').
Local Notation of_type := (SoundSpec.of_type p).
Local Notation sm_has := (EndProofs.sm_has p POK NAMED iter r told o o' OUT).
Local Notation sm_located := (EndProofs.sm_located p POK NAMED iter r told o o' OUT).
Local Notation sl_given := (EndProofs.sl_given p POK NAMED iter r told o o' OUT).
Local Notation sl_all := (EndProofs.sl_all p iter r told o o').
Local Notation receives_has := (EndProofs.receives_has p POK NAMED iter r told o o' OUT).
Local Notation receives_kind := (EndProofs.receives_kind p).
Local Notation arm_has := (EndProofs.arm_has p POK).
Local Notation map_typed := (EndProofs.map_typed p POK).
Local Notation method_static := (EndProofs.method_static p POK r).
Local Notation assoc_static := (EndProofs.assoc_static p iter r told).

Lemma located_ends d : forall n C e t b m G k, calling al d e = true -> located p C e t b m -> env_of p G C -> Sm (S j + (d + k)) n G e anything.
Proof.
  induction d as [|d IH]; intros n C e t b m G k P L E; [discriminate P|]. replace (S j + (S d + k))%nat with (S (S j + (d + k))) by lia.
  inversion L; subst; cbn [calling] in P; try (apply sm_leaf; exact Logic.I).
  1-3: apply sm_field; (eapply same_imp; [|eapply IH; eassumption]); intros v _ m' fs y _ _; exact Logic.I.
  eapply sm_deref. eapply IH; eassumption.
Qed.
Lemma ends d : forall n C u e t G k, calling al d e = true -> env_of p G C -> has p n C u e t -> Sm (S j + (d + k)) n G e anything.
Proof.
  induction d as [d IHd] using lt_wf_ind. intros n C u e t G k P E H. destruct d as [|d]; [discriminate P|]. pose proof (IHd d (Nat.lt_succ_diag_r d)) as IH.
  assert (LOC : forall e t b m, calling al (S d) e = true -> located p C e t b m -> Sm (S j + (S d + k)) n G e anything) by (intros e' t' b m Q L; eapply located_ends; eassumption).
  replace (S j + (S d + k))%nat with (S (S j + (d + k))) in * by lia.
  assert (LS : forall u es ts, forallb (calling al d) es = true -> given p n C u es ts -> same (each (T o (S j + (d + k))) n G es) (each (T o' (S j + (d + k))) n G es) (fun vs => Forall2 of_type vs ts)).
  { intros u' es ts Q X. eapply sl_given; [exact E|exact X|]. eapply sl_all; [|exact X]. intros e' t' I Y. rewrite forallb_forall in Q. eapply IH; [apply Q, I|exact E|exact Y]. }
  assert (RC : forall u rc e t, calling al d e = true -> receives p n C u rc e t -> Sm (S j + (d + k)) n G e (fun v => of_type v t)).
  { intros u' rc e' t' Q X. eapply receives_has; [exact E|exact X|]. inversion X; subst; first [eapply IH; [exact Q|exact E|eassumption]|eapply located_ends; [exact Q|eassumption|exact E]]. }
  destruct H as
    [C u e t m L|C u e t b m L _|C u s|C u i K|C u m f args g s MF NS B GV|C u a f args self_ g s TF NS B GV|C u a f args FO NS UN GV t R|C u a e t NO MF GV|C u a v vs e t EV_ I GV|C u v e t I GV
    |C u a v vs EV_ I|C u e t N GV|C u t N|C u e f args a self_ g s TF B RV GV|C u e args a f FO UN RV GV t R|C u e t b m L|C u a b ta tb Ha Hb|C u a fields SF NN GV|C u mv x e a b He
    |C u e t b m arms t' L AR CO|C u q e t g a b t' He B Ha Hb|C u t|C u s es ts t PR HO|C u e t He|C u e i t He Hi _|C u es t GV|C u e t He].
  - exact (LOC e t true m P L).
  - exact (LOC e t b m P L).
  - apply sm_leaf. exact Logic.I.
  - apply sm_leaf. exact Logic.I.
  - cbn [calling] in P. apply andb_prop in P as [PA P]. destruct (module_prim m f g MF) as (q & CF & _). eapply core_any; [exact CF|]. eapply same_weak, LS; eassumption.
  - cbn [calling] in P. apply andb_prop in P as [PA P]. unfold TimeProofs.Sm. cbn [timed eval_step]. eapply same_seq; [eapply LS; eassumption|]. intros vs _. rewrite (assoc_static (T o' (S j + (d + k))) (T o (S j + (d + k))) n a f self_ g vs TF NS). apply same_any.
  - cbn [calling] in P. apply andb_prop in P as [PA P]. unfold TimeProofs.Sm. cbn [timed eval_step]. eapply same_seq; [eapply LS; eassumption|]. intros vs F. cbn beta in F. destruct (fn_found p POK _ f FO) as (FN & OKF & I).
    rewrite !(assoc_own p POK iter r told _ (named n a) (f_name f) vs I), !named_app, FN. apply (OWN _ _ FO PA); [rewrite NS; reflexivity|exact F].
  - cbn [calling] in P. apply andb_prop in P as [PA P]. unfold TimeProofs.Sm. cbn [timed eval_step]. eapply same_seq; [eapply LS; eassumption|]. intros vs F. cbn beta in F. destruct (from_found p POK NAMED a t MF NO) as (f & FN & OKF & I & _).
    rewrite (from_self p POK n a I), !(assoc_own p POK iter r told _ a _ vs I), FN. unfold fn_named in FN. apply find_some in FN as [J Q]. apply eqb_bytes_eq in Q. apply in_app_or in J as [J|J]; [contradiction (NO f (own_fns_in p a f J))|].
    destruct (FROM a f J) as (FL & x & fs & FV). apply enter_value; [exact FL|]. rewrite FV. apply sm_leaf. exact Logic.I.
  - cbn [calling] in P. apply andb_prop in P as [PA P]. unfold TimeProofs.Sm. cbn [timed eval_step]. eapply same_seq; [eapply LS; eassumption|]. intros ws _.
    rewrite !(assoc_own p POK iter r told _ _ _ _ (enum_named p _ _ EV_)). destruct (variant_found p NAMED _ vs v (Some t) EV_ I) as (FN & IV). rewrite FN, IV. apply same_any.
  - cbn [calling] in P. apply andb_prop in P as [PA P]. apply sm_known; [reflexivity|vm_compute; reflexivity|]. eapply same_weak, LS; eassumption.
  - apply sm_leaf. exact Logic.I.
  - cbn [calling] in P. apply andb_prop in P as [PA P]. apply sm_some. eapply same_weak, LS; eassumption.
  - apply sm_leaf. exact Logic.I.
  - cbn [calling] in P. apply andb_prop in P as [P1 P2]. apply andb_prop in P1 as [PA P1]. pose proof (RC u _ e _ P1 RV) as RE. destruct (eqb_bytes f !"map") eqn:FM.
    + apply eqb_bytes_eq in FM as ->.
      destruct (map_args a self_ g TF) as (A & B_ & GA). rewrite GA in GV. cbn [map subst] in GV. destruct args as [|c [|c' args]]; [inversion GV| |destruct c; discriminate P2].
      destruct c as [| | | | | | | | | | |mv x b| | | | | | |]; try discriminate P2. inversion GV as [|? ? ? ? t' ? ? HC FT _]; subst.
      inversion HC as [? ? ? ? ? L|? ? ? ? ? ? L _| | | | | | | | | | | | | | | | |? ? ? ? ? ta tb Hb| | | | | | | |]; subst; [inversion L|inversion L|]. inversion FT; subst.
      change (S j + (d + k))%nat with (S (j + (d + k))) in *. eapply sm_map with (P := fun x => of_type x (subst s A)).
      * eapply same_imp; [|exact RE]. intros v V. cbn beta in V. destruct (map_typed a self_ g s v TF V) as (A' & B' & GA' & HV). rewrite GA in GA'. injection GA' as <- <-. exact HV.
      * intros v V. eapply IH; [exact P2| |exact Hb]. apply (env_app p [(x, v)] [(x, (subst s A, false))]); [|exact E]. apply Forall2_cons; [split; [reflexivity|exact V]|apply Forall2_nil].
    + unfold TimeProofs.Sm. cbn [timed eval_step]. eapply same_seq; [exact RE|]. intros v V. cbn beta in V. eapply same_seq; [eapply LS; eassumption|]. intros vs _.
      rewrite (method_static (T o' (S j + (d + k))) (T o (S j + (d + k))) a f self_ g s v vs TF (receives_kind _ _ _ _ _ _ RV) V FM). apply same_any.
  - cbn [calling] in P. apply andb_prop in P as [P1 P2]. apply andb_prop in P1 as [PA P1]. pose proof (RC u _ e _ P1 RV) as RE. destruct (fn_found p POK a f FO) as (FN & _ & I). pose proof (receives_kind _ _ _ _ _ _ RV) as NS.
    assert (AS : same (each (T o (S j + (d + k))) n G args) (each (T o' (S j + (d + k))) n G args) (fun vs => Forall2 of_type vs (map (fun x => of_ty a (snd x)) (f_args f)))).
    { destruct (eqb_bytes (f_name f) !"map"); [|eapply LS; eassumption]. destruct args as [|c [|c' args]]; [eapply LS; [reflexivity|exact GV]| |destruct c; discriminate P2].
      destruct c; try discriminate P2. eapply sl_given; [exact E|exact GV|]. eapply sl_cons; [|apply sl_nil]. change (S j + (d + k))%nat with (S (j + (d + k))). apply sm_leaf. exact Logic.I. }
    unfold TimeProofs.Sm. cbn [timed eval_step]. eapply same_seq; [exact RE|]. intros v V. cbn beta in V. eapply same_seq; [exact AS|]. intros vs F. cbn beta in F.
    rewrite !(method_own p POK r _ a v _ vs I V). unfold own_method. rewrite FN. apply (OWN _ _ FO PA); [|exact F]. unfold self_typed. destruct (f_self f); [contradiction NS; reflexivity|exists v; split; [reflexivity|exact V]..].
  - cbn [calling] in P. apply sm_ref. eapply located_ends; eassumption.
  - cbn [calling] in P. apply andb_prop in P as [P1 P2]. eapply sm_pair; eapply IH; eassumption.
  - apply sm_leaf. exact Logic.I.
  - apply sm_leaf. exact Logic.I.
  - cbn [calling] in P. apply andb_prop in P as [P1 P2]. unfold TimeProofs.Sm. cbn [timed eval_step]. eapply same_seq; [eapply sm_located; [exact E|exact L|eapply located_ends; eassumption]|]. intros v V. cbn beta in V.
    destruct (arm_for n v arms) as [[H e']|] eqn:AF; [|apply same_stuck]. destruct (arm_has n C u t t' arms v H e' AR V AF) as (g & q & I & BA & HE). rewrite forallb_forall in P2. eapply IH; [exact (P2 _ I)| |exact HE]. apply env_app; assumption.
  - cbn [calling] in P. apply andb_prop in P as [P1 P3]. apply andb_prop in P1 as [P1 P2]. unfold TimeProofs.Sm. cbn [timed eval_step]. eapply same_seq; [eapply sm_has; [exact E|exact He|eapply IH; eassumption]|]. intros v V. cbn beta in V.
    destruct (bound n q v) as [H|] eqn:BQ; [|eapply IH; eassumption]. eapply IH; [exact P2| |exact Ha]. apply env_app; [exact (bound_as p POK n q t g B v H V BQ)|exact E].
  - apply sm_leaf. exact Logic.I.
  - apply sm_leaf. exact Logic.I.
  - cbn [calling] in P. apply sm_unsafe. eapply IH; eassumption.
  - cbn [calling] in P. apply andb_prop in P as [P1 P2]. eapply sm_index; eapply IH; eassumption.
  - cbn [calling] in P. apply sm_ref. destruct d as [|d]; [discriminate P|]. cbn [calling] in P. replace (S j + (S d + k))%nat with (S (S j + (d + k))) in * by lia. apply sm_array.
    eapply sl_all; [|exact GV]. intros e' t' I Y. rewrite forallb_forall in P. eapply (IHd d); [lia|apply P, I|exact E|exact Y].
  - cbn [calling] in P. apply sm_block. eapply IH; eassumption.
Qed.

(** functions with statements *)
Lemma lets_end d n u k ss : forall C C' G, forallb (fun s => match s with SLet _ _ e | SExpr e => calling al d e end) ss = true -> env_of p G C -> stmts_ok p n u C ss C' ->
  Lt p iter r told o o' (S j + (d + k)) n G ss (fun G' => env_of p G' C').
Proof.
  induction ss as [|s ss IH]; intros C C' G P E H; inversion H as [|? x m e t ? ? X Y|? q e t g ? ? SU X B Y|? e t ? ? X Y]; subst.
  - apply lt_nil, E.
  - cbn [forallb] in P. apply andb_prop in P as [P1 P2]. eapply lt_let; [eapply sm_has; [exact E|exact X|eapply ends; eassumption]|]. intros v H' V Bd. cbn beta in V. cbn [bound] in Bd. injection Bd as <-.
    eapply IH; [exact P2| |exact Y]. apply (env_app p [(x, v)] [(x, (t, m))]); [|exact E]. apply Forall2_cons; [split; [reflexivity|exact V]|apply Forall2_nil].
  - cbn [forallb] in P. apply andb_prop in P as [P1 P2]. eapply lt_let; [eapply sm_has; [exact E|exact X|eapply ends; eassumption]|]. intros v H' V Bd. cbn beta in V.
    eapply IH; [exact P2| |exact Y]. apply env_app; [|exact E]. exact (bound_as p POK n q t g B v H' V Bd).
  - cbn [forallb] in P. apply andb_prop in P as [P1 P2]. eapply lt_expr; [eapply ends; eassumption|]. eapply IH; eassumption.
Qed.
Lemma fn_ends d n f k self args : calling_fn al d f = true -> fn_ok p n f -> args_typed p n f args -> self_typed p n (f_self f) self ->
  same (enter (T o (S j + (d + k))) n f self args) (enter (T o' (S j + (d + k))) n f self args) anything.
Proof.
  intros P F A ST. unfold calling_fn in P. apply andb_prop in P as [P1 P2]. destruct (fo_body p n f F) as (C & SS & B). eapply enter_same; [eapply lets_end; [exact P1|exact (begins_env p n f self args F A ST)|exact SS]|].
  intros G EG. cbn beta in EG. destruct (f_ret f) as [t|], (f_value f) as [e|]; try exact Logic.I; [|contradiction B]. inversion B as [|? ? ? ? t' ? ? X FT _]; subst. eapply ends; eassumption.
Qed.
End Program.
