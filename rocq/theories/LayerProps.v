(** C83: programs of several functions written beside accessors. *)
From Coq Require Import String.
From Verif Require Import Base StringCompactionModel StringCompactionProofs LinkedModel LinkedSpec DocModel DiffSpec DiffProofs ArchiveModel JsonModel JsonSpec JsonProps ValidSpec IntfModel IntfProofs
  GenModel GenSpec GenNameProofs GenProofs CodeModel CodeSpec CodeNameProofs CodeProps ApiModel TypeSpec TypeProofs TypeItemProofs TypeGenProofs TypeProps ReadModel RunModel RunSpec RunProps SoundSpec SoundProofs
  SoundStepProofs SoundGenProofs SoundTimeProofs SoundProps TimeProofs TimeFnProofs TimeGenProofs TimeMoreProofs TimeProps EndSpec EndProofs EndGenProofs EndProps BesideSpec BesideProofs BesideProps
  LayerSpec LayerProofs LayerGenProofs LayerTypeProofs.

Local Notation text := (list Z).
Local Notation "! s" := (txt s%string) (at level 0, s at level 0).

(** Generated code passes the compiler together with other code that has types of its own and passes
    beside it. *)
Theorem C83_passes : forall old r p q, accessible old r p -> (forall key id d rows o, In (key, (id, WTable d rows o)) (ro_default r) -> zlen rows < 2 ^ 64) -> joins p q ->
  program_ok (p ++ q) /\ plainly_named (p ++ q).
Proof.
  intros old r p q (T & parts & D & ->) B J. pose proof (whole_ok old _ T B parts D) as POK. pose proof (whole_named old _ T B parts D) as NM.
  split; [exact (program_more _ q POK J)|exact (named_more _ q POK NM J)].
Qed.
Print Assumptions C83_passes.

(** If the functions of the other code can be numbered so that each calls only functions of smaller
    numbers, and they are nested at most [d] deep, then every function of the whole program whose number
    is below [m] ends before its evaluation has nested [10 + m * d] deep. *)
Theorem C83_fn : forall old iter r told p q rk d m k n f self args w, accessible old r p ->
  (forall key id d rows o, In (key, (id, WTable d rows o)) (ro_default r) -> zlen rows < 2 ^ 64) -> joins p q -> layered rk d q ->
  fn_of (p ++ q) n f -> (rk (f_name f) < m)%nat -> self_typed (p ++ q) n (f_self f) self -> args_typed (p ++ q) n f args ->
  match enter (eval (p ++ q) iter r told (10 + m * d + k)) n f self args w with
  | Ok (v, w') => returned (p ++ q) n f v /\ exists es, w' = w ++ es /\ Forall (effect_ok (p ++ q)) es
  | Err => False
  | Panic => True
  end.
Proof.
  intros old iter r told p q rk d m k n f self args w A B J L F R ST TA. destruct (C83_passes old r p q A B J) as (QOK & QNM). destruct A as (T & parts & D & ->). pose proof (whole_ok old _ T B parts D) as POK. pose proof (whole_named old _ T B parts D) as NM.
  pose proof (timed_enter _ Panic QOK QNM (or_intror eq_refl) iter r told (10 + m * d + k) n f self args F TA ST w) as S_. apply Nat.ltb_lt in R.
  destruct (layers_brief _ q POK NM QOK QNM (j_apart _ _ J) iter r told Panic Err (or_intror eq_refl) (or_introl eq_refl) (whole_soon old _ T B parts D iter r told Panic Err (or_intror eq_refl)) (from_leaf _ parts D) rk d L m n f F R k self args ST TA w) as [X _].
  rewrite eval_timed, X. destruct (enter _ n f self args w) as [[v w']| |]; [exact S_|discriminate S_|exact S_].
Qed.
Print Assumptions C83_fn.

(** Expressions that call functions of numbers below [m]. *)
Theorem C83_ends : forall old iter r told p q rk d m c k n C u e t G w, accessible old r p ->
  (forall key id d rows o, In (key, (id, WTable d rows o)) (ro_default r) -> zlen rows < 2 ^ 64) -> joins p q -> layered rk d q ->
  calling (fun g => (rk g <? m)%nat) c e = true -> has (p ++ q) n C u e t -> env_of (p ++ q) G C ->
  match eval (p ++ q) iter r told (10 + m * d + (c + k)) n G e w with
  | Ok (v, w') => of_type (p ++ q) v t /\ exists es, w' = w ++ es /\ Forall (effect_ok (p ++ q)) es
  | Err => False
  | Panic => True
  end.
Proof.
  intros old iter r told p q rk d m c k n C u e t G w A B J L P H E. destruct (C83_passes old r p q A B J) as (QOK & QNM). destruct A as (T & parts & D & ->). pose proof (whole_ok old _ T B parts D) as POK. pose proof (whole_named old _ T B parts D) as NM.
  pose proof (C79_sound _ iter r told (10 + m * d + (c + k)) n C u e t G w QOK QNM E H) as S_.
  destruct (LayerProofs.ends _ QOK QNM iter r told Panic Err (or_intror eq_refl) (fun g => (rk g <? m)%nat) (9 + m * d)
    (layers_brief _ q POK NM QOK QNM (j_apart _ _ J) iter r told Panic Err (or_intror eq_refl) (or_introl eq_refl) (whole_soon old _ T B parts D iter r told Panic Err (or_intror eq_refl)) (from_leaf _ parts D) rk d L m)
    (new_from _ q (from_leaf _ parts D) rk d L) c n C u e t G k P E H w) as [X _].
  rewrite eval_timed. change (10 + m * d)%nat with (S (9 + m * d)) in *. rewrite X. exact S_.
Qed.
Print Assumptions C83_ends.

(* ------------------------------------------------------------------ *)
(** * Cases *)

(** Beside the code for the document of C68:
    [struct Tool {} impl Tool { fn one(root: &RootIntf) -> NullOr<i64> { root.n_old() } fn two(root: &RootIntf) -> (NullOr<i64>, NullOr<i64>) { (Tool::one(root), Tool::one(root)) } }]. *)
Definition tool_one : fn := Fn true false !"one" NoSelf [(!"root", TyRef (TyName !"RootIntf"))] (Some (TyApp !"NullOr" (TyName !"i64"))) [] (Some (EMethod (EVar !"root") !"n_old" [])).
Definition tool_two : fn :=
  Fn true false !"two" NoSelf [(!"root", TyRef (TyName !"RootIntf"))] (Some (TyPair (TyApp !"NullOr" (TyName !"i64")) (TyApp !"NullOr" (TyName !"i64")))) []
    (Some (EPair (ECall (EPath !"Tool" !"one") [EVar !"root"]) (ECall (EPath !"Tool" !"one") [EVar !"root"]))).
Definition tools : list CodeSpec.item := [IStruct [] !"Tool" []; IImpl !"Tool" [tool_one; tool_two]].
Definition tool_rank (f : text) : nat := if eqb_bytes f !"two" then 2 else if eqb_bytes f !"one" then 1 else 0.
Example C83_fn_case : exists p, accessible (ro_old run_doc) run_doc p /\ (forall key id d rows o, In (key, (id, WTable d rows o)) (ro_default run_doc) -> zlen rows < 2 ^ 64) /\ joins p tools /\ layered tool_rank 3 tools /\
  fn_of (p ++ tools) !"Tool" tool_two /\ (tool_rank (f_name tool_two) < 3)%nat /\ self_typed (p ++ tools) !"Tool" (f_self tool_two) None /\ args_typed (p ++ tools) !"Tool" tool_two [root_value] /\
  forall (iter : forall A, hmap A -> hmap A) told, enter (eval (p ++ tools) iter run_doc told 19) !"Tool" tool_two None [root_value] [] =
    Ok (VPair (VMake !"NullOr" !"Val" [VOf (CInt 5)]) (VMake !"NullOr" !"Val" [VOf (CInt 5)]), []).
Proof.
  destruct C79_accessors_case as (p & A & V & B & H). destruct (H (Meth !"n_old" [] (CRead AtRoot TInt Nullable !"n") [] [])) as (f & F & W); [vm_compute; repeat ((left; reflexivity) || right)|].
  exists p. split; [exact A|]. split; [exact B|]. inversion W; subst; [|discriminate].
  match type of F with fn_of _ _ ?f => set (g := f) in * end.
  assert (AP : apart p tools).
  { intros i n I J. assert (N : !"Tool" <> n); [|destruct I as [<-|[<-|[]]]; exact N]. intros <-. destruct A as (T & parts & D & ->).
    assert (X : forall ds q, Forall2 declares ds q -> type_names (concat q) = map decl_name ds).
    { clear. induction 1 as [|d q ds qs H D IH]; [reflexivity|]. cbn [concat map]. unfold type_names in *. rewrite flat_map_app, IH. destruct (declares_types d q H) as [Y _]. unfold type_names in Y. rewrite Y. reflexivity. }
    rewrite (X _ _ D) in J. assert (Y : existsb (eqb_bytes !"Tool") (map decl_name (generate (ro_old run_doc) (ro_default run_doc))) = false) by (vm_compute; reflexivity).
    rewrite <- not_true_iff_false in Y. apply Y. apply existsb_exists. exists !"Tool". split; [exact J|apply eqb_bytes_refl]. }
  assert (POK : program_ok p) by (destruct A as (T & parts & D & ->); exact (whole_ok _ _ T B parts D)).
  destruct (fn_found p POK _ g F) as (L & _ & I).
  assert (FO : fn_of (p ++ tools) !"Tool" tool_one) by (exists [tool_one; tool_two]; split; [apply in_or_app; right; right; left; reflexivity|left; reflexivity]).
  assert (FT : fn_of (p ++ tools) !"Tool" tool_two) by (exists [tool_one; tool_two]; split; [apply in_or_app; right; right; left; reflexivity|right; left; reflexivity]).
  assert (FG : fn_of (p ++ tools) !"RootIntf" g) by (destruct F as (fns & F1 & F2); exists fns; split; [apply in_or_app; left; exact F1|exact F2]).
  assert (RI : type_ok (p ++ tools) (RRef (RName !"RootIntf"))) by (apply ok_ref, ok_declared; unfold type_names; rewrite flat_map_app; apply in_or_app; left; exact I).
  assert (NI : type_ok (p ++ tools) (RApp !"NullOr" (RName !"i64"))) by (apply (ok_app _ "NullOr"); [do 4 right; left; reflexivity|]; eapply (ok_core _ "i64"); cbn; repeat ((left; reflexivity) || right)).
  assert (RO : has (p ++ tools) !"Tool" [(!"root", (RRef (RName !"RootIntf"), false))] false (EVar !"root") (RRef (RName !"RootIntf"))) by (eapply h_move; apply pl_var with (m := false); reflexivity).
  assert (JO : joins p tools).
  { split; [exact AP| | | | |].
    - apply NoDup_cons; [intros []|apply NoDup_nil].
    - apply NoDup_cons; [intros []|apply NoDup_nil].
    - intros n [<-|[]] J. assert (X : one_of core_names !"Tool" = false) by (vm_compute; reflexivity). unfold one_of in X. rewrite <- not_true_iff_false in X. apply X. apply existsb_exists. exists !"Tool". split; [exact J|apply eqb_bytes_refl].
    - apply Forall_cons; [apply io_struct; [apply NoDup_nil|apply Forall_nil|intros d f []|intros []]|]. apply Forall_cons; [|apply Forall_nil]. apply io_impl.
      + unfold type_names. rewrite flat_map_app. apply in_or_app. right. left. reflexivity.
      + apply NoDup_cons; [intros [E|[]]; discriminate E|]. apply NoDup_cons; [intros []|apply NoDup_nil].
      + apply Forall_cons; [|apply Forall_cons; [|apply Forall_nil]]; (split; [split; [apply NoDup_cons; [intros []|apply NoDup_nil]|intros [E|[]]; discriminate E]| |]).
        * split; [apply Forall_cons; [exact RI|apply Forall_nil]|exact NI].
        * exists [(!"root", (RRef (RName !"RootIntf"), false))]. split; [apply st_nil|]. eapply gv_cons; [|apply fits_same|apply gv_nil].
          apply (h_own (p ++ tools) !"Tool" _ _ (EVar !"root") [] !"RootIntf" g FG) with (t := TyApp !"NullOr" (TyName !"i64")); [discriminate| |apply gv_nil|reflexivity]. apply rc_ref. exact RO.
        * split; [apply Forall_cons; [exact RI|apply Forall_nil]|]. apply ok_pair; exact NI.
        * exists [(!"root", (RRef (RName !"RootIntf"), false))]. split; [apply st_nil|]. eapply gv_cons; [|apply fits_same|apply gv_nil].
          assert (X : has (p ++ tools) !"Tool" [(!"root", (RRef (RName !"RootIntf"), false))] false (ECall (EPath !"Tool" !"one") [EVar !"root"]) (RApp !"NullOr" (RName !"i64"))).
          { apply (h_fn (p ++ tools) !"Tool" _ _ !"Tool" tool_one [EVar !"root"] FO) with (t := TyApp !"NullOr" (TyName !"i64")); [reflexivity|discriminate| |reflexivity]. eapply gv_cons; [exact RO|apply fits_same|apply gv_nil]. }
          apply h_pair; exact X.
    - split; [apply NoDup_nil|]. intros n vs f (rp & J). destruct J as [J|[J|[]]]; discriminate J. }
  split; [exact JO|]. split; [intros i [<-|[<-|[]]]; [exact Logic.I|]; intros f [<-|[<-|[]]]; reflexivity|].
  split; [exact FT|]. split; [cbn; lia|]. split; [reflexivity|].
  destruct (C83_passes _ _ p tools A B JO) as (QOK & QNM).
  assert (VQ : of_type (p ++ tools) root_value (RName !"RootIntf")).
  { destruct A as (T & parts & D & ->). destruct (part_of _ _ parts D _ (generated_root _ _)) as (part & H' & K). apply declares_root in H' as (fns & _ & ->).
    unfold root_value. eapply ot_struct; [eexists; apply in_or_app; left; apply K; do 4 right; left; reflexivity|]. intros x t [E|[E|[]]]; apply pair_equal_spec in E as [<- <-].
    - exists (VBox (VPtr PRoot)). split; [reflexivity|]. apply ot_box, ot_root.
    - exists (VPtr PRoot). split; [reflexivity|]. apply ot_root_ptr. }
  split; [apply Forall2_cons; [apply ot_ref, VQ|apply Forall2_nil]|].
  intros iter told. destruct (fn_found _ QOK _ g FG) as (LG & _ & IG). destruct (fn_found _ QOK _ _ FO) as (LO' & _).
  assert (AF : forall (t : fn -> bool) a b x, find t a = Some x -> find t (a ++ b) = Some x) by (induction a as [|y a IH]; intros b x E; [discriminate E|]; cbn [find app] in *; destruct (t y); [exact E|exact (IH b x E)]).
  pose proof (AF _ _ (trait_fns (p ++ tools) !"Tool") _ LO') as LO. pose proof (fun ev vs => method_own _ QOK run_doc ev _ root_value !"n_old" vs IG VQ) as MO.
  set (pq := p ++ tools) in *. set (G := [(!"root", root_value)]).
  assert (X : forall w, eval pq iter run_doc told 17 !"Tool" G (EMethod (EVar !"root") !"n_old" []) w = Ok (VMake !"NullOr" !"Val" [VOf (CInt 5)], w)).
  { intros w. change (eval pq iter run_doc told 17) with (eval_step pq iter run_doc told (eval pq iter run_doc told 16)). cbn [eval_step each]. unfold seq at 1.
    change (eval pq iter run_doc told 16 !"Tool" G (EVar !"root") w) with (Ok (root_value, w) : res (val * trace)). cbv iota beta. unfold seq, ret at 1. rewrite MO. unfold own_method. change !"n_old" with (f_name g). rewrite LG. reflexivity. }
  assert (Y : forall w, eval pq iter run_doc told 18 !"Tool" G (ECall (EPath !"Tool" !"one") [EVar !"root"]) w = Ok (VMake !"NullOr" !"Val" [VOf (CInt 5)], w)).
  { intros w. change (eval pq iter run_doc told 18) with (eval_step pq iter run_doc told (eval pq iter run_doc told 17)). cbn [eval_step].
    change (assoc pq iter run_doc told (eval pq iter run_doc told 17) !"Tool" !"one" [root_value] w = Ok (VMake !"NullOr" !"Val" [VOf (CInt 5)], w)). unfold assoc.
    change (match fn_named !"one" (own_fns pq !"Tool" ++ trait_fns pq !"Tool") with Some g => enter (eval pq iter run_doc told 17) !"Tool" g None [root_value] | None => if is_variant pq !"Tool" !"one" then ret (VMake !"Tool" !"one" [root_value]) else stuck end w = Ok (VMake !"NullOr" !"Val" [VOf (CInt 5)], w)).
    change !"one" with (f_name tool_one). unfold fn_named at 1. rewrite LO. unfold enter. cbn [tool_one f_lets f_args map fst combine app lets f_value f_ret]. unfold seq at 1. unfold ret at 1. cbv iota beta. unfold seq at 1. fold G. rewrite X. reflexivity. }
  unfold enter. cbn [tool_two f_lets f_args map fst combine app lets f_value f_ret]. unfold seq at 1. unfold ret at 1. cbv iota beta. unfold seq at 1. fold G.
  change (eval pq iter run_doc told 19) with (eval_step pq iter run_doc told (eval pq iter run_doc told 18)). cbn [eval_step]. unfold seq at 1. rewrite Y. unfold seq at 1. rewrite Y. reflexivity.
Qed.
(** A call of the second function in a program where [root] is a variable. *)
Example C83_ends_case : exists p, accessible (ro_old run_doc) run_doc p /\ (forall key id d rows o, In (key, (id, WTable d rows o)) (ro_default run_doc) -> zlen rows < 2 ^ 64) /\ joins p tools /\ layered tool_rank 3 tools /\
  let C := [(!"root", (RRef (RName !"RootIntf"), false))] in let e := ECall (EPath !"Tool" !"two") [EVar !"root"] in let t := RApp !"NullOr" (RName !"i64") in
  calling (fun g => (tool_rank g <? 3)%nat) 2 e = true /\ has (p ++ tools) [] C false e (RPair t t) /\ env_of (p ++ tools) [(!"root", root_value)] C.
Proof.
  destruct C83_fn_case as (p & A & B & J & L & F & _ & _ & TA & _). exists p. split; [exact A|]. split; [exact B|]. split; [exact J|]. split; [exact L|]. split; [reflexivity|]. split.
  - apply (h_fn (p ++ tools) [] _ _ !"Tool" tool_two [EVar !"root"] F) with (t := TyPair (TyApp !"NullOr" (TyName !"i64")) (TyApp !"NullOr" (TyName !"i64"))); [reflexivity|discriminate| |reflexivity].
    eapply gv_cons; [|apply fits_same|apply gv_nil]. eapply h_move. apply pl_var with (m := false); reflexivity.
  - intros x t m E. cbn [var_of] in E. destruct (eqb_bytes !"root" x) eqn:Q; [|discriminate E]. injection E as <- <-. exists root_value. cbn [hget]. rewrite Q. split; [reflexivity|]. unfold args_typed in TA. inversion TA; subst; assumption.
Qed.
(** The function of C81 that calls itself, and does not end, has no such number. *)
Example C83_needs : forall rk d, ~ layered rk d loops.
Proof.
  intros rk d L. specialize (L _ (or_intror (or_introl eq_refl)) loop_fn (or_introl eq_refl)). destruct d as [|d]; [discriminate L|].
  change ((rk !"f" <? rk !"f")%nat && true = true) in L. rewrite Nat.ltb_irrefl in L. discriminate L.
Qed.
