(** C81: programs that use the generated functions end. *)
From Coq Require Import String.
From Verif Require Import Base StringCompactionModel StringCompactionProofs LinkedModel LinkedSpec DocModel DiffSpec DiffProofs ArchiveModel JsonModel JsonSpec JsonProps ValidSpec IntfModel IntfProofs
  GenModel GenSpec GenNameProofs GenProofs CodeModel CodeSpec CodeNameProofs CodeProps ApiModel TypeSpec TypeProofs TypeItemProofs TypeGenProofs TypeProps ReadModel RunModel RunSpec RunProps SoundSpec SoundProofs
  SoundStepProofs SoundGenProofs SoundTimeProofs SoundProps TimeProofs TimeFnProofs TimeGenProofs TimeMoreProofs TimeProps EndSpec EndProofs EndGenProofs.

Local Notation text := (list Z).
Local Notation "! s" := (txt s%string) (at level 0, s at level 0).

(** An expression that passes the compiler, that may call functions generated for a document and those
    of dochy_core, and is nested [d] deep, ends before its evaluation has nested [10 + d] deep,
    whatever the document and the values of the variables are: it gives a value of its type, or it
    panics.  [Err], which stands for too little time and for being stuck, does not occur. *)
Theorem C81_ends : forall old iter r told p d k n C u e t G w, accessible old r p ->
  (forall key id d rows o, In (key, (id, WTable d rows o)) (ro_default r) -> zlen rows < 2 ^ 64) ->
  plain d e = true -> has p n C u e t -> env_of p G C ->
  match eval p iter r told (10 + (d + k)) n G e w with
  | Ok (v, w') => of_type p v t /\ exists es, w' = w ++ es /\ Forall (effect_ok p) es
  | Err => False
  | Panic => True
  end.
Proof.
  intros old iter r told p d k n C u e t G w (T & parts & D & ->) B P H E. pose proof (whole_ok old _ T B parts D) as POK. pose proof (whole_named old _ T B parts D) as NM.
  pose proof (C79_sound _ iter r told (10 + (d + k)) n C u e t G w POK NM E H) as S_.
  destruct (ends _ POK NM iter r told Panic Err (or_intror eq_refl) (whole_soon old _ T B parts D iter r told Panic Err (or_intror eq_refl)) (from_leaf _ parts D) d n C u e t G k P E H w) as [X _].
  rewrite eval_timed, X. exact S_.
Qed.
Print Assumptions C81_ends.

(** Functions somebody writes beside the generated ones: statements, then a value. *)
Theorem C81_fn : forall old iter r told p d k n f self args w, accessible old r p ->
  (forall key id d rows o, In (key, (id, WTable d rows o)) (ro_default r) -> zlen rows < 2 ^ 64) ->
  plain_fn d f = true -> fn_ok p n f -> self_typed p n (f_self f) self -> args_typed p n f args ->
  match enter (eval p iter r told (10 + (d + k))) n f self args w with
  | Ok (v, w') => returned p n f v /\ exists es, w' = w ++ es /\ Forall (effect_ok p) es
  | Err => False
  | Panic => True
  end.
Proof.
  intros old iter r told p d k n f self args w (T & parts & D & ->) B P F ST A. pose proof (whole_ok old _ T B parts D) as POK. pose proof (whole_named old _ T B parts D) as NM.
  assert (S_ : sound (concat parts) Panic (enter (timed (concat parts) iter r told Panic (10 + (d + k))) n f self args) (returned (concat parts) n f)).
  { apply enter_returned; try assumption. intros n' C u e t' G. apply (proj1 (timed_sound _ Panic POK NM (or_intror eq_refl) iter r told (10 + (d + k)))). }
  specialize (S_ w). destruct (fn_ends _ POK NM iter r told Panic Err (or_intror eq_refl) (whole_soon old _ T B parts D iter r told Panic Err (or_intror eq_refl)) (from_leaf _ parts D) d n f k self args P F A ST w) as [X _].
  rewrite eval_timed, X. destruct (enter _ n f self args w) as [[v w']| |]; [exact S_|discriminate S_|exact S_].
Qed.
Print Assumptions C81_fn.

(** With more time they do nothing else. *)
Theorem C81_settled : forall old iter r told p d i n f self args w, accessible old r p ->
  (forall key id d rows o, In (key, (id, WTable d rows o)) (ro_default r) -> zlen rows < 2 ^ 64) ->
  plain_fn d f = true -> fn_ok p n f -> self_typed p n (f_self f) self -> args_typed p n f args ->
  enter (eval p iter r told (i + (10 + d))) n f self args w = enter (eval p iter r told (10 + d)) n f self args w.
Proof.
  intros old iter r told p d i n f self args w A B P F ST TA. apply enter_more. intros E. pose proof (C81_fn old iter r told p d 0 n f self args w A B P F ST TA) as H. rewrite Nat.add_0_r in H. rewrite E in H. exact H.
Qed.
Print Assumptions C81_settled.

(* ------------------------------------------------------------------ *)
(** * Cases *)

(** The document of C68 and what is written beside its code:
    [fn f(root: &RootIntf) -> NullOr<Option<i64>> { let q = root.n_old(); q.map(|x| Some(x)) }]. *)
Definition beside : fn :=
  Fn false false !"f" NoSelf [(!"root", TyRef (TyName !"RootIntf"))] (Some (TyApp !"NullOr" (TyApp !"Option" (TyName !"i64"))))
    [SLet false (PVar !"q") (EMethod (EVar !"root") !"n_old" [])] (Some (EMethod (EVar !"q") !"map" [EClosure false !"x" (ECall (EVar !"Some") [EVar !"x"])])).
Example C81_fn_case : exists p, accessible (ro_old run_doc) run_doc p /\
  (forall key id d rows o, In (key, (id, WTable d rows o)) (ro_default run_doc) -> zlen rows < 2 ^ 64) /\
  plain_fn 3 beside = true /\ fn_ok p !"RootIntf" beside /\ self_typed p !"RootIntf" (f_self beside) None /\ args_typed p !"RootIntf" beside [root_value] /\
  forall (iter : forall A, hmap A -> hmap A) told, enter (eval p iter run_doc told 13) !"RootIntf" beside None [root_value] [] = Ok (VMake !"NullOr" !"Val" [some (VOf (CInt 5))], []).
Proof.
  destruct C79_accessors_case as (p & A & V & B & H). destruct (H (Meth !"n_old" [] (CRead AtRoot TInt Nullable !"n") [] [])) as (f & F & W); [vm_compute; repeat ((left; reflexivity) || right)|].
  exists p. split; [exact A|]. split; [exact B|]. split; [reflexivity|].
  assert (POK : program_ok p) by (destruct A as (T & parts & D & ->); exact (whole_ok _ _ T B parts D)). inversion W; subst; [|discriminate].
  match type of F with fn_of _ _ ?f => set (g := f) in * end.
  assert (Y : has p !"RootIntf" [(!"root", (RRef (RName !"RootIntf"), false))] false (EMethod (EVar !"root") !"n_old" []) (RApp !"NullOr" (RName !"i64"))).
  { apply (h_own p !"RootIntf" _ _ (EVar !"root") [] !"RootIntf" g F) with (t := TyApp !"NullOr" (TyName !"i64")); [discriminate| |apply gv_nil|reflexivity].
    apply rc_ref. eapply h_move. apply pl_var with (m := false); reflexivity. }
  split.
  - split.
    + split; [repeat constructor; intros []|intros [E|[]]; discriminate E].
    + split; [apply Forall_cons; [apply ok_ref, ok_declared|apply Forall_nil]|].
      * exact (proj2 (proj2 (fn_found p POK _ g F))).
      * apply (ok_app p "NullOr"); [do 4 right; left; reflexivity|]. apply (ok_app p "Option"); [left; reflexivity|]. eapply (ok_core p "i64"). cbn; repeat ((left; reflexivity) || right).
    + exists [(!"q", (RApp !"NullOr" (RName !"i64"), false)); (!"root", (RRef (RName !"RootIntf"), false))]. split; [eapply st_let; [exact Y|apply st_nil]|].
      cbn [beside f_ret f_value]. eapply gv_cons; [|apply fits_same|apply gv_nil].
      apply (call_method p !"RootIntf" _ _ (EVar !"q") !"map" _ !"NullOr" (RApp !"NullOr" (RVar [84])) [([84], None); ([85], None)] ByValue [RFun (RVar [84]) (RVar [85])] (RApp !"NullOr" (RVar [85]))
        (fun x => if eqb_bytes x [84] then RName !"i64" else RApp !"Option" (RName !"i64"))).
      * vm_compute. reflexivity.
      * intros x t [E|[E|[]]]; discriminate E.
      * apply rc_value. eapply h_move. apply pl_var with (m := false); reflexivity.
      * eapply gv_cons; [|apply fits_same|apply gv_nil]. apply h_closure. apply h_some; [reflexivity|]. eapply gv_cons; [|apply fits_same|apply gv_nil]. eapply h_move. apply pl_var with (m := false); reflexivity.
      * reflexivity.
  - split; [reflexivity|]. split; [apply Forall2_cons; [apply ot_ref, V|apply Forall2_nil]|].
    intros iter told. destruct (fn_found p POK _ g F) as (L & _ & I). pose proof (fun ev vs => method_own p POK run_doc ev _ root_value !"n_old" vs I V) as MO.
    assert (X : forall w, eval p iter run_doc told 13 !"RootIntf" [(!"root", root_value)] (EMethod (EVar !"root") !"n_old" []) w = Ok (VMake !"NullOr" !"Val" [VOf (CInt 5)], w)).
    { intros w. change (eval p iter run_doc told 13) with (eval_step p iter run_doc told (eval p iter run_doc told 12)). cbn [eval_step each]. unfold seq at 1.
      change (eval p iter run_doc told 12 !"RootIntf" [(!"root", root_value)] (EVar !"root") w) with (Ok (root_value, w) : res (val * trace)). cbv iota beta. unfold seq, ret at 1. rewrite MO. unfold own_method. change !"n_old" with (f_name g). rewrite L. reflexivity. }
    unfold enter. cbn [beside f_lets f_args map fst combine app lets f_value f_ret]. unfold seq at 1. unfold seq at 1. rewrite X. reflexivity.
Qed.
(** [(root.n_old(), 1)] where [root] is a variable. *)
Example C81_ends_case : exists p, accessible (ro_old run_doc) run_doc p /\
  (forall key id d rows o, In (key, (id, WTable d rows o)) (ro_default run_doc) -> zlen rows < 2 ^ 64) /\
  plain 3 (EPair (EMethod (EVar !"root") !"n_old" []) (ENum 1)) = true /\
  has p !"RootIntf" [(!"root", (RRef (RName !"RootIntf"), false))] false (EPair (EMethod (EVar !"root") !"n_old" []) (ENum 1)) (RPair (RApp !"NullOr" (RName !"i64")) (RName !"usize")) /\
  env_of p [(!"root", root_value)] [(!"root", (RRef (RName !"RootIntf"), false))].
Proof.
  destruct C79_accessors_case as (p & A & V & B & H). destruct (H (Meth !"n_old" [] (CRead AtRoot TInt Nullable !"n") [] [])) as (f & F & W); [vm_compute; repeat ((left; reflexivity) || right)|].
  exists p. split; [exact A|]. split; [exact B|]. split; [reflexivity|]. inversion W; subst; [|discriminate].
  match type of F with fn_of _ _ ?f => set (g := f) in * end. split.
  - apply h_pair; [|apply h_num; lia].
    apply (h_own p !"RootIntf" _ _ (EVar !"root") [] !"RootIntf" g F) with (t := TyApp !"NullOr" (TyName !"i64")); [discriminate| |apply gv_nil|reflexivity].
    apply rc_ref. eapply h_move. apply pl_var with (m := false); reflexivity.
  - intros x t m E. cbn [var_of] in E. destruct (eqb_bytes !"root" x) eqn:Q; [|discriminate E]. injection E as <- <-. exists root_value. cbn [hget]. rewrite Q. split; [reflexivity|apply ot_ref, V].
Qed.

(** That the functions are generated is needed: [impl L { fn f() -> usize { Self::f() } }] passes the
    compiler, and a call of it does not end. *)
Definition loop_fn : fn := Fn true false !"f" NoSelf [] (Some (TyName !"usize")) [] (Some (ECall (EPath !"Self" !"f") [])).
Definition loops : list CodeSpec.item := [IStruct [] !"L" []; IImpl !"L" [loop_fn]].
Example C81_needs : program_ok loops /\ plainly_named loops /\ plain 1 (ECall (EPath !"L" !"f") []) = true /\ has loops !"L" [] false (ECall (EPath !"L" !"f") []) (RName !"usize") /\
  forall (iter : forall A, hmap A -> hmap A) r told k w, eval loops iter r told k !"L" [] (ECall (EPath !"L" !"f") []) w = Err.
Proof.
  assert (F : fn_of loops !"L" loop_fn) by (exists [loop_fn]; split; [right; left; reflexivity|left; reflexivity]).
  assert (HS : forall C u a, named !"L" a = !"L" -> has loops !"L" C u (ECall (EPath a !"f") []) (RName !"usize")).
  { intros C u a N. pose proof (h_fn loops !"L" C u a loop_fn []) as X. rewrite N in X. apply (X F) with (t := TyName !"usize"); [reflexivity|discriminate|apply gv_nil|reflexivity]. }
  split; [|split; [|split; [reflexivity|split; [apply HS; reflexivity|]]]].
  - split.
    + apply NoDup_cons; [intros []|apply NoDup_nil].
    + apply NoDup_cons; [intros []|apply NoDup_nil].
    + intros n [<-|[]] I. assert (X : one_of core_names !"L" = false) by (vm_compute; reflexivity). unfold one_of in X. rewrite <- not_true_iff_false in X. apply X. apply existsb_exists. exists !"L". split; [exact I|apply eqb_bytes_refl].
    + apply Forall_cons; [|apply Forall_cons; [|apply Forall_nil]].
      * apply io_struct; [apply NoDup_nil|apply Forall_nil|intros d f []|intros []].
      * apply io_impl; [left; reflexivity|apply NoDup_cons; [intros []|apply NoDup_nil]|]. apply Forall_cons; [|apply Forall_nil]. split.
        -- split; [apply NoDup_nil|intros []].
        -- split; [apply Forall_nil|]. eapply (ok_core loops "usize"). cbn; repeat ((left; reflexivity) || right).
        -- exists []. split; [apply st_nil|]. eapply gv_cons; [apply HS; reflexivity|apply fits_same|apply gv_nil].
  - split; [apply NoDup_nil|]. intros n vs f (rp & I). destruct I as [I|[I|[]]]; discriminate I.
  - intros iter r told. assert (X : forall k a G w, named !"L" a = !"L" -> eval loops iter r told k !"L" G (ECall (EPath a !"f") []) w = Err).
    { induction k as [|k IH]; intros a G w N; [reflexivity|]. cbn [eval eval_step each]. rewrite N.
      change (enter (eval loops iter r told k) !"L" loop_fn None [] w = Err). unfold enter. cbn [loop_fn f_lets f_args map combine app lets f_value f_ret]. unfold seq at 1. cbv iota beta. unfold ret at 1. cbv iota beta. unfold seq at 1. rewrite IH; reflexivity. }
    intros k w. apply X. reflexivity.
Qed.
