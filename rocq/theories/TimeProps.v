(** C80: generated functions end. *)
From Coq Require Import String.
From Verif Require Import Base StringCompactionModel StringCompactionProofs LinkedModel LinkedSpec DocModel DiffSpec DiffProofs ArchiveModel JsonModel JsonSpec JsonProps ValidSpec IntfModel IntfProofs
  GenModel GenSpec GenNameProofs GenProofs CodeModel CodeSpec CodeNameProofs CodeProps ApiModel TypeSpec TypeProofs TypeItemProofs TypeGenProofs TypeProps ReadModel RunModel RunSpec RunProps SoundSpec SoundProofs
  SoundStepProofs SoundGenProofs SoundTimeProofs SoundProps TimeProofs TimeFnProofs TimeGenProofs TimeMoreProofs.

Local Notation text := (list Z).
Local Notation "! s" := (txt s%string) (at level 0, s at level 0).

(** Every function that is generated for a document, called with arguments of its types, ends before
    its evaluation has nested eleven deep, whatever is in the document: then it has given a value of
    its type, or it has panicked.  [Err], which stands for too little time and for being stuck, does not
    occur.  The calls that change the document are of the right types. *)
Theorem C80_total : forall old iter r told p k n f self args w, accessible old r p ->
  (forall key id d rows o, In (key, (id, WTable d rows o)) (ro_default r) -> zlen rows < 2 ^ 64) ->
  fn_of p n f -> self_typed p n (f_self f) self -> args_typed p n f args ->
  match enter (eval p iter r told (10 + k)) n f self args w with
  | Ok (v, w') => returned p n f v /\ exists es, w' = w ++ es /\ Forall (effect_ok p) es
  | Err => False
  | Panic => True
  end.
Proof.
  intros old iter r told p k n f self args w A B F ST TA. pose proof (C79_accessors old iter r told p (10 + k) n f self args w A B F ST TA) as S_. destruct A as (T & parts & D & ->).
  destruct (whole_soon old _ T B parts D iter r told Panic Err (or_intror eq_refl) n f F k self args ST TA w) as [E _]. rewrite <- E in S_.
  rewrite eval_timed. exact S_.
Qed.
Print Assumptions C80_total.

(** With more time it does nothing else. *)
Theorem C80_settled : forall old iter r told p i n f self args w, accessible old r p ->
  (forall key id d rows o, In (key, (id, WTable d rows o)) (ro_default r) -> zlen rows < 2 ^ 64) ->
  fn_of p n f -> self_typed p n (f_self f) self -> args_typed p n f args ->
  enter (eval p iter r told (i + 10)) n f self args w = enter (eval p iter r told 10) n f self args w.
Proof.
  intros old iter r told p i n f self args w A B F ST TA. apply enter_more. intros E. pose proof (C80_total old iter r told p 0 n f self args w A B F ST TA) as H. cbn [Nat.add] in H. rewrite E in H. exact H.
Qed.
Print Assumptions C80_settled.

(** In a program: a call [x.f(a, ..)] with variables of the right types. *)
Theorem C80_call : forall old iter r told p k n G x xs a f v w, accessible old r p ->
  (forall key id d rows o, In (key, (id, WTable d rows o)) (ro_default r) -> zlen rows < 2 ^ 64) ->
  fn_of p a f -> f_self f <> NoSelf -> ~ In !"None" (x :: xs) -> hget x G = Some v -> of_type p v (RName a) ->
  Forall2 (fun y t => exists u, hget y G = Some u /\ of_type p u t) xs (map (fun y => of_ty a (snd y)) (f_args f)) ->
  match eval p iter r told (11 + k) n G (EMethod (EVar x) (f_name f) (map EVar xs)) w with
  | Ok (v, w') => returned p a f v /\ exists es, w' = w ++ es /\ Forall (effect_ok p) es
  | Err => False
  | Panic => True
  end.
Proof.
  intros old iter r told p k n G x xs a f v w A B F NS NN HX V FX.
  assert (L : forall y u w, In y (x :: xs) -> hget y G = Some u -> eval p iter r told (10 + k) n G (EVar y) w = Ok (u, w)).
  { intros y u w' I HY. cbn [Nat.add eval eval_step]. destruct (eqb_bytes y !"None") eqn:E; [apply eqb_bytes_eq in E as ->; contradiction|]. rewrite HY. reflexivity. }
  assert (X : exists vs, args_typed p a f vs /\ forall w, each (eval p iter r told (10 + k)) n G (map EVar xs) w = Ok (vs, w)).
  { clear HX NN. unfold args_typed. assert (L' : forall y u w, In y xs -> hget y G = Some u -> eval p iter r told (10 + k) n G (EVar y) w = Ok (u, w)) by (intros y u w' I; apply L; right; exact I). clear L.
    revert L'. induction FX as [|y t xs ts (u & HY & U) FX IH]; intros L; [exists []; split; [apply Forall2_nil|reflexivity]|].
    destruct IH as (vs & T & E); [intros z z' w' I; apply L; right; exact I|]. exists (u :: vs). split; [apply Forall2_cons; assumption|]. intros w'. cbn [map each]. unfold seq.
    rewrite (L y u w' (or_introl eq_refl) HY), E. reflexivity. }
  destruct X as (vs & TA & E). assert (ST : self_typed p a (f_self f) (Some v)) by (unfold self_typed; destruct (f_self f); [contradiction NS; reflexivity|exists v; split; [reflexivity|exact V]..]).
  pose proof (C80_total old iter r told p k a f (Some v) vs w A B F ST TA) as H. destruct A as (T & parts & D & ->). pose proof (whole_ok old _ T B parts D) as POK.
  change (eval (concat parts) iter r told (11 + k)) with (eval_step (concat parts) iter r told (eval (concat parts) iter r told (10 + k))). cbn [eval_step]. unfold seq at 1. rewrite (L x v w (or_introl eq_refl) HX). unfold seq at 1. rewrite E.
  destruct (fn_found _ POK a f F) as (FN & _ & I). rewrite (method_own _ POK r _ a v _ vs I V). unfold own_method. rewrite FN. exact H.
Qed.
Print Assumptions C80_call.

(* ------------------------------------------------------------------ *)
(** * Cases *)

(** The document of C68: [root.n_old()] gives the value with the time said, and none with a third of
    it. *)
Example C80_total_case : exists p f, accessible (ro_old run_doc) run_doc p /\ fn_of p !"RootIntf" f /\ f_name f = !"n_old" /\ self_typed p !"RootIntf" (f_self f) (Some root_value) /\ args_typed p !"RootIntf" f [] /\
  (forall key id d rows o, In (key, (id, WTable d rows o)) (ro_default run_doc) -> zlen rows < 2 ^ 64) /\
  forall (iter : forall A, hmap A -> hmap A) told, enter (eval p iter run_doc told 10) !"RootIntf" f (Some root_value) [] [] = Ok (VMake !"NullOr" !"Val" [VOf (CInt 5)], []) /\
    enter (eval p iter run_doc told 3) !"RootIntf" f (Some root_value) [] [] = Err.
Proof.
  destruct C79_accessors_case as (p & A & V & B & H). destruct (H (Meth !"n_old" [] (CRead AtRoot TInt Nullable !"n") [] [])) as (f & F & W); [vm_compute; repeat ((left; reflexivity) || right)|].
  exists p, f. split; [exact A|]. split; [exact F|]. inversion W; subst; [|discriminate]. split; [reflexivity|]. split; [exists root_value; split; [reflexivity|exact V]|]. split; [apply Forall2_nil|]. split; [exact B|].
  intros iter told. split; reflexivity.
Qed.
(** The same as a call in a program where [root] is a variable. *)
Example C80_call_case : exists p f, accessible (ro_old run_doc) run_doc p /\ fn_of p !"RootIntf" f /\ f_self f <> NoSelf /\ ~ In !"None" [!"root"] /\ hget !"root" [(!"root", root_value)] = Some root_value /\
  of_type p root_value (RName !"RootIntf") /\ Forall2 (fun y t => exists u, hget y [(!"root", root_value)] = Some u /\ of_type p u t) [] (map (fun y => of_ty !"RootIntf" (snd y)) (f_args f)) /\
  forall (iter : forall A, hmap A -> hmap A) told, eval p iter run_doc told 11 [] [(!"root", root_value)] (EMethod (EVar !"root") (f_name f) []) [] = Ok (VMake !"NullOr" !"Val" [VOf (CInt 5)], []).
Proof.
  destruct C80_total_case as (p & f & A & F & FN & ST & TA & B & R). exists p, f. split; [exact A|]. split; [exact F|].
  assert (NS : f_self f <> NoSelf) by (intros E; rewrite E in ST; discriminate ST). assert (V : of_type p root_value (RName !"RootIntf")) by (unfold self_typed in ST; destruct (f_self f); [contradiction NS; reflexivity|destruct ST as (v & E & V); injection E as <-; exact V..]).
  split; [exact NS|]. split; [intros [E|[]]; discriminate E|]. split; [reflexivity|]. split; [exact V|]. split; [unfold args_typed in TA; inversion TA; apply Forall2_nil|].
  intros iter told. destruct (R iter told) as [X _]. destruct A as (T & parts & D & ->). pose proof (whole_ok _ _ T B parts D) as POK. destruct (fn_found _ POK _ f F) as (L & _ & I).
  change (eval (concat parts) iter run_doc told 11) with (eval_step (concat parts) iter run_doc told (eval (concat parts) iter run_doc told 10)). cbn [eval_step each]. unfold seq at 1.
  change (eval (concat parts) iter run_doc told 10 [] [(!"root", root_value)] (EVar !"root") []) with (Ok (root_value, []) : res (val * trace)). cbv iota beta.
  change (seq (ret []) (fun vs => method_of (concat parts) run_doc (eval (concat parts) iter run_doc told 10) root_value (f_name f) vs) []) with (method_of (concat parts) run_doc (eval (concat parts) iter run_doc told 10) root_value (f_name f) [] []).
  rewrite (method_own _ POK run_doc _ _ root_value _ [] I V). unfold own_method. rewrite L. exact X.
Qed.
