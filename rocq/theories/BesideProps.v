(** C82: code that is written beside accessors does not change what they do. *)
From Coq Require Import String.
From Verif Require Import Base StringCompactionModel StringCompactionProofs LinkedModel LinkedSpec DocModel DiffSpec DiffProofs ArchiveModel JsonModel JsonSpec JsonProps ValidSpec IntfModel IntfProofs
  GenModel GenSpec GenNameProofs GenProofs CodeModel CodeSpec CodeNameProofs CodeProps ApiModel TypeSpec TypeProofs TypeItemProofs TypeGenProofs TypeProps ReadModel RunModel RunSpec RunProps SoundSpec SoundProofs
  SoundStepProofs SoundGenProofs SoundTimeProofs SoundProps TimeProofs TimeFnProofs TimeGenProofs TimeMoreProofs TimeProps EndSpec EndProofs EndGenProofs EndProps BesideSpec BesideProofs.

Local Notation text := (list Z).
Local Notation "! s" := (txt s%string) (at level 0, s at level 0).

(** What passes the compiler in a program is evaluated in the same way when other code, for types of
    its own, is put beside it, whatever that code is: the same value, the same calls that change the
    document, the same time.  The other code need not pass the compiler. *)
Theorem C82_beside : forall p q iter r told k n C u e t G w, program_ok p -> plainly_named p -> apart p q -> env_of p G C -> has p n C u e t ->
  eval (p ++ q) iter r told k n G e w = eval p iter r told k n G e w.
Proof.
  intros p q iter r told k n C u e t G w P N A E H. rewrite !eval_timed.
  exact (proj1 (proj1 (timed_beside p q P N A iter r told Err (or_introl eq_refl) k) n C u e t G E H w)).
Qed.
Print Assumptions C82_beside.

(** The functions that are generated for a document. *)
Theorem C82_accessors : forall old iter r told p q k n f self args w, accessible old r p ->
  (forall key id d rows o, In (key, (id, WTable d rows o)) (ro_default r) -> zlen rows < 2 ^ 64) -> apart p q ->
  fn_of p n f -> self_typed p n (f_self f) self -> args_typed p n f args ->
  enter (eval (p ++ q) iter r told k) n f self args w = enter (eval p iter r told k) n f self args w.
Proof.
  intros old iter r told p q k n f self args w (T & parts & D & ->) B A F ST TA. pose proof (whole_ok old _ T B parts D) as P. pose proof (whole_named old _ T B parts D) as N. rewrite !eval_timed.
  destruct (fn_found _ P n f F) as (_ & OKF & _). exact (proj1 (timed_enter_beside _ q P N A iter r told Err (or_introl eq_refl) k n f self args OKF TA ST w)).
Qed.
Print Assumptions C82_accessors.

(** They end in the larger program too (C80), and it finds them under their names. *)
Theorem C82_total : forall old iter r told p q k n f self args w, accessible old r p ->
  (forall key id d rows o, In (key, (id, WTable d rows o)) (ro_default r) -> zlen rows < 2 ^ 64) -> apart p q ->
  fn_of p n f -> self_typed p n (f_self f) self -> args_typed p n f args ->
  fn_named (f_name f) (own_fns (p ++ q) n) = Some f /\
  match enter (eval (p ++ q) iter r told (10 + k)) n f self args w with
  | Ok (v, w') => returned p n f v /\ exists es, w' = w ++ es /\ Forall (effect_ok p) es
  | Err => False
  | Panic => True
  end.
Proof.
  intros old iter r told p q k n f self args w AC B A F ST TA. split.
  - destruct AC as (T & parts & D & ->). pose proof (whole_ok old _ T B parts D) as P. destruct (fn_found _ P n f F) as (FN & _ & I). rewrite (own_beside _ q A n I). exact FN.
  - rewrite (C82_accessors old iter r told p q (10 + k) n f self args w AC B A F ST TA). exact (C80_total old iter r told p k n f self args w AC B F ST TA).
Qed.
Print Assumptions C82_total.

(* ------------------------------------------------------------------ *)
(** * Cases *)

(** The document of C68 and beside its code a type [L] with a function that does not end (C81). *)
Example C82_accessors_case : exists p f, accessible (ro_old run_doc) run_doc p /\ (forall key id d rows o, In (key, (id, WTable d rows o)) (ro_default run_doc) -> zlen rows < 2 ^ 64) /\ apart p loops /\
  fn_of p !"RootIntf" f /\ f_name f = !"n_old" /\ self_typed p !"RootIntf" (f_self f) (Some root_value) /\ args_typed p !"RootIntf" f [] /\
  forall (iter : forall A, hmap A -> hmap A) told, enter (eval (p ++ loops) iter run_doc told 10) !"RootIntf" f (Some root_value) [] [] = Ok (VMake !"NullOr" !"Val" [VOf (CInt 5)], []).
Proof.
  destruct C80_total_case as (p & f & A & F & FN & ST & TA & B & R). exists p, f. split; [exact A|]. split; [exact B|].
  assert (AP : apart p loops).
  { intros i n I J. assert (N : !"L" <> n); [|destruct I as [<-|[<-|[]]]; exact N]. intros <-. destruct A as (T & parts & D & ->).
    assert (X : forall ds q, Forall2 declares ds q -> type_names (concat q) = map decl_name ds).
    { clear. induction 1 as [|d q ds qs H D IH]; [reflexivity|]. cbn [concat map]. unfold type_names in *. rewrite flat_map_app, IH. destruct (declares_types d q H) as [Y _]. unfold type_names in Y. rewrite Y. reflexivity. }
    rewrite (X _ _ D) in J. assert (Y : existsb (eqb_bytes !"L") (map decl_name (generate (ro_old run_doc) (ro_default run_doc))) = false) by (vm_compute; reflexivity).
    rewrite <- not_true_iff_false in Y. apply Y. apply existsb_exists. exists !"L". split; [exact J|apply eqb_bytes_refl]. }
  split; [exact AP|]. split; [exact F|]. split; [exact FN|]. split; [exact ST|]. split; [exact TA|]. intros iter told. rewrite (C82_accessors _ iter run_doc told p loops 10 !"RootIntf" f _ _ [] A B AP F ST TA). exact (proj1 (R iter told)).
Qed.

(** That the other code has types of its own is needed: [from] of the trait [From] is hidden by a
    function [from] that is written in another block [impl XMItem], as it is in Rust. *)
Definition item_code : list CodeSpec.item := wrapper !"XMItem" !"MItemPtr" [].
Definition hiding : list CodeSpec.item :=
  [IImpl !"XMItem" [Fn true false !"from" NoSelf [(!"ptr", TyName !"MItemPtr")] (Some (TyName !"XMItem")) [] (Some (EMacro !"unreachable" []))]].
Example C82_needs : ~ apart item_code hiding /\ forall (iter : forall A, hmap A -> hmap A) r told s, let G := [(!"x", VPtr (PItem [(!"l", 1)] s))] in let C := [(!"x", (RName !"MItemPtr", false))] in
    env_of item_code G C /\ has item_code [] C false (ECall (EPath !"XMItem" !"from") [EVar !"x"]) (RName !"XMItem") /\ eval item_code iter r told 5 [] G (ECall (EPath !"XMItem" !"from") [EVar !"x"]) [] = Ok (VStruct !"XMItem" [(!"ptr", VPtr (PItem [(!"l", 1)] s))], []) /\ eval (item_code ++ hiding) iter r told 5 [] G (ECall (EPath !"XMItem" !"from") [EVar !"x"]) [] = Panic.
Proof.
  split; [intros A; apply (A _ !"XMItem" (or_introl eq_refl)); [left; reflexivity|reflexivity]|]. intros iter r told s G C. split; [|split; [|split; reflexivity]].
  - intros x t m E. cbn [var_of C] in E. destruct (eqb_bytes !"x" x) eqn:Q; [|discriminate E]. injection E as <- <-. eexists. cbn [hget G]. rewrite Q. split; [reflexivity|apply ot_mitem; discriminate].
  - apply h_from with (t := RName !"MItemPtr").
    + intros f (fns & I & J). destruct I as [I|[I|[I|[]]]]; try discriminate I. injection I as <-. destruct J.
    + do 2 eexists. split; [right; left; reflexivity|reflexivity].
    + eapply gv_cons; [|apply fits_same|apply gv_nil]. eapply h_move. apply pl_var with (m := false); reflexivity.
Qed.
