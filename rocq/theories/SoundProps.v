(** C79: programs that pass the compiler are never stuck. *)
From Coq Require Import String.
From Verif Require Import Base StringCompactionModel StringCompactionProofs LinkedModel LinkedSpec DocModel DiffSpec DiffProofs ArchiveModel JsonModel JsonSpec JsonProps ValidSpec IntfModel IntfProofs
  GenModel GenSpec GenNameProofs GenProofs CodeModel CodeSpec CodeNameProofs CodeProps ApiModel TypeSpec TypeProofs TypeItemProofs TypeGenProofs TypeProps ReadModel RunModel RunSpec RunProps SoundSpec SoundProofs SoundStepProofs SoundGenProofs SoundTimeProofs.

Local Notation text := (list Z).
Local Notation "! s" := (txt s%string) (at level 0, s at level 0).

(** If a program passes the compiler (C67) and an expression has a type, with variables whose values
    have theirs, evaluation is never stuck: if it is given too little time that is said by [Panic]
    here, and still [Err] does not occur.  The value has the type, and every call that changes the
    document was given values of the types that the functions of dochy_core take. *)
Theorem C79_sound : forall p iter r told k n C u e t G w, program_ok p -> plainly_named p -> env_of p G C -> has p n C u e t ->
  match timed p iter r told Panic k n G e w with
  | Ok (v, w') => of_type p v t /\ exists es, w' = w ++ es /\ Forall (effect_ok p) es
  | Err => False
  | Panic => True
  end.
Proof.
  intros p iter r told k n C u e t G w P N E H. pose proof (proj1 (timed_sound p Panic P N (or_intror eq_refl) iter r told k) n C u e t G E H w) as X.
  destruct (timed p iter r told Panic k n G e w) as [[v w']| |]; [exact X|discriminate X|exact X].
Qed.
Print Assumptions C79_sound.

(** The same of the evaluation of C68, where [Err] is for too little time. *)
Theorem C79_typed : forall p iter r told k n C u e t G w v w', program_ok p -> plainly_named p -> env_of p G C -> has p n C u e t ->
  eval p iter r told k n G e w = Ok (v, w') -> of_type p v t /\ exists es, w' = w ++ es /\ Forall (effect_ok p) es.
Proof.
  intros p iter r told k n C u e t G w v w' P N E H X. rewrite eval_timed in X. pose proof (proj1 (timed_sound p Err P N (or_introl eq_refl) iter r told k) n C u e t G E H w) as Y.
  rewrite X in Y. exact Y.
Qed.
Print Assumptions C79_typed.

(** The two differ only in what they say of too little time, whatever the program: so [Err] in C68
    stands for nothing else if the program passes. *)
Theorem C79_time : forall p iter r told k n G e w, timed p iter r told Panic k n G e w = eval p iter r told k n G e w \/
  (eval p iter r told k n G e w = Err /\ timed p iter r told Panic k n G e w = Panic).
Proof. intros. apply timed_alike. Qed.
Print Assumptions C79_time.

(** Every function that is generated for a document, called with arguments of its types, is not stuck,
    gives a value of its type, and changes the document by calls of the right types. *)
Theorem C79_accessors : forall old iter r told p k n f self args w, accessible old r p ->
  (forall key id d rows o, In (key, (id, WTable d rows o)) (ro_default r) -> zlen rows < 2 ^ 64) ->
  fn_of p n f -> self_typed p n (f_self f) self -> args_typed p n f args ->
  match enter (timed p iter r told Panic k) n f self args w with
  | Ok (v, w') => returned p n f v /\ exists es, w' = w ++ es /\ Forall (effect_ok p) es
  | Err => False
  | Panic => True
  end.
Proof.
  intros old iter r told p k n f self args w (T & parts & D & ->) B F ST A. pose proof (whole_ok old _ T B parts D) as P. pose proof (whole_named old _ T B parts D) as N.
  pose proof (timed_enter _ Panic P N (or_intror eq_refl) iter r told k n f self args F A ST w) as X.
  destruct (enter _ n f self args w) as [[v w']| |]; [exact X|discriminate X|exact X].
Qed.
Print Assumptions C79_accessors.

(** Calls of the right types are steps of C21, or only hand out a reference. *)
Ltac no_core P := exfalso; match goal with
  | H : struct_fields _ _ _ |- _ => apply struct_named in H; eapply SoundProofs.not_core; [exact P|exact H|vm_compute; reflexivity]
  | H : enum_variants _ _ _ |- _ => apply enum_named in H; eapply SoundProofs.not_core; [exact P|exact H|vm_compute; reflexivity]
  end.
Ltac among := repeat match goal with H : In _ _ |- _ => cbn [In] in H; repeat (destruct H as [H|H]; [exfalso; vm_compute in H; discriminate H|]); destruct H end.
Lemma given_param p t q : program_ok p -> of_type p q (RApp !"Qv" (of_ty [] (param_ty t))) -> exists pm, type_of pm = t /\ q = of_qv VOf (contents pm).
Proof.
  intros P H. apply in_holder in H as [(x & -> & X)|[(_ & ->)|(_ & ->)]]; [| | |left; reflexivity].
  - destruct t; cbn [param_ty of_ty] in X.
    + inversion X; subst; try no_core P. eexists (PBool (Val _)). split; reflexivity.
    + inversion X; subst; try no_core P. eexists (PInt (Val _)). split; reflexivity.
    + inversion X; subst; try no_core P. eexists (PFloat (Val _)). split; reflexivity.
    + inversion X; subst; try no_core P. eexists (PString (Val (0, _))). split; reflexivity.
    + inversion X; subst; try among. eexists (PIntArray (Val (0, _))). split; reflexivity.
    + inversion X; subst; try among. eexists (PFloatArray (Val _)). split; reflexivity.
    + inversion X; subst; try among. eexists (PBinary (Val (0, _))). split; reflexivity.
  - destruct t; [exists (PBool Null)|exists (PInt Null)|exists (PFloat Null)|exists (PString Null)|exists (PIntArray Null)|exists (PFloatArray Null)|exists (PBinary Null)]; split; reflexivity.
  - destruct t; [exists (PBool Undefined)|exists (PInt Undefined)|exists (PFloat Undefined)|exists (PString Undefined)|exists (PIntArray Undefined)|exists (PFloatArray Undefined)|exists (PBinary Undefined)]; split; reflexivity.
Qed.
Theorem C79_performs : forall p e, program_ok p -> effect_ok p e -> (exists a t key, e = EWrite a t key) \/ exists s, performs e s.
Proof.
  intros p e P H. destruct e as [a t key q|a t key|a key|a key q|a key id|a key o]; cbn [effect_ok] in H.
  - right. destruct (given_param p t q P H) as (pm & T & ->). eexists. apply performs_set, T.
  - left. do 3 eexists. reflexivity.
  - right. eexists. apply performs_open.
  - right. destruct H as (N & H). assert (X : exists z, q = of_qv (fun s => VText s) z).
    { apply in_holder in H as [(x & -> & X)|[(_ & ->)|(_ & ->)]]; [|exists Null; reflexivity|exists Undefined; reflexivity|left; reflexivity]. apply in_string in X as (s & ->); [|exact P]. exists (Val s). reflexivity. }
    destruct X as (z & ->). eexists. apply performs_ref, N.
  - right. eexists. apply performs_enum, H.
  - right. eexists. apply performs_list.
Qed.
Print Assumptions C79_performs.

(* ------------------------------------------------------------------ *)
(** * Cases *)

Lemma root_typed old root parts : Forall2 declares (generate old root) parts -> of_type (concat parts) root_value (RName !"RootIntf").
Proof.
  intros D. destruct (part_of old root parts D _ (generated_root old root)) as (part & H & J). apply declares_root in H as (fns & _ & ->).
  unfold root_value. eapply ot_struct; [eexists; apply J; do 4 right; left; reflexivity|]. intros x t [E|[E|[]]]; apply pair_equal_spec in E as [<- <-].
  - exists (VBox (VPtr PRoot)). split; [reflexivity|]. apply ot_box, ot_root.
  - exists (VPtr PRoot). split; [reflexivity|]. apply ot_root_ptr.
Qed.
(** The document of C68: the functions of [RootIntf] called with the object itself. *)
Example C79_accessors_case : exists p, accessible (ro_old run_doc) run_doc p /\ of_type p root_value (RName !"RootIntf") /\
  (forall key id d rows o, In (key, (id, WTable d rows o)) (ro_default run_doc) -> zlen rows < 2 ^ 64) /\
  forall m, In m (root_methods (ro_old run_doc) (strip_root (ro_default run_doc))) -> exists f, fn_of p !"RootIntf" f /\ written m f.
Proof.
  destruct run_accessible as (p & A). exists p. split; [exact A|]. destruct A as (T & parts & D & ->). split; [eapply root_typed, D|]. split; [apply few_rows; vm_compute; reflexivity|].
  intros m I. destruct (part_of _ _ parts D _ (generated_root _ _)) as (part & H & J). apply declares_root in H as (fns & F & ->).
  assert (X : forall ms fs, Forall2 written ms fs -> In m ms -> exists f, In f fs /\ written m f).
  { induction 1 as [|x f ms fs W F' IH]; intros K; [destruct K|]. destruct K as [->|K]; [exists f; split; [left; reflexivity|exact W]|]. destruct (IH K) as (g & G & W'). exists g. split; [right; exact G|exact W']. }
  destruct (X _ _ F I) as (f & G & W). exists f. split; [|exact W]. exists fns. split; [|exact G]. apply J. do 5 right. left. reflexivity.
Qed.
(** A program with variables of its own: [(Some(v), &root.ptr)]. *)
Example C79_sound_case : exists p, program_ok p /\ plainly_named p /\ env_of p [(!"v", VOf (CInt 9)); (!"root", root_value)] [(!"v", (RName !"i64", false)); (!"root", (RRef (RName !"RootIntf"), false))] /\
  has p [] [(!"v", (RName !"i64", false)); (!"root", (RRef (RName !"RootIntf"), false))] false (EPair (ECall (EVar !"Some") [EVar !"v"]) (ERef (EField (EVar !"root") !"ptr")))
    (RPair (RApp !"Option" (RName !"i64")) (RRef (RName !"RootObjectPtr"))) /\
  forall iter told, eval p iter run_doc told 4 [] [(!"v", VOf (CInt 9)); (!"root", root_value)] (EPair (ECall (EVar !"Some") [EVar !"v"]) (ERef (EField (EVar !"root") !"ptr"))) [] =
    Ok (VPair (some (VOf (CInt 9))) (VPtr PRoot), []).
Proof.
  destruct run_accessible as (p & A). exists p. destruct A as (T & parts & D & ->). assert (B : forall key id d rows o, In (key, (id, WTable d rows o)) (ro_default run_doc) -> zlen rows < 2 ^ 64) by (apply few_rows; vm_compute; reflexivity).
  split; [exact (whole_ok _ _ T B parts D)|]. split; [exact (whole_named _ _ T B parts D)|]. split; [|split].
  - intros y t m V. cbn [var_of] in V. cbn [hget]. destruct (eqb_bytes !"v" y); [injection V as <- <-; eexists; split; [reflexivity|apply ot_int]|].
    destruct (eqb_bytes !"root" y); [|discriminate V]. injection V as <- <-. eexists. split; [reflexivity|]. apply ot_ref. eapply root_typed, D.
  - apply h_pair.
    + apply h_some; [reflexivity|]. eapply gv_cons; [eapply h_move, pl_var; reflexivity|apply fits_same|apply gv_nil].
    + destruct (part_of _ _ parts D _ (generated_root _ _)) as (part & H & J). apply declares_root in H as (fns & _ & ->).
      eapply h_ref. apply (pl_field_ref _ _ _ !"RootIntf" root_fields !"ptr" (TyName !"RootObjectPtr") true false).
      * apply pl_var; reflexivity.
      * eexists. apply J. do 4 right. left. reflexivity.
      * right. left. reflexivity.
  - intros iter told. reflexivity.
Qed.

(** What the compiler refuses can be stuck. *)
Example C79_needed : forall iter told k, timed [] iter run_doc told Panic (S (S k)) [] [] (EField (EText !"x") !"ptr") [] = Err.
Proof. intros. reflexivity. Qed.
