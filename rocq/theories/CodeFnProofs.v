(** Proofs that the text of a method is a way to write the function that belongs to it. *)
From Coq Require Import String.
From Verif Require Import Base TextModel DocModel JsonModel JsonSpec IntfModel GenModel GenSpec CodeModel CodeSpec CodeLexProofs.

(* ------------------------------------------------------------------ *)
(** * Names *)

Definition wordish (c : Z) : Prop := lower c \/ upper c \/ digit c \/ c = 95.
Lemma wordish_char c : wordish c <-> word_char c = true.
Proof. unfold wordish, word_char, lower, upper, digit. lia. Qed.
Lemma wordish_all r : Forall wordish r <-> forallb word_char r = true.
Proof. rewrite forallb_forall, Forall_forall. split; intros H c C; apply wordish_char, H, C. Qed.

Lemma wordy_app a b : wordy a -> forallb word_char b = true -> wordy (a ++ b).
Proof. intros [c [r [-> H]]] B. exists c, (r ++ b). split; [reflexivity|]. change (c :: r ++ b) with ((c :: r) ++ b). rewrite forallb_app, H. exact B. Qed.
Lemma wordy_app_l a b : forallb word_char a = true -> wordy b -> wordy (a ++ b).
Proof.
  intros A [c [r [-> H]]]. destruct a as [|x a]; [exists c, r; auto|]. exists x, (a ++ c :: r). split; [reflexivity|].
  change (x :: a ++ c :: r) with ((x :: a) ++ c :: r). rewrite forallb_app, A. exact H.
Qed.

Lemma to_lower_wordish c : wordish c -> wordish (to_lower c).
Proof. unfold wordish, lower, upper, digit, to_lower, is_upper. destruct ((65 <=? c) && (c <=? 90)) eqn:U; lia. Qed.
Lemma to_upper_wordish c : wordish c -> wordish (to_upper c).
Proof. unfold wordish, lower, upper, digit, to_upper. destruct ((97 <=? c) && (c <=? 122)) eqn:U; lia. Qed.
Lemma snake_rest_wordish r : Forall wordish r -> Forall wordish (snake_rest r).
Proof.
  induction 1 as [|c r C R IH]; [constructor|]. cbn [snake_rest]. apply Forall_app. split; [|exact IH].
  destruct (is_upper c); repeat apply Forall_cons; try apply Forall_nil; [right; right; right; reflexivity|apply to_lower_wordish, C|exact C].
Qed.
Lemma type_rest_wordish r : Forall wordish r -> forall up, Forall wordish (type_rest up r).
Proof.
  induction 1 as [|c r C R IH]; intros up; [constructor|]. cbn [type_rest]. destruct (c =? 95) eqn:E; [apply IH|]. constructor; [|apply IH]. destruct up; [apply to_upper_wordish, C|exact C].
Qed.

Lemma snake_wordy s : sayable s -> wordy (to_snake_name s).
Proof.
  intros [c [r [-> [C R]]]]. cbn [to_snake_name]. apply (fun H => proj1 (wordish_all _) (snake_rest_wordish r H)) in R.
  destruct (Z.eqb_spec c 64) as [->|N]; [exists 97, (116 :: snake_rest r); auto|].
  exists (to_lower c), (snake_rest r). split; [reflexivity|]. cbn [forallb]. rewrite R, andb_true_r. apply wordish_char, to_lower_wordish. unfold wordish. tauto.
Qed.
Lemma type_wordy s : sayable s -> wordy (to_type_name s).
Proof.
  intros [c [r [-> [C R]]]]. cbn [to_type_name]. apply (fun H => proj1 (wordish_all _) (type_rest_wordish r H false)) in R.
  destruct (Z.eqb_spec c 64) as [->|N]; [exists 65, (116 :: type_rest false r); auto|].
  exists (to_upper c), (type_rest false r). split; [reflexivity|]. cbn [forallb]. rewrite R, andb_true_r. apply wordish_char, to_upper_wordish. unfold wordish. tauto.
Qed.
Lemma sayable_quotable s : sayable s -> quotable s.
Proof.
  intros [c [r [-> [C R]]]]. constructor; [unfold lower, upper in C; lia|]. eapply Forall_impl; [|exact R]. unfold lower, upper, digit. intros x X. cbn beta in X. lia.
Qed.
Lemma old_wordy s old : wordy s -> wordy (with_old s old).
Proof. intros W. destruct old; [apply wordy_app; [exact W|reflexivity]|exact W]. Qed.
Lemma variant_wordy s old : sayable s -> wordy (variant_name s old).
Proof. intros W. apply type_wordy in W. unfold variant_name. destruct old; [apply wordy_app; [exact W|reflexivity]|exact W]. Qed.
Lemma mitem_wordy s : sayable s -> wordy (mitem_type s).
Proof. intros W. apply wordy_app; [apply type_wordy, W|reflexivity]. Qed.
Lemma citem_wordy s : sayable s -> wordy (citem_type s).
Proof. intros W. apply wordy_app; [apply type_wordy, W|reflexivity]. Qed.
Lemma table_wordy s : sayable s -> wordy (table_type s).
Proof. intros W. apply wordy_app; [apply type_wordy, W|reflexivity]. Qed.
Lemma ids_wordy s : sayable s -> wordy (ids_type s).
Proof. intros W. apply wordy_app; [apply type_wordy, W|reflexivity]. Qed.
Lemma enum_wordy s : sayable s -> wordy (enum_type s).
Proof. intros W. apply wordy_app; [apply type_wordy, W|reflexivity]. Qed.
Lemma kind_wordy s : sayable s -> wordy (kind_type s).
Proof. intros W. apply wordy_app; [apply type_wordy, W|reflexivity]. Qed.

Ltac as_lines := eapply line_eq; [by_lines | vm_compute; reflexivity].

Lemma mod_name_module at_ : mod_name at_ = module at_.
Proof. destruct at_; reflexivity. Qed.
Lemma nickname_nick t : nickname t = nick t.
Proof. destruct t; reflexivity. Qed.
Lemma module_wordy at_ : wordy (module at_).
Proof. destruct at_; eexists _, _; (split; [vm_compute; reflexivity|reflexivity]). Qed.
Lemma nick_wordy t : wordy (nick t).
Proof. destruct t; eexists _, _; (split; [vm_compute; reflexivity|reflexivity]). Qed.

(* ------------------------------------------------------------------ *)
(** * Parameters *)

Section Param.
Variable at_ : place.
Variable t : param_type.
Variable vt : var_type.
Variable key : name.
Variable old : bool.
Hypothesis K : sayable key.
Local Notation nm := (with_old (to_snake_name key) old).

Ltac names :=
  rewrite (mod_name_module at_); try rewrite (nickname_nick t);
  pose proof (sayable_quotable key K) as Q; pose proof (snake_wordy key K) as N'; pose proof (old_wordy _ old N') as N;
  unfold getter, public, asked;
  pose proof (module_wordy at_) as MW; pose proof (nick_wordy t) as NW; unknown.

Lemma param_get_line : line (param_get at_ t vt key old) (fn_toks (getter nm ByRef at_ (txt "get_" ++ nick t) vt key (param_ty t))).
Proof. unfold param_get, with_var, unwrap_qv. names. destruct t, vt; cbn [typename]; as_lines. Qed.
Lemma param_get_immutable_line : line (param_get_immutable at_ t vt key old) (fn_toks (getter nm ByRef at_ (txt "get_immutable_" ++ nick t) vt key (TyRef (param_ty t)))).
Proof. unfold param_get_immutable, with_var, unwrap_qv. names. destruct t, vt; cbn [typename]; as_lines. Qed.
Lemma param_get_mutable_line : line (param_get_mutable at_ t vt key old) (fn_toks (getter (nm ++ txt "_mut") ByMut at_ (txt "get_mutable_" ++ nick t) vt key (TyMut (param_ty t)))).
Proof. unfold param_get_mutable, with_var, unwrap_qv. names. destruct t, vt; cbn [typename]; as_lines. Qed.
Lemma param_get_def_line : line (param_get_def at_ t vt key old) (fn_toks (getter (nm ++ txt "_def_val") ByRef at_ (txt "get_" ++ nick t ++ txt "_def") vt key (param_ty t))).
Proof. unfold param_get_def, with_var, unwrap_qv. names. destruct t, vt; cbn [typename]; as_lines. Qed.
Lemma param_get_def_immutable_line : line (param_get_def_immutable at_ t vt key old) (fn_toks (getter (nm ++ txt "_def_val") ByRef at_ (txt "get_" ++ nick t ++ txt "_def") vt key (TyRef (param_ty t)))).
Proof. unfold param_get_def_immutable, with_var, unwrap_qv. names. destruct t, vt; cbn [typename]; as_lines. Qed.

Definition setter : fn :=
  public (txt "set_" ++ nm) ByMut [(to_snake_name key, marked vt (param_ty t))] None
    [SExpr (path (module at_) (txt "set_" ++ nick t) [EField (EVar (txt "self")) (txt "ptr"); EText key; mark vt (to_snake_name key)])] None.
Lemma param_set_line : line (param_set at_ t vt key old) (fn_toks setter).
Proof. unfold setter, param_set, with_var, into_qv. names. destruct t, vt; cbn [typename]; as_lines. Qed.

Definition param_fns : list fn :=
  let get := getter nm ByRef at_ (txt "get_" ++ nick t) vt key (param_ty t) in
  let get_ref := getter nm ByRef at_ (txt "get_immutable_" ++ nick t) vt key (TyRef (param_ty t)) in
  let get_mut := getter (nm ++ txt "_mut") ByMut at_ (txt "get_mutable_" ++ nick t) vt key (TyMut (param_ty t)) in
  let get_def := getter (nm ++ txt "_def_val") ByRef at_ (txt "get_" ++ nick t ++ txt "_def") vt key (param_ty t) in
  let get_def_ref := getter (nm ++ txt "_def_val") ByRef at_ (txt "get_" ++ nick t ++ txt "_def") vt key (TyRef (param_ty t)) in
  match at_ with
  | AtCItem => if by_reference t then [get_def_ref; get_ref] else [get; get_def]
  | _ => if by_reference t then [get_def_ref; get_ref; get_mut; setter] else [get; get_def; setter]
  end.

Lemma param_written : Forall2 written (param_methods at_ t vt key old) param_fns.
Proof.
  unfold param_methods, param_fns, setter. cbv zeta.
  destruct (by_reference t) eqn:R; destruct at_;
    repeat first [apply Forall2_nil | apply Forall2_cons; [first [apply w_read; exact R | apply w_read_ref; exact R | apply w_default; exact R | apply w_default_ref; exact R | apply w_write | apply w_set]|]].
Qed.

Lemma param_line : line (param_text at_ t vt key old) (flat_map fn_toks param_fns).
Proof.
  unfold param_text, param_fns. cbv zeta.
  destruct (by_reference t); destruct at_ eqn:A; rewrite <- A; cbn [map concat flat_map];
    repeat first [apply line_nil | apply line_app; [apply line_pushed;
      first [apply param_get_line | apply param_get_immutable_line | apply param_get_mutable_line | apply param_get_def_immutable_line | apply param_get_def_line | apply param_set_line]|]].
Qed.
End Param.
