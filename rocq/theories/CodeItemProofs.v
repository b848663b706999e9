(** Proofs that the text of lists, references, items, tables and the root is a way to write the
    items that belong to their declarations. *)
From Coq Require Import String.
From Verif Require Import Base TextModel DocModel JsonModel JsonSpec IntfModel GenModel GenSpec GenProofs CodeModel CodeSpec CodeLexProofs CodeFnProofs.

Local Notation self_ptr := (EField (EVar (txt "self")) (txt "ptr")).
Local Notation unwrap e := (EMethod e (txt "unwrap") []).
Local Notation "'var' s" := (EVar (txt s%string)) (at level 0, s at level 0).

Lemma flat_flat {A B C} (f : A -> list B) (g : B -> list C) l : flat_map g (flat_map f l) = flat_map (fun x => flat_map g (f x)) l.
Proof. induction l as [|x l IH]; [reflexivity|]. cbn [flat_map]. rewrite flat_map_app, IH. reflexivity. Qed.
Lemma flat_mapped {A B C} (f : A -> B) (g : B -> list C) l : flat_map g (map f l) = flat_map (fun x => g (f x)) l.
Proof. induction l as [|x l IH]; [reflexivity|]. cbn [map flat_map]. rewrite IH. reflexivity. Qed.
Lemma forall2_flat {A B C} (R : B -> C -> Prop) (f : A -> list B) (g : A -> list C) l :
  (forall x, In x l -> Forall2 R (f x) (g x)) -> Forall2 R (flat_map f l) (flat_map g l).
Proof.
  induction l as [|x l IH]; intros H; [constructor|]. cbn [flat_map]. apply Forall2_app; [apply H; left; reflexivity|]. apply IH. intros y Y. apply H. right. exact Y.
Qed.

(* ------------------------------------------------------------------ *)
(** * Lists *)

Section Lists.
Variable key : name.
Variable old : bool.
Hypothesis K : sayable key.
Local Notation nm := (with_old (to_snake_name key) old).

Definition list_fns (at_ : place) (undefiable : bool) : list fn :=
  [(if undefiable then
      public nm ByRef [] (Some (TyApp (txt "Option") (TyApp (txt "MListConst") (TyName (mitem_type key)))))
        [SLet false (PVar (txt "mil")) (unwrap (asked at_ (match at_ with AtRoot => txt "get_mlist_const" | _ => txt "get_mil_const" end) key))]
        (Some (EMethod var"mil" (txt "map") [EClosure true (txt "p") (guarded (txt "MListConst") var"p")]))
    else
      public nm ByRef [] (Some (TyApp (txt "MListConst") (TyName (mitem_type key))))
        [SLet false (PVar (txt "mil")) (unwrap (unwrap (asked at_ (match at_ with AtRoot => txt "get_mlist_const" | _ => txt "get_mil_const" end) key)))]
        (Some (guarded (txt "MListConst") var"mil")));
   let x := match at_ with AtRoot => txt "mil" | _ => txt "p" end in
   public (nm ++ txt "_mut") ByMut [] (Some (TyApp (txt "MListMut") (TyName (mitem_type key))))
     [SLet false (PVar x) (unwrap (asked at_ (match at_ with AtRoot => txt "get_mlist_mut" | _ => txt "get_mil_mut" end) key))]
     (Some (guarded (txt "MListMut") (EVar x)))].

Definition const_fn (at_ : place) : fn :=
  public nm ByRef [] (Some (TyApp (txt "CListConst") (TyName (citem_type key)))) []
    (Some (guarded (txt "CListConst") (unwrap (asked at_ (match at_ with AtRoot => txt "get_clist" | _ => txt "get_cil" end) key)))).

Definition table_fn : fn :=
  public nm ByRef [] (Some (TyApp (txt "CTableConst") (TyName (table_type key))))
    [SLet false (PVar (txt "t")) (path (table_type key) (txt "new") [unwrap (path (txt "root") (txt "get_table") [call0 self_ptr "def"; EText key])])]
    (Some (guarded (txt "CTableConst") var"t")).

Ltac names :=
  pose proof (sayable_quotable key K) as Q; pose proof (old_wordy _ old (snake_wordy key K)) as N;
  pose proof (mitem_wordy key K); pose proof (citem_wordy key K); pose proof (table_wordy key K); unknown.

Lemma list_line at_ u : at_ <> AtCItem -> line (list_text at_ u key old) (flat_map fn_toks (list_fns at_ u)).
Proof. intros A. unfold list_text, list_fns. cbv zeta. names. destruct at_; [| |congruence]; destruct u; rewrite <- ?app_assoc; as_lines. Qed.
Lemma list_written at_ u : at_ <> AtCItem -> Forall2 written (list_methods at_ u key old) (list_fns at_ u).
Proof.
  intros A. unfold list_methods, list_fns. cbv zeta. apply Forall2_cons; [destruct u; [apply w_list_maybe|apply w_list]; exact A|].
  apply Forall2_cons; [|apply Forall2_nil]. apply w_list_mut; [exact A|]. destruct at_; [left|right; left|congruence]; reflexivity.
Qed.

Lemma const_line at_ : at_ <> AtMItem -> line (const_text at_ key old) (fn_toks (const_fn at_)).
Proof. intros A. unfold const_text, const_fn. cbv zeta. names. destruct at_; [|congruence|]; as_lines. Qed.
Lemma const_written at_ : at_ <> AtMItem -> written (const_method at_ key old) (const_fn at_).
Proof. intros A. apply w_const. exact A. Qed.

Lemma table_get_line : line (table_get_text key old) (fn_toks table_fn).
Proof. unfold table_get_text, table_fn. names. as_lines. Qed.
Lemma table_get_written : written (table_method key old) table_fn.
Proof. apply w_table. Qed.

(* ------------------------------------------------------------------ *)
(** * References *)

Definition ref_fns (at_ : place) (vt : var_type) : list fn :=
  [public (txt "ref_" ++ nm) ByRef [] (Some (marked vt (TyName (citem_type key)))) [let_qv (unwrap (asked at_ (txt "get_ref") key))]
     (Some (match vt with
            | Normal => path (citem_type key) (txt "from") [unmark vt]
            | _ => EMethod (unmark vt) (txt "map") [EClosure false (txt "p") (path (citem_type key) (txt "from") [var"p"])]
            end));
   getter (txt "ref_id_" ++ nm) ByRef at_ (txt "get_ref_id") vt key (TyRef (TyName (txt "String")))].
Lemma ref_get_line at_ vt : line (ref_get_text at_ key vt old) (flat_map fn_toks (ref_fns at_ vt)).
Proof.
  unfold ref_get_text, ref_fns, getter, public, asked, with_var, unwrap_qv. cbv zeta. rewrite (mod_name_module at_). pose proof (module_wordy at_) as MW.
  names. destruct vt; as_lines.
Qed.
Lemma ref_get_written at_ vt : Forall2 written (ref_get at_ key vt old) (ref_fns at_ vt).
Proof. unfold ref_get, ref_fns. cbv zeta. repeat first [apply Forall2_nil | apply Forall2_cons; [first [apply w_ref | apply w_ref_id]|]]. Qed.

Definition ref_set_fn (vt : var_type) : fn :=
  public (txt "set_ref_" ++ nm) ByMut [(txt "id", marked vt (TyName (ids_type key)))] None
    [SExpr (path (txt "mitem") (txt "set_ref") [self_ptr; EText key;
       match vt with
       | Normal => path (txt "Qv") (txt "Val") [call0 (call0 var"id" "to_str") "to_string"]
       | _ => EMethod (call0 var"id" "into_qv") (txt "map") [EClosure false (txt "v") (call0 (call0 var"v" "to_str") "to_string")]
       end])] None.
Lemma ref_set_line vt : line (ref_set_text key vt old) (fn_toks (ref_set_fn vt)).
Proof. unfold ref_set_text, ref_set_fn, with_var. pose proof (ids_wordy key K). names. destruct vt; as_lines. Qed.
Lemma ref_set_written vt : Forall2 written (ref_set key vt old) [ref_set_fn vt].
Proof. apply Forall2_cons; [apply w_set_ref|apply Forall2_nil]. Qed.
End Lists.

Section References.
Context {D : Type}.
Variable stem : name.
Variable d : ldef D.
Hypothesis St : sayable stem.
Hypothesis Rf : forall key v, In (key, v) (ld_refs d) -> sayable key.

Definition refs_get_fns (at_ : place) : list fn :=
  if ld_enum d then
    [public (txt "get_enum") ByRef [] (Some (TyName (enum_type stem)))
       [SLet false (PPair (PVar (txt "list_name")) PAny) (unwrap (path (module at_) (txt "get_enum") [self_ptr]));
        SLet false (PVar (txt "p"))
          (EIfLet (PTuple (txt "Qv") (txt "Val") (txt "p")) (unwrap (path (module at_) (txt "get_ref") [self_ptr; ERef var"list_name"]))
             var"p" (EMacro (txt "unreachable") []))]
       (Some (path (enum_type stem) (txt "new") [ERef var"list_name"; var"p"]));
     public (txt "get_enum_ids") ByRef [] (Some (TyPair (TyName (txt "String")) (TyName (txt "String")))) []
       (Some (unwrap (path (module at_) (txt "get_enum") [self_ptr])))]
  else flat_map (fun e => let '(key, (_, (_, vt))) := e in ref_fns key (contains (ld_ref_old d) key) at_ vt) (ld_refs d).

Lemma refs_get_line at_ : line (refs_get_text at_ stem d) (flat_map fn_toks (refs_get_fns at_)).
Proof.
  unfold refs_get_text, refs_get_fns. destruct (ld_enum d).
  - pose proof (enum_wordy stem St). rewrite (mod_name_module at_). pose proof (module_wordy at_) as MW. unknown. as_lines.
  - rewrite flat_flat. apply line_flat. intros [key [id [q vt]]] I. apply line_pushed. apply ref_get_line. exact (Rf _ _ I).
Qed.
Lemma refs_get_written at_ : Forall2 written (refs_get at_ stem d) (refs_get_fns at_).
Proof.
  unfold refs_get, refs_get_fns. destruct (ld_enum d).
  - repeat first [apply Forall2_nil | apply Forall2_cons; [first [apply w_enum | apply w_enum_ids]|]].
  - apply forall2_flat. intros [key [id [q vt]]] I. apply ref_get_written.
Qed.

Definition refs_set_fns : list fn :=
  if ld_enum d then
    [public (txt "set_enum") ByMut [(txt "kind", TyName (kind_type stem))] None
       [SLet false (PPair (PVar (txt "list_name")) (PVar (txt "id"))) (call0 var"kind" "id");
        SExpr (path (txt "mitem") (txt "set_enum") [self_ptr; var"list_name"; var"id"])] None]
  else flat_map (fun e => let '(key, (_, (_, vt))) := e in [ref_set_fn key (contains (ld_ref_old d) key) vt]) (ld_refs d).
Lemma refs_set_line : line (refs_set_text stem d) (flat_map fn_toks refs_set_fns).
Proof.
  unfold refs_set_text, refs_set_fns. destruct (ld_enum d).
  - pose proof (kind_wordy stem St). unknown. as_lines.
  - rewrite flat_flat. apply line_flat. intros [key [id [q vt]]] I. cbn [flat_map]. rewrite app_nil_r. apply line_pushed. apply ref_set_line. exact (Rf _ _ I).
Qed.
Lemma refs_set_written : Forall2 written (refs_set stem d) refs_set_fns.
Proof.
  unfold refs_set, refs_set_fns. destruct (ld_enum d).
  - apply Forall2_cons; [apply w_set_enum|apply Forall2_nil].
  - apply forall2_flat. intros [key [id [q vt]]] I. apply ref_set_written.
Qed.
End References.
