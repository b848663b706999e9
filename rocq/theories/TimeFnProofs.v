(** Proof of C80: the generated functions. *)
From Coq Require Import String.
From Verif Require Import Base StringCompactionModel StringCompactionProofs LinkedModel LinkedSpec DocModel DiffSpec DiffProofs ArchiveModel JsonModel IntfModel IntfProofs GenModel GenSpec CodeSpec ApiModel TypeSpec TypeProofs TypeFnProofs TypeItemProofs ReadModel RunModel RunSpec RunProofs SoundSpec SoundProofs SoundStepProofs TimeProofs.

Local Notation text := (list Z).
Local Notation "! s" := (txt s%string) (at level 0, s at level 0).
Local Notation "'var' s" := (EVar (txt s%string)) (at level 0, s at level 0).
Local Notation self_ptr := (EField (EVar (txt "self")) (txt "ptr")).
Local Notation unwrap e := (EMethod e (txt "unwrap") []).

Section Program.
Variable p : list CodeSpec.item.
Hypothesis POK : program_ok p.
Hypothesis NAMED : plainly_named p.
Variable iter : forall A, hmap A -> hmap A.
Variable r : root_obj.
Variable told : effect -> bool.
Variable o o' : res (val * trace).
Hypothesis OUT : o = Err \/ o = Panic.
Local Notation T := (timed p iter r told).
Local Notation Sm := (TimeProofs.Sm p iter r told o o').
Local Notation Sl := (TimeProofs.Sl p iter r told o o').
Local Notation Lt := (TimeProofs.Lt p iter r told o o').
Local Notation quick := (TimeProofs.quick p iter r told o o').
Local Notation brief := (TimeProofs.brief p iter r told o o').
Local Notation has_fn := (TimeProofs.has_fn p iter r told o o').

(** [a::from] only makes a struct *)
Definition has_from (a : text) : Prop :=
  a <> !"Self" /\ In a (type_names p) /\ exists f e, fn_named !"from" (own_fns p a ++ trait_fns p a) = Some f /\ f_lets f = [] /\ f_value f = Some e /\ leaf e.
Lemma sm_from k n G a args : has_from a -> Sl (S k) n G args -> Sm (S (S k)) n G (path a !"from" args) anything.
Proof.
  intros (N & I & f & e & F & L & V & X) A. unfold TimeProofs.Sm, path. change (T o (S (S k))) with (eval_step p iter r told (T o (S k))). change (T o' (S (S k))) with (eval_step p iter r told (T o' (S k))). cbn [eval_step].
  rewrite (named_other n a N). eapply same_seq; [exact A|]. intros vs _. rewrite !(assoc_own p POK) by exact I. rewrite F. apply enter_value; [exact L|]. rewrite V. apply sm_leaf, X.
Qed.
Lemma sm_variant k n G a vs v t args : a <> !"Self" -> In a (type_names p) -> enum_variants p a vs -> In (v, t) vs -> Sl k n G args -> Sm (S k) n G (path a v args) anything.
Proof.
  intros N I E V A. unfold TimeProofs.Sm, path. cbn [timed eval_step]. rewrite (named_other n a N). eapply same_seq; [exact A|]. intros xs _. rewrite !(assoc_own p POK) by exact I.
  destruct (variant_found p NAMED a vs v t E V) as [-> ->]. apply same_any.
Qed.
Lemma sm_asked k n G at_ f key g (P : val -> Prop) : core_fn (module at_) f = Some g -> (forall vs w v w', core_do iter r told g vs w = Ok (v, w') -> P v) -> Sm (S (S (S k))) n G (asked at_ f key) P.
Proof. intros C H. eapply sm_core; [exact C|apply sl_ptr_text|exact H]. Qed.
Lemma sm_guarded k n G g e P : one_of guards g = true -> eqb_bytes g !"Self" = false -> Sm (S k) n G e P -> Sm (S (S k)) n G (guarded g e) anything.
Proof. intros H N E. apply sm_known; [exact N|rewrite H; reflexivity|]. eapply sl_cons; [exact E|]. eapply sl_cons; [apply sm_leaf; exact Logic.I|apply sl_nil]. Qed.

(** one variable is declared *)
Lemma enter_one k n f self args m x e e' P : f_lets f = [SLet m (PVar x) e] -> f_value f = Some e' -> Sm k n (begins f self args) e P ->
  (forall v, P v -> Sm k n ((x, v) :: begins f self args) e' anything) -> same (enter (T o k) n f self args) (enter (T o' k) n f self args) anything.
Proof.
  intros L V E X. eapply enter_same with (Q := fun G => exists v, P v /\ G = (x, v) :: begins f self args).
  - rewrite L. eapply lt_let; [exact E|]. intros v H Pv B. cbn [bound] in B. injection B as <-. apply lt_nil. exists v. split; [exact Pv|reflexivity].
  - intros G (v & Pv & ->). rewrite V. apply X, Pv.
Qed.
(** a statement *)
Lemma enter_expr k n f self args e P : f_lets f = [SExpr e] -> f_value f = None -> Sm k n (begins f self args) e P -> same (enter (T o k) n f self args) (enter (T o' k) n f self args) anything.
Proof. intros L V E. eapply enter_same with (Q := anything); [rewrite L; eapply lt_expr; [exact E|apply lt_nil; exact Logic.I]|]. intros G _. rewrite V. exact Logic.I. Qed.

Section Function.
Variable n : text.

Lemma getter_brief nm rc at_ f vt key t g : core_fn (module at_) f = Some g -> deep g = true -> brief 10 n (getter nm rc at_ f vt key t).
Proof.
  intros C Dg k self args _ _. eapply enter_one; [reflexivity|reflexivity| |].
  - apply sm_unwrap with (P := held anything). eapply sm_asked; [exact C|]. intros vs w v w' E. eapply core_deep; [exact Dg|exact E].
  - intros v V. cbv beta in V. eapply sm_weak. eapply sm_unmark; [apply hget_here; reflexivity|exact V].
Qed.
Lemma hget_arg x f v a args : x <> !"self" -> f_args f = [(x, a)] -> args = [v] -> forall self, hget x (begins f self args) = Some v.
Proof.
  intros N E -> self. unfold begins. rewrite E. cbn [map fst combine]. destruct self as [y|]; cbn [app hget].
  - rewrite (eqb_other !"self" x) by (intros X; apply N; symmetry; exact X). rewrite eqb_bytes_refl. reflexivity.
  - rewrite eqb_bytes_refl. reflexivity.
Qed.
Lemma one_arg f x t args : args_typed p n f args -> f_args f = [(x, t)] -> exists v, args = [v] /\ of_type p v (of_ty n t).
Proof. unfold args_typed. intros H E. rewrite E in H. cbn [map snd] in H. inversion H as [|v ? vs ? X Y]; subst. inversion Y; subst. exists v. split; [reflexivity|exact X]. Qed.
Lemma marked_held vt t v : vt <> Normal -> of_type p v (of_ty n (marked vt t)) -> held (fun x => of_type p x (of_ty n t)) v.
Proof. intros N H. rewrite of_marked in H. destruct vt; [contradiction N; reflexivity| | |]; (eapply held_type; [exact POK| |exact H]); cbn [In]; tauto. Qed.

Lemma set_brief nm x at_ t vt key : at_ <> AtCItem -> x <> !"self" -> x <> !"None" ->
  brief 10 n (public nm ByMut [(x, marked vt (param_ty t))] None [SExpr (path (module at_) (!"set_" ++ nick t) [self_ptr; EText key; mark vt x])] None).
Proof.
  intros A N N' k self args _ TA. destruct (one_arg _ x _ args TA eq_refl) as (v & -> & V).
  assert (HG : forall f, f_args f = [(x, marked vt (param_ty t))] -> hget x (begins f self [v]) = Some v) by (intros f FA; eapply hget_arg; [exact N|exact FA|reflexivity]).
  eapply enter_expr; [reflexivity|reflexivity|]. eapply (core_any _ _ _ _ _ _ _ _ _ _ _ _ (FSet t)).
  - destruct at_; [|  |contradiction A; reflexivity]; destruct t; reflexivity.
  - eapply sl_cons; [apply sm_self_ptr|]. eapply sl_cons; [apply sm_leaf; exact Logic.I|]. eapply sl_cons; [|apply sl_nil].
    match goal with |- Sm _ _ ?g _ _ => assert (X : forall k (P : val -> Prop), P v -> Sm (S k) n g (EVar x) P) by (intros k' P PV; eapply sm_var; [apply eqb_other; exact N'|apply HG; reflexivity|exact PV]); clear HG; set (G := g) in * end. clearbody G.
    destruct vt eqn:VT; cbn [mark].
    + apply sm_known; [reflexivity|vm_compute; reflexivity|]. eapply sl_cons; [apply sm_leaf; exact Logic.I|apply sl_nil].
    + eapply sm_weak, sm_into_qv, X, marked_held; [|exact V]. discriminate.
    + eapply sm_weak, sm_into_qv, X, marked_held; [|exact V]. discriminate.
    + eapply sm_weak, sm_into_qv, X, marked_held; [|exact V]. discriminate.
Qed.

Lemma self_field f self args fields x t : f_self f <> NoSelf -> self_typed p n (f_self f) self -> struct_fields p n fields -> In (x, t) fields ->
  forall k (P : val -> Prop), (forall y, of_type p y (of_ty n t) -> P y) -> Sm (S (S k)) n (begins f self args) (EField (EVar (txt "self")) x) P.
Proof.
  intros R ST SF I k P H. assert (X : exists v, self = Some v /\ of_type p v (RName n)) by (unfold self_typed in ST; destruct (f_self f); [contradiction R; reflexivity|exact ST..]). destruct X as (v & -> & V).
  apply sm_field. eapply sm_var; [reflexivity|unfold begins; cbn [app]; apply hget_here; reflexivity|]. intros m fs y E HG. apply (in_struct p POK v n fields SF) in V as (fs' & -> & W). injection E as <- <-.
  destruct (W _ _ I) as (y' & HY & TY). rewrite HG in HY. injection HY as <-. apply H, TY.
Qed.

Lemma table_brief nm key a : points p n !"RootObjectPtr" -> a <> !"Self" -> has_fn 1 a !"new" NoSelf ->
  brief 10 n (public nm ByRef [] (Some (TyApp !"CTableConst" (TyName a)))
    [SLet false (PVar !"t") (path a !"new" [unwrap (path !"root" !"get_table" [call0 self_ptr "def"; EText key])])] (Some (guarded !"CTableConst" var"t"))).
Proof.
  intros (fields & SF & I) N H k self args ST _. eapply enter_one; [reflexivity|reflexivity| |].
  - apply (sm_fn p POK iter r told o o' 1 (8 + k)); [exact N|exact H|]. eapply sl_cons; [|apply sl_nil]. eapply sm_unwrap. eapply (sm_core _ _ _ _ _ _ _ _ _ _ _ _ FTable); [reflexivity| |].
    + eapply sl_cons; [|eapply sl_cons; [apply sm_leaf; exact Logic.I|apply sl_nil]]. apply sm_def. eapply self_field; [|exact ST|exact SF|exact I|]; [discriminate|]. intros y Y. cbn [of_ty] in Y. rewrite named_other in Y by discriminate.
      apply in_root_ptr in Y as ->; [|exact POK]. eexists; reflexivity.
    + intros vs w v w' E. eapply core_flat; [|exact E]. reflexivity.
  - intros v _. eapply sm_guarded; [vm_compute; reflexivity|reflexivity|apply sm_leaf; exact Logic.I].
Qed.
Lemma const_brief nm at_ key a : at_ <> AtMItem -> brief 10 n (public nm ByRef [] (Some (TyApp !"CListConst" (TyName a))) []
  (Some (guarded !"CListConst" (unwrap (asked at_ (match at_ with AtRoot => !"get_clist" | _ => !"get_cil" end) key))))).
Proof.
  intros A k self args _ _. apply enter_value; [reflexivity|]. eapply sm_guarded; [vm_compute; reflexivity|reflexivity|]. eapply sm_unwrap.
  destruct at_; [|contradiction A; reflexivity|]; (eapply sm_asked; [reflexivity|]; intros vs w v w' E; eapply core_flat; [|exact E]; reflexivity).
Qed.
Lemma sm_list k G at_ key : at_ <> AtCItem -> Sm (S (S (S (S k)))) n G (unwrap (asked at_ (match at_ with AtRoot => !"get_mlist_const" | _ => !"get_mil_const" end) key)) (held anything).
Proof. intros A. apply sm_unwrap. destruct at_; [| |contradiction A; reflexivity]; (eapply sm_asked; [reflexivity|]; intros vs w v w' E; eapply core_deep; [|exact E]; reflexivity). Qed.
Lemma list_maybe_brief nm at_ key a : at_ <> AtCItem -> brief 10 n (public nm ByRef [] (Some (TyApp !"Option" (TyApp !"MListConst" (TyName a))))
  [SLet false (PVar !"mil") (unwrap (asked at_ (match at_ with AtRoot => !"get_mlist_const" | _ => !"get_mil_const" end) key))]
  (Some (EMethod var"mil" !"map" [EClosure true !"p" (guarded !"MListConst" var"p")]))).
Proof.
  intros A k self args _ _. eapply enter_one; [reflexivity|reflexivity|apply sm_list; exact A|]. intros v V. eapply sm_map; [eapply sm_var; [reflexivity|apply hget_here; reflexivity|exact V]|].
  intros x _. eapply sm_guarded; [vm_compute; reflexivity|reflexivity|apply sm_leaf; exact Logic.I].
Qed.
Lemma list_brief nm at_ key a : at_ <> AtCItem -> brief 10 n (public nm ByRef [] (Some (TyApp !"MListConst" (TyName a)))
  [SLet false (PVar !"mil") (unwrap (unwrap (asked at_ (match at_ with AtRoot => !"get_mlist_const" | _ => !"get_mil_const" end) key)))] (Some (guarded !"MListConst" var"mil"))).
Proof.
  intros A k self args _ _. eapply enter_one; [reflexivity|reflexivity|eapply sm_unwrap, sm_list; exact A|]. intros v _. eapply sm_guarded; [vm_compute; reflexivity|reflexivity|apply sm_leaf; exact Logic.I].
Qed.
Lemma list_mut_brief nm at_ key a x : at_ <> AtCItem -> brief 10 n (public nm ByMut [] (Some (TyApp !"MListMut" (TyName a)))
  [SLet false (PVar x) (unwrap (asked at_ (match at_ with AtRoot => !"get_mlist_mut" | _ => !"get_mil_mut" end) key))] (Some (guarded !"MListMut" (EVar x)))).
Proof.
  intros A k self args _ _. eapply enter_one; [reflexivity|reflexivity| |].
  - eapply sm_unwrap. destruct at_; [| |contradiction A; reflexivity]; (eapply sm_asked; [reflexivity|]; intros vs w v w' E; eapply core_flat; [|exact E]; reflexivity).
  - intros v _. eapply sm_guarded; [vm_compute; reflexivity|reflexivity|apply sm_leaf; exact Logic.I].
Qed.
Lemma ref_brief nm at_ vt key a : at_ <> AtRoot -> has_from a -> brief 10 n (public nm ByRef [] (Some (marked vt (TyName a))) [let_qv (unwrap (asked at_ !"get_ref" key))]
  (Some (match vt with Normal => path a !"from" [unmark vt] | _ => EMethod (unmark vt) !"map" [EClosure false !"p" (path a !"from" [var"p"])] end))).
Proof.
  intros A H k self args _ _. eapply enter_one; [reflexivity|reflexivity| |].
  - apply sm_unwrap with (P := held anything). destruct at_; [contradiction A; reflexivity| |]; (eapply sm_asked; [reflexivity|]; intros vs w v w' E; eapply core_deep; [|exact E]; reflexivity).
  - intros v V. cbv beta in V.
    assert (U : forall j, Sm (S (S (S j))) n ((!"qv", v) :: begins (public nm ByRef [] (Some (marked vt (TyName a))) [let_qv (unwrap (asked at_ !"get_ref" key))]
      (Some (match vt with Normal => path a !"from" [unmark vt] | _ => EMethod (unmark vt) !"map" [EClosure false !"p" (path a !"from" [var"p"])] end))) self args) (unmark vt) (fun x => vt = Normal \/ held anything x))
      by (intros j; eapply sm_unmark; [apply hget_here; reflexivity|exact V]).
    assert (X : vt = Normal \/ vt <> Normal) by (destruct vt; [left; reflexivity|right; discriminate..]). destruct X as [->|X].
    + apply sm_from; [exact H|]. eapply sl_cons; [apply U|apply sl_nil].
    + replace (match vt with Normal => path a !"from" [unmark vt] | _ => EMethod (unmark vt) !"map" [EClosure false !"p" (path a !"from" [var"p"])] end)
        with (EMethod (unmark vt) !"map" [EClosure false !"p" (path a !"from" [var"p"])]) in * by (destruct vt; [contradiction X; reflexivity|reflexivity..]).
      eapply sm_map; [eapply same_imp; [|apply U]; intros x [Y|Y]; [contradiction|exact Y]|]. intros x _. apply sm_from; [exact H|]. eapply sl_cons; [apply sm_leaf; exact Logic.I|apply sl_nil].
Qed.

(** [e.to_str().to_string()] *)
Lemma sm_to_string k G e a : has_fn 5 a !"to_str" ByRef -> offers p a !"to_str" ByRef false [] str_ref -> Sm (5 + k) n G e (fun v => of_type p v (RName a)) ->
  Sm (S (S (5 + k))) n G (call0 (call0 e "to_str") "to_string") anything.
Proof.
  intros (g & F & FN & R & Q) (g' & F' & FN' & _ & _ & A' & t & RT & TT) E. destruct (fn_found p POK a g F) as (L & _ & I). destruct (fn_found p POK a g' F') as (L' & _ & _). rewrite FN in L. rewrite FN', L in L'. injection L' as <-.
  assert (X : Sm (S (5 + k)) n G (call0 e "to_str") (fun v => exists s, v = VOf (CString s))).
  { unfold TimeProofs.Sm, call0. change (T o (S (5 + k))) with (eval_step p iter r told (T o (5 + k))). change (T o' (S (5 + k))) with (eval_step p iter r told (T o' (5 + k))). cbn [eval_step each].
    eapply same_seq; [exact E|]. intros v V. apply same_now. rewrite !(method_own p POK r _ a v _ [] I V). unfold own_method. rewrite L.
    assert (ST : self_typed p a (f_self g) (Some v)) by (rewrite R; exists v; split; [reflexivity|exact V]).
    intros w. destruct (Q k (Some v) [] ST w) as [EQ _]. split; [exact EQ|]. intros y w' Y.
    assert (AT : args_typed p a g []) by (unfold args_typed; rewrite A'; apply Forall2_nil).
    pose proof (timed_enter p o POK NAMED OUT iter r told (5 + k) a g (Some v) [] F AT ST w) as S_. rewrite Y in S_. destruct S_ as [S_ _]. unfold returned in S_. rewrite RT, TT in S_. apply in_str in S_; [exact S_|exact POK]. }
  unfold TimeProofs.Sm. unfold call0 at 1 3. change (T o (S (S (5 + k)))) with (eval_step p iter r told (T o (S (5 + k)))). change (T o' (S (S (5 + k)))) with (eval_step p iter r told (T o' (S (5 + k)))). cbn [eval_step each].
  eapply same_seq; [exact X|]. intros v (s & ->). apply same_now. cbn [method_of]. apply same_any.
Qed.
Lemma set_ref_brief nm vt key a : a <> !"Self" -> has_fn 5 a !"to_str" ByRef -> offers p a !"to_str" ByRef false [] str_ref -> brief 10 n (public nm ByMut [(!"id", marked vt (TyName a))] None
  [SExpr (path !"mitem" !"set_ref" [self_ptr; EText key;
     match vt with
     | Normal => path !"Qv" !"Val" [call0 (call0 var"id" "to_str") "to_string"]
     | _ => EMethod (call0 var"id" "into_qv") !"map" [EClosure false !"v" (call0 (call0 var"v" "to_str") "to_string")]
     end])] None).
Proof.
  intros N H OF k self args _ TA. destruct (one_arg _ !"id" _ args TA eq_refl) as (v & -> & V).
  eapply enter_expr; [reflexivity|reflexivity|]. eapply (core_any _ _ _ _ _ _ _ _ _ _ _ _ FSetRef); [reflexivity|].
  eapply sl_cons; [apply sm_self_ptr|]. eapply sl_cons; [apply sm_leaf; exact Logic.I|]. eapply sl_cons; [|apply sl_nil].
  assert (X : forall f, f_args f = [(!"id", marked vt (TyName a))] -> forall k (P : val -> Prop), P v -> Sm (S k) n (begins f self [v]) var"id" P).
  { intros f FA k' P PV. eapply sm_var; [reflexivity| |exact PV]. eapply hget_arg; [|exact FA|reflexivity]. discriminate. }
  assert (Y : vt = Normal \/ vt <> Normal) by (destruct vt; [left; reflexivity|right; discriminate..]). destruct Y as [->|Y].
  - apply sm_known; [reflexivity|vm_compute; reflexivity|]. eapply sl_cons; [|apply sl_nil]. apply (sm_to_string (1 + k)) with (a := a); [exact H|exact OF|]. apply X; [reflexivity|]. cbn [marked of_ty] in V. rewrite named_other in V by exact N. exact V.
  - apply marked_held in V; [|exact Y]. cbn [of_ty] in V. rewrite named_other in V by exact N.
    replace (match vt with Normal => path !"Qv" !"Val" [call0 (call0 var"id" "to_str") "to_string"] | _ => EMethod (call0 var"id" "into_qv") !"map" [EClosure false !"v" (call0 (call0 var"v" "to_str") "to_string")] end)
      with (EMethod (call0 var"id" "into_qv") !"map" [EClosure false !"v" (call0 (call0 var"v" "to_str") "to_string")]) by (destruct vt; [contradiction Y; reflexivity|reflexivity..]).
    eapply (sm_map _ _ _ _ _ _ (7 + k)); [apply sm_into_qv, X; [destruct vt; [contradiction Y; reflexivity|reflexivity..]|exact V]|]. intros x PX. cbv beta in PX.
    apply (sm_to_string (1 + k)) with (a := a); [exact H|exact OF|]. eapply sm_var; [reflexivity|apply hget_here; reflexivity|exact PX].
Qed.

Lemma sm_enum k G at_ : at_ <> AtRoot -> Sm (S (S (S (S k)))) n G (unwrap (path (module at_) !"get_enum" [self_ptr])) anything.
Proof.
  intros A. apply sm_unwrap. destruct at_; [contradiction A; reflexivity| |]; (eapply (sm_core _ _ _ _ _ _ _ _ _ _ _ _ FEnum); [reflexivity|apply sl_ptr|]; intros vs w v w' E; eapply core_flat; [|exact E]; reflexivity).
Qed.
Lemma enum_ids_brief nm at_ : at_ <> AtRoot -> brief 10 n (public nm ByRef [] (Some (TyPair (TyName !"String") (TyName !"String"))) [] (Some (unwrap (path (module at_) !"get_enum" [self_ptr])))).
Proof. intros A k self args _ _. apply enter_value; [reflexivity|]. apply sm_enum, A. Qed.
Lemma enum_brief nm at_ a : at_ <> AtRoot -> a <> !"Self" -> has_fn 5 a !"new" NoSelf -> brief 10 n (public nm ByRef [] (Some (TyName a))
  [SLet false (PPair (PVar !"list_name") PAny) (unwrap (path (module at_) !"get_enum" [self_ptr]));
   SLet false (PVar !"p") (EIfLet (PTuple !"Qv" !"Val" !"p") (unwrap (path (module at_) !"get_ref" [self_ptr; ERef var"list_name"])) var"p" (EMacro !"unreachable" []))]
  (Some (path a !"new" [ERef var"list_name"; var"p"]))).
Proof.
  intros A N H k self args _ _. eapply enter_same with (Q := anything).
  - cbn [f_lets public]. eapply lt_let; [apply sm_enum; exact A|]. intros v G' _ _. eapply lt_let; [|intros x G'' _ _; apply lt_nil; exact Logic.I].
    eapply sm_if_let; [| |apply sm_leaf; exact Logic.I].
    + eapply sm_unwrap. destruct at_; [contradiction A; reflexivity| |];
        (eapply (sm_core _ _ _ _ _ _ _ _ _ _ _ _ FRef); [reflexivity| |intros vs w x w' E; eapply core_deep; [|exact E]; reflexivity];
         eapply sl_cons; [apply sm_self_ptr|]; eapply sl_cons; [apply sm_ref, sm_leaf; exact Logic.I|apply sl_nil]).
    + intros G''. apply sm_leaf. exact Logic.I.
  - intros G _. cbn [f_value public]. apply (sm_fn p POK iter r told o o' 5 (4 + k)); [exact N|exact H|]. eapply sl_cons; [apply sm_ref, sm_leaf; exact Logic.I|]. eapply sl_cons; [apply sm_leaf; exact Logic.I|apply sl_nil].
Qed.
Lemma set_enum_brief nm a : a <> !"Self" -> has_fn 8 a !"id" ByRef -> brief 10 n (public nm ByMut [(!"kind", TyName a)] None
  [SLet false (PPair (PVar !"list_name") (PVar !"id")) (call0 var"kind" "id"); SExpr (path !"mitem" !"set_enum" [self_ptr; var"list_name"; var"id"])] None).
Proof.
  intros N H k self args _ TA. destruct (one_arg _ !"kind" _ args TA eq_refl) as (v & -> & V). cbn [of_ty] in V. rewrite named_other in V by exact N.
  eapply enter_same with (Q := anything); [|intros G _; exact Logic.I]. cbn [f_lets public]. eapply lt_let.
  - apply (sm_own p POK iter r told o o' 8 (1 + k)) with (a := a); [exact H| |apply sl_nil]. eapply sm_var; [reflexivity| |exact V]. eapply hget_arg; [|reflexivity|reflexivity]. discriminate.
  - intros x G' _ _. eapply lt_expr; [|apply lt_nil; exact Logic.I]. eapply (core_any _ _ _ _ _ _ _ _ _ _ _ _ FSetEnum); [reflexivity|].
    eapply sl_cons; [apply sm_self_ptr|]. eapply sl_cons; [apply sm_leaf; exact Logic.I|]. eapply sl_cons; [apply sm_leaf; exact Logic.I|apply sl_nil].
Qed.

Lemma sm_row k G key : Sm (S (S (S (S k)))) n G (unwrap (path !"table" !"get_value" [self_ptr; EText key])) anything.
Proof. apply sm_unwrap. eapply (sm_core _ _ _ _ _ _ _ _ _ _ _ _ FRow); [reflexivity|apply sl_ptr_text|]. intros vs w v w' E. eapply core_flat; [|exact E]. reflexivity. Qed.
Lemma row_us_quick nm key a : has_from a -> quick 4 n (Fn true true nm ByRef [] (Some (TyName a)) [SLet false (PVar !"ptr") (unwrap (path !"table" !"get_value" [self_ptr; EText key]))] (Some (path a !"from" [var"ptr"]))).
Proof.
  intros H k self args _. eapply enter_one; [reflexivity|reflexivity|apply sm_row|]. intros v _. apply sm_from; [exact H|]. eapply sl_cons; [apply sm_leaf; exact Logic.I|apply sl_nil].
Qed.
Lemma row_brief nm key a : has_from a -> brief 10 n (public nm ByRef [] (Some (TyApp !"CItemConst" (TyName a))) [SLet false (PVar !"ptr") (unwrap (path !"table" !"get_value" [self_ptr; EText key]))]
  (Some (guarded !"CItemConst" (path a !"from" [var"ptr"])))).
Proof.
  intros H k self args _ _. eapply enter_one; [reflexivity|reflexivity|apply sm_row|]. intros v _. eapply sm_guarded; [vm_compute; reflexivity|reflexivity|].
  apply sm_from; [exact H|]. eapply sl_cons; [apply sm_leaf; exact Logic.I|apply sl_nil].
Qed.
Lemma sm_self k f self args G (H : env) : f_self f = ByRef -> self_typed p n (f_self f) self -> hget !"self" H = None -> G = H ++ begins f self args -> Sm (S k) n G var"self" (fun v => of_type p v (RName n)).
Proof.
  intros R ST NS ->. rewrite R in ST. destruct ST as (v & -> & V). eapply sm_var; [reflexivity| |exact V]. unfold begins. clear - NS. induction H as [|[x y] H IH]; [apply hget_here; reflexivity|].
  cbn [app hget] in *. destruct (eqb_bytes x !"self"); [discriminate NS|apply IH, NS].
Qed.
Lemma by_id_us_quick (arms : list (text * text)) ids a : (forall v g, In (v, g) arms -> has_fn 4 n g ByRef) -> quick 6 n (Fn true true !"get_by_id_us" ByRef [(!"id", TyName ids)] (Some (TyName a)) []
  (Some (EMatch var"id" (map (fun a => (PPath ids (fst a), EMethod var"self" (snd a) [])) arms)))).
Proof.
  intros H k self args ST. apply enter_value; [reflexivity|]. cbn [f_value]. eapply sm_match; [apply sm_leaf; exact Logic.I|]. intros v q G' e' _ I Bq. apply in_map_iff in I as ((x & g) & E & I). cbn [fst snd] in E. apply pair_equal_spec in E as [<- <-].
  assert (G' = []) as ->.
  { destruct v; cbn [bound] in Bq; try discriminate Bq. destruct args0; [|discriminate Bq]. destruct (_ && _); [injection Bq as <-; reflexivity|discriminate Bq]. }
  apply (sm_own p POK iter r told o o' 4 k) with (a := n); [eapply H; exact I| |apply sl_nil]. eapply (sm_self _ _ self args _ []); [|exact ST| |]; reflexivity.
Qed.
Lemma by_id_brief ids a : has_fn 6 n !"get_by_id_us" ByRef -> brief 10 n (public !"get_by_id" ByRef [(!"id", TyName ids)] (Some (TyApp !"CItemConst" (TyName a))) []
  (Some (guarded !"CItemConst" (EUnsafe (EMethod var"self" !"get_by_id_us" [var"id"]))))).
Proof.
  intros H k self args ST _. apply enter_value; [reflexivity|]. cbn [f_value public]. eapply sm_guarded; [vm_compute; reflexivity|reflexivity|]. apply sm_unsafe.
  apply (sm_own p POK iter r told o o' 6 (1 + k)) with (a := n); [exact H| |eapply sl_cons; [apply sm_leaf; exact Logic.I|apply sl_nil]]. eapply (sm_self _ _ self args _ []); [|exact ST| |]; reflexivity.
Qed.

(** of the root *)
Lemma root_new_brief : brief 10 n (public !"new" NoSelf [(!"obj", TyName !"RootObject")] (Some (TyName n))
  [SLet true (PVar !"root") (path !"Box" !"new" [var"obj"]); SLet false (PVar !"ptr") (path !"RootObjectPtr" !"new" [call0 var"root" "as_mut"])] (Some (EStruct n [!"root"; !"ptr"]))).
Proof.
  intros k self args _ _. eapply enter_same with (Q := anything); [|intros G _; apply sm_leaf; exact Logic.I]. cbn [f_lets public].
  eapply lt_let with (P := fun v => exists x, v = VBox x).
  - unfold TimeProofs.Sm, path. cbn [Nat.add]. match goal with |- same (T o (S ?m) _ _ _) _ _ => change (T o (S m)) with (eval_step p iter r told (T o m)); change (T o' (S m)) with (eval_step p iter r told (T o' m)); set (K := m) end.
    cbn [eval_step]. eapply same_seq; [eapply sl_cons; [apply sm_leaf; exact Logic.I|apply sl_nil]|]. intros vs _. change (named n !"Box") with !"Box".
    assert (X : forall ev, assoc p iter r told ev !"Box" !"new" vs = match vs with [v] => ret (VBox v) | _ => stuck end) by reflexivity. rewrite !X. destruct vs as [|v [|v' vs]]; [apply same_stuck| |apply same_stuck]. apply same_ret. exists v. reflexivity.
  - intros v G' V X. cbn [bound] in X. injection X as <-. eapply lt_let; [|intros x G'' _ _; apply lt_nil; exact Logic.I]. apply sm_known; [reflexivity|vm_compute; reflexivity|].
    eapply sl_cons; [|apply sl_nil]. apply sm_box; [right; reflexivity|]. eapply sm_var; [reflexivity|apply hget_here; reflexivity|exact V].
Qed.
Lemma root_box nm rc ret_ k self args : struct_fields p n root_fields -> rc <> NoSelf -> forall e, let f := public nm rc [] ret_ [] e in self_typed p n (f_self f) self -> Sm (S (S k)) n (begins f self args) (EField var"self" !"root") (fun v => exists x, v = VBox x).
Proof.
  intros SF R e f ST. eapply self_field; [exact R|exact ST|exact SF|left; reflexivity|]. intros y Y. cbn [of_ty] in Y. apply in_box in Y as (x & -> & _). exists x. reflexivity.
Qed.
Lemma root_ref_brief : struct_fields p n root_fields -> brief 10 n (public !"root_obj_ref" ByRef [] (Some (TyRef (TyName !"RootObject"))) [] (Some (call0 (EField var"self" !"root") "as_ref"))).
Proof. intros SF k self args ST _. apply enter_value; [reflexivity|]. cbn [f_value public]. apply sm_box; [left; reflexivity|]. apply root_box; [exact SF|discriminate|exact ST]. Qed.
Lemma root_ref_mut_brief : struct_fields p n root_fields -> brief 10 n (public !"root_obj_ref_mut" ByMut [] (Some (TyMut (TyName !"RootObject"))) [] (Some (call0 (EField var"self" !"root") "as_mut"))).
Proof. intros SF k self args ST _. apply enter_value; [reflexivity|]. cbn [f_value public]. apply sm_box; [right; reflexivity|]. apply root_box; [exact SF|discriminate|exact ST]. Qed.
Lemma root_deconstruct_brief : struct_fields p n root_fields -> brief 10 n (public !"deconstruct" ByValue [] (Some (TyName !"RootObject")) [] (Some (EDeref (EField var"self" !"root")))).
Proof. intros SF k self args ST _. apply enter_value; [reflexivity|]. cbn [f_value public]. eapply sm_deref. apply root_box; [exact SF|discriminate|exact ST]. Qed.
Lemma table_new_quick : quick 1 n (public !"new" NoSelf [(!"ptr", TyName !"TablePtr")] (Some (TyName n)) [] (Some (EStruct n [!"ptr"]))).
Proof. intros k self args _. apply enter_value; [reflexivity|]. apply sm_leaf. exact Logic.I. Qed.

(** of the ids *)
Lemma from_str_brief (from_str : list (text * text)) : brief 10 n (public !"from_str" NoSelf [(!"id", TyRef (TyName !"str"))] (Some (TyApp !"Option" (TyName !"Self"))) []
  (Some (EMatch var"id" (map (fun a => (PText (fst a), ECall var"Some" [EPath !"Self" (snd a)])) from_str ++ [(PAny, EBlock var"None")])))).
Proof.
  intros k self args _ _. apply enter_value; [reflexivity|]. cbn [f_value public]. eapply sm_match; [apply sm_leaf; exact Logic.I|]. intros v q G' e' _ I _. apply in_app_iff in I as [I|[I|[]]].
  - apply in_map_iff in I as ((x & g) & E & _). apply pair_equal_spec in E as [_ <-]. apply sm_some. eapply sl_cons; [apply sm_leaf; exact Logic.I|apply sl_nil].
  - apply pair_equal_spec in I as [_ <-]. apply sm_block, sm_leaf. exact Logic.I.
Qed.
Lemma from_num_brief (from_num : list (Z * text)) m : brief 10 n (public !"from_num" NoSelf [(!"id", TyName !"usize")] (Some (TyName !"Self")) []
  (Some (EMatch var"id" (map (fun a => (PNum (fst a), EPath !"Self" (snd a))) from_num ++ [(PAny, EMacro !"panic" m)])))).
Proof.
  intros k self args _ _. apply enter_value; [reflexivity|]. cbn [f_value public]. eapply sm_match; [apply sm_leaf; exact Logic.I|]. intros v q G' e' _ I _. apply in_app_iff in I as [I|[I|[]]].
  - apply in_map_iff in I as ((x & g) & E & _). apply pair_equal_spec in E as [_ <-]. apply sm_leaf. exact Logic.I.
  - apply pair_equal_spec in I as [_ <-]. apply sm_leaf. exact Logic.I.
Qed.
Lemma len_brief l : brief 10 n (public !"len" NoSelf [] (Some (TyName !"usize")) [] (Some (ENum l))).
Proof. intros k self args _ _. apply enter_value; [reflexivity|]. apply sm_leaf. exact Logic.I. Qed.
Lemma to_num_quick (to_num : list (text * Z)) m : quick 3 n (public !"to_num" ByRef [] (Some (TyName !"usize")) [] (Some (EMatch var"self" (map (fun a => (PPath m (fst a), ENum (snd a))) to_num)))).
Proof.
  intros k self args _. apply enter_value; [reflexivity|]. cbn [f_value public]. eapply sm_match; [apply sm_leaf; exact Logic.I|]. intros v q G' e' _ I _. apply in_map_iff in I as ((x & g) & E & _). apply pair_equal_spec in E as [_ <-].
  apply sm_leaf. exact Logic.I.
Qed.
Lemma metadata_quick (l : list text) : quick 3 n (public !"metadata" NoSelf [] (Some (TyStatic (TySlice static_str))) [] (Some (ERef (EArray (map EText l))))).
Proof. intros k self args _. apply enter_value; [reflexivity|]. cbn [f_value public]. apply sm_ref, sm_array, sl_texts. Qed.
Lemma to_str_quick : has_fn 3 n !"metadata" NoSelf -> has_fn 3 n !"to_num" ByRef ->
  quick 5 n (public !"to_str" ByRef [] (Some static_str) [] (Some (EIndex (path !"Self" !"metadata" []) (call0 var"self" "to_num")))).
Proof.
  intros (g & F & FN & R & Q) H k self args ST. destruct (fn_found p POK n g F) as (L & _ & I). rewrite FN in L. apply enter_value; [reflexivity|]. cbn [f_value public]. eapply sm_index.
  - eapply (sm_own_self p POK iter r told o o' (3 + k)); [exact L|exact I|apply sl_nil|]. intros vs. apply Q. rewrite R. reflexivity.
  - apply (sm_own p POK iter r told o o' 3 k) with (a := n); [exact H| |apply sl_nil]. eapply (sm_self _ _ self args _ []); [|exact ST| |]; reflexivity.
Qed.
(** of the enums *)
Lemma enum_new_quick (vs : list (text * text)) (new : list (name * text)) m : n <> !"Self" -> In n (type_names p) -> enum_variants p n (map (fun v => (fst v, Some (TyName (snd v)))) vs) ->
  Forall2 (fun a v => snd a = fst v) new vs -> (forall a, In a (map snd vs) -> has_from a) ->
  quick 5 n (public !"new" NoSelf [(!"list_name", TyRef (TyName !"str")); (!"ptr", TyName !"CItemPtr")] (Some (TyName n)) []
    (Some (EMatch var"list_name" (map (fun e => (PText (fst (fst e)), path n (snd (fst e)) [path (snd (snd e)) !"from" [var"ptr"]])) (combine new vs) ++ [(PAny, EMacro !"panic" m)])))).
Proof.
  intros N I EV F H k self args _. apply enter_value; [reflexivity|]. cbn [f_value public]. eapply sm_match; [apply sm_leaf; exact Logic.I|]. intros v q G' e' _ J _. apply in_app_iff in J as [J|[J|[]]].
  - apply in_map_iff in J as (((s & c) & (c' & a)) & E & J). apply pair_equal_spec in E as [_ <-]. cbn [fst snd].
    assert (X : c = c' /\ In (c', a) vs).
    { clear - F J. revert J. induction F as [|x y new vs E F IH]; [intros []|]. cbn [combine In]. intros [J|J]; [apply pair_equal_spec in J as [-> ->]; cbn [fst snd] in E; split; [exact E|left; reflexivity]|]. destruct (IH J) as [U V]. split; [exact U|right; exact V]. }
    destruct X as [-> X]. eapply sm_variant; [exact N|exact I|exact EV|apply in_map_iff; exists (c', a); split; [reflexivity|exact X]|]. eapply sl_cons; [|apply sl_nil].
    apply sm_from; [apply H; apply in_map_iff; exists (c', a); split; [reflexivity|exact X]|]. eapply sl_cons; [apply sm_leaf; exact Logic.I|apply sl_nil].
  - apply pair_equal_spec in J as [_ <-]. apply sm_leaf. exact Logic.I.
Qed.
Lemma kind_id_quick (vs : list (text * text)) (id : list (text * name)) : enum_variants p n (map (fun v => (fst v, Some (TyName (snd v)))) vs) ->
  (forall a, In a (map snd vs) -> a <> !"Self" /\ has_fn 5 a !"to_str" ByRef) ->
  quick 8 n (public !"id" ByRef [] (Some (TyPair static_str static_str)) [] (Some (EMatch var"self" (map (fun a => (PTuple n (fst a) !"v", EPair (EText (snd a)) (call0 var"v" "to_str"))) id)))).
Proof.
  intros EV H k self args ST. apply enter_value; [reflexivity|]. cbn [f_value public]. eapply sm_match; [eapply (sm_self _ _ self args _ []); [|exact ST| |]; reflexivity|]. intros v q G' e' V J Bq. cbv beta in V.
  apply in_map_iff in J as ((c & s) & E & J). cbn [fst snd] in E. apply pair_equal_spec in E as [<- <-]. apply (in_enum p POK v n _ EV) in V as [(c' & -> & _)|(c' & t & x & -> & IV & X)]; cbn [bound] in Bq; [discriminate Bq|].
  destruct (_ && _) in Bq; [|discriminate Bq]. injection Bq as <-. apply in_map_iff in IV as ((c'' & a) & E & IV). cbn [fst snd] in E. apply pair_equal_spec in E as [-> E]. apply Some_inj in E. subst t.
  destruct (H a) as (NS & HF); [apply in_map_iff; exists (c', a); split; [reflexivity|exact IV]|]. cbn [of_ty] in X. rewrite named_other in X by exact NS.
  eapply sm_pair; [apply sm_leaf; exact Logic.I|]. apply (sm_own p POK iter r told o o' 5 k) with (a := a); [exact HF| |apply sl_nil]. eapply sm_var; [reflexivity|apply hget_here; reflexivity|exact X].
Qed.
End Function.
End Program.
