(** Proof of C67: the types of the functions that belong to methods. *)
From Coq Require Import String.
From Verif Require Import Base StringCompactionModel StringCompactionProofs TextModel DocModel JsonModel JsonSpec IntfModel GenModel GenSpec CodeSpec ApiModel TypeSpec.

Local Notation text := (list Z).
Local Notation "! s" := (txt s%string) (at level 0, s at level 0).
Local Notation "'var' s" := (EVar (txt s%string)) (at level 0, s at level 0).
Local Notation self_ptr := (EField (EVar (txt "self")) (txt "ptr")).

Lemma eqb_refl (x : text) : eqb_bytes x x = true.
Proof. apply eqb_bytes_eq. reflexivity. Qed.
Lemma eqb_other (x y : text) : x <> y -> eqb_bytes x y = false.
Proof. intros H. destruct (eqb_bytes x y) eqn:E; [|reflexivity]. apply eqb_bytes_eq in E. contradiction. Qed.
Lemma var_here x a G : var_of x ((x, a) :: G) = Some a.
Proof. cbn [var_of]. rewrite eqb_refl. reflexivity. Qed.
Lemma var_there x y a G : y <> x -> var_of x ((y, a) :: G) = var_of x G.
Proof. intros H. cbn [var_of]. rewrite eqb_other by exact H. reflexivity. Qed.
Lemma named_other n a : a <> !"Self" -> named n a = a.
Proof. intros H. unfold named. rewrite eqb_other by exact H. reflexivity. Qed.

Definition ptr_of (at_ : place) : text := match at_ with AtRoot => !"RootObjectPtr" | AtMItem => !"MItemPtr" | AtCItem => !"CItemPtr" end.
Definition str_ref : rt := RRef (RName !"str").
Definition opt (t : rt) : rt := RApp !"Option" t.
Definition qv_of (t : rt) : rt := RApp !"Qv" t.
Definition marked_rt (vt : var_type) (t : rt) : rt :=
  match vt with Normal => t | Nullable => RApp !"NullOr" t | Undefiable => RApp !"UndefOr" t | UndefNullable => RApp !"Qv" t end.
Lemma of_marked n vt t : of_ty n (marked vt t) = marked_rt vt (of_ty n t).
Proof. destruct vt; reflexivity. Qed.
(** one parameter *)
Definition only (t : rt) : text -> rt := fun _ => t.
Definition two (x : text) (a b : rt) : text -> rt := fun y => if eqb_bytes y x then a else b.

Section Program.
Variable p : list item.

Lemma core_copy n s : In (n, s) core_types -> In "Copy"%string s -> implements p !"Copy" (RName (txt n)).
Proof. intros A B. exact (i_core p !"Copy" n s "Copy" A B eq_refl). Qed.
Lemma ptr_copy at_ : implements p !"Copy" (RName (ptr_of at_)).
Proof.
  destruct at_; [apply (core_copy "RootObjectPtr" ["Debug"; "PartialEq"; "Clone"; "Copy"]%string)|apply (core_copy "MItemPtr" ["Debug"; "PartialEq"; "Clone"; "Copy"]%string)|
    apply (core_copy "CItemPtr" ["Debug"; "PartialEq"; "Clone"; "Copy"]%string)]; cbn [core_types In]; tauto.
Qed.
Lemma table_ptr_copy : implements p !"Copy" (RName !"TablePtr").
Proof. apply (core_copy "TablePtr" ["Debug"; "PartialEq"; "Clone"; "Copy"]%string); cbn [core_types In]; tauto. Qed.

(* ------------------------------------------------------------------ *)
(** * Expressions *)

Section Function.
Variable n : text.

Lemma has_eq G u e t t' : has p n G u e t -> t = t' -> has p n G u e t'.
Proof. intros H <-. exact H. Qed.
Lemma has_var G u x t m : var_of x G = Some (t, m) -> eqb_bytes x !"None" = false -> has p n G u (EVar x) t.
Proof. intros H N. eapply h_move. apply pl_var; [exact H|exact N]. Qed.
Lemma given_one G u e t : has p n G u e t -> given p n G u [e] [t].
Proof. intros H. eapply gv_cons; [exact H|apply fits_same|apply gv_nil]. Qed.
Lemma given_two G u a b ta tb : has p n G u a ta -> has p n G u b tb -> given p n G u [a; b] [ta; tb].
Proof. intros A B. eapply gv_cons; [exact A|apply fits_same|]. apply given_one. exact B. Qed.
Lemma given_three G u a b c ta tb tc : has p n G u a ta -> has p n G u b tb -> has p n G u c tc -> given p n G u [a; b; c] [ta; tb; tc].
Proof. intros A B C. eapply gv_cons; [exact A|apply fits_same|]. apply given_two; assumption. Qed.

Lemma no_bounds s vs : forallb (fun v => match snd v with None => true | Some _ => false end) vs = true -> bounds p s vs.
Proof. intros H x t I. rewrite forallb_forall in H. apply H in I. discriminate I. Qed.
Lemma call_module G u m f args vs ats ret s t : module_fn m f = Some (Sig vs NoSelf ats ret) -> bounds p s vs ->
  given p n G u args (map (subst s) ats) -> subst s ret = t -> has p n G u (path m f args) t.
Proof. intros M B A <-. exact (h_module p n G u m f args (Sig vs NoSelf ats ret) s M eq_refl B A). Qed.
Lemma call_type G u a f args self_ vs ats ret s t : type_fn a f = Some (self_, Sig vs NoSelf ats ret) -> bounds p s vs ->
  given p n G u args (map (subst s) ats) -> subst s ret = t -> has p n G u (path a f args) t.
Proof. intros M B A <-. exact (h_assoc p n G u a f args self_ (Sig vs NoSelf ats ret) s M eq_refl B A). Qed.
Lemma call_method G u e f args a self_ vs r ats ret s t : type_fn a f = Some (self_, Sig vs r ats ret) -> bounds p s vs ->
  receives p n G u r e (subst s self_) -> given p n G u args (map (subst s) ats) -> subst s ret = t -> has p n G u (EMethod e f args) t.
Proof. intros M B R A <-. exact (h_method p n G u e f args a self_ (Sig vs r ats ret) s M B R A). Qed.

(** [Option::unwrap] *)
Lemma has_unwrap G u e t : has p n G u e (opt t) -> has p n G u (EMethod e !"unwrap" []) t.
Proof.
  intros H. eapply (call_method G u e !"unwrap" [] !"Option" (opt (RVar !"T")) [(!"T", None)] ByValue [] (RVar !"T") (only t));
    [vm_compute; reflexivity|apply no_bounds; reflexivity| |apply gv_nil|reflexivity].
  apply rc_value. exact H.
Qed.

(** a method that takes a value without arguments *)
Lemma has_into_value G u e t : has p n G u e (qv_of t) -> has p n G u (EMethod e !"into_value" []) (opt t).
Proof.
  intros H. eapply (call_method G u e !"into_value" [] !"Qv" (qv_of (RVar !"T")) [(!"T", None)] ByValue [] (opt (RVar !"T")) (only t));
    [vm_compute; reflexivity|apply no_bounds; reflexivity| |apply gv_nil|reflexivity].
  apply rc_value. exact H.
Qed.
Lemma has_into_qv G u e vt t : vt <> Normal -> has p n G u e (marked_rt vt t) -> has p n G u (EMethod e !"into_qv" []) (qv_of t).
Proof.
  intros V H. destruct vt; [contradiction| | |].
  all: [> eapply (call_method G u e !"into_qv" [] !"NullOr" (RApp !"NullOr" (RVar !"T")) [(!"T", None)] ByValue [] (qv_of (RVar !"T")) (only t))
       | eapply (call_method G u e !"into_qv" [] !"UndefOr" (RApp !"UndefOr" (RVar !"T")) [(!"T", None)] ByValue [] (qv_of (RVar !"T")) (only t))
       | eapply (call_method G u e !"into_qv" [] !"Qv" (RApp !"Qv" (RVar !"T")) [(!"T", None)] ByValue [] (qv_of (RVar !"T")) (only t)) ].
  all: first [vm_compute; reflexivity|apply no_bounds; reflexivity|apply gv_nil|reflexivity|apply rc_value; exact H].
Qed.
Lemma has_from_qv G u e vt t : vt = Nullable \/ vt = Undefiable -> has p n G u e (qv_of t) ->
  has p n G u (ECall (EPath (match vt with Nullable => !"NullOr" | _ => !"UndefOr" end) !"from_qv") [e]) (opt (marked_rt vt t)).
Proof.
  intros V H. destruct V as [-> | ->].
  - eapply (call_type G u !"NullOr" !"from_qv" [e] _ [(!"T", None)] [qv_of (RVar !"T")] (opt (RApp !"NullOr" (RVar !"T"))) (only t));
      [vm_compute; reflexivity|apply no_bounds; reflexivity| |reflexivity]. apply given_one. exact H.
  - eapply (call_type G u !"UndefOr" !"from_qv" [e] _ [(!"T", None)] [qv_of (RVar !"T")] (opt (RApp !"UndefOr" (RVar !"T"))) (only t));
      [vm_compute; reflexivity|apply no_bounds; reflexivity| |reflexivity]. apply given_one. exact H.
Qed.
Lemma has_unmark G u vt t m : var_of !"qv" G = Some (qv_of t, m) -> has p n G u (unmark vt) (marked_rt vt t).
Proof.
  intros V. pose proof (has_var G u !"qv" _ _ V eq_refl) as H. destruct vt; cbn [unmark marked_rt].
  - apply has_unwrap, has_into_value. exact H.
  - apply has_unwrap. exact (has_from_qv G u _ Nullable t (or_introl eq_refl) H).
  - apply has_unwrap. exact (has_from_qv G u _ Undefiable t (or_intror eq_refl) H).
  - exact H.
Qed.
Lemma has_qv G u e t : has p n G u e t -> has p n G u (ECall (EPath !"Qv" !"Val") [e]) (qv_of t).
Proof. intros H. apply (h_qv p n G u "Val" e t); [left; reflexivity|]. apply given_one. exact H. Qed.
Lemma has_mark G u vt x t m : var_of x G = Some (marked_rt vt t, m) -> eqb_bytes x !"None" = false -> has p n G u (mark vt x) (qv_of t).
Proof.
  intros V N. pose proof (has_var G u x _ _ V N) as H. destruct vt; cbn [mark].
  - apply has_qv. exact H.
  - exact (has_into_qv G u _ Nullable t ltac:(discriminate) H).
  - exact (has_into_qv G u _ Undefiable t ltac:(discriminate) H).
  - exact (has_into_qv G u _ UndefNullable t ltac:(discriminate) H).
Qed.
(** [map] of the three, and of [Option] *)
Lemma has_map G u e vt f a b : vt <> Normal -> has p n G u e (marked_rt vt a) -> has p n G u f (RFun a b) -> has p n G u (EMethod e !"map" [f]) (marked_rt vt b).
Proof.
  intros V H F. destruct vt; [contradiction| | |].
  all: [> eapply (call_method G u e !"map" [f] !"NullOr" (RApp !"NullOr" (RVar !"T")) [(!"T", None); (!"U", None)] ByValue [RFun (RVar !"T") (RVar !"U")] (RApp !"NullOr" (RVar !"U")) (two !"T" a b))
       | eapply (call_method G u e !"map" [f] !"UndefOr" (RApp !"UndefOr" (RVar !"T")) [(!"T", None); (!"U", None)] ByValue [RFun (RVar !"T") (RVar !"U")] (RApp !"UndefOr" (RVar !"U")) (two !"T" a b))
       | eapply (call_method G u e !"map" [f] !"Qv" (RApp !"Qv" (RVar !"T")) [(!"T", None); (!"U", None)] ByValue [RFun (RVar !"T") (RVar !"U")] (RApp !"Qv" (RVar !"U")) (two !"T" a b)) ].
  all: first [vm_compute; reflexivity|apply no_bounds; reflexivity|apply given_one; exact F|apply rc_value; exact H].
Qed.
Lemma has_opt_map G u e f a b : has p n G u e (opt a) -> has p n G u f (RFun a b) -> has p n G u (EMethod e !"map" [f]) (opt b).
Proof.
  intros H F.
  eapply (call_method G u e !"map" [f] !"Option" (RApp !"Option" (RVar !"T")) [(!"T", None); (!"U", None)] ByValue [RFun (RVar !"T") (RVar !"U")] (RApp !"Option" (RVar !"U")) (two !"T" a b)).
  all: first [vm_compute; reflexivity|apply no_bounds; reflexivity|apply given_one; exact F|apply rc_value; exact H].
Qed.

(* ------------------------------------------------------------------ *)
(** * The pointer *)

(** [self] of a function that borrows it *)
Definition borrows (r : receiver) : Prop := r = ByRef \/ r = ByMut.
Definition self_ty (r : receiver) : rt := match r with ByMut => RMut (RName n) | ByRef => RRef (RName n) | _ => RName n end.

Lemma self_place G r x t fields m : borrows r -> var_of !"self" G = Some (self_ty r, m) -> struct_fields p n fields -> In (x, t) fields ->
  exists o k, located p G (EField var"self" x) (of_ty n t) o k.
Proof.
  intros [-> | ->] V F I; cbn [self_ty] in V; (eexists; eexists).
  - eapply pl_field_ref; [apply pl_var; [exact V|reflexivity]|exact F|exact I].
  - eapply pl_field_mut; [apply pl_var; [exact V|reflexivity]|exact F|exact I].
Qed.
(** the struct has a pointer to [P] *)
Definition points (P : text) : Prop := exists fields, struct_fields p n fields /\ In (!"ptr", TyName P) fields.
Lemma has_ptr G u r m P : points P -> P <> !"Self" -> implements p !"Copy" (RName P) -> borrows r -> var_of !"self" G = Some (self_ty r, m) -> has p n G u self_ptr (RName P).
Proof.
  intros (fields & F & I) N C B V. destruct (self_place G r !"ptr" (TyName P) fields m B V F I) as (o & k & H).
  cbn [of_ty] in H. rewrite (named_other n P N) in H. eapply h_copy; [exact H|exact C].
Qed.
Lemma ptr_not_self at_ : ptr_of at_ <> !"Self".
Proof. destruct at_; discriminate. Qed.

Lemma has_asked G u r m at_ f key vs ret s t : points (ptr_of at_) -> borrows r -> var_of !"self" G = Some (self_ty r, m) ->
  module_fn (module at_) f = Some (Sig vs NoSelf [RName (ptr_of at_); str_ref] ret) -> bounds p s vs -> subst s ret = t -> has p n G u (asked at_ f key) t.
Proof.
  intros P B V M Bd E. eapply (call_module G u (module at_) f); [exact M|exact Bd| |exact E]. cbn [map subst]. apply given_two.
  - exact (has_ptr G u r m _ P (ptr_not_self at_) (ptr_copy at_) B V).
  - apply h_text.
Qed.

Lemma self_in r args : ~ In !"self" (map fst args) -> borrows r ->
  var_of !"self" (map (fun a : text * ty => (fst a, (of_ty n (snd a), false))) args ++ self_of n r) = Some (self_ty r, false).
Proof.
  intros N B. induction args as [|[x t] l IH].
  - destruct B as [-> | ->]; reflexivity.
  - cbn [map fst snd app var_of]. rewrite eqb_other; [|intros E; apply N; left; exact E]. apply IH. intros I. apply N. right. exact I.
Qed.

(** a function with arguments that borrows [self] *)
Lemma fn_of_body nm us r args ret lets value :
  NoDup (map fst args) -> ~ In !"self" (map fst args) -> Forall (fun a => type_ok p (of_ty n (snd a))) args ->
  match ret with Some t => type_ok p (of_ty n t) | None => True end ->
  (exists G, stmts_ok p n us (map (fun a => (fst a, (of_ty n (snd a), false))) args ++ self_of n r) lets G /\
    match ret, value with Some t, Some e => given p n G us [e] [of_ty n t] | None, None => True | _, _ => False end) ->
  forall pub_, fn_ok p n (Fn pub_ us nm r args ret lets value).
Proof. intros A B C D E pub_. constructor; cbn; auto. Qed.

Lemma core_ok m l : In (m, l) core_types -> type_ok p (RName (txt m)).
Proof. apply ok_core. Qed.
Lemma param_ok t : type_ok p (of_ty n (param_ty t)).
Proof.
  destruct t; cbn [param_ty of_ty]; rewrite named_other by discriminate;
    try (apply (ok_app p "Vec"); [cbn [core_generics In]; tauto|]); (eapply core_ok; cbn [core_types In]; tauto).
Qed.
Lemma marked_ok vt t : type_ok p t -> type_ok p (marked_rt vt t).
Proof.
  intros H. destruct vt; cbn [marked_rt]; [exact H| | |];
    [apply (ok_app p "NullOr")|apply (ok_app p "UndefOr")|apply (ok_app p "Qv")]; try exact H; cbn [core_generics In]; tauto.
Qed.

(* ------------------------------------------------------------------ *)
(** * Parameters *)

Lemma getter_ok nm r at_ f vt key t : points (ptr_of at_) -> borrows r ->
  module_fn (module at_) f = Some (Sig [] NoSelf [RName (ptr_of at_); str_ref] (opt (qv_of (of_ty n t)))) ->
  (forall s, subst s (of_ty n t) = of_ty n t) -> type_ok p (of_ty n t) ->
  fn_ok p n (getter nm r at_ f vt key t).
Proof.
  intros P B M Cl T. unfold getter, public. apply fn_of_body; [constructor|intros []|constructor|rewrite of_marked; apply marked_ok; exact T|].
  eexists. split.
  - eapply st_let; [|apply st_nil]. apply has_unwrap.
    eapply (has_asked _ _ r false at_ f key [] _ (only (RName [])) (opt (qv_of (of_ty n t)))); [exact P|exact B|apply self_in; [intros []|exact B]|exact M|intros x y []|].
    cbn [opt qv_of subst]. unfold opt, qv_of. rewrite Cl. reflexivity.
  - rewrite of_marked. apply given_one. eapply has_unmark. apply var_here.
Qed.

Lemma param_closed t s : subst s (of_ty n (param_ty t)) = of_ty n (param_ty t).
Proof. destruct t; reflexivity. Qed.
Lemma param_ref_ok t : type_ok p (of_ty n (TyRef (param_ty t))).
Proof. apply ok_ref, param_ok. Qed.


Lemma read_ok nm at_ t vt key : by_reference t = false -> points (ptr_of at_) -> fn_ok p n (getter nm ByRef at_ (!"get_" ++ nick t) vt key (param_ty t)).
Proof.
  intros R P. apply getter_ok; [exact P|left; reflexivity| |apply param_closed|apply param_ok].
  destruct at_, t; try discriminate R; vm_compute; reflexivity.
Qed.
Lemma read_ref_ok nm at_ t vt key : by_reference t = true -> points (ptr_of at_) -> fn_ok p n (getter nm ByRef at_ (!"get_immutable_" ++ nick t) vt key (TyRef (param_ty t))).
Proof.
  intros R P. apply getter_ok; [exact P|left; reflexivity| |intros s; cbn [of_ty subst]; f_equal; apply param_closed|apply param_ref_ok].
  destruct at_, t; try discriminate R; vm_compute; reflexivity.
Qed.
Lemma default_ok nm at_ t vt key : by_reference t = false -> points (ptr_of at_) -> fn_ok p n (getter nm ByRef at_ (!"get_" ++ nick t ++ !"_def") vt key (param_ty t)).
Proof.
  intros R P. apply getter_ok; [exact P|left; reflexivity| |apply param_closed|apply param_ok].
  destruct at_, t; try discriminate R; vm_compute; reflexivity.
Qed.
Lemma default_ref_ok nm at_ t vt key : by_reference t = true -> points (ptr_of at_) -> fn_ok p n (getter nm ByRef at_ (!"get_" ++ nick t ++ !"_def") vt key (TyRef (param_ty t))).
Proof.
  intros R P. apply getter_ok; [exact P|left; reflexivity| |intros s; cbn [of_ty subst]; f_equal; apply param_closed|apply param_ref_ok].
  destruct at_, t; try discriminate R; vm_compute; reflexivity.
Qed.
Lemma write_ok nm at_ t vt key : at_ <> AtCItem -> by_reference t = true -> points (ptr_of at_) -> fn_ok p n (getter nm ByMut at_ (!"get_mutable_" ++ nick t) vt key (TyMut (param_ty t))).
Proof.
  intros A R P. apply getter_ok; [exact P|right; reflexivity| |intros s; cbn [of_ty subst]; f_equal; apply param_closed|apply ok_mut, param_ok].
  destruct at_, t; try discriminate R; try contradiction; vm_compute; reflexivity.
Qed.
Lemma ref_id_ok nm at_ vt key : at_ <> AtRoot -> points (ptr_of at_) -> fn_ok p n (getter nm ByRef at_ !"get_ref_id" vt key (TyRef (TyName !"String"))).
Proof.
  intros A P. apply getter_ok; [exact P|left; reflexivity| |intros s; reflexivity|].
  - destruct at_; try contradiction; vm_compute; reflexivity.
  - cbn [of_ty]. rewrite named_other by discriminate. apply ok_ref. eapply core_ok. cbn [core_types In]. tauto.
Qed.
Lemma set_ok nm x at_ t vt key : at_ <> AtCItem -> x <> !"self" -> x <> !"None" -> points (ptr_of at_) ->
  fn_ok p n (public nm ByMut [(x, marked vt (param_ty t))] None [SExpr (path (module at_) (!"set_" ++ nick t) [self_ptr; EText key; mark vt x])] None).
Proof.
  intros A X XN P. apply fn_of_body; [repeat constructor; intros []|intros [E|[]]; exact (X E)| |exact Logic.I|].
  - constructor; [|constructor]. cbn [snd]. rewrite of_marked. apply marked_ok, param_ok.
  - eexists. split; [|exact Logic.I]. eapply (st_expr p n false _ _ (RName !"bool")); [|apply st_nil].
    eapply (call_module _ _ (module at_) (!"set_" ++ nick t) _ [] [RName (ptr_of at_); str_ref; qv_of (of_ty n (param_ty t))] (RName !"bool") (only (RName [])));
      [|intros y z []| |reflexivity].
    + destruct at_, t; try contradiction; vm_compute; reflexivity.
    + cbn [map subst]. rewrite ?param_closed. cbn [qv_of subst]. unfold qv_of. cbn [subst]. rewrite param_closed. apply given_three.
      * eapply (has_ptr _ _ ByMut false); [exact P|apply ptr_not_self|apply ptr_copy|right; reflexivity|]. apply (self_in ByMut [(x, marked vt (param_ty t))]); [intros [E|[]]; exact (X E)|right; reflexivity].
      * apply h_text.
      * eapply has_mark; [cbn [map fst snd app]; rewrite var_here; rewrite of_marked; reflexivity|]. destruct (eqb_bytes x !"None") eqn:E; [apply eqb_bytes_eq in E; contradiction|reflexivity].
Qed.
End Function.
End Program.
