(** Proof of C67: lists, references, enums and rows. *)
From Coq Require Import String.
From Verif Require Import Base StringCompactionModel StringCompactionProofs TextModel DocModel JsonModel JsonSpec IntfModel GenModel GenSpec CodeSpec ApiModel TypeSpec TypeProofs.

Local Notation text := (list Z).
Local Notation "! s" := (txt s%string) (at level 0, s at level 0).
Local Notation "'var' s" := (EVar (txt s%string)) (at level 0, s at level 0).
Local Notation self_ptr := (EField (EVar (txt "self")) (txt "ptr")).
Local Notation unwrap e := (EMethod e (txt "unwrap") []).

Section Program.
Variable p : list item.

(** a function one can call *)
Definition offers (a nm : text) (r : receiver) (us : bool) (args : list rt) (ret : rt) : Prop :=
  exists f, fn_of p a f /\ f_name f = nm /\ f_self f = r /\ f_unsafe f = us /\ map (fun x => of_ty a (snd x)) (f_args f) = args /\
    exists t, f_ret f = Some t /\ of_ty a t = ret.

Definition row_of (a : text) : Prop := made_from p a (RName !"CItemPtr") /\ forall f, fn_of p a f -> f_name f <> !"from".

Section Function.
Variable n : text.

Lemma call_offer G u a nm args us ats ret : a <> !"Self" -> offers a nm NoSelf us ats ret -> (us = true -> u = true) -> given p n G u args ats -> has p n G u (path a nm args) ret.
Proof.
  intros S (f & F & <- & Sf & <- & <- & t & R & <-) U A. unfold path. pose proof (named_other n a S) as N.
  rewrite <- N at 2. eapply h_fn; [rewrite N; exact F|exact Sf|exact U|rewrite N; exact A|exact R].
Qed.
Lemma method_offer G u e a nm r args us ats ret : offers a nm r us ats ret -> (us = true -> u = true) -> receives p n G u r e (RName a) -> given p n G u args ats ->
  has p n G u (EMethod e nm args) ret.
Proof. intros (f & F & <- & <- & <- & <- & t & R & <-) U Rc A. eapply h_own; [exact F|exact U|exact Rc|exact A|exact R]. Qed.
Lemma call_from G u a e : row_of a -> has p n G u e (RName !"CItemPtr") -> has p n G u (path a !"from" [e]) (RName a).
Proof. intros [M F] H. eapply h_from; [exact F|exact M|apply given_one; exact H]. Qed.

(* ------------------------------------------------------------------ *)
(** * Guards *)

Lemma two_here x a b : two x a b x = a.
Proof. unfold two. rewrite eqb_refl. reflexivity. Qed.

Definition const_self (G : ctx) : Prop := exists m, var_of !"self" G = Some (RRef (RName n), m).
Definition mut_self (G : ctx) : Prop := exists m, var_of !"self" G = Some (RMut (RName n), m).

Lemma guard_clist G u e a : const_self G -> made_from p a (RName !"CItemPtr") -> has p n G u e (RApp !"CListPtr" (RName a)) ->
  has p n G u (guarded !"CListConst" e) (RApp !"CListConst" (RName a)).
Proof.
  intros [m V] M H.
  eapply (call_type p n G u !"CListConst" !"new" _ _ [(!"V", Some (RName !"CItemPtr")); (!"T", None)] [RApp !"CListPtr" (RVar !"V"); RRef (RVar !"T")] (RApp !"CListConst" (RVar !"V")) (two !"V" (RName a) (RName n)));
    [vm_compute; reflexivity| | |vm_compute; reflexivity].
  - intros x t [I|[I|[]]]; apply pair_equal_spec in I as [<- I]; [|discriminate I]. apply Some_inj in I as <-. exists a. split; [apply two_here|exact M].
  - change (given p n G u [e; var"self"] [RApp !"CListPtr" (RName a); RRef (RName n)]). apply given_two; [exact H|]. eapply has_var; [exact V|reflexivity].
Qed.
Lemma guard_mlist G u e a : const_self G -> made_from p a (RName !"MItemPtr") -> has p n G u e (RApp !"MListPtr" (RName a)) ->
  has p n G u (guarded !"MListConst" e) (RApp !"MListConst" (RName a)).
Proof.
  intros [m V] M H.
  eapply (call_type p n G u !"MListConst" !"new" _ _ [(!"V", Some (RName !"MItemPtr")); (!"T", None)] [RApp !"MListPtr" (RVar !"V"); RRef (RVar !"T")] (RApp !"MListConst" (RVar !"V")) (two !"V" (RName a) (RName n)));
    [vm_compute; reflexivity| | |vm_compute; reflexivity].
  - intros x t [I|[I|[]]]; apply pair_equal_spec in I as [<- I]; [|discriminate I]. apply Some_inj in I as <-. exists a. split; [apply two_here|exact M].
  - change (given p n G u [e; var"self"] [RApp !"MListPtr" (RName a); RRef (RName n)]). apply given_two; [exact H|]. eapply has_var; [exact V|reflexivity].
Qed.
Lemma guard_mlist_mut G u e a : mut_self G -> made_from p a (RName !"MItemPtr") -> has p n G u e (RApp !"MListPtr" (RName a)) ->
  has p n G u (guarded !"MListMut" e) (RApp !"MListMut" (RName a)).
Proof.
  intros [m V] M H.
  eapply (call_type p n G u !"MListMut" !"new" _ _ [(!"V", Some (RName !"MItemPtr")); (!"T", None)] [RApp !"MListPtr" (RVar !"V"); RMut (RVar !"T")] (RApp !"MListMut" (RVar !"V")) (two !"V" (RName a) (RName n)));
    [vm_compute; reflexivity| | |vm_compute; reflexivity].
  - intros x t [I|[I|[]]]; apply pair_equal_spec in I as [<- I]; [|discriminate I]. apply Some_inj in I as <-. exists a. split; [apply two_here|exact M].
  - change (given p n G u [e; var"self"] [RApp !"MListPtr" (RName a); RMut (RName n)]). apply given_two; [exact H|]. eapply has_var; [exact V|reflexivity].
Qed.
Lemma guard_table G u e a : const_self G -> has p n G u e (RName a) -> has p n G u (guarded !"CTableConst" e) (RApp !"CTableConst" (RName a)).
Proof.
  intros [m V] H.
  eapply (call_type p n G u !"CTableConst" !"new" _ _ [(!"T", None); (!"U", None)] [RVar !"T"; RRef (RVar !"U")] (RApp !"CTableConst" (RVar !"T")) (two !"T" (RName a) (RName n)));
    [vm_compute; reflexivity|apply no_bounds; reflexivity| |vm_compute; reflexivity].
  change (given p n G u [e; var"self"] [RName a; RRef (RName n)]). apply given_two; [exact H|]. eapply has_var; [exact V|reflexivity].
Qed.
Lemma guard_item G u e a : const_self G -> has p n G u e (RName a) -> has p n G u (guarded !"CItemConst" e) (RApp !"CItemConst" (RName a)).
Proof.
  intros [m V] H.
  eapply (call_type p n G u !"CItemConst" !"new" _ _ [(!"V", None); (!"T", None)] [RVar !"V"; RRef (RVar !"T")] (RApp !"CItemConst" (RVar !"V")) (two !"V" (RName a) (RName n)));
    [vm_compute; reflexivity|apply no_bounds; reflexivity| |vm_compute; reflexivity].
  change (given p n G u [e; var"self"] [RName a; RRef (RName n)]). apply given_two; [exact H|]. eapply has_var; [exact V|reflexivity].
Qed.

Lemma bound_one x P a : made_from p a (RName P) -> bounds p (only (RName a)) [(x, Some (RName P))].
Proof. intros M y t [I|[]]. apply pair_equal_spec in I as [<- I]. apply Some_inj in I as <-. exists a. split; [reflexivity|exact M]. Qed.

Lemma declared_ty a : a <> !"Self" -> of_ty n (TyName a) = RName a.
Proof. intros S. cbn [of_ty]. rewrite named_other by exact S. reflexivity. Qed.
Lemma generic_from g s a : In (g, Some s) core_generics -> made_from p a (RName (txt s)) -> type_ok p (RApp (txt g) (RName a)).
Proof. apply ok_app_from. Qed.
Lemma generic_ok g t : In (g, None) core_generics -> type_ok p t -> type_ok p (RApp (txt g) t).
Proof. apply ok_app. Qed.

(** without arguments *)
Lemma fn_plain nm us r ret lets value : borrows r -> match ret with Some t => type_ok p (of_ty n t) | None => True end ->
  (exists G, stmts_ok p n us (self_of n r) lets G /\ match ret, value with Some t, Some e => given p n G us [e] [of_ty n t] | None, None => True | _, _ => False end) ->
  forall pub_, fn_ok p n (Fn pub_ us nm r [] ret lets value).
Proof. intros B T H pub_. apply fn_of_body; [constructor|intros []|constructor|exact T|exact H]. Qed.
Lemma self_const : const_self (self_of n ByRef).
Proof. eexists. reflexivity. Qed.
Lemma self_mut : mut_self (self_of n ByMut).
Proof. eexists. reflexivity. Qed.
Lemma const_more x a G : x <> !"self" -> const_self G -> const_self ((x, a) :: G).
Proof. intros X [m V]. exists m. rewrite var_there by exact X. exact V. Qed.
Lemma mut_more x a G : x <> !"self" -> mut_self G -> mut_self ((x, a) :: G).
Proof. intros X [m V]. exists m. rewrite var_there by exact X. exact V. Qed.

(* ------------------------------------------------------------------ *)
(** * Tables and lists *)

Lemma table_ok nm key a : points p n !"RootObjectPtr" -> a <> !"Self" -> type_ok p (RName a) -> offers a !"new" NoSelf false [RName !"TablePtr"] (RName a) ->
  fn_ok p n (public nm ByRef [] (Some (TyApp !"CTableConst" (TyName a)))
        [SLet false (PVar !"t") (path a !"new" [unwrap (path !"root" !"get_table" [call0 self_ptr "def"; EText key])])]
        (Some (guarded !"CTableConst" var"t"))).
Proof.
  intros P S T O. apply fn_plain; [left; reflexivity| |].
  - cbn [of_ty]. rewrite named_other by exact S. apply (generic_ok "CTableConst"); [cbn [core_generics In]; tauto|exact T].
  - eexists. split.
    + eapply st_let; [|apply st_nil]. eapply call_offer; [exact S|exact O|discriminate|]. apply given_one, has_unwrap.
      eapply (call_module p n _ _ !"root" !"get_table" _ [] [RPtr (RName !"RootDefObj"); str_ref] (opt (RName !"TablePtr")) (only (RName []))); [vm_compute; reflexivity|intros x t []| |reflexivity].
      apply given_two; [|apply h_text]. unfold call0.
      eapply (call_method p n _ _ _ !"def" [] !"RootObjectPtr" (RName !"RootObjectPtr") [] ByRef [] (RPtr (RName !"RootDefObj")) (only (RName []))); [vm_compute; reflexivity|intros x t []| |apply gv_nil|reflexivity].
      destruct P as (fields & F & I). destruct (self_place p n (map (fun a : text * ty => (fst a, (of_ty n (snd a), false))) [] ++ self_of n ByRef) ByRef !"ptr" (TyName !"RootObjectPtr") fields false (or_introl eq_refl) eq_refl F I) as (o & k & H).
      cbn [of_ty] in H. rewrite named_other in H by discriminate. eapply rc_place. exact H.
    + cbn [of_ty]. rewrite named_other by exact S. apply given_one. eapply guard_table; [apply const_more; [discriminate|apply self_const]|]. eapply has_var; [apply var_here|reflexivity].
Qed.

Lemma const_list_ok nm at_ key a : at_ <> AtMItem -> points p n (ptr_of at_) -> a <> !"Self" -> made_from p a (RName !"CItemPtr") ->
  fn_ok p n (public nm ByRef [] (Some (TyApp !"CListConst" (TyName a))) []
        (Some (guarded !"CListConst" (unwrap (asked at_ (match at_ with AtRoot => !"get_clist" | _ => !"get_cil" end) key))))).
Proof.
  intros A P S M. apply fn_plain; [left; reflexivity| |].
  - cbn [of_ty]. rewrite named_other by exact S. apply (generic_from "CListConst" "CItemPtr"); [cbn [core_generics In]; tauto|exact M].
  - eexists. split; [apply st_nil|]. cbn [of_ty]. rewrite named_other by exact S. apply given_one. apply guard_clist; [apply self_const|exact M|]. apply has_unwrap.
    eapply (has_asked p n _ _ ByRef false at_ _ key [(!"T", Some (RName !"CItemPtr"))] (opt (RApp !"CListPtr" (RVar !"T"))) (only (RName a)));
      [exact P|left; reflexivity|reflexivity| |apply bound_one; exact M|reflexivity].
    destruct at_; try contradiction; vm_compute; reflexivity.
Qed.

Lemma mlist_asked G u r m at_ key a : at_ <> AtCItem -> points p n (ptr_of at_) -> borrows r -> var_of !"self" G = Some (self_ty n r, m) -> made_from p a (RName !"MItemPtr") ->
  has p n G u (asked at_ (match at_ with AtRoot => !"get_mlist_const" | _ => !"get_mil_const" end) key) (opt (opt (RApp !"MListPtr" (RName a)))).
Proof.
  intros A P B V M.
  eapply (has_asked p n _ _ r m at_ _ key [(!"T", Some (RName !"MItemPtr"))] (opt (opt (RApp !"MListPtr" (RVar !"T")))) (only (RName a)));
    [exact P|exact B|exact V| |apply bound_one; exact M|reflexivity].
  destruct at_; try contradiction; vm_compute; reflexivity.
Qed.
Lemma mlist_mut_asked G u r m at_ key a : at_ <> AtCItem -> points p n (ptr_of at_) -> borrows r -> var_of !"self" G = Some (self_ty n r, m) -> made_from p a (RName !"MItemPtr") ->
  has p n G u (asked at_ (match at_ with AtRoot => !"get_mlist_mut" | _ => !"get_mil_mut" end) key) (opt (RApp !"MListPtr" (RName a))).
Proof.
  intros A P B V M.
  eapply (has_asked p n _ _ r m at_ _ key [(!"T", Some (RName !"MItemPtr"))] (opt (RApp !"MListPtr" (RVar !"T"))) (only (RName a)));
    [exact P|exact B|exact V| |apply bound_one; exact M|reflexivity].
  destruct at_; try contradiction; vm_compute; reflexivity.
Qed.

Lemma list_maybe_ok nm at_ key a : at_ <> AtCItem -> points p n (ptr_of at_) -> a <> !"Self" -> made_from p a (RName !"MItemPtr") ->
  fn_ok p n (public nm ByRef [] (Some (TyApp !"Option" (TyApp !"MListConst" (TyName a))))
        [SLet false (PVar !"mil") (unwrap (asked at_ (match at_ with AtRoot => !"get_mlist_const" | _ => !"get_mil_const" end) key))]
        (Some (EMethod var"mil" !"map" [EClosure true !"p" (guarded !"MListConst" var"p")]))).
Proof.
  intros A P S M. apply fn_plain; [left; reflexivity| |].
  - cbn [of_ty]. rewrite named_other by exact S. apply (generic_ok "Option"); [cbn [core_generics In]; tauto|]. apply (generic_from "MListConst" "MItemPtr"); [cbn [core_generics In]; tauto|exact M].
  - eexists. split.
    + eapply st_let; [|apply st_nil]. apply has_unwrap. eapply (mlist_asked _ _ ByRef false); [exact A|exact P|left; reflexivity|reflexivity|exact M].
    + cbn [of_ty]. rewrite named_other by exact S. apply given_one. eapply has_opt_map; [eapply has_var; [apply var_here|reflexivity]|]. apply h_closure.
      apply guard_mlist; [|exact M|eapply has_var; [apply var_here|reflexivity]]. apply const_more; [discriminate|]. apply const_more; [discriminate|]. apply self_const.
Qed.
Lemma list_ok nm at_ key a : at_ <> AtCItem -> points p n (ptr_of at_) -> a <> !"Self" -> made_from p a (RName !"MItemPtr") ->
  fn_ok p n (public nm ByRef [] (Some (TyApp !"MListConst" (TyName a)))
        [SLet false (PVar !"mil") (unwrap (unwrap (asked at_ (match at_ with AtRoot => !"get_mlist_const" | _ => !"get_mil_const" end) key)))]
        (Some (guarded !"MListConst" var"mil"))).
Proof.
  intros A P S M. apply fn_plain; [left; reflexivity| |].
  - cbn [of_ty]. rewrite named_other by exact S. apply (generic_from "MListConst" "MItemPtr"); [cbn [core_generics In]; tauto|exact M].
  - eexists. split.
    + eapply st_let; [|apply st_nil]. apply has_unwrap, has_unwrap. eapply (mlist_asked _ _ ByRef false); [exact A|exact P|left; reflexivity|reflexivity|exact M].
    + cbn [of_ty]. rewrite named_other by exact S. apply given_one. apply guard_mlist; [|exact M|eapply has_var; [apply var_here|reflexivity]]. apply const_more; [discriminate|]. apply self_const.
Qed.
Lemma list_mut_ok nm at_ key a x : at_ <> AtCItem -> In x [!"mil"; !"p"] -> points p n (ptr_of at_) -> a <> !"Self" -> made_from p a (RName !"MItemPtr") ->
  fn_ok p n (public nm ByMut [] (Some (TyApp !"MListMut" (TyName a)))
        [SLet false (PVar x) (unwrap (asked at_ (match at_ with AtRoot => !"get_mlist_mut" | _ => !"get_mil_mut" end) key))]
        (Some (guarded !"MListMut" (EVar x)))).
Proof.
  intros A X P S M. apply fn_plain; [right; reflexivity| |].
  - cbn [of_ty]. rewrite named_other by exact S. apply (generic_from "MListMut" "MItemPtr"); [cbn [core_generics In]; tauto|exact M].
  - eexists. split.
    + eapply st_let; [|apply st_nil]. apply has_unwrap. eapply (mlist_mut_asked _ _ ByMut false); [exact A|exact P|right; reflexivity|reflexivity|exact M].
    + cbn [of_ty]. rewrite named_other by exact S. apply given_one. apply guard_mlist_mut; [|exact M|eapply has_var; [apply var_here|destruct X as [<-|[<-|[]]]; reflexivity]].
      apply mut_more; [|apply self_mut]. destruct X as [<-|[<-|[]]]; discriminate.
Qed.

(* ------------------------------------------------------------------ *)
(** * References *)

Lemma ref_asked G u m at_ key : at_ <> AtRoot -> points p n (ptr_of at_) -> var_of !"self" G = Some (RRef (RName n), m) -> has p n G u (asked at_ !"get_ref" key) (opt (qv_of (RName !"CItemPtr"))).
Proof.
  intros A P V.
  eapply (has_asked p n _ _ ByRef m at_ _ key [] (opt (qv_of (RName !"CItemPtr"))) (only (RName []))); [exact P|left; reflexivity|exact V| |intros x t []|reflexivity].
  destruct at_; try contradiction; vm_compute; reflexivity.
Qed.
Lemma ref_ok nm at_ vt key a : at_ <> AtRoot -> points p n (ptr_of at_) -> a <> !"Self" -> type_ok p (RName a) -> row_of a ->
  fn_ok p n (public nm ByRef [] (Some (marked vt (TyName a))) [let_qv (unwrap (asked at_ !"get_ref" key))]
        (Some (match vt with
               | Normal => path a !"from" [unmark vt]
               | _ => EMethod (unmark vt) !"map" [EClosure false !"p" (path a !"from" [var"p"])]
               end))).
Proof.
  intros A P S T R. apply fn_plain; [left; reflexivity| |].
  - rewrite of_marked, declared_ty by exact S. apply marked_ok. exact T.
  - eexists. split.
    + eapply st_let; [|apply st_nil]. apply has_unwrap. eapply ref_asked; [exact A|exact P|reflexivity].
    + rewrite of_marked, declared_ty by exact S. apply given_one.
      assert (U : forall vt, has p n ((!"qv", (qv_of (RName !"CItemPtr"), false)) :: self_of n ByRef) false (unmark vt) (marked_rt vt (RName !"CItemPtr")))
        by (intros v; eapply has_unmark; apply var_here).
      assert (F : has p n ((!"qv", (qv_of (RName !"CItemPtr"), false)) :: self_of n ByRef) false (EClosure false !"p" (path a !"from" [var"p"])) (RFun (RName !"CItemPtr") (RName a)))
        by (apply h_closure, call_from; [exact R|eapply has_var; [apply var_here|reflexivity]]).
      destruct vt.
      * apply call_from; [exact R|exact (U Normal)].
      * eapply has_map; [discriminate|exact (U Nullable)|exact F].
      * eapply has_map; [discriminate|exact (U Undefiable)|exact F].
      * eapply has_map; [discriminate|exact (U UndefNullable)|exact F].
Qed.

(** [e.to_str().to_string()] *)
Lemma has_to_string G u e a : offers a !"to_str" ByRef false [] str_ref -> (exists o m, located p G e (RName a) o m) -> has p n G u (call0 (call0 e "to_str") "to_string") (RName !"String").
Proof.
  intros O (o & m & L). unfold call0.
  eapply (call_method p n _ _ _ !"to_string" [] !"str" (RName !"str") [] ByRef [] (RName !"String") (only (RName []))); [vm_compute; reflexivity|intros x t []| |apply gv_nil|reflexivity].
  apply rc_ref. eapply method_offer; [exact O|discriminate|eapply rc_place; exact L|apply gv_nil].
Qed.
Lemma set_ref_ok nm vt key a : points p n !"MItemPtr" -> a <> !"Self" -> type_ok p (RName a) -> offers a !"to_str" ByRef false [] str_ref ->
  fn_ok p n (public nm ByMut [(!"id", marked vt (TyName a))] None
        [SExpr (path !"mitem" !"set_ref" [self_ptr; EText key;
           match vt with
           | Normal => path !"Qv" !"Val" [call0 (call0 var"id" "to_str") "to_string"]
           | _ => EMethod (call0 var"id" "into_qv") !"map" [EClosure false !"v" (call0 (call0 var"v" "to_str") "to_string")]
           end])] None).
Proof.
  intros P S T O. apply fn_of_body; [repeat constructor; intros []|intros [E|[]]; discriminate E| |exact Logic.I|].
  - constructor; [|constructor]. cbn [snd]. rewrite of_marked, declared_ty by exact S. apply marked_ok. exact T.
  - cbn [map fst snd]. rewrite of_marked, declared_ty by exact S. eexists. split; [|exact Logic.I]. eapply (st_expr p n false _ _ (RName !"bool")); [|apply st_nil].
    eapply (call_module p n _ _ !"mitem" !"set_ref" _ [] [RName !"MItemPtr"; str_ref; qv_of (RName !"String")] (RName !"bool") (only (RName []))); [vm_compute; reflexivity|intros y z []| |reflexivity].
    apply given_three.
    + eapply (has_ptr p n _ _ ByMut false _ P); [discriminate|exact (ptr_copy p AtMItem)|right; reflexivity|reflexivity].
    + apply h_text.
    + assert (F : forall G u, has p n G u (EClosure false !"v" (call0 (call0 var"v" "to_str") "to_string")) (RFun (RName a) (RName !"String"))).
      { intros G u. apply h_closure. apply (has_to_string _ _ _ a O). eexists. eexists. apply pl_var; [apply var_here|reflexivity]. }
      assert (V : forall vt, vt <> Normal -> has p n ([(!"id", (marked_rt vt (RName a), false))] ++ self_of n ByMut) false (call0 var"id" "into_qv") (qv_of (RName a))).
      { intros v N. eapply has_into_qv; [exact N|]. eapply has_var; [apply var_here|reflexivity]. }
      destruct vt.
      * apply has_qv. apply (has_to_string _ _ _ a O). eexists. eexists. apply pl_var; [apply var_here|reflexivity].
      * refine (has_map p n _ _ _ UndefNullable _ (RName a) _ _ (V Nullable _) (F _ _)); discriminate.
      * refine (has_map p n _ _ _ UndefNullable _ (RName a) _ _ (V Undefiable _) (F _ _)); discriminate.
      * refine (has_map p n _ _ _ UndefNullable _ (RName a) _ _ (V UndefNullable _) (F _ _)); discriminate.
Qed.

(* ------------------------------------------------------------------ *)
(** * Enums *)

Definition pair_of_strings : rt := RPair (RName !"String") (RName !"String").
Lemma string_ok : type_ok p (RName !"String").
Proof. eapply core_ok. cbn [core_types In]. tauto. Qed.

Lemma enum_asked G u m at_ : at_ <> AtRoot -> points p n (ptr_of at_) -> var_of !"self" G = Some (RRef (RName n), m) -> has p n G u (unwrap (path (module at_) !"get_enum" [self_ptr])) pair_of_strings.
Proof.
  intros A P V. apply has_unwrap.
  eapply (call_module p n _ _ (module at_) !"get_enum" _ [] [RName (ptr_of at_)] (opt pair_of_strings) (only (RName []))); [|intros x t []| |reflexivity].
  - destruct at_; try contradiction; vm_compute; reflexivity.
  - apply given_one. eapply (has_ptr p n _ _ ByRef m _ P); [apply ptr_not_self|apply ptr_copy|left; reflexivity|exact V].
Qed.
Lemma enum_ids_ok nm at_ : at_ <> AtRoot -> points p n (ptr_of at_) ->
  fn_ok p n (public nm ByRef [] (Some (TyPair (TyName !"String") (TyName !"String"))) [] (Some (unwrap (path (module at_) !"get_enum" [self_ptr])))).
Proof.
  intros A P. apply fn_plain; [left; reflexivity| |].
  - cbn [of_ty]. rewrite named_other by discriminate. apply ok_pair; apply string_ok.
  - eexists. split; [apply st_nil|]. apply given_one. cbn [of_ty]. rewrite named_other by discriminate. eapply enum_asked; [exact A|exact P|reflexivity].
Qed.
Lemma enum_ok nm at_ a : at_ <> AtRoot -> points p n (ptr_of at_) -> a <> !"Self" -> type_ok p (RName a) -> offers a !"new" NoSelf false [str_ref; RName !"CItemPtr"] (RName a) ->
  fn_ok p n (public nm ByRef [] (Some (TyName a))
        [SLet false (PPair (PVar !"list_name") PAny) (unwrap (path (module at_) !"get_enum" [self_ptr]));
         SLet false (PVar !"p")
           (EIfLet (PTuple !"Qv" !"Val" !"p") (unwrap (path (module at_) !"get_ref" [self_ptr; ERef var"list_name"]))
              var"p" (EMacro !"unreachable" []))]
        (Some (path a !"new" [ERef var"list_name"; var"p"]))).
Proof.
  intros A P S T O. apply fn_plain; [left; reflexivity|rewrite declared_ty by exact S; exact T|].
  set (G := [(!"list_name", (RName !"String", false))] ++ self_of n ByRef).
  assert (L : forall G, var_of !"list_name" G = Some (RName !"String", false) -> has p n G false (ERef var"list_name") (RRef (RName !"String")))
    by (intros G' V; eapply h_ref; apply pl_var; [exact V|reflexivity]).
  exists ((!"p", (RName !"CItemPtr", false)) :: G). split.
  - eapply st_let_pat; [reflexivity|eapply enum_asked; [exact A|exact P|reflexivity]|apply b_pair; [apply b_var|apply b_any]|].
    eapply st_let; [|apply st_nil]. eapply (h_if_let p n _ _ _ _ (qv_of (RName !"CItemPtr"))).
    + apply has_unwrap.
      eapply (call_module p n _ _ (module at_) !"get_ref" _ [] [RName (ptr_of at_); str_ref] (opt (qv_of (RName !"CItemPtr"))) (only (RName []))); [|intros x t []| |reflexivity].
      * destruct at_; try contradiction; vm_compute; reflexivity.
      * eapply gv_cons; [eapply (has_ptr p n _ _ ByRef false _ P); [apply ptr_not_self|apply ptr_copy|left; reflexivity|reflexivity]|apply fits_same|].
        eapply gv_cons; [apply L; reflexivity|apply fits_str|apply gv_nil].
    + apply (b_qv p n "Val"). left. reflexivity.
    + eapply has_var; [apply var_here|reflexivity].
    + apply h_unreachable.
  - rewrite declared_ty by exact S. apply given_one. eapply call_offer; [exact S|exact O|discriminate|].
    eapply gv_cons; [apply L; reflexivity|apply fits_str|]. apply given_one. eapply has_var; [apply var_here|reflexivity].
Qed.
Lemma set_enum_ok nm a : points p n !"MItemPtr" -> a <> !"Self" -> type_ok p (RName a) -> offers a !"id" ByRef false [] (RPair str_ref str_ref) ->
  fn_ok p n (public nm ByMut [(!"kind", TyName a)] None
        [SLet false (PPair (PVar !"list_name") (PVar !"id")) (call0 var"kind" "id");
         SExpr (path !"mitem" !"set_enum" [self_ptr; var"list_name"; var"id"])] None).
Proof.
  intros P S T O. apply fn_of_body; [repeat constructor; intros []|intros [E|[]]; discriminate E| |exact Logic.I|].
  - constructor; [|constructor]. cbn [snd]. rewrite declared_ty by exact S. exact T.
  - cbn [map fst snd]. rewrite declared_ty by exact S. eexists. split; [|exact Logic.I].
    eapply st_let_pat; [reflexivity| |apply b_pair; apply b_var|].
    + eapply method_offer; [exact O|discriminate|eapply rc_place; apply pl_var; reflexivity|apply gv_nil].
    + eapply (st_expr p n false _ _ (RName !"bool")); [|apply st_nil].
      eapply (call_module p n _ _ !"mitem" !"set_enum" _ [] [RName !"MItemPtr"; str_ref; str_ref] (RName !"bool") (only (RName []))); [vm_compute; reflexivity|intros y z []| |reflexivity].
      apply given_three; [|eapply has_var; reflexivity|eapply has_var; reflexivity].
      eapply (has_ptr p n _ _ ByMut false _ P); [discriminate|exact (ptr_copy p AtMItem)|right; reflexivity|reflexivity].
Qed.

(* ------------------------------------------------------------------ *)
(** * Rows *)

Lemma row_asked G u m key : points p n !"TablePtr" -> var_of !"self" G = Some (RRef (RName n), m) -> has p n G u (unwrap (path !"table" !"get_value" [self_ptr; EText key])) (RName !"CItemPtr").
Proof.
  intros P V. apply has_unwrap.
  eapply (call_module p n _ _ !"table" !"get_value" _ [] [RName !"TablePtr"; str_ref] (opt (RName !"CItemPtr")) (only (RName []))); [vm_compute; reflexivity|intros x t []| |reflexivity].
  apply given_two; [|apply h_text]. eapply (has_ptr p n _ _ ByRef m _ P); [discriminate|apply table_ptr_copy|left; reflexivity|exact V].
Qed.
Lemma row_us_ok nm key a : points p n !"TablePtr" -> a <> !"Self" -> type_ok p (RName a) -> row_of a ->
  fn_ok p n (Fn true true nm ByRef [] (Some (TyName a)) [SLet false (PVar !"ptr") (unwrap (path !"table" !"get_value" [self_ptr; EText key]))] (Some (path a !"from" [var"ptr"]))).
Proof.
  intros P S T R. apply fn_plain; [left; reflexivity|rewrite declared_ty by exact S; exact T|]. eexists. split.
  - eapply st_let; [|apply st_nil]. eapply row_asked; [exact P|reflexivity].
  - rewrite declared_ty by exact S. apply given_one, call_from; [exact R|]. eapply has_var; [apply var_here|reflexivity].
Qed.
Lemma row_ok nm key a : points p n !"TablePtr" -> a <> !"Self" -> type_ok p (RName a) -> row_of a ->
  fn_ok p n (public nm ByRef [] (Some (TyApp !"CItemConst" (TyName a)))
        [SLet false (PVar !"ptr") (unwrap (path !"table" !"get_value" [self_ptr; EText key]))]
        (Some (guarded !"CItemConst" (path a !"from" [var"ptr"])))).
Proof.
  intros P S T R. apply fn_plain; [left; reflexivity| |].
  - cbn [of_ty]. rewrite named_other by exact S. apply (generic_ok "CItemConst"); [cbn [core_generics In]; tauto|exact T].
  - eexists. split.
    + eapply st_let; [|apply st_nil]. eapply row_asked; [exact P|reflexivity].
    + cbn [of_ty]. rewrite named_other by exact S. apply given_one. apply guard_item; [apply const_more; [discriminate|apply self_const]|]. apply call_from; [exact R|]. eapply has_var; [apply var_here|reflexivity].
Qed.

Lemma by_id_us_ok arms ids a vs : a <> !"Self" -> ids <> !"Self" -> type_ok p (RName a) -> type_ok p (RName ids) -> enum_variants p ids vs ->
  (forall v, In v vs -> snd v = None /\ In (fst v) (map fst arms)) -> (forall v, In v (map fst arms) -> In (v, None) vs) ->
  (forall v f, In (v, f) arms -> offers n f ByRef true [] (RName a)) ->
  fn_ok p n (Fn true true !"get_by_id_us" ByRef [(!"id", TyName ids)] (Some (TyName a)) []
        (Some (EMatch var"id" (map (fun x => (PPath ids (fst x), EMethod var"self" (snd x) [])) arms)))).
Proof.
  intros S S' T T' V C I O. apply fn_of_body; [repeat constructor; intros []|intros [E|[]]; discriminate E| |rewrite declared_ty by exact S; exact T|].
  - constructor; [|constructor]. cbn [snd]. rewrite declared_ty by exact S'. exact T'.
  - cbn [map fst snd]. rewrite declared_ty by exact S'. eexists. split; [apply st_nil|]. rewrite declared_ty by exact S. apply given_one.
    eapply h_match; [apply pl_var; reflexivity| |].
    + clear C. induction arms as [|[v f] r IH]; cbn [map fst snd]; [apply ar_nil|]. eapply ar_cons.
      * eapply b_path; [exact V|]. apply I. left. reflexivity.
      * eapply method_offer; [apply (O v); left; reflexivity|reflexivity| |apply gv_nil]. apply rc_ref. eapply has_var; reflexivity.
      * apply IH; [intros w W; apply I; right; exact W|intros w g W; apply (O w); right; exact W].
    + eapply c_enum; [exact V|]. apply Forall_forall. intros [v o] Hv. destruct (C _ Hv) as [E J]. cbn [fst snd] in E, J. unfold variant_covered. cbn [fst snd]. rewrite E.
      rewrite map_map. cbn [fst]. apply in_map_iff in J as (x & <- & J). apply in_map_iff. exists x. split; [reflexivity|exact J].
Qed.
Lemma by_id_ok ids a : a <> !"Self" -> ids <> !"Self" -> type_ok p (RName a) -> type_ok p (RName ids) -> offers n !"get_by_id_us" ByRef true [RName ids] (RName a) ->
  fn_ok p n (public !"get_by_id" ByRef [(!"id", TyName ids)] (Some (TyApp !"CItemConst" (TyName a))) []
        (Some (guarded !"CItemConst" (EUnsafe (EMethod var"self" !"get_by_id_us" [var"id"]))))).
Proof.
  intros S S' T T' O. apply fn_of_body; [repeat constructor; intros []|intros [E|[]]; discriminate E| | |].
  - constructor; [|constructor]. cbn [snd]. rewrite declared_ty by exact S'. exact T'.
  - cbn [of_ty]. rewrite named_other by exact S. apply (generic_ok "CItemConst"); [cbn [core_generics In]; tauto|exact T].
  - cbn [map fst snd]. rewrite declared_ty by exact S'. eexists. split; [apply st_nil|]. cbn [of_ty]. rewrite named_other by exact S. apply given_one.
    apply guard_item; [eexists; reflexivity|]. apply h_unsafe. eapply method_offer; [exact O|reflexivity| |].
    + apply rc_ref. eapply has_var; reflexivity.
    + apply given_one. eapply has_var; reflexivity.
Qed.
End Function.
End Program.
