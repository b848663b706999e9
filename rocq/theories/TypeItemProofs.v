(** Proof of C67: roots, tables, ids and enums. *)
From Coq Require Import String.
From Verif Require Import Base StringCompactionModel StringCompactionProofs TextModel DocModel JsonModel JsonSpec IntfModel GenModel GenSpec CodeSpec ApiModel TypeSpec TypeProofs TypeFnProofs.

Local Notation text := (list Z).
Local Notation "! s" := (txt s%string) (at level 0, s at level 0).
Local Notation "'var' s" := (EVar (txt s%string)) (at level 0, s at level 0).
Local Notation self_ptr := (EField (EVar (txt "self")) (txt "ptr")).

Section Program.
Variable p : list item.

Lemma no_none l : existsb (eqb_bytes !"None") l = false -> ~ In !"None" l.
Proof. intros E I. assert (X : existsb (eqb_bytes !"None") l = true) by (apply existsb_exists; exists !"None"; split; [exact I|reflexivity]). congruence. Qed.
Lemma has_struct n G u fields : n <> !"Self" -> struct_fields p n fields -> ~ In !"None" (map fst fields) -> given p n G u (map (fun x => EVar (fst x)) fields) (map (fun x => of_ty n (snd x)) fields) ->
  has p n G u (EStruct n (map fst fields)) (RName n).
Proof. intros S F O H. pose proof (named_other n n S) as N. rewrite <- N at 3. apply h_struct; [rewrite N; exact F|exact O|rewrite N; exact H]. Qed.

Lemma has_made n G u v vs e t : n <> !"Self" -> enum_variants p n vs -> In (v, Some t) vs -> given p n G u [e] [of_ty n t] -> has p n G u (path n v [e]) (RName n).
Proof. intros S V I H. pose proof (named_other n n S) as N. rewrite <- N at 3. eapply h_variant; rewrite ?N; eassumption. Qed.

(* ------------------------------------------------------------------ *)
(** * What every root and table has *)

Section Root.
Variable n : text.
Definition root_fields : list (text * ty) := [(!"root", TyApp !"Box" (TyName !"RootObject")); (!"ptr", TyName !"RootObjectPtr")].
Hypothesis S : n <> !"Self".
Hypothesis F : struct_fields p n root_fields.
Hypothesis D : In n (type_names p).

Let obj : rt := RName !"RootObject".
Lemma obj_ok : type_ok p obj.
Proof. apply (ok_core p "RootObject" ["Debug"]%string). cbn [core_types In]. tauto. Qed.
Lemma obj_ty : of_ty n (TyName !"RootObject") = obj.
Proof. reflexivity. Qed.

Lemma root_new_ok : fn_ok p n (public !"new" NoSelf [(!"obj", TyName !"RootObject")] (Some (TyName n))
        [SLet true (PVar !"root") (path !"Box" !"new" [var"obj"]);
         SLet false (PVar !"ptr") (path !"RootObjectPtr" !"new" [call0 var"root" "as_mut"])]
        (Some (EStruct n [!"root"; !"ptr"]))).
Proof.
  apply fn_of_body; [repeat constructor; intros []|intros [E|[]]; discriminate E| |rewrite declared_ty by exact S; apply ok_declared; exact D|].
  - constructor; [exact obj_ok|constructor].
  - exists [(!"ptr", (RName !"RootObjectPtr", false)); (!"root", (RApp !"Box" obj, true)); (!"obj", (obj, false))]. split.
    + eapply st_let; [|eapply st_let; [|apply st_nil]].
      * eapply (call_type p n _ _ !"Box" !"new" _ _ [(!"T", None)] [RVar !"T"] (RApp !"Box" (RVar !"T")) (only obj)); [vm_compute; reflexivity|apply no_bounds; reflexivity| |reflexivity].
        apply given_one. eapply has_var; reflexivity.
      * eapply (call_type p n _ _ !"RootObjectPtr" !"new" _ _ [] [RPtrMut obj] (RName !"RootObjectPtr") (only obj)); [vm_compute; reflexivity|apply no_bounds; reflexivity| |reflexivity].
        eapply gv_cons; [|apply fits_ptr|apply gv_nil]. unfold call0.
        eapply (call_method p n _ _ _ !"as_mut" [] !"Box" (RApp !"Box" (RVar !"T")) [(!"T", None)] ByMut [] (RMut (RVar !"T")) (only obj)); [vm_compute; reflexivity|apply no_bounds; reflexivity| |apply gv_nil|reflexivity].
        eapply rc_mut. apply pl_var; reflexivity.
    + rewrite declared_ty by exact S. apply given_one.
      change [!"root"; !"ptr"] with (map fst root_fields). apply has_struct; [exact S|exact F|apply no_none; reflexivity|]. apply given_two; (eapply has_var; reflexivity).
Qed.
Lemma root_ref_ok : fn_ok p n (public !"root_obj_ref" ByRef [] (Some (TyRef (TyName !"RootObject"))) [] (Some (call0 (EField var"self" !"root") "as_ref"))).
Proof.
  apply fn_plain; [left; reflexivity|apply ok_ref; exact obj_ok|]. eexists. split; [apply st_nil|]. apply given_one. unfold call0.
  eapply (call_method p n _ _ _ !"as_ref" [] !"Box" (RApp !"Box" (RVar !"T")) [(!"T", None)] ByRef [] (RRef (RVar !"T")) (only obj)); [vm_compute; reflexivity|apply no_bounds; reflexivity| |apply gv_nil|reflexivity].
  eapply rc_place. change (subst (only obj) (RApp !"Box" (RVar !"T"))) with (of_ty n (TyApp !"Box" (TyName !"RootObject"))).
  eapply pl_field_ref; [apply pl_var; reflexivity|exact F|left; reflexivity].
Qed.
Lemma root_ref_mut_ok : fn_ok p n (public !"root_obj_ref_mut" ByMut [] (Some (TyMut (TyName !"RootObject"))) [] (Some (call0 (EField var"self" !"root") "as_mut"))).
Proof.
  apply fn_plain; [right; reflexivity|apply ok_mut; exact obj_ok|]. eexists. split; [apply st_nil|]. apply given_one. unfold call0.
  eapply (call_method p n _ _ _ !"as_mut" [] !"Box" (RApp !"Box" (RVar !"T")) [(!"T", None)] ByMut [] (RMut (RVar !"T")) (only obj)); [vm_compute; reflexivity|apply no_bounds; reflexivity| |apply gv_nil|reflexivity].
  eapply rc_mut. change (subst (only obj) (RApp !"Box" (RVar !"T"))) with (of_ty n (TyApp !"Box" (TyName !"RootObject"))).
  eapply pl_field_mut; [apply pl_var; reflexivity|exact F|left; reflexivity].
Qed.
Lemma root_deconstruct_ok : fn_ok p n (public !"deconstruct" ByValue [] (Some (TyName !"RootObject")) [] (Some (EDeref (EField var"self" !"root")))).
Proof.
  apply fn_of_body; [constructor|intros []|constructor|exact obj_ok|]. eexists. split; [apply st_nil|]. apply given_one.
  eapply h_move. apply pl_box. change (RApp !"Box" (of_ty n (TyName !"RootObject"))) with (of_ty n (TyApp !"Box" (TyName !"RootObject"))).
  eapply pl_field; [apply pl_var; reflexivity|exact F|left; reflexivity].
Qed.
End Root.

Lemma table_new_ok n : n <> !"Self" -> In n (type_names p) -> struct_fields p n [(!"ptr", TyName !"TablePtr")] ->
  fn_ok p n (public !"new" NoSelf [(!"ptr", TyName !"TablePtr")] (Some (TyName n)) [] (Some (EStruct n [!"ptr"]))).
Proof.
  intros S D F. apply fn_of_body; [repeat constructor; intros []|intros [E|[]]; discriminate E| |rewrite declared_ty by exact S; apply ok_declared; exact D|].
  - constructor; [|constructor]. apply (ok_core p "TablePtr" ["Debug"; "PartialEq"; "Clone"; "Copy"]%string). cbn [core_types In]. tauto.
  - eexists. split; [apply st_nil|]. rewrite declared_ty by exact S. apply given_one.
    change [!"ptr"] with (map fst [(!"ptr", TyName !"TablePtr")]). apply has_struct; [exact S|exact F|apply no_none; reflexivity|]. apply given_one. eapply has_var; reflexivity.
Qed.

(** [from] of a struct around a pointer *)
Lemma from_ok n P l : In n (type_names p) -> In (P, l) core_types -> txt P <> !"Self" -> struct_fields p n [(!"ptr", TyName (txt P))] ->
  fn_ok p n (Fn false false !"from" NoSelf [(!"ptr", TyName (txt P))] (Some (TyName !"Self")) [] (Some (EStruct !"Self" [!"ptr"]))).
Proof.
  intros D C S F. apply fn_of_body; [repeat constructor; intros []|intros [E|[]]; discriminate E| |apply ok_declared; exact D|].
  - constructor; [|constructor]. cbn [snd]. rewrite declared_ty by exact S. eapply ok_core. exact C.
  - eexists. split; [apply st_nil|]. apply given_one.
    change [!"ptr"] with (map fst [(!"ptr", TyName (txt P))]). change (of_ty n (TyName !"Self")) with (RName (named n !"Self")). apply h_struct; [exact F|intros [E|[]]; discriminate E|]. apply given_one. eapply has_var; reflexivity.
Qed.

(* ------------------------------------------------------------------ *)
(** * Ids *)

Lemma armed_app n G u t t' a b : armed p n G u t t' a -> armed p n G u t t' b -> armed p n G u t t' (a ++ b).
Proof.
  intros A B. revert A. induction a as [|[q e] a IH]; intros A; [exact B|]. cbn [app]. inversion A as [|? ? ? ? ? g ? ? Bq He Ha]; subst. eapply ar_cons; [exact Bq|exact He|]. apply IH. exact Ha.
Qed.
Lemma armed_map {A} n G u t t' (f : A -> pat * expr) l : (forall x, In x l -> exists g, binds p n (fst (f x)) t g /\ has p n (g ++ G) u (snd (f x)) t') -> armed p n G u t t' (map f l).
Proof.
  intros H. induction l as [|x l IH]; [apply ar_nil|]. cbn [map]. destruct (H x (or_introl eq_refl)) as (g & B & E). destruct (f x) as [q e]. eapply ar_cons; [exact B|exact E|].
  apply IH. intros y Y. apply H. right. exact Y.
Qed.

(** no braces *)
Definition flat (s : text) : Prop := forall c, In c s -> c <> 123 /\ c <> 125.
Lemma holes_flat s : flat s -> holes s = Some 0%nat.
Proof.
  induction s as [|c s IH]; intros H; [reflexivity|]. destruct (H c (or_introl eq_refl)) as [A B]. cbn [holes].
  destruct (Z.eqb_spec c 123) as [E|_]; [contradiction|]. destruct (Z.eqb_spec c 125) as [E|_]; [contradiction|]. apply IH. intros x X. apply H. right. exact X.
Qed.
Lemma holes_app a s : flat a -> holes (a ++ s) = holes s.
Proof.
  induction a as [|c a IH]; intros H; [reflexivity|]. destruct (H c (or_introl eq_refl)) as [A B]. cbn [app holes].
  destruct (Z.eqb_spec c 123) as [E|_]; [contradiction|]. destruct (Z.eqb_spec c 125) as [E|_]; [contradiction|]. apply IH. intros x X. apply H. right. exact X.
Qed.

Section Ids.
Variable n : text.
Variable vs : list text.
Hypothesis S : n <> !"Self".
Hypothesis D : In n (type_names p).
Hypothesis V : enum_variants p n (map (fun v => (v, None)) vs).

Let self_ : rt := RName n.
Lemma self_named : named n !"Self" = n.
Proof. reflexivity. Qed.
Lemma self_ok : type_ok p self_.
Proof. apply ok_declared. exact D. Qed.
Lemma has_variant G u v : In v vs -> has p n G u (EPath !"Self" v) self_.
Proof. intros I. change self_ with (RName (named n !"Self")). eapply h_unit; [exact V|]. apply in_map_iff. exists v. split; [reflexivity|exact I]. Qed.

Lemma usize_ok : type_ok p (RName !"usize").
Proof. apply (ok_core p "usize" ["Debug"; "PartialEq"; "Clone"; "Copy"]%string). cbn [core_types In]. tauto. Qed.
Lemma str_ok : type_ok p str_ref.
Proof. apply ok_ref. apply (ok_core p "str" ["Debug"; "PartialEq"]%string). cbn [core_types In]. tauto. Qed.

Lemma from_str_ok from_str : incl (map snd from_str) vs ->
  fn_ok p n (public !"from_str" NoSelf [(!"id", TyRef (TyName !"str"))] (Some (TyApp !"Option" (TyName !"Self"))) []
           (Some (EMatch var"id" (map (fun a : name * text => (PText (fst a), ECall var"Some" [EPath !"Self" (snd a)])) from_str ++ [(PAny, EBlock var"None")])))).
Proof.
  intros I. apply fn_of_body; [repeat constructor; intros []|intros [E|[]]; discriminate E| | |].
  - constructor; [exact str_ok|constructor].
  - apply (generic_ok p "Option"); [cbn [core_generics In]; tauto|exact self_ok].
  - eexists. split; [apply st_nil|]. apply given_one. eapply h_match; [apply pl_var; reflexivity| |].
    + apply armed_app.
      * apply armed_map. intros [k v] K. eexists. split; [apply b_text|]. cbn [snd app]. apply h_some; [reflexivity|]. apply given_one. apply has_variant. apply I.
        apply in_map_iff. exists (k, v). split; [reflexivity|exact K].
      * eapply ar_cons; [apply b_any| |apply ar_nil]. apply h_block. apply h_none. reflexivity.
    + apply c_any. rewrite map_app. apply in_or_app. right. left. reflexivity.
Qed.
Lemma from_num_ok from_num : incl (map snd from_num) vs -> (forall k v, In (k, v) from_num -> 0 <= k < 2 ^ 64) -> flat n ->
  fn_ok p n (public !"from_num" NoSelf [(!"id", TyName !"usize")] (Some (TyName !"Self")) []
           (Some (EMatch var"id" (map (fun a : Z * text => (PNum (fst a), EPath !"Self" (snd a))) from_num ++
                                [(PAny, EMacro !"panic" [EText (!"invalid ID num {} " ++ n); var"id"])])))).
Proof.
  intros I B Fl. apply fn_of_body; [repeat constructor; intros []|intros [E|[]]; discriminate E| |exact self_ok|].
  - constructor; [exact usize_ok|constructor].
  - eexists. split; [apply st_nil|]. apply given_one. eapply h_match; [apply pl_var; reflexivity| |].
    + apply armed_app.
      * apply armed_map. intros [k v] K. eexists. split; [apply b_num; exact (B k v K)|]. cbn [snd app]. apply has_variant. apply I.
        apply in_map_iff. exists (k, v). split; [reflexivity|exact K].
      * eapply ar_cons; [apply b_any| |apply ar_nil]. eapply h_panic.
        -- eapply pr_cons; [eapply has_var; reflexivity|apply sh_usize|apply pr_nil].
        -- change (!"invalid ID num {} " ++ n) with (!"invalid ID num " ++ (123 :: 125 :: 32 :: n)). rewrite holes_app.
           ++ cbn [holes Z.eqb Pos.eqb List.length]. rewrite holes_flat by exact Fl. reflexivity.
           ++ intros c C. vm_compute in C. repeat destruct C as [C|C]; try destruct C; split; discriminate.
    + apply c_any. rewrite map_app. apply in_or_app. right. left. reflexivity.
Qed.
Lemma len_ok k : 0 <= k < 2 ^ 64 -> fn_ok p n (public !"len" NoSelf [] (Some (TyName !"usize")) [] (Some (ENum k))).
Proof. intros B. apply fn_of_body; [constructor|intros []|constructor|exact usize_ok|]. eexists. split; [apply st_nil|]. apply given_one. apply h_num. exact B. Qed.
Lemma to_num_ok to_num : vs <> [] -> (forall v, In v vs <-> In v (map fst to_num)) -> (forall v k, In (v, k) to_num -> 0 <= k < 2 ^ 64) ->
  fn_ok p n (public !"to_num" ByRef [] (Some (TyName !"usize")) [] (Some (EMatch var"self" (map (fun a : text * Z => (PPath n (fst a), ENum (snd a))) to_num)))).
Proof.
  intros N C B. apply fn_plain; [left; reflexivity|exact usize_ok|]. eexists. split; [apply st_nil|]. apply given_one. eapply h_match; [apply pl_var; reflexivity| |].
  - apply armed_map. intros [v k] K. eexists. split.
    + eapply b_path_ref; [exact V|]. apply in_map_iff. exists v. split; [reflexivity|]. apply C. apply in_map_iff. exists (v, k). split; [reflexivity|exact K].
    + apply h_num. exact (B v k K).
  - eapply c_enum_ref; [exact V|destruct vs; [contradiction|discriminate]|]. apply Forall_forall. intros [v o] Hv. apply in_map_iff in Hv as (v' & E & Hv). apply pair_equal_spec in E as [-> <-].
    unfold variant_covered. cbn [fst snd]. apply C in Hv. apply in_map_iff in Hv as ([w k] & E & Hv). cbn [fst] in E. subst w. rewrite map_map. apply in_map_iff. exists (v, k). split; [reflexivity|exact Hv].
Qed.
Lemma metadata_ok (l : list text) : fn_ok p n (public !"metadata" NoSelf [] (Some (TyStatic (TySlice static_str))) [] (Some (ERef (EArray (map EText l))))).
Proof.
  apply fn_of_body; [constructor|intros []|constructor|apply ok_ref, ok_slice; exact str_ok|]. eexists. split; [apply st_nil|]. apply given_one. apply h_array.
  induction l as [|x l IH]; [apply gv_nil|]. cbn [map]. eapply gv_cons; [apply h_text|apply fits_same|exact IH].
Qed.
Lemma to_str_ok : offers p n !"metadata" NoSelf false [] (RRef (RSlice str_ref)) -> offers p n !"to_num" ByRef false [] (RName !"usize") ->
  fn_ok p n (public !"to_str" ByRef [] (Some static_str) [] (Some (EIndex (path !"Self" !"metadata" []) (call0 var"self" "to_num")))).
Proof.
  intros (f & F & Nm & Sf & U & A & t & R & E) O. apply fn_plain; [left; reflexivity|exact str_ok|]. eexists. split; [apply st_nil|]. apply given_one.
  apply (h_index p n _ _ _ _ str_ref).
  - rewrite <- E. change (of_ty n t) with (of_ty (named n !"Self") t). rewrite <- Nm. eapply h_fn; [exact F|exact Sf|rewrite U; discriminate|change (named n !"Self") with n; rewrite A; apply gv_nil|exact R].
  - eapply method_offer; [exact O|discriminate|apply rc_ref; eapply has_var; reflexivity|apply gv_nil].
  - apply i_ref. left. reflexivity.
Qed.
End Ids.

(* ------------------------------------------------------------------ *)
(** * Enums *)

Lemma enum_new_ok n (vs : list (text * text)) (new : list (name * text)) : n <> !"Self" -> In n (type_names p) -> enum_variants p n (map (fun v => (fst v, Some (TyName (snd v)))) vs) ->
  Forall2 (fun a v => snd a = fst v) new vs -> (forall a, In a (map snd vs) -> a <> !"Self" /\ row_of p a) -> flat n ->
  fn_ok p n (public !"new" NoSelf [(!"list_name", TyRef (TyName !"str")); (!"ptr", TyName !"CItemPtr")] (Some (TyName n)) []
           (Some (EMatch var"list_name" (map (fun e => (PText (fst (fst e)), path n (snd (fst e)) [path (snd (snd e)) !"from" [var"ptr"]])) (combine new vs) ++
                                       [(PAny, EMacro !"panic" [EText (n ++ !" there's no enum type named {}"); ERef var"list_name"])])))).
Proof.
  intros S D V F R Fl. apply fn_of_body.
  - repeat constructor; [intros [E|[]]; discriminate E|intros []].
  - intros [E|[E|[]]]; discriminate E.
  - constructor; [exact str_ok|]. constructor; [|constructor]. apply (ok_core p "CItemPtr" ["Debug"; "PartialEq"; "Clone"; "Copy"]%string). cbn [core_types In]. tauto.
  - rewrite declared_ty by exact S. apply ok_declared. exact D.
  - eexists. split; [apply st_nil|]. rewrite declared_ty by exact S. apply given_one. eapply h_match; [apply pl_var; reflexivity| |].
    + apply armed_app.
      * apply armed_map. intros [[k c] [v a]] K. eexists. split; [apply b_text|]. cbn [fst snd app].
        assert (E : c = v). { clear - F K. induction F as [|x y l l' E F IH]; [destruct K|]. cbn [combine] in K. destruct K as [K|K]; [|exact (IH K)]. apply pair_equal_spec in K as [-> ->]. exact E. }
        subst c. apply in_combine_r in K. destruct (R a) as [A Ro]; [apply in_map_iff; exists (v, a); split; [reflexivity|exact K]|].
        eapply (has_made n _ _ v _ _ (TyName a)).
        -- exact S.
        -- exact V.
        -- apply in_map_iff. exists (v, a). split; [reflexivity|exact K].
        -- rewrite declared_ty by exact A. apply given_one. apply call_from; [exact Ro|]. eapply has_var; reflexivity.
      * eapply ar_cons; [apply b_any| |apply ar_nil]. eapply h_panic.
        -- eapply pr_cons; [eapply h_ref; apply pl_var; reflexivity|apply sh_ref, sh_ref, sh_str|apply pr_nil].
        -- rewrite holes_app by exact Fl. reflexivity.
    + apply c_any. rewrite map_app. apply in_or_app. right. left. reflexivity.
Qed.

Lemma kind_id_ok n (vs : list (text * text)) (id : list (text * name)) : n <> !"Self" -> In n (type_names p) -> enum_variants p n (map (fun v => (fst v, Some (TyName (snd v)))) vs) -> vs <> [] ->
  (forall v, In v (map fst vs) <-> In v (map fst id)) -> (forall a, In a (map snd vs) -> a <> !"Self" /\ offers p a !"to_str" ByRef false [] str_ref) ->
  fn_ok p n (public !"id" ByRef [] (Some (TyPair static_str static_str)) []
           (Some (EMatch var"self" (map (fun a => (PTuple n (fst a) !"v", EPair (EText (snd a)) (call0 var"v" "to_str"))) id)))).
Proof.
  intros S D V Ne C O. apply fn_plain; [left; reflexivity|apply ok_pair; exact str_ok|]. eexists. split; [apply st_nil|]. apply given_one.
  eapply h_match; [apply pl_var; reflexivity| |].
  - apply armed_map. intros [v k] K. assert (Iv : In v (map fst vs)) by (apply C; apply in_map_iff; exists (v, k); split; [reflexivity|exact K]).
    apply in_map_iff in Iv as ([w a] & E & Iv). cbn [fst] in E. subst w. destruct (O a) as [A Of]; [apply in_map_iff; exists (v, a); split; [reflexivity|exact Iv]|].
    eexists. split; [eapply (b_tuple_ref p n n v _ (TyName a)); [exact V|apply in_map_iff; exists (v, a); split; [reflexivity|exact Iv]]|].
    cbn [snd]. rewrite declared_ty by exact A. apply h_pair; [apply h_text|]. unfold call0. eapply method_offer; [exact Of|discriminate| |apply gv_nil]. apply rc_ref. eapply has_var; reflexivity.
  - eapply c_enum_ref; [exact V|destruct vs; [contradiction|discriminate]|]. apply Forall_forall. intros [v o] Hv. apply in_map_iff in Hv as ([w a] & E & Hv). apply pair_equal_spec in E as [<- <-].
    unfold variant_covered. cbn [fst snd]. assert (Iv : In w (map fst id)) by (apply C; apply in_map_iff; exists (w, a); split; [reflexivity|exact Hv]).
    apply in_map_iff in Iv as ([x k] & E & Iv). cbn [fst] in E. subst x. exists !"v". rewrite map_map. apply in_map_iff. exists (w, k). split; [reflexivity|exact Iv].
Qed.
End Program.
