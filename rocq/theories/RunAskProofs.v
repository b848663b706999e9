(** Proof of C68: what the generated functions give, and what they change. *)
From Coq Require Import String.
From Verif Require Import Base StringCompactionModel StringCompactionProofs LinkedModel LinkedSpec DocModel DiffSpec DiffProofs ArchiveModel JsonModel IntfModel GenModel GenSpec GenNameProofs GenProofs GenWellProofs GenRunProofs.
From Verif Require Import CodeSpec ApiModel TypeSpec TypeProofs TypeGenProofs ReadModel RunModel RunSpec RunProofs RunGenProofs RunWayProofs.

Local Notation text := (list Z).
Local Notation "! s" := (txt s%string) (at level 0, s at level 0).

Section Asks.
Variable old : list name.
Variable iter : forall A, hmap A -> hmap A.
Variable r : root_obj.
Variable told : effect -> bool.
Local Notation root := (ro_default r).
Hypothesis T : tame root.
Variable parts : list (list item).
Hypothesis D : Forall2 declares (generate old root) parts.
Local Notation p := (concat parts).

Local Notation EV := (EV p iter r told).
Local Notation EVs := (EVs p iter r told).
Local Notation Enter := (Enter p iter r told).
Local Notation Assoc := (Assoc p iter r told).
Local Notation Method := (Method p iter r told).
Local Notation run_method := (run_method old root T parts D iter r told).
Local Notation item_method := (item_method old iter r told T parts D).
Local Notation root_method := (root_method old iter r told T parts D).

(* ------------------------------------------------------------------ *)
(** * Items *)

Lemma call_read (c : bool) stem l key i p0 vt a s v w : (if c then clisted root stem l else mlisted root stem l) -> In (key, (i, DParam p0 vt)) (ld_members l) ->
  bare v = item_value (item_type c stem) a s -> snd s = Def l ->
  Method v (with_old key (contains (ld_old l) key)) [] w (gives (as_marked VOf vt) w (get_param s key)).
Proof.
  intros C I B S. pose proof (listed_of r c stem l C) as L. set (R := gives _ w _).
  pose proof (item_method c stem l a s v (Meth (with_old key (contains (ld_old l) key)) [] (CRead (at_of c) (type_of p0) vt key) [] []) [] w R C) as X. cbn [m_name] in X. apply X; clear X.
  - eapply param_in; [exact I|]. unfold param_methods. rewrite (member_snake r T stem l key _ L I). destruct c, (by_reference (type_of p0)); cbn [at_of In]; tauto.
  - exact B.
  - intros f W. eapply conv_R; [eapply read_rule; [apply item_points|exact W]|]. unfold R, get_param. rewrite S. cbn [undef param_at]. rewrite (member_get r T stem l key _ L I). reflexivity.
Qed.
Lemma get_default p0 : get_as (type_of p0) (Some p0) = Some (contents p0).
Proof. unfold get_as. destruct p0; reflexivity. Qed.
Lemma call_default (c : bool) stem l key i p0 vt a s v w : (if c then clisted root stem l else mlisted root stem l) -> In (key, (i, DParam p0 vt)) (ld_members l) ->
  bare v = item_value (item_type c stem) a s -> snd s = Def l ->
  Method v (with_old key (contains (ld_old l) key) ++ !"_def_val") [] w (gives (as_marked VOf vt) w (unwrapped vt (Some (contents p0)))).
Proof.
  intros C I B S. pose proof (listed_of r c stem l C) as L. set (R := gives _ w _).
  pose proof (item_method c stem l a s v (Meth (with_old key (contains (ld_old l) key) ++ !"_def_val") [] (CDefault (at_of c) (type_of p0) vt key) [] []) [] w R C) as X. cbn [m_name] in X. apply X; clear X.
  - eapply param_in; [exact I|]. unfold param_methods. rewrite (member_snake r T stem l key _ L I). destruct c, (by_reference (type_of p0)); cbn [at_of In]; tauto.
  - exact B.
  - intros f W. eapply conv_R; [eapply default_rule; [apply item_points|exact W]|]. unfold R. cbn [default_at]. rewrite S. cbn [undef]. unfold item_param_def. rewrite (member_get r T stem l key _ L I), get_default. reflexivity.
Qed.
Lemma call_ref_id (c : bool) stem l key i q vt a s v w : (if c then clisted root stem l else mlisted root stem l) -> ld_enum l = false -> In (key, (i, (q, vt))) (ld_refs l) ->
  bare v = item_value (item_type c stem) a s ->
  Method v (!"ref_id_" ++ with_old key (contains (ld_ref_old l) key)) [] w (gives (as_marked (fun s => VText s) vt) w (unwrapped vt (spot_ref_id s key))).
Proof.
  intros C E I B. pose proof (listed_of r c stem l C) as L. set (R := gives _ w _).
  pose proof (item_method c stem l a s v (Meth (!"ref_id_" ++ with_old key (contains (ld_ref_old l) key)) [] (CRefId (at_of c) vt key) [] []) [] w R C) as X. cbn [m_name] in X. apply X; clear X.
  - eapply ref_in; [exact E|exact I|]. unfold ref_get. rewrite (ref_snake r T stem l key _ L I). apply in_second.
  - exact B.
  - intros f W. eapply ref_id_rule; [|apply item_points|exact W]. destruct c; discriminate.
Qed.

Lemma asks_rule {A} w c stem l e f G w0 (F : A -> val) (X : spot -> res A) : goes old root w c stem l e -> hget !"root" G = Some root_value ->
  (forall s v, snd s = Def l -> bare v = item_value (item_type c stem) (loc_at w) s -> Method v f [] w0 (gives F w0 (X s))) ->
  EV [] G (asks e f) w0 (gives (of_opt F) w0 (o <- visit iter r w ; match o with None => Ok None | Some s => x <- X s ; Ok (Some x) end)).
Proof.
  intros H HG K. pose proof (goes_spot old iter r T w c stem l e H) as S. unfold asks. eapply if_some_rule; [apply (way_rule old iter r told T parts D w c stem l e H); exact HG|]. cbv beta.
  destruct (visit iter r w) as [[s|]| |]; cbn [Base.bind gives]; try reflexivity.
  eapply ev_some; [unfold do; eapply ev_call0; [apply ev_var; [shut|look]|]; cbn [and_then]; apply K; [exact S|apply handed_bare]|]. destruct (X s); reflexivity.
Qed.

(* ------------------------------------------------------------------ *)
(** * The root *)

Lemma root_read key i p0 vt w : In (key, (i, WParam p0 vt)) root ->
  Method root_value (with_old key (contains old key)) [] w (gives (as_marked VOf vt) w (get_root_param r key)).
Proof.
  intros I. set (R := gives _ w _). pose proof (root_method (Meth (with_old key (contains old key)) [] (CRead AtRoot (type_of p0) vt key) [] []) [] w R) as X. cbn [m_name] in X. apply X; clear X.
  - eapply root_in; [exact I|]. unfold param_methods. rewrite (root_snake_name r T key _ I). destruct (by_reference (type_of p0)); cbn [In]; tauto.
  - intros f W. eapply conv_R; [eapply read_rule; [exact root_points|exact W]|]. unfold R, get_root_param. cbn [param_at]. rewrite (root_get r T key _ I). reflexivity.
Qed.
Lemma root_default key i p0 vt w : In (key, (i, WParam p0 vt)) root ->
  Method root_value (with_old key (contains old key) ++ !"_def_val") [] w (gives (as_marked VOf vt) w (unwrapped vt (Some (contents p0)))).
Proof.
  intros I. set (R := gives _ w _). pose proof (root_method (Meth (with_old key (contains old key) ++ !"_def_val") [] (CDefault AtRoot (type_of p0) vt key) [] []) [] w R) as X. cbn [m_name] in X. apply X; clear X.
  - eapply root_in; [exact I|]. unfold param_methods. rewrite (root_snake_name r T key _ I). destruct (by_reference (type_of p0)); cbn [In]; tauto.
  - intros f W. eapply conv_R; [eapply default_rule; [exact root_points|exact W]|]. unfold R. cbn [default_at]. rewrite (root_get r T key _ I), get_default. reflexivity.
Qed.
Lemma arg_name key : ordinary key -> eqb_bytes key !"None" = false /\ eqb_bytes !"self" key = false.
Proof.
  intros (U & K & _). split; apply eqb_other'.
  - intros ->. destruct U as ((c & r0 & E & L & _) & _). apply (f_equal (hd 0)) in E. revert L. cbn [hd] in E. rewrite <- E. vm_compute. intros [L _]. apply L. reflexivity.
  - intros <-. apply K. assert (X : existsb (eqb_bytes !"self") keywords = true) by shut. apply existsb_exists in X as (y & Y & X). apply eqb_bytes_eq in X. subst y. exact Y.
Qed.

Lemma unsnake key v : In (key, v) root -> ordinary key.
Proof. intros I. exact (t_names root T key v I). Qed.

Lemma root_set key i p0 vt c w : In (key, (i, WParam p0 vt)) root -> unwrapped vt (Some c) = Ok c ->
  Method root_value (!"set_" ++ with_old key (contains old key)) [as_marked VOf vt c] w (Ok (VUnit, w ++ [ESet [] (type_of p0) key (of_qv VOf c)])).
Proof.
  intros I U. set (R := Ok _). pose proof (root_method (Meth (!"set_" ++ with_old key (contains old key)) [key] (CSet AtRoot (type_of p0) vt key) [] []) [as_marked VOf vt c] w R) as X. cbn [m_name] in X. apply X; clear X.
  - eapply root_in; [exact I|]. unfold param_methods. rewrite (root_snake_name r T key _ I). destruct (by_reference (type_of p0)); cbn [In]; tauto.
  - intros f W. destruct (arg_name key (unsnake key _ I)) as (N1 & N2). eapply (set_rule _ _ _ _ _ _ key AtRoot (type_of p0) vt key f root_value PRoot w VOf c); [discriminate|exact N1|exact N2|exact root_points|exact U|exact W].
Qed.
Lemma root_write key i p0 vt w : In (key, (i, WParam p0 vt)) root -> by_reference (type_of p0) = true ->
  Method root_value (with_old key (contains old key) ++ !"_mut") [] w (gives (as_marked VOf vt) (w ++ [EWrite [] (type_of p0) key]) (get_root_param r key)).
Proof.
  intros I Y. set (R := gives _ _ _). pose proof (root_method (Meth (with_old key (contains old key) ++ !"_mut") [] (CWrite AtRoot (type_of p0) vt key) [] []) [] w R) as X. cbn [m_name] in X. apply X; clear X.
  - eapply root_in; [exact I|]. unfold param_methods. rewrite (root_snake_name r T key _ I), Y. cbn [In]; tauto.
  - intros f W. eapply conv_R; [eapply write_rule; [| |exact root_points|exact W]; [discriminate|exact Y]|]. unfold R, get_root_param. cbn [param_at loc_of]. rewrite (root_get r T key _ I). reflexivity.
Qed.

(** [RootIntf::new] *)
Lemma boxed v w : Assoc !"Box" !"new" [v] w (Ok (VBox v, w)).
Proof. apply conv_now; reflexivity. Qed.
Lemma pointed v w : Assoc !"RootObjectPtr" !"new" [v] w (Ok (v, w)).
Proof. apply conv_now; reflexivity. Qed.
Lemma as_it_is f w : In f [!"as_ref"; !"as_mut"] -> Method (VBox (VPtr PRoot)) f [] w (Ok (VPtr PRoot, w)).
Proof. intros I. cbn [In] in I. destruct I as [<-|[<-|[]]]; apply conv_now; reflexivity. Qed.
Lemma root_new w : Assoc !"RootIntf" !"new" [VPtr PRoot] w (Ok (root_value, w)).
Proof.
  destruct (method_found old root T parts D !"RootIntf" _ (Meth !"new" [!"obj"] COther [!"RootIntf"] []) (generated_root old root)) as (f & W & N); [left; reflexivity|]. cbn [m_name] in N.
  apply (run_assoc old root parts iter r told _ !"new" f [VPtr PRoot] w _ (generated_root old root)); cbn [decl_name]; [rewrite fn_named_app, N; reflexivity|].
  inversion W; subst.
  eapply enter_rule.
  - cbn [public f_lets start_env f_args map combine app fst]. eapply lets_let.
    + unfold path. eapply ev_assoc; [eapply evs_ok; [apply ev_var; [shut|look]|apply evs_nil]|]. cbn [and_then]. rewrite named_closed by shut. apply boxed.
    + cbn [and_then bound app]. eapply lets_let.
      * unfold path. eapply ev_assoc; [eapply evs_ok; [unfold call0; eapply method_rule; [apply ev_var; [shut|look]|apply as_it_is; holder]|apply evs_nil]|]. cbn [and_then]. rewrite named_closed by shut. apply pointed.
      * cbn [and_then bound app]. apply lets_nil.
  - cbn [and_then public f_value f_ret]. eexists. split; [apply ev_struct; cbn [fields_of]; rewrite !(hget_next !"root" !"ptr") with (v := VBox (VPtr PRoot)) by (first [shut|look]); rewrite (hget_here !"ptr") by shut; reflexivity|reflexivity].
Qed.
Lemma root_object f w : In f [!"root_obj_ref"; !"root_obj_ref_mut"; !"deconstruct"] -> Method root_value f [] w (Ok (VPtr PRoot, w)).
Proof.
  intros I. assert (X : exists ts, In (Meth f [] COther ts []) (root_methods old (strip_root root))).
  { cbn [In] in I. exists []. unfold root_methods, root_fixed. apply in_or_app. left. destruct I as [<-|[<-|[<-|[]]]]; cbn [In]; tauto. }
  destruct X as (ts & X). pose proof (root_method _ [] w (Ok (VPtr PRoot, w)) X) as Y. cbn [m_name] in Y. apply Y. intros g W.
  assert (K : EV !"RootIntf" [(!"self", root_value)] (EField (EVar !"self") !"root") w (Ok (VBox (VPtr PRoot), w))) by (eapply ev_field; [apply ev_var; [shut|look]|look]).
  inversion W; subst; (eapply enter_rule; [apply lets_nil|]; cbn [and_then public f_value f_ret start_env f_args map combine app]; eexists; split;
    [first [eapply ev_deref; [exact K|reflexivity]|unfold call0; eapply method_rule; [exact K|apply as_it_is; holder]]|reflexivity]).
Qed.

(* ------------------------------------------------------------------ *)
(** * Items that change *)

Lemma opens_from_app a b key id : opens_from a (b ++ [(key, id)]) = opens_from a b ++ [EOpen (a ++ b) key].
Proof. revert a. induction b as [|(k, i) b IH]; intros a; cbn [app opens_from]; [rewrite app_nil_r; reflexivity|]. rewrite IH, <- app_assoc. reflexivity. Qed.
Lemma opens_app a key id : opens (a ++ [(key, id)]) = opens a ++ [EOpen a key].
Proof. apply opens_from_app. Qed.
Lemma item_below_app s a b : item_below s (a ++ b) = match item_below s a with Some s => item_below s b | None => None end.
Proof.
  revert s. induction a as [|(k, i) a IH]; intros s; [reflexivity|]. cbn [app item_below]. destruct (spot_mil s k) as [[[items|] d]|]; try reflexivity. destruct (mlist_item items d i); [apply IH|reflexivity].
Qed.
Lemma item_at_app a b : a <> [] -> item_at r (a ++ b) = match item_at r a with Some s => item_below s b | None => None end.
Proof.
  intros N. destruct a as [|(k, i) a]; [contradiction|]. cbn [app item_at]. destruct (root_mlist r k) as [[[items|] d]|]; try reflexivity. destruct (mlist_item items d i); [apply item_below_app|reflexivity].
Qed.

Lemma seizes_listed a stem l e : seizes old root a stem l e -> a <> [] /\ mlisted root stem l.
Proof.
  induction 1 as [t i l u id I|a stem l e key i l' u id H (N & IH) I].
  - split; [discriminate|]. eapply mlisted_mlist; exact I.
  - split; [destruct a; discriminate|]. eapply mlisted_mil; [exact IH|exact I].
Qed.
Lemma seizes_spot a stem l e : seizes old root a stem l e -> match item_at r a with Some s => snd s = Def l | None => True end.
Proof.
  induction 1 as [t i l u id I|a stem l e key i l' u id H IH I].
  - cbn [item_at]. unfold root_mlist. rewrite (root_get r T t _ I). destruct (hget t (ro_sabun r)) as [[?|[[? ?]|]]|]; try exact Logic.I. cbn [option_map fst]. unfold mlist_item. destruct (lookup id _); [reflexivity|exact Logic.I].
  - destruct (seizes_listed _ _ _ _ H) as (N & C). rewrite item_at_app by exact N. destruct (item_at r a) as [s|]; [|exact Logic.I]. cbn [item_below]. unfold spot_mil. rewrite IH. cbn [undef].
    rewrite (member_get r T stem l key _ (mlisted_listed _ _ _ C) I). destruct (hget key (ci_values (fst s))) as [[| |[[]|]]|]; cbn [option_map fst]; try exact Logic.I; unfold mlist_item; destruct (lookup id _); try exact Logic.I; reflexivity.
Qed.

Definition mut_value n a s : val := VGuard !"MItemMut" (Some n) (item_value n a s).
Lemma call_get_mut t l a key items id w : mlisted root t l ->
  Method (VGuard !"MListMut" (Some (mitem_type t)) (VPtr (PMList a key items (Def l)))) !"get_mut" [VNum id] w
    (Ok (of_opt (mut_value (mitem_type t) (a ++ [(key, id)])) (mlist_item items (Def l) id), w)).
Proof.
  intros C.
  assert (X : conv (fun k => match mlist_item items (Def l) id with Some s => seq (converted p (eval p iter r told k) !"MItemMut" (mitem_type t) (PItem (a ++ [(key, id)]) s)) (fun v => ret (some v)) | None => ret none end) w
    (Ok (of_opt (mut_value (mitem_type t) (a ++ [(key, id)])) (mlist_item items (Def l) id), w))).
  { destruct (mlist_item items (Def l) id) as [s|]; [|apply conv_now; reflexivity].
    eapply conv_seq; [apply (converted_rule parts iter r told _ _ !"MItemPtr"); eapply (mitem_from old root T parts D); exact C|]. cbn [and_then]. apply conv_now. reflexivity. }
  eapply conv_ext; [|exact X]. intros k. reflexivity.
Qed.
Lemma seize_rule n G e t l a key id (items : list (Z * citem)) w w1 : mlisted root t l -> EV n G e w (Ok (VGuard !"MListMut" (Some (mitem_type t)) (VPtr (PMList a key items (Def l))), w1)) ->
  EV n G (do (do e !"get_mut" [ENum id]) !"unwrap" []) w (match mlist_item items (Def l) id with Some s => Ok (mut_value (mitem_type t) (a ++ [(key, id)]) s, w1) | None => Panic end).
Proof.
  intros C H. unfold do. apply (unwrap_rule p iter r told n G _ (mut_value (mitem_type t) (a ++ [(key, id)])) (mlist_item items (Def l) id) w w1).
  eapply ev_call1; [exact H|apply ev_num|]. apply call_get_mut, C.
Qed.
Lemma call_open_root t i l u w : In (t, (i, WMList (Def l) u)) root ->
  Method root_value (with_old t (contains old t) ++ !"_mut") [] w
    (Ok (VGuard !"MListMut" (Some (mitem_type t)) (VPtr (PMList [] t (match hget t (ro_sabun r) with Some (DocModel.RMut (Some x)) => fst x | _ => [] end) (Def l))), w ++ [EOpen [] t])).
Proof.
  intros I. set (R := Ok _). pose proof (root_method (Meth (with_old t (contains old t) ++ !"_mut") [] (CListMut AtRoot t) [mitem_type t] []) [] w R) as X. cbn [m_name] in X. apply X; clear X.
  - eapply root_in; [exact I|]. unfold list_methods. rewrite (root_snake_name r T t _ I). apply in_second.
  - intros f W. eapply conv_R; [eapply list_mut_rule; [exact root_points|exact W]|]. cbn [open_at loc_of]. rewrite (root_get r T t _ I). reflexivity.
Qed.
Lemma call_open stem l key i l' u a s v w : mlisted root stem l -> In (key, (i, DMil (Def l') u)) (ld_members l) -> bare v = item_value (mitem_type stem) a s -> snd s = Def l ->
  Method v (with_old key (contains (ld_old l) key) ++ !"_mut") [] w
    (Ok (VGuard !"MListMut" (Some (mitem_type key)) (VPtr (PMList a key (match hget key (ci_values (fst s)) with Some (VMil (Some x)) => fst x | _ => [] end) (Def l'))), w ++ [EOpen a key])).
Proof.
  intros C I B S. pose proof (mlisted_listed _ _ _ C) as L. set (R := Ok _).
  pose proof (item_method false stem l a s v (Meth (with_old key (contains (ld_old l) key) ++ !"_mut") [] (CListMut AtMItem key) [mitem_type key] []) [] w R C) as X. cbn [m_name] in X. apply X; clear X.
  - cbn [methods]. unfold mitem_methods. apply in_or_app. left. apply in_flat_map. exists (key, (i, DMil (Def l') u)). split; [exact I|]. unfold list_methods. rewrite (member_snake r T stem l key _ L I). apply in_second.
  - exact B.
  - intros f W. eapply conv_R; [eapply list_mut_rule; [apply item_points|exact W]|]. cbn [open_at loc_of]. rewrite S. cbn [undef]. rewrite (member_get r T stem l key _ L I). reflexivity.
Qed.

Lemma seizes_rule a stem l e : seizes old root a stem l e -> forall G w, hget !"root" G = Some root_value ->
  EV [] G e w (match item_at r a with Some s => Ok (mut_value (mitem_type stem) a s, w ++ opens a) | None => Panic end).
Proof.
  induction 1 as [t i l u id I|a stem l e key i l' u id H IH I]; intros G w HG.
  - eapply conv_R; [eapply seize_rule; [eapply mlisted_mlist; exact I|unfold do; eapply method_rule; [apply ev_var; [shut|exact HG]|eapply call_open_root; exact I]]|].
    cbn [item_at app]. unfold root_mlist. rewrite (root_get r T t _ I). destruct (hget t (ro_sabun r)) as [[?|[x|]]|]; try reflexivity. cbn [option_map]. destruct (mlist_item (fst x) (Def l) id); reflexivity.
  - destruct (seizes_listed _ _ _ _ H) as (N & C). pose proof (seizes_spot _ _ _ _ H) as S. rewrite item_at_app by exact N. specialize (IH G w HG). destruct (item_at r a) as [s|].
    + pose proof (call_open stem l key i l' u a s (mut_value (mitem_type stem) a s) (w ++ opens a) C I eq_refl S) as X.
      assert (Y : EV [] G (do e (with_old key (contains (ld_old l) key) ++ !"_mut") []) w
        (Ok (VGuard !"MListMut" (Some (mitem_type key)) (VPtr (PMList a key (match hget key (ci_values (fst s)) with Some (VMil (Some x)) => fst x | _ => [] end) (Def l'))), (w ++ opens a) ++ [EOpen a key]))).
      { unfold do. eapply ev_call0; [exact IH|exact X]. }
      assert (C' : mlisted root key l') by (eapply mlisted_mil; [exact C|exact I]).
      eapply conv_R; [exact (seize_rule [] G _ key l' a key id _ w _ C' Y)|].
      cbn [item_below]. unfold spot_mil. rewrite S. cbn [undef]. rewrite (member_get r T stem l key _ (mlisted_listed _ _ _ C) I). rewrite opens_app.
      destruct (hget key (ci_values (fst s))) as [[?|?|[x|]]|]; cbn [option_map]; try reflexivity. destruct (mlist_item (fst x) (Def l') id); [rewrite app_assoc|]; reflexivity.
    + unfold do. eapply ev_call0; [eapply ev_method; [eapply ev_call0; [exact IH|reflexivity]|reflexivity]|reflexivity].
Qed.

(** what their functions change *)
Lemma call_set stem l key i p0 vt c a s v w : mlisted root stem l -> In (key, (i, DParam p0 vt)) (ld_members l) -> unwrapped vt (Some c) = Ok c -> bare v = item_value (mitem_type stem) a s ->
  Method v (!"set_" ++ with_old key (contains (ld_old l) key)) [as_marked VOf vt c] w (Ok (VUnit, w ++ [ESet a (type_of p0) key (of_qv VOf c)])).
Proof.
  intros C I U B. pose proof (mlisted_listed _ _ _ C) as L. set (R := Ok _).
  pose proof (item_method false stem l a s v (Meth (!"set_" ++ with_old key (contains (ld_old l) key)) [key] (CSet AtMItem (type_of p0) vt key) [] []) [as_marked VOf vt c] w R C) as X. cbn [m_name] in X. apply X; clear X.
  - eapply (param_in false); [exact I|]. unfold param_methods. rewrite (member_snake r T stem l key _ L I). cbn [at_of]. destruct (by_reference (type_of p0)); cbn [In]; tauto.
  - exact B.
  - intros f W. destruct (arg_name key (proj2 (t_members root T stem l L) key _ I)) as (N1 & N2).
    eapply (set_rule _ _ _ _ _ _ key AtMItem (type_of p0) vt key f (item_value (mitem_type stem) a s) (PItem a s) w VOf c); [discriminate|exact N1|exact N2|apply item_points|exact U|exact W].
Qed.
Lemma call_write stem l key i p0 vt a s v w : mlisted root stem l -> In (key, (i, DParam p0 vt)) (ld_members l) -> by_reference (type_of p0) = true -> bare v = item_value (mitem_type stem) a s -> snd s = Def l ->
  Method v (with_old key (contains (ld_old l) key) ++ !"_mut") [] w (gives (as_marked VOf vt) (w ++ [EWrite a (type_of p0) key]) (get_param s key)).
Proof.
  intros C I Y B S. pose proof (mlisted_listed _ _ _ C) as L. set (R := gives _ _ _).
  pose proof (item_method false stem l a s v (Meth (with_old key (contains (ld_old l) key) ++ !"_mut") [] (CWrite AtMItem (type_of p0) vt key) [] []) [] w R C) as X. cbn [m_name] in X. apply X; clear X.
  - eapply (param_in false); [exact I|]. unfold param_methods. rewrite (member_snake r T stem l key _ L I), Y. cbn [at_of In]. tauto.
  - exact B.
  - intros f W. eapply conv_R; [eapply write_rule; [| |apply item_points|exact W]; [discriminate|exact Y]|]. unfold R, get_param. cbn [param_at loc_of]. rewrite S. cbn [undef]. rewrite (member_get r T stem l key _ L I). reflexivity.
Qed.

(* ------------------------------------------------------------------ *)
(** * Ids of tables *)

Section Ids.
Variables (t : name) (j : Z) (d : def) (rows : hmap citem) (o : list name).
Hypothesis I : In (t, (j, WTable d rows o)) root.
Local Notation keys := (row_keys rows o).
Local Notation idv k := (VMake (ids_type t) (variant_of k) []).

Lemma ids_part : exists fns, own_fns p (ids_type t) = fns /\ trait_fns p (ids_type t) = [] /\
  (forall v, is_variant p (ids_type t) v = existsb (fun k => eqb_bytes (variant_of k) v) keys) /\
  fns = match (ids_decl t keys) with DIds n vs from_str from_num to_num len metadata => [
         public (txt "from_str") NoSelf [(txt "id", TyRef (TyName (txt "str")))] (Some (TyApp (txt "Option") (TyName (txt "Self")))) []
           (Some (EMatch (EVar !"id") (map (fun a => (PText (fst a), ECall (EVar !"Some") [EPath (txt "Self") (snd a)])) from_str ++ [(PAny, EBlock (EVar !"None"))])));
         public (txt "from_num") NoSelf [(txt "id", TyName (txt "usize"))] (Some (TyName (txt "Self"))) []
           (Some (EMatch (EVar !"id") (map (fun a => (PNum (fst a), EPath (txt "Self") (snd a))) from_num ++
                                [(PAny, EMacro (txt "panic") [EText (txt "invalid ID num {} " ++ n); EVar !"id"])])));
         public (txt "len") NoSelf [] (Some (TyName (txt "usize"))) [] (Some (ENum len));
         public (txt "to_num") ByRef [] (Some (TyName (txt "usize"))) []
           (Some (EMatch (EVar !"self") (map (fun a => (PPath n (fst a), ENum (snd a))) to_num)));
         public (txt "metadata") NoSelf [] (Some (TyStatic (TySlice static_str))) [] (Some (ERef (EArray (map EText metadata))));
         public (txt "to_str") ByRef [] (Some static_str) [] (Some (EIndex (path (txt "Self") (txt "metadata") []) (call0 (EVar !"self") "to_num")))]
       | _ => [] end.
Proof.
  pose proof (generated_ids old root t j d rows o I) as G. destruct (only_part old root T parts D _ G) as (part & H & A & B & V). cbn [decl_name ids_decl] in A, B, V.
  eexists. split; [exact A|]. inversion H; subst. split; [rewrite B; reflexivity|]. split.
  - intros v. rewrite V. unfold is_variant. cbn [existsb]. rewrite eqb_bytes_refl, !orb_false_r. cbn [andb]. clear. induction keys as [|k ks IH]; [reflexivity|]. cbn [map existsb fst]. f_equal. exact IH.
  - unfold own_fns. cbn [flat_map ids_decl]. rewrite eqb_bytes_refl. reflexivity.
Qed.

Local Notation ids := (ids_decl t keys).
Local Notation id_value v := (VMake (ids_type t) v []).
Let G : generated old root ids := generated_ids old root t j d rows o I.

Lemma arm_some {A} k (arms : list (text * A)) a : arm k arms = Some a -> In (k, a) arms.
Proof. induction arms as [|(x, b) arms IH]; [discriminate|]. cbn [arm]. destruct (eqb_bytes x k) eqn:E; [apply eqb_bytes_eq in E; subst x; intros X; apply Some_inj in X; subst b; left; reflexivity|intros X; right; exact (IH X)]. Qed.
Lemma num_arm_some {A} k (arms : list (Z * A)) a : num_arm k arms = Some a -> In (k, a) arms.
Proof. induction arms as [|(x, b) arms IH]; [discriminate|]. cbn [num_arm]. destruct (Z.eqb_spec x k) as [->|E]; [intros X; apply Some_inj in X; subst b; left; reflexivity|intros X; right; exact (IH X)]. Qed.
Lemma enumerate_in' {A} (l : list A) n e : In e (enumerate_from n l) -> In (snd e) l.
Proof. revert n. induction l as [|x l IH]; intros n H; [destruct H|]. cbn [enumerate_from In] in H. destruct H as [<-|H]; [left; reflexivity|right; exact (IH _ H)]. Qed.
Lemma arm_number {A} n k (arms : list (Z * A)) (F : A -> expr) rest :
  arm_for n (VNum k) (map (fun a => (PNum (fst a), F (snd a))) arms ++ rest) = match num_arm k arms with Some x => Some ([], F x) | None => arm_for n (VNum k) rest end.
Proof. induction arms as [|(x, a) arms IH]; [reflexivity|]. cbn [map app arm_for bound fst snd num_arm]. destruct (x =? k); [reflexivity|exact IH]. Qed.
Lemma arm_path {A} n a v (arms : list (text * A)) (F : A -> expr) : a <> !"Self" ->
  arm_for n (VMake a v []) (map (fun e => (PPath a (fst e), F (snd e))) arms) = match arm v arms with Some x => Some ([], F x) | None => None end.
Proof.
  intros N. induction arms as [|(x, b) arms IH]; [reflexivity|]. cbn [map arm_for bound fst snd arm]. rewrite named_other by exact N. rewrite eqb_bytes_refl. cbn [andb]. destruct (eqb_bytes x v); [reflexivity|exact IH].
Qed.

Lemma named_self n : named n !"Self" = n.
Proof. reflexivity. Qed.
Lemma is_id k : In k keys -> is_variant p (ids_type t) (variant_of k) = true.
Proof. intros H. destruct ids_part as (fns & _ & _ & V & _). rewrite V. apply existsb_exists. exists k. split; [exact H|apply eqb_bytes_refl]. Qed.
Lemma not_holder a : generated old root a -> one_of holders (decl_name a) = false.
Proof. intros H. apply not_one_of; [|exact (not_own old root _ H)]. intros x X. unfold own_names. rewrite !in_app_iff. tauto. Qed.
Lemma ids_fn f g vs w R : fn_named f (own_fns p (ids_type t)) = Some g -> Enter (ids_type t) g None vs w R -> Assoc (ids_type t) f vs w R.
Proof. intros N H. apply (run_assoc old root parts iter r told ids f g vs w R G); [|exact H]. cbn [decl_name ids_decl]. rewrite fn_named_app, N. reflexivity. Qed.
Lemma ids_method f g v vs w R : fn_named f (own_fns p (ids_type t)) = Some g -> Enter (ids_type t) g (Some (id_value v)) vs w R -> Method (id_value v) f vs w R.
Proof.
  intros N H. eapply conv_ext; [|exact H]. intros k. cbv beta. cbn [method_of]. rewrite (not_holder ids G : one_of holders (ids_type t) = false). unfold own_method. rewrite N. reflexivity.
Qed.

Lemma from_str_rule s w : Assoc (ids_type t) !"from_str" [VText s] w (Ok (of_opt (fun v => id_value v) (run_from_str ids s), w)).
Proof.
  destruct ids_part as (fns & F & _ & V & E). eapply ids_fn; [rewrite F, E; reflexivity|]. clear E. cbn [run_from_str ids_decl].
  eapply (enter_rule _ _ _ _ _ _ None); [apply lets_nil|]. cbn [and_then public f_value f_ret start_env f_args map combine app fst].
  set (arms := map (fun k : name * bool => (fst k, variant_of k)) keys).
  exists (Ok (of_opt (fun v => id_value v) (arm s arms), w)). split.
  - eapply ev_match; [apply ev_var; [shut|look]|]. rewrite (arm_text _ s arms (fun v => ECall (EVar !"Some") [EPath !"Self" v])).
    destruct (arm s arms) as [v|] eqn:A.
    + apply arm_some in A. apply in_map_iff in A as (k & A & K). apply pair_equal_spec in A as [_ <-]. cbn [app]. eapply ev_some; [apply ev_path; rewrite named_self; apply is_id, K|]. cbn [and_then]. rewrite named_self. reflexivity.
    + cbn [arm_for bound app]. eapply conv_R; [apply ev_block, ev_none|]. reflexivity.
  - destruct (arm s arms); reflexivity.
Qed.
Lemma from_num_rule i w : Assoc (ids_type t) !"from_num" [VNum i] w (gives (fun v => id_value v) w (run_from_num ids i)).
Proof.
  destruct ids_part as (fns & F & _ & V & E). eapply ids_fn; [rewrite F, E; reflexivity|]. clear E. cbn [run_from_num ids_decl].
  eapply (enter_rule _ _ _ _ _ _ None); [apply lets_nil|]. cbn [and_then public f_value f_ret start_env f_args map combine app fst].
  set (arms := map (fun e : Z * (name * bool) => (fst e, variant_of (snd e))) (enumerate keys)).
  exists (match num_arm i arms with Some v => Ok (id_value v, w) | None => Panic end). split.
  - eapply ev_match; [apply ev_var; [shut|look]|]. rewrite (arm_number _ i arms (fun v => EPath !"Self" v)).
    destruct (num_arm i arms) as [v|] eqn:A.
    + apply num_arm_some in A. apply in_map_iff in A as (k & A & K). apply pair_equal_spec in A as [_ <-]. cbn [app]. eapply conv_R; [apply ev_path; rewrite named_self; apply is_id; eapply enumerate_in'; exact K|rewrite named_self; reflexivity].
    + cbn [arm_for bound app]. apply ev_macro.
  - destruct (num_arm i arms); reflexivity.
Qed.
Lemma len_rule w : Assoc (ids_type t) !"len" [] w (Ok (VNum (zlen rows), w)).
Proof.
  destruct ids_part as (fns & F & _ & V & E). eapply ids_fn; [rewrite F, E; reflexivity|]. clear E.
  eapply enter_rule; [apply lets_nil|]. cbn [and_then public f_value f_ret start_env f_args map combine app fst]. eexists. split; [apply ev_num|]. cbn [and_then stamp]. unfold zlen, row_keys. rewrite map_length. reflexivity.
Qed.
Lemma texts_rule n G0 l w : EVs n G0 (map EText l) w (Ok (map (fun s => VText s) l, w)).
Proof. induction l as [|s l IH]; [apply evs_nil|]. cbn [map]. eapply evs_ok; [apply ev_text|exact IH]. Qed.
Lemma metadata_rule w : Assoc (ids_type t) !"metadata" [] w (Ok (VList (map (fun s => VText s) (map fst rows)), w)).
Proof.
  destruct ids_part as (fns & F & _ & V & E). eapply ids_fn; [rewrite F, E; reflexivity|]. clear E.
  eapply enter_rule; [apply lets_nil|]. cbn [and_then public f_value f_ret start_env f_args map combine app fst]. eexists. split; [apply ev_ref; eapply ev_array; [apply texts_rule|reflexivity]|].
  cbn [and_then stamp]. unfold row_keys. rewrite map_fst_map. reflexivity.
Qed.
Lemma to_num_rule v i w : run_to_num ids v = Ok i -> Method (id_value v) !"to_num" [] w (Ok (VNum i, w)).
Proof.
  intros H. destruct ids_part as (fns & F & _ & V & E). eapply ids_method; [rewrite F, E; reflexivity|]. clear E. cbn [run_to_num ids_decl] in H.
  eapply enter_rule; [apply lets_nil|]. cbn [and_then public f_value f_ret start_env f_args map combine app fst]. eexists. split.
  - eapply ev_match; [apply ev_var; [shut|look]|]. rewrite (arm_path _ (ids_type t) v _ (fun i => ENum i)) by exact (own_self old root _ G).
    destruct (arm v _) as [k|]; [|discriminate H]. apply Ok_inj in H. subst k. cbn [app]. apply ev_num.
  - reflexivity.
Qed.
Lemma to_str_rule v row w : run_to_str ids v = Ok row -> Method (id_value v) !"to_str" [] w (Ok (VText row, w)).
Proof.
  intros H. apply bind_ok in H as (i & H & H'). destruct ids_part as (fns & F & _ & V & E). eapply ids_method; [rewrite F, E; reflexivity|]. clear E.
  eapply enter_rule; [apply lets_nil|]. cbn [and_then public f_value f_ret start_env f_args map combine app fst]. eexists. split.
  - eapply ev_index.
    + unfold path. eapply ev_assoc; [apply evs_nil|]. cbn [and_then]. rewrite named_self. apply metadata_rule.
    + unfold call0. eapply method_rule; [apply ev_var; [shut|look]|apply to_num_rule; exact H].
    + reflexivity.
  - cbn [ids_decl] in H'. unfold row_keys in H'. rewrite map_fst_map in H'. unfold zget in *. destruct (i <? 0); [discriminate H'|].
    assert (N : nth_error (map fst rows) (Z.to_nat i) = Some row) by (destruct (nth_error (map fst rows) (Z.to_nat i)); [apply Ok_inj in H'; subst; reflexivity|discriminate H']).
    rewrite nth_error_map. match goal with |- and_then (match option_map _ ?x with _ => _ end) _ _ => replace x with (Some row) by (symmetry; exact N) end. reflexivity.
Qed.
End Ids.
End Asks.
