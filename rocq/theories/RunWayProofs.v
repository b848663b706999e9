(** Proof of C68: the ways of ReadModel, gone with the functions of a generated text. *)
From Coq Require Import String.
From Verif Require Import Base StringCompactionModel StringCompactionProofs LinkedModel LinkedSpec DocModel DiffSpec DiffProofs ArchiveModel JsonModel IntfModel GenModel GenSpec GenNameProofs GenProofs GenWellProofs.
From Verif Require Import CodeSpec ApiModel TypeSpec TypeProofs TypeGenProofs ReadModel RunModel RunSpec RunProofs RunGenProofs.

Local Notation text := (list Z).
Local Notation "! s" := (txt s%string) (at level 0, s at level 0).

Section Ways.
Variable old : list name.
Variable iter : forall A, hmap A -> hmap A.
Variable r : root_obj.
Variable told : effect -> bool.
Local Notation root := (ro_default r).
Hypothesis T : tame root.
Variable parts : list (list item).
Hypothesis D : Forall2 declares (generate old root) parts.
Local Notation p := (concat parts).

Local Notation EV := (EV p iter r told).
Local Notation EVs := (EVs p iter r told).
Local Notation Enter := (Enter p iter r told).
Local Notation Assoc := (Assoc p iter r told).
Local Notation Method := (Method p iter r told).
Local Notation makes := (makes p iter r told).
Local Notation run_method := (run_method old root T parts D iter r told).

(* ------------------------------------------------------------------ *)
(** * What is in the document *)

Lemma root_get t v : In (t, v) root -> hget t root = Some v.
Proof. apply in_hget, (t_keys root T). Qed.
Lemma root_snake_name t v : In (t, v) root -> to_snake_name t = t.
Proof. intros I. apply ordinary_snake, (t_names root T t v I). Qed.
Lemma member_get stem l key v : listed root stem l -> In (key, v) (ld_members l) -> hget key (ld_members l) = Some v.
Proof. intros L I. apply in_hget; [apply (t_members root T stem l L)|exact I]. Qed.
Lemma member_snake stem l key v : listed root stem l -> In (key, v) (ld_members l) -> to_snake_name key = key.
Proof. intros L I. apply ordinary_snake. exact (proj2 (t_members root T stem l L) key v I). Qed.
Lemma refs_get' stem l key v : listed root stem l -> In (key, v) (ld_refs l) -> hget key (ld_refs l) = Some v.
Proof. intros L I. apply in_hget; [apply (t_refs root T stem l L)|exact I]. Qed.
Lemma ref_snake stem l key v : listed root stem l -> In (key, v) (ld_refs l) -> to_snake_name key = key.
Proof. intros L I. destruct (ref_table root T stem l key v L I) as (i & d & rows & o & H). exact (root_snake_name key _ H). Qed.
Lemma listed_of (c : bool) stem l : (if c then clisted root stem l else mlisted root stem l) -> listed root stem l.
Proof. destruct c; [apply clisted_listed|apply mlisted_listed]. Qed.

(** the methods there are *)
Definition methods (c : bool) (stem : name) (l : ldef def) : list meth := if c then citem_methods stem l else mitem_methods stem l.
Definition at_of (c : bool) : place := if c then AtCItem else AtMItem.
Lemma item_gen (c : bool) stem l : (if c then clisted root stem l else mlisted root stem l) -> generated old root (DStruct (item_type c stem) (methods c stem l)).
Proof. destruct c; [apply generated_citem|apply generated_mitem]. Qed.

Lemma param_in (c : bool) stem l key i p0 vt m : In (key, (i, DParam p0 vt)) (ld_members l) ->
  In m (param_methods (at_of c) (type_of p0) vt key (contains (ld_old l) key)) -> In m (methods c stem l).
Proof.
  intros I M. destruct c; unfold methods, citem_methods, mitem_methods; apply in_or_app; left; apply in_flat_map; exists (key, (i, DParam p0 vt)); (split; [exact I|exact M]).
Qed.
Lemma refs_in (c : bool) stem l m : In m (refs_get (at_of c) stem l) -> In m (methods c stem l).
Proof. intros M. destruct c; unfold methods, citem_methods, mitem_methods; apply in_or_app; right; [exact M|apply in_or_app; left; exact M]. Qed.
Lemma ref_in (c : bool) stem l key i q vt m : ld_enum l = false -> In (key, (i, (q, vt))) (ld_refs l) ->
  In m (ref_get (at_of c) key vt (contains (ld_ref_old l) key)) -> In m (methods c stem l).
Proof. intros E I M. apply refs_in. unfold refs_get. rewrite E. apply in_flat_map. exists (key, (i, (q, vt))). split; [exact I|exact M]. Qed.
Lemma set_in stem (l : ldef def) m : In m (refs_set stem l) -> In m (mitem_methods stem l).
Proof. intros M. unfold mitem_methods. apply in_or_app. right. apply in_or_app. right. exact M. Qed.

Lemma root_in key i v m : In (key, (i, v)) root ->
  In m (match v with
        | WParam p0 vt => param_methods AtRoot (type_of p0) vt key (contains old key)
        | WTable _ _ _ => [table_method key (contains old key)]
        | WCList _ _ => [const_method AtRoot key (contains old key)]
        | WMList _ u => list_methods AtRoot u key (contains old key)
        end) -> In m (root_methods old (strip_root root)).
Proof.
  intros I M. unfold root_methods. apply in_or_app. right. apply in_flat_map. exists (key, (i, strip v)). split.
  - unfold strip_root. apply in_map_iff. exists (key, (i, v)). split; [reflexivity|exact I].
  - destruct v; exact M.
Qed.

(* ------------------------------------------------------------------ *)
(** * Calls *)

Lemma root_points : points_to root_value PRoot.
Proof. eexists. eexists. split; [reflexivity|]. look. Qed.
Lemma item_points n l s : points_to (item_value n l s) (PItem l s).
Proof. eexists. eexists. split; [reflexivity|]. look. Qed.

Lemma root_method m vs w R : In m (root_methods old (strip_root root)) -> (forall f, written m f -> Enter !"RootIntf" f (Some root_value) vs w R) -> Method root_value (m_name m) vs w R.
Proof. intros I H. eapply run_method; [apply generated_root|exact I|reflexivity|exact H]. Qed.
Lemma item_method (c : bool) stem l a s v m vs w R : (if c then clisted root stem l else mlisted root stem l) -> In m (methods c stem l) -> bare v = item_value (item_type c stem) a s ->
  (forall f, written m f -> Enter (item_type c stem) f (Some (item_value (item_type c stem) a s)) vs w R) -> Method v (m_name m) vs w R.
Proof. intros L I B H. eapply run_method; [apply item_gen, L|exact I|exact B|exact H]. Qed.

Lemma in_first {A} (x : A) l : In x (x :: l). Proof. left. reflexivity. Qed.
Lemma in_second {A} (x y : A) l : In x (y :: x :: l). Proof. right. left. reflexivity. Qed.

(** tables and rows *)
Definition table_value' t rows l : val := VGuard !"CTableConst" (Some (table_type t)) (VStruct (table_type t) [(!"ptr", VPtr (PTable (rows, Def l)))]).
Lemma call_table t i l rows o w : In (t, (i, WTable (Def l) rows o)) root ->
  Method root_value (with_old t (contains old t)) [] w (Ok (table_value' t rows l, w)).
Proof.
  intros I. pose proof (root_method (table_method t (contains old t)) [] w (Ok (table_value' t rows l, w))) as X.
  unfold table_method in X. cbn [m_name] in X. rewrite (root_snake_name t _ I) in X. apply X; clear X.
  - eapply root_in; [exact I|]. unfold table_method. rewrite (root_snake_name t _ I). apply in_first.
  - intros f W. eapply conv_R; [eapply table_rule; [exact root_points| | |exact W]|].
    + exact (own_self old root _ (generated_table old root t i (Def l) rows o I)).
    + intros x. eapply (table_makes old root T parts D iter r told); exact I.
    + unfold root_table. rewrite (root_get t _ I). reflexivity.
Qed.
Lemma table_clisted' t i l rows o : In (t, (i, WTable (Def l) rows o)) root -> clisted root t l.
Proof. intros I. eapply clisted_table; exact I. Qed.
Lemma row_name t i l rows o row it : In (t, (i, WTable (Def l) rows o)) root -> In (row, it) rows -> to_snake_name row = row.
Proof. intros I J. apply ordinary_snake. exact (proj2 (proj2 (t_rows root T t i (Def l) rows o I)) row it J). Qed.
Lemma row_get t i l rows o row it : In (t, (i, WTable (Def l) rows o)) root -> In (row, it) rows -> hget row rows = Some it.
Proof. intros I J. apply in_hget; [exact (proj1 (proj2 (t_rows root T t i (Def l) rows o I)))|exact J]. Qed.
Lemma row_in t rows o row it b : In (row, it) rows ->
  In (Meth (if b : bool then key_name row (contains o row) ++ !"_us" else key_name row (contains o row)) [] (CRow b row) [citem_type t] [citem_type t]) (table_methods t (row_keys rows o)).
Proof.
  intros J. unfold table_methods. right. apply in_or_app. left. apply in_flat_map. exists (row, contains o row). split.
  - unfold row_keys. apply in_map_iff. exists (row, it). split; [reflexivity|exact J].
  - unfold row_methods. destruct b; cbn [fst snd]; [apply in_first|apply in_second].
Qed.
Lemma call_row t i l rows o row it w : In (t, (i, WTable (Def l) rows o)) root -> In (row, it) rows ->
  Method (table_value' t rows l) (with_old row (contains o row)) [] w (Ok (VGuard !"CItemConst" (Some (citem_type t)) (item_value (citem_type t) [] (it, Def l)), w)).
Proof.
  intros I J. pose proof (row_in t rows o row it false J) as M. cbv iota in M. unfold key_name in M. rewrite (row_name t i l rows o row it I J) in M.
  eapply (run_method _ _ _ _ _ _ w _ (generated_table old root t i (Def l) rows o I) M); [reflexivity|]. intros f W.
  eapply conv_R; [eapply row_rule; [| |exact W]|].
  - eexists. eexists. split; [reflexivity|]. look.
  - intros s. eapply (citem_makes old root T parts D iter r told); eapply table_clisted'; exact I.
  - unfold table_value. cbn [fst snd]. rewrite (row_get t i l rows o row it I J). reflexivity.
Qed.

(** constant lists *)
Lemma call_clist t i l items w : In (t, (i, WCList (Def l) items)) root ->
  Method root_value (with_old t (contains old t)) [] w (Ok (VGuard !"CListConst" (Some (citem_type t)) (VPtr (PCList (items, Def l))), w)).
Proof.
  intros I. pose proof (root_method (const_method AtRoot t (contains old t)) [] w (Ok (VGuard !"CListConst" (Some (citem_type t)) (VPtr (PCList (items, Def l))), w))) as X.
  unfold const_method in X. cbn [m_name] in X. rewrite (root_snake_name t _ I) in X. apply X; clear X.
  - eapply root_in; [exact I|]. unfold const_method. rewrite (root_snake_name t _ I). apply in_first.
  - intros f W. eapply conv_R; [eapply const_rule; [exact root_points| |exact W]; exact Logic.I|]. cbn [const_at]. unfold root_clist. rewrite (root_get t _ I). reflexivity.
Qed.
Lemma call_cil stem l key i l' a s v w : clisted root stem l -> In (key, (i, DCil (Def l'))) (ld_members l) -> bare v = item_value (citem_type stem) a s -> snd s = Def l ->
  exists items, spot_cil s key = Some (items, Def l') /\
  Method v (with_old key (contains (ld_old l) key)) [] w (Ok (VGuard !"CListConst" (Some (citem_type key)) (VPtr (PCList (items, Def l'))), w)).
Proof.
  intros C I B S. pose proof (clisted_listed _ _ _ C) as L.
  assert (X : exists items, spot_cil s key = Some (items, Def l')).
  { unfold spot_cil. rewrite S. cbn [undef]. rewrite (member_get stem l key _ L I). destruct (hget key (ci_values (fst s))) as [[]|]; eexists; reflexivity. }
  destruct X as (items & X). exists items. split; [exact X|].
  pose proof (item_method true stem l a s v (const_method AtCItem key (contains (ld_old l) key)) [] w (Ok (VGuard !"CListConst" (Some (citem_type key)) (VPtr (PCList (items, Def l'))), w)) C) as Y.
  unfold const_method in Y. cbn [m_name] in Y. rewrite (member_snake stem l key _ L I) in Y. apply Y; clear Y.
  - cbn [methods]. unfold citem_methods. apply in_or_app. left. apply in_flat_map. exists (key, (i, DCil (Def l'))). split; [exact I|]. unfold const_method. rewrite (member_snake stem l key _ L I). apply in_first.
  - exact B.
  - intros f W. eapply conv_R; [eapply const_rule; [apply item_points| |exact W]; exact Logic.I|]. cbn [const_at]. rewrite X. reflexivity.
Qed.
Lemma call_value t l items k w : clisted root t l ->
  Method (VGuard !"CListConst" (Some (citem_type t)) (VPtr (PCList (items, Def l)))) !"value" [VNum (Z.of_nat k)] w
    (match clist_value (items, Def l) k with Ok s => Ok (VGuard !"CItemConst" (Some (citem_type t)) (item_value (citem_type t) [] s), w) | Err => Err | Panic => Panic end).
Proof.
  intros C. assert (X : conv (fun k0 => fun w => match clist_value (items, Def l) k with Ok s => converted p (eval p iter r told k0) !"CItemConst" (citem_type t) (PItem [] s) w | Err => Err | Panic => Panic end) w
     (match clist_value (items, Def l) k with Ok s => Ok (VGuard !"CItemConst" (Some (citem_type t)) (item_value (citem_type t) [] s), w) | Err => Err | Panic => Panic end)).
  { destruct (clist_value (items, Def l) k) as [s| |]; [|apply conv_now; reflexivity..].
    apply (converted_rule parts iter r told _ _ !"CItemPtr"). eapply (citem_from old root T parts D); exact C. }
  eapply conv_ext; [|exact X]. intros k0. cbn [method_of]. unfold guard_fn. change (eqb_bytes !"CListConst" !"CListConst" && eqb_bytes !"value" !"value") with true. cbv iota. rewrite Nat2Z.id. reflexivity.
Qed.

(** mutable lists *)
Definition list_of n a key items d : val := VGuard !"MListConst" (Some n) (VPtr (PMList a key items d)).
Lemma call_mlist t i l u w : In (t, (i, WMList (Def l) u)) root ->
  Method root_value (with_old t (contains old t)) [] w
    (gives (fun x => if u then of_opt (fun items => list_of (mitem_type t) [] t items (Def l)) (fst x) else match fst x with Some items => list_of (mitem_type t) [] t items (Def l) | None => VUnit end) w (get_list u (root_mlist r t))).
Proof.
  intros I. set (R := gives _ w _). pose proof (root_method (Meth (with_old t (contains old t)) [] (CList AtRoot u t) [mitem_type t] []) [] w R) as X. cbn [m_name] in X. apply X; clear X.
  - eapply root_in; [exact I|]. unfold list_methods. rewrite (root_snake_name t _ I). apply in_first.
  - assert (Q : match root_mlist r t with Some (_, d) => d = Def l | None => True end).
    { unfold root_mlist. rewrite (root_get t _ I). destruct (hget t (ro_sabun r)) as [[]|]; exact Logic.I || reflexivity. }
    intros f W. unfold R. destruct u.
    + eapply conv_R; [eapply list_maybe_rule; [exact root_points|exact W]|]. cbn [list_at]. destruct (root_mlist r t) as [[[items|] d]|]; [subst d..|]; reflexivity.
    + eapply conv_R; [eapply list_rule; [exact root_points|exact W]|]. cbn [list_at]. destruct (root_mlist r t) as [[[items|] d]|]; [subst d..|]; reflexivity.
Qed.
Lemma call_mil stem l key i l' u a s v w : mlisted root stem l -> In (key, (i, DMil (Def l') u)) (ld_members l) -> bare v = item_value (mitem_type stem) a s -> snd s = Def l ->
  Method v (with_old key (contains (ld_old l) key)) [] w
    (gives (fun x => if u then of_opt (fun items => list_of (mitem_type key) a key items (Def l')) (fst x) else match fst x with Some items => list_of (mitem_type key) a key items (Def l') | None => VUnit end) w (get_list u (spot_mil s key))).
Proof.
  intros C I B S. pose proof (mlisted_listed _ _ _ C) as L. set (R := gives _ w _).
  pose proof (item_method false stem l a s v (Meth (with_old key (contains (ld_old l) key)) [] (CList AtMItem u key) [mitem_type key] []) [] w R C) as X. cbn [m_name] in X. apply X; clear X.
  - cbn [methods]. unfold mitem_methods. apply in_or_app. left. apply in_flat_map. exists (key, (i, DMil (Def l') u)). split; [exact I|]. unfold list_methods. rewrite (member_snake stem l key _ L I). apply in_first.
  - exact B.
  - assert (Q : match spot_mil s key with Some (_, d) => d = Def l' | None => True end).
    { unfold spot_mil. rewrite S. cbn [undef]. rewrite (member_get stem l key _ L I). destruct (hget key (ci_values (fst s))) as [[]|]; reflexivity. }
    intros f W. unfold R. destruct u.
    + eapply conv_R; [eapply list_maybe_rule; [apply item_points|exact W]|]. cbn [list_at]. destruct (spot_mil s key) as [[[items|] d]|]; [subst d..|]; reflexivity.
    + eapply conv_R; [eapply list_rule; [apply item_points|exact W]|]. cbn [list_at]. destruct (spot_mil s key) as [[[items|] d]|]; [subst d..|]; reflexivity.
Qed.
Lemma call_get_item t l a key items id w : mlisted root t l ->
  Method (list_of (mitem_type t) a key items (Def l)) !"get_item" [VNum id] w
    (Ok (of_opt (fun s => VGuard !"MItemConst" (Some (mitem_type t)) (item_value (mitem_type t) (a ++ [(key, id)]) s)) (mlist_item items (Def l) id), w)).
Proof.
  intros C.
  assert (X : conv (fun k => match mlist_item items (Def l) id with Some s => seq (converted p (eval p iter r told k) !"MItemConst" (mitem_type t) (PItem (a ++ [(key, id)]) s)) (fun v => ret (some v)) | None => ret none end) w
    (Ok (of_opt (fun s => VGuard !"MItemConst" (Some (mitem_type t)) (item_value (mitem_type t) (a ++ [(key, id)]) s)) (mlist_item items (Def l) id), w))).
  { destruct (mlist_item items (Def l) id) as [s|]; [|apply conv_now; reflexivity].
    eapply conv_seq; [apply (converted_rule parts iter r told _ _ !"MItemPtr"); eapply (mitem_from old root T parts D); exact C|]. cbn [and_then]. apply conv_now. reflexivity. }
  eapply conv_ext; [|exact X]. intros k. reflexivity.
Qed.

(* ------------------------------------------------------------------ *)
(** * References and enums *)

Lemma call_ref (c : bool) stem l key i q vt j l' rows o a s v w : (if c then clisted root stem l else mlisted root stem l) -> ld_enum l = false -> In (key, (i, (q, vt))) (ld_refs l) ->
  In (key, (j, WTable (Def l') rows o)) root -> bare v = item_value (item_type c stem) a s -> snd s = Def l ->
  Method v (!"ref_" ++ with_old key (contains (ld_ref_old l) key)) [] w (gives (as_marked (item_value (citem_type key) []) vt) w (get_ref r s key)).
Proof.
  intros C E I J B S. pose proof (listed_of c stem l C) as L. set (R := gives _ w _).
  pose proof (item_method c stem l a s v (Meth (!"ref_" ++ with_old key (contains (ld_ref_old l) key)) [] (CRef (at_of c) vt key) [citem_type key] [citem_type key]) [] w R C) as X. cbn [m_name] in X. apply X; clear X.
  - eapply ref_in; [exact E|exact I|]. unfold ref_get. rewrite (ref_snake stem l key _ L I). apply in_first.
  - exact B.
  - intros f W. eapply conv_R; [eapply ref_rule; [|apply item_points| |exact W]|].
    + destruct c; discriminate.
    + intros x. eapply (citem_makes old root T parts D iter r told); eapply table_clisted'; exact J.
    + unfold R, get_ref. rewrite S. cbn [undef]. rewrite E, (refs_get' stem l key _ L I). reflexivity.
Qed.

(** arms *)
Lemma arm_text {A} n s (arms : list (name * A)) (F : A -> expr) rest :
  arm_for n (VText s) (map (fun a => (PText (fst a), F (snd a))) arms ++ rest) = match arm s arms with Some x => Some ([], F x) | None => arm_for n (VText s) rest end.
Proof. induction arms as [|(x, a) arms IH]; [reflexivity|]. cbn [map app arm_for bound fst snd arm]. destruct (eqb_bytes x s); [reflexivity|exact IH]. Qed.

Lemma enum_gen (c : bool) stem l : (if c then clisted root stem l else mlisted root stem l) -> ld_enum l = true -> generated old root (enum_decl stem l).
Proof. destruct c; [apply generated_cenum|apply generated_menum]. Qed.

Lemma enum_arm n key ptr_ (l : list name) n' rest :
  arm_for n (VText key) (map (fun e => (PText (fst (fst e)), path n' (snd (fst e)) [path (snd (snd e)) !"from" [ptr_]]))
     (combine (map (fun key => (key, to_type_name key)) l) (map (fun key => (to_type_name key, citem_type key)) l)) ++ rest) =
  if existsb (eqb_bytes key) l then Some ([], path n' (to_type_name key) [path (citem_type key) !"from" [ptr_]]) else arm_for n (VText key) rest.
Proof.
  induction l as [|x l IH]; [reflexivity|]. cbn [map combine app arm_for bound fst snd existsb]. destruct (eqb_bytes x key) eqn:E.
  - apply eqb_bytes_eq in E. subst x. rewrite eqb_bytes_refl. reflexivity.
  - rewrite IH. assert (X : eqb_bytes key x = false) by (apply eqb_other'; intros Y; subst x; rewrite eqb_bytes_refl in E; discriminate E). rewrite X. reflexivity.
Qed.
Lemma existsb_refs {A} key (m : hmap A) : existsb (eqb_bytes key) (map fst m) = is_some (hget key m).
Proof.
  induction m as [|(x, a) m IH]; [reflexivity|]. cbn [map existsb hget fst]. destruct (eqb_bytes x key) eqn:E.
  - apply eqb_bytes_eq in E. subst x. rewrite eqb_bytes_refl. reflexivity.
  - rewrite IH. assert (X : eqb_bytes key x = false) by (apply eqb_other'; intros Y; subst x; rewrite eqb_bytes_refl in E; discriminate E). rewrite X. reflexivity.
Qed.
Definition enum_value stem key s : val := VMake (enum_type stem) (to_type_name key) [item_value (citem_type key) [] s].

Lemma call_enum_new (c : bool) stem l key row w : (if c then clisted root stem l else mlisted root stem l) -> ld_enum l = true ->
  Assoc (enum_type stem) !"new" [VText key; VPtr (PItem [] row)] w (if is_some (hget key (ld_refs l)) then Ok (enum_value stem key row, w) else Panic).
Proof.
  intros C E. pose proof (enum_gen c stem l C E) as G. destruct (only_part old root T parts D _ G) as (part & H & A & B & V). cbn [decl_name enum_decl] in A, B, V.
  pose proof (listed_of c stem l C) as L.
  inversion H as [| | | | |n vs new F E1 E2|]; subst.
  set (g := public _ _ _ _ _ _) in A, B, V.
  assert (A' : own_fns p (enum_type stem) = [g]).
  { rewrite A. unfold own_fns. cbn [flat_map]. rewrite eqb_bytes_refl. reflexivity. }
  eapply (run_assoc old root parts iter r told (enum_decl stem l) !"new" g); [exact G|cbn [decl_name enum_decl]; rewrite A'; reflexivity|]. cbn [decl_name enum_decl].
  eapply enter_rule; [apply lets_nil|]. cbn [and_then g public f_value f_ret start_env f_args map combine app fst].
  assert (X : EV (enum_type stem) [(!"list_name", VText key); (!"ptr", VPtr (PItem [] row))]
     (EMatch (EVar !"list_name") (map (fun e => (PText (fst (fst e)), path (enum_type stem) (snd (fst e)) [path (snd (snd e)) !"from" [EVar !"ptr"]]))
        (combine (map (fun key => (key, to_type_name key)) (map fst (ld_refs l))) (map (fun key => (to_type_name key, citem_type key)) (map fst (ld_refs l)))) ++
        [(PAny, EMacro !"panic" [EText (enum_type stem ++ !" there's no enum type named {}"); ERef (EVar !"list_name")])])) w
     (if is_some (hget key (ld_refs l)) then Ok (enum_value stem key row, w) else Panic)).
  { eapply ev_match; [apply ev_var; [shut|look]|]. rewrite enum_arm, existsb_refs. destruct (hget key (ld_refs l)) as [x|] eqn:K; cbn [is_some arm_for bound].
    - apply DiffProofs.hget_in in K. destruct (ref_table root T stem l key x L K) as (i & [l'] & rows & o & I). cbn [app]. unfold path at 1. eapply ev_assoc.
      + eapply evs_ok; [eapply makes_rule; [eapply (citem_makes old root T parts D iter r told), table_clisted'; exact I|apply ev_var; [shut|look]]|apply evs_nil].
      + cbn [and_then]. rewrite named_other by exact (own_self old root _ G). eapply conv_ext; [|apply (conv_now (fun _ => ret (enum_value stem key row))); reflexivity]. intros k. cbv beta.
        rewrite (assoc_out parts iter r told) by exact (not_own old root _ G). fold p. rewrite A', B. unfold trait_fns. cbn [flat_map app].
        assert (N : to_type_name key <> !"new").
        { destruct (type_name_shape key (proj1 (proj1 (t_names root T key _ I)))) as (c0 & r0 & Q & U & _). rewrite Q. intros Y. apply (f_equal (hd 0)) in Y. cbn [hd] in Y. revert U. rewrite Y. vm_compute. intros [_ U]. apply U. reflexivity. }
        unfold fn_named. cbn [find g public f_name]. rewrite (eqb_other' _ _ (not_eq_sym N)). rewrite V. unfold is_variant. cbn [existsb]. rewrite eqb_bytes_refl. cbn [andb].
        replace (existsb _ _) with true; [reflexivity|]. symmetry. apply existsb_exists. exists (to_type_name key, Some (TyName (citem_type key))). split; [|apply eqb_bytes_refl].
        apply in_map_iff. exists (to_type_name key, citem_type key). split; [reflexivity|]. apply in_map_iff. exists key. split; [reflexivity|]. apply in_map_iff. exists (key, x). split; [reflexivity|exact K].
    - apply ev_macro. }
  eexists. split; [exact X|]. destruct (is_some (hget key (ld_refs l))); reflexivity.
Qed.

Lemma spot_ref_err s key : spot_ref r s key <> Err.
Proof. unfold spot_ref. destruct (spot_ref_id s key) as [[]|]; try discriminate. destruct (root_table r key); discriminate. Qed.

Lemma call_enum (c : bool) stem l a s v w : (if c then clisted root stem l else mlisted root stem l) -> ld_enum l = true -> bare v = item_value (item_type c stem) a s -> snd s = Def l ->
  Method v !"get_enum" [] w (gives (fun e => enum_value stem (fst e) (snd e)) w (get_enum iter r s)).
Proof.
  intros C E B S. set (R := gives _ w _).
  pose proof (item_method c stem l a s v (Meth !"get_enum" [] (CEnum (at_of c)) [enum_type stem] []) [] w R C) as X. cbn [m_name] in X. apply X; clear X.
  - apply refs_in. unfold refs_get. rewrite E. apply in_first.
  - exact B.
  - intros f W. eapply enum_rule; [| | | |exact W].
    + destruct c; discriminate.
    + apply item_points.
    + exact (own_self old root _ (enum_gen c stem l C E)).
    + unfold R, get_enum. rewrite S. cbn [undef]. rewrite E. destruct (spot_enum iter s) as [e|]; [|reflexivity]. cbn [need Base.bind].
      pose proof (spot_ref_err s (fst e)) as N. destruct (spot_ref r s (fst e)) as [[[row| |]|]| |]; try reflexivity; [|contradiction]. cbn [need Base.bind].
      eexists. split; [apply (call_enum_new c stem l (fst e) row w C E)|]. destruct (is_some (hget (fst e) (ld_refs l))); reflexivity.
Qed.
Lemma call_enum_ids (c : bool) stem l a s v w : (if c then clisted root stem l else mlisted root stem l) -> ld_enum l = true -> bare v = item_value (item_type c stem) a s ->
  Method v !"get_enum_ids" [] w (match spot_enum iter s with Some e => Ok (VPair (VText (fst e)) (VText (snd e)), w) | None => Panic end).
Proof.
  intros C E B. set (R := match spot_enum iter s with Some _ => _ | None => _ end).
  pose proof (item_method c stem l a s v (Meth !"get_enum_ids" [] (CEnumIds (at_of c)) [] []) [] w R C) as X. cbn [m_name] in X. apply X; clear X.
  - apply refs_in. unfold refs_get. rewrite E. apply in_second.
  - exact B.
  - intros f W. eapply enum_ids_rule; [| |exact W]; [destruct c; discriminate|apply item_points].
Qed.

(* ------------------------------------------------------------------ *)
(** * Ways *)

Lemma goes_listed w c stem l e : goes old root w c stem l e -> if c then clisted root stem l else mlisted root stem l.
Proof.
  induction 1 as [t i l rows o row it I J|t i l items k I|t i l u id I|w stem l e key i l' k G IH I|w stem l e key i l' u id G IH I|w c stem l e key i q vt j l' rows o G IH E I J|w c stem l e key v j l' rows o G IH E I J].
  - eapply clisted_table; exact I.
  - eapply clisted_clist; exact I.
  - eapply mlisted_mlist; exact I.
  - eapply clisted_cil; [exact IH|exact I].
  - eapply mlisted_mil; [exact IH|exact I].
  - eapply clisted_table; exact J.
  - eapply clisted_table; exact J.
Qed.

Lemma ref_spot s key j l' rows o x : In (key, (j, WTable (Def l') rows o)) root -> spot_ref r s key = Ok (Some (Val x)) -> snd x = Def l'.
Proof.
  intros J. unfold spot_ref, root_table. rewrite (root_get key _ J). destruct (spot_ref_id s key) as [[id| |]|]; try discriminate. unfold table_value. cbn [fst snd]. intros H. apply Ok_inj in H.
  destruct (hget id rows); [|discriminate H]. cbn [option_map] in H. injection H as <-. reflexivity.
Qed.
Lemma unwrapped_again vt o (q : qv spot) : unwrapped vt o = Ok q -> o = Some q /\ unwrapped vt (Some q) = Ok q.
Proof. destruct vt, o as [[]|]; cbn [unwrapped]; intros H; try discriminate H; apply Ok_inj in H; subst q; split; reflexivity. Qed.

Lemma goes_spot w c stem l e : goes old root w c stem l e -> match visit iter r w with Ok (Some s) => snd s = Def l | _ => True end.
Proof.
  induction 1 as [t i l rows o row it I J|t i l items k I|t i l u id I|w stem l e key i l' k G IH I|w stem l e key i l' u id G IH I|w c stem l e key i q vt j l' rows o G IH E I J|w c stem l e key v j l' rows o G IH E I J]; cbn [visit].
  - unfold root_table. rewrite (root_get t _ I). cbn [need Base.bind]. unfold table_value. cbn [fst snd]. destruct (hget row rows); [reflexivity|exact Logic.I].
  - unfold root_clist. rewrite (root_get t _ I). cbn [need Base.bind]. unfold clist_value. cbn [fst snd]. destruct (nth_error items k); [reflexivity|exact Logic.I].
  - rewrite (root_get t _ I). unfold root_mlist. rewrite (root_get t _ I). destruct (hget t (ro_sabun r)) as [[?|[[? ?]|]]|]; [exact Logic.I| | |exact Logic.I]; unfold get_list; cbn [need Base.bind option_map fst].
    + unfold item_of_list, mlist_item. cbn [fst snd]. destruct (lookup id _); [reflexivity|exact Logic.I].
    + destruct u; exact Logic.I.
  - destruct (visit iter r w) as [[s|]| |]; try exact Logic.I. cbn [Base.bind]. pose proof (member_get stem l key _ (clisted_listed _ _ _ (goes_listed _ _ _ _ _ G)) I) as M. unfold spot_cil. rewrite IH. cbn [undef]. rewrite M.
    destruct (hget key (ci_values (fst s))) as [[]|]; cbn [need Base.bind]; unfold clist_value; cbn [fst snd]; destruct (nth_error _ k); try exact Logic.I; reflexivity.
  - destruct (visit iter r w) as [[s|]| |]; try exact Logic.I. cbn [Base.bind]. pose proof (member_get stem l key _ (mlisted_listed _ _ _ (goes_listed _ _ _ _ _ G)) I) as M. unfold spot_mil. rewrite IH. cbn [undef]. rewrite M.
    destruct (hget key (ci_values (fst s))) as [[| |[[]|]]|]; unfold get_list; cbn [need Base.bind option_map fst]; try (destruct u; exact Logic.I);
      unfold item_of_list, mlist_item; cbn [fst snd]; destruct (lookup id _); try exact Logic.I; reflexivity.
  - destruct (visit iter r w) as [[s|]| |]; try exact Logic.I. cbn [Base.bind]. unfold get_ref. rewrite IH. cbn [undef]. rewrite E, (refs_get' stem l key _ (listed_of c _ _ (goes_listed _ _ _ _ _ G)) I).
    destruct (spot_ref r s key) as [x| |] eqn:F; cbn [Base.bind]; try exact Logic.I. destruct (unwrapped vt x) as [y| |] eqn:U; cbn [Base.bind]; try exact Logic.I.
    apply unwrapped_again in U as (-> & _). destruct y as [y| |]; try exact Logic.I. eapply ref_spot; [exact J|exact F].
  - destruct (visit iter r w) as [[s|]| |]; try exact Logic.I. cbn [Base.bind]. unfold get_enum. rewrite IH. cbn [undef]. rewrite E. destruct (spot_enum iter s) as [[k id]|]; cbn [need Base.bind fst]; [|exact Logic.I].
    destruct (spot_ref r s k) as [[[x| |]|]| |] eqn:F; cbn [need Base.bind]; try exact Logic.I. destruct (is_some (hget k (ld_refs l))); cbn [Base.bind fst snd]; [|exact Logic.I].
    destruct (eqb_bytes k key) eqn:K; [|exact Logic.I]. apply eqb_bytes_eq in K. subst k. eapply ref_spot; [exact J|exact F].
Qed.

Lemma if_some_rule {A} n G x e a w (F : A -> val) (o : res (option A)) R : EV n G e w (gives (of_opt F) w o) ->
  match o with Ok (Some s) => EV n ((x, F s) :: G) a w R | Ok None => R = Ok (none, w) | Err => R = Err | Panic => R = Panic end -> EV n G (if_some x e a) w R.
Proof.
  intros H K. unfold if_some. eapply ev_iflet; [exact H|]. destruct o as [[s|]| |]; cbn [gives and_then of_opt]; try exact K.
  subst R. apply ev_none.
Qed.
Lemma if_val_rule {A} n G e w (F : A -> val) vt (o : res (qv A)) : EV n G e w (gives (as_marked F vt) w o) -> (forall q, o = Ok q -> unwrapped vt (Some q) = Ok q) ->
  EV n G (if_val vt e) w (gives (of_opt F) w (q <- o ; Ok (match q with Val x => Some x | _ => None end))).
Proof.
  intros H U. destruct o as [q| |]; cbn [gives Base.bind] in *.
  2,3: destruct vt; cbn [if_val]; [eapply ev_some; [exact H|reflexivity]|eapply ev_iflet; [exact H|reflexivity]..].
  specialize (U q eq_refl). destruct vt, q; cbn [unwrapped] in U; try discriminate U; cbn [if_val as_marked of_qv of_opt] in *.
  - eapply ev_some; [exact H|reflexivity].
  - eapply ev_iflet; [exact H|]. cbn [and_then bound]. rewrite named_closed by shut. change (eqb_bytes !"NullOr" !"NullOr" && eqb_bytes !"Val" !"Val") with true. cbv iota. eapply ev_some; [apply ev_var; [shut|look]|reflexivity].
  - eapply ev_iflet; [exact H|]. apply ev_none.
  - eapply ev_iflet; [exact H|]. cbn [and_then bound]. rewrite named_closed by shut. change (eqb_bytes !"UndefOr" !"UndefOr" && eqb_bytes !"Val" !"Val") with true. cbv iota. eapply ev_some; [apply ev_var; [shut|look]|reflexivity].
  - eapply ev_iflet; [exact H|]. apply ev_none.
  - eapply ev_iflet; [exact H|]. cbn [and_then bound]. rewrite named_closed by shut. change (eqb_bytes !"Qv" !"Qv" && eqb_bytes !"Val" !"Val") with true. cbv iota. eapply ev_some; [apply ev_var; [shut|look]|reflexivity].
  - eapply ev_iflet; [exact H|]. apply ev_none.
  - eapply ev_iflet; [exact H|]. apply ev_none.
Qed.
Lemma item_in_rule n G e w u t l a key id O : mlisted root t l -> match O with Some (_, d) => d = Def l | None => True end ->
  EV n G e w (gives (fun x => if u : bool then of_opt (fun items => list_of (mitem_type t) a key items (Def l)) (fst x) else match fst x with Some items => list_of (mitem_type t) a key items (Def l) | None => VUnit end) w (get_list u O)) ->
  EV n G (item_in u e id) w (gives (of_opt (fun s => VGuard !"MItemConst" (Some (mitem_type t)) (item_value (mitem_type t) (a ++ [(key, id)]) s))) w (x <- get_list u O ; Ok (item_of_list x id))).
Proof.
  intros C Q H. destruct O as [[[items|] d]|]; [subst d| |]; unfold get_list in *; cbn [need Base.bind fst] in *.
  - unfold item_of_list. cbn [fst snd gives] in *. unfold item_in. destruct u.
    + eapply (if_some_rule n G !"l" e _ w _ (Ok (Some items))); [exact H|]. cbv beta. eapply ev_call1; [apply ev_var; [shut|look]|apply ev_num|]. apply call_get_item, C.
    + eapply ev_call1; [exact H|apply ev_num|]. apply call_get_item, C.
  - unfold item_in. destruct u; cbn [Base.bind gives fst of_opt] in *.
    + eapply (if_some_rule n G !"l" e _ w (fun x : val => x) (Ok None)); [exact H|]. reflexivity.
    + eapply ev_method; [exact H|reflexivity].
  - cbn [gives] in *. unfold item_in. destruct u.
    + eapply (if_some_rule n G !"l" e _ w (fun x : val => x) Panic); [exact H|]. reflexivity.
    + eapply ev_method; [exact H|reflexivity].
Qed.

Lemma handed_bare w n x : bare (handed w n (item_value n (loc_at w) x)) = item_value n (loc_at w) x.
Proof. destruct w; reflexivity. Qed.

Lemma way_rule w c stem l e : goes old root w c stem l e -> forall G w0, hget !"root" G = Some root_value ->
  EV [] G e w0 (gives (of_opt (fun s => handed w (item_type c stem) (item_value (item_type c stem) (loc_at w) s))) w0 (visit iter r w)).
Proof.
  induction 1 as [t i l rows o row it I J|t i l items k I|t i l u id I|w stem l e key i l' k G IH I|w stem l e key i l' u id G IH I|w c stem l e key i q vt j l' rows o G IH E I J|w c stem l e key v j l' rows o G IH E I J]; intros V w0 HV.
  - cbn [visit]. unfold root_table. rewrite (root_get t _ I). cbn [need Base.bind]. unfold table_value. cbn [fst snd]. rewrite (row_get t i l rows o row it I J). cbn [need Base.bind option_map gives of_opt].
    eapply ev_some; [unfold do; eapply method_rule; [eapply method_rule; [apply ev_var; [shut|exact HV]|eapply call_table; exact I]|eapply call_row; [exact I|exact J]]|]. reflexivity.
  - cbn [visit]. unfold root_clist. rewrite (root_get t _ I). cbn [need Base.bind].
    eapply ev_some; [unfold do; eapply ev_call1; [eapply method_rule; [apply ev_var; [shut|exact HV]|eapply call_clist; exact I]|apply ev_num|]; apply call_value; eapply clisted_clist; exact I|].
    destruct (clist_value (items, Def l) k) as [s| |]; reflexivity.
  - cbn [visit]. rewrite (root_get t _ I). assert (C : mlisted root t l) by (eapply mlisted_mlist; exact I).
    eapply (item_in_rule [] V _ w0 u t l [] t id (root_mlist r t) C).
    + unfold root_mlist. rewrite (root_get t _ I). destruct (hget t (ro_sabun r)) as [[]|]; exact Logic.I || reflexivity.
    + unfold do. eapply ev_call0; [apply ev_var; [shut|exact HV]|]. cbn [and_then]. eapply call_mlist; exact I.
  - cbn [visit]. pose proof (goes_spot _ _ _ _ _ G) as S. pose proof (goes_listed _ _ _ _ _ G) as C. eapply if_some_rule; [apply IH; exact HV|]. cbv beta.
    destruct (visit iter r w) as [[s|]| |]; cbn [Base.bind gives]; try reflexivity.
    destruct (call_cil stem l key i l' (loc_at w) s (handed w (citem_type stem) (item_value (citem_type stem) (loc_at w) s)) w0 C I (handed_bare _ _ _) S) as (items & X & Y). rewrite X. cbn [need Base.bind].
    eapply ev_some; [unfold do; eapply ev_call1; [eapply method_rule; [apply ev_var; [shut|look]|exact Y]|apply ev_num|]; apply call_value; eapply clisted_cil; [exact C|exact I]|].
    destruct (clist_value (items, Def l') k) as [x| |]; reflexivity.
  - cbn [visit]. pose proof (goes_spot _ _ _ _ _ G) as S. pose proof (goes_listed _ _ _ _ _ G) as C. eapply if_some_rule; [apply IH; exact HV|]. cbv beta.
    destruct (visit iter r w) as [[s|]| |]; cbn [Base.bind gives]; try reflexivity.
    assert (C' : mlisted root key l') by (eapply mlisted_mil; [exact C|exact I]).
    assert (M : hget key (ld_members l) = Some (i, DMil (Def l') u)) by exact (member_get stem l key _ (mlisted_listed _ _ _ C) I).
    rewrite S. cbn [undef]. rewrite M.
    eapply (item_in_rule [] _ _ w0 u key l' (loc_at w) key id (spot_mil s key) C').
    + unfold spot_mil. rewrite S. cbn [undef]. rewrite M. destruct (hget key (ci_values (fst s))) as [[]|]; reflexivity.
    + unfold do. eapply ev_call0; [apply ev_var; [shut|look]|]. cbn [and_then]. eapply call_mil; [exact C|exact I|apply handed_bare|exact S].
  - cbn [visit]. pose proof (goes_spot _ _ _ _ _ G) as S. pose proof (goes_listed _ _ _ _ _ G) as C. eapply if_some_rule; [apply IH; exact HV|]. cbv beta.
    destruct (visit iter r w) as [[s|]| |]; cbn [Base.bind gives]; try reflexivity.
    eapply conv_R; [eapply (if_val_rule [] _ _ w0 (item_value (citem_type key) []) vt (get_ref r s key))|].
    + unfold do. eapply ev_call0; [apply ev_var; [shut|look]|]. cbn [and_then]. eapply call_ref; [exact C|exact E|exact I|exact J|apply handed_bare|exact S].
    + intros y. unfold get_ref. rewrite S. cbn [undef]. rewrite E, (refs_get' stem l key _ (listed_of c _ _ C) I). intros Y. apply bind_ok in Y as (x & _ & Y). apply unwrapped_again in Y. exact (proj2 Y).
    + reflexivity.
  - cbn [visit]. pose proof (goes_spot _ _ _ _ _ G) as S. pose proof (goes_listed _ _ _ _ _ G) as C. eapply if_some_rule; [apply IH; exact HV|]. cbv beta.
    destruct (visit iter r w) as [[s|]| |]; cbn [Base.bind gives]; try reflexivity.
    eapply ev_iflet; [unfold do; eapply ev_call0; [apply ev_var; [shut|look]|]; cbn [and_then]; eapply call_enum; [exact C|exact E|apply handed_bare|exact S]|].
    destruct (get_enum iter r s) as [[k x]| |] eqn:K; cbn [gives and_then Base.bind fst snd]; try reflexivity.
    assert (SK : snake k).
    { revert K. unfold get_enum. rewrite S. cbn [undef]. rewrite E. intros K. apply bind_ok in K as (e0 & _ & K). apply bind_ok in K as (x0 & _ & K). apply bind_ok in K as (q0 & _ & K).
      destruct q0 as [row| |]; try discriminate K. destruct (hget (fst e0) (ld_refs l)) as [y|] eqn:L; [|discriminate K]. cbn [is_some] in K. apply Ok_inj in K. apply pair_equal_spec in K as [<- _].
      apply DiffProofs.hget_in in L. destruct (ref_table root T stem l _ y (listed_of c _ _ C) L) as (i' & d' & rows' & o' & I'). exact (proj1 (proj1 (t_names root T _ _ I'))). }
    pose proof (proj1 (proj1 (t_names root T _ _ J))) as SK'.
    unfold enum_value. cbn [bound]. rewrite named_other by exact (own_self old root _ (enum_gen c stem l C E)). rewrite eqb_bytes_refl. cbn [andb].
    destruct (eqb_bytes k key) eqn:Q.
    + apply eqb_bytes_eq in Q. subst k. rewrite eqb_bytes_refl. cbn [app]. eapply ev_some; [apply ev_var; [shut|look]|reflexivity].
    + rewrite eqb_other'; [apply ev_none|]. intros Y. apply type_name_inj in Y; [|exact SK'|exact SK]. subst k. rewrite eqb_bytes_refl in Q. discriminate Q.
Qed.
End Ways.
