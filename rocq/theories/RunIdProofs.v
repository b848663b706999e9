(** Proof of C68: ids of rows, rows by their ids, and the setters that are given ids. *)
From Coq Require Import String.
From Verif Require Import Base StringCompactionModel StringCompactionProofs LinkedModel LinkedSpec DocModel DiffSpec DiffProofs ArchiveModel JsonModel IntfModel GenModel GenSpec GenNameProofs GenProofs GenWellProofs GenRunProofs.
From Verif Require Import CodeSpec ApiModel TypeSpec TypeProofs TypeGenProofs ReadModel RunModel RunSpec RunProofs RunGenProofs RunWayProofs RunAskProofs.

Local Notation text := (list Z).
Local Notation "! s" := (txt s%string) (at level 0, s at level 0).

Section Ids.
Variable old : list name.
Variable iter : forall A, hmap A -> hmap A.
Variable r : root_obj.
Variable told : effect -> bool.
Local Notation root := (ro_default r).
Hypothesis T : tame root.
Variable parts : list (list item).
Hypothesis D : Forall2 declares (generate old root) parts.
Local Notation p := (concat parts).

Local Notation EV := (EV p iter r told).
Local Notation EVs := (EVs p iter r told).
Local Notation Enter := (Enter p iter r told).
Local Notation Assoc := (Assoc p iter r told).
Local Notation Method := (Method p iter r told).
Local Notation run_method := (run_method old root T parts D iter r told).
Local Notation item_method := (item_method old iter r told T parts D).

(** the id of a row of the table [t] *)
Local Notation id_of := id_value.

Lemma id_row t j d rows o row it : In (t, (j, WTable d rows o)) root -> In (row, it) rows ->
  let ids := ids_decl t (row_keys rows o) in let v := variant_name row (contains o row) in
  run_from_str ids row = Some v /\ run_to_str ids v = Ok row /\
  forall i, zget rows i = Some (row, it) -> run_to_num ids v = Ok i /\ run_from_num ids i = Ok v.
Proof.
  intros I J ids v. destruct (run_ids old root T t j d rows o I) as (_ & _ & R & _). destruct (R row it J) as (v' & i & -> & F & N & B & M & S). fold ids in F, N, M, S. fold v in F, N, M, S.
  split; [exact F|]. split; [exact S|]. intros i' Z. cut (i = i'); [intros <-; split; assumption|].
  assert (K : nth_error (map fst rows) (Z.to_nat i) = Some row).
  { pose proof S as S'. unfold run_to_str in S'. rewrite N in S'. cbn [bind] in S'. cbn [ids ids_decl] in S'. rewrite (row_keys_fst rows o) in S'. unfold zget in S'. destruct (i <? 0); [discriminate S'|].
    destruct (nth_error (map fst rows) (Z.to_nat i)); [|discriminate S']. apply Ok_inj in S'. subst. reflexivity. }
  unfold zget in Z. destruct (Z.ltb_spec i' 0) as [|L]; [discriminate Z|].
  assert (K' : nth_error (map fst rows) (Z.to_nat i') = Some row) by (rewrite nth_error_map, Z; reflexivity).
  pose proof (proj1 (proj2 (t_rows root T t j d rows o I))) as ND. rewrite NoDup_nth_error in ND.
  apply Z2Nat.inj; [lia|lia|]. apply ND; [|rewrite K, K'; reflexivity]. apply nth_error_Some. rewrite K. discriminate.
Qed.

Lemma id_in t j d rows o row it : In (t, (j, WTable d rows o)) root -> In (row, it) rows -> In (row, contains o row) (row_keys rows o).
Proof. intros _ J. unfold row_keys. apply in_map_iff. exists (row, it). split; [reflexivity|exact J]. Qed.
Lemma ids_not_self t j d rows o : In (t, (j, WTable d rows o)) root -> ids_type t <> !"Self".
Proof. intros I. exact (own_self old root _ (generated_ids old root t j d rows o I)). Qed.

(** naming an id *)
Lemma id_rule n G t j d rows o row it w : In (t, (j, WTable d rows o)) root -> In (row, it) rows -> EV n G (EPath (ids_type t) (variant_name row (contains o row))) w (Ok (id_of t o row, w)).
Proof.
  intros I J. eapply conv_R; [apply ev_path|].
  - rewrite named_other by exact (ids_not_self _ _ _ _ _ I). exact (is_id old r T parts D t j d rows o I (row, contains o row) (id_in _ _ _ _ _ _ _ I J)).
  - rewrite named_other by exact (ids_not_self _ _ _ _ _ I). reflexivity.
Qed.
Lemma id_to_str t j d rows o row it w : In (t, (j, WTable d rows o)) root -> In (row, it) rows -> Method (id_of t o row) !"to_str" [] w (Ok (VText row, w)).
Proof. intros I J. apply (to_str_rule old iter r told T parts D t j d rows o I). exact (proj1 (proj2 (id_row _ _ _ _ _ _ _ I J))). Qed.

(* ------------------------------------------------------------------ *)
(** * Rows by their ids *)

Lemma row_us_rule n nm key n' f self t w : points_to self (PTable t) -> (forall s, makes p iter r told n' !"from" (PItem [] s)) -> written (Meth (nm ++ !"_us") [] (CRow true key) [n'] [n']) f ->
  Enter n f (Some self) [] w (match table_value t key with Some s => Ok (row_value n' s, w) | None => Panic end).
Proof.
  intros P K W. inversion W; subst. pose proof (ask_row p iter r told n [(!"self", self)] self t key w ltac:(look) P) as X. destruct (table_value t key) as [s|].
  - eapply enter_rule; [cbn [f_lets start_env f_args map combine app]; eapply lets_let; [exact X|]; cbn [and_then bound app]; apply lets_nil|].
    cbn [and_then f_value f_ret]. eexists. split; [eapply makes_rule; [apply K|apply ev_var; [shut|look]]|reflexivity].
  - eapply enter_rule; [cbn [f_lets start_env f_args map combine app]; eapply lets_let; [exact X|reflexivity]|reflexivity].
Qed.
Lemma call_row_us t i l rows o row it v w : In (t, (i, WTable (Def l) rows o)) root -> In (row, it) rows -> bare v = bare (table_value' t rows l) ->
  Method v (with_old row (contains o row) ++ !"_us") [] w (Ok (item_value (citem_type t) [] (it, Def l), w)).
Proof.
  intros I J B. pose proof (row_in t rows o row it true J) as M. cbv iota in M. unfold key_name in M. rewrite (row_name r T t i l rows o row it I J) in M.
  eapply (run_method _ _ _ _ _ _ w _ (generated_table old root t i (Def l) rows o I) M); [rewrite B; reflexivity|]. intros f W.
  eapply conv_R; [eapply row_us_rule; [| |exact W]|].
  - eexists. eexists. split; [reflexivity|]. look.
  - intros s. eapply (citem_makes old root T parts D iter r told); eapply table_clisted'; exact I.
  - unfold table_value. cbn [fst snd]. rewrite (row_get r T t i l rows o row it I J). reflexivity.
Qed.
Definition by_id_arms rows o : list (text * text) := map (fun k => (variant_name (fst k) (snd k), key_name (fst k) (snd k) ++ !"_us")) (row_keys rows o).
Lemma by_id_in t i d rows o m : In (t, (i, WTable d rows o)) root ->
  In m [Meth !"get_by_id_us" [!"id"] (CById (by_id_arms rows o)) [ids_type t; citem_type t] []; Meth !"get_by_id" [!"id"] (CById (by_id_arms rows o)) [ids_type t; citem_type t] []] -> In m (table_methods t (row_keys rows o)).
Proof.
  intros I M. unfold table_methods. right. apply in_or_app. right. unfold by_id_methods. fold (by_id_arms rows o). pose proof (proj1 (t_rows root T t i d rows o I)) as N.
  destruct rows as [|e rows]; [contradiction|]. exact M.
Qed.
Lemma call_by_id_us t i l rows o row it v w : In (t, (i, WTable (Def l) rows o)) root -> In (row, it) rows -> bare v = bare (table_value' t rows l) ->
  Method v !"get_by_id_us" [id_of t o row] w (Ok (item_value (citem_type t) [] (it, Def l), w)).
Proof.
  intros I J B. pose proof (generated_table old root t i (Def l) rows o I) as G.
  eapply (run_method _ _ _ _ _ _ w _ G (by_id_in t i (Def l) rows o _ I (in_first _ _))); [rewrite B; reflexivity|]. intros f W. inversion W; subst.
  eapply enter_rule; [apply lets_nil|]. cbn [and_then f_value f_ret start_env f_args map combine app fst]. exists (Ok (item_value (citem_type t) [] (it, Def l), w)). split; [|reflexivity].
  eapply ev_match; [apply ev_var; [shut|look]|]. unfold id_value.
  rewrite (arm_path _ (ids_type t) _ (by_id_arms rows o) (fun m => EMethod (EVar !"self") m [])) by exact (ids_not_self _ _ _ _ _ I).
  replace (arm _ (by_id_arms rows o)) with (Some (with_old row (contains o row) ++ !"_us")).
  - eapply ev_call0; [apply ev_var; [shut|look]|]. cbn [and_then]. eapply call_row_us; [exact I|exact J|reflexivity].
  - symmetry. apply arm_in.
    + unfold by_id_arms. rewrite map_fst_map. exact (proj1 (proj2 (ids_fine root T t i (Def l) rows o I))).
    + apply in_map_iff. exists (row, contains o row). split; [|exact (id_in _ _ _ _ _ _ _ I J)]. cbn [fst snd]. unfold key_name. rewrite (row_name r T t i l rows o row it I J). reflexivity.
Qed.
Lemma call_by_id t i l rows o row it v w : In (t, (i, WTable (Def l) rows o)) root -> In (row, it) rows -> bare v = bare (table_value' t rows l) ->
  Method v !"get_by_id" [id_of t o row] w (Ok (VGuard !"CItemConst" (Some (citem_type t)) (item_value (citem_type t) [] (it, Def l)), w)).
Proof.
  intros I J B. pose proof (generated_table old root t i (Def l) rows o I) as G.
  eapply (run_method _ _ _ _ _ _ w _ G (by_id_in t i (Def l) rows o _ I (in_second _ _ _))); [rewrite B; reflexivity|]. intros f W. inversion W; subst.
  eapply enter_rule; [apply lets_nil|]. cbn [and_then f_value f_ret start_env f_args map combine app fst public]. eexists. split.
  - eapply guarded_rule; [holder| |look]. apply ev_unsafe. eapply ev_call1; [apply ev_var; [shut|look]|apply ev_var; [shut|look]|]. eapply call_by_id_us; [exact I|exact J|reflexivity].
  - reflexivity.
Qed.

(* ------------------------------------------------------------------ *)
(** * Setters that are given ids *)

Lemma call_set_ref stem l key i q vt j d rows o a s v w (c : qv name) : mlisted root stem l -> ld_enum l = false -> In (key, (i, (q, vt))) (ld_refs l) ->
  In (key, (j, WTable d rows o)) root -> (forall row, c = Val row -> In row (map fst rows)) -> unwrapped vt (Some c) = Ok c -> bare v = item_value (mitem_type stem) a s ->
  Method v (!"set_ref_" ++ with_old key (contains (ld_ref_old l) key)) [as_marked (id_of key o) vt c] w (Ok (VUnit, w ++ [ESetRef a key (of_qv (fun s => VText s) c)])).
Proof.
  intros C E I J H U B. pose proof (mlisted_listed _ _ _ C) as L.
  pose proof (item_method false stem l a s v (Meth (!"set_ref_" ++ with_old key (contains (ld_ref_old l) key)) [!"id"] (CSetRef vt key) [ids_type key] []) [as_marked (id_of key o) vt c] w (Ok (VUnit, w ++ [ESetRef a key (of_qv (fun s => VText s) c)])) C) as X.
  cbn [m_name] in X. apply X; clear X.
  - apply set_in. unfold refs_set. rewrite E. apply in_flat_map. exists (key, (i, (q, vt))). split; [exact I|]. unfold ref_set. rewrite (ref_snake r T stem l key _ L I). apply in_first.
  - exact B.
  - intros f W. destruct c as [row| |].
    + assert (exists it, In (row, it) rows) as (it & R) by (pose proof (H row eq_refl) as H'; apply in_map_iff in H' as ((k & it) & <- & R); exists it; exact R).
      pose proof (set_ref_rule p iter r told (mitem_type stem) (!"set_ref_" ++ with_old key (contains (ld_ref_old l) key)) vt key (ids_type key) f (item_value (mitem_type stem) a s) a s w (fun _ : unit => id_of key o row) (fun _ => row) (Val tt) (item_points (mitem_type stem) a s)) as X.
      eapply conv_R; [eapply conv_ext; [|apply X]|].
      * intros k. destruct vt; reflexivity.
      * intros _ w'. eapply id_to_str; eassumption.
      * destruct vt; try discriminate U; reflexivity.
      * exact W.
      * reflexivity.
    + pose proof (set_ref_rule p iter r told (mitem_type stem) (!"set_ref_" ++ with_old key (contains (ld_ref_old l) key)) vt key (ids_type key) f (item_value (mitem_type stem) a s) a s w (fun e : Empty_set => VUnit) (fun _ => []) Undefined (item_points (mitem_type stem) a s)) as X.
      eapply conv_R; [eapply conv_ext; [|apply X]|].
      * intros k. destruct vt; reflexivity.
      * intros [].
      * destruct vt; try discriminate U; reflexivity.
      * exact W.
      * reflexivity.
    + pose proof (set_ref_rule p iter r told (mitem_type stem) (!"set_ref_" ++ with_old key (contains (ld_ref_old l) key)) vt key (ids_type key) f (item_value (mitem_type stem) a s) a s w (fun e : Empty_set => VUnit) (fun _ => []) Null (item_points (mitem_type stem) a s)) as X.
      eapply conv_R; [eapply conv_ext; [|apply X]|].
      * intros k. destruct vt; reflexivity.
      * intros [].
      * destruct vt; try discriminate U; reflexivity.
      * exact W.
      * reflexivity.
Qed.

(** a kind: the table, and the id of a row of it *)
Definition kind_of (stem key : name) (o : list name) (row : name) : val := VMake (kind_type stem) (to_type_name key) [id_of key o row].

Lemma arm_tuple {A} n a v x u (arms : list (text * A)) (F : A -> expr) : a <> !"Self" ->
  arm_for n (VMake a v [u]) (map (fun e => (PTuple a (fst e) x, F (snd e))) arms) = match arm v arms with Some y => Some ([(x, u)], F y) | None => None end.
Proof.
  intros N. induction arms as [|(y, b) arms IH]; [reflexivity|]. cbn [map arm_for bound fst snd arm]. rewrite named_other by exact N. rewrite eqb_bytes_refl. cbn [andb]. destruct (eqb_bytes y v); [reflexivity|exact IH].
Qed.

Lemma kind_fns stem l : mlisted root stem l -> ld_enum l = true -> own_fns p (kind_type stem) =
    [public !"id" ByRef [] (Some (TyPair static_str static_str)) []
       (Some (EMatch (EVar !"self") (map (fun a => (PTuple (kind_type stem) (fst a) !"v", EPair (EText (snd a)) (call0 (EVar !"v") "to_str"))) (map (fun key => (to_type_name key, key)) (map fst (ld_refs l))))))] /\
  trait_fns p (kind_type stem) = [] /\ forall key x, In (key, x) (ld_refs l) -> is_variant p (kind_type stem) (to_type_name key) = true.
Proof.
  intros C E. destruct (only_part old root T parts D _ (generated_kind old root stem l C E)) as (part & H & A & B & V). cbn [decl_name kind_decl] in A, B, V. inversion H; subst.
  split; [rewrite A; unfold own_fns; cbn [flat_map]; rewrite eqb_bytes_refl; reflexivity|]. split; [rewrite B; reflexivity|].
  intros key x I. rewrite V. unfold is_variant. cbn [existsb]. rewrite eqb_bytes_refl. cbn [andb].
  replace (existsb _ _) with true; [reflexivity|]. symmetry. apply existsb_exists. exists (to_type_name key, Some (TyName (ids_type key))). split; [|apply eqb_bytes_refl].
  apply in_map_iff. exists (to_type_name key, ids_type key). split; [reflexivity|]. apply in_map_iff. exists key. split; [reflexivity|]. apply in_map_iff. exists (key, x). split; [reflexivity|exact I].
Qed.
Lemma kind_rule n G stem l key x j d rows o row it w : mlisted root stem l -> ld_enum l = true -> In (key, x) (ld_refs l) -> In (key, (j, WTable d rows o)) root -> In (row, it) rows ->
  EV n G (ECall (EPath (kind_type stem) (to_type_name key)) [EPath (ids_type key) (variant_name row (contains o row))]) w (Ok (kind_of stem key o row, w)).
Proof.
  intros C E I J R. pose proof (generated_kind old root stem l C E) as K. destruct (kind_fns stem l C E) as (A & B & V). eapply ev_assoc.
  - eapply evs_ok; [eapply id_rule; [exact J|exact R]|apply evs_nil].
  - cbn [and_then]. rewrite named_other by exact (own_self old root _ K). eapply conv_ext; [|apply (conv_now (fun _ => ret (kind_of stem key o row))); reflexivity]. intros k. cbv beta.
    rewrite (assoc_out parts iter r told) by exact (not_own old root _ K). rewrite A, B. cbn [app].
    assert (N : to_type_name key <> !"id").
    { destruct (type_name_shape key (proj1 (proj1 (t_names root T key _ J)))) as (c0 & r0 & Q & Up & _). rewrite Q. intros Y. apply (f_equal (hd 0)) in Y. cbn [hd] in Y. revert Up. rewrite Y. vm_compute. intros [_ Up]. apply Up. reflexivity. }
    unfold fn_named. cbn [find public f_name]. rewrite (eqb_other' _ _ (not_eq_sym N)). rewrite (V key x I). reflexivity.
Qed.
Lemma kind_id stem l key x j d rows o row it w : mlisted root stem l -> ld_enum l = true -> In (key, x) (ld_refs l) -> In (key, (j, WTable d rows o)) root -> In (row, it) rows ->
  Method (kind_of stem key o row) !"id" [] w (Ok (VPair (VText key) (VText row), w)).
Proof.
  intros C E I J R. pose proof (generated_kind old root stem l C E) as K. destruct (kind_fns stem l C E) as (A & B & V).
  set (g := public _ _ _ _ _ _) in A.
  assert (X : Enter (kind_type stem) g (Some (kind_of stem key o row)) [] w (Ok (VPair (VText key) (VText row), w))).
  { eapply enter_rule; [apply lets_nil|]. cbn [g and_then public f_value f_ret start_env f_args map combine app fst]. exists (Ok (VPair (VText key) (VText row), w)). split; [|reflexivity].
    eapply ev_match; [apply ev_var; [shut|look]|]. unfold kind_of at 1.
    rewrite (arm_tuple (kind_type stem) (kind_type stem) (to_type_name key) !"v" (id_of key o row) _ (fun a => EPair (EText a) (call0 (EVar !"v") "to_str"))) by exact (own_self old root _ K).
    replace (arm _ _) with (Some key).
    - cbn [app]. eapply ev_pair; [apply ev_text| |].
      + unfold call0. eapply method_rule; [apply ev_var; [shut|look]|]. eapply id_to_str; [exact J|exact R].
      + reflexivity.
    - symmetry. pose proof (mlisted_listed _ _ _ C) as L. apply arm_in.
      + rewrite map_fst_map. apply type_names_nodup; [exact (proj1 (t_refs root T stem l L))|]. apply Forall_forall. intros y Y. apply in_map_iff in Y as ((y' & z) & <- & Y).
        exact (proj1 (proj1 (ref_ordinary root T stem l y' z L Y))).
      + apply in_map_iff. exists key. split; [reflexivity|]. apply in_map_iff. exists (key, x). split; [reflexivity|exact I]. }
  eapply conv_ext; [|exact X]. intros k. cbv beta. unfold kind_of at 2. cbn [method_of]. rewrite (not_holder old r _ K : one_of holders (kind_type stem) = false). unfold own_method. rewrite A. reflexivity.
Qed.
Lemma call_set_enum stem l key x j d rows o row it a s v w : mlisted root stem l -> ld_enum l = true -> In (key, x) (ld_refs l) -> In (key, (j, WTable d rows o)) root -> In (row, it) rows ->
  bare v = item_value (mitem_type stem) a s -> Method v !"set_enum" [kind_of stem key o row] w (Ok (VUnit, w ++ [ESetEnum a key row])).
Proof.
  intros C E I J R B.
  pose proof (item_method false stem l a s v (Meth !"set_enum" [!"kind"] CSetEnum [kind_type stem] []) [kind_of stem key o row] w (Ok (VUnit, w ++ [ESetEnum a key row])) C) as X. cbn [m_name] in X. apply X; clear X.
  - apply set_in. unfold refs_set. rewrite E. apply in_first.
  - exact B.
  - intros f W. eapply set_enum_rule; [apply item_points| |exact W]. intros w'. eapply kind_id; eassumption.
Qed.
End Ids.
