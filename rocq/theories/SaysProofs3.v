(** What a source says is loaded: values (C61). *)
From Coq Require Import String.
From Coq Require Import Sorting.Permutation.
From Verif Require Import Base FloatModel FloatProofs StringCompactionModel StringCompactionProofs DocModel DiffSpec DiffProofs DiffEditProofs
  ArchiveModel JsonModel JsonSpec JsonNameProofs JsonProofs LoadSpec LoadProofs SaysSpec SaysProofs SaysProofs2.

(* ------------------------------------------------------------------ *)
(** * Only one meaning *)

Lemma says_id_eq m o o' : says_id m o -> says_id m o' -> o = None -> o' = None.
Proof.
  intros [A B] [A' B'] ->. apply B'. intros v W. destruct (A v W) as (i & E & _). discriminate E.
Qed.
Lemma writes_id_eq v i i' : writes_id v i -> writes_id v i' -> i = i'.
Proof.
  intros W W'. inversion W as [s|b n F L]; subst; inversion W' as [|b' n' F' L']; subst; [reflexivity|]. f_equal. rewrite F in F'. assert (E : n * 2 ^ unit_exp = n' * 2 ^ unit_exp) by congruence.
  apply Z.mul_reg_r in E; [exact E|]. apply Z.pow_nonzero; [lia|vm_compute; discriminate].
Qed.
Lemma says_id_fun m o o' : NoDup (map fst m) -> says_id m o -> says_id m o' -> o = o'.
Proof.
  intros N H H'. destruct (hget (txt "ID") m) as [v|] eqn:G.
  - apply hget_in in G. destruct H as [H _], H' as [H' _]. destruct (H v G) as (i & -> & W). destruct (H' v G) as (i' & -> & W'). f_equal. eapply writes_id_eq; eassumption.
  - assert (X : no_word m SID) by (intros v W; apply in_hget in W; [change (system_word SID) with (txt "ID") in W; congruence|exact N]).
    rewrite (proj2 H X), (proj2 H' X). reflexivity.
Qed.
Lemma writes_names_nil l ns : writes_names l [] -> writes_names l ns -> ns = [].
Proof.
  intros [A _] [_ B]. destruct ns as [|n ns]; [reflexivity|]. destruct (A (JString n)) as (x & _ & _ & []). apply B. left; reflexivity.
Qed.
Lemma word_dec m s : no_word m s \/ exists v, word m s v.
Proof.
  unfold no_word, word. induction m as [|[k v] m IH]; [left; intros v []|]. destruct (list_eq_dec Z.eq_dec k (system_word s)) as [->|X]; [right; exists v; left; reflexivity|].
  destruct IH as [IH|[x IH]]; [left|right; exists x; right; exact IH]. intros x [E|I]; [congruence|eapply IH, I].
Qed.
Lemma says_old_nil m ns : says_old m [] -> says_old m ns -> ns = [].
Proof.
  intros [A _] [B C]. destruct (word_dec m SOld) as [X|[v X]]; [auto|]. destruct (A v X) as (l & -> & W). destruct (B _ X) as (l' & E & W'). injection E as <-. eapply writes_names_nil; eassumption.
Qed.
Lemma says_refs_old_nil m r e r' e' ns : says_refs m r e [] -> says_refs m r' e' ns -> ns = [].
Proof.
  intros (A & _ & _) (B & C & _).
  assert (G : forall v, word m SRef v \/ word m SEnum v -> ns = []).
  { intros v X. destruct (A v X) as (x & -> & (_ & _ & O & _)). destruct (B _ X) as (x' & E & (_ & _ & O' & _)). injection E as <-. eapply says_old_nil; eassumption. }
  destruct (word_dec m SRef) as [X|[v X]]; [|eauto]. destruct (word_dec m SEnum) as [Y|[v Y]]; [|eauto]. apply (C X Y).
Qed.
Lemma says_refs_nil m e o r e' o' : says_refs m [] e o -> says_refs m r e' o' -> r = [].
Proof.
  intros (A & _ & _) (B & C & _).
  assert (G : forall v, word m SRef v \/ word m SEnum v -> r = []).
  { intros v X. destruct (A v X) as (x & -> & (_ & _ & _ & M & _)). destruct (B _ X) as (x' & E & (_ & _ & _ & _ & M')). injection E as <-.
    destruct r as [|[k y] r]; [reflexivity|]. destruct (M' k y) as (vt & v & V); [cbn [hget]; rewrite eqb_bytes_refl; reflexivity|]. destruct (M _ _ _ V) as (i & q & F & _). discriminate F. }
  destruct (word_dec m SRef) as [X|[v X]]; [|eauto]. destruct (word_dec m SEnum) as [Y|[v Y]]; [|eauto]. apply (C X Y).
Qed.

(** the kind of a value *)
Definition rkind (r : rvalue) : gat :=
  match r with
  | VaParam _ _ => GNotDefined | VaTable _ _ _ => GTable | VaCList _ _ => GCList | VaMList _ _ _ => GMList
  | VaCil _ => GCil | VaMil _ => GMil | VaCilDef _ => GCilDef | VaMilDef _ _ => GMilDef
  end.
Definition vkind (v : jval) : gat :=
  match v with
  | JArray a => match get_array_type a with
                | GTable => GTable | GCList => GCList | GMList => GMList | GCil => GCil | GMil | GInnerMutUndefined => GMil
                | GCilDef => GCilDef | GMilDef => GMilDef | _ => GNotDefined end
  | _ => GNotDefined
  end.
Lemma says_kind vt v r : says vt v r -> rkind r = vkind v.
Proof.
  intros S. inversion S as [? ? ? W| | | | | | | |]; subst; try reflexivity.
  inversion W; subst; try reflexivity. destruct l; [congruence|reflexivity].
Qed.
Lemma kind_def r r' x : rkind r = rkind r' -> in_def r x -> exists y, into_list_def_value r' = Ok y.
Proof. intros K I. inversion I; subst; destruct r'; try discriminate K; cbn; eauto. Qed.
Lemma kind_item r r' x : rkind r = rkind r' -> in_item r x -> exists y, into_list_sab_value r' = Ok y.
Proof. intros K I. inversion I; subst; destruct r'; try discriminate K; cbn; eauto. Qed.
Lemma kind_root r r' x s : rkind r = rkind r' -> in_root r x s -> exists y, into_root_value r' = Ok y.
Proof. intros K I. inversion I; subst; destruct r'; try discriminate K; cbn; eauto. Qed.

(* ------------------------------------------------------------------ *)
(** * Objects *)

(** what makes sense *)
Definition sensible (V : var_type -> jval -> Prop) (m : list (name * jval)) : Prop :=
  known_keys m /\ (exists i, says_id m i) /\ (exists ns, says_old m ns) /\ (exists r e o, says_refs m r e o) /\
  (forall n vt v, member m n vt v -> V vt v).
Definition means (vt : var_type) (v : jval) : Prop := exists r, says vt v r.
Definition means_ref (vt : var_type) (v : jval) : Prop := exists q, writes_ref v q.

Section Conversion.
Variable addr : list Z -> Z.
Variable iter : forall A, hmap A -> hmap A.
Hypothesis It : iterates iter.

Section Object.
Variable arr : list jval -> var_type -> res rvalue.
Variable obj : list (name * jval) -> bool -> res tmp_obj.

Lemma get_ref_ok m refs old : no_word m SRef -> no_word m SEnum -> writes_refs m refs old ->
  (exists o, obj m true = Ok o) -> (forall o, obj m true = Ok o -> says_tmp ref_value m o) -> exists r, get_ref iter obj m = Ok r.
Proof.
  intros N1 N2 (K & Ni & O & M1 & M2) (o & E) Ho. rewrite get_ref_renumbered. unfold get_ref'. rewrite E. cbn [bind].
  specialize (Ho _ E) as (K' & I' & O' & Rf & N & _ & T1 & T2).
  rewrite (proj2 I' Ni), (proj1 (proj1 (proj2 Rf) N1 N2)). cbn [is_nil negb is_some orb].
  destruct (renumbered_ok iter It ref_of (to_default o)) as (r & ->); [|cbn; eauto].
  intros n i v Iv. apply in_hget in Iv; [|exact N]. destruct (T2 _ _ Iv) as (vt & x & V). destruct (T1 _ _ _ V) as (i' & r & G & Rr). rewrite Iv in G. injection G as <- <-.
  destruct (M1 _ _ _ V) as (j & q & _ & W). eapply ref_of_ok; eassumption.
Qed.

Variable R : var_type -> jval -> rvalue -> Prop.
Variable V : var_type -> jval -> Prop.

Lemma obj_fold_ok is_ref l : forall seen o c,
  tidy_node (JMap (seen ++ l)) -> sensible V (seen ++ l) ->
  (forall k v vt r, In (k, v) l -> (if is_ref : bool then json_item_to_rust_ref addr vt v else json_item_to_rust addr arr vt v) = Ok r -> R vt v r) ->
  (forall k v vt, In (k, v) l -> V vt v -> exists r, (if is_ref then json_item_to_rust_ref addr vt v else json_item_to_rust addr arr vt v) = Ok r) ->
  (forall k m o, In (k, JMap m) l -> obj m true = Ok o -> says_tmp ref_value m o) ->
  (forall k m refs old, In (k, JMap m) l -> no_word m SRef -> no_word m SEnum -> writes_refs m refs old -> exists o, obj m true = Ok o) ->
  says_tmp R seen o -> exists st, mfold (obj_step addr iter arr obj is_ref) l (o, c) = Ok st.
Proof.
  induction l as [|[k v] l IH]; intros seen o c T Sn Hs Hv Hm Ho S; cbn [mfold]; [eauto|].
  assert (Step : exists st, obj_step addr iter arr obj is_ref (o, c) (k, v) = Ok st).
  { destruct Sn as (K & (i & Si) & (ns & So) & (rf & en & old & Sr) & M). destruct T as (T1 & T2 & T3 & T4 & T5). pose proof S as (_ & I & _ & Rf & _).
    assert (Nk : ~ In k (map fst seen)).
    { rewrite !map_app in T1. cbn [map fst] in T1. apply NoDup_remove_2 in T1. intros X. apply T1, in_or_app. auto. }
    assert (Ws : forall s, json_name k = Some (NSystem s) -> no_word seen s).
    { intros s J x X. apply json_name_system in J. apply Nk. rewrite J. apply (in_map fst) in X. exact X. }
    assert (Ie : In (k, v) (seen ++ (k, v) :: l)) by (apply in_or_app; right; left; reflexivity).
    unfold obj_step. destruct (json_name k) as [[nm vt|s]|] eqn:J.
    - destruct (Hv k v vt) as (r & ->); [left; reflexivity|apply (M nm), member_iff; eauto|]. cbn [bind]. eauto.
    - assert (W : word (seen ++ (k, v) :: l) s v) by (apply word_iff; eauto). destruct s.
      + destruct (proj1 So _ W) as (a & -> & Wn). destruct (get_old_ok _ _ Wn) as (ns' & ->). cbn [bind]. eauto.
      + rewrite (proj2 I (Ws _ eq_refl)). cbn [is_some]. destruct (proj1 Si _ W) as (i' & _ & Wi). destruct (get_id_ok _ _ Wi) as (j & ->). eauto.
      + destruct (proj1 Sr v (or_introl W)) as (m & -> & Wr).
        assert (X : no_word seen SEnum).
        { destruct T3 as [T3|T3]; [exfalso; eapply T3, W|]. intros x X. apply (T3 x), word_app. auto. }
        rewrite (proj1 (proj1 (proj2 Rf) (Ws _ eq_refl) X)). cbn [is_nil negb]. destruct (T4 m (or_introl W)) as [Y1 Y2].
        destruct (get_ref_ok m rf old Y1 Y2 Wr) as (r & ->); [eapply Ho; [left; reflexivity|exact Y1|exact Y2|exact Wr]|intros; eapply Hm; [left; reflexivity|assumption]|]. cbn [bind]. eauto.
      + destruct (proj1 Sr v (or_intror W)) as (m & -> & Wr).
        assert (X : no_word seen SRef).
        { destruct T3 as [T3|T3]; [|exfalso; eapply T3, W]. intros x X. apply (T3 x), word_app. auto. }
        rewrite (proj1 (proj1 (proj2 Rf) X (Ws _ eq_refl))). cbn [is_nil negb]. destruct (T4 m (or_intror W)) as [Y1 Y2].
        destruct (get_ref_ok m rf old Y1 Y2 Wr) as (r & ->); [eapply Ho; [left; reflexivity|exact Y1|exact Y2|exact Wr]|intros; eapply Hm; [left; reflexivity|assumption]|]. cbn [bind]. eauto.
    - exfalso. eapply (proj1 (known_iff _) K); [exact Ie|exact J]. }
  destruct Step as ([o1 c1] & E). rewrite E. cbn [bind].
  assert (T' : tidy_node (JMap ((seen ++ [(k, v)]) ++ l))) by (rewrite <- app_assoc; exact T).
  eapply IH with (seen := seen ++ [(k, v)]); [exact T'|rewrite <- app_assoc; exact Sn| | | | |].
  - intros; eapply Hs; [right; eassumption|assumption].
  - intros; eapply Hv; [right; eassumption|assumption].
  - intros; eapply Hm; [right; eassumption|assumption].
  - intros; eapply Ho; [right; eassumption|eassumption|eassumption|eassumption].
  - eapply obj_step_says; [exact It|exact T| | |exact S|exact E].
    + intros; eapply Hs; [left; reflexivity|assumption].
    + cbn. intros m o0 ->. intros; eapply Hm; [left; reflexivity|assumption].
Qed.

Lemma json_obj_ok is_ref m : tidy_node (JMap m) -> sensible V m ->
  (forall k v vt r, In (k, v) m -> (if is_ref : bool then json_item_to_rust_ref addr vt v else json_item_to_rust addr arr vt v) = Ok r -> R vt v r) ->
  (forall k v vt, In (k, v) m -> V vt v -> exists r, (if is_ref then json_item_to_rust_ref addr vt v else json_item_to_rust addr arr vt v) = Ok r) ->
  (forall k m' o, In (k, JMap m') m -> obj m' true = Ok o -> says_tmp ref_value m' o) ->
  (forall k m' refs old, In (k, JMap m') m -> no_word m' SRef -> no_word m' SEnum -> writes_refs m' refs old -> exists o, obj m' true = Ok o) ->
  exists o, json_obj_to_rust addr iter arr obj m is_ref = Ok o.
Proof.
  intros T Sn Hs Hv Hm Ho. unfold json_obj_to_rust.
  destruct (obj_fold_ok is_ref m [] new_tmp_obj 0 T Sn Hs Hv Hm Ho (new_tmp_says R)) as ([o c] & ->). cbn. eauto.
Qed.
End Object.

(* ------------------------------------------------------------------ *)
(** * Definitions and items *)

Lemma def_sensible m d : says_def m d -> sensible means m.
Proof.
  intros S. inversion S as [? x K Ni O Rf M1 M2]; subst. split; [exact K|]. split; [exists None; split; [intros v W; exfalso; eapply Ni, W|reflexivity]|].
  split; [eauto|]. split; [eauto|]. intros n vt v V. destruct (M1 _ _ _ V) as (i & y & r & _ & _ & Sr). exists r. exact Sr.
Qed.
Lemma item_sensible m c i : says_id m i -> says_item m c -> sensible means m.
Proof.
  intros Si S. inversion S as [? ? refs enum K O Rf E M1 M2]; subst. split; [exact K|]. split; [eauto|].
  split; [eauto|]. split; [eauto|]. intros n vt v V. destruct (M1 _ _ _ V) as (y & r & _ & _ & Sr). exists r. exact Sr.
Qed.

Lemma def_obj_ok m o d : tidy_node (JMap m) -> says_tmp says m o -> says_def m d -> exists d', into_list_def_obj iter o = Ok d'.
Proof.
  intros T (K & I & O & Rf & N & Nr & M1 & M2) S. inversion S as [? x K' Ni O' Rf' D1 D2]; subst. unfold into_list_def_obj. rewrite (proj2 I Ni), def_map_renumbered.
  destruct (renumbered_ok iter It into_list_def_value (to_default o)) as (r & ->); [|cbn; eauto].
  intros n i v Iv. apply in_hget in Iv; [|exact N]. destruct (M2 _ _ Iv) as (vt & w & V). destruct (M1 _ _ _ V) as (i' & r & G & Rr). rewrite Iv in G. injection G as <- <-.
  destruct (D1 _ _ _ V) as (j & y & r & _ & Ir & Sr). eapply kind_def; [|exact Ir]. transitivity (vkind w); [apply (says_kind _ _ _ Sr)|symmetry; apply (says_kind _ _ _ Rr)].
Qed.

Lemma item_obj_ok m o c : says_tmp says m o -> says_item m c -> is_nil (to_old o) && is_nil (tr_old (to_refs o)) = true /\ exists c', item_of iter o = Ok c'.
Proof.
  intros (K & I & O & Rf & N & Nr & M1 & M2) S. inversion S as [? x refs enum K' O' Rf' _ D1 D2]; subst.
  rewrite (says_old_nil _ _ O' O), (says_refs_old_nil _ _ _ _ _ _ Rf' Rf). split; [reflexivity|]. unfold item_of, to_list_sab_map.
  rewrite (mfold_ext _ (fun r (e : name * (Z * rvalue)) => d <- into_list_sab_value (snd (snd e)) ; Ok (hset (fst e) d r))) by (intros a [k [i v]] _; reflexivity).
  destruct (mfold_hset_ok fst (fun e : name * (Z * rvalue) => into_list_sab_value (snd (snd e))) (iter _ (to_default o))) with (acc := @nil (name * cval)) as (r & ->); [|cbn; eauto].
  intros [n [i v]] Iv. apply (iter_in _ It) in Iv. apply in_hget in Iv; [|exact N]. destruct (M2 _ _ Iv) as (vt & w & V). destruct (M1 _ _ _ V) as (i' & r & G & Rr). rewrite Iv in G. injection G as <- <-.
  destruct (D1 _ _ _ V) as (y & r & _ & Ir & Sr). eapply kind_item; [|exact Ir]. transitivity (vkind w); [apply (says_kind _ _ _ Sr)|symmetry; apply (says_kind _ _ _ Rr)].
Qed.

Lemma list_item_ok m o c : says_tmp says m o -> says_id m None -> says_item m c -> exists c', into_list_item iter o = Ok c'.
Proof.
  intros St Si S. destruct (item_obj_ok _ _ _ St S) as (X & c' & E). unfold into_list_item. destruct St as (_ & I & _). rewrite (says_id_eq _ _ _ Si I eq_refl), X. eauto.
Qed.
Lemma id_item_ok m o s c : NoDup (map fst m) -> says_tmp says m o -> says_id m (Some (IdStr s)) -> says_item m c -> exists c', into_list_item_with_id iter o = Ok (s, c').
Proof.
  intros N St Si S. destruct (item_obj_ok _ _ _ St S) as (X & c' & E). unfold into_list_item_with_id. destruct St as (_ & I & _).
  rewrite <- (says_id_fun _ _ _ N Si I), X, E. cbn. eauto.
Qed.
Lemma mut_item_ok m o i id c : NoDup (map fst m) -> says_tmp says m o -> (says_id m (Some (IdNum id)) \/ says_id m None /\ id = i) -> says_item m c -> exists c', into_mut_list_item iter o i = Ok (id, c').
Proof.
  intros N St Si S. destruct (item_obj_ok _ _ _ St S) as (X & c' & E). unfold into_mut_list_item. destruct St as (_ & I & _).
  destruct Si as [Si|[Si ->]]; rewrite <- (says_id_fun _ _ _ N Si I), X, E; cbn; eauto.
Qed.

Section Step.
Variable arr : list jval -> var_type -> res rvalue.
Variable obj : list (name * jval) -> bool -> res tmp_obj.
Variable n : nat.
Hypothesis Harr : forall a vt r, (dl a < n)%nat -> tidy (JArray a) -> arr a vt = Ok r -> says vt (JArray a) r.
Hypothesis Hobj : forall m o, (dm m < n)%nat -> tidy (JMap m) -> obj m false = Ok o -> says_tmp says m o.
Hypothesis Aok : forall a vt, (dl a < n)%nat -> tidy (JArray a) -> means vt (JArray a) -> exists r, arr a vt = Ok r.
Hypothesis Ook : forall m, (dm m < n)%nat -> tidy (JMap m) -> sensible means m -> exists o, obj m false = Ok o.

Lemma obj_ok m : (dm m < n)%nat -> tidy (JMap m) -> sensible means m -> exists o, obj m false = Ok o /\ says_tmp says m o.
Proof. intros D T S. destruct (Ook m D T S) as (o & E). exists o. split; [exact E|]. apply Hobj; assumption. Qed.

Lemma get_default_ok m d : (dm m < n)%nat -> tidy (JMap m) -> says_def m d -> exists d', get_default iter obj [JMap m] = Ok d'.
Proof.
  intros D T S. destruct (obj_ok m D T (def_sensible _ _ S)) as (o & E & St). cbn [get_default]. rewrite E. cbn [bind]. eapply def_obj_ok; [apply everywhere_node, T|exact St|exact S].
Qed.
Lemma default_ok x d : (dl x < S n)%nat -> tidy (JArray x) -> says_default x d -> exists d', list_attribute iter obj x = Ok (ADefault d').
Proof.
  intros D T S. inversion S as [m ? Sd|m ? Sd]; subst.
  - destruct (get_default_ok m d) as (d' & E); [cbn in D; fold (dm m) in D; lia|eapply everywhere_array; [exact T|right; left; reflexivity]|exact Sd|].
    exists d'. cbn [list_attribute]. rewrite eqb_bytes_refl, E. reflexivity.
  - destruct (get_default_ok m d) as (d' & E); [cbn in D; fold (dm m) in D; lia|eapply everywhere_array; [exact T|left; reflexivity]|exact Sd|].
    exists d'. cbn [list_attribute]. rewrite E. reflexivity.
Qed.
Lemma old_ok l ns : writes_names l ns -> exists ns', list_attribute iter obj (JString (txt "Old") :: l) = Ok (AOld ns').
Proof. intros W. destruct (get_old_ok _ _ W) as (ns' & E). exists ns'. change (list_attribute iter obj (JString (txt "Old") :: l)) with (l <- get_old l ; Ok (AOld l)). rewrite E. reflexivity. Qed.

(** the objects at the end of a list *)
Lemma loop_objs objs : (forall m, In m objs -> (dm m < n)%nat /\ tidy (JMap m) /\ sensible means m) ->
  exists vec, Forall2 (says_tmp says) objs vec /\
    forall t, tl_vec t = [] -> json_list_loop iter obj t (map JMap objs) = Ok (TmpList vec (tl_old t) (tl_default t) (tl_next t)).
Proof.
  intros H.
  assert (G : exists vec, Forall2 (says_tmp says) objs vec /\ get_list_items obj (map JMap objs) = Ok vec).
  { clear -H Hobj Ook. induction objs as [|m objs IH]; [exists []; split; [apply Forall2_nil|reflexivity]|].
    destruct (H m (or_introl eq_refl)) as (D & T & S). destruct (obj_ok m D T S) as (o & E & St). destruct IH as (vec & F & Ev); [intros; apply H; right; assumption|].
    exists (o :: vec). split; [constructor; assumption|]. unfold get_list_items in *. cbn [map mmap]. rewrite E, Ev. reflexivity. }
  destruct G as (vec & F & E). exists vec. split; [exact F|]. intros t V. destruct objs as [|m objs].
  - inversion F; subst. cbn. destruct t; cbn in V; subst. reflexivity.
  - cbn [map json_list_loop]. change (JMap m :: map JMap objs) with (map JMap (m :: objs)). rewrite E. reflexivity.
Qed.

Lemma list_items_ok objs vec items : Forall2 (says_tmp says) objs vec -> Forall2 (fun m c => says_id m None /\ says_item m c) objs items ->
  exists r, to_list_items iter vec = Ok r.
Proof.
  intros F. revert items. induction F as [|m o objs vec St F IH]; intros items G; [exists []; reflexivity|]. inversion G as [|? c ? items' [Si S] G']; subst.
  destruct (list_item_ok _ _ _ St Si S) as (c' & E). destruct (IH _ G') as (r & Er). exists (c' :: r). unfold to_list_items in *. cbn [mmap]. rewrite E, Er. reflexivity.
Qed.
Lemma rows_ok objs vec rows : Forall (fun m => NoDup (map fst m)) objs -> Forall2 (says_tmp says) objs vec -> Forall2 (fun m e => says_id m (Some (IdStr (fst e))) /\ says_item m (snd e)) objs rows ->
  exists r, to_data_items iter vec = Ok r.
Proof.
  intros K F. unfold to_data_items. generalize (@nil (name * citem)) as acc. revert rows K. induction F as [|m o objs vec St F IH]; intros rows K acc G; [exists acc; reflexivity|].
  inversion G as [|? [s c] ? rows' [Si S] G']; subst. inversion K; subst. cbn [fst snd] in *. destruct (id_item_ok m o s c) as (c' & E); auto. cbn [mfold]. rewrite E. cbn [bind]. eapply IH; eassumption.
Qed.
Lemma mut_items_ok objs vec : Forall2 (says_tmp says) objs vec -> Forall (fun m => NoDup (map fst m)) objs -> forall i items, says_items i objs items ->
  exists r, mmap (fun e => into_mut_list_item iter (snd e) (fst e)) (enumerate_from i vec) = Ok r.
Proof.
  induction 1 as [|m o objs vec St F IH]; intros K i items G; [exists []; reflexivity|]. inversion G as [|? ? ? id c items' Si S G']; subst. inversion K; subst.
  destruct (mut_item_ok m o i id c) as (c' & E); auto. destruct (IH H2 _ _ G') as (r & Er). exists ((id, c') :: r). cbn [enumerate_from mmap fst snd]. rewrite E, Er. reflexivity.
Qed.

Lemma perm_two {A} (l : list A) x o : Permutation l (x :: o) -> (o = [] /\ l = [x]) \/ (forall y, o = [y] -> l = [x; y] \/ l = [y; x]).
Proof.
  intros P. destruct o as [|y o]; [left; split; [reflexivity|]; apply Permutation_sym, Permutation_length_1_inv in P; exact P|right].
  intros z E. injection E as -> ->. apply Permutation_sym, Permutation_length_2_inv in P. exact P.
Qed.

Lemma items_sensible i objs items : says_items i objs items -> forall m, In m objs -> sensible means m.
Proof.
  revert i items. induction objs as [|m objs IH]; intros i items S m'; [intros []|]. inversion S as [|? ? ? id c items' Si Sc S']; subst. intros [<-|I]; [|eapply IH; eassumption].
  destruct Si as [Si|[Si _]]; eapply item_sensible; eassumption.
Qed.
Lemma forall2_sensible {B} (R : list (name * jval) -> B -> Prop) objs items : Forall2 R objs items -> (forall m c, R m c -> sensible means m) -> forall m, In m objs -> sensible means m.
Proof. induction 1 as [|m c objs items H F IH]; intros X m'; [intros []|]. intros [<-|I]; eauto. Qed.

(** ** Parameters *)

Lemma float_item_ok v f : (jdepth v < S n)%nat -> tidy v -> (writes_float v f \/ exists w, v = tagged_with "Float" [w] /\ writes_float w f) ->
  exists g, array_item arr AtFloat v = Ok (PFloat (Val g)).
Proof.
  intros D T [W|(w & -> & W)]; [inversion W; subst; cbn; eauto|]. unfold tagged_with in *.
  assert (Dw : (dl [JString (txt "Float"); w] < n)%nat) by (cbn [jdepth] in D; fold (dl [JString (txt "Float"); w]) in D; lia).
  assert (M : means Normal (JArray [JString (txt "Float"); w])) by (eexists; apply says_param, writes_tagged_float, W).
  destruct (Aok _ _ Dw T M) as (r & E). pose proof (Harr _ _ _ Dw T E) as Sr. cbn [array_item]. rewrite E. cbn [bind].
  pose proof (says_kind _ _ _ Sr) as K. destruct r; try discriminate K. inversion Sr as [? ? ? Wp| | | | | | | |]; subst.
  inversion Wp as [| | | |w' f' Wf| | |w' q N| |x is Ne Em| | | | | |]; subst; [eauto| |destruct is; discriminate Em]. inversion W; subst; inversion N.
Qed.

Lemma mmap_map_ok {A B} (f : A -> res B) (g : A -> B) l : (forall a, In a l -> f a = Ok (g a)) -> mmap f l = Ok (map g l).
Proof.
  induction l as [|a l IH]; intros H; cbn [mmap map]; [reflexivity|]. rewrite (H a (or_introl eq_refl)), IH; [reflexivity|]. intros; apply H; right; assumption.
Qed.
Lemma ints_ok t l : t <> AtFloat -> get_array arr (map JInt l) t = Ok (Val (map (fun i => PInt (Val i)) l)).
Proof.
  intros X. assert (E : mmap (array_item arr t) (map JInt l) = Ok (map (fun i => PInt (Val i)) l)).
  { induction l as [|i l IH]; cbn [map mmap]; [reflexivity|]. replace (array_item arr t (JInt i)) with (@Ok param (PInt (Val i))) by (destruct t; [congruence|reflexivity|reflexivity]). cbn [bind]. rewrite IH. reflexivity. }
  unfold get_array. destruct l as [|i [|]]; cbn [map] in *; rewrite E; reflexivity.
Qed.
Lemma to_ints_map l : to_ints (map (fun i => PInt (Val i)) l) = Some l.
Proof. induction l as [|i l IH]; [reflexivity|]. unfold to_ints in *. cbn. rewrite IH. reflexivity. Qed.
Lemma to_u8s_map l : Forall (fun b => 0 <= b < 256) l -> to_u8s (map (fun i => PInt (Val i)) l) = Some l.
Proof.
  induction 1 as [|i l B F IH]; [reflexivity|]. unfold to_u8s in *. cbn [map map_opt]. replace ((0 <=? i) && (i <? 256)) with true by (symmetry; lia). rewrite IH. reflexivity.
Qed.

Lemma param_ok a vt p : (dl a < S n)%nat -> tidy (JArray a) -> writes_param (JArray a) p -> exists r, json_array_to_rust addr iter arr obj a vt = Ok r.
Proof.
  intros D T W. inversion W as [| | | |v b Wf|v q N|v q N|v q N|v q N|x l Ne|x l|v q N|l fs F|v q N|x l B|v q N]; subst; unfold json_array_to_rust.
  - inversion Wf; subst; cbn; eauto.
  - inversion N; subst; cbn; eauto.
  - inversion N; subst; cbn; eauto.
  - inversion N; subst; cbn; eauto.
  - inversion N; subst; cbn; eauto.
  - replace (get_array_type (map JInt l)) with GNoTagInt by (destruct l; [congruence|reflexivity]). rewrite ints_ok by discriminate. cbn [bind to_param opt_map]. rewrite to_ints_map. cbn. eauto.
  - change (get_array_type (JString (txt "IntArray") :: map JInt l)) with (GAT AtInt). cbn [tl]. rewrite ints_ok by discriminate. cbn [bind to_param opt_map]. rewrite to_ints_map. cbn. eauto.
  - inversion N; subst; cbn; eauto.
  - change (get_array_type (JString (txt "FloatArray") :: l)) with (GAT AtFloat). cbn [tl].
    assert (G : exists gs, mmap (array_item arr AtFloat) l = Ok (map (fun g => PFloat (Val g)) gs)).
    { assert (Dl : (dl l < S n)%nat) by (pose proof (dl_tl (JString (txt "FloatArray") :: l)) as X; cbn [tl] in X; lia).
      assert (Tl : forall v, In v l -> tidy v) by (intros v Iv; eapply everywhere_array; [exact T|right; exact Iv]).
      clear -F Dl Tl Harr Aok. induction F as [|v f l fs H F IH]; [exists []; reflexivity|].
      destruct (float_item_ok v f) as (g & E); [pose proof (dl_in v (v :: l) (or_introl eq_refl)); lia|apply Tl; left; reflexivity|exact H|].
      destruct IH as (gs & Eg); [pose proof (dl_tl (v :: l)) as X; cbn [tl] in X; lia|intros; apply Tl; right; assumption|].
      exists (g :: gs). cbn [mmap map]. rewrite E, Eg. reflexivity. }
    destruct G as (gs & E).
    assert (E' : get_array arr l AtFloat = Ok (Val (map (fun g => PFloat (Val g)) gs))).
    { unfold get_array. destruct l as [|v [|v' l]].
      - rewrite E. reflexivity.
      - inversion F as [|? ? ? ? H _]; subst. destruct v; try (rewrite E; reflexivity); exfalso; destruct H as [H|(w & H & _)]; [inversion H|discriminate H|inversion H|discriminate H].
      - destruct v; rewrite E; reflexivity. }
    rewrite E'. cbn [bind to_param opt_map].
    replace (to_floats (map (fun g => PFloat (Val g)) gs)) with (Some gs); [cbn; eauto|].
    clear. induction gs as [|g gs IH]; [reflexivity|]. unfold to_floats in *. cbn. rewrite <- IH. reflexivity.
  - inversion N; subst; cbn; eauto.
  - change (get_array_type (JString (txt "Binary") :: map JInt l)) with (GAT AtBinary). cbn [tl]. rewrite ints_ok by discriminate. cbn [bind to_param opt_map]. rewrite to_u8s_map by exact B. cbn. eauto.
  - inversion N; subst; cbn; eauto.
Qed.

(** ** Lists *)

Lemma json_array_ok a vt : (dl a < S n)%nat -> tidy (JArray a) -> means vt (JArray a) -> exists r, json_array_to_rust addr iter arr obj a vt = Ok r.
Proof.
  intros D T (r & Sy).
  assert (Tl : forall v, In v a -> tidy v) by (intros v Iv; eapply everywhere_array; [exact T|exact Iv]).
  assert (Ta : forall x, In (JArray x) a -> (dl x < S n)%nat /\ tidy (JArray x)).
  { intros x Ix. split; [|apply Tl, Ix]. apply dl_in in Ix. cbn [jdepth] in Ix. fold (dl x) in Ix. lia. }
  assert (Tm : forall objs, (forall m, In m objs -> In (JMap m) a) -> (forall m, In m objs -> sensible means m) ->
     (forall m, In m objs -> (dm m < n)%nat /\ tidy (JMap m) /\ sensible means m) /\ Forall (fun m => NoDup (map fst m)) objs).
  { intros objs Io So. split.
    - intros m Im. pose proof (Io m Im) as I. split; [apply dl_in in I; cbn [jdepth] in I; fold (dm m) in I; lia|]. split; [apply Tl, I|auto].
    - apply Forall_forall. intros m Im. pose proof (Tl _ (Io m Im)) as X. apply everywhere_node in X. apply X. }
  inversion Sy as [? ? p W|attrs x old d ns objs rows P Sd Wo F|x d objs items Sd F|? u attrs x next d nx objs items U P Sd Wn F|objs items F|next nx objs items Wn F| |x d Sd|? u x d U Sd]; subst.
  - eapply param_ok; eassumption.
  - (* Table *)
    assert (Iobjs : forall m, In m objs -> In (JMap m) (JString (txt "Table") :: attrs ++ map JMap objs)) by (intros m Im; right; apply in_or_app; right; apply in_map, Im).
    assert (So : forall m, In m objs -> sensible means m) by (eapply forall2_sensible; [exact F|]; cbn; intros m e [Si Sc]; eapply item_sensible; eassumption).
    destruct (Tm objs Iobjs So) as [Tobjs Nobjs]. destruct (loop_objs objs Tobjs) as (vec & Fv & L). destruct (rows_ok objs vec rows Nobjs Fv F) as (rows' & Er).
    assert (Ix : In (JArray x) (JString (txt "Table") :: attrs ++ map JMap objs)).
    { right. apply in_or_app. left. eapply Permutation_in; [apply Permutation_sym, P|left; reflexivity]. }
    destruct (Ta x Ix) as [Dx Tx]. destruct (default_ok x d Dx Tx Sd) as (d' & Ed).
    change (json_array_to_rust addr iter arr obj (JString (txt "Table") :: attrs ++ map JMap objs) Normal) with
      (tmp <- json_list_to_rust iter obj (attrs ++ map JMap objs) ; into_const_data iter tmp).
    unfold json_list_to_rust. destruct (perm_two _ _ _ P) as [[-> ->]|Q].
    + cbn [app json_list_loop]. rewrite Ed. cbn [bind tl_default is_some tl_vec tl_old tl_next]. rewrite L by reflexivity. cbn [bind into_const_data tl_default tl_next tl_vec tl_old is_some]. rewrite Er. cbn. eauto.
    + inversion Wo as [l ? Wl|]; subst; [|apply Permutation_sym, Permutation_length_1_inv in P as ->; cbn [app json_list_loop]; rewrite Ed; cbn [bind tl_default is_some tl_vec tl_old tl_next]; rewrite L by reflexivity; cbn [bind into_const_data tl_default tl_next tl_vec tl_old is_some]; rewrite Er; cbn; eauto].
      destruct (old_ok l ns Wl) as (ns' & Eo). destruct (Q _ eq_refl) as [->| ->]; cbn [app json_list_loop tagged_with]; rewrite ?Ed, ?Eo; cbn [bind tl_default is_some tl_vec tl_old tl_next]; rewrite ?Ed, ?Eo; cbn [bind tl_default is_some tl_vec tl_old tl_next];
        rewrite L by reflexivity; cbn [bind into_const_data tl_default tl_next tl_vec tl_old is_some]; rewrite Er; cbn; eauto.
  - (* CList *)
    assert (Iobjs : forall m, In m objs -> In (JMap m) (JString (txt "CList") :: JArray x :: map JMap objs)) by (intros m Im; right; right; apply in_map, Im).
    assert (So : forall m, In m objs -> sensible means m) by (eapply forall2_sensible; [exact F|]; cbn; intros m e [Si Sc]; eapply item_sensible; eassumption).
    destruct (Tm objs Iobjs So) as [Tobjs Nobjs]. destruct (loop_objs objs Tobjs) as (vec & Fv & L). destruct (list_items_ok objs vec items Fv F) as (items' & Er).
    destruct (Ta x) as [Dx Tx]; [right; left; reflexivity|]. destruct (default_ok x d Dx Tx Sd) as (d' & Ed).
    change (json_array_to_rust addr iter arr obj (JString (txt "CList") :: JArray x :: map JMap objs) Normal) with
      (tmp <- json_list_to_rust iter obj (JArray x :: map JMap objs) ; into_const_list iter tmp).
    unfold json_list_to_rust. cbn [json_list_loop]. rewrite Ed. cbn [bind tl_default is_some tl_vec tl_old tl_next]. rewrite L by reflexivity.
    cbn [bind]. unfold into_const_list. cbn [tl_default tl_next tl_vec tl_old is_some]. rewrite Er. cbn. eauto.
  - (* MList *)
    assert (Iobjs : forall m, In m objs -> In (JMap m) (JString (txt "MList") :: attrs ++ map JMap objs)) by (intros m Im; right; apply in_or_app; right; apply in_map, Im).
    destruct (Tm objs Iobjs (items_sensible _ _ _ F)) as [Tobjs Nobjs]. destruct (loop_objs objs Tobjs) as (vec & Fv & L). destruct (mut_items_ok objs vec Fv Nobjs 0 items F) as (items' & Er).
    assert (Ix : In (JArray x) (JString (txt "MList") :: attrs ++ map JMap objs)).
    { right. apply in_or_app. left. eapply Permutation_in; [apply Permutation_sym, P|left; reflexivity]. }
    destruct (Ta x Ix) as [Dx Tx]. destruct (default_ok x d Dx Tx Sd) as (d' & Ed).
    assert (Fin : (exists t, json_list_to_rust iter obj (attrs ++ map JMap objs) = Ok t /\ tl_vec t = vec /\ tl_old t = None /\ tl_default t = Some d') ->
      exists r, json_array_to_rust addr iter arr obj (JString (txt "MList") :: attrs ++ map JMap objs) vt = Ok r).
    { intros (t & Et & Ev & Eo & Edd). inversion U; subst;
      [change (json_array_to_rust addr iter arr obj (JString (txt "MList") :: attrs ++ map JMap objs) Normal) with (tmp <- json_list_to_rust iter obj (attrs ++ map JMap objs) ; into_mut_list iter tmp false)
      |change (json_array_to_rust addr iter arr obj (JString (txt "MList") :: attrs ++ map JMap objs) Undefiable) with (tmp <- json_list_to_rust iter obj (attrs ++ map JMap objs) ; into_mut_list iter tmp true)];
      rewrite Et; cbn [bind]; unfold into_mut_list; rewrite Eo, Edd; cbn [is_some]; unfold to_mut_list_items, enumerate; rewrite Er; cbn; eauto. }
    apply Fin. clear Fin. unfold json_list_to_rust. inversion Wn as [i Li|]; subst.
    + destruct (perm_two _ _ _ P) as [[X _]|Q]; [discriminate X|].
      assert (En : list_attribute iter obj [JString (txt "NextID"); JInt nx] = Ok (ANextID (to_unsigned 64 nx))) by reflexivity.
      destruct (Q _ eq_refl) as [->| ->]; cbn [app json_list_loop tagged_with]; rewrite ?Ed, ?En; cbn [bind tl_default is_some tl_vec tl_old tl_next]; rewrite ?Ed, ?En; cbn [bind tl_default is_some tl_vec tl_old tl_next];
        rewrite L by reflexivity; eexists; (split; [reflexivity|]); auto.
    + apply Permutation_sym, Permutation_length_1_inv in P as ->. cbn [app json_list_loop]. rewrite Ed. cbn [bind tl_default is_some tl_vec tl_old tl_next]. rewrite L by reflexivity.
      eexists; (split; [reflexivity|]); auto.
  - (* Cil *)
    assert (Iobjs : forall m, In m objs -> In (JMap m) (JString (txt "Cil") :: map JMap objs)) by (intros m Im; right; apply in_map, Im).
    assert (So : forall m, In m objs -> sensible means m) by (eapply forall2_sensible; [exact F|]; cbn; intros m e [Si Sc]; eapply item_sensible; eassumption).
    destruct (Tm objs Iobjs So) as [Tobjs Nobjs]. destruct (loop_objs objs Tobjs) as (vec & Fv & L). destruct (list_items_ok objs vec items Fv F) as (items' & Er).
    change (json_array_to_rust addr iter arr obj (JString (txt "Cil") :: map JMap objs) Normal) with
      (tmp <- json_list_to_rust iter obj (map JMap objs) ; into_inner_list iter tmp).
    unfold json_list_to_rust. rewrite L by reflexivity. cbn [bind]. unfold into_inner_list. cbn [tl_default tl_next tl_vec tl_old is_some orb]. rewrite Er. cbn. eauto.
  - (* Mil *)
    assert (Iobjs : forall m, In m objs -> In (JMap m) (JString (txt "Mil") :: next ++ map JMap objs)) by (intros m Im; right; apply in_or_app; right; apply in_map, Im).
    destruct (Tm objs Iobjs (items_sensible _ _ _ F)) as [Tobjs Nobjs]. destruct (loop_objs objs Tobjs) as (vec & Fv & L). destruct (mut_items_ok objs vec Fv Nobjs 0 items F) as (items' & Er).
    change (json_array_to_rust addr iter arr obj (JString (txt "Mil") :: next ++ map JMap objs) Normal) with
      (tmp <- json_list_to_rust iter obj (next ++ map JMap objs) ; into_mut_inner_list iter tmp).
    unfold json_list_to_rust. inversion Wn as [i Li|]; subst.
    + cbn [app json_list_loop tagged_with]. change (list_attribute iter obj [JString (txt "NextID"); JInt nx]) with (Ok (ANextID (to_unsigned 64 nx))).
      cbn [bind tl_default is_some tl_vec tl_old tl_next]. rewrite L by reflexivity. cbn [bind]. unfold into_mut_inner_list. cbn [tl_default tl_next tl_vec tl_old is_some orb].
      unfold to_mut_list_items, enumerate. rewrite Er. cbn. eauto.
    + cbn [app]. rewrite L by reflexivity. cbn [bind]. unfold into_mut_inner_list. cbn [tl_default tl_next tl_vec tl_old is_some orb].
      unfold to_mut_list_items, enumerate. rewrite Er. cbn. eauto.
  - eexists; reflexivity.
  - (* CilDef *)
    destruct (Ta x) as [Dx Tx]; [right; left; reflexivity|]. destruct (default_ok x d Dx Tx Sd) as (d' & Ed).
    change (json_array_to_rust addr iter arr obj [JString (txt "CilDef"); JArray x] Normal) with (tmp <- json_list_to_rust iter obj [JArray x] ; into_inner_def tmp).
    unfold json_list_to_rust. cbn [json_list_loop]. rewrite Ed. cbn. eauto.
  - (* MilDef *)
    destruct (Ta x) as [Dx Tx]; [right; left; reflexivity|]. destruct (default_ok x d Dx Tx Sd) as (d' & Ed).
    inversion U; subst;
    [change (json_array_to_rust addr iter arr obj [JString (txt "MilDef"); JArray x] Normal) with (tmp <- json_list_to_rust iter obj [JArray x] ; into_inner_mut_def tmp false)
    |change (json_array_to_rust addr iter arr obj [JString (txt "MilDef"); JArray x] Undefiable) with (tmp <- json_list_to_rust iter obj [JArray x] ; into_inner_mut_def tmp true)];
    unfold json_list_to_rust; cbn [json_list_loop]; rewrite Ed; cbn; eauto.
Qed.

Lemma json_item_ok v vt : (jdepth v < S n)%nat -> tidy v -> means vt v -> exists r, json_item_to_rust addr arr vt v = Ok r.
Proof using addr Aok Harr.
  intros D T (r & S). destruct v; cbn; eauto.
  - exfalso. inversion S as [? ? ? W| | | | | | | |]; subst. inversion W.
  - exfalso. inversion S as [? ? ? W| | | | | | | |]; subst. inversion W.
  - apply Aok; [|exact T|exists r; exact S]. cbn in D. fold (dl l) in D. lia.
  - exfalso. inversion S as [? ? ? W| | | | | | | |]; subst. inversion W.
Qed.
End Step.

Lemma ref_item_ok v vt : means_ref vt v -> exists r, json_item_to_rust_ref addr vt v = Ok r.
Proof. intros (q & W). inversion W as [s P|? ? N]; subst; [cbn; eauto|]. inversion N; subst; cbn; eauto. Qed.

Lemma refs_sensible m refs old : no_word m SRef -> no_word m SEnum -> writes_refs m refs old -> sensible means_ref m.
Proof.
  intros N1 N2 (K & Ni & O & M1 & M2). split; [exact K|]. split; [exists None; split; [intros v W; exfalso; eapply Ni, W|reflexivity]|]. split; [eauto|]. split.
  - exists [], false, []. split; [intros v [W|W]; exfalso; [eapply N1, W|eapply N2, W]|]. split; [auto|]. split; [discriminate|]. intros [v W]. exfalso. eapply N2, W.
  - intros n vt v V. destruct (M1 _ _ _ V) as (i & q & _ & W). exists q. exact W.
Qed.

Theorem convert_ok n :
  (forall a vt, (dl a < n)%nat -> tidy (JArray a) -> means vt (JArray a) -> exists r, arr_of addr iter n a vt = Ok r) /\
  (forall m, (dm m < n)%nat -> tidy (JMap m) -> sensible means m -> exists o, obj_of addr iter n m false = Ok o) /\
  (forall m, (dm m < n)%nat -> tidy (JMap m) -> sensible means_ref m -> exists o, obj_of addr iter n m true = Ok o).
Proof.
  induction n as [|n (IA & IO & IR)]; [split; [|split]; intros; lia|].
  pose proof (convert_says addr iter It n) as (SA & SO & SR).
  unfold arr_of, obj_of in *. cbn [convert]. destruct (convert addr iter n) as [arr obj]. cbn [fst snd] in *. split; [|split].
  - intros a vt D T M. eapply json_array_ok; eassumption.
  - intros m D T S. eapply (json_obj_ok arr obj says means false m); [apply everywhere_node, T|exact S| | | |].
    + cbn. intros k v vt r Iv Er. eapply json_item_says; [exact SA| |eapply everywhere_map; [exact T|exact Iv]|exact Er]. apply dm_in in Iv. lia.
    + cbn. intros k v vt Iv M. eapply json_item_ok; [exact SA|exact IA| |eapply everywhere_map; [exact T|exact Iv]|exact M]. apply dm_in in Iv. lia.
    + intros k m' o' Im Eo. apply SR; [|eapply everywhere_map; [exact T|exact Im]|exact Eo]. apply dm_in in Im. cbn [jdepth] in Im. fold (dm m') in Im. lia.
    + intros k m' refs old Im N1 N2 W. apply IR; [|eapply everywhere_map; [exact T|exact Im]|eapply refs_sensible; eassumption]. apply dm_in in Im. cbn [jdepth] in Im. fold (dm m') in Im. lia.
  - intros m D T S. eapply (json_obj_ok arr obj ref_value means_ref true m); [apply everywhere_node, T|exact S| | | |].
    + cbn. intros k v vt r Iv Er. eapply ref_value_says, Er.
    + cbn. intros k v vt Iv M. eapply ref_item_ok, M.
    + intros k m' o' Im Eo. apply SR; [|eapply everywhere_map; [exact T|exact Im]|exact Eo]. apply dm_in in Im. cbn [jdepth] in Im. fold (dm m') in Im. lia.
    + intros k m' refs old Im N1 N2 W. apply IR; [|eapply everywhere_map; [exact T|exact Im]|eapply refs_sensible; eassumption]. apply dm_in in Im. cbn [jdepth] in Im. fold (dm m') in Im. lia.
Qed.

Theorem item_str_ok v vt : tidy v -> means vt v -> exists r, json_item_str_to_rust addr iter v vt = Ok r.
Proof.
  intros T M. unfold json_item_str_to_rust. apply (json_item_ok _ (jdepth v) (proj1 (convert_says addr iter It (jdepth v))) (proj1 (convert_ok (jdepth v)))); [lia|exact T|exact M].
Qed.
End Conversion.
