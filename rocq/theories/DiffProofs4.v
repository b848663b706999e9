(** The root of a document. *)
From Verif Require Import Base CompactionModel CompactionSpec FloatModel FloatProofs StringCompactionModel StringCompactionProofs
  LinkedModel LinkedSpec LinkedProofs LinkedProofs2 DocModel DiffModel DiffWireModel DiffSpec DiffProofs DiffProofs2 DiffProofs3.

(** ** [identity_eq] is symmetric *)

Lemma eqb_sym_bool a b : Bool.eqb a b = Bool.eqb b a.
Proof. destruct a, b; reflexivity. Qed.

Lemma f64_eq_sym a b : f64_eq a b = f64_eq b a.
Proof.
  unfold f64_eq. destruct (fdec F64 a), (fdec F64 b); cbn; try reflexivity; [apply eqb_sym_bool|apply Z.eqb_sym].
Qed.

Lemma f64s_eq_sym : forall a b, f64s_eq a b = f64s_eq b a.
Proof. induction a as [|x a IH]; intros [|y b]; cbn; try reflexivity. rewrite f64_eq_sym, IH. reflexivity. Qed.

Lemma identity_eq_sym p q : identity_eq p q = identity_eq q p.
Proof.
  destruct p as [a|a|a|a|a|a|a], q as [b|b|b|b|b|b|b]; cbn; try reflexivity; destruct a, b; cbn; try reflexivity.
  - apply eqb_sym_bool.
  - apply f64_eq_sym.
  - apply Z.eqb_sym.
  - apply Z.eqb_sym.
  - apply Z.eqb_sym.
  - apply f64s_eq_sym.
  - apply Z.eqb_sym.
Qed.

(** ** The root as an item *)

Section Root.
Context {n : nat}.

Definition lift_val (v : rootsab (mlistT n)) : lval (mlistT n) := match v with RParam p => LParam p | RMut o => LMil o end.
Definition lift (s : sabun n) : hmap (lval (mlistT n)) := map (fun e => (fst e, lift_val (snd e))) s.

Fixpoint lift_def (def : rootdef n) : hmap (Z * ldefval (defT n)) :=
  match def with
  | [] => []
  | (key, (id, v)) :: r =>
      match v with
      | RVParam p vt => (key, (id, DParam p vt)) :: lift_def r
      | RVMList d u => (key, (id, DMil d u)) :: lift_def r
      | _ => lift_def r
      end
  end.

Lemma hget_lift key s : hget key (lift s) = option_map lift_val (hget key s).
Proof. unfold lift. apply hget_map. Qed.

Lemma hset_lift key v s : lift (hset key v s) = hset key (lift_val v) (lift s).
Proof. induction s as [|[k w] s IH]; cbn; [reflexivity|]. destruct (eqb_bytes k key); cbn; [reflexivity|]. fold (lift (hset key v s)). rewrite IH. reflexivity. Qed.

Lemma lift_keys s : map fst (lift s) = map fst s.
Proof. unfold lift. rewrite map_map. reflexivity. Qed.

Lemma lift_def_none key def : hget key def = None -> hget key (lift_def def) = None.
Proof.
  induction def as [|[k [id v]] def IH]; cbn; [auto|]. destruct (eqb_bytes k key) eqn:E; [discriminate|].
  intros H. destruct v; cbn; rewrite ?E; auto.
Qed.

Lemma hget_lift_def key def : NoDup (map fst def) ->
  hget key (lift_def def) = match hget key def with
                            | Some (id, RVParam p vt) => Some (id, DParam p vt)
                            | Some (id, RVMList d u) => Some (id, DMil d u)
                            | _ => None
                            end.
Proof.
  induction def as [|[k [id v]] def IH]; intros ND; [reflexivity|]. cbn [map fst] in ND. apply NoDup_cons_iff in ND as [NI ND].
  cbn [hget]. destruct (eqb_bytes k key) eqn:E.
  - destruct v; cbn; rewrite ?E; try reflexivity; apply lift_def_none; apply hget_none; apply eqb_bytes_eq in E; subst key; exact NI.
  - destruct v; cbn; rewrite ?E; auto.
Qed.

Definition root_meta (v : rootval (defT n)) : res (option (metaval (metaT n))) :=
  match v with
  | RVParam p vt => Ok (Some (MParam (type_of p) vt))
  | RVMList d u => m <- make_tables n d ; Ok (Some (if u then MOptMil m else MMList m))
  | _ => Ok None
  end.

Lemma root_table_ok (def : rootdef n) : wf_rootdef def ->
  exists T, root_table def = Ok T /\ table_for (tablesT n) (lift_def def) T.
Proof.
  intros (H & _ & Hw). rewrite Forall_forall in Hw. pose proof H as (ND & _).
  destruct (build_table root_meta def H) as (T & E & G).
  { intros [key [id v]] I. specialize (Hw _ I). cbn in *. destruct v; cbn; try (eexists; reflexivity).
    destruct (make_tables_ok n _ Hw) as [m ->]. eexists; reflexivity. }
  exists T; split.
  - etransitivity; [|exact E]. unfold root_table, from_root. apply mfold_ext. intros a [key [id v]] _. destruct v; cbn; try reflexivity.
    destruct (make_tables n d); reflexivity.
  - split.
    + intros key id p vt A. rewrite hget_lift_def in A by exact ND. destruct (hget key def) as [[id' [p' vt'| | |d u]]|] eqn:Ed; try discriminate.
      injection A as <- <- <-. apply G. exists (RVParam p' vt'). split; [exact Ed|reflexivity].
    + intros key id d u A. rewrite hget_lift_def in A by exact ND. destruct (hget key def) as [[id' [p' vt'| | |d' u']]|] eqn:Ed; try discriminate.
      injection A as <- <- <-. pose proof (Hw _ (hget_in _ _ _ Ed)) as W; cbn in W. destruct (make_tables_ok n _ W) as [m Em].
      exists m. split; [split; assumption|]. apply G. exists (RVMList d' u'). split; [exact Ed|]. cbn. rewrite Em. reflexivity.
    + intros key id mv A. apply G in A as (v & A & B). pose proof (Hw _ (hget_in _ _ _ A)) as W; cbn in W.
      destruct v as [p vt| | |d u]; cbn in B; try discriminate.
      * apply Ok_inj, Some_inj in B; subst mv. exists p. rewrite hget_lift_def, A by exact ND. auto.
      * destruct (make_tables n d) as [m| |] eqn:Em; try discriminate. cbn in B. apply Ok_inj, Some_inj in B; subst mv.
        destruct u; exists d; rewrite hget_lift_def, A by exact ND; (split; [reflexivity|split; assumption]).
Qed.

Definition as_item (s : sabun n) : item (mlistT n) := Item (lift s) [].
Definition as_def (def : rootdef n) : ldef (defT n) := LDef (lift_def def) [] false [] [].

Lemma lift_def_in (def : rootdef n) e : In e (lift_def def) -> exists v, In (fst e, (fst (snd e), v)) def.
Proof.
  induction def as [|[k [id v]] def IH]; [intros []|]. cbn.
  destruct v; cbn; [intros [<-|I]| intros I | intros I |intros [<-|I]]; cbn; eauto;
    destruct (IH I) as [w Hw]; eauto.
Qed.

Lemma lift_tables (def : rootdef n) T : wf_rootdef def -> table_for (tablesT n) (lift_def def) T ->
  tables_for (tablesT n) (as_def def) (Tables T []).
Proof.
  intros (H & _) TF. split; cbn; [exact TF| | |constructor].
  - intros id key mv. assert (meta_get (@nil (option (name * metaval (metaT n)))) id = None) as ->.
    { unfold meta_get, zget. destruct (id <? 0); [reflexivity|]. destruct (Z.to_nat id); reflexivity. }
    split; [discriminate|intros (? & ? & E & _); discriminate].
  - apply numbered_nonneg in H. rewrite Forall_forall in *. intros e I. apply lift_def_in in I as [v I]. apply (H _ I).
Qed.

Variable mem : Z -> list Z.

Lemma lift_typed (s : sabun n) def : NoDup (map fst def) -> typed_root mem s def -> typed_item mem (typedT mem n) (as_item s) (as_def def).
Proof.
  intros ND [NS Ty]. split; [cbn; rewrite lift_keys; exact NS|]. split; [constructor|]. split; [|cbn; discriminate].
  intros key v E. cbn in E. rewrite hget_lift in E. destruct (hget key s) as [w|] eqn:Ew; [|discriminate]. cbn in E. apply Some_inj in E; subst v.
  specialize (Ty _ _ Ew). destruct w as [p|o]; cbn.
  - destruct Ty as (id & p0 & vt & Hd & F). exists id, p0, vt. rewrite hget_lift_def, Hd by exact ND. auto.
  - destruct Ty as (id & d & u & Hd & F). exists id, d, u. rewrite hget_lift_def, Hd by exact ND. auto.
Qed.

Lemma lift_later ord (a b : sabun n) def : later_root ord def a b -> later_item (no_cilT n) (laterT ord n) (as_item a) (as_item b).
Proof.
  intros (LM & LV & _). split; [|split; [|cbn; congruence]].
  - intros key. cbn. rewrite !hget_lift. specialize (LM key). destruct (hget key a), (hget key b); cbn in *; try congruence; intros _; exfalso; apply LM; [discriminate|reflexivity].
  - intros key w. cbn. rewrite !hget_lift. destruct (hget key b) as [v|] eqn:Ev; [|discriminate]. cbn. intros E. apply Some_inj in E; subst w.
    specialize (LV _ _ Ev). destruct (hget key a) as [[p|[x|]]|], v as [q|[y|]]; cbn in *; auto; contradiction.
Qed.

Lemma lift_next ord (a b : sabun n) : next_root ord a b -> next_item (nextT ord n) (as_item a) (as_item b).
Proof.
  intros H key x y. cbn. rewrite !hget_lift. destruct (hget key a) as [[p|o]|] eqn:Ea; cbn; try discriminate.
  destruct (hget key b) as [[q|o']|] eqn:Eb; cbn; try discriminate. intros E1 E2. apply Some_inj in E1, E2. injection E1 as ->. injection E2 as ->.
  eapply H; eassumption.
Qed.

Lemma lift_same ord nx (a b : sabun n) : same_root ord nx a b <-> same_item (sameT ord nx n) (as_item a) (as_item b).
Proof.
  split.
  - intros H. split; [|reflexivity]. intros key. cbn. rewrite !hget_lift. specialize (H key).
    destruct (hget key a) as [[p|o]|], (hget key b) as [[q|o']|]; cbn in *; auto.
  - intros [H _] key. specialize (H key). cbn in H. rewrite !hget_lift in H.
    destruct (hget key a) as [[p|o]|], (hget key b) as [[q|o']|]; cbn in *; auto.
Qed.

(** ** Comparing *)

Lemma root_value_lift ord (f t : sabun n) def T : wf_rootdef def -> table_for (tablesT n) (lift_def def) T ->
  typed_root mem f def -> typed_root mem t def -> later_root ord def f t ->
  mfold (root_value f def T) t ([], []) =
  mfold (compare_value (get_mlist_diffT n) (new_listT n) (as_item f) (as_def def) (Tables T [])) (lift t) ([], []).
Proof.
  intros ((ND & _) & _) TF [_ TyF] [NT TyT] (_ & LV & LU).
  assert (G : forall l acc, (forall e, In e l -> In e t) -> mfold (root_value f def T) l acc =
    mfold (compare_value (get_mlist_diffT n) (new_listT n) (as_item f) (as_def def) (Tables T [])) (lift l) acc); [|apply G; auto].
  induction l as [|[key v] l IH]; intros acc Hin; [reflexivity|].
  assert (Ev : hget key t = Some v) by (apply in_hget; [exact NT|apply Hin; left; reflexivity]).
  cbn [lift map mfold fst snd]. fold (lift l).
  match goal with |- bind ?x _ = bind ?y _ => assert (x = y) as ->; [|destruct y; cbn [bind]; [apply IH; intros; apply Hin; right; assumption|reflexivity|reflexivity]] end.
  specialize (TyT _ _ Ev). specialize (LV _ _ Ev). destruct acc as [ps ls]. cbn [root_value compare_value as_item it_values].
  rewrite hget_lift. destruct v as [p|o]; cbn [lift_val compare_value as_def ld_members mt_items].
  - destruct TyT as (id & p0 & vt & Hd & F). rewrite hget_lift_def, Hd by exact ND.
    destruct (hget key f) as [[fp|fo]|]; cbn; try reflexivity. rewrite (identity_eq_sym fp p). reflexivity.
  - destruct TyT as (id & d & u & Hd & Ht). rewrite hget_lift_def, Hd by exact ND.
    destruct (tf_list _ _ _ TF key id d u) as (m & Hi & Em); [rewrite hget_lift_def, Hd by exact ND; reflexivity|].
    rewrite (get_tables_list _ _ _ _ _ Em), Em.
    destruct u.
    + destruct (LU _ _ _ _ Hd Ev) as [E1 E2]. injection E1 as ->. rewrite E2. reflexivity.
    + destruct (hget key f) as [[fp|[fl|]]|]; cbn [option_map lift_val].
      * contradiction.
      * destruct o as [ol|]; reflexivity.
      * destruct o as [ol|]; reflexivity.
      * contradiction.
Qed.

(** ** Applying *)

Lemma apply_root_params_lift T ps : forall (s : sabun n) r, apply_params ps T (lift s) = Ok r ->
  exists s', apply_root_params T ps s = Ok s' /\ lift s' = r /\ (forall key o, hget key s = Some (RMut o) -> (forall id mv, In id (map fst ps) -> meta_get T id <> Some (key, mv)) -> hget key s' = Some (RMut o)).
Proof.
  induction ps as [|[id p] ps IH]; intros s r E.
  - apply Ok_inj in E. exists s. auto.
  - unfold apply_params in E. cbn [mfold] in E. unfold apply_root_params. cbn [mfold].
    destruct (meta_get T id) as [[key mv]|] eqn:Em; [|discriminate]. cbn [bind] in *.
    change (LParam p) with (lift_val (RParam p)) in E. rewrite <- hset_lift in E.
    destruct (IH _ _ E) as (s' & E' & Hl & Hk). exists s'. split; [exact E'|]. split; [exact Hl|].
    intros key' o Hk' Hn. apply Hk; [|intros; apply Hn; right; assumption].
    rewrite hget_hset_other; [exact Hk'|]. intros ->. apply (Hn id mv); [left; reflexivity|exact Em].
Qed.

Lemma apply_root_lists_lift T ls : forall (s : sabun n) r,
  (forall id key mv, In id (map fst ls) -> meta_get T id = Some (key, mv) -> exists o, hget key s = Some (RMut o)) ->
  apply_lists (apply_list_diffT n) (diff_to_new_listT n) ls T (lift s) = Ok r ->
  exists s', apply_root_lists T ls s = Ok s' /\ lift s' = r.
Proof.
  induction ls as [|[id x] ls IH]; intros s r Hk E.
  - apply Ok_inj in E. exists s. auto.
  - unfold apply_lists in E. cbn [mfold] in E. unfold apply_root_lists. cbn [mfold].
    destruct (meta_get T id) as [[key mv]|] eqn:Em; [|discriminate].
    destruct (Hk id key mv (or_introl eq_refl) Em) as [o Ho].
    assert (Keep : forall v, exists s', s' = hset key (RMut v) s /\ (forall id' key' mv', In id' (map fst ls) -> meta_get T id' = Some (key', mv') -> exists o', hget key' s' = Some (RMut o'))).
    { intros v. eexists; split; [reflexivity|]. intros id' key' mv' I' Em'. destruct (name_dec key' key) as [->|N].
      - rewrite hget_hset_same. eauto.
      - rewrite hget_hset_other by exact N. eapply Hk; [right; exact I'|exact Em']. }
    assert (Go : forall v, mfold (fun r e => let '(id, op_list_diff) := e in
        match meta_get T id with
        | None => Err
        | Some (key, MMList tables) | Some (key, MOptMil tables) =>
            match op_list_diff with
            | Some list_diff =>
                match hget key r with
                | Some (LMil (Some m)) => m <- apply_list_diffT n m list_diff tables ; Ok (hset key (LMil (Some m)) r)
                | _ => m <- diff_to_new_listT n list_diff tables ; Ok (hset key (LMil (Some m)) r)
                end
            | None => Ok (hset key (LMil None) r)
            end
        | Some (_, MParam _ _) => Err
        end) ls (hset key (LMil v) (lift s)) = Ok r -> exists s', apply_root_lists T ls (hset key (RMut v) s) = Ok s' /\ lift s' = r).
    { intros v E'. destruct (Keep v) as (s1 & -> & K1). apply IH; [exact K1|].
      etransitivity; [|exact E']. unfold apply_lists. rewrite hset_lift. reflexivity. }
    assert (Same : mfold (fun r e => let '(id, op_list_diff) := e in
        match meta_get T id with
        | None => Err
        | Some (key, MMList tables) | Some (key, MOptMil tables) =>
            match op_list_diff with
            | Some list_diff =>
                match hget key r with
                | Some (LMil (Some m)) => m <- apply_list_diffT n m list_diff tables ; Ok (hset key (LMil (Some m)) r)
                | _ => m <- diff_to_new_listT n list_diff tables ; Ok (hset key (LMil (Some m)) r)
                end
            | None => Ok (hset key (LMil None) r)
            end
        | Some (_, MParam _ _) => Err
        end) ls (hset key (LMil None) (lift s)) = Ok r -> o = None -> exists s', apply_root_lists T ls s = Ok s' /\ lift s' = r).
    { intros E' ->. destruct (Go None E') as (s' & Es & Hl). rewrite hset_same in Es by exact Ho. eauto. }
    rewrite hget_lift, Ho in E. cbn [option_map lift_val] in E. rewrite Ho.
    destruct mv as [pt vt|t|t]; [discriminate| |].
    + destruct o as [m|], x as [ld|]; cbn [bind] in *; auto.
      * destruct (apply_list_diffT n m ld t) as [m'| |]; try discriminate. cbn [bind] in *. apply Go; exact E.
      * apply Go; exact E.
      * destruct (diff_to_new_listT n ld t) as [m'| |]; try discriminate. cbn [bind] in *. apply Go; exact E.
    + destruct o as [m|], x as [ld|]; cbn [bind] in *; auto.
      * destruct (apply_list_diffT n m ld t) as [m'| |]; try discriminate. cbn [bind] in *. apply Go; exact E.
      * apply Go; exact E.
      * destruct (diff_to_new_listT n ld t) as [m'| |]; try discriminate. cbn [bind] in *. apply Go; exact E.
Qed.

Theorem root_diff_ok ord nx (f t : sabun n) def T : wf_rootdef def -> root_table def = Ok T ->
  typed_root mem f def -> typed_root mem t def -> later_root ord def f t -> (nx = true -> next_root ord f t) ->
  exists d, get_root_diff f t def T = Ok d /\
    forall f', same_root ord nx f' f -> exists r, apply_root_diff f' (fresh_root d) T = Ok r /\ same_root ord nx r t.
Proof.
  intros WF ET TyF TyT LR NX.
  destruct (root_table_ok def WF) as (T' & ET' & TF). rewrite ET in ET'. apply Ok_inj in ET'; subst T'.
  destruct (diffT_ok mem ord nx n) as [Hnew Hdiff].
  pose proof WF as ((ND & _) & _).
  pose proof (lift_tables def T WF TF) as TS.
  pose proof (lift_typed f def ND TyF) as TyF'. pose proof (lift_typed t def ND TyT) as TyT'.
  pose proof (lift_later ord f t def LR) as LR'.
  assert (NX' : nx = true -> next_item (nextT ord n) (as_item f) (as_item t)) by (intros E; apply lift_next, NX, E).
  destruct (collect_ok mem (get_mlist_diffT n) (new_listT n) (apply_list_diffT n) (diff_to_new_listT n) (freshT n)
    (tablesT n) (typedT mem n) (sameT ord nx n) (laterT ord n) (no_cilT n) (nextT ord n) nx Hnew Hdiff (as_def def) (Tables T [])
    (as_item f) (as_item t)) as (params & lists & E & C).
  - exact TF.
  - apply (ts_num _ _ _ TS).
  - exact TyF'.
  - exact TyT'.
  - apply LR'.
  - exact NX'.
  - exists (RDiff params lists). split.
    + unfold get_root_diff. rewrite (root_value_lift ord f t def T WF TF TyF TyT LR). cbn [as_item it_values] in E. rewrite E. reflexivity.
    + intros f' S. apply lift_same in S.
      destruct (modify_ok mem (get_mlist_diffT n) (new_listT n) (apply_list_diffT n) (diff_to_new_listT n) (freshT n)
        (tablesT n) (typedT mem n) (sameT ord nx n) (laterT ord n) (no_cilT n) (nextT ord n) nx
        (sameT_trans ord nx n) Hnew Hdiff (as_def def) (Tables T []) (as_item f) (as_item t) params lists TS TyF' TyT' LR' NX' C _ S)
        as (r & Er & Sr).
      unfold modify_item_from_diff, fresh_item in Er. cbn [df_params df_lists df_refs as_item it_values it_refs mt_items mt_refs fold_left] in Er.
      destruct (apply_params (map_snd fresh_param params) T (lift f')) as [v1| |] eqn:E1; try discriminate. cbn [bind] in Er.
      destruct (apply_lists _ _ _ T v1) as [v2| |] eqn:E2; try discriminate. cbn [bind] in Er.
      cbn in Er. apply Ok_inj in Er.
      destruct (apply_root_params_lift _ _ _ _ E1) as (s1 & F1 & H1 & K1). subst v1.
      destruct (apply_root_lists_lift T (map_snd (option_map (freshT n)) lists) s1 v2) as (s2 & F2 & H2); [|exact E2|].
      * intros id key mv I Em. rewrite map_fst_map_snd in I. apply in_map_iff in I as ([id' x] & <- & I). cbn [fst] in *.
        assert (NDl : NoDup (map fst lists)) by (eapply increasing_nodup, (c_sl _ _ _ _ _ _ _ _ _ C)).
        apply in_lookup in I; [|exact NDl].
        pose proof (c_l _ _ _ _ _ _ _ _ _ C id' key mv Em) as G. cbv beta in G. rewrite I in G. cbn [as_item it_values] in G. rewrite !hget_lift in G.
        destruct (hget key t) as [[p|mil]|] eqn:Et; cbn [option_map lift_val lspec] in G; try discriminate.
        destruct G as (id0 & d0 & u0 & m0 & Hd & Hmv & _ & _).
        assert (exists o, hget key f = Some (RMut o)) as [o Ho].
        { destruct LR as (_ & LV & _). specialize (LV _ _ Et). destruct (hget key f) as [[p|o]|]; [destruct mil; contradiction|eauto|destruct mil; contradiction]. }
        assert (exists o, hget key f' = Some (RMut o)) as [o' Ho'].
        { destruct S as [S _]. specialize (S key). cbn in S. rewrite !hget_lift, Ho in S. destruct (hget key f') as [[p|o']|]; cbn in S; try contradiction. eauto. }
        exists o'. apply K1; [exact Ho'|]. intros id1 mv1 I1 Em1.
        assert (id1 = id') by (eapply (tf_inj _ _ _ TF); eassumption). subst id1.
        rewrite map_fst_map_snd in I1. apply in_map_iff in I1 as ([id2 p2] & E2' & I1). cbn in E2'. subst id2.
        apply in_lookup in I1; [|eapply increasing_nodup, (c_sp _ _ _ _ _ _ _ _ _ C)].
        rewrite (c_p _ _ _ _ _ _ _ _ _ C id' key mv Em) in I1. cbn [as_item it_values] in I1. rewrite !hget_lift, Et in I1. discriminate.
      * exists s2. split.
        -- unfold apply_root_diff, fresh_root. cbn [rd_params rd_lists]. rewrite F1; cbn [bind]. exact F2.
        -- apply lift_same. subst r v2. exact Sr.
Qed.
End Root.
