(** Comparing two lists and applying the difference, for one nesting depth. *)
From Verif Require Import Base CompactionModel CompactionSpec StringCompactionModel StringCompactionProofs
  LinkedModel LinkedSpec LinkedProofs LinkedProofs2 LinkedProofs4 LinkedProofs5 DocModel DiffModel DiffWireModel DiffSpec DiffProofs DiffProofs2.

Lemma lookup_app {A} id (a b : list (Z * A)) : lookup id (a ++ b) = match lookup id a with Some v => Some v | None => lookup id b end.
Proof. induction a as [|[k v] a IH]; cbn; [reflexivity|]. destruct (id =? k); auto. Qed.

Lemma lookup_assign {A} id k (v : A) l : lookup id (assign k v l) = if (id =? k) && has k l then Some v else lookup id l.
Proof.
  unfold has. induction l as [|[k' w] l IH]; cbn; [rewrite andb_false_r; reflexivity|].
  unfold assign in *; cbn. destruct (Z.eqb_spec k' k).
  - subst k'. cbn. rewrite Z.eqb_refl. rewrite andb_true_r. destruct (Z.eqb_spec id k); [reflexivity|]. rewrite IH.
    destruct (Z.eqb_spec id k); [contradiction|]. reflexivity.
  - cbn. destruct (Z.eqb_spec id k').
    + subst k'. destruct (Z.eqb_spec id k); [contradiction|]. reflexivity.
    + rewrite IH. destruct (Z.eqb_spec id k); [|reflexivity]. subst id. destruct (Z.eqb_spec k k'); [congruence|]. reflexivity.
Qed.

Lemma lookup_without_all {A} id k (l : list (Z * A)) : lookup id (without k l) = if id =? k then None else lookup id l.
Proof.
  induction l as [|[k' w] l IH]; cbn; [destruct (id =? k); reflexivity|].
  unfold without in *. destruct (Z.eqb_spec k' k); cbn.
  - subst k'. rewrite IH. destruct (Z.eqb_spec id k); reflexivity.
  - destruct (Z.eqb_spec id k').
    + subst k'. destruct (Z.eqb_spec id k); [contradiction|reflexivity].
    + exact IH.
Qed.

Lemma ids_without {A} k (l : list (Z * A)) : ids (without k l) = filter (fun id => negb (id =? k)) (ids l).
Proof. unfold ids, without. induction l as [|[k' w] l IH]; cbn; [reflexivity|]. destruct (k' =? k); cbn; congruence. Qed.

Lemma filter_filter {A} (f g : A -> bool) l : filter f (filter g l) = filter (fun x => g x && f x) l.
Proof. induction l as [|a l IH]; cbn; [reflexivity|]. destruct (g a) eqn:E; cbn; [|exact IH]. destruct (f a); congruence. Qed.

Lemma has_lookup {A} id (l : list (Z * A)) : has id l = match lookup id l with Some _ => true | None => false end.
Proof. reflexivity. Qed.

Lemma same_ids_in ord nx {L} (inner : L -> L -> Prop) (a b : mlist (item L)) : same_list ord nx inner a b -> Permutation (ids (fst a)) (ids (fst b)).
Proof. intros (H & _). destruct ord; [rewrite H; apply Permutation_refl|exact H]. Qed.

Section Lists.
Context {D M L LD : Type}.
Variable mem : Z -> list Z.
Variable inner_diff : L -> L -> D -> M -> res (option LD).
Variable inner_new : L -> D -> M -> res LD.
Variable inner_apply : L -> LD -> M -> res L.
Variable inner_make : LD -> M -> res L.
Variable inner_fresh : LD -> LD.
Variable itab : D -> M -> Prop.
Variable typed : L -> D -> Prop.
Variables same same0 : L -> L -> Prop.
Variable later : L -> L -> Prop.
Variable nocil : L -> Prop.
Variable next : L -> L -> Prop.
Variables ord nx : bool.
Hypothesis Srefl : forall a, same a a.
Hypothesis Strans : forall a b c, same a b -> same b c -> same a c.
Hypothesis Sweak : forall a b, same a b -> same0 a b.
Hypothesis Hnew : forall l d m, itab d m -> typed l d -> nocil l ->
  exists x, inner_new l d m = Ok x /\ exists r, inner_make (inner_fresh x) m = Ok r /\ same r l.
Hypothesis Hdiff : forall a b d m, itab d m -> typed a d -> typed b d -> later a b -> (nx = true -> next a b) ->
  exists od, inner_diff a b d m = Ok od /\
    match od with
    | None => same a b
    | Some x => forall a', same a' a -> exists r, inner_apply a' (inner_fresh x) m = Ok r /\ same r b
    end.

Notation apply_all meta vec := (mfold (apply_entry inner_apply inner_make meta) (map_snd (fresh_enum inner_fresh) vec)).

(** the items of [l] are the same as those of [to] *)
Definition agree (l : list (Z * item L)) (to : mlist (item L)) : Prop :=
  forall id x, lookup id l = Some x -> exists y, lookup id (fst to) = Some y /\ same_item same x y.

Lemma phase1 def meta (from to : mlist (item L)) :
  tables_for itab def meta -> typed_list mem typed from def -> typed_list mem typed to def ->
  later_list ord nocil later from to -> (nx = true -> next_list ord same0 next from to) ->
  exists r1, mfold (diff_from inner_diff inner_new to def meta) (fst from) [] = Ok r1 /\
    forall from' n, same_list ord nx same from' from ->
      exists L1, apply_all meta r1 (fst from', n) = Ok (L1, n) /\
        ids L1 = filter (fun id => has id (fst to)) (ids (fst from')) /\ agree L1 to.
Proof.
  intros TS (NF & _ & _ & _ & _ & _ & TyF) (_ & _ & _ & _ & _ & _ & TyT) (_ & LV) NX.
  destruct (mfold_inv (diff_from inner_diff inner_new to def meta)
    (fun p r1 => forall from' n, same_list ord nx same from' from ->
       exists L1, apply_all meta r1 (fst from', n) = Ok (L1, n) /\
         ids L1 = filter (fun id => negb (has id p) || has id (fst to)) (ids (fst from')) /\
         forall id, if has id p
                    then match lookup id (fst to) with
                         | Some y => exists x, lookup id L1 = Some x /\ same_item same x y
                         | None => lookup id L1 = None
                         end
                    else lookup id L1 = lookup id (fst from'))
    (fst from) []) as (r1 & E & H).
  - intros from' n S. exists (fst from'). split; [reflexivity|]. split; [|intros; reflexivity].
    induction (ids (fst from')) as [|k l IH]; cbn; [reflexivity|]. cbn in IH. rewrite <- IH. reflexivity.
  - intros p [id0 fi] r acc Ep IH.
    assert (F0 : lookup id0 (fst from) = Some fi).
    { apply in_lookup; [exact NF|]. rewrite Ep. apply in_elt. }
    assert (P0 : has id0 p = false).
    { apply has_not. rewrite Ep in NF. fold (ids (p ++ (id0, fi) :: r)) in NF. apply ids_mid in NF. tauto. }
    assert (Hh : forall id, has id (p ++ [(id0, fi)]) = has id p || (id =? id0)).
    { intros id. rewrite !has_lookup, lookup_app. cbn. destruct (lookup id p); [reflexivity|]. destruct (id =? id0); reflexivity. }
    pose proof (TyF _ _ F0) as Ty0. unfold diff_from. destruct (lookup id0 (fst to)) as [ti|] eqn:T0.
    + destruct (compare_items_ok mem inner_diff inner_new inner_apply inner_make inner_fresh itab typed same later nocil next nx
        Srefl Strans Hnew Hdiff def meta fi ti TS Ty0 (TyT _ _ T0)) as (od & Eod & Hod).
      { specialize (LV _ _ T0). rewrite F0 in LV. exact LV. }
      { intros En. destruct (NX En) as [_ N]. eapply N; eassumption. }
      rewrite Eod; cbn [bind]. destruct od as [d|].
      * eexists; split; [reflexivity|]. intros from' n S. destruct (IH from' n S) as (L1 & E1 & I1 & A1).
        unfold map_snd. rewrite map_app, mfold_app. fold (map_snd (fresh_enum inner_fresh) acc). rewrite E1; cbn [bind].
        cbn [map mfold fst snd fresh_enum apply_entry].
        pose proof (A1 id0) as A0. rewrite P0 in A0. rewrite A0.
        destruct S as (S1 & S2 & S3). pose proof (S2 id0) as S0. rewrite F0 in S0.
        destruct (lookup id0 (fst from')) as [fi'|] eqn:F0'; [|destruct S0]. cbn in S0.
        destruct (Hod fi' S0) as (x & Ex & Sx). rewrite Ex; cbn [bind astep fst].
        assert (Hl0 : has id0 L1 = true) by (rewrite has_lookup, A0; reflexivity).
        eexists; split; [reflexivity|]. split.
        -- rewrite ids_assign, I1. apply filter_ext. intros id. rewrite Hh. destruct (Z.eqb_spec id id0).
           ++ subst id. rewrite !P0. cbn. rewrite has_lookup, T0. reflexivity.
           ++ rewrite orb_false_r. reflexivity.
        -- intros id. rewrite Hh, lookup_assign, Hl0, andb_true_r. specialize (A1 id). destruct (Z.eqb_spec id id0).
           ++ subst id. rewrite orb_true_r, T0. eauto.
           ++ rewrite orb_false_r. exact A1.
      * eexists; split; [reflexivity|]. intros from' n S. destruct (IH from' n S) as (L1 & E1 & I1 & A1).
        exists L1. split; [exact E1|]. split.
        -- rewrite I1. apply filter_ext. intros id. rewrite Hh. destruct (Z.eqb_spec id id0).
           ++ subst id. rewrite !P0. cbn. rewrite has_lookup, T0. reflexivity.
           ++ rewrite orb_false_r. reflexivity.
        -- intros id. rewrite Hh. specialize (A1 id). destruct (Z.eqb_spec id id0).
           ++ subst id. rewrite orb_true_r, T0. rewrite P0 in A1. destruct S as (S1 & S2 & S3). pose proof (S2 id0) as S0. rewrite F0 in S0.
              destruct (lookup id0 (fst from')) as [fi'|] eqn:F0'; [|destruct S0]. cbn in S0.
              exists fi'. split; [exact A1|]. eapply same_item_trans; eassumption.
           ++ rewrite orb_false_r. exact A1.
    + eexists; split; [reflexivity|]. intros from' n S. destruct (IH from' n S) as (L1 & E1 & I1 & A1).
      unfold map_snd. rewrite map_app, mfold_app. fold (map_snd (fresh_enum inner_fresh) acc). rewrite E1; cbn [bind].
      cbn [map mfold fst snd fresh_enum apply_entry astep bind]. eexists; split; [reflexivity|]. split.
      * rewrite ids_without, I1, filter_filter. apply filter_ext. intros id. rewrite Hh. destruct (Z.eqb_spec id id0).
        -- subst id. rewrite P0. cbn. rewrite has_lookup, T0. reflexivity.
        -- rewrite orb_false_r, andb_true_r. reflexivity.
      * intros id. rewrite Hh, lookup_without_all. specialize (A1 id). destruct (Z.eqb_spec id id0).
        -- subst id. rewrite orb_true_r, T0. reflexivity.
        -- rewrite orb_false_r. exact A1.
  - exists r1. split; [exact E|]. intros from' n S. destruct (H from' n S) as (L1 & E1 & I1 & A1).
    pose proof (same_ids_in _ _ _ _ _ S) as Pm.
    exists L1. split; [exact E1|]. split.
    + rewrite I1. apply filter_ext_in. intros id I. assert (has id (fst from) = true) as ->; [|reflexivity].
      apply has_in. eapply Permutation_in; eassumption.
    + intros id x Ex. specialize (A1 id). destruct (has id (fst from)) eqn:Hf.
      * destruct (lookup id (fst to)) as [y|]; [|congruence]. destruct A1 as (x' & Ex' & Sx). exists y. split; [reflexivity|]. congruence.
      * exfalso. rewrite Ex in A1. symmetry in A1. apply lookup_in in A1. apply has_not in Hf. apply Hf.
        eapply Permutation_in; eassumption.
Qed.

Lemma ids_nil {A} (l : list (Z * A)) : ids l = [] -> l = [].
Proof. destruct l; [reflexivity|discriminate]. Qed.

Lemma lookup_after {A} k id (it : A) l : In k (ids l) -> ~ In id (ids l) ->
  (forall j, lookup j (after k (id, it) l) = if j =? id then Some it else lookup j l) /\
  Permutation (ids (after k (id, it) l)) (id :: ids l).
Proof.
  intros Ik Ni. apply in_ids_split in Ik as (p & v & q & E).
  assert (exists p v q, l = p ++ (k, v) :: q /\ ~ In k (ids p)) as (p' & v' & q' & E' & N').
  { clear Ni. subst l. revert p. induction p as [|[k0 w] p IH].
    - exists [], v, q. split; [reflexivity|intros []].
    - destruct (Z.eq_dec k0 k) as [->|N].
      + exists [], w, (p ++ (k, v) :: q). split; [reflexivity|intros []].
      + destruct IH as (p' & v' & q' & E & N'). exists ((k0, w) :: p'), v', q'. cbn. rewrite E. split; [reflexivity|].
        intros [H|H]; [congruence|exact (N' H)]. }
  clear E p v q. rewrite E' in *. rewrite after_mid by exact N'. split.
  - intros j. rewrite !lookup_app. rewrite ids_app in Ni. cbn [ids map fst] in Ni.
    destruct (Z.eqb_spec j id).
    + subst j. assert (lookup id p' = None) as -> by (apply lookup_none; intros H; apply Ni, in_or_app; auto).
      cbn. destruct (Z.eqb_spec id k); [exfalso; apply Ni, in_or_app; right; left; congruence|]. rewrite Z.eqb_refl. reflexivity.
    + destruct (lookup j p'); [reflexivity|]. cbn. destruct (j =? k); [reflexivity|]. destruct (Z.eqb_spec j id); [contradiction|reflexivity].
  - rewrite !ids_app. cbn [ids map fst].
    fold (ids q'). etransitivity; [apply Permutation_app_head, perm_swap|]. apply Permutation_sym, (Permutation_middle (ids p') (k :: ids q') id).
Qed.

Lemma phase2 def meta (from to : mlist (item L)) :
  tables_for itab def meta -> typed_list mem typed to def ->
  (forall id y, lookup id (fst to) = Some y -> has id (fst from) = false -> no_cil_item nocil y) ->
  forall r1, exists r2 pv, mfold (diff_to inner_new from def meta) (fst to) (r1, None) = Ok (r1 ++ r2, pv) /\
    forall L1 n, Permutation (ids L1) (filter (fun id => has id (fst from)) (ids (fst to))) ->
      (ord = true -> ids L1 = filter (fun id => has id (fst from)) (ids (fst to))) -> agree L1 to ->
      exists L2, apply_all meta r2 (L1, n) = Ok (L2, n) /\
        Permutation (ids L2) (ids (fst to)) /\ (ord = true -> ids L2 = ids (fst to)) /\ agree L2 to.
Proof.
  intros TS (NT & _ & _ & _ & _ & _ & TyT) NC r1.
  destruct (mfold_inv (diff_to inner_new from def meta)
    (fun p acc => snd acc = (match rev p with [] => None | e :: _ => Some (fst e) end) /\
       exists r2, fst acc = r1 ++ r2 /\
       forall L1 n, Permutation (ids L1) (filter (fun id => has id (fst from)) (ids (fst to))) ->
         (ord = true -> ids L1 = filter (fun id => has id (fst from)) (ids (fst to))) -> agree L1 to ->
         exists cur, apply_all meta r2 (L1, n) = Ok (cur, n) /\
           (forall s, fst to = p ++ s ->
              Permutation (ids cur) (ids p ++ filter (fun id => has id (fst from)) (ids s)) /\
              (ord = true -> ids cur = ids p ++ filter (fun id => has id (fst from)) (ids s))) /\
           agree cur to)
    (fst to) (r1, None)) as ([res pv] & E & _ & r2 & Er & H).
  - split; [reflexivity|]. exists []. split; [cbn; rewrite app_nil_r; reflexivity|]. intros L1 n P1 O1 A1. exists L1.
    split; [reflexivity|]. split; [|exact A1]. intros s Es. cbn in Es. rewrite Es in *. cbn. auto.
  - intros p [id0 it] r [res pv] Ep (Hpv & r2 & Hres & H). cbn [fst snd] in *.
    assert (T0 : lookup id0 (fst to) = Some it) by (apply in_lookup; [exact NT|]; rewrite Ep; apply in_elt).
    assert (NTp := NT). rewrite Ep in NTp. fold (ids (p ++ (id0, it) :: r)) in NTp. apply ids_mid in NTp as (Np & Nr & NTp).
    cbn [diff_to]. destruct (has id0 (fst from)) eqn:Hf; cbn [negb].
    + eexists; split; [reflexivity|]. cbn [fst snd]. split; [rewrite rev_app_distr; reflexivity|].
      exists r2. split; [exact Hres|]. intros L1 n P1 O1 A1. destruct (H L1 n P1 O1 A1) as (cur & Ec & Hc & Ac).
      exists cur. split; [exact Ec|]. split; [|exact Ac]. intros s Es. rewrite <- app_assoc in Es. cbn [app] in Es.
      destruct (Hc _ Es) as [Pc Oc]. rewrite ids_app. cbn [ids map fst filter] in Pc, Oc |- *. rewrite Hf in Pc, Oc.
      rewrite <- app_assoc. cbn [app]. auto.
    + destruct (new_item_ok mem inner_diff inner_new inner_apply inner_make inner_fresh itab typed same later nocil next nx
        Srefl Strans Hnew Hdiff def meta it TS (TyT _ _ T0) (NC _ _ T0 Hf)) as (x & Ex & ri & Eri & Sri).
      rewrite Ex; cbn [bind]. eexists; split; [reflexivity|]. cbn [fst snd]. split; [rewrite rev_app_distr; reflexivity|].
      exists (r2 ++ [(id0, Create pv x)]). split; [rewrite Hres, app_assoc; reflexivity|].
      intros L1 n P1 O1 A1. destruct (H L1 n P1 O1 A1) as (cur & Ec & Hc & Ac).
      destruct (Hc _ Ep) as [Pc Oc]. cbn [ids map fst filter] in Pc, Oc. rewrite Hf in Pc, Oc. fold (ids r) in Pc, Oc.
      assert (Ni : ~ In id0 (ids cur)).
      { intros I. eapply Permutation_in in I; [|exact Pc]. apply in_app_or in I as [I|I]; [exact (Np I)|].
        apply filter_In in I as [_ I]. congruence. }
      unfold map_snd. rewrite map_app, mfold_app. fold (map_snd (fresh_enum inner_fresh) r2). rewrite Ec; cbn [bind].
      cbn [map mfold fst snd fresh_enum apply_entry]. rewrite Eri; cbn [bind astep].
      rewrite (proj2 (has_not id0 cur) Ni). cbn [fst].
      assert (Fin : forall L2, Permutation (ids L2) (id0 :: ids cur) -> (forall j, lookup j L2 = if j =? id0 then Some ri else lookup j cur) ->
        (ord = true -> ids L2 = ids p ++ id0 :: filter (fun id => has id (fst from)) (ids r)) ->
        (forall s, fst to = (p ++ [(id0, it)]) ++ s ->
              Permutation (ids L2) (ids (p ++ [(id0, it)]) ++ filter (fun id => has id (fst from)) (ids s)) /\
              (ord = true -> ids L2 = ids (p ++ [(id0, it)]) ++ filter (fun id => has id (fst from)) (ids s))) /\
           agree L2 to).
      { intros L2 PL LL OL. split.
        - intros s Es. rewrite <- app_assoc in Es. cbn [app] in Es. rewrite Ep in Es. apply app_inv_head in Es. injection Es as <-.
          rewrite ids_app. cbn [ids map fst]. rewrite <- app_assoc. cbn [app]. split; [|exact OL].
          etransitivity; [exact PL|]. etransitivity; [apply perm_skip; exact Pc|]. apply Permutation_middle.
        - intros j y Hj. rewrite LL in Hj. destruct (Z.eqb_spec j id0); [|apply Ac; exact Hj].
          subst j. apply Some_inj in Hj; subst y. eauto. }
      destruct (rev p) as [|[k w] p'] eqn:Erp.
      * subst pv. eexists; split; [reflexivity|]. apply Fin.
        -- apply Permutation_refl.
        -- intros j. cbn. reflexivity.
        -- intros Ho. assert (p = []) by (rewrite <- (rev_involutive p), Erp; reflexivity). subst p. change (ids ((id0, ri) :: cur)) with (id0 :: ids cur). rewrite (Oc Ho). reflexivity.
      * subst pv. assert (Hp : p = rev p' ++ [(k, w)]) by (rewrite <- (rev_involutive p), Erp; reflexivity).
        cbn [fst]. assert (Ikp : In k (ids p)) by (rewrite Hp, ids_app; apply in_or_app; right; left; reflexivity).
        assert (Nk : id0 <> k) by congruence.
        assert (Ik : In k (ids cur)).
        { eapply Permutation_in; [apply Permutation_sym; exact Pc|]. apply in_or_app; auto. }
        cbn [astep lookup]. rewrite Z.eqb_refl. destruct (Z.eqb_spec id0 k); [contradiction|]. cbn [orb].
        assert (has k ((id0, ri) :: cur) = true) as -> by (apply has_in; right; exact Ik). cbn [negb].
        assert (without id0 ((id0, ri) :: cur) = cur) as ->.
        { rewrite without_self. apply without_absent. exact Ni. }
        destruct (lookup_after k id0 ri cur Ik Ni) as [La Pa].
        eexists; split; [reflexivity|]. apply Fin; [exact Pa|exact La|].
        intros Ho. specialize (Oc Ho).
        assert (exists c1 v c2, cur = c1 ++ (k, v) :: c2 /\ ids c1 = ids (rev p') /\ ids c2 = filter (fun id => has id (fst from)) (ids r)) as (c1 & v & c2 & Ecur & I1 & I2).
        { rewrite Hp, ids_app, <- app_assoc in Oc. cbn [ids map fst app] in Oc. fold (ids (rev p')) in Oc.
          unfold ids in Oc at 1. apply map_eq_app in Oc as (c1 & c2' & Ecur & I1 & I2).
          destruct c2' as [|[k' v] c2]; [discriminate|]. cbn [map fst] in I2. injection I2 as -> I2. exists c1, v, c2. auto. }
        rewrite Ecur, after_mid.
        -- rewrite Hp, !ids_app. cbn [ids map fst]. rewrite <- app_assoc. cbn [app]. fold (ids c2) (ids c1). rewrite I1, I2. reflexivity.
        -- rewrite I1. intros I. rewrite Hp in NTp. rewrite <- app_assoc in NTp. cbn [app] in NTp. apply ids_mid in NTp. tauto.
  - exists r2, pv. cbn [fst snd] in *. subst res. split; [exact E|]. intros L1 n P1 O1 A1.
    destruct (H L1 n P1 O1 A1) as (cur & Ec & Hc & Ac). exists cur. split; [exact Ec|].
    destruct (Hc []) as [Pc Oc]; [rewrite app_nil_r; reflexivity|]. cbn in Pc, Oc. rewrite app_nil_r in Pc, Oc. auto.
Qed.

Lemma agree_same (L2 : list (Z * item L)) (to : mlist (item L)) : Permutation (ids L2) (ids (fst to)) -> (ord = true -> ids L2 = ids (fst to)) -> agree L2 to ->
  same_list ord nx same (L2, snd to) to.
Proof.
  intros P O A. split; [destruct ord; cbn; auto|]. split; [|reflexivity].
  intros id. cbn [fst]. destruct (lookup id L2) as [x|] eqn:Ex.
  - destruct (A _ _ Ex) as (y & -> & S). exact S.
  - apply lookup_none in Ex. assert (lookup id (fst to) = None) as ->; [|exact I].
    apply lookup_none. intros H. apply Ex. eapply Permutation_in; [apply Permutation_sym; exact P|exact H].
Qed.

Lemma get_mlist_diff_ok def meta (from to : mlist (item L)) :
  tables_for itab def meta -> typed_list mem typed from def -> typed_list mem typed to def ->
  later_list ord nocil later from to -> (nx = true -> next_list ord same0 next from to) ->
  exists od, get_mlist_diff inner_diff inner_new from to def meta = Ok od /\
    match od with
    | None => same_list ord nx same from to
    | Some x => forall from', same_list ord nx same from' from ->
        exists r, apply_list_diff inner_apply inner_make from' (fresh_ldiff inner_fresh x) meta = Ok r /\ same_list ord nx same r to
    end.
Proof.
  intros TS TyF TyT LL NX.
  destruct (phase1 def meta from to TS TyF TyT LL NX) as (r1 & E1 & H1).
  destruct (phase2 def meta from to TS TyT) with (r1 := r1) as (r2 & pv & E2 & H2).
  { intros id y Ey Hf. destruct LL as [_ LV]. specialize (LV _ _ Ey). apply has_not, lookup_none in Hf. rewrite Hf in LV. exact LV. }
  assert (G : forall from', same_list ord nx same from' from ->
     exists L2, apply_all meta (r1 ++ r2) (fst from', snd to) = Ok (L2, snd to) /\ same_list ord nx same (L2, snd to) to).
  { intros from' S. destruct (H1 from' (snd to) S) as (L1 & Ea & I1 & A1).
    destruct (H2 L1 (snd to)) as (L2 & Eb & P2 & O2 & A2).
    - rewrite I1. pose proof (same_ids_in _ _ _ _ _ S) as Pm. pose proof TyF as (NF & _). pose proof TyT as (NT & _).
      apply NoDup_Permutation.
      + apply NoDup_filter. eapply Permutation_NoDup; [apply Permutation_sym; exact Pm|exact NF].
      + apply NoDup_filter. exact NT.
      + intros id. rewrite !filter_In, !has_in. split; intros [X Y].
        * split; [exact Y|]. eapply Permutation_in; eassumption.
        * split; [|exact X]. eapply Permutation_in; [apply Permutation_sym; exact Pm|exact Y].
    - intros Ho. rewrite I1. destruct S as (S & _). rewrite Ho in S. rewrite S. apply LL; exact Ho.
    - exact A1.
    - exists L2. split; [|apply agree_same; assumption]. unfold map_snd. rewrite map_app, mfold_app.
      fold (map_snd (fresh_enum inner_fresh) r1) (map_snd (fresh_enum inner_fresh) r2). rewrite Ea. exact Eb. }
  unfold get_mlist_diff. rewrite E1; cbn [bind]. rewrite E2; cbn [bind].
  destruct (r1 ++ r2) as [|e rs] eqn:Er.
  - eexists; split; [reflexivity|]. destruct (G from) as (L2 & Ea & S); [apply same_list_refl; exact Srefl|].
    cbn in Ea. apply Ok_inj in Ea. injection Ea as <-.
    destruct S as (S1 & S2 & _). split; [exact S1|]. split; [exact S2|]. intros En. apply (NX En).
    split; [exact S1|]. split; [|discriminate]. intros id. specialize (S2 id). cbn [fst] in S2. clear -S2 Sweak.
    destruct (lookup id (fst from)) as [x|], (lookup id (fst to)) as [y|]; cbn in *; try tauto.
    destruct S2 as [SV SR]. split; [|exact SR]. intros key. specialize (SV key).
    destruct (hget key (it_values x)) as [v|], (hget key (it_values y)) as [w|]; cbn in *; try tauto.
    destruct v as [| |[|]], w as [| |[|]]; cbn in *; auto.
  - eexists; split; [reflexivity|]. intros from' S. destruct (G from' S) as (L2 & Ea & S2).
    exists (L2, snd to). split; [|exact S2]. unfold apply_list_diff, fresh_ldiff. cbn [fst snd astep]. destruct from' as [lf nf]. exact Ea.
Qed.

Lemma new_list_ok def meta (to : mlist (item L)) : tables_for itab def meta -> typed_list mem typed to def -> no_cil nocil to ->
  exists x, new_list inner_new to def meta = Ok x /\
    exists r, diff_to_new_list inner_apply inner_make (fresh_ldiff inner_fresh x) meta = Ok r /\ same_list ord nx same r to.
Proof.
  intros TS TyT NC.
  destruct (phase2 def meta ([], 0) to TS TyT) with (r1 := @nil (Z * enumdiff LD)) as (r2 & pv & E2 & H2).
  { intros id y Ey _. eapply NC; exact Ey. }
  destruct (H2 [] (snd to)) as (L2 & Eb & P2 & O2 & A2).
  - cbn. clear. induction (ids (fst to)); cbn; auto.
  - cbn. clear. intros _. induction (ids (fst to)); cbn; auto.
  - intros id x. cbn. discriminate.
  - exists (r2, snd to). split.
    + unfold new_list. rewrite (mfold_ext _ (diff_to inner_new ([], 0) def meta)); [rewrite E2; reflexivity|].
      intros [res pv'] [id it] _. reflexivity.
    + exists (L2, snd to). split; [exact Eb|]. apply agree_same; assumption.
Qed.
End Lists.

(* ------------------------------------------------------------------ *)
(** * Every depth *)

Lemma same_item_weaken {L} (R S : L -> L -> Prop) (x y : item L) : (forall a b, R a b -> S a b) -> same_item R x y -> same_item S x y.
Proof.
  intros W [SV SR]. split; [|exact SR]. intros key. specialize (SV key).
  destruct (hget key (it_values x)) as [v|], (hget key (it_values y)) as [w|]; cbn in *; try tauto.
  destruct v as [| |[|]], w as [| |[|]]; cbn in *; auto.
Qed.

Lemma same_list_weaken {L} ord nx (R S : L -> L -> Prop) a b : (forall a b, R a b -> S a b) -> same_list ord nx R a b -> same_list ord false S a b.
Proof.
  intros W (H1 & H2 & _). split; [exact H1|]. split; [|discriminate]. intros id. specialize (H2 id).
  destruct (lookup id (fst a)) as [x|], (lookup id (fst b)) as [y|]; cbn in *; try tauto.
  eapply same_item_weaken; [exact W|exact H2].
Qed.

Lemma sameT_weaken ord nx n : forall a b, sameT ord nx n a b -> sameT ord false n a b.
Proof. induction n as [|n IH]; intros a b; [auto|]. cbn [sameT]. apply same_list_weaken, IH. Qed.

Theorem diffT_ok mem ord nx n :
  (forall (l : mlistT n) d m, tablesT n d m -> typedT mem n l d -> no_cilT n l ->
    exists x, new_listT n l d m = Ok x /\ exists r, diff_to_new_listT n (freshT n x) m = Ok r /\ sameT ord nx n r l) /\
  (forall (a b : mlistT n) d m, tablesT n d m -> typedT mem n a d -> typedT mem n b d -> laterT ord n a b -> (nx = true -> nextT ord n a b) ->
    exists od, get_mlist_diffT n a b d m = Ok od /\
      match od with
      | None => sameT ord nx n a b
      | Some x => forall a', sameT ord nx n a' a -> exists r, apply_list_diffT n a' (freshT n x) m = Ok r /\ sameT ord nx n r b
      end).
Proof.
  induction n as [|n [IHn IHd]].
  - split; intros l; destruct l.
  - split.
    + intros l d m HT Ty NC. apply tablesT_for in HT.
      exact (new_list_ok mem (get_mlist_diffT n) (new_listT n) (apply_list_diffT n) (diff_to_new_listT n) (freshT n)
        (tablesT n) (typedT mem n) (sameT ord nx n) (laterT ord n) (no_cilT n) (nextT ord n) ord nx
        (sameT_refl ord nx n) (sameT_trans ord nx n) IHn IHd d m l HT Ty NC).
    + intros a b d m HT Ta Tb Lt Nt. apply tablesT_for in HT.
      exact (get_mlist_diff_ok mem (get_mlist_diffT n) (new_listT n) (apply_list_diffT n) (diff_to_new_listT n) (freshT n)
        (tablesT n) (typedT mem n) (sameT ord nx n) (sameT ord false n) (laterT ord n) (no_cilT n) (nextT ord n) ord nx
        (sameT_refl ord nx n) (sameT_trans ord nx n) (sameT_weaken ord nx n) IHn IHd d m a b HT Ta Tb Lt Nt).
Qed.
