(** Observations, cursors, construction and copies of the linked map. *)
From Coq Require Import Permutation.
From Verif Require Import Base LinkedModel LinkedSpec LinkedProofs LinkedProofs2.

Section Proofs3.
Context {V : Type}.
Notation cell := (Z * (Z * V))%type.
Notation heap := (heap V).
Notation items := (list (Z * V)).
Implicit Types (h : heap) (m : lmap) (cs : list cell).

(** ** cursors *)

Lemma cell_at h m l1 a id v l2 : Dl h m (l1 ++ (a, (id, v)) :: l2) ->
  a <> 0 /\ h a = Some (Node (last_addr l1 0) (hd_addr l2 0) v id) /\
  (a = m_last m <-> l2 = []) /\ (a = m_first m <-> l1 = []).
Proof.
  intros [Hs Hn H0 Hf Hl]. apply dseg_app in Hs as [_ [Ha _]].
  rewrite addrs_app in H0, Hn. rewrite in_app_iff in H0. cbn [addrs map fst In] in H0.
  rewrite <- addrs_app in Hn. apply nodup_mid in Hn as (Hn1 & Hn2 & _). cbn [fst] in *.
  split; [intros ->; tauto|]. split; [exact Ha|]. split.
  - rewrite Hl, last_addr_app, last_addr_cons. cbn [fst]. split; [|intros ->; reflexivity].
    intros E. destruct l2 as [|c l2]; [reflexivity|]. exfalso. apply Hn2. rewrite E at 1. apply last_addr_in. discriminate.
  - rewrite Hf, hd_addr_app. split; [|intros ->; reflexivity].
    intros E. destruct l1 as [|c l1]; [reflexivity|]. exfalso. apply Hn1. rewrite E at 1. apply hd_addr_in. discriminate.
Qed.

Lemma cur_next_at h m l1 a id v l2 : Dl h m (l1 ++ (a, (id, v)) :: l2) ->
  cur_next h m a = Ok (Some (id, v), hd_addr l2 0).
Proof.
  intros HD. destruct (cell_at _ _ _ _ _ _ _ HD) as (H0 & Ha & Hl & _).
  unfold cur_next. destruct (Z.eqb_spec a 0); [congruence|].
  unfold get_next. rewrite (deref_ok _ _ _ H0 Ha). cbn [bind n_next n_id n_item].
  destruct (Z.eqb_spec a (m_last m)) as [E|E]; [|reflexivity].
  apply Hl in E as ->. reflexivity.
Qed.

Lemma cur_prev_at h m l1 a id v l2 : Dl h m (l1 ++ (a, (id, v)) :: l2) ->
  cur_prev h m a = Ok (Some (id, v), last_addr l1 0).
Proof.
  intros HD. destruct (cell_at _ _ _ _ _ _ _ HD) as (H0 & Ha & _ & Hl).
  unfold cur_prev. destruct (Z.eqb_spec a 0); [congruence|].
  unfold get_prev. rewrite (deref_ok _ _ _ H0 Ha). cbn [bind n_prev n_id n_item].
  destruct (Z.eqb_spec a (m_first m)) as [E|E]; [|reflexivity].
  apply Hl in E as ->. reflexivity.
Qed.

Lemma cur_current_at h m l1 a id v l2 : Dl h m (l1 ++ (a, (id, v)) :: l2) ->
  cur_current h a = Ok (Some (id, v)).
Proof.
  intros HD. destruct (cell_at _ _ _ _ _ _ _ HD) as (H0 & Ha & _ & _).
  unfold cur_current. destruct (Z.eqb_spec a 0); [congruence|]. now rewrite (deref_ok _ _ _ H0 Ha).
Qed.

Lemma collect_from h m l1 : forall l2 l1' fuel, Dl h m (l1 ++ l2) -> l1' = l1 -> (length l2 < fuel)%nat ->
  collect (cur_next h m) fuel (hd_addr l2 0) = Ok (map snd l2).
Proof.
  intros l2. revert l1. induction l2 as [|[a [id v]] l2 IH]; intros l1 l1' fuel HD _ Hf;
    destruct fuel as [|fuel]; cbn [length] in Hf; try lia.
  - reflexivity.
  - cbn [collect hd_addr fst]. rewrite (cur_next_at _ _ _ _ _ _ _ HD). cbn [bind].
    rewrite (IH (l1 ++ [(a, (id, v))]) (l1 ++ [(a, (id, v))])); [reflexivity| |reflexivity|lia].
    now rewrite <- app_assoc.
Qed.

Lemma collect_back h m : forall l1 l2 fuel, Dl h m (l1 ++ l2) -> (length l1 < fuel)%nat ->
  collect (cur_prev h m) fuel (last_addr l1 0) = Ok (rev (map snd l1)).
Proof.
  intros l1. remember (length l1) as n eqn:En. revert l1 En.
  induction n as [|n IH]; intros l1 En l2 fuel HD Hf; destruct fuel as [|fuel]; try lia.
  - destruct l1; [reflexivity|discriminate].
  - destruct (snoc_case l1) as [->|(l & [a [id v]] & ->)]; [discriminate|].
    rewrite app_length in En. cbn [length] in En.
    rewrite last_addr_snoc. cbn [fst collect]. rewrite <- app_assoc in HD. cbn [app] in HD.
    rewrite (cur_prev_at _ _ _ _ _ _ _ HD). cbn [bind]. rewrite (IH l ltac:(lia) _ fuel HD ltac:(lia)).
    rewrite map_app, rev_app_distr. reflexivity.
Qed.

Lemma rep_length h m cs : Rep h m cs -> length (m_map m) = length cs.
Proof. intros HR. rewrite (Permutation_length (r_map _ _ _ HR)). unfold entries. apply map_length. Qed.

Lemma fwd_all h m cs : Rep h m cs -> collect_fwd h m (iter m) = Ok (map snd cs).
Proof.
  intros HR. unfold collect_fwd, iter, fuel_of. rewrite (d_first _ _ _ (r_dl _ _ _ HR)).
  apply (collect_from h m [] cs []); [apply (r_dl _ _ _ HR)|reflexivity|].
  rewrite (rep_length _ _ _ HR). lia.
Qed.

Lemma from_mid id (l1 : items) v l2 : ~ In id (ids l1) -> from_id id (l1 ++ (id, v) :: l2) = (id, v) :: l2.
Proof.
  induction l1 as [|[k w] l1 IH]; cbn [app from_id fst]; intros H; [now rewrite Z.eqb_refl|].
  cbn [ids map fst In] in H. destruct (Z.eqb_spec k id) as [->|]; [tauto|]. apply IH. tauto.
Qed.

Lemma into_loop_ok h : forall cs mp, dseg h 0 cs 0 \/ (exists p x, dseg h p cs x) -> ~ In 0 (addrs cs) ->
  NoDup (ids (map snd cs)) -> (forall id, mget id mp = mget id (entries cs)) ->
  into_loop h mp (map fst (map snd cs)) = Ok (map snd cs).
Proof.
  induction cs as [|[a [id v]] cs IH]; intros mp Hs H0 Hn Hm; [reflexivity|].
  assert (Hs' : exists p x, dseg h p ((a, (id, v)) :: cs) x) by (destruct Hs; eauto). clear Hs.
  destruct Hs' as (p & x & Ha & Hs). cbn [addrs map fst In] in H0.
  cbn [map snd fst into_loop]. rewrite Hm. cbn [entries map fst snd mget]. rewrite Z.eqb_refl.
  rewrite (deref_ok h a _ ltac:(tauto) Ha). cbn [bind n_item].
  cbn [map snd] in Hn. change (ids ((id, v) :: map snd cs)) with (id :: ids (map snd cs)) in Hn.
  apply NoDup_cons_iff in Hn as [Hid Hn].
  rewrite IH; [reflexivity|right; eauto|tauto|exact Hn|].
  intros k. specialize (Hm k). cbn [entries map fst snd mget] in Hm. fold (entries cs) in Hm.
  assert (Hdel : mget k (mdel id mp) = if k =? id then None else mget k mp).
  { clear. unfold mdel. induction mp as [|[k' a'] mp IH]; cbn [filter mget fst]; [now destruct (k =? id)|].
    destruct (Z.eqb_spec k' id) as [->|Hne]; cbn [negb].
    - rewrite IH. destruct (Z.eqb_spec k id); reflexivity.
    - cbn [mget]. rewrite IH. destruct (Z.eqb_spec k k') as [->|]; [|reflexivity].
      destruct (Z.eqb_spec k' id); [congruence|reflexivity]. }
  rewrite Hdel, Hm. destruct (Z.eqb_spec k id) as [E|]; [|reflexivity]. rewrite E.
  symmetry. apply mget_none. now rewrite entries_keys.
Qed.

Lemma rep_shows h m cs : Rep h m cs -> shows h m (map snd cs) (m_next m).
Proof.
  intros HR. pose proof (r_dl _ _ _ HR) as HD. constructor.
  - now apply fwd_all.
  - unfold collect_bwd, iter_from_last, fuel_of. rewrite (d_last _ _ _ HD).
    apply (collect_back h m cs []); [now rewrite app_nil_r|]. rewrite (rep_length _ _ _ HR). lia.
  - intros id. unfold iter_from_id. destruct (rep_split _ _ _ id HR) as [[-> H]|(l1 & a & v & l2 & -> & ->)]; [exact H|].
    split; [rewrite snd_mid, ids_app, in_app_iff; right; now left|].
    unfold collect_fwd, fuel_of.
    change a with (hd_addr ((a, (id, v)) :: l2) 0).
    rewrite (collect_from h m l1 ((a, (id, v)) :: l2) l1 _ HD eq_refl).
    + rewrite snd_mid. cbn [snd map]. rewrite from_mid; [reflexivity|]. now apply (rep_mid _ _ _ _ _ _ _ HR).
    + rewrite (rep_length _ _ _ HR), app_length. lia.
  - unfold lm_first. rewrite (d_first _ _ _ HD). destruct cs as [|[a [id v]] cs]; [reflexivity|].
    destruct (cell_at h m [] a id v cs HD) as (H0 & Ha & _). cbn [hd_addr fst].
    destruct (Z.eqb_spec a 0); [congruence|]. unfold get_val. now rewrite (deref_ok _ _ _ H0 Ha).
  - unfold first_id. rewrite (d_first _ _ _ HD). destruct cs as [|[a [id v]] cs]; [reflexivity|].
    destruct (cell_at h m [] a id v cs HD) as (H0 & Ha & _). cbn [hd_addr fst].
    destruct (Z.eqb_spec a 0); [congruence|]. unfold get_id. now rewrite (deref_ok _ _ _ H0 Ha).
  - unfold lm_last. rewrite (d_last _ _ _ HD). destruct (snoc_case cs) as [->|(l & [a [id v]] & ->)]; [reflexivity|].
    destruct (cell_at h m l a id v [] HD) as (H0 & Ha & _). rewrite last_addr_snoc. cbn [fst].
    destruct (Z.eqb_spec a 0); [congruence|]. unfold get_val. rewrite (deref_ok _ _ _ H0 Ha).
    rewrite map_app, rev_app_distr. reflexivity.
  - unfold last_id. rewrite (d_last _ _ _ HD). destruct (snoc_case cs) as [->|(l & [a [id v]] & ->)]; [reflexivity|].
    destruct (cell_at h m l a id v [] HD) as (H0 & Ha & _). rewrite last_addr_snoc. cbn [fst].
    destruct (Z.eqb_spec a 0); [congruence|]. unfold get_id. rewrite (deref_ok _ _ _ H0 Ha).
    rewrite map_app, rev_app_distr. reflexivity.
  - unfold len, zlen. rewrite (rep_length _ _ _ HR), map_length. reflexivity.
  - pose proof (rep_length _ _ _ HR) as Hl. unfold is_empty. destruct (m_map m), cs; cbn [length map] in *; split; congruence.
  - intros id. unfold get_item. destruct (rep_split _ _ _ id HR) as [[-> H]|(l1 & a & v & l2 & -> & ->)].
    + apply lookup_none in H. now rewrite H.
    + destruct (cell_at _ _ _ _ _ _ _ HD) as (H0 & Ha & _). unfold get_val. rewrite (deref_ok _ _ _ H0 Ha). cbn [bind n_item].
      rewrite snd_mid. cbn [snd]. rewrite lookup_mid; [reflexivity|]. now apply (rep_mid _ _ _ _ _ _ _ HR).
  - intros id. unfold contains_key. destruct (rep_split _ _ _ id HR) as [[-> H]|(l1 & a & v & l2 & -> & ->)].
    + symmetry. now apply has_not.
    + symmetry. apply has_in. rewrite snd_mid, ids_app, in_app_iff. right. now left.
  - unfold into_iter. rewrite (fwd_all _ _ _ HR). cbn [bind]. apply into_loop_ok.
    + left. apply (d_seg _ _ _ HD).
    + apply (d_nonnull _ _ _ HD).
    + apply (r_ids _ _ _ HR).
    + apply (rep_get _ _ _ HR).
  - reflexivity.
Qed.

(** ** linking a new last cell *)

Lemma link_step h (d : list cell) c id v : dseg h 0 d 0 -> d <> [] -> NoDup (addrs d) -> ~ In 0 (addrs d) ->
  c <> 0 -> ~ In c (addrs d) -> h c = Some (Node 0 0 v id) ->
  exists h1 h', set_next h (last_addr d 0) c = Ok h1 /\ set_prev h1 c (last_addr d 0) = Ok h' /\
    dseg h' 0 (d ++ [(c, (id, v))]) 0 /\ (forall b, ~ In b (addrs d) -> b <> c -> h' b = h b).
Proof.
  intros Hs Hne Hn H0 Hc Hcd Hh. destruct (snoc_case d) as [->|(l & [p [idp vp]] & ->)]; [congruence|].
  rewrite last_addr_snoc. cbn [fst]. apply dseg_app in Hs as [Hs1 [Hp _]].
  rewrite addrs_app in *. rewrite in_app_iff in *. cbn [addrs map fst In] in *.
  assert (Hp0 : p <> 0) by tauto. assert (Hcp : c <> p) by (intros ->; tauto).
  rewrite (set_next_ok _ _ _ _ Hp0 Hp). cbn [n_prev n_item n_id].
  eexists; eexists. split; [reflexivity|].
  rewrite (set_prev_ok _ _ _ (Node 0 0 v id) Hc) by (rewrite upd_other; assumption). cbn [n_next n_item n_id].
  split; [reflexivity|].
  assert (Hnp : ~ In p (map fst l)).
  { intros Hin. apply (NoDup_remove_2 (map fst l) [] p); [exact Hn|]. now rewrite app_nil_r. }
  split.
  - rewrite <- app_assoc. cbn [app]. apply dseg_app. split; [|cbn [dseg hd_addr fst]; repeat split].
    + eapply dseg_ext; [|exact Hs1]. intros x Hx. rewrite !upd_other; [reflexivity| |]; intros ->; [exact (Hnp Hx)|tauto].
    + rewrite upd_other by congruence. rewrite upd_same. reflexivity.
    + now rewrite upd_same.
  - intros b Hb Hbc. rewrite in_app_iff in Hb. cbn [In] in Hb. rewrite !upd_other; [reflexivity| |]; intros ->; tauto.
Qed.

(** ** construct *)

Definition fresh h (l : list Z) : Prop := NoDup l /\ ~ In 0 l /\ (forall a, In a l -> h a = None).

Lemma construct_loop_ok : forall (its : items) (al : list Z) h mp (d : list cell),
  dseg h 0 d 0 -> d <> [] -> NoDup (addrs d) -> ~ In 0 (addrs d) -> Permutation mp (entries d) ->
  NoDup (ids (map snd d ++ its)) -> fresh h al -> (forall a, In a al -> ~ In a (addrs d)) ->
  length al = length its ->
  exists h' mp', construct_loop h mp (last_addr d 0) its al = Ok (h', mp', last_addr (d ++ combine al its) 0) /\
    dseg h' 0 (d ++ combine al its) 0 /\ NoDup (addrs (d ++ combine al its)) /\ ~ In 0 (addrs (d ++ combine al its)) /\
    Permutation mp' (entries (d ++ combine al its)) /\
    (forall b, ~ In b (addrs d) -> ~ In b al -> h' b = h b).
Proof.
  induction its as [|[id v] its IH]; intros al h mp d Hs Hne Hn H0 Hp Hid Hf Hd Hlen.
  - destruct al; [|discriminate]. cbn [combine construct_loop]. rewrite app_nil_r. eexists; eexists.
    repeat split; auto.
  - destruct al as [|a al]; [discriminate|]. cbn [length] in Hlen. cbn [construct_loop combine].
    destruct Hf as (Hal & Hal0 & Hfr). apply NoDup_cons_iff in Hal as [Ha Hal].
    assert (Had : ~ In a (addrs d)) by (apply Hd; now left).
    assert (Ha0 : a <> 0) by (intros ->; apply Hal0; now left).
    destruct (link_step (upd h a (Some (Node 0 0 v id))) d a id v) as (h1 & h2 & E1 & E2 & Hs2 & Hf2); auto.
    { eapply dseg_ext; [|exact Hs]. intros x Hx. apply upd_other. congruence. }
    { apply upd_same. }
    rewrite E1. cbn [bind]. rewrite E2. cbn [bind].
    rewrite ids_app in Hid.
    change (ids ((id, v) :: its)) with (id :: ids its) in Hid.
    assert (Hidd : ~ In id (ids (map snd d))).
    { intros Hin. apply NoDup_remove_2 in Hid. apply Hid. apply in_app_iff. now left. }
    assert (Hg : mget id mp = None).
    { apply mget_none. intros Hin. apply Hidd. rewrite <- entries_keys.
      eapply Permutation_in; [apply Permutation_map, Hp|exact Hin]. }
    rewrite Hg. cbn [drop_box].
    destruct (IH al h2 (mput id a mp) (d ++ [(a, (id, v))])) as (h' & mp' & E & Hs' & Hn' & H0' & Hp' & Hf'); auto.
    + intros E. now apply app_eq_nil in E as [_ E].
    + rewrite addrs_app. cbn [addrs map fst]. apply NoDup_remove_rev; rewrite app_nil_r; assumption.
    + rewrite addrs_app, in_app_iff. cbn [addrs map fst In]. intuition.
    + unfold mput. rewrite mdel_absent by now apply mget_none. rewrite entries_app, Hp. cbn [entries map fst snd].
      apply Permutation_cons_append.
    + rewrite map_app, <- app_assoc. cbn [map snd app]. rewrite ids_app. exact Hid.
    + split; [exact Hal|]. split; [intros Hin; apply Hal0; now right|].
      intros x Hx. rewrite Hf2; [rewrite upd_other; [apply Hfr; now right|congruence]| |congruence].
      apply Hd. now right.
    + intros x Hx. rewrite addrs_app, in_app_iff. cbn [addrs map fst In]. intros [Hin|[->|[]]]; [|contradiction].
      revert Hin. apply Hd. now right.
    + rewrite last_addr_snoc in E. cbn [fst] in E. rewrite <- !app_assoc in *. cbn [app] in *. exists h', mp'.
      split; [exact E|]. split; [exact Hs'|]. split; [exact Hn'|]. split; [exact H0'|]. split; [exact Hp'|].
      intros b Hb Hbal. cbn [In] in Hbal.
      rewrite Hf'; [rewrite Hf2; [apply upd_other; intuition|exact Hb|intuition]| |tauto].
      rewrite addrs_app, in_app_iff. cbn [addrs map fst In]. tauto.
Qed.

Lemma combine_snd (al : list Z) (its : items) : length al = length its -> map snd (combine al its) = its.
Proof.
  revert its. induction al as [|a al IH]; intros [|x its] H; try discriminate; [reflexivity|].
  cbn [combine map snd]. rewrite IH; [reflexivity|]. now injection H.
Qed.
Lemma combine_fst (al : list Z) (its : items) : length al = length its -> addrs (combine al its) = al.
Proof.
  revert its. induction al as [|a al IH]; intros [|x its] H; try discriminate; [reflexivity|].
  cbn [combine addrs map fst]. fold (addrs (combine al its)). rewrite IH; [reflexivity|]. now injection H.
Qed.

Lemma rep_new h : Rep h lnew [].
Proof. repeat constructor. intros []. Qed.

Lemma construct_ok h (its : items) n al : NoDup (ids its) -> fresh h al -> length al = length its ->
  exists h' m', construct h its n al = Ok (h', m') /\ Rep h' m' (combine al its) /\
    m_next m' = (match its with [] => 0 | _ => n end) /\
    (forall b, ~ In b al -> h' b = h b).
Proof.
  intros Hid Hf Hlen. destruct its as [|[id v] its].
  - destruct al; [|discriminate]. exists h, lnew. split; [reflexivity|]. split; [apply rep_new|]. split; [reflexivity|auto].
  - destruct al as [|a al]; [discriminate|]. cbn [length] in Hlen.
    destruct Hf as (Hal & Hal0 & Hfr). apply NoDup_cons_iff in Hal as [Ha Hal].
    assert (Ha0 : a <> 0) by (intros ->; apply Hal0; now left).
    cbn [construct].
    destruct (construct_loop_ok its al (upd h a (Some (Node 0 0 v id))) (mput id a []) [(a, (id, v))])
      as (h' & mp' & E & Hs' & Hn' & H0' & Hp' & Hf').
    + cbn [dseg hd_addr]. rewrite upd_same. auto.
    + discriminate.
    + constructor; [intros []|constructor].
    + cbn [addrs map fst In]. intuition.
    + reflexivity.
    + exact Hid.
    + split; [exact Hal|]. split; [intros Hin; apply Hal0; now right|].
      intros x Hx. rewrite upd_other; [apply Hfr; now right|congruence].
    + intros x Hx [E|[]]. cbn [fst] in E. congruence.
    + lia.
    + change (last_addr [(a, (id, v))] 0) with a in E. rewrite E. cbn [bind].
      cbn [combine]. eexists; eexists. split; [reflexivity|]. split; [|split; [reflexivity|]].
      * constructor.
        -- constructor; cbn [m_first m_last]; auto.
        -- cbn [map snd]. rewrite combine_snd by lia. exact Hid.
        -- exact Hp'.
      * intros b Hb. cbn [In] in Hb. rewrite Hf'; [apply upd_other; intuition| |tauto].
        cbn [addrs map fst In]. tauto.
Qed.

(** ** clone *)

Lemma clone_boxes_ok : forall (mp : list (Z * Z)) (al : list Z) h (f : Z -> V),
  fresh h al -> length al = length mp ->
  (forall k a, In (k, a) mp -> a <> 0 /\ exists p x, h a = Some (Node p x (f k) k)) ->
  exists h', clone_boxes h mp al = Ok (h', combine (map fst mp) al) /\
    (forall b, ~ In b al -> h' b = h b) /\
    (forall k b, In (k, b) (combine (map fst mp) al) -> h' b = Some (Node 0 0 (f k) k)).
Proof.
  induction mp as [|[k a] mp IH]; intros al h f Hf Hlen Hmp.
  - destruct al; [|discriminate]. exists h. cbn [clone_boxes map combine]. repeat split; auto. intros k b [].
  - destruct al as [|b al]; [discriminate|]. cbn [length] in Hlen.
    destruct Hf as (Hal & Hal0 & Hfr). apply NoDup_cons_iff in Hal as [Hb Hal].
    destruct (Hmp k a (or_introl eq_refl)) as (Ha0 & p & x & Ha).
    cbn [clone_boxes]. rewrite (deref_ok _ _ _ Ha0 Ha). cbn [bind n_item n_id].
    assert (Hbn : h b = None) by (apply Hfr; now left).
    destruct (IH al (upd h b (Some (Node 0 0 (f k) k))) f) as (h' & E & Hf' & Hin').
    + split; [exact Hal|]. split; [intros Hin; apply Hal0; now right|].
      intros y Hy. rewrite upd_other; [apply Hfr; now right|congruence].
    + lia.
    + intros k' a' Hin. destruct (Hmp k' a' (or_intror Hin)) as (H0 & p' & x' & Hh). split; [exact H0|].
      exists p', x'. rewrite upd_other; [exact Hh|]. congruence.
    + rewrite E. cbn [bind map fst combine]. eexists. split; [reflexivity|]. split.
      * intros y Hy. cbn [In] in Hy. rewrite Hf' by tauto. apply upd_other. intuition.
      * intros k' b' [Eq|Hin]; [|now apply Hin'].
        injection Eq as <- <-. rewrite Hf' by exact Hb. apply upd_same.
Qed.

Lemma clone_link_ok : forall (todo : list cell) h mp (d : list cell),
  dseg h 0 d 0 -> d <> [] -> NoDup (addrs (d ++ todo)) -> ~ In 0 (addrs (d ++ todo)) ->
  (forall a id v, In (a, (id, v)) todo -> mget id mp = Some a /\ h a = Some (Node 0 0 v id)) ->
  exists h', clone_link h mp (last_addr d 0) (ids (map snd todo)) = Ok h' /\
    dseg h' 0 (d ++ todo) 0 /\ (forall b, ~ In b (addrs (d ++ todo)) -> h' b = h b).
Proof.
  induction todo as [|[a [id v]] todo IH]; intros h mp d Hs Hne Hn H0 Ht.
  - rewrite app_nil_r in *. exists h. cbn [ids map clone_link]. auto.
  - cbn [map snd]. change (ids ((id, v) :: map snd todo)) with (id :: ids (map snd todo)). cbn [clone_link].
    destruct (Ht a id v (or_introl eq_refl)) as [Hg Ha]. rewrite Hg. cbn [unwrap bind].
    pose proof (nodup_mid _ _ _ Hn) as (Had & Hat & _ & _). cbn [fst] in *.
    assert (Ha0 : a <> 0).
    { intros ->. apply H0. rewrite addrs_app, in_app_iff. right. now left. }
    destruct (link_step h d a id v) as (h1 & h2 & E1 & E2 & Hs2 & Hf2); auto.
    { rewrite addrs_app in Hn. clear - Hn. induction (addrs d) as [|x l IH]; [constructor|].
      cbn [app] in Hn. apply NoDup_cons_iff in Hn as [Hx Hn]. constructor; [|now apply IH].
      intros Hin. apply Hx. apply in_app_iff. now left. }
    { intros Hin. apply H0. rewrite addrs_app, in_app_iff. now left. }
    rewrite E1. cbn [bind]. rewrite E2. cbn [bind].
    destruct (IH h2 mp (d ++ [(a, (id, v))])) as (h' & E & Hs' & Hf'); auto.
    + intros E. now apply app_eq_nil in E as [_ E].
    + now rewrite <- app_assoc.
    + now rewrite <- app_assoc.
    + intros b k w Hin. destruct (Ht b k w (or_intror Hin)) as [Hg' Hb]. split; [exact Hg'|].
      rewrite Hf2; [exact Hb| |].
      * intros Hbd. rewrite addrs_app in Hn. cbn [addrs map fst] in Hn.
        apply NoDup_remove_1 in Hn. apply (in_map fst) in Hin. cbn [fst] in Hin. fold (addrs todo) in *.
        clear - Hn Hbd Hin. induction (addrs d) as [|x l IH]; [destruct Hbd|]. cbn [app] in Hn.
        apply NoDup_cons_iff in Hn as [Hx Hn]. destruct Hbd as [->|Hbd]; [|now apply IH]. apply Hx, in_app_iff. now right.
      * intros ->. apply Hat. change a with (fst (a, (k, w))). now apply in_map.
    + rewrite last_addr_snoc in E. cbn [fst] in E. rewrite <- app_assoc in *. cbn [app] in *. exists h'. split; [exact E|]. split; [exact Hs'|].
      intros b Hb. rewrite Hf' by exact Hb. apply Hf2.
      * intros Hin. apply Hb. rewrite addrs_app, in_app_iff. now left.
      * intros ->. apply Hb. rewrite addrs_app, in_app_iff. right. now left.
Qed.

(** the copy of a cell list under the new addresses *)
Definition recell (mp : list (Z * Z)) cs : list cell :=
  map (fun c => (match mget (fst (snd c)) mp with Some a => a | None => 0 end, snd c)) cs.

Lemma recell_snd mp cs : map snd (recell mp cs) = map snd cs.
Proof. unfold recell. rewrite map_map. apply map_ext. reflexivity. Qed.

Lemma combine_in_fst {A B} (l : list A) (r : list B) x : length l = length r -> In x l -> exists y, In (x, y) (combine l r).
Proof.
  revert r. induction l as [|z l IH]; intros [|w r] Hl Hin; try discriminate; [destruct Hin|].
  destruct Hin as [->|Hin]; [exists w; now left|]. destruct (IH r ltac:(now injection Hl) Hin) as (y & Hy). exists y. now right.
Qed.
Lemma map_fst_combine {A B} (l : list A) (r : list B) : length l = length r -> map fst (combine l r) = l.
Proof. revert r. induction l as [|x l IH]; intros [|y r] H; try discriminate; [reflexivity|]. cbn [combine map fst]. rewrite IH; [reflexivity|]. now injection H. Qed.
Lemma map_snd_combine {A B} (l : list A) (r : list B) : length l = length r -> map snd (combine l r) = r.
Proof. revert r. induction l as [|x l IH]; intros [|y r] H; try discriminate; [reflexivity|]. cbn [combine map snd]. rewrite IH; [reflexivity|]. now injection H. Qed.

Lemma recell_entries mp cs : NoDup (map fst mp) -> (forall id, In id (ids (map snd cs)) -> In id (map fst mp)) ->
  NoDup (ids (map snd cs)) -> (forall id, In id (map fst mp) -> In id (ids (map snd cs))) ->
  Permutation mp (entries (recell mp cs)).
Proof.
  intros Hn H1 Hc H2. apply NoDup_Permutation.
  - eapply NoDup_map_inv. exact Hn.
  - apply (NoDup_map_inv fst). rewrite entries_keys, recell_snd. exact Hc.
  - intros [k a]. unfold entries, recell. rewrite map_map. cbn [fst snd]. rewrite in_map_iff. split.
    + intros Hin. assert (Hk : In k (ids (map snd cs))) by (apply H2; change k with (fst (k, a)); now apply in_map).
      destruct (ids_in_cs _ _ Hk) as (l1 & b & v & l2 & ->).
      exists (b, (k, v)). split; [|apply in_app_iff; right; now left]. cbn [fst snd].
      apply (mget_in k a mp Hn) in Hin. now rewrite Hin.
    + intros ([b [id v]] & E & Hin). cbn [fst snd] in E. injection E as -> Ea.
      assert (Hk : In k (map fst mp)). { apply H1. apply (in_map snd) in Hin. now apply (in_map fst) in Hin. }
      destruct (mget k mp) as [x|] eqn:G; [|apply mget_none in G; contradiction].
      subst x. now apply (mget_in k a mp Hn).
Qed.

Lemma dseg_cell h : forall cs p x a id v, dseg h p cs x -> In (a, (id, v)) cs -> exists p' x', h a = Some (Node p' x' v id).
Proof.
  induction cs as [|[b [k w]] cs IH]; intros p x a id v [Hb Hs] Hin || (intros p x a id v Hs []).
  destruct Hin as [E|Hin]; [injection E as -> -> ->; eauto|eauto].
Qed.

Lemma NoDup_app_left {A} (l r : list A) : NoDup (l ++ r) -> NoDup l.
Proof.
  induction l as [|x l IH]; [constructor|]. cbn [app]. intros H. apply NoDup_cons_iff in H as [Hx H].
  constructor; [|now apply IH]. intros Hin. apply Hx. apply in_app_iff. now left.
Qed.

Lemma clone_ok h m cs al : Rep h m cs -> fresh h al -> length al = length cs ->
  exists h' m' cs', clone al h m = Ok (h', m') /\ Rep h' m' cs' /\ map snd cs' = map snd cs /\
    m_next m' = (match cs with [] => 0 | _ => m_next m end) /\
    (forall b, ~ In b al -> h' b = h b) /\ (forall b, In b (addrs cs') -> In b al).
Proof.
  intros HR Hf Hlen. pose proof (rep_shows _ _ _ HR) as HS. unfold clone.
  destruct cs as [|c0 cs0] eqn:Ecs.
  - rewrite (proj2 (s_empty _ _ _ _ HS) eq_refl).
    exists h, lnew, []. split; [reflexivity|]. split; [apply rep_new|]. split; [reflexivity|]. split; [reflexivity|]. split; [auto|].
    intros b [].
  - rewrite <- Ecs in *.
    destruct (is_empty m) eqn:Em; [apply (s_empty _ _ _ _ HS) in Em; rewrite Ecs in Em; discriminate|].
    pose proof (r_dl _ _ _ HR) as HD.
    assert (Hkeys : forall id, In id (map fst (m_map m)) <-> In id (ids (map snd cs))).
    { intros id. rewrite <- entries_keys. split; apply Permutation_in; [|apply Permutation_sym]; apply Permutation_map, (r_map _ _ _ HR). }
    assert (Hlm : length al = length (m_map m)) by (rewrite (rep_length _ _ _ HR); exact Hlen).
    set (dflt := snd (snd c0)).
    set (f := fun k => match lookup k (map snd cs) with Some v => v | None => dflt end).
    destruct (clone_boxes_ok (m_map m) al h f Hf Hlm) as (h1 & E1 & Hf1 & Hin1).
    { intros k a Hin. apply (Permutation_in _ (r_map _ _ _ HR)) in Hin. unfold entries in Hin.
      apply in_map_iff in Hin as ([a' [id v]] & E & Hin). cbn [fst snd] in E. injection E as -> ->.
      apply in_split in Hin as (l1 & l2 & Ecs'). rewrite Ecs' in HD.
      destruct (cell_at _ _ _ _ _ _ _ HD) as (H0 & Ha & _). split; [exact H0|].
      eexists; eexists. rewrite Ha. f_equal. f_equal. unfold f. rewrite Ecs', snd_mid. cbn [snd].
      rewrite lookup_mid; [reflexivity|]. rewrite Ecs' in HR. now apply (rep_mid _ _ _ _ _ _ _ HR). }
    rewrite E1. cbn [bind]. set (mp := combine (map fst (m_map m)) al) in *.
    assert (Hlc : length (map fst (m_map m)) = length al) by (rewrite map_length; lia).
    assert (Hmp : map fst mp = map fst (m_map m)) by (apply map_fst_combine; exact Hlc).
    assert (Hmps : map snd mp = al) by (apply map_snd_combine; exact Hlc).
    assert (Hnd : NoDup (map fst mp)).
    { rewrite Hmp. eapply Permutation_NoDup; [apply Permutation_map, Permutation_sym, (r_map _ _ _ HR)|].
      rewrite entries_keys. apply (r_ids _ _ _ HR). }
    set (cs' := recell mp cs).
    assert (Hperm : Permutation mp (entries cs')).
    { apply recell_entries; [exact Hnd| |apply (r_ids _ _ _ HR)|]; intros id; rewrite Hmp; apply Hkeys. }
    assert (Haddr : Permutation al (addrs cs')).
    { rewrite <- Hmps. transitivity (map snd (entries cs')); [now apply Permutation_map|].
      unfold entries, addrs. rewrite map_map. reflexivity. }
    destruct Hf as (Hal & Hal0 & Hfr).
    assert (Hget : forall a id v, In (a, (id, v)) cs' -> mget id mp = Some a /\ h1 a = Some (Node 0 0 v id)).
    { intros a id v Hin. pose proof Hin as Hin0. unfold cs', recell in Hin. apply in_map_iff in Hin as ([b [k w]] & E & Hin).
      cbn [fst snd] in E. injection E as Ea -> ->.
      assert (Hg : mget id mp = Some a).
      { apply (mget_in id a mp Hnd). eapply Permutation_in; [apply Permutation_sym, Hperm|].
        unfold entries. apply in_map_iff. exists (a, (id, v)). split; [reflexivity|exact Hin0]. }
      split; [exact Hg|]. apply (mget_in id a mp Hnd) in Hg. rewrite (Hin1 id a Hg). f_equal. f_equal.
      unfold f. apply in_split in Hin as (l1 & l2 & Ecs'). rewrite Ecs', snd_mid. cbn [snd].
      rewrite lookup_mid; [reflexivity|]. rewrite Ecs' in HR. now apply (rep_mid _ _ _ _ _ _ _ HR). }
    assert (Hsnd : map snd cs' = map snd cs) by apply recell_snd.
    rewrite (s_first_id _ _ _ _ HS). cbn [bind].
    rewrite (s_last_id _ _ _ _ HS). rewrite (s_fwd _ _ _ _ HS).
    rewrite <- Hsnd. destruct cs' as [|[a0 [id0 v0]] rest] eqn:Ecs'.
    { rewrite Ecs in Hsnd. discriminate. }
    cbn [map hd_error snd option_map fst unwrap bind]. 
    destruct (Hget a0 id0 v0 (or_introl eq_refl)) as [Hg0 Hh0]. rewrite Hg0. cbn [unwrap bind].
    assert (Hlast : exists al0 idl vl l', (a0, (id0, v0)) :: rest = l' ++ [(al0, (idl, vl))] /\
              hd_error (rev ((id0, v0) :: map snd rest)) = Some (idl, vl) /\ mget idl mp = Some al0).
    { destruct (snoc_case ((a0, (id0, v0)) :: rest)) as [E|(l' & [al0 [idl vl]] & E)]; [discriminate|].
      exists al0, idl, vl, l'. split; [exact E|]. split.
      - change ((id0, v0) :: map snd rest) with (map snd ((a0, (id0, v0)) :: rest)). rewrite E, map_app, rev_app_distr. reflexivity.
      - apply (Hget al0 idl vl). rewrite E. apply in_app_iff. right. now left. }
    destruct Hlast as (al0 & idl & vl & l' & El & Eh & Hgl). rewrite Eh. cbn [option_map fst unwrap bind]. rewrite Hgl. cbn [unwrap bind tl].
    assert (Hnd' : NoDup (addrs ((a0, (id0, v0)) :: rest))) by (eapply Permutation_NoDup; [exact Haddr|exact Hal]).
    assert (H0' : ~ In 0 (addrs ((a0, (id0, v0)) :: rest))).
    { intros Hin. apply Hal0. eapply Permutation_in; [apply Permutation_sym, Haddr|exact Hin]. }
    destruct (clone_link_ok rest h1 mp [(a0, (id0, v0))]) as (h2 & E2 & Hs2 & Hf2).
    + cbn [dseg hd_addr]. auto.
    + discriminate.
    + exact Hnd'.
    + exact H0'.
    + intros a id v Hin. apply Hget. now right.
    + change (last_addr [(a0, (id0, v0))] 0) with a0 in E2. unfold ids in E2. rewrite E2. cbn [bind].
      exists h2, (LMap mp a0 al0 (m_next m)), ((a0, (id0, v0)) :: rest).
      split; [reflexivity|]. split; [|split; [reflexivity|split; [reflexivity|split]]].
      * constructor; [constructor; auto| |exact Hperm].
        -- rewrite El, last_addr_snoc. reflexivity.
        -- rewrite Hsnd. apply (r_ids _ _ _ HR).
      * intros b Hb. rewrite Hf2; [now apply Hf1|]. intros Hin. apply Hb.
        eapply Permutation_in; [apply Permutation_sym, Haddr|exact Hin].
      * intros b Hb. eapply Permutation_in; [apply Permutation_sym, Haddr|exact Hb].
Qed.

End Proofs3.
