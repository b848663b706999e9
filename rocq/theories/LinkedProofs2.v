(** Steps, runs and observations of the linked map. *)
From Coq Require Import Permutation.
From Verif Require Import Base LinkedModel LinkedSpec LinkedProofs.

Section Proofs2.
Context {V : Type}.
Notation cell := (Z * (Z * V))%type.
Notation heap := (heap V).
Notation items := (list (Z * V)).
Implicit Types (h : heap) (m : lmap) (cs : list cell).

Definition good_step h m cs a (o : lop V) : Prop :=
  exists h' m' cs' r, lstep a h m o = Ok (h', m', r) /\ Rep h' m' cs' /\
    astep (map snd cs, m_next m) o = ((map snd cs', m_next m'), r) /\ framed h cs a h' cs'.

Lemma framed_refl h cs a : framed h cs a h cs.
Proof. split; auto. Qed.

Lemma has_in id (l : items) : has id l = true <-> In id (ids l).
Proof.
  unfold has. destruct (lookup id l) eqn:E.
  - split; [intros _|reflexivity]. destruct (in_dec Z.eq_dec id (ids l)) as [H|H]; [exact H|].
    apply lookup_none in H. congruence.
  - apply lookup_none in E. split; [discriminate|tauto].
Qed.
Lemma has_not id (l : items) : has id l = false <-> ~ In id (ids l).
Proof. rewrite <- has_in. destruct (has id l); split; congruence. Qed.

Lemma ids_in_cs id cs : In id (ids (map snd cs)) -> exists l1 a v l2, cs = l1 ++ (a, (id, v)) :: l2.
Proof.
  unfold ids. rewrite map_map. intros H. apply in_map_iff in H as ([a [id' v]] & E & Hin). cbn in E. subst id'.
  apply in_split in Hin as (l1 & l2 & ->). eauto.
Qed.

Lemma snd_mid (l1 l2 : list cell) c : map snd (l1 ++ c :: l2) = map snd l1 ++ snd c :: map snd l2.
Proof. now rewrite map_app. Qed.

Lemma rep_mid h m l1 a id v l2 : Rep h m (l1 ++ (a, (id, v)) :: l2) ->
  ~ In id (ids (map snd l1)) /\ ~ In id (ids (map snd l2)) /\
  a <> 0 /\ ~ In a (addrs (l1 ++ l2)).
Proof.
  intros HR. pose proof (r_ids _ _ _ HR) as Hi. rewrite snd_mid in Hi. cbn [snd] in Hi.
  apply ids_mid in Hi as (H1 & H2 & _).
  pose proof (d_nodup _ _ _ (r_dl _ _ _ HR)) as Hn. apply nodup_mid in Hn as (Ha1 & Ha2 & _). cbn [fst] in *.
  split; [exact H1|]. split; [exact H2|]. split.
  - intros ->. apply (d_nonnull _ _ _ (r_dl _ _ _ HR)). rewrite addrs_app, in_app_iff. right. now left.
  - rewrite addrs_app, in_app_iff. tauto.
Qed.

Lemma frame_mid h a0 (l1 l2 : list cell) a id v k1 k2 h' : l1 ++ l2 = k1 ++ k2 ->
  (forall b, ~ In b (addrs (l1 ++ (a, (id, v)) :: l2)) -> h' b = h b) ->
  framed h (l1 ++ (a, (id, v)) :: l2) a0 h' (k1 ++ (a, (id, v)) :: k2).
Proof.
  intros E Hf. split; [auto|].
  intros b Hb. left. rewrite addrs_app in *. cbn [addrs map fst] in *.
  rewrite <- !Permutation_middle. rewrite <- Permutation_middle in Hb.
  change (map fst k2) with (addrs k2) in Hb. change (map fst l2) with (addrs l2).
  rewrite <- !addrs_app in *. rewrite E. exact Hb.
Qed.

(** common start of the operations that take an item out *)
Lemma pull_absent h m id : mget id (m_map m) = None -> pull h m id = Ok (h, m, 0).
Proof. intros H. unfold pull. now rewrite H. Qed.

Lemma pull_present h m l1 a id v l2 : Rep h m (l1 ++ (a, (id, v)) :: l2) ->
  exists h' m', pull h m id = Ok (h', m', a) /\ Dl h' m' (l1 ++ l2) /\ h' a = Some (Node 0 0 v id) /\
    m_map m' = m_map m /\ m_next m' = m_next m /\ mget id (m_map m) = Some a /\
    (forall b, ~ In b (addrs (l1 ++ (a, (id, v)) :: l2)) -> h' b = h b).
Proof.
  intros HR.
  assert (Hg : mget id (m_map m) = Some a).
  { rewrite (rep_get _ _ _ HR). apply mget_in.
    - rewrite entries_keys. apply (r_ids _ _ _ HR).
    - unfold entries. apply in_map_iff. exists (a, (id, v)). split; [reflexivity|]. apply in_app_iff. right. now left. }
  destruct (pull_spec h m a id v l1 l2 (r_dl _ _ _ HR) Hg) as (h' & m' & H1 & H2 & H3 & H4 & H5 & H6).
  exists h', m'. repeat split; try assumption; apply H2.
Qed.

(** ** insertion *)

Lemma step_insert_last h m cs a id v n : Rep h m cs -> a <> 0 -> h a = None ->
  ~ In id (ids (map snd cs)) ->
  exists h1 m1, put_last (upd h a (Some (Node 0 0 v id))) m a = Ok (h1, m1) /\
    m_map m1 = m_map m /\ m_next m1 = m_next m /\ mget id (m_map m1) = None /\
    Rep h1 (LMap (mput id a (m_map m1)) (m_first m1) (m_last m1) n) (cs ++ [(a, (id, v))]) /\
    framed h cs a h1 (cs ++ [(a, (id, v))]).
Proof.
  intros HR Ha0 Ha Hid. pose proof (rep_fresh _ _ _ _ HR Ha) as Hna.
  destruct (put_last_spec (upd h a (Some (Node 0 0 v id))) m a id v cs) as (h1 & m1 & E & HD & Hm & Hn & Hf); auto.
  { apply Dl_upd_out; [apply (r_dl _ _ _ HR)|exact Hna]. }
  { apply upd_same. }
  exists h1, m1. split; [exact E|]. split; [exact Hm|]. split; [exact Hn|]. split.
  { rewrite Hm, (rep_get _ _ _ HR). apply mget_none. now rewrite entries_keys. }
  split.
  - eapply (register h m cs h1 m1 cs []); eauto. now rewrite app_nil_r.
  - split.
    + intros b Hb Hba. rewrite Hf by assumption. now apply upd_other.
    + intros b Hb. rewrite addrs_app, in_app_iff in Hb. destruct Hb as [Hb|[Hb|[]]]; auto.
Qed.

Lemma step_insert_first h m cs a id v n : Rep h m cs -> a <> 0 -> h a = None ->
  ~ In id (ids (map snd cs)) ->
  exists h1 m1, put_first (upd h a (Some (Node 0 0 v id))) m a = Ok (h1, m1) /\
    m_map m1 = m_map m /\ m_next m1 = m_next m /\ mget id (m_map m1) = None /\
    Rep h1 (LMap (mput id a (m_map m1)) (m_first m1) (m_last m1) n) ((a, (id, v)) :: cs) /\
    framed h cs a h1 ((a, (id, v)) :: cs).
Proof.
  intros HR Ha0 Ha Hid. pose proof (rep_fresh _ _ _ _ HR Ha) as Hna.
  destruct (put_first_spec (upd h a (Some (Node 0 0 v id))) m a id v cs) as (h1 & m1 & E & HD & Hm & Hn & Hf); auto.
  { apply Dl_upd_out; [apply (r_dl _ _ _ HR)|exact Hna]. }
  { apply upd_same. }
  exists h1, m1. split; [exact E|]. split; [exact Hm|]. split; [exact Hn|]. split.
  { rewrite Hm, (rep_get _ _ _ HR). apply mget_none. now rewrite entries_keys. }
  split.
  - eapply (register h m cs h1 m1 [] cs); eauto.
  - split.
    + intros b Hb Hba. rewrite Hf by assumption. now apply upd_other.
    + intros b [Hb|Hb]; auto.
Qed.

(** ** removal *)

Lemma finish_remove h m l1 a id v l2 h' m' a0 :
  Rep h m (l1 ++ (a, (id, v)) :: l2) -> Dl h' m' (l1 ++ l2) -> m_map m' = m_map m ->
  mget id (m_map m) = Some a ->
  (forall b, ~ In b (addrs (l1 ++ (a, (id, v)) :: l2)) -> h' b = h b) ->
  exists h2 m2, map_remove h' m' id = (h2, m2) /\ Rep h2 m2 (l1 ++ l2) /\ m_next m2 = m_next m' /\
    framed h (l1 ++ (a, (id, v)) :: l2) a0 h2 (l1 ++ l2).
Proof.
  intros HR HD Hm Hg Hf. destruct (rep_mid _ _ _ _ _ _ _ HR) as (_ & _ & _ & Hna).
  unfold map_remove. rewrite Hm, Hg. cbn [drop_box]. eexists; eexists. split; [reflexivity|].
  split; [rewrite <- Hm; now apply (unregister h m l1 l2 a id v h' m')|]. split; [reflexivity|]. split.
  - intros b Hb _. rewrite upd_other; [now apply Hf|]. intros ->. apply Hb.
    rewrite addrs_app, in_app_iff. right. now left.
  - intros b Hb. left. rewrite addrs_app, in_app_iff in *. cbn [addrs map fst In]. fold (addrs l2). tauto.
Qed.

Lemma step_ok h m cs a o : Rep h m cs -> a <> 0 -> h a = None ->
  op_ok (map snd cs, m_next m) o -> good_step h m cs a o.
Proof.
  intros HR Ha0 Ha Hok. unfold good_step. destruct o; cbn [lstep op_ok snd fst] in *.
  - (* insert_last *)
    destruct Hok as [Hid Hov]. unfold insert_last.
    destruct (step_insert_last h m cs a (m_next m) v (m_next m + 1) HR Ha0 Ha Hid)
      as (h1 & m1 & E & Hm & Hn & Hg & HR1 & Hf).
    rewrite E. cbn [bind]. unfold map_insert. rewrite Hn in *. rewrite Hg. cbn [drop_box]. unfold bump. cbn [m_next m_map m_first m_last].
    destruct (Z.ltb_spec (m_next m + 1) (2 ^ 64)); [|lia]. cbn [bind].
    do 4 eexists. split; [reflexivity|]. split; [exact HR1|]. split; [|exact Hf].
    cbn [astep m_next]. now rewrite map_app.
  - destruct Hok as [Hid Hov]. unfold insert_first.
    destruct (step_insert_first h m cs a (m_next m) v (m_next m + 1) HR Ha0 Ha Hid)
      as (h1 & m1 & E & Hm & Hn & Hg & HR1 & Hf).
    rewrite E. cbn [bind]. unfold map_insert. rewrite Hn in *. rewrite Hg. cbn [drop_box]. unfold bump. cbn [m_next m_map m_first m_last].
    destruct (Z.ltb_spec (m_next m + 1) (2 ^ 64)); [|lia]. cbn [bind].
    do 4 eexists. split; [reflexivity|]. split; [exact HR1|]. split; [|exact Hf].
    reflexivity.
  - (* remove *)
    unfold lm_remove. destruct (rep_split _ _ _ id HR) as [[Hg Hid]|(l1 & b & v & l2 & -> & Hg)].
    + rewrite (pull_absent _ _ _ Hg). cbn [bind]. rewrite Z.eqb_refl. cbn [bind].
      do 4 eexists. split; [reflexivity|]. split; [exact HR|]. split; [|apply framed_refl].
      cbn [astep]. rewrite without_absent by exact Hid. apply has_not in Hid. now rewrite Hid.
    + destruct (pull_present _ _ _ _ _ _ _ HR) as (h' & m' & E & HD & Hb & Hm & Hn & _ & Hf).
      destruct (rep_mid _ _ _ _ _ _ _ HR) as (Hi1 & Hi2 & Hb0 & Hnb).
      rewrite E. cbn [bind]. destruct (Z.eqb_spec b 0); [congruence|].
      destruct (finish_remove _ _ _ _ _ _ _ _ _ a HR HD Hm Hg Hf) as (h2 & m2 & E2 & HR2 & Hn2 & Hf2).
      rewrite E2. cbn [bind]. do 4 eexists. split; [reflexivity|]. split; [exact HR2|]. split; [|exact Hf2].
      cbn [astep]. rewrite snd_mid, Hn2, Hn, map_app. cbn [snd]. rewrite without_mid by assumption.
      unfold has. now rewrite lookup_mid.
  - (* remove_first *)
    unfold remove_first. destruct cs as [|[b [id v]] cs].
    + unfold pull_first. rewrite (d_first _ _ _ (r_dl _ _ _ HR)). cbn [hd_addr]. rewrite Z.eqb_refl. cbn [bind].
      rewrite Z.eqb_refl. cbn [bind]. do 4 eexists. split; [reflexivity|]. split; [exact HR|].
      split; [reflexivity|apply framed_refl].
    + destruct (pull_first_spec _ _ _ _ _ _ (r_dl _ _ _ HR)) as (h' & m' & E & HD & Hb & Hm & Hn & Hf).
      destruct (rep_mid h m [] b id v cs HR) as (Hi1 & Hi2 & Hb0 & Hnb).
      destruct (pull_present h m [] b id v cs HR) as (_ & _ & _ & _ & _ & _ & _ & Hg & _).
      rewrite E. cbn [bind]. destruct (Z.eqb_spec b 0); [congruence|].
      unfold get_id. rewrite (deref_ok _ _ _ Hb0 Hb). cbn [bind n_id].
      destruct (finish_remove h m [] b id v cs h' m' a HR HD Hm Hg Hf) as (h2 & m2 & E2 & HR2 & Hn2 & Hf2).
      rewrite E2. cbn [bind]. do 4 eexists. split; [reflexivity|]. split; [exact HR2|]. split; [|exact Hf2].
      cbn [astep]. now rewrite Hn2, Hn.
  - (* remove_last *)
    unfold remove_last. destruct (snoc_case cs) as [->|(cs' & [b [id v]] & ->)].
    + unfold pull_last. rewrite (d_last _ _ _ (r_dl _ _ _ HR)). unfold last_addr. cbn [rev]. rewrite Z.eqb_refl. cbn [bind].
      rewrite Z.eqb_refl. cbn [bind]. do 4 eexists. split; [reflexivity|]. split; [exact HR|].
      split; [reflexivity|apply framed_refl].
    + destruct (pull_last_spec _ _ _ _ _ _ (r_dl _ _ _ HR)) as (h' & m' & E & HD & Hb & Hm & Hn & Hf).
      destruct (rep_mid h m cs' b id v [] HR) as (Hi1 & Hi2 & Hb0 & Hnb).
      destruct (pull_present h m cs' b id v [] HR) as (_ & _ & _ & _ & _ & _ & _ & Hg & _).
      rewrite E. cbn [bind]. destruct (Z.eqb_spec b 0); [congruence|].
      unfold get_id. rewrite (deref_ok _ _ _ Hb0 Hb). cbn [bind n_id].
      rewrite <- (app_nil_r cs') in HD.
      destruct (finish_remove h m cs' b id v [] h' m' a HR HD Hm Hg Hf) as (h2 & m2 & E2 & HR2 & Hn2 & Hf2).
      rewrite app_nil_r in HR2, Hf2.
      rewrite E2. cbn [bind]. do 4 eexists. split; [reflexivity|]. split; [exact HR2|]. split; [|exact Hf2].
      cbn [astep]. rewrite Hn2, Hn, snd_mid. cbn [map]. rewrite removelast_last.
      destruct (map snd cs'); reflexivity.
  - (* move_to_first *)
    unfold move_to_first. destruct (rep_split _ _ _ id HR) as [[Hg Hid]|(l1 & b & v & l2 & -> & Hg)].
    + rewrite (pull_absent _ _ _ Hg). cbn [bind]. rewrite Z.eqb_refl. cbn [bind].
      do 4 eexists. split; [reflexivity|]. split; [exact HR|]. split; [|apply framed_refl].
      cbn [astep]. apply lookup_none in Hid. now rewrite Hid.
    + destruct (pull_present _ _ _ _ _ _ _ HR) as (h' & m' & E & HD & Hb & Hm & Hn & _ & Hf).
      destruct (rep_mid _ _ _ _ _ _ _ HR) as (Hi1 & Hi2 & Hb0 & Hnb).
      rewrite E. cbn [bind]. destruct (Z.eqb_spec b 0); [congruence|].
      destruct (put_first_spec h' m' b id v (l1 ++ l2) HD Hb0 Hnb Hb) as (h2 & m2 & E2 & HD2 & Hm2 & Hn2 & Hf2).
      rewrite E2. cbn [bind]. do 4 eexists. split; [reflexivity|].
      assert (HR2 : Rep h2 m2 ([] ++ (b, (id, v)) :: l1 ++ l2)).
      { eapply (reinsert h m l1 l2 b id v h2 m2 [] (l1 ++ l2) HR); [reflexivity|exact HD2|congruence]. }
      split; [exact HR2|]. split.
      * cbn [astep]. rewrite snd_mid. cbn [snd]. rewrite lookup_mid, without_mid by assumption.
        rewrite Hn2, Hn. cbn [map app snd]. now rewrite map_app.
      * apply (frame_mid h a l1 l2 b id v [] (l1 ++ l2)); [reflexivity|].
        intros x Hx. rewrite Hf2; [now apply Hf| |].
        -- intros Hin. apply Hx. rewrite addrs_app, in_app_iff in *. cbn [addrs map fst In]. fold (addrs l2). tauto.
        -- intros ->. apply Hx. rewrite addrs_app, in_app_iff. right. now left.
  - (* move_to_last *)
    unfold move_to_last. destruct (rep_split _ _ _ id HR) as [[Hg Hid]|(l1 & b & v & l2 & -> & Hg)].
    + rewrite (pull_absent _ _ _ Hg). cbn [bind]. rewrite Z.eqb_refl. cbn [bind].
      do 4 eexists. split; [reflexivity|]. split; [exact HR|]. split; [|apply framed_refl].
      cbn [astep]. apply lookup_none in Hid. now rewrite Hid.
    + destruct (pull_present _ _ _ _ _ _ _ HR) as (h' & m' & E & HD & Hb & Hm & Hn & _ & Hf).
      destruct (rep_mid _ _ _ _ _ _ _ HR) as (Hi1 & Hi2 & Hb0 & Hnb).
      rewrite E. cbn [bind]. destruct (Z.eqb_spec b 0); [congruence|].
      destruct (put_last_spec h' m' b id v (l1 ++ l2) HD Hb0 Hnb Hb) as (h2 & m2 & E2 & HD2 & Hm2 & Hn2 & Hf2).
      rewrite E2. cbn [bind]. do 4 eexists. split; [reflexivity|].
      assert (HR2 : Rep h2 m2 ((l1 ++ l2) ++ (b, (id, v)) :: [])).
      { eapply (reinsert h m l1 l2 b id v h2 m2 (l1 ++ l2) [] HR); [now rewrite app_nil_r|exact HD2|congruence]. }
      split; [exact HR2|]. split.
      * cbn [astep]. rewrite snd_mid. cbn [snd]. rewrite lookup_mid, without_mid by assumption.
        rewrite Hn2, Hn. now rewrite !map_app.
      * apply (frame_mid h a l1 l2 b id v (l1 ++ l2) []); [now rewrite app_nil_r|].
        intros x Hx. rewrite Hf2; [now apply Hf| |].
        -- intros Hin. apply Hx. rewrite addrs_app, in_app_iff in *. cbn [addrs map fst In]. fold (addrs l2). tauto.
        -- intros ->. apply Hx. rewrite addrs_app, in_app_iff. right. now left.
  - (* move_to_prev *)
    unfold move_to_prev. destruct (rep_split _ _ _ id HR) as [[Hg Hid]|(l1 & b & v & l2 & -> & Hg)].
    { exists h, m, cs, (RBool false). split.
      - destruct (id =? next_items_id); [reflexivity|].
        destruct (mget next_items_id (m_map m)); [|reflexivity].
        rewrite (pull_absent _ _ _ Hg). cbn [bind]. now rewrite Z.eqb_refl.
      - split; [exact HR|]. split; [|apply framed_refl]. cbn [astep]. apply lookup_none in Hid. now rewrite Hid. }
    destruct (rep_mid _ _ _ _ _ _ _ HR) as (Hi1 & Hi2 & Hb0 & Hnb).
    assert (Hlk : lookup id (map snd (l1 ++ (b, (id, v)) :: l2)) = Some v)
      by (rewrite snd_mid; cbn [snd]; now apply lookup_mid).
    cbn [astep]. rewrite Hlk.
    destruct (Z.eqb_spec id next_items_id) as [->|Hne].
    { do 4 eexists. split; [reflexivity|]. split; [exact HR|]. split; [reflexivity|apply framed_refl]. }
    cbn [orb].
    destruct (rep_split _ _ _ next_items_id HR) as [[Hgk Hk]|(k1 & n & vn & k2 & Ek & Hgk)].
    { rewrite Hgk. apply has_not in Hk. rewrite Hk. cbn [negb].
      do 4 eexists. split; [reflexivity|]. split; [exact HR|]. split; [reflexivity|apply framed_refl]. }
    rewrite Hgk.
    assert (Hin : In next_items_id (ids (map snd (l1 ++ (b, (id, v)) :: l2)))).
    { rewrite Ek, snd_mid, ids_app, in_app_iff. right. now left. }
    pose proof Hin as Hhas. apply has_in in Hhas. rewrite Hhas. cbn [negb].
    assert (Hsp : exists j1 j2, l1 ++ l2 = j1 ++ (n, (next_items_id, vn)) :: j2).
    { assert (Hc : In (n, (next_items_id, vn)) (l1 ++ (b, (id, v)) :: l2)).
      { rewrite Ek. apply in_app_iff. right. now left. }
      apply in_split. rewrite in_app_iff in *. cbn [In] in Hc. destruct Hc as [Hc|[Hc|Hc]]; [tauto|congruence|tauto]. }
    destruct Hsp as (j1 & j2 & Ej).
    destruct (pull_present _ _ _ _ _ _ _ HR) as (h' & m' & E & HD & Hb & Hm & Hn & _ & Hf).
    rewrite E. cbn [bind]. destruct (Z.eqb_spec b 0); [congruence|].
    rewrite Ej in HD. pose proof Hnb as Hnb'. rewrite Ej in Hnb'.
    destruct (put_prev_spec h' m' n next_items_id vn b id v j1 j2 HD Hb0 Hnb' Hb) as (h2 & m2 & E2 & HD2 & Hm2 & Hn2 & Hf2).
    rewrite E2. cbn [bind]. do 4 eexists. split; [reflexivity|].
    assert (HR2 : Rep h2 m2 (j1 ++ (b, (id, v)) :: (n, (next_items_id, vn)) :: j2)).
    { eapply (reinsert h m l1 l2 b id v h2 m2 j1 _ HR); [exact Ej|exact HD2|congruence]. }
    split; [exact HR2|]. split.
    + rewrite snd_mid. cbn [snd]. rewrite without_mid by assumption. rewrite <- map_app, Ej, snd_mid. cbn [snd].
      rewrite before_mid.
      * rewrite Hn2, Hn, snd_mid. reflexivity.
      * pose proof (r_ids _ _ _ HR2) as Hi. rewrite snd_mid in Hi. cbn [map snd] in Hi.
        change ((id, v) :: (next_items_id, vn) :: map snd j2) with ([(id, v)] ++ (next_items_id, vn) :: map snd j2) in Hi.
        rewrite app_assoc in Hi. apply ids_mid in Hi as (Hi & _). rewrite ids_app, in_app_iff in Hi. tauto.
    + apply (frame_mid h a l1 l2 b id v j1 _); [exact Ej|].
      intros x Hx. rewrite <- Ej in Hf2. rewrite Hf2; [now apply Hf| |].
      * intros Hin2. apply Hx. rewrite addrs_app, in_app_iff in *. cbn [addrs map fst In]. fold (addrs l2). tauto.
      * intros ->. apply Hx. rewrite addrs_app, in_app_iff. right. now left.
  - (* move_to_next *)
    unfold move_to_next. destruct (rep_split _ _ _ id HR) as [[Hg Hid]|(l1 & b & v & l2 & -> & Hg)].
    { exists h, m, cs, (RBool false). split.
      - destruct (id =? prev_items_id); [reflexivity|].
        destruct (mget prev_items_id (m_map m)); [|reflexivity].
        rewrite (pull_absent _ _ _ Hg). cbn [bind]. now rewrite Z.eqb_refl.
      - split; [exact HR|]. split; [|apply framed_refl]. cbn [astep]. apply lookup_none in Hid. now rewrite Hid. }
    destruct (rep_mid _ _ _ _ _ _ _ HR) as (Hi1 & Hi2 & Hb0 & Hnb).
    assert (Hlk : lookup id (map snd (l1 ++ (b, (id, v)) :: l2)) = Some v)
      by (rewrite snd_mid; cbn [snd]; now apply lookup_mid).
    cbn [astep]. rewrite Hlk.
    destruct (Z.eqb_spec id prev_items_id) as [->|Hne].
    { do 4 eexists. split; [reflexivity|]. split; [exact HR|]. split; [reflexivity|apply framed_refl]. }
    cbn [orb].
    destruct (rep_split _ _ _ prev_items_id HR) as [[Hgk Hk]|(k1 & n & vn & k2 & Ek & Hgk)].
    { rewrite Hgk. apply has_not in Hk. rewrite Hk. cbn [negb].
      do 4 eexists. split; [reflexivity|]. split; [exact HR|]. split; [reflexivity|apply framed_refl]. }
    rewrite Hgk.
    assert (Hin : In prev_items_id (ids (map snd (l1 ++ (b, (id, v)) :: l2)))).
    { rewrite Ek, snd_mid, ids_app, in_app_iff. right. now left. }
    pose proof Hin as Hhas. apply has_in in Hhas. rewrite Hhas. cbn [negb].
    assert (Hsp : exists j1 j2, l1 ++ l2 = j1 ++ (n, (prev_items_id, vn)) :: j2).
    { assert (Hc : In (n, (prev_items_id, vn)) (l1 ++ (b, (id, v)) :: l2)).
      { rewrite Ek. apply in_app_iff. right. now left. }
      apply in_split. rewrite in_app_iff in *. cbn [In] in Hc. destruct Hc as [Hc|[Hc|Hc]]; [tauto|congruence|tauto]. }
    destruct Hsp as (j1 & j2 & Ej).
    destruct (pull_present _ _ _ _ _ _ _ HR) as (h' & m' & E & HD & Hb & Hm & Hn & _ & Hf).
    rewrite E. cbn [bind]. destruct (Z.eqb_spec b 0); [congruence|].
    rewrite Ej in HD. pose proof Hnb as Hnb'. rewrite Ej in Hnb'.
    destruct (put_next_spec h' m' n prev_items_id vn b id v j1 j2 HD Hb0 Hnb' Hb) as (h2 & m2 & E2 & HD2 & Hm2 & Hn2 & Hf2).
    rewrite E2. cbn [bind]. do 4 eexists. split; [reflexivity|].
    assert (Ej' : l1 ++ l2 = (j1 ++ [(n, (prev_items_id, vn))]) ++ j2) by (rewrite <- app_assoc; exact Ej).
    change ((n, (prev_items_id, vn)) :: (b, (id, v)) :: j2) with ([(n, (prev_items_id, vn))] ++ (b, (id, v)) :: j2) in HD2.
    rewrite app_assoc in HD2.
    assert (HR2 : Rep h2 m2 ((j1 ++ [(n, (prev_items_id, vn))]) ++ (b, (id, v)) :: j2)).
    { eapply (reinsert h m l1 l2 b id v h2 m2 _ j2 HR); [exact Ej'|exact HD2|congruence]. }
    split; [exact HR2|]. split.
    + rewrite snd_mid. cbn [snd]. rewrite without_mid by assumption. rewrite <- map_app, Ej, snd_mid. cbn [snd].
      rewrite after_mid.
      * rewrite Hn2, Hn, snd_mid, map_app, <- app_assoc. reflexivity.
      * pose proof (r_ids _ _ _ HR2) as Hi. rewrite <- app_assoc in Hi. cbn [app] in Hi. rewrite snd_mid in Hi. cbn [snd] in Hi.
        apply ids_mid in Hi as (Hi & _). exact Hi.
    + apply (frame_mid h a l1 l2 b id v _ j2); [exact Ej'|].
      intros x Hx. rewrite <- Ej in Hf2. rewrite Hf2; [now apply Hf| |].
      * intros Hin2. apply Hx. rewrite addrs_app, in_app_iff in *. cbn [addrs map fst In]. fold (addrs l2). tauto.
      * intros ->. apply Hx. rewrite addrs_app, in_app_iff. right. now left.
  - (* set_item *)
    unfold set_item. destruct (rep_split _ _ _ id HR) as [[Hg Hid]|(l1 & b & w & l2 & -> & Hg)]; rewrite Hg.
    + cbn [bind]. do 4 eexists. split; [reflexivity|]. split; [exact HR|]. split; [|apply framed_refl].
      cbn [astep]. pose proof Hid as Hh. apply has_not in Hh. rewrite Hh. do 3 f_equal.
      unfold assign. rewrite <- (map_id (map snd cs)) at 2. apply map_ext_in. intros [k x] Hin. cbn [fst].
      destruct (Z.eqb_spec k id) as [->|]; [|reflexivity]. exfalso. apply Hid.
      change id with (fst (id, x)). now apply in_map.
    + destruct (rep_mid _ _ _ _ _ _ _ HR) as (Hi1 & Hi2 & Hb0 & Hnb).
      pose proof (r_dl _ _ _ HR) as HD. pose proof (d_seg _ _ _ HD) as Hs.
      apply dseg_app in Hs as [Hs1 Hs2]. cbn [dseg hd_addr fst] in Hs1, Hs2. destruct Hs2 as [Hb Hs2].
      rewrite (deref_ok _ _ _ Hb0 Hb). cbn [bind n_prev n_next n_id].
      do 4 eexists. split; [reflexivity|].
      rewrite addrs_app, in_app_iff in Hnb.
      assert (HR2 : Rep (upd h b (Some (Node (last_addr l1 0) (hd_addr l2 0) v id))) m (l1 ++ (b, (id, v)) :: l2)).
      { constructor.
        - destruct HD as [_ Hn H0 Hf Hl]. rewrite addrs_app in *. constructor; rewrite ?addrs_app; auto.
          + apply dseg_app. split; [|split].
            * eapply dseg_ext; [|exact Hs1]. intros x Hx. apply upd_other. intros ->. tauto.
            * apply upd_same.
            * eapply dseg_ext; [|exact Hs2]. intros x Hx. apply upd_other. intros ->. tauto.
          + rewrite Hf, !hd_addr_app. reflexivity.
          + rewrite Hl, !last_addr_app, !last_addr_cons. reflexivity.
        - pose proof (r_ids _ _ _ HR) as Hi. rewrite snd_mid, ids_app in *. exact Hi.
        - rewrite (r_map _ _ _ HR), !entries_app. reflexivity. }
      split; [exact HR2|]. split.
      * cbn [astep]. rewrite !snd_mid. cbn [snd]. unfold has. rewrite lookup_mid by assumption. do 3 f_equal.
        unfold assign. rewrite map_app. cbn [map fst]. rewrite Z.eqb_refl.
        assert (Hid : forall l : items, ~ In id (ids l) -> map (fun p => if fst p =? id then (fst p, v) else p) l = l).
        { intros l Hl. rewrite <- (map_id l) at 2. apply map_ext_in. intros [k x] Hin. cbn [fst].
          destruct (Z.eqb_spec k id) as [->|]; [|reflexivity]. exfalso. apply Hl.
          change id with (fst (id, x)). now apply in_map. }
        now rewrite !Hid.
      * split.
        -- intros x Hx _. apply upd_other. intros ->. apply Hx. rewrite addrs_app, in_app_iff. right. now left.
        -- intros x Hx. left. rewrite addrs_app in *. exact Hx.
  - (* insert_first_with_id *)
    unfold insert_first_with_id, contains_key. destruct (rep_split _ _ _ id HR) as [[Hg Hid]|(l1 & b & w & l2 & Ecs & Hg)]; rewrite Hg.
    + destruct (step_insert_first h m cs a id v (m_next m) HR Ha0 Ha Hid) as (h1 & m1 & E & Hm & Hn & Hg1 & HR1 & Hf).
      rewrite E. cbn [bind]. unfold map_insert. rewrite Hg1. cbn [drop_box bind].
      do 4 eexists. split; [reflexivity|]. rewrite Hn. split; [exact HR1|]. split; [|exact Hf].
      cbn [astep]. apply has_not in Hid. now rewrite Hid.
    + cbn [bind]. do 4 eexists. split; [reflexivity|]. split; [exact HR|]. split; [|apply framed_refl].
      cbn [astep]. replace (has id (map snd cs)) with true; [reflexivity|]. symmetry. apply has_in.
      rewrite Ecs, snd_mid, ids_app, in_app_iff. right. now left.
  - (* insert_last_with_id *)
    unfold insert_last_with_id, contains_key. destruct (rep_split _ _ _ id HR) as [[Hg Hid]|(l1 & b & w & l2 & Ecs & Hg)]; rewrite Hg.
    + destruct (step_insert_last h m cs a id v (m_next m) HR Ha0 Ha Hid) as (h1 & m1 & E & Hm & Hn & Hg1 & HR1 & Hf).
      rewrite E. cbn [bind]. unfold map_insert. rewrite Hg1. cbn [drop_box bind].
      do 4 eexists. split; [reflexivity|]. rewrite Hn. split; [exact HR1|]. split; [|exact Hf].
      cbn [astep]. apply has_not in Hid. rewrite Hid. now rewrite map_app.
    + cbn [bind]. do 4 eexists. split; [reflexivity|]. split; [exact HR|]. split; [|apply framed_refl].
      cbn [astep]. replace (has id (map snd cs)) with true; [reflexivity|]. symmetry. apply has_in.
      rewrite Ecs, snd_mid, ids_app, in_app_iff. right. now left.
  - (* insert_first_with_id_unchecked *)
    unfold insert_first_with_id_unchecked.
    destruct (step_insert_first h m cs a id v (m_next m) HR Ha0 Ha Hok) as (h1 & m1 & E & Hm & Hn & Hg1 & HR1 & Hf).
    rewrite E. cbn [bind]. unfold contains_key, map_insert. rewrite Hg1. cbn [drop_box bind].
    do 4 eexists. split; [reflexivity|]. rewrite Hn. split; [exact HR1|]. split; [reflexivity|exact Hf].
  - unfold insert_last_with_id_unchecked.
    destruct (step_insert_last h m cs a id v (m_next m) HR Ha0 Ha Hok) as (h1 & m1 & E & Hm & Hn & Hg1 & HR1 & Hf).
    rewrite E. cbn [bind]. unfold contains_key, map_insert. rewrite Hg1. cbn [drop_box bind].
    do 4 eexists. split; [reflexivity|]. rewrite Hn. split; [exact HR1|]. split; [|exact Hf].
    cbn [astep]. now rewrite map_app.
  - (* set_next_id *)
    do 4 eexists. split; [reflexivity|]. split; [|split; [reflexivity|apply framed_refl]].
    destruct HR as [HD Hi Hm]. constructor; auto. eapply Dl_header; [exact HD| |]; reflexivity.
Qed.

End Proofs2.
