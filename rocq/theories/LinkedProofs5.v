(** Consequences of the refinement: ids, moves, removals, cursors, copies. *)
From Coq Require Import Permutation Sorted.
From Verif Require Import Base LinkedModel LinkedSpec LinkedProofs LinkedProofs2 LinkedProofs3 LinkedProofs4.

Section Proofs5.
Context {V : Type}.
Notation cell := (Z * (Z * V))%type.
Notation heap := (heap V).
Notation items := (list (Z * V)).
Implicit Types (h : heap) (m : lmap) (cs : list cell).

(** ** public programs are safe *)

Lemma public_prog_ok : forall (ops : list (wop V)) ss k, Forall public_w ops ->
  (forall i s, nth_error ss i = Some (Some s) -> below s /\ snd s <= k) -> 0 <= k -> k + zlen ops < 2 ^ 64 ->
  prog_ok ss ops.
Proof.
  induction ops as [|o ops IH]; intros ss k Hp Hs Hk Hl; cbn [prog_ok]; [exact I|].
  apply Forall_cons_iff in Hp as [Hpo Hp]. unfold zlen in *. cbn [length] in Hl.
  rewrite Nat2Z.inj_succ in Hl. split.
  - destruct o as [|its n|i o|i|i]; cbn [wop_ok public_w] in *; auto; [contradiction|].
    intros s Hi. destruct (Hs i s Hi) as [Hb Hn]. apply below_op_ok; auto. lia.
  - intros ss' r Ea. apply (IH ss' (k + 1)); auto; [|lia|lia].
    intros j s Hj. destruct o as [|its n|i o|i|i]; cbn [awstep public_w] in *.
    + injection Ea as <- _. rewrite nth_snoc in Hj. destruct (j =? length ss)%nat.
      * injection Hj as <-. unfold below. cbn [fst snd]. split; [split; [lia|intros id []]|lia].
      * destruct (Hs j s Hj). split; [assumption|lia].
    + contradiction.
    + destruct (nth_error ss i) as [[s0|]|] eqn:Ei; try discriminate.
      destruct (astep s0 o) as [s1 r1] eqn:E1. injection Ea as <- _. rewrite nth_lset in Hj.
      destruct (Nat.eqb_spec i j) as [<-|Hne].
      * rewrite Ei in Hj. injection Hj as <-. destruct (Hs i s0 Ei) as [Hb Hn].
        destruct (below_step s0 o Hb Hpo) as [Hb' Hn']. rewrite E1 in *. cbn [fst] in *. split; [exact Hb'|lia].
      * destruct (Hs j s Hj). split; [assumption|lia].
    + destruct (nth_error ss i) as [[[l n]|]|] eqn:Ei; try discriminate. injection Ea as <- _.
      destruct (Hs i _ Ei) as [[Hn0 Hb] Hn]. cbn [fst snd] in *.
      rewrite nth_snoc in Hj. destruct (j =? length ss)%nat.
      * injection Hj as <-. unfold below. cbn [fst snd]. destruct l.
        -- split; [split; [lia|intros id []]|lia].
        -- split; [split; [lia|exact Hb]|lia].
      * destruct (Hs j s Hj). split; [assumption|lia].
    + destruct (nth_error ss i) as [[s0|]|] eqn:Ei; try discriminate. injection Ea as <- _.
      rewrite nth_lset in Hj. destruct (Nat.eqb_spec i j) as [<-|Hne].
      * rewrite Ei in Hj. discriminate.
      * destruct (Hs j s Hj). split; [assumption|lia].
Qed.

(** ** ids *)

Lemma astep_ids (s : astate (V := V)) o : public o -> below s ->
  match snd (astep s o) with
  | RId id => id = snd s /\ snd (fst (astep s o)) = snd s + 1
  | _ => snd (fst (astep s o)) = snd s
  end.
Proof.
  destruct s as [l n]. intros Hp _. destruct o; cbn [public] in Hp; try contradiction; cbn [astep fst snd];
    try (destruct (lookup id l); cbn [fst snd]); try (destruct (_ || _); cbn [fst snd]); auto.
Qed.

Lemma lin_ids : forall prog h m cs h' m' rs, Rep h m cs -> below (map snd cs, m_next m) ->
  Forall lin_public (map snd prog) -> no_empty_copy (map snd cs, m_next m) (map snd prog) ->
  m_next m + zlen prog < 2 ^ 64 ->
  lin_run h m prog = Ok (h', m', rs) -> exists k, inserted rs = zrange k (m_next m).
Proof.
  induction prog as [|[al x] prog IH]; intros h m cs h' m' rs HR Hb Hp Hne Hl Hrun.
  - cbn [lin_run] in Hrun. apply Ok_inj in Hrun. injection Hrun as _ _ <-. exists O. reflexivity.
  - cbn [map snd] in *. apply Forall_cons_iff in Hp as [Hpo Hp]. unfold zlen in *. cbn [length] in Hl.
    rewrite Nat2Z.inj_succ in Hl.
    destruct x as [o|u]; cbn [lin_run no_empty_copy lin_public] in *.
    + destruct (addresses_ok h al) eqn:Hal; [|discriminate]. cbn [andb] in Hrun.
      destruct (length al =? 1)%nat eqn:Hlen; [|discriminate]. cbn [negb] in Hrun. apply Nat.eqb_eq in Hlen.
      destruct al as [|a [|]]; try discriminate. cbn [hd] in Hrun.
      apply addresses_fresh in Hal as (_ & H0 & Hf).
      destruct (step_ok h m cs a o HR) as (h1 & m1 & cs1 & r & E & HR1 & Ea & _).
      { intros ->. apply H0. now left. } { apply Hf. now left. }
      { apply below_op_ok; auto. cbn [snd]. lia. }
      rewrite E in Hrun. cbn [bind] in Hrun.
      destruct (lin_run h1 m1 prog) as [[[h2 m2] rs2]| |] eqn:E2; try discriminate. cbn [bind] in Hrun.
      apply Ok_inj in Hrun. injection Hrun as _ _ <-.
      destruct (below_step _ o Hb Hpo) as [Hb1 Hn1]. pose proof (astep_ids _ o Hpo Hb) as Hid.
      rewrite Ea in *. cbn [fst snd] in *.
      destruct (IH h1 m1 cs1 h2 m2 rs2 HR1 Hb1 Hp Hne ltac:(lia) E2) as (k & Hk).
      destruct r; cbn [inserted].
      * destruct Hid as [-> Hid]. rewrite Hk, Hid. now exists (S k).
      * rewrite Hk, Hid. now exists k.
      * rewrite Hk, Hid. now exists k.
    + destruct (addresses_ok h al) eqn:Hal; [|discriminate]. cbn [andb] in Hrun.
      destruct (length al =? length (m_map m))%nat eqn:Hlen; [|discriminate]. cbn [negb] in Hrun. apply Nat.eqb_eq in Hlen.
      rewrite (rep_length _ _ _ HR) in Hlen. apply addresses_fresh in Hal.
      destruct (clone_ok h m cs al HR Hal Hlen) as (h1 & m1 & cs1 & E & HR1 & Hs & Hn & _).
      rewrite E in Hrun. cbn [bind] in Hrun. destruct Hne as [Hc Hne]. cbn [fst snd] in Hc.
      assert (Hm : m_next m1 = m_next m). { rewrite Hn. destruct cs; [|reflexivity]. destruct Hc as [Hc|Hc]; [now destruct Hc|now rewrite Hc]. }
      rewrite <- Hs, <- Hm in *. now apply (IH h1 m1 cs1 h' m' rs HR1 Hb Hp Hne ltac:(lia)).
Qed.

Lemma zrange_sorted k b : StronglySorted Z.lt (zrange k b).
Proof.
  revert b. induction k as [|k IH]; intros b; constructor; [apply IH|].
  apply Forall_forall. intros x Hx. apply zrange_in in Hx. lia.
Qed.

Lemma lin_sorted prog h m rs : Forall lin_public (map snd prog) -> no_empty_copy ([], 0) (map snd prog) ->
  zlen prog < 2 ^ 64 -> lin_run no_heap lnew prog = Ok (h, m, rs) -> StronglySorted Z.lt (inserted rs).
Proof.
  intros Hp Hn Hl Hr.
  destruct (lin_ids prog no_heap lnew [] h m rs) as (k & ->); auto.
  - apply rep_new.
  - split; [cbn; lia|intros id []].
  - apply zrange_sorted.
Qed.

(** ** reachable states step to shown states *)

Lemma reach_step h m (l : items) n a o : reachable h m l n -> addresses_ok h [a] = true -> op_ok (l, n) o ->
  exists h' m', lstep a h m o = Ok (h', m', snd (astep (l, n) o)) /\
    shows h' m' (fst (fst (astep (l, n) o))) (snd (fst (astep (l, n) o))) /\
    NoDup (ids l) /\ NoDup (ids (fst (fst (astep (l, n) o)))).
Proof.
  intros Hr Hal Hok. destruct (reach_rep _ _ _ _ Hr) as (cs & HR & -> & ->).
  apply addresses_fresh in Hal as (_ & H0 & Hf).
  destruct (step_ok h m cs a o HR) as (h' & m' & cs' & r & E & HR' & Ea & _); auto.
  { intros ->. apply H0. now left. } { apply Hf. now left. }
  rewrite Ea. cbn [fst snd]. exists h', m'. split; [exact E|]. split; [now apply rep_shows|].
  split; [apply (r_ids _ _ _ HR)|apply (r_ids _ _ _ HR')].
Qed.

Lemma in_ids_split id (l : items) : In id (ids l) -> exists p v q, l = p ++ (id, v) :: q.
Proof.
  intros H. apply in_map_iff in H as ([k v] & <- & Hin). apply in_split in Hin as (p & q & ->). eauto.
Qed.

Lemma filter_eq (id : Z) (l : items) : filter (fun p => negb (fst p =? id)) l = without id l.
Proof. reflexivity. Qed.

Lemma not_in_without id (l : items) : ~ In id (ids (without id l)).
Proof.
  unfold ids, without. rewrite in_map_iff. intros ([k v] & <- & Hin). apply filter_In in Hin as [_ H].
  cbn [fst] in H. rewrite Z.eqb_refl in H. discriminate.
Qed.

Lemma without_twice id (l : items) : without id (without id l) = without id l.
Proof. apply without_absent, not_in_without. Qed.
Lemma without_app id (a b : items) : without id (a ++ b) = without id a ++ without id b.
Proof. apply filter_app. Qed.
Lemma without_self id v (l : items) : without id ((id, v) :: l) = without id l.
Proof. unfold without. cbn [filter fst]. now rewrite Z.eqb_refl. Qed.
Lemma without_other id k v (l : items) : k <> id -> without id ((k, v) :: l) = (k, v) :: without id l.
Proof. intros H. unfold without. cbn [filter fst]. destruct (Z.eqb_spec k id); [congruence|reflexivity]. Qed.
Lemma lookup_without k id (l : items) : k <> id -> In k (ids l) -> In k (ids (without id l)).
Proof.
  intros Hne H. apply in_ids_split in H as (p & v & q & ->).
  rewrite without_app, without_other, ids_app, in_app_iff by exact Hne. right. now left.
Qed.

Lemma move_facts (l : items) n o id : NoDup (ids l) -> move_of o = Some id ->
  exists l' r, astep (l, n) o = ((l', n), RBool r) /\
    if r then possible o l /\ NoDup (ids l') = NoDup (ids l') /\ (lookup id l' = lookup id l /\ without id l' = without id l) /\ placed o l'
    else ~ possible o l /\ l' = l.
Proof.
  intros Hn Hm. destruct o; cbn [move_of] in Hm; try discriminate; injection Hm as <-; cbn [astep possible placed].
  - destruct (lookup id0 l) as [v|] eqn:E.
    + eexists; exists true. split; [reflexivity|]. split; [now apply lookup_in in E|]. split; [reflexivity|]. split; [split|].
      * cbn [lookup]. now rewrite Z.eqb_refl.
      * now rewrite without_self, without_twice.
      * eauto.
    + exists l, false. split; [reflexivity|]. split; [now apply lookup_none|reflexivity].
  - destruct (lookup id0 l) as [v|] eqn:E.
    + eexists; exists true. split; [reflexivity|]. split; [now apply lookup_in in E|]. split; [reflexivity|]. split; [split|].
      * apply lookup_mid, not_in_without.
      * rewrite without_app, without_self, without_twice. now rewrite app_nil_r.
      * eauto.
    + exists l, false. split; [reflexivity|]. split; [now apply lookup_none|reflexivity].
  - destruct (lookup id0 l) as [v|] eqn:E.
    + destruct (Z.eqb_spec id0 next_items_id) as [Ei|Hne]; cbn [orb].
      { exists l, false. split; [reflexivity|]. split; [tauto|reflexivity]. }
      destruct (has next_items_id l) eqn:Hh; cbn [negb].
      * apply has_in in Hh. eexists; exists true. split; [reflexivity|]. split; [split; [now apply lookup_in in E|tauto]|].
        split; [reflexivity|].
        assert (Hk : In next_items_id (ids (without id0 l))) by (apply lookup_without; auto).
        pose proof (not_in_without id0 l) as Hni. pose proof (without_twice id0 l) as Htw.
        destruct (in_ids_split _ _ Hk) as (p & w & q & Ew).
        assert (Hp : ~ In next_items_id (ids p)).
        { assert (HN : NoDup (ids (without id0 l))).
          { clear - Hn. induction l as [|[k x] l IH]; [constructor|]. cbn [ids map fst] in Hn. apply NoDup_cons_iff in Hn as [Hk Hn].
            destruct (Z.eq_dec k id0) as [->|Hne]; [rewrite without_self; now apply IH|].
            rewrite without_other by exact Hne. cbn [ids map fst]. constructor; [|now apply IH].
            intros Hin. apply in_without in Hin. contradiction. }
          rewrite Ew in HN. now apply ids_mid in HN. }
        rewrite Ew in *. rewrite before_mid by exact Hp. rewrite ids_app, in_app_iff in Hni.
        split; [split|].
        -- apply lookup_mid. tauto.
        -- rewrite without_app, without_self, <- without_app. exact Htw.
        -- eauto 6.
      * apply has_not in Hh. exists l, false. split; [reflexivity|]. split; [tauto|reflexivity].
    + exists l, false. split; [reflexivity|]. apply lookup_none in E. split; [tauto|reflexivity].
  - destruct (lookup id0 l) as [v|] eqn:E.
    + destruct (Z.eqb_spec id0 prev_items_id) as [Ei|Hne]; cbn [orb].
      { exists l, false. split; [reflexivity|]. split; [tauto|reflexivity]. }
      destruct (has prev_items_id l) eqn:Hh; cbn [negb].
      * apply has_in in Hh. eexists; exists true. split; [reflexivity|]. split; [split; [now apply lookup_in in E|tauto]|].
        split; [reflexivity|].
        assert (Hk : In prev_items_id (ids (without id0 l))) by (apply lookup_without; auto).
        pose proof (not_in_without id0 l) as Hni. pose proof (without_twice id0 l) as Htw.
        destruct (in_ids_split _ _ Hk) as (p & w & q & Ew).
        assert (Hp : ~ In prev_items_id (ids p)).
        { assert (HN : NoDup (ids (without id0 l))).
          { clear - Hn. induction l as [|[k x] l IH]; [constructor|]. cbn [ids map fst] in Hn. apply NoDup_cons_iff in Hn as [Hk Hn].
            destruct (Z.eq_dec k id0) as [->|Hne]; [rewrite without_self; now apply IH|].
            rewrite without_other by exact Hne. cbn [ids map fst]. constructor; [|now apply IH].
            intros Hin. apply in_without in Hin. contradiction. }
          rewrite Ew in HN. now apply ids_mid in HN. }
        rewrite Ew in *. rewrite after_mid by exact Hp. rewrite ids_app, in_app_iff in Hni.
        change ((prev_items_id, w) :: q) with ([(prev_items_id, w)] ++ q) in *.
        change ((prev_items_id, w) :: (id0, v) :: q) with ([(prev_items_id, w)] ++ (id0, v) :: q).
        split; [split|].
        -- rewrite app_assoc. apply lookup_mid. rewrite ids_app, in_app_iff in *. intuition.
        -- rewrite !without_app, without_self in *. exact Htw.
        -- cbn [app]. eauto 6.
      * apply has_not in Hh. exists l, false. split; [reflexivity|]. split; [tauto|reflexivity].
    + exists l, false. split; [reflexivity|]. apply lookup_none in E. split; [tauto|reflexivity].
Qed.

Lemma move_ok h m (l : items) n a o id : reachable h m l n -> addresses_ok h [a] = true -> move_of o = Some id ->
  exists h' m' l' r, lstep a h m o = Ok (h', m', RBool r) /\ shows h' m' l' n /\
    if r then possible o l /\ moved id l l' /\ placed o l' else ~ possible o l /\ l' = l.
Proof.
  intros Hr Hal Hm.
  destruct (reach_step h m l n a o Hr Hal) as (h' & m' & E & HS & Hn & Hn').
  { destruct o; try discriminate Hm; exact I. }
  destruct (move_facts l n o id Hn Hm) as (l' & r & Ea & Hf). rewrite Ea in *. cbn [fst snd] in *.
  exists h', m', l', r. split; [exact E|]. split; [exact HS|].
  destruct r; [|exact Hf]. destruct Hf as (H1 & _ & [H2 H3] & H4). split; [exact H1|]. split; [|exact H4].
  split; [exact Hn'|]. split; [exact H2|exact H3].
Qed.

Lemma remove_ok h m (l : items) n a id : reachable h m l n -> addresses_ok h [a] = true ->
  exists h' m' l' r, lstep a h m (Remove id) = Ok (h', m', RBool r) /\ shows h' m' l' n /\
    if r then exists p v q, l = p ++ (id, v) :: q /\ l' = p ++ q else ~ In id (ids l) /\ l' = l.
Proof.
  intros Hr Hal.
  destruct (reach_step h m l n a (Remove id) Hr Hal I) as (h' & m' & E & HS & Hn & Hn').
  cbn [astep fst snd] in *. exists h', m', (without id l), (has id l). split; [exact E|]. split; [exact HS|].
  destruct (has id l) eqn:Hh.
  - apply has_in, in_ids_split in Hh as (p & v & q & ->). apply ids_mid in Hn as (H1 & H2 & _).
    exists p, v, q. split; [reflexivity|]. now apply without_mid.
  - apply has_not in Hh. split; [exact Hh|]. now apply without_absent.
Qed.

Lemma remove_first_ok h m (l : items) n a : reachable h m l n -> addresses_ok h [a] = true ->
  exists h' m' l' r, lstep a h m RemoveFirst = Ok (h', m', RBool r) /\ shows h' m' l' n /\
    if r then exists x, l = x :: l' else l = [] /\ l' = [].
Proof.
  intros Hr Hal.
  destruct (reach_step h m l n a RemoveFirst Hr Hal I) as (h' & m' & E & HS & _).
  cbn [astep fst snd] in *. eexists; eexists; eexists; eexists. split; [exact E|]. split; [exact HS|].
  destruct l as [|x l]; cbn [tl]; [auto|eauto].
Qed.

Lemma remove_last_ok h m (l : items) n a : reachable h m l n -> addresses_ok h [a] = true ->
  exists h' m' l' r, lstep a h m RemoveLast = Ok (h', m', RBool r) /\ shows h' m' l' n /\
    if r then exists x, l = l' ++ [x] else l = [] /\ l' = [].
Proof.
  intros Hr Hal.
  destruct (reach_step h m l n a RemoveLast Hr Hal I) as (h' & m' & E & HS & _).
  cbn [astep fst snd] in *. eexists; eexists; eexists; eexists. split; [exact E|]. split; [exact HS|].
  destruct l as [|x l]; [auto|]. exists (last (x :: l) x). apply app_removelast_last. discriminate.
Qed.

(** ** cursors *)

Lemma points_cell h m l1 a id v l2 : Rep h m (l1 ++ (a, (id, v)) :: l2) -> points h m a (Some (id, v)).
Proof.
  intros HR. split; [eapply cur_current_at; apply (r_dl _ _ _ HR)|].
  destruct (pull_present _ _ _ _ _ _ _ HR) as (_ & _ & _ & _ & _ & _ & _ & Hg & _).
  destruct (rep_mid _ _ _ _ _ _ _ HR) as (_ & _ & H0 & _). unfold iter_from_id, cur_available.
  split; [exact Hg|]. destruct (Z.eqb_spec a 0); [congruence|reflexivity].
Qed.

Lemma points_hd h m l1 l2 : Rep h m (l1 ++ l2) -> points h m (hd_addr l2 0) (hd_error (map snd l2)).
Proof.
  intros HR. destruct l2 as [|[a [id v]] l2]; [split; reflexivity|]. cbn [hd_addr fst map snd hd_error].
  now apply (points_cell h m l1 a id v l2).
Qed.

Lemma points_last h m l1 l2 : Rep h m (l1 ++ l2) -> points h m (last_addr l1 0) (hd_error (rev (map snd l1))).
Proof.
  intros HR. destruct (snoc_case l1) as [->|(l & [a [id v]] & ->)]; [split; reflexivity|].
  rewrite last_addr_snoc, map_app, rev_app_distr. cbn [fst map snd rev app hd_error].
  rewrite <- app_assoc in HR. now apply (points_cell h m l a id v l2).
Qed.

Lemma map_snd_split cs (l1 : items) id v l2 : map snd cs = l1 ++ (id, v) :: l2 ->
  exists c1 a c2, cs = c1 ++ (a, (id, v)) :: c2 /\ map snd c1 = l1 /\ map snd c2 = l2.
Proof.
  revert l1. induction cs as [|[a [k w]] cs IH]; intros [|x l1] H; try discriminate.
  - cbn [map snd app] in H. injection H as -> -> <-. exists [], a, cs. auto.
  - cbn [map snd app] in H. injection H as <- H. destruct (IH l1 H) as (c1 & b & c2 & -> & <- & <-).
    exists ((a, (k, w)) :: c1), b, c2. auto.
Qed.

Lemma is_first_at h m l1 a id v l2 : Rep h m (l1 ++ (a, (id, v)) :: l2) -> cur_is_first h m a = Ok (nil_b l1).
Proof.
  intros HR. destruct (cell_at _ _ _ _ _ _ _ (r_dl _ _ _ HR)) as (H0 & Ha & _).
  unfold cur_is_first. destruct (Z.eqb_spec a 0); [congruence|]. rewrite (deref_ok _ _ _ H0 Ha). cbn [bind n_id].
  rewrite (s_first_id _ _ _ _ (rep_shows _ _ _ HR)), snd_mid. cbn [snd].
  destruct (rep_mid _ _ _ _ _ _ _ HR) as (H1 & _).
  destruct l1 as [|[b [k w]] l1]; cbn [map snd app hd_error option_map fst bind nil_b].
  - now rewrite Z.eqb_refl.
  - destruct (Z.eqb_spec k id) as [->|]; [|reflexivity]. exfalso. apply H1. now left.
Qed.

Lemma is_last_at h m l1 a id v l2 : Rep h m (l1 ++ (a, (id, v)) :: l2) -> cur_is_last h m a = Ok (nil_b l2).
Proof.
  intros HR. destruct (cell_at _ _ _ _ _ _ _ (r_dl _ _ _ HR)) as (H0 & Ha & _).
  unfold cur_is_last. destruct (Z.eqb_spec a 0); [congruence|]. rewrite (deref_ok _ _ _ H0 Ha). cbn [bind n_id].
  rewrite (s_last_id _ _ _ _ (rep_shows _ _ _ HR)), snd_mid. cbn [snd].
  destruct (rep_mid _ _ _ _ _ _ _ HR) as (_ & H2 & _).
  destruct (snoc_case l2) as [->|(l & [b [k w]] & ->)].
  - cbn [map]. rewrite rev_app_distr. cbn [rev app hd_error option_map fst bind nil_b]. now rewrite Z.eqb_refl.
  - rewrite map_app in *. cbn [map snd] in *.
    change ((id, v) :: map snd l ++ [(k, w)]) with (((id, v) :: map snd l) ++ [(k, w)]). rewrite app_assoc, rev_app_distr.
    cbn [rev app hd_error option_map fst bind]. rewrite ids_app, in_app_iff in H2. cbn [ids map fst In] in H2.
    destruct (Z.eqb_spec k id) as [->|]; [tauto|]. now destruct l.
Qed.

Lemma cursor_ok h m (l : items) n : reachable h m l n ->
  points h m (iter m) (hd_error l) /\ points h m (iter_from_last m) (hd_error (rev l)) /\
  forall l1 id v l2, l = l1 ++ (id, v) :: l2 ->
  exists c cn cp, iter_from_id m id = Some c /\ points h m c (Some (id, v)) /\
    cur_next h m c = Ok (Some (id, v), cn) /\ points h m cn (hd_error l2) /\
    cur_prev h m c = Ok (Some (id, v), cp) /\ points h m cp (hd_error (rev l1)) /\
    (l2 <> [] -> exists x, cur_prev h m cn = Ok (x, c)) /\
    (l1 <> [] -> exists x, cur_next h m cp = Ok (x, c)) /\
    cur_is_first h m c = Ok (nil_b l1) /\ cur_is_last h m c = Ok (nil_b l2).
Proof.
  intros Hr. destruct (reach_rep _ _ _ _ Hr) as (cs & HR & -> & ->). pose proof (r_dl _ _ _ HR) as HD.
  split; [unfold iter; rewrite (d_first _ _ _ HD); now apply (points_hd h m [] cs)|].
  split; [unfold iter_from_last; rewrite (d_last _ _ _ HD); apply (points_last h m cs []); now rewrite app_nil_r|].
  intros l1 id v l2 E. destruct (map_snd_split _ _ _ _ _ E) as (c1 & a & c2 & -> & <- & <-).
  pose proof (points_cell _ _ _ _ _ _ _ HR) as Hpt.
  exists a, (hd_addr c2 0), (last_addr c1 0). split; [apply Hpt|]. split; [exact Hpt|].
  split; [eapply cur_next_at, HD|]. split.
  { apply (points_hd h m (c1 ++ [(a, (id, v))]) c2). now rewrite <- app_assoc. }
  split; [eapply cur_prev_at, HD|]. split; [now apply (points_last h m c1 ((a, (id, v)) :: c2))|].
  split.
  { intros Hne. destruct c2 as [|[b [k w]] c2]; [now destruct Hne|]. cbn [hd_addr fst]. eexists.
    change (c1 ++ (a, (id, v)) :: (b, (k, w)) :: c2) with (c1 ++ [(a, (id, v))] ++ (b, (k, w)) :: c2) in HD. rewrite app_assoc in HD.
    rewrite (cur_prev_at _ _ _ _ _ _ _ HD), last_addr_snoc. reflexivity. }
  split.
  { intros Hne. destruct (snoc_case c1) as [->|(l & [b [k w]] & ->)]; [now destruct Hne|]. rewrite last_addr_snoc. cbn [fst]. eexists.
    rewrite <- app_assoc in HD. cbn [app] in HD. now rewrite (cur_next_at _ _ _ _ _ _ _ HD). }
  split.
  - rewrite (is_first_at _ _ _ _ _ _ _ HR). now destruct c1.
  - rewrite (is_last_at _ _ _ _ _ _ _ HR). now destruct c2.
Qed.

(** ** copies and equality *)

Lemma eq_zip_true eqv : forall l r : items, length l = length r ->
  (eq_zip eqv l r = true <-> Forall2 (fun p q => fst p = fst q /\ eqv (snd p) (snd q) = true) l r).
Proof.
  induction l as [|[a v] l IH]; intros [|[b w] r] Hl; try discriminate; cbn [eq_zip].
  - split; [constructor|reflexivity].
  - injection Hl as Hl. specialize (IH r Hl). split.
    + destruct (Z.eqb_spec a b) as [->|]; [|discriminate]. cbn [negb]. destruct (eqv v w) eqn:E; [|discriminate]. cbn [negb].
      intros H. constructor; [cbn; auto|now apply IH].
    + intros H. inversion H as [|x y lx ly [H1 H2] H3]; subst. cbn [fst snd] in *. subst b. rewrite Z.eqb_refl. cbn [negb].
      rewrite H2. cbn [negb]. now apply IH.
Qed.

Lemma Forall2_len {A B} (R : A -> B -> Prop) l r : Forall2 R l r -> length l = length r.
Proof. induction 1; cbn [length]; congruence. Qed.

Lemma leq_ok eqv h1 m1 (l1 : items) n1 h2 m2 l2 n2 : shows h1 m1 l1 n1 -> shows h2 m2 l2 n2 ->
  exists b, leq eqv h1 m1 h2 m2 = Ok b /\
    (b = true <-> Forall2 (fun p q => fst p = fst q /\ eqv (snd p) (snd q) = true) l1 l2).
Proof.
  intros H1 H2. unfold leq. rewrite (s_len _ _ _ _ H1), (s_len _ _ _ _ H2), (s_fwd _ _ _ _ H1), (s_fwd _ _ _ _ H2).
  cbn [bind]. unfold zlen. destruct (Z.eqb_spec (Z.of_nat (length l1)) (Z.of_nat (length l2))) as [E|E]; cbn [negb].
  - eexists. split; [reflexivity|]. apply eq_zip_true. lia.
  - eexists. split; [reflexivity|]. split; [discriminate|]. intros H. apply Forall2_len in H. lia.
Qed.

Lemma copy_ok eqv h m (l : items) n al : reachable h m l n -> addresses_ok h al = true -> zlen al = zlen l ->
  (forall v, eqv v v = true) ->
  exists h' m', clone al h m = Ok (h', m') /\ shows h' m' l (match l with [] => 0 | _ => n end) /\
    shows h' m l n /\ leq eqv h' m h' m' = Ok true.
Proof.
  intros Hr Hal Hlen Hrefl. destruct (reach_rep _ _ _ _ Hr) as (cs & HR & -> & ->).
  apply addresses_fresh in Hal as Hf. unfold zlen in Hlen. rewrite map_length in Hlen.
  destruct (clone_ok h m cs al HR Hf ltac:(lia)) as (h' & m' & cs' & E & HR' & Hs & Hn & He & _).
  assert (HR2 : Rep h' m cs).
  { eapply rep_ext; [exact HR|]. intros b Hb. apply He. intros Hin. destruct Hf as (_ & _ & Hf).
    apply Hf in Hin. revert Hb. now apply (rep_fresh _ _ _ _ HR). }
  pose proof (rep_shows _ _ _ HR') as HS'. pose proof (rep_shows _ _ _ HR2) as HS2. rewrite Hs, Hn in HS'.
  exists h', m'. split; [exact E|]. split; [destruct cs; exact HS'|]. split; [exact HS2|].
  destruct (leq_ok eqv _ _ _ _ _ _ _ _ HS2 HS') as (b & Eb & Hb). rewrite Eb. f_equal. apply Hb.
  clear - Hrefl. induction (map snd cs); constructor; auto.
Qed.

Lemma awrun_leaves i : forall (ops : list (wop V)) ss ss' rs, Forall (leaves i) ops -> (i < length ss)%nat ->
  awrun ss ops = Some (ss', rs) -> nth_error ss' i = nth_error ss i.
Proof.
  induction ops as [|o ops IH]; intros ss ss' rs Hl Hi Hr; cbn [awrun] in Hr.
  - now injection Hr as <- _.
  - apply Forall_cons_iff in Hl as [Ho Hl]. destruct (awstep ss o) as [[s1 r1]|] eqn:E; [|discriminate].
    destruct (awrun s1 ops) as [[s2 r2]|] eqn:E2; [|discriminate]. injection Hr as <- _.
    assert (H1 : nth_error s1 i = nth_error ss i /\ (length ss <= length s1)%nat).
    { assert (Hset : forall j (x : option astate), length (lset j x ss) = length ss).
      { clear. induction ss as [|y ss IH]; intros [|j] x; cbn [lset length]; auto. }
      destruct o as [|its n|j o|j|j]; cbn [awstep leaves] in *.
      - injection E as <- _. rewrite nth_error_app1, app_length by exact Hi. split; [reflexivity|lia].
      - injection E as <- _. rewrite nth_error_app1, app_length by exact Hi. split; [reflexivity|lia].
      - destruct (nth_error ss j) as [[s|]|]; try discriminate. destruct (astep s o). injection E as <- _.
        rewrite nth_lset, Hset. destruct (Nat.eqb_spec j i); [congruence|]. split; [reflexivity|lia].
      - destruct (nth_error ss j) as [[[l n]|]|]; try discriminate. injection E as <- _.
        rewrite nth_error_app1, app_length by exact Hi. split; [reflexivity|lia].
      - destruct (nth_error ss j) as [[s|]|]; try discriminate. injection E as <- _.
        rewrite nth_lset, Hset. destruct (Nat.eqb_spec j i); [congruence|]. split; [reflexivity|lia]. }
    destruct H1 as [H1 H2]. rewrite <- H1. apply (IH s1 s2 r2); auto. lia.
Qed.

Lemma wrun_app : forall p q h ms,
  wrun (V := V) h ms (p ++ q) = ('(h, ms, rs) <- wrun h ms p ; '(h, ms, rs') <- wrun h ms q ; Ok (h, ms, rs ++ rs')).
Proof.
  induction p as [|[al o] p IH]; intros q h ms.
  - cbn [app wrun bind]. now destruct (wrun h ms q) as [[[? ?] ?]| |].
  - cbn [app wrun]. destruct (wstep al h ms o) as [[[h1 ms1] r]| |]; cbn [bind]; try reflexivity.
    rewrite IH. destruct (wrun h1 ms1 p) as [[[h2 ms2] rs]| |]; cbn [bind]; try reflexivity.
    now destruct (wrun h2 ms2 q) as [[[h3 ms3] rs']| |].
Qed.

Lemma prog_ok_app : forall (p q : list (wop V)) ss, prog_ok ss (p ++ q) ->
  prog_ok ss p /\ forall ss' rs, awrun ss p = Some (ss', rs) -> prog_ok ss' q.
Proof.
  induction p as [|o p IH]; intros q ss H; cbn [app prog_ok awrun] in *.
  - split; [exact I|]. intros ss' rs E. now injection E as <- _.
  - destruct H as [H1 H2]. split.
    + split; [exact H1|]. intros ss' r E. now apply (IH q ss' (H2 _ _ E)).
    + intros ss' rs E. destruct (awstep ss o) as [[s1 r1]|]; [|discriminate].
      destruct (awrun s1 p) as [[s2 r2]|] eqn:E2; [|discriminate]. injection E as <- _.
      now apply (IH q s1 (H2 _ _ eq_refl)) in E2.
Qed.

(** work on other lists does not show in list [i] *)
Lemma independent_ok p q i h ms rs h' ms' rs' m (l : items) n :
  prog_ok [] (map snd (p ++ q)) -> Forall (leaves i) (map snd q) ->
  wrun no_heap [] p = Ok (h, ms, rs) -> nth_error ms i = Some (Some m) -> shows h m l n ->
  wrun no_heap [] (p ++ q) = Ok (h', ms', rs') ->
  exists m', nth_error ms' i = Some (Some m') /\ shows h' m' l n.
Proof.
  intros Hok Hl Hp Hm HS Hpq. rewrite map_app in Hok. apply prog_ok_app in Hok as [Hokp Hokq].
  pose proof (w_run p no_heap [] [] _ w_init Hokp) as H1. rewrite Hp in H1. destruct H1 as (ss & css & Ea & HW).
  specialize (Hokq _ _ Ea). rewrite wrun_app, Hp in Hpq. cbn [bind] in Hpq.
  pose proof (w_run q h ms ss css HW Hokq) as H2.
  destruct (wrun h ms q) as [[[h2 ms2] rs2]| |]; try discriminate. cbn [bind] in Hpq. apply Ok_inj in Hpq.
  injection Hpq as <- <- _. destruct H2 as (ss2 & css2 & Ea2 & HW2).
  pose proof (w_rep _ _ _ _ HW i) as Hr. rewrite Hm in Hr.
  destruct (nth_error ss i) as [[s|]|] eqn:Es; try contradiction. destruct Hr as [HR ->].
  assert (Hi : (i < length ss)%nat) by (apply nth_error_Some; congruence).
  pose proof (awrun_leaves i _ _ _ _ Hl Hi Ea2) as Hsame. rewrite Es in Hsame.
  pose proof (w_rep _ _ _ _ HW2 i) as Hr2. rewrite Hsame in Hr2.
  destruct (nth_error ms2 i) as [[m'|]|] eqn:Em'; try contradiction. destruct Hr2 as [HR2 E2].
  exists m'. split; [reflexivity|].
  pose proof (rep_shows _ _ _ HR) as HS1. pose proof (s_fwd _ _ _ _ HS1) as F1. rewrite (s_fwd _ _ _ _ HS) in F1.
  apply Ok_inj in F1. pose proof (s_next _ _ _ _ HS) as N1. unfold next_id in N1. subst l n.
  injection E2 as -> ->. now apply rep_shows.
Qed.

End Proofs5.
