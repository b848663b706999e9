(** Proofs for C70: what the calls do to the members of a document. *)
From Verif Require Import Base CompactionModel CompactionSpec StringCompactionModel StringCompactionProofs LinkedModel LinkedSpec LinkedProofs DocModel DiffModel DiffWireModel DiffSpec DiffEditSpec DiffProofs DiffProofs2 DiffProofs3 DiffEditProofs
  ArchiveModel JsonModel JsonSpec ValidModel ValidSpec EmbedSpec EmbedProofs IntfModel IntfSpec IntfProofs
  SizeSpec SizeProofs SavedModel SavedProofs ReadModel AgainModel AgainSpec AgainProofs RunModel RunSpec RunAskProofs WroteSpec WroteProofs WroteStepProofs ListedSpec ListedProofs ListedAskProofs.

Lemma hset_again {A} k (v w : A) m : hset k v (hset k w m) = hset k v m.
Proof. induction m as [|[x y] m IH]; cbn [hset]; [rewrite eqb_bytes_refl; reflexivity|]. destruct (eqb_bytes x k) eqn:E; cbn [hset]; rewrite E; [reflexivity|]. rewrite IH. reflexivity. Qed.

Lemma run_list m (d1 : defT m) (l1 : mlistT m) o : fits_insert o (plain_list m l1) ->
  exists l2, list_run m (OnList o) d1 l1 = Ok (l2, answered o (ids (fst (plain_list m l1)))) /\ plain_list m l2 = done (CItem [] []) o (plain_list m l1).
Proof.
  destruct m as [|m]; [destruct l1|]. change (mlistT (S m)) with (mlist (item (mlistT m))) in l1. destruct l1 as [l nx]. cbn [plain_list fst snd list_run]. intros F.
  assert (I : ids (map (fun e => (fst e, plain_item_of (plain_list m) (snd e))) l) = ids l) by apply (mp_ids (plain_item_of (plain_list m))).
  assert (F' : fits_insert o (l, nx)). { intros H. destruct (F H) as (F1 & F2 & F3). cbn [fst snd] in *. split; [intros Q; apply F1; exact (eq_ind_r (fun z => In nx z) Q I)|]. split; [exact F2|]. unfold zlen in *. rewrite map_length in F3. exact F3. }
  exists (done (Item [] []) o (l, nx)). split.
  - transitivity (Ok (done (Item [] []) o (l, nx), answered o (ids l))); [exact (list_do_done l nx o F')|].
    exact (f_equal (fun z => Ok (done (Item [] []) o (l, nx), answered o z)) (eq_sym I)).
  - symmetry. exact (mp_done (plain_item_of (plain_list m)) (Item [] []) o l nx).
Qed.

Lemma run_into n id key st (d : ldef (defT n)) (l : list (Z * item (mlistT n))) nx it it1 (d1 : defT n) (l1 l2 : mlistT n) b : lookup id l = Some it -> item_open it d key (empty_list n) = (it1, Some (d1, l1)) ->
  list_run n st d1 l1 = Ok (l2, b) -> list_run (S n) (Into id key st) d (l, nx) = Ok ((assign id (Item (hset key (LMil (Some l2)) (it_values it1)) (it_refs it1)) l, nx), b).
Proof.
  intros L E R. transitivity (match lookup id l with
    | None => Ok ((l, nx), false)
    | Some it => match item_open it d key (empty_list n) with
                 | (it, None) => Ok ((l, nx), false)
                 | (it, Some (d', l')) => '(l', b) <- list_run n st d' l' ; Ok ((assign id (Item (hset key (LMil (Some l')) (it_values it)) (it_refs it)) l, nx), b)
                 end
    end); [reflexivity|]. rewrite L, E, R. reflexivity.
Qed.

Lemma reach_list o b key c n : forall a d l id, reach (fun m d it => exists it1 d1 l1 l2, item_open it d key (empty_list m) = (it1, Some (d1, l1)) /\ list_run m (OnList o) d1 l1 = Ok (l2, b) /\
    plain_item m (Item (hset key (LMil (Some l2)) (it_values it1)) (it_refs it1)) = c) n a d l id ->
  exists l' x, list_run n (list_below id a key o) d l = Ok (l', b) /\ lookup id (fst (plain_list n l)) = Some x /\
    plain_list n l' = (assign id (put_item x a c) (fst (plain_list n l)), snd (plain_list n l)).
Proof.
  induction n as [|n IH]; intros a d l id; [intros []|]. change (mlistT (S n)) with (mlist (item (mlistT n))) in l. change (defT (S n)) with (ldef (defT n)) in d.
  destruct l as [l nx]. cbn [reach]. intros (N & it & L & R). cbn [fst] in N, L. cbn [plain_list fst snd].
  assert (Y : lookup id (map (fun e => (fst e, plain_item_of (plain_list n) (snd e))) l) = Some (plain_item_of (plain_list n) it)) by (transitivity (option_map (plain_item_of (plain_list n)) (lookup id l)); [apply lookup_map|exact (f_equal (option_map (plain_item_of (plain_list n))) L)]). destruct a as [|(k, id') a].
  - destruct R as (it1 & d1 & l1 & l2 & E & R & C). exists (assign id (Item (hset key (LMil (Some l2)) (it_values it1)) (it_refs it1)) l, nx), (plain_item_of (plain_list n) it).
    split; [exact (run_into n id key (OnList o) d l nx it it1 d1 l1 l2 b L E R)|]. split; [exact Y|]. cbn [fst snd put_item]. rewrite (assign_map (plain_item_of (plain_list n))). unfold plain_item in C. rewrite C. reflexivity.
  - destruct R as (i & d1 & u & l1 & Hd & Hv & R). destruct (IH a d1 l1 id' R) as (l' & x & E & X & Pl). cbn [list_below list_run fst snd]. rewrite L. unfold item_open. rewrite Hd, Hv. rewrite E. cbn [bind].
    eexists _, _. split; [reflexivity|]. split; [exact Y|]. cbn [fst snd]. rewrite (assign_map (plain_item_of (plain_list n))). f_equal. f_equal.
    assert (Z : hget k (map (fun e => (fst e, plain_value (plain_list n) (snd e))) (it_values it)) = Some (VMil (Some (plain_list n l1)))) by (transitivity (option_map (plain_value (plain_list n)) (hget k (it_values it))); [apply hget_map|exact (f_equal (option_map (plain_value (plain_list n))) Hv)]).
    cbn [put_item plain_item_of ci_values ci_refs it_values it_refs]. match goal with |- context [hget k ?m] => replace (hget k m) with (Some (VMil (Some (plain_list n l1)))) by (symmetry; exact Z) end. rewrite X.
    rewrite <- Pl. exact (f_equal (fun m => CItem m (it_refs it)) (hset_map (plain_value (plain_list n)) k (LMil (Some l')) (it_values it))).
Qed.
Lemma reach_some (P : forall m, ldef (defT m) -> item (mlistT m) -> Prop) n : forall a d l id, reach P n a d l id -> exists m d it, P m d it.
Proof.
  induction n as [|n IH]; intros a d l id; [intros []|]. cbn [reach]. intros (_ & it & _ & R). destruct a as [|(k, id') a]; [exists n, d, it; exact R|].
  destruct R as (i & d1 & u & l1 & _ & _ & R). eapply IH, R.
Qed.
Lemma ok_list_below mem n : forall id a key o d, ok_step mem n (list_below id a key o) d.
Proof.
  induction n as [|n IH]; intros id a key o d; [exact Logic.I|]. destruct a as [|(k, id') a]; cbn [list_below ok_step]; intros i d' u _; [destruct n; exact Logic.I|apply IH].
Qed.
Lemma ok_list_step mem n (def : rootdef n) a key o : ok_root_step mem def (list_step a key o).
Proof. destruct a as [|(k, id) a]; cbn [list_step ok_root_step]; intros i d u _; [destruct n; exact Logic.I|apply ok_list_below]. Qed.

(** the item that was put *)
Lemma below_put c : forall a x d s, item_below (x, d) a = Some s -> item_below (put_item x a c, d) a = Some (c, snd s).
Proof.
  induction a as [|(k, i) a IH]; intros x d s E; [apply Some_inj in E; subst s; reflexivity|]. destruct (below_cons _ _ _ _ _ E) as (j & d1 & u & l & y & Hd & Hv & Hl & B). cbn [fst snd] in *.
  cbn [put_item]. rewrite Hv, Hl. cbn [item_below]. unfold spot_mil. cbn [fst snd ci_values]. rewrite Hd, hget_hset_same. cbn [option_map fst]. unfold mlist_item. rewrite (lookup_assign_at i y _ (fst l) i Hl), Z.eqb_refl. cbn [option_map]. exact (IH _ _ _ B).
Qed.
Lemma at_put r a s c : item_at r a = Some s -> item_at (put_root r a c) a = Some (c, snd s).
Proof.
  destruct a as [|(k, i) a]; [discriminate|]. intros E. destruct (at_cons _ _ _ _ _ E) as (j & d1 & u & l & y & Hd & Hv & Hl & B).
  cbn [put_root]. rewrite Hv, Hl. cbn [item_at]. unfold root_mlist. cbn [ro_default ro_sabun]. rewrite Hd, hget_hset_same. cbn [option_map fst]. unfold mlist_item. rewrite (lookup_assign_at i y _ (fst l) i Hl), Z.eqb_refl. cbn [option_map]. exact (below_put _ _ _ _ _ B).
Qed.

Section Props.
Variable mem : Z -> list Z.
Context {n : nat}.
Variable def : rootdef n.
Variable f : sabun n.
Variable r : root_obj.
Hypothesis H : holds mem def f r.

(** the list and what the call makes of it *)
Lemma list_call a key d o op : list_in r a key = Some (d, o) -> fits_insert op (now o) -> NoDup (ids (fst (now o))) /\
  exists f', root_run def f (list_step a key op) = Ok (f', answered op (ids (fst (now o)))) /\
    list_in (with_members r f') a key = Some (d, Some (done (CItem [] []) op (now o))) /\
    forall iter, shown iter r (with_members r f') a key (fst (done (CItem [] []) op (now o))) d (touched op (ids (fst (now o))) (snd (now o))).
Proof.
  intros Li F. destruct a as [|(k, id) a].
  - pose proof H as (Rd & Rs & T). apply is_rootdef_of in Rd. cbn [list_in] in Li. destruct (hget key (ro_default r)) as [[j [p vt|d' rows o'|d' x|d' u]]|] eqn:Hd; try discriminate Li.
    destruct (hget key (ro_sabun r)) as [[p|o']|] eqn:Hv; try discriminate Li. injection Li as -> ->.
    pose proof (forall2_hget (fun a b => fst a = fst b /\ is_rootval (is_def n) (snd a) (snd b)) _ _ key Rd) as M. rewrite Hd in M. destruct (hget key def) as [[j' v]|] eqn:Hk; [|contradiction].
    cbn [fst snd] in M. destruct M as (<- & M). destruct v as [p vt| | |d0 u']; cbn [is_rootval] in M; try contradiction. destruct M as (I & <-).
    rewrite Rs, plain_get in Hv. destruct (hget key f) as [[p|lo]|] eqn:Hf; try discriminate. injection Hv as <-.
    destruct T as (_ & T). specialize (T _ _ Hf). cbn beta iota in T. destruct T as (j2 & d2 & u2 & Hk2 & T). rewrite Hk in Hk2. injection Hk2 as <- <- <-.
    set (l1 := match lo with Some l => l | None => empty_list n d0 end).
    assert (E1 : plain_list n l1 = now (option_map (plain_list n) lo)) by (unfold l1; destruct lo; [reflexivity|]; destruct n; [destruct d0|reflexivity]).
    assert (Nd : NoDup (ids (fst (now (option_map (plain_list n) lo))))).
    { rewrite <- E1. destruct n as [|m]; [destruct d0|]. unfold l1. destruct lo as [[l nx]|]; [|constructor]. cbn [plain_list fst]. change (NoDup (ids (map (fun e => (fst e, plain_item_of (plain_list m) (snd e))) l))). rewrite (mp_ids (plain_item_of (plain_list m))). apply T. }
    split; [exact Nd|]. rewrite <- E1 in F. destruct (run_list n d0 l1 op F) as (l2 & R & Pl). rewrite E1 in R, Pl.
    exists (hset key (DocModel.RMut (Some l2)) f). split.
    + cbn [list_step root_run]. unfold root_open. rewrite Hk, Hf. unfold l1 in R. destruct lo as [l|]; rewrite R; cbn [bind]; [reflexivity|]. rewrite hset_again. reflexivity.
    + split; [cbn [list_in with_members ro_default ro_sabun]; rewrite Hd, plain_hset, hget_hset_same, Pl; reflexivity|].
      intros iter. eapply (shown_root iter r _ key j d u (option_map (plain_list n) lo) _ (snd (done (CItem [] []) op (now (option_map (plain_list n) lo))))); [exact Hd|rewrite Rs, plain_get, Hf; reflexivity| | |reflexivity|].
      * destruct lo; [discriminate|]. intros _. exact T.
      * intros x Nx. destruct (now (option_map (plain_list n) lo)) as [l nx]. apply done_kept; [exact Nd|exact Nx].
      * cbn [with_members ro_sabun]. rewrite plain_hset, Rs, Pl. destruct (done _ _ _); reflexivity.
  - cbn [list_in] in Li. destruct (item_at r ((k, id) :: a)) as [s|] eqn:At; [|discriminate].
    destruct (hget key (ld_members (undef (snd s)))) as [[j [p vt|d'|d' u]]|] eqn:Hd; try discriminate Li.
    assert (Hv : d' = d /\ match hget key (ci_values (fst s)) with Some (VMil o') => o' = o | None => o = Some ([], 0) | _ => False end).
    { destruct (hget key (ci_values (fst s))) as [[p|l|o']|]; try discriminate Li; injection Li as -> ->; auto. } clear Li. destruct Hv as (-> & Hv).
    destruct (root_reach mem n def f r H _ _ _ _ At) as (i & d0 & u0 & l & Hk & Hf & R).
    set (c := CItem (hset key (VMil (Some (done (CItem [] []) op (now o)))) (ci_values (fst s))) (ci_refs (fst s))).
    assert (Q : forall m d1 it, spotted mem s m d1 it -> NoDup (ids (fst (now o))) /\ (o = None -> u = true) /\
      exists it1 d2 l1 l2, item_open it d1 key (empty_list m) = (it1, Some (d2, l1)) /\ list_run m (OnList op) d2 l1 = Ok (l2, answered op (ids (fst (now o)))) /\
        plain_item m (Item (hset key (LMil (Some l2)) (it_values it1)) (it_refs it1)) = c).
    { intros m d1 it (Pl & I & T). destruct (def_get' m _ d1 key j d u I Hd) as (d2 & Hd2 & I2). rewrite <- Pl in Hv. cbn [plain_item plain_item_of ci_values] in Hv. rewrite (hget_map (plain_value (plain_list m))) in Hv.
      destruct T as (_ & _ & T & _). unfold item_open. rewrite Hd2.
      assert (Fin : forall it1 l1, plain_list m l1 = now o -> it_refs it1 = it_refs it -> (forall v, hset key v (it_values it1) = hset key v (it_values it)) ->
        exists l2, list_run m (OnList op) d2 l1 = Ok (l2, answered op (ids (fst (now o)))) /\ plain_item m (Item (hset key (LMil (Some l2)) (it_values it1)) (it_refs it1)) = c).
      { intros it1 l1 E1 E2 E3. destruct (run_list m d2 l1 op) as (l2 & R2 & P2); [rewrite E1; exact F|]. rewrite E1 in R2, P2. exists l2. split; [exact R2|].
        rewrite E2, E3. unfold c. rewrite <- P2, <- Pl. exact (f_equal (fun z => CItem z (it_refs it)) (hset_map (plain_value (plain_list m)) key (LMil (Some l2)) (it_values it))). }
      destruct (hget key (it_values it)) as [v|] eqn:Gv; cbn [option_map] in Hv.
      - specialize (T _ _ Gv). destruct v as [q|x|lo]; cbn [plain_value] in Hv; try contradiction. cbn [typed_value] in T. destruct T as (j' & d3 & u' & Hd3 & T). rewrite Hd2 in Hd3. injection Hd3 as <- <- <-.
        destruct lo as [l1|]; cbn [option_map] in Hv; subst o.
        + split; [|split; [discriminate|]].
          * cbn [now]. destruct m as [|m]; [destruct l1|]. change (mlistT (S m)) with (mlist (item (mlistT m))) in l1. destruct l1 as [l1 nx1]. cbn [plain_list fst]. change (NoDup (ids (map (fun e => (fst e, plain_item_of (plain_list m) (snd e))) l1))). rewrite (mp_ids (plain_item_of (plain_list m))). apply T.
          * destruct (Fin it l1 eq_refl eq_refl (fun _ => eq_refl)) as (l2 & R2 & P2). exists it, d2, l1, l2. auto.
        + split; [constructor|]. split; [intros _; exact T|].
          destruct (Fin (Item (hset key (LMil (Some (empty_list m d2))) (it_values it)) (it_refs it)) (empty_list m d2)) as (l2 & R2 & P2); [destruct m; [destruct d2|reflexivity]|reflexivity|intros v; apply hset_again|].
          eexists _, d2, _, l2. split; [reflexivity|]. split; [exact R2|exact P2].
      - subst o. split; [constructor|]. split; [discriminate|].
        destruct (Fin (Item (hset key (LMil (Some (empty_list m d2))) (it_values it)) (it_refs it)) (empty_list m d2)) as (l2 & R2 & P2); [destruct m; [destruct d2|reflexivity]|reflexivity|intros v; apply hset_again|].
        eexists _, d2, _, l2. split; [reflexivity|]. split; [exact R2|exact P2]. }
    destruct (reach_some _ _ _ _ _ _ R) as (m & d1 & it & Sp). destruct (Q _ _ _ Sp) as (Nd & Ru & _). split; [exact Nd|].
    destruct (reach_list op (answered op (ids (fst (now o)))) key c n a d0 l id) as (l' & x & Rl & Xl & Pl).
    { eapply reach_mono; [|exact R]. intros m' d' it' S'. apply (Q m' d' it' S'). }
    exists (hset k (DocModel.RMut (Some l')) f). split.
    + cbn [list_step root_run]. unfold root_open. rewrite Hk, Hf, Rl. reflexivity.
    + assert (W : with_members r (hset k (DocModel.RMut (Some l')) f) = put_root r ((k, id) :: a) c).
      { destruct H as (_ & Rs & _). cbn [put_root]. rewrite Rs, plain_get, Hf. cbn [option_map]. rewrite Xl. unfold with_members. rewrite plain_hset, Pl. reflexivity. }
      rewrite W. split; [cbn [list_in]; rewrite (at_put r _ s c At); cbn [fst snd]; rewrite Hd; unfold c; cbn [ci_values]; rewrite hget_hset_same; reflexivity|].
      intros iter. unfold c. rewrite (surjective_pairing (done (CItem [] []) op (now o))) at 1.
      eapply (shown_inner iter r ((k, id) :: a) key s j d u (option_map fst o)); [exact At|exact Hd| | | |discriminate].
      * unfold spot_mil. rewrite Hd. destruct (hget key (ci_values (fst s))) as [[p|z|o']|]; try contradiction; subst o; reflexivity.
      * destruct o; [discriminate|]. intros _. apply Ru. reflexivity.
      * intros y Ny. assert (E : match option_map fst o with Some l => l | None => [] end = fst (now o)) by (destruct o; reflexivity). rewrite E. destruct (now o) as [l0 nx0]. apply done_kept; [exact Nd|exact Ny].
Qed.
End Props.
