(** Cursors stay with their items while the list changes. *)
From Coq Require Import Permutation.
From Verif Require Import Base LinkedModel LinkedSpec LinkedProofs LinkedProofs2 LinkedProofs3 LinkedProofs4 LinkedProofs5.
From Verif Require Import CursorModel CursorSpec.

Section Proofs.
Context {V : Type}.
Notation cell := (Z * (Z * V))%type.
Notation heap := (heap V).
Notation items := (list (Z * V)).
Notation astate := (@astate V).
Implicit Types (h : heap) (m : lmap) (cs : list cell).

(** ** the hash map keeps the addresses *)

Ltac bnd H := apply bind_ok in H; destruct H as (?x & ?E & H).

Lemma pull_last_map h m h' m' a : pull_last h m = Ok (h', m', a) -> m_map m' = m_map m.
Proof.
  unfold pull_last. destruct (m_last m =? 0); [intros H; apply Ok_inj in H; now injection H as _ <- _|]. intros H. bnd H.
  destruct (n_prev x =? 0); [apply Ok_inj in H; now injection H as _ <- _|]. bnd H. bnd H. apply Ok_inj in H. now injection H as _ <- _.
Qed.

Lemma pull_first_map h m h' m' a : pull_first h m = Ok (h', m', a) -> m_map m' = m_map m.
Proof.
  unfold pull_first. destruct (m_first m =? 0); [intros H; apply Ok_inj in H; now injection H as _ <- _|]. intros H. bnd H.
  destruct (n_next x =? 0); [apply Ok_inj in H; now injection H as _ <- _|]. bnd H. bnd H. apply Ok_inj in H. now injection H as _ <- _.
Qed.

Lemma pull_map h m id h' m' a : pull h m id = Ok (h', m', a) -> m_map m' = m_map m.
Proof.
  unfold pull. destruct (mget id (m_map m)) as [b|]; [|intros H; apply Ok_inj in H; now injection H as _ <- _].
  destruct (b =? m_first m); [apply pull_first_map|]. destruct (b =? m_last m); [apply pull_last_map|].
  intros H. bnd H. bnd H. bnd H. bnd H. bnd H. bnd H. apply Ok_inj in H. now injection H as _ <- _.
Qed.

Lemma put_first_map h m a h' m' : put_first h m a = Ok (h', m') -> m_map m' = m_map m.
Proof.
  unfold put_first. destruct (m_first m =? 0); [intros H; apply Ok_inj in H; now injection H as _ <-|].
  destruct (m_first m =? a); [discriminate|]. cbv zeta. intros H. bnd H. bnd H. apply Ok_inj in H. now injection H as _ <-.
Qed.

Lemma put_last_map h m a h' m' : put_last h m a = Ok (h', m') -> m_map m' = m_map m.
Proof.
  unfold put_last. destruct (m_last m =? 0); [intros H; apply Ok_inj in H; now injection H as _ <-|].
  destruct (m_last m =? a); [discriminate|]. cbv zeta. intros H. bnd H. bnd H. apply Ok_inj in H. now injection H as _ <-.
Qed.

Lemma put_next_map h m p a h' m' : put_next h m p a = Ok (h', m') -> m_map m' = m_map m.
Proof.
  unfold put_next. destruct (p =? a); [discriminate|]. destruct (m_last m =? 0); [discriminate|].
  destruct (p =? m_last m); [apply put_last_map|]. intros H. bnd H. bnd H. bnd H. bnd H. bnd H. apply Ok_inj in H. now injection H as _ <-.
Qed.

Lemma put_prev_map h m p a h' m' : put_prev h m p a = Ok (h', m') -> m_map m' = m_map m.
Proof.
  unfold put_prev. destruct (p =? a); [discriminate|]. destruct (m_first m =? 0); [discriminate|].
  destruct (p =? m_first m); [apply put_first_map|]. intros H. bnd H. bnd H. bnd H. bnd H. bnd H. apply Ok_inj in H. now injection H as _ <-.
Qed.

(** how one step changes the hash map *)
Inductive map_change (a : Z) (mp mp' : list (Z * Z)) : Prop :=
| same_map : mp' = mp -> map_change a mp mp'
| less_map k : mp' = mdel k mp -> map_change a mp mp'
| more_map k : mp' = mput k a mp -> mget k mp = None -> map_change a mp mp'.

Lemma contains_none m id : contains_key m id = false -> mget id (m_map m) = None.
Proof. unfold contains_key. now destruct (mget id (m_map m)). Qed.

Lemma put_first_next h m a h' m' : put_first h m a = Ok (h', m') -> m_next m' = m_next m.
Proof.
  unfold put_first. destruct (m_first m =? 0); [intros H; apply Ok_inj in H; now injection H as _ <-|].
  destruct (m_first m =? a); [discriminate|]. cbv zeta. intros H. bnd H. bnd H. apply Ok_inj in H. now injection H as _ <-.
Qed.

Lemma put_last_next h m a h' m' : put_last h m a = Ok (h', m') -> m_next m' = m_next m.
Proof.
  unfold put_last. destruct (m_last m =? 0); [intros H; apply Ok_inj in H; now injection H as _ <-|].
  destruct (m_last m =? a); [discriminate|]. cbv zeta. intros H. bnd H. bnd H. apply Ok_inj in H. now injection H as _ <-.
Qed.

Lemma lstep_map a h m o h' m' r : lstep a h m o = Ok (h', m', r) ->
  match o with InsertLast _ | InsertFirst _ => mget (m_next m) (m_map m) = None | _ => True end ->
  map_change a (m_map m) (m_map m').
Proof.
  intros H Hf. destruct o; cbn [lstep] in H.
  - bnd H. destruct x as [[h1 m1] id]. apply Ok_inj in H. injection H as _ <- _. unfold insert_last in E. bnd E.
    destruct x as [h2 m2]. pose proof (put_last_map _ _ _ _ _ E0) as Em. pose proof (put_last_next _ _ _ _ _ E0) as En.
    unfold map_insert in E. cbn beta iota zeta in E.
    unfold bump in E. cbn [m_next m_map m_first m_last] in E. destruct (_ <? _); [|discriminate]. apply Ok_inj in E. injection E as _ <- _. cbn [m_map].
    rewrite Em, En. eapply more_map; [reflexivity|exact Hf].
  - bnd H. destruct x as [[h1 m1] id]. apply Ok_inj in H. injection H as _ <- _. unfold insert_first in E. bnd E.
    destruct x as [h2 m2]. pose proof (put_first_map _ _ _ _ _ E0) as Em. pose proof (put_first_next _ _ _ _ _ E0) as En.
    unfold map_insert in E. cbn beta iota zeta in E.
    unfold bump in E. cbn [m_next m_map m_first m_last] in E. destruct (_ <? _); [|discriminate]. apply Ok_inj in E. injection E as _ <- _. cbn [m_map].
    rewrite Em, En. eapply more_map; [reflexivity|exact Hf].
  - bnd H. destruct x as [[h1 m1] b]. apply Ok_inj in H. injection H as _ <- _. unfold lm_remove in E. bnd E. destruct x as [[h2 m2] c].
    pose proof (pull_map _ _ _ _ _ _ E0) as Em. destruct (c =? 0); [apply Ok_inj in E; injection E as _ <- _; now apply same_map|].
    unfold map_remove in E. apply Ok_inj in E. injection E as _ <- _. cbn [m_map]. rewrite Em. eapply less_map. reflexivity.
  - bnd H. destruct x as [[h1 m1] b]. apply Ok_inj in H. injection H as _ <- _. unfold remove_first in E. bnd E. destruct x as [[h2 m2] c].
    pose proof (pull_first_map _ _ _ _ _ E0) as Em. destruct (c =? 0); [apply Ok_inj in E; injection E as _ <- _; now apply same_map|].
    bnd E. unfold map_remove in E. apply Ok_inj in E. injection E as _ <- _. cbn [m_map]. rewrite Em. eapply less_map. reflexivity.
  - bnd H. destruct x as [[h1 m1] b]. apply Ok_inj in H. injection H as _ <- _. unfold remove_last in E. bnd E. destruct x as [[h2 m2] c].
    pose proof (pull_last_map _ _ _ _ _ E0) as Em. destruct (c =? 0); [apply Ok_inj in E; injection E as _ <- _; now apply same_map|].
    bnd E. unfold map_remove in E. apply Ok_inj in E. injection E as _ <- _. cbn [m_map]. rewrite Em. eapply less_map. reflexivity.
  - bnd H. destruct x as [[h1 m1] b]. apply Ok_inj in H. injection H as _ <- _. unfold move_to_first in E. bnd E. destruct x as [[h2 m2] c].
    pose proof (pull_map _ _ _ _ _ _ E0) as Em. destruct (c =? 0); [apply Ok_inj in E; injection E as _ <- _; now apply same_map|].
    bnd E. destruct x as [h3 m3]. pose proof (put_first_map _ _ _ _ _ E1) as E2. apply Ok_inj in E. injection E as _ <- _. apply same_map. congruence.
  - bnd H. destruct x as [[h1 m1] b]. apply Ok_inj in H. injection H as _ <- _. unfold move_to_last in E. bnd E. destruct x as [[h2 m2] c].
    pose proof (pull_map _ _ _ _ _ _ E0) as Em. destruct (c =? 0); [apply Ok_inj in E; injection E as _ <- _; now apply same_map|].
    bnd E. destruct x as [h3 m3]. pose proof (put_last_map _ _ _ _ _ E1) as E2. apply Ok_inj in E. injection E as _ <- _. apply same_map. congruence.
  - bnd H. destruct x as [[h1 m1] b]. apply Ok_inj in H. injection H as _ <- _. unfold move_to_prev in E.
    destruct (id =? next_items_id); [apply Ok_inj in E; injection E as _ <- _; now apply same_map|].
    destruct (mget next_items_id (m_map m)) as [nx|]; [|apply Ok_inj in E; injection E as _ <- _; now apply same_map].
    bnd E. destruct x as [[h2 m2] c].
    pose proof (pull_map _ _ _ _ _ _ E0) as Em. destruct (c =? 0); [apply Ok_inj in E; injection E as _ <- _; now apply same_map|].
    bnd E. destruct x as [h3 m3]. pose proof (put_prev_map _ _ _ _ _ _ E1) as E2. apply Ok_inj in E. injection E as _ <- _. apply same_map. congruence.
  - bnd H. destruct x as [[h1 m1] b]. apply Ok_inj in H. injection H as _ <- _. unfold move_to_next in E.
    destruct (id =? prev_items_id); [apply Ok_inj in E; injection E as _ <- _; now apply same_map|].
    destruct (mget prev_items_id (m_map m)) as [nx|]; [|apply Ok_inj in E; injection E as _ <- _; now apply same_map].
    bnd E. destruct x as [[h2 m2] c].
    pose proof (pull_map _ _ _ _ _ _ E0) as Em. destruct (c =? 0); [apply Ok_inj in E; injection E as _ <- _; now apply same_map|].
    bnd E. destruct x as [h3 m3]. pose proof (put_next_map _ _ _ _ _ _ E1) as E2. apply Ok_inj in E. injection E as _ <- _. apply same_map. congruence.
  - bnd H. destruct x as [h1 b]. apply Ok_inj in H. injection H as _ <- _. now apply same_map.
  - bnd H. destruct x as [[h1 m1] b]. apply Ok_inj in H. injection H as _ <- _. unfold insert_first_with_id in E.
    destruct (contains_key m id) eqn:Ec; [apply Ok_inj in E; injection E as _ <- _; now apply same_map|].
    bnd E. destruct x as [h2 m2]. pose proof (put_first_map _ _ _ _ _ E0) as Em. unfold map_insert in E. apply Ok_inj in E. injection E as _ <- _. cbn [m_map].
    rewrite Em. eapply more_map; [reflexivity|now apply contains_none].
  - bnd H. destruct x as [[h1 m1] b]. apply Ok_inj in H. injection H as _ <- _. unfold insert_last_with_id in E.
    destruct (contains_key m id) eqn:Ec; [apply Ok_inj in E; injection E as _ <- _; now apply same_map|].
    bnd E. destruct x as [h2 m2]. pose proof (put_last_map _ _ _ _ _ E0) as Em. unfold map_insert in E. apply Ok_inj in E. injection E as _ <- _. cbn [m_map].
    rewrite Em. eapply more_map; [reflexivity|now apply contains_none].
  - bnd H. destruct x as [h1 m1]. apply Ok_inj in H. injection H as _ <- _. unfold insert_first_with_id_unchecked in E.
    bnd E. destruct x as [h2 m2]. pose proof (put_first_map _ _ _ _ _ E0) as Em. destruct (contains_key m2 id) eqn:Ec; [discriminate|].
    unfold map_insert in E. apply Ok_inj in E. injection E as _ <-. cbn [m_map].
    rewrite Em. eapply more_map; [reflexivity|rewrite <- Em; now apply contains_none].
  - bnd H. destruct x as [h1 m1]. apply Ok_inj in H. injection H as _ <- _. unfold insert_last_with_id_unchecked in E.
    bnd E. destruct x as [h2 m2]. pose proof (put_last_map _ _ _ _ _ E0) as Em. destruct (contains_key m2 id) eqn:Ec; [discriminate|].
    unfold map_insert in E. apply Ok_inj in E. injection E as _ <-. cbn [m_map].
    rewrite Em. eapply more_map; [reflexivity|rewrite <- Em; now apply contains_none].
  - apply Ok_inj in H. injection H as _ <- _. now apply same_map.
Qed.

Lemma mget_mdel id k (l : list (Z * Z)) : mget id (mdel k l) = if id =? k then None else mget id l.
Proof.
  induction l as [|[x a] l IH]; cbn [mdel filter mget fst]; [now destruct (id =? k)|].
  destruct (Z.eqb_spec x k) as [->|Hn]; cbn [negb].
  - fold (mdel k l). rewrite IH. destruct (Z.eqb_spec id k) as [->|Hk]; [reflexivity|]. reflexivity.
  - cbn [mget]. fold (mdel k l). rewrite IH. destruct (Z.eqb_spec id x) as [->|Hx]; [|reflexivity]. destruct (Z.eqb_spec x k); [congruence|reflexivity].
Qed.

(** the address of an item that is in the list before and after a change *)
Lemma address_kept a mp mp' id c : map_change a mp mp' -> mget id mp = Some c -> mget id mp' <> None -> mget id mp' = Some c.
Proof.
  intros [->|k ->|k -> Hn] H Hs.
  - exact H.
  - rewrite mget_mdel in *. destruct (id =? k); [congruence|exact H].
  - unfold mput. cbn [mget]. destruct (Z.eqb_spec id k) as [->|Hk]; [congruence|]. rewrite mget_mdel.
    destruct (Z.eqb_spec id k); [congruence|exact H].
Qed.

(** ** the invariant *)

Definition at_addr m (z : Z) (d : acur) : Prop :=
  match d with On id => mget id (m_map m) = Some z | Nowhere => z = 0 | Lost => True end.

Lemma has_mget h m cs id : Rep h m cs -> has id (map snd cs) = true <-> mget id (m_map m) <> None.
Proof.
  intros HR. destruct (rep_split _ _ _ id HR) as [(E & Hn)|(l1 & b & v & l2 & -> & E)]; rewrite E.
  - apply has_not in Hn. rewrite Hn. split; [discriminate|congruence].
  - split; [discriminate|]. intros _. apply has_in. rewrite snd_mid, ids_app. cbn [snd ids map fst]. apply in_or_app. right. now left.
Qed.

Lemma at_split h m cs z id : Rep h m cs -> mget id (m_map m) = Some z ->
  exists l1 v l2, cs = l1 ++ (z, (id, v)) :: l2.
Proof.
  intros HR Hz. destruct (rep_split _ _ _ id HR) as [(E & Hn)|(l1 & b & v & l2 & -> & E)]; [congruence|].
  exists l1, v, l2. congruence.
Qed.

Lemma op_free h m cs o : Rep h m cs -> op_ok (map snd cs, m_next m) o ->
  match o with InsertLast _ | InsertFirst _ => mget (m_next m) (m_map m) = None | _ => True end.
Proof.
  intros HR Ho. assert (Hx : ~ In (m_next m) (ids (map snd cs)) -> mget (m_next m) (m_map m) = None).
  { intros Hn. rewrite (rep_get _ _ _ HR). apply mget_none. now rewrite entries_keys. }
  destruct o; auto; apply Hx; exact (proj1 Ho).
Qed.

Lemma change_at h m cs a o h' m' cs' r zs ds : Rep h m cs -> Rep h' m' cs' -> op_ok (map snd cs, m_next m) o ->
  lstep a h m o = Ok (h', m', r) -> Forall2 (at_addr m) zs ds -> Forall2 (at_addr m') zs (map (kept (map snd cs')) ds).
Proof.
  intros HR HR' Ho E H. pose proof (lstep_map _ _ _ _ _ _ _ E (op_free _ _ _ _ HR Ho)) as Hc.
  induction H as [|z d zs ds Hz _ IH]; cbn [map]; [constructor|]. constructor; [|exact IH].
  destruct d as [id| |]; cbn [kept]; auto. destruct (has id (map snd cs')) eqn:Eh; cbn [at_addr]; auto.
  apply (has_mget _ _ _ _ HR') in Eh. now apply (address_kept _ _ _ _ _ Hc Hz).
Qed.

(** ** positions *)

Lemma start_at h m (l1 l2 : list cell) : Rep h m (l1 ++ l2) -> at_addr m (hd_addr l2 0) (start (map snd l2)).
Proof.
  intros HR. destruct l2 as [|[b [k v]] l2]; [reflexivity|]. cbn [hd_addr fst map snd start at_addr].
  destruct (points_cell _ _ _ _ _ _ _ HR) as (_ & Hp & _). exact Hp.
Qed.

Lemma end_at h m (l1 l2 : list cell) : Rep h m (l1 ++ l2) -> at_addr m (last_addr l1 0) (start (rev (map snd l1))).
Proof.
  intros HR. destruct (snoc_case l1) as [->|(l & [b [k v]] & ->)]; [reflexivity|].
  rewrite last_addr_snoc, map_app, rev_app_distr. cbn [fst map snd rev app start at_addr].
  rewrite <- app_assoc in HR. destruct (points_cell _ _ _ _ _ _ _ HR) as (_ & Hp & _). exact Hp.
Qed.

Lemma behind_mid id v (l1 l2 : items) : ~ In id (ids l1) -> behind id (l1 ++ (id, v) :: l2) = start l2.
Proof.
  induction l1 as [|[k w] l1 IH]; intros Hn; cbn [app behind].
  - now rewrite Z.eqb_refl.
  - cbn [ids map fst In] in Hn. destruct (Z.eqb_spec k id) as [->|Hk]; [tauto|]. apply IH. tauto.
Qed.

Lemma behind_rev id v (l1 l2 : items) : ~ In id (ids l2) -> behind id (rev (l1 ++ (id, v) :: l2)) = start (rev l1).
Proof.
  intros Hn. rewrite rev_app_distr. cbn [rev]. rewrite <- app_assoc. cbn [app]. apply behind_mid.
  unfold ids in *. rewrite map_rev. intros H. now apply in_rev in H.
Qed.

Lemma ids_parts h m (l1 l2 : list cell) z id v : Rep h m (l1 ++ (z, (id, v)) :: l2) ->
  ~ In id (ids (map snd l1)) /\ ~ In id (ids (map snd l2)).
Proof.
  intros HR. pose proof (r_ids _ _ _ HR) as Hn. rewrite snd_mid in Hn. cbn [snd] in Hn.
  pose proof (ids_mid _ _ _ _ Hn) as Hp. tauto.
Qed.

Lemma stands_mid h m (l1 l2 : list cell) z id v : Rep h m (l1 ++ (z, (id, v)) :: l2) ->
  stands (map snd (l1 ++ (z, (id, v)) :: l2)) (On id) = Some (Some (id, v)).
Proof.
  intros HR. cbn [stands]. rewrite snd_mid. cbn [snd]. rewrite lookup_mid; [reflexivity|].
  apply (ids_parts _ _ _ _ _ _ _ HR).
Qed.

Lemma nth_at m zs ds i d : Forall2 (at_addr m) zs ds -> nth_error ds i = Some d ->
  exists z, nth_error zs i = Some z /\ at_addr m z d.
Proof.
  intros H. revert i. induction H as [|z d' zs ds Hz _ IH]; intros [|i] E; try discriminate.
  - injection E as <-. exists z. auto.
  - now apply IH.
Qed.

Lemma lset_at m zs ds i z d : Forall2 (at_addr m) zs ds -> at_addr m z d -> Forall2 (at_addr m) (lset i z zs) (lset i d ds).
Proof.
  intros H Hz. revert i. induction H as [|z' d' zs ds Hz' H IH]; intros [|i]; cbn [lset]; constructor; auto.
Qed.

(** ** one step *)

Lemma cstep_ok h m cs zs ds a o : Rep h m cs -> Forall2 (at_addr m) zs ds -> cop_ok (map snd cs, m_next m) ds o ->
  match cstep a h m zs o with
  | Ok (h', m', zs', x) => exists cs' ds', Rep h' m' cs' /\ acstep (map snd cs, m_next m) ds o = (map snd cs', m_next m', ds', x) /\
                             Forall2 (at_addr m') zs' ds'
  | Err => match o with CChange _ => addresses_ok h [a] = false | _ => False end
  | Panic => False
  end.
Proof.
  intros HR HF Ho. pose proof (r_dl _ _ _ HR) as HD. destruct o as [o|p|i|i|i|i|i|i]; cbn [cstep cop_ok acstep fst] in *.
  - destruct (addresses_ok h [a]) eqn:Ea; cbn [negb]; [|reflexivity].
    apply addresses_fresh in Ea as (_ & H0 & Hf).
    destruct (step_ok h m cs a o HR) as (h' & m' & cs' & r & E & HR' & Es & _); [intros ->; apply H0; now left|apply Hf; now left|exact Ho|].
    rewrite E, Es. cbn [bind]. exists cs', (map (kept (map snd cs')) ds). split; [exact HR'|]. split; [reflexivity|].
    exact (change_at _ _ _ _ _ _ _ _ _ _ _ HR HR' Ho E HF).
  - destruct p as [| |id]; cbn [open_at made].
    + exists cs, (ds ++ [start (map snd cs)]). split; [exact HR|]. split; [reflexivity|]. apply Forall2_app; [exact HF|].
      constructor; [|constructor]. unfold iter. rewrite (d_first _ _ _ HD). now apply (start_at h m [] cs).
    + exists cs, (ds ++ [start (rev (map snd cs))]). split; [exact HR|]. split; [reflexivity|]. apply Forall2_app; [exact HF|].
      constructor; [|constructor]. unfold iter_from_last. rewrite (d_last _ _ _ HD). apply (end_at h m cs []). now rewrite app_nil_r.
    + unfold iter_from_id. destruct (mget id (m_map m)) as [c|] eqn:E.
      * assert (Hh : has id (map snd cs) = true) by (apply (has_mget _ _ _ _ HR); congruence). rewrite Hh.
        exists cs, (ds ++ [On id]). split; [exact HR|]. split; [reflexivity|]. apply Forall2_app; [exact HF|]. constructor; [exact E|constructor].
      * assert (Hh : has id (map snd cs) = false). { destruct (has id (map snd cs)) eqn:Eh; [|reflexivity]. apply (has_mget _ _ _ _ HR) in Eh. congruence. }
        rewrite Hh. exists cs, ds. auto.
  - destruct Ho as (d & x & Ed & Hx). cbn [fst] in Hx. destruct (nth_at _ _ _ _ _ HF Ed) as (z & Ez & Hz). rewrite Ez. cbn [unwrap bind].
    unfold the_item, the_cursor. rewrite Ed, Hx. destruct d as [id| |]; cbn [at_addr onto] in *; [| |discriminate].
    + destruct (at_split _ _ _ _ _ HR Hz) as (l1 & v & l2 & ->). rewrite (cur_next_at _ _ _ _ _ _ _ HD). cbn [bind].
      rewrite (stands_mid _ _ _ _ _ _ _ HR) in Hx. injection Hx as <-.
      eexists; eexists. split; [exact HR|]. split; [reflexivity|]. apply lset_at; [exact HF|].
      rewrite snd_mid. cbn [snd]. rewrite behind_mid by apply (ids_parts _ _ _ _ _ _ _ HR).
      apply (start_at h m (l1 ++ [(z, (id, v))]) l2). now rewrite <- app_assoc.
    + subst z. injection Hx as <-. unfold cur_next. rewrite Z.eqb_refl. cbn [bind].
      eexists; eexists. split; [exact HR|]. split; [reflexivity|]. now apply lset_at.
  - destruct Ho as (d & x & Ed & Hx). cbn [fst] in Hx. destruct (nth_at _ _ _ _ _ HF Ed) as (z & Ez & Hz). rewrite Ez. cbn [unwrap bind].
    unfold the_item, the_cursor. rewrite Ed, Hx. destruct d as [id| |]; cbn [at_addr onto] in *; [| |discriminate].
    + destruct (at_split _ _ _ _ _ HR Hz) as (l1 & v & l2 & ->). rewrite (cur_prev_at _ _ _ _ _ _ _ HD). cbn [bind].
      rewrite (stands_mid _ _ _ _ _ _ _ HR) in Hx. injection Hx as <-.
      eexists; eexists. split; [exact HR|]. split; [reflexivity|]. apply lset_at; [exact HF|].
      rewrite snd_mid. cbn [snd]. rewrite behind_rev by apply (ids_parts _ _ _ _ _ _ _ HR).
      now apply (end_at h m l1 ((z, (id, v)) :: l2)).
    + subst z. injection Hx as <-. unfold cur_prev. rewrite Z.eqb_refl. cbn [bind].
      eexists; eexists. split; [exact HR|]. split; [reflexivity|]. now apply lset_at.
  - destruct Ho as (d & x & Ed & Hx). cbn [fst] in Hx. destruct (nth_at _ _ _ _ _ HF Ed) as (z & Ez & Hz). rewrite Ez. cbn [unwrap bind].
    unfold the_item, the_cursor. rewrite Ed, Hx. destruct d as [id| |]; cbn [at_addr onto] in *; [| |discriminate].
    + destruct (at_split _ _ _ _ _ HR Hz) as (l1 & v & l2 & ->). rewrite (cur_current_at _ _ _ _ _ _ _ HD). cbn [bind].
      rewrite (stands_mid _ _ _ _ _ _ _ HR) in Hx. injection Hx as <-. eexists; eexists. split; [exact HR|]. split; [reflexivity|exact HF].
    + subst z. injection Hx as <-. cbn [cur_current bind]. unfold cur_current. rewrite Z.eqb_refl. cbn [bind].
      eexists; eexists. split; [exact HR|]. split; [reflexivity|exact HF].
  - destruct Ho as (d & x & Ed & Hx). cbn [fst] in Hx. destruct (nth_at _ _ _ _ _ HF Ed) as (z & Ez & Hz). rewrite Ez. cbn [unwrap bind].
    unfold the_item, the_cursor. rewrite Ed, Hx. destruct d as [id| |]; cbn [at_addr onto] in *; [| |discriminate].
    + destruct (at_split _ _ _ _ _ HR Hz) as (l1 & v & l2 & ->).
      rewrite (stands_mid _ _ _ _ _ _ _ HR) in Hx. injection Hx as <-. eexists; eexists. split; [exact HR|]. split; [|exact HF].
      destruct (points_cell _ _ _ _ _ _ _ HR) as (_ & _ & ->). reflexivity.
    + subst z. injection Hx as <-. eexists; eexists. split; [exact HR|]. split; [reflexivity|exact HF].
  - destruct Ho as (d & x & Ed & Hx). cbn [fst] in Hx. destruct (nth_at _ _ _ _ _ HF Ed) as (z & Ez & Hz). rewrite Ez. cbn [unwrap bind].
    unfold the_cursor. rewrite Ed. destruct d as [id| |]; cbn [at_addr onto] in *; [| |discriminate].
    + destruct (at_split _ _ _ _ _ HR Hz) as (l1 & v & l2 & ->). rewrite (is_first_at _ _ _ _ _ _ _ HR). cbn [bind].
      eexists; eexists. split; [exact HR|]. split; [|exact HF]. destruct l1 as [|[b [k w]] l1]; cbn [app map snd start is_on nil_b].
      * now rewrite Z.eqb_refl.
      * pose proof (proj1 (ids_parts _ _ _ _ _ _ _ HR)) as Hn. cbn [map snd ids fst In] in Hn.
        destruct (Z.eqb_spec id k) as [->|Hk]; [tauto|reflexivity].
    + subst z. cbn [cur_is_first]. unfold cur_is_first. rewrite Z.eqb_refl. cbn [bind is_on]. eexists; eexists. split; [exact HR|]. split; [reflexivity|exact HF].
  - destruct Ho as (d & x & Ed & Hx). cbn [fst] in Hx. destruct (nth_at _ _ _ _ _ HF Ed) as (z & Ez & Hz). rewrite Ez. cbn [unwrap bind].
    unfold the_cursor. rewrite Ed. destruct d as [id| |]; cbn [at_addr onto] in *; [| |discriminate].
    + destruct (at_split _ _ _ _ _ HR Hz) as (l1 & v & l2 & ->). rewrite (is_last_at _ _ _ _ _ _ _ HR). cbn [bind].
      eexists; eexists. split; [exact HR|]. split; [|exact HF].
      destruct (snoc_case l2) as [->|(l & [b [k w]] & ->)].
      * rewrite map_app, rev_app_distr. cbn [map snd rev app start is_on nil_b]. now rewrite Z.eqb_refl.
      * pose proof (proj2 (ids_parts _ _ _ _ _ _ _ HR)) as Hn. rewrite map_app, ids_app, in_app_iff in Hn. cbn [map snd ids fst In] in Hn.
        change (l1 ++ (z, (id, v)) :: l ++ [(b, (k, w))]) with (l1 ++ ((z, (id, v)) :: l) ++ [(b, (k, w))]).
        rewrite app_assoc, map_app, rev_app_distr. cbn [map snd rev app start is_on].
        destruct (Z.eqb_spec id k) as [->|Hk]; [tauto|]. now destruct l.
    + subst z. unfold cur_is_last. rewrite Z.eqb_refl. cbn [bind is_on]. eexists; eexists. split; [exact HR|]. split; [reflexivity|exact HF].
Qed.

(** ** programs *)

Lemma crun_ok : forall prog h m cs zs ds, Rep h m cs -> Forall2 (at_addr m) zs ds -> careful (map snd cs, m_next m) ds (map snd prog) ->
  match crun h m zs prog with
  | Ok (h', m', zs', xs) => exists cs' ds', Rep h' m' cs' /\ acrun (map snd cs, m_next m) ds (map snd prog) = (map snd cs', m_next m', ds', xs) /\
                             Forall2 (at_addr m') zs' ds'
  | Err => True
  | Panic => False
  end.
Proof.
  induction prog as [|[a o] prog IH]; intros h m cs zs ds HR HF Hc; cbn [crun map snd careful acrun] in *.
  - exists cs, ds. auto.
  - destruct Hc as [Ho Hc]. pose proof (cstep_ok h m cs zs ds a o HR HF Ho) as H1.
    destruct (cstep a h m zs o) as [[[[h1 m1] zs1] x]| |]; cbn [bind]; [|exact Logic.I|exact H1].
    destruct H1 as (cs1 & ds1 & HR1 & E1 & HF1). rewrite E1 in *. specialize (IH h1 m1 cs1 zs1 ds1 HR1 HF1 Hc).
    destruct (crun h1 m1 zs1 prog) as [[[[h2 m2] zs2] xs]| |]; cbn [bind]; [|exact Logic.I|exact IH].
    destruct IH as (cs2 & ds2 & HR2 & E2 & HF2). rewrite E2. exists cs2, ds2. auto.
Qed.

Lemma at_stays h m cs z d : Rep h m cs -> at_addr m z d -> stays h m (map snd cs) z d.
Proof.
  intros HR Hz. destruct d as [id| |]; cbn [at_addr stays] in *; auto.
  - destruct (at_split _ _ _ _ _ HR Hz) as (l1 & v & l2 & ->). exists v. split; [|now apply (points_cell h m l1 z id v l2)].
    rewrite snd_mid. cbn [snd]. apply lookup_mid. apply (ids_parts _ _ _ _ _ _ _ HR).
  - subst z. split; reflexivity.
Qed.

Lemma cursors_ok h m (l : items) n prog : reachable h m l n -> careful (l, n) [] (map snd prog) ->
  match crun h m [] prog with
  | Ok (h', m', zs, xs) => exists l' n' ds, acrun (l, n) [] (map snd prog) = (l', n', ds, xs) /\
                             shows h' m' l' n' /\ Forall2 (stays h' m' l') zs ds
  | Err => True
  | Panic => False
  end.
Proof.
  intros Hr Hc. destruct (reach_rep _ _ _ _ Hr) as (cs & HR & -> & ->).
  pose proof (crun_ok prog h m cs [] [] HR (Forall2_nil _) Hc) as H.
  destruct (crun h m [] prog) as [[[[h' m'] zs] xs]| |]; auto. destruct H as (cs' & ds & HR' & E & HF).
  exists (map snd cs'), (m_next m'), ds. split; [exact E|]. split; [now apply rep_shows|].
  clear E Hc. induction HF as [|z d zs ds Hz _ IH]; constructor; [now apply at_stays|exact IH].
Qed.

(** ** removing while going through the list *)

Lemma remove_at h m (l1 l2 : list cell) z id v : Rep h m (l1 ++ (z, (id, v)) :: l2) ->
  exists h' m', lm_remove h m id = Ok (h', m', true) /\ Rep h' m' (l1 ++ l2) /\ m_next m' = m_next m /\ h' z = None.
Proof.
  intros HR. destruct (pull_present _ _ _ _ _ _ _ HR) as (h' & m' & E & HD & Hb & Hm & Hn & Hg & Hf).
  destruct (rep_mid _ _ _ _ _ _ _ HR) as (_ & _ & Hb0 & _).
  destruct (finish_remove _ _ _ _ _ _ _ _ _ 0 HR HD Hm Hg Hf) as (h2 & m2 & E2 & HR2 & Hn2 & _).
  exists h2, m2. unfold lm_remove. rewrite E. cbn [bind]. destruct (Z.eqb_spec z 0); [congruence|].
  rewrite E2. split; [reflexivity|]. split; [exact HR2|]. split; [congruence|].
  unfold map_remove in E2. injection E2 as <- _. rewrite Hm, Hg. cbn [drop_box]. apply upd_same.
Qed.

Definition spared (p : Z -> V -> bool) (x : Z * V) : bool := negb (p (fst x) (snd x)).

Lemma sweep_at p : forall l2 l1 h m fuel, Rep h m (l1 ++ l2) -> (length l2 < fuel)%nat ->
  exists h' m' cs', sweep p fuel h m (hd_addr l2 0) = Ok (h', m', map snd l2) /\ Rep h' m' cs' /\
    map snd cs' = map snd l1 ++ filter (spared p) (map snd l2) /\ m_next m' = m_next m.
Proof.
  induction l2 as [|[z [id v]] l2 IH]; intros l1 h m fuel HR Hl; destruct fuel as [|fuel]; cbn [length] in Hl; try lia; cbn [hd_addr sweep fst].
  - unfold cur_next. rewrite Z.eqb_refl. cbn [bind]. exists h, m, (l1 ++ []). split; [reflexivity|]. split; [exact HR|].
    split; [now rewrite map_app|reflexivity].
  - rewrite (cur_next_at _ _ _ _ _ _ _ (r_dl _ _ _ HR)). cbn [bind]. destruct (p id v) eqn:Ep.
    + destruct (remove_at _ _ _ _ _ _ _ HR) as (h1 & m1 & E1 & HR1 & Hn1 & _). rewrite E1. cbn [bind].
      destruct (IH l1 h1 m1 fuel HR1 ltac:(lia)) as (h2 & m2 & cs2 & E2 & HR2 & Es & Hn2). rewrite E2. cbn [bind].
      exists h2, m2, cs2. split; [reflexivity|]. split; [exact HR2|]. split; [|congruence].
      rewrite Es. cbn [map snd filter]. unfold spared at 2. cbn [fst snd]. now rewrite Ep.
    + cbn [bind]. assert (HR1 : Rep h m ((l1 ++ [(z, (id, v))]) ++ l2)) by now rewrite <- app_assoc.
      destruct (IH _ h m fuel HR1 ltac:(lia)) as (h2 & m2 & cs2 & E2 & HR2 & Es & Hn2). rewrite E2. cbn [bind].
      exists h2, m2, cs2. split; [reflexivity|]. split; [exact HR2|]. split; [|exact Hn2].
      rewrite Es, map_app. cbn [map snd filter]. unfold spared at 2. cbn [fst snd]. rewrite Ep. cbn [negb]. now rewrite <- app_assoc.
Qed.

Lemma sweep_back_at p : forall l1 l2 h m fuel, Rep h m (l1 ++ l2) -> (length l1 < fuel)%nat ->
  exists h' m' cs', sweep_back p fuel h m (last_addr l1 0) = Ok (h', m', rev (map snd l1)) /\ Rep h' m' cs' /\
    map snd cs' = filter (spared p) (map snd l1) ++ map snd l2 /\ m_next m' = m_next m.
Proof.
  induction l1 as [|[z [id v]] l1 IH] using rev_ind; intros l2 h m fuel HR Hl;
    [|rewrite app_length in Hl]; destruct fuel as [|fuel]; cbn [length] in Hl; try lia; cbn [sweep_back].
  - cbn [last_addr rev]. unfold last_addr, cur_prev. cbn [rev]. rewrite Z.eqb_refl. cbn [bind]. exists h, m, l2. auto.
  - rewrite last_addr_snoc. cbn [fst]. rewrite <- app_assoc in HR. cbn [app] in HR.
    rewrite (cur_prev_at _ _ _ _ _ _ _ (r_dl _ _ _ HR)). cbn [bind].
    rewrite map_app, rev_app_distr, filter_app. cbn [map snd rev app filter]. unfold spared at 2. cbn [fst snd]. destruct (p id v) eqn:Ep.
    + destruct (remove_at _ _ _ _ _ _ _ HR) as (h1 & m1 & E1 & HR1 & Hn1 & _). rewrite E1. cbn [bind negb].
      destruct (IH l2 h1 m1 fuel HR1 ltac:(lia)) as (h2 & m2 & cs2 & E2 & HR2 & Es & Hn2). rewrite E2. cbn [bind].
      exists h2, m2, cs2. split; [reflexivity|]. split; [exact HR2|]. split; [|congruence]. now rewrite app_nil_r.
    + cbn [bind negb]. destruct (IH _ h m fuel HR ltac:(lia)) as (h2 & m2 & cs2 & E2 & HR2 & Es & Hn2). rewrite E2. cbn [bind].
      exists h2, m2, cs2. split; [reflexivity|]. split; [exact HR2|]. split; [|exact Hn2].
      rewrite Es. cbn [map snd]. now rewrite <- app_assoc.
Qed.

Lemma sweep_ok p h m (l : items) n : reachable h m l n ->
  exists h' m', sweep p (S (length l)) h m (iter m) = Ok (h', m', l) /\
    shows h' m' (filter (fun x => negb (p (fst x) (snd x))) l) n.
Proof.
  intros Hr. destruct (reach_rep _ _ _ _ Hr) as (cs & HR & -> & ->). unfold iter. rewrite (d_first _ _ _ (r_dl _ _ _ HR)).
  rewrite map_length. destruct (sweep_at p cs [] h m (S (length cs)) HR ltac:(lia)) as (h' & m' & cs' & E & HR' & Es & En).
  exists h', m'. split; [exact E|]. cbn [map app] in Es. pose proof (rep_shows _ _ _ HR') as H. rewrite Es, En in H. exact H.
Qed.

Lemma sweep_back_ok p h m (l : items) n : reachable h m l n ->
  exists h' m', sweep_back p (S (length l)) h m (iter_from_last m) = Ok (h', m', rev l) /\
    shows h' m' (filter (fun x => negb (p (fst x) (snd x))) l) n.
Proof.
  intros Hr. destruct (reach_rep _ _ _ _ Hr) as (cs & HR & -> & ->). unfold iter_from_last. rewrite (d_last _ _ _ (r_dl _ _ _ HR)).
  rewrite map_length. assert (HR0 : Rep h m (cs ++ [])) by now rewrite app_nil_r.
  destruct (sweep_back_at p cs [] h m (S (length cs)) HR0 ltac:(lia)) as (h' & m' & cs' & E & HR' & Es & En).
  exists h', m'. split; [exact E|]. cbn [map] in Es. rewrite app_nil_r in Es. pose proof (rep_shows _ _ _ HR') as H. rewrite Es, En in H. exact H.
Qed.

(** ** a cursor whose item is removed *)

Lemma removed_ok h m (l : items) n c id v : reachable h m l n -> points h m c (Some (id, v)) ->
  exists h' m', lm_remove h m id = Ok (h', m', true) /\ shows h' m' (without id l) n /\
    cur_next h' m' c = Panic /\ cur_prev h' m' c = Panic /\ cur_current h' c = Panic /\
    cur_is_first h' m' c = Panic /\ cur_is_last h' m' c = Panic.
Proof.
  intros Hr (_ & Hp & _). destruct (reach_rep _ _ _ _ Hr) as (cs & HR & -> & ->).
  destruct (at_split _ _ _ _ _ HR Hp) as (l1 & w & l2 & ->). destruct (rep_mid _ _ _ _ _ _ _ HR) as (Hi1 & Hi2 & Hc & _).
  destruct (remove_at _ _ _ _ _ _ _ HR) as (h' & m' & E & HR' & Hn & H0). exists h', m'. split; [exact E|].
  split. { pose proof (rep_shows _ _ _ HR') as H. rewrite Hn in H. rewrite snd_mid. cbn [snd].
    destruct (ids_parts _ _ _ _ _ _ _ HR) as [P1 P2]. rewrite without_mid by assumption. now rewrite <- map_app. }
  assert (Ed : deref h' c = Panic). { unfold deref. destruct (Z.eqb_spec c 0); [congruence|]. now rewrite H0. }
  unfold cur_next, cur_prev, cur_current, cur_is_first, cur_is_last, get_next, get_prev. rewrite Ed.
  destruct (Z.eqb_spec c 0); [congruence|].
  split; [now destruct (c =? m_last m')|]. split; [now destruct (c =? m_first m')|]. auto.
Qed.

(** ** addresses always exist *)

Lemma bound_run : forall prog h ms ss css b, WInv h ms ss css -> prog_ok ss (map snd prog) -> (forall x, b <= x -> h x = None) ->
  forall h' ms' rs, wrun h ms prog = Ok (h', ms', rs) -> exists b', b <= b' /\ forall x, b' <= x -> h' x = None.
Proof.
  induction prog as [|[al o] prog IH]; intros h ms ss css b HW Hok Hb h' ms' rs E.
  - apply Ok_inj in E. injection E as <- _ _. exists b. split; [lia|exact Hb].
  - cbn [wrun map snd prog_ok] in *. destruct Hok as [H1 H2]. pose proof (w_step h ms ss css al o HW H1) as Hs.
    destruct (wstep al h ms o) as [[[h1 ms1] r]| |]; cbn [bind] in E; [|discriminate|discriminate].
    destruct Hs as (ss1 & css1 & Ea & HW1 & Hq). apply bind_ok in E as ([[h2 ms2] rs2] & E2 & E). apply Ok_inj in E. injection E as <- _ _.
    assert (Hal : exists b1, b <= b1 /\ forall a, In a al -> a < b1).
    { clear. induction al as [|a al (b1 & B1 & B2)]; [exists b; split; [lia|intros ? []]|].
      exists (Z.max b1 (a + 1)). split; [lia|]. intros x [<-|Hx]; [lia|]. specialize (B2 x Hx). lia. }
    destruct Hal as (b1 & B1 & B2).
    destruct (IH h1 ms1 ss1 css1 b1 HW1 (H2 _ _ Ea)) with (h' := h2) (ms' := ms2) (rs := rs2) as (b' & B3 & B4); [|exact E2|].
    + intros x Hx. apply Hq; [apply Hb; lia|]. intros Hin. specialize (B2 x Hin). lia.
    + exists b'. split; [lia|exact B4].
Qed.

Lemma reach_bound h m (l : items) n : reachable h m l n -> exists b, 0 < b /\ forall x, b <= x -> h x = None.
Proof.
  intros (prog & ms & rets & ss & rets' & i & Hok & Hrun & _).
  destruct (bound_run prog no_heap [] [] _ 1 w_init Hok) with (h' := h) (ms' := ms) (rs := rets) as (b & B1 & B2); [reflexivity|exact Hrun|].
  exists b. split; [lia|exact B2].
Qed.

Lemma crun_exists : forall ops h m cs zs ds b, Rep h m cs -> Forall2 (at_addr m) zs ds -> careful (map snd cs, m_next m) ds ops ->
  0 < b -> (forall x, b <= x -> h x = None) -> exists prog r, map snd prog = ops /\ crun h m zs prog = Ok r.
Proof.
  induction ops as [|o ops IH]; intros h m cs zs ds b HR HF Hc Hb0 Hb.
  - exists [], (h, m, zs, []). auto.
  - cbn [careful] in Hc. destruct Hc as [Ho Hc]. pose proof (cstep_ok h m cs zs ds b o HR HF Ho) as H1.
    assert (Ea : addresses_ok h [b] = true).
    { cbn [addresses_ok existsb negb andb]. rewrite (Hb b) by lia. destruct (Z.eqb_spec b 0); [lia|reflexivity]. }
    assert (Hq : forall h1 m1 zs1 x1, cstep b h m zs o = Ok (h1, m1, zs1, x1) -> forall x, b + 1 <= x -> h1 x = None).
    { intros h1 m1 zs1 x1 E x Hx. destruct o as [o|p|i|i|i|i|i|i]; cbn [cstep] in E.
      - rewrite Ea in E. cbn [negb] in E. destruct (step_ok h m cs b o HR) as (h' & m' & cs' & r & E1 & _ & _ & (Hf & _));
          [lia|apply Hb; lia|exact Ho|]. rewrite E1 in E. cbn [bind] in E. apply Ok_inj in E. injection E as <- _ _ _.
        rewrite Hf; [apply Hb; lia| |lia]. apply (rep_fresh _ _ _ _ HR). apply Hb. lia.
      - destruct (open_at m p); apply Ok_inj in E; injection E as <- _ _ _; apply Hb; lia.
      - apply bind_ok in E as (c & _ & E). apply bind_ok in E as ([y c'] & _ & E). apply Ok_inj in E. injection E as <- _ _ _. apply Hb; lia.
      - apply bind_ok in E as (c & _ & E). apply bind_ok in E as ([y c'] & _ & E). apply Ok_inj in E. injection E as <- _ _ _. apply Hb; lia.
      - apply bind_ok in E as (c & _ & E). apply bind_ok in E as (y & _ & E). apply Ok_inj in E. injection E as <- _ _ _. apply Hb; lia.
      - apply bind_ok in E as (c & _ & E). apply Ok_inj in E. injection E as <- _ _ _. apply Hb; lia.
      - apply bind_ok in E as (c & _ & E). apply bind_ok in E as (y & _ & E). apply Ok_inj in E. injection E as <- _ _ _. apply Hb; lia.
      - apply bind_ok in E as (c & _ & E). apply bind_ok in E as (y & _ & E). apply Ok_inj in E. injection E as <- _ _ _. apply Hb; lia. }
    destruct (cstep b h m zs o) as [[[[h1 m1] zs1] x]| |] eqn:E1.
    + destruct H1 as (cs1 & ds1 & HR1 & Es & HF1). rewrite Es in Hc.
      destruct (IH h1 m1 cs1 zs1 ds1 (b + 1) HR1 HF1 Hc ltac:(lia) (Hq _ _ _ _ eq_refl)) as (prog & [[[h2 m2] zs2] xs] & Em & E2).
      exists ((b, o) :: prog), (h2, m2, zs2, x :: xs). split; [cbn [map snd]; now rewrite Em|]. cbn [crun]. rewrite E1. cbn [bind]. now rewrite E2.
    + exfalso. destruct o; try exact H1. congruence.
    + destruct H1.
Qed.

Lemma cursors_run h m (l : items) n ops : reachable h m l n -> careful (l, n) [] ops ->
  exists prog r, map snd prog = ops /\ crun h m [] prog = Ok r.
Proof.
  intros Hr Hc. destruct (reach_bound _ _ _ _ Hr) as (b & Hb0 & Hb). destruct (reach_rep _ _ _ _ Hr) as (cs & HR & -> & ->).
  exact (crun_exists ops h m cs [] [] b HR (Forall2_nil _) Hc Hb0 Hb).
Qed.

(** ** going back and removing the item behind *)

Lemma back_ok h m (l1 l2 : items) x y z n c : reachable h m (l1 ++ x :: y :: z :: l2) n -> points h m c (Some y) ->
  exists c1 h' m' c2 c3, cur_prev h m c = Ok (Some y, c1) /\ lm_remove h m (fst y) = Ok (h', m', true) /\
    shows h' m' (l1 ++ x :: z :: l2) n /\ cur_next h' m' c1 = Ok (Some x, c2) /\ cur_next h' m' c2 = Ok (Some z, c3) /\
    points h' m' c3 (hd_error l2).
Proof.
  intros Hr Hp. destruct (reach_rep _ _ _ _ Hr) as (cs & HR & El & ->). symmetry in El. destruct x as [idx vx].
  destruct (map_snd_split _ _ _ _ _ El) as (k1 & ax & k2 & -> & <- & E2). destruct y as [idy vy].
  destruct k2 as [|[ay [i w]] k2]; [discriminate|]. injection E2 as -> -> E2.
  destruct k2 as [|[az [i w]] k2]; [discriminate|]. injection E2 as <- <-.
  change (k1 ++ (ax, (idx, vx)) :: (ay, (idy, vy)) :: (az, (i, w)) :: k2) with (k1 ++ [(ax, (idx, vx))] ++ (ay, (idy, vy)) :: (az, (i, w)) :: k2) in HR.
  rewrite app_assoc in HR. pose proof (points_cell _ _ _ _ _ _ _ HR) as (_ & Hy & _). destruct Hp as (_ & Hc & _). rewrite Hy in Hc. injection Hc as <-.
  destruct (remove_at _ _ _ _ _ _ _ HR) as (h' & m' & E & HR' & Hn & _). rewrite <- app_assoc in HR'. cbn [app] in HR'.
  exists ax, h', m', az, (hd_addr k2 0). split. { rewrite (cur_prev_at _ _ _ _ _ _ _ (r_dl _ _ _ HR)). now rewrite last_addr_snoc. }
  split; [exact E|]. split. { pose proof (rep_shows _ _ _ HR') as H. rewrite Hn, map_app in H. exact H. }
  split; [exact (cur_next_at _ _ _ _ _ _ _ (r_dl _ _ _ HR'))|].
  change (k1 ++ (ax, (idx, vx)) :: (az, (i, w)) :: k2) with (k1 ++ [(ax, (idx, vx))] ++ (az, (i, w)) :: k2) in HR'. rewrite app_assoc in HR'.
  split; [exact (cur_next_at _ _ _ _ _ _ _ (r_dl _ _ _ HR'))|].
  apply (points_hd h' m' ((k1 ++ [(ax, (idx, vx))]) ++ [(az, (i, w))]) k2). now rewrite <- app_assoc.
Qed.

End Proofs.
