(** The pointer structure refines the ordered list. *)
From Coq Require Import Permutation.
From Verif Require Import Base LinkedModel LinkedSpec.

Section Proofs.
Context {V : Type}.
Notation cell := (Z * (Z * V))%type.
Notation heap := (heap V).
Implicit Types (h : heap) (m : lmap) (cs : list cell).

Definition addrs cs : list Z := map fst cs.
Definition hd_addr cs (d : Z) : Z := match cs with [] => d | c :: _ => fst c end.
Definition last_addr cs (d : Z) : Z := match rev cs with [] => d | c :: _ => fst c end.

(** doubly linked segment *)
Fixpoint dseg h (p : Z) cs (x : Z) : Prop :=
  match cs with
  | [] => True
  | (a, (id, v)) :: r => h a = Some (Node p (hd_addr r x) v id) /\ dseg h a r x
  end.

Record Dl h m cs : Prop := {
  d_seg : dseg h 0 cs 0;
  d_nodup : NoDup (addrs cs);
  d_nonnull : ~ In 0 (addrs cs);
  d_first : m_first m = hd_addr cs 0;
  d_last : m_last m = last_addr cs 0;
}.

Definition entries cs : list (Z * Z) := map (fun c => (fst (snd c), fst c)) cs.

Record Rep h m cs : Prop := {
  r_dl : Dl h m cs;
  r_ids : NoDup (ids (map snd cs));
  r_map : Permutation (m_map m) (entries cs);
}.

(** ** heap *)

Lemma upd_same h a n : upd h a n a = n.
Proof. unfold upd. now rewrite Z.eqb_refl. Qed.
Lemma upd_other h a n b : b <> a -> upd h a n b = h b.
Proof. intros H. unfold upd. destruct (Z.eqb_spec b a); congruence. Qed.

Lemma deref_ok h p n : p <> 0 -> h p = Some n -> deref h p = Ok n.
Proof. intros Hp Hh. unfold deref. destruct (Z.eqb_spec p 0); [congruence|]. now rewrite Hh. Qed.

Lemma set_next_ok h p x n : p <> 0 -> h p = Some n ->
  set_next h p x = Ok (upd h p (Some (Node (n_prev n) x (n_item n) (n_id n)))).
Proof. intros Hp Hh. unfold set_next. now rewrite (deref_ok h p n Hp Hh). Qed.
Lemma set_prev_ok h p x n : p <> 0 -> h p = Some n ->
  set_prev h p x = Ok (upd h p (Some (Node x (n_next n) (n_item n) (n_id n)))).
Proof. intros Hp Hh. unfold set_prev. now rewrite (deref_ok h p n Hp Hh). Qed.

(** ** segments *)

Lemma addrs_app a b : addrs (a ++ b) = addrs a ++ addrs b.
Proof. apply map_app. Qed.

Lemma last_addr_snoc cs c d : last_addr (cs ++ [c]) d = fst c.
Proof. unfold last_addr. now rewrite rev_app_distr. Qed.
Lemma last_addr_cons c cs d : last_addr (c :: cs) d = last_addr cs (fst c).
Proof. unfold last_addr. cbn [rev]. destruct (rev cs) as [|x r]; reflexivity. Qed.
Lemma last_addr_app a b d : last_addr (a ++ b) d = last_addr b (last_addr a d).
Proof. unfold last_addr. rewrite rev_app_distr. destruct (rev b); reflexivity. Qed.
Lemma hd_addr_app a b d : hd_addr (a ++ b) d = hd_addr a (hd_addr b d).
Proof. destruct a; reflexivity. Qed.

Lemma dseg_app h : forall a p b x,
  dseg h p (a ++ b) x <-> dseg h p a (hd_addr b x) /\ dseg h (last_addr a p) b x.
Proof.
  induction a as [|[a0 [id v]] a IH]; intros p b x; cbn [app dseg].
  - unfold last_addr. cbn. tauto.
  - rewrite IH, hd_addr_app, last_addr_cons. cbn [fst]. tauto.
Qed.

Lemma dseg_ext h h' : forall cs p x, (forall a, In a (addrs cs) -> h' a = h a) ->
  dseg h p cs x -> dseg h' p cs x.
Proof.
  induction cs as [|[a [id v]] cs IH]; intros p x He Hd; cbn [dseg] in *; [exact I|].
  destruct Hd as [H1 H2]. split.
  - rewrite He; [exact H1|now left].
  - apply IH; [|exact H2]. intros b Hb. apply He. now right.
Qed.

Lemma hd_addr_in cs d : cs <> [] -> In (hd_addr cs d) (addrs cs).
Proof. destruct cs as [|c cs]; [congruence|]. intros _. now left. Qed.
Lemma last_addr_in cs d : cs <> [] -> In (last_addr cs d) (addrs cs).
Proof.
  intros H. destruct (exists_last H) as (a & c & ->). rewrite last_addr_snoc, addrs_app.
  apply in_app_iff. right. now left.
Qed.

Lemma snoc_case {A} (l : list A) : l = [] \/ exists l' x, l = l' ++ [x].
Proof. destruct l as [|y l]; [now left|right]. destruct (@exists_last _ (y :: l)) as (a & c & E); [discriminate|]. eauto. Qed.

Lemma nodup_mid (a b : list cell) c : NoDup (addrs (a ++ c :: b)) ->
  ~ In (fst c) (addrs a) /\ ~ In (fst c) (addrs b) /\ NoDup (addrs (a ++ b)) /\
  (forall x, In x (addrs a) -> In x (addrs b) -> False).
Proof.
  rewrite !addrs_app. cbn [addrs map]. intros H. fold (addrs b) in *.
  pose proof (NoDup_remove_1 _ _ _ H) as H1. pose proof (NoDup_remove_2 _ _ _ H) as H2.
  rewrite in_app_iff in H2. repeat split; try tauto.
  intros x Ha Hb. clear -H1 Ha Hb.
  induction (addrs a) as [|y l IH]; [destruct Ha|].
  cbn [app] in H1. inversion H1; subst. destruct Ha as [->|Ha]; [|auto].
  apply H2. apply in_app_iff. now right.
Qed.

(** simplify a heap lookup through updates *)
Ltac hsimp := repeat first [rewrite upd_same | rewrite upd_other by congruence].

Lemma NoDup_remove_rev {A} (l l' : list A) a : NoDup (l ++ l') -> ~ In a (l ++ l') -> NoDup (l ++ a :: l').
Proof.
  intros H Hn. apply (Permutation_NoDup (l := a :: l ++ l')); [apply Permutation_middle|]. now constructor.
Qed.

Ltac inx H := rewrite ?addrs_app, ?in_app_iff in H; cbn [addrs map fst In] in H;
  rewrite ?in_app_iff in H; cbn [In] in H.

(** ** pull *)

Lemma pull_first_spec h m a id v r : Dl h m ((a, (id, v)) :: r) ->
  exists h' m', pull_first h m = Ok (h', m', a) /\ Dl h' m' r /\ h' a = Some (Node 0 0 v id) /\
    m_map m' = m_map m /\ m_next m' = m_next m /\
    (forall b, ~ In b (addrs ((a, (id, v)) :: r)) -> h' b = h b).
Proof.
  intros [Hs Hn H0 Hf Hl]. cbn [dseg] in Hs. destruct Hs as [Ha Hr].
  cbn [addrs map fst] in *. fold (addrs r) in *.
  apply NoDup_cons_iff in Hn as [Hna Hnr].
  assert (Ha0 : a <> 0) by (intros ->; apply H0; now left).
  assert (Hr0 : ~ In 0 (addrs r)) by (intros H; apply H0; now right).
  cbn [hd_addr fst] in Hf.
  unfold pull_first. rewrite Hf. destruct (Z.eqb_spec a 0); [congruence|].
  rewrite (deref_ok h a _ Ha0 Ha). cbn [bind n_next].
  destruct r as [|[b [id2 v2]] r].
  - cbn [hd_addr]. rewrite Z.eqb_refl. eexists; eexists. split; [reflexivity|].
    split; [constructor; auto; constructor|]. split; [exact Ha|]. auto.
  - cbn [hd_addr fst] in *. cbn [dseg] in Hr. destruct Hr as [Hb Hr].
    assert (Hb0 : b <> 0) by (intros ->; apply Hr0; now left).
    assert (Hab : a <> b) by (intros ->; apply Hna; now left).
    destruct (Z.eqb_spec b 0); [congruence|].
    rewrite (set_prev_ok h b 0 _ Hb0 Hb). cbn [bind].
    rewrite (set_next_ok _ a 0 (Node 0 b v id) Ha0) by (now hsimp).
    cbn [bind n_prev n_next n_item n_id].
    eexists; eexists. split; [reflexivity|]. split.
    + constructor; cbn [m_first m_last]; auto.
      * cbn [dseg]. hsimp. split; [reflexivity|].
        eapply dseg_ext; [|exact Hr]. intros x Hx.
        cbn [addrs map fst] in *. fold (addrs r) in *.
        apply NoDup_cons_iff in Hnr as [Hnb _]. assert (x <> b) by congruence. assert (x <> a) by (intros ->; apply Hna; now right).
        now hsimp.
      * rewrite Hl. rewrite last_addr_cons. now rewrite !last_addr_cons.
    + hsimp. repeat split; auto. intros x Hx. cbn [addrs map fst In] in Hx.
      assert (x <> a) by (intros ->; tauto). assert (x <> b) by (intros ->; tauto). now hsimp.
Qed.

Lemma pull_last_spec h m a id v r : Dl h m (r ++ [(a, (id, v))]) ->
  exists h' m', pull_last h m = Ok (h', m', a) /\ Dl h' m' r /\ h' a = Some (Node 0 0 v id) /\
    m_map m' = m_map m /\ m_next m' = m_next m /\
    (forall b, ~ In b (addrs (r ++ [(a, (id, v))])) -> h' b = h b).
Proof.
  intros [Hs Hn H0 Hf Hl]. apply dseg_app in Hs as [Hr [Ha _]]. cbn [hd_addr fst] in *.
  destruct (nodup_mid r [] _ Hn) as (Hna & _ & Hnr & _). rewrite app_nil_r in Hnr.
  rewrite addrs_app, in_app_iff in H0. cbn [addrs map fst In] in H0, Hna. fold (addrs r) in *.
  assert (Ha0 : a <> 0) by (intros ->; tauto).
  rewrite last_addr_snoc in Hl. cbn [fst] in Hl.
  unfold pull_last. rewrite Hl. destruct (Z.eqb_spec a 0); [congruence|].
  rewrite (deref_ok h a _ Ha0 Ha). cbn [bind n_prev].
  destruct (snoc_case r) as [->|(r' & [b [id2 v2]] & ->)].
  - unfold last_addr. cbn [rev]. rewrite Z.eqb_refl. eexists; eexists. split; [reflexivity|].
    split; [constructor; auto; constructor|]. split; [exact Ha|]. auto.
  - rewrite last_addr_snoc. cbn [fst]. apply dseg_app in Hr as [Hr' [Hb _]]. cbn [hd_addr] in *.
    destruct (nodup_mid r' [] _ Hnr) as (Hnb & _ & Hnr' & _). cbn [fst] in Hnb.
    rewrite addrs_app, in_app_iff in Hna, H0. cbn [addrs map fst In] in Hna, H0. fold (addrs r') in *.
    assert (Hb0 : b <> 0) by (intros ->; tauto).
    assert (Hab : a <> b) by (intros ->; tauto).
    destruct (Z.eqb_spec b 0); [congruence|].
    rewrite (set_next_ok h b 0 _ Hb0 Hb). cbn [bind].
    rewrite (set_prev_ok _ a 0 (Node b 0 v id) Ha0) by (hsimp; rewrite Ha, last_addr_snoc; reflexivity).
    cbn [bind n_prev n_next n_item n_id].
    eexists; eexists. split; [reflexivity|]. split.
    + constructor; cbn [m_first m_last]; auto.
      * apply dseg_app. split.
        -- eapply dseg_ext; [|exact Hr']. intros x Hx.
           assert (x <> b) by congruence. assert (x <> a) by (intros ->; tauto). now hsimp.
        -- cbn [dseg hd_addr]. hsimp. split; [reflexivity|exact I].
      * rewrite addrs_app, in_app_iff. cbn [addrs map fst In]. fold (addrs r'). tauto.
      * rewrite Hf. rewrite !hd_addr_app. cbn [hd_addr fst]. reflexivity.
      * now rewrite last_addr_snoc.
    + hsimp. repeat split; auto. intros x Hx. rewrite !addrs_app, !in_app_iff in Hx. cbn [addrs map fst In] in Hx.
      assert (x <> a) by (intros ->; tauto). assert (x <> b) by (intros ->; tauto). now hsimp.
Qed.

Lemma pull_spec h m a id v l1 l2 : Dl h m (l1 ++ (a, (id, v)) :: l2) -> mget id (m_map m) = Some a ->
  exists h' m', pull h m id = Ok (h', m', a) /\ Dl h' m' (l1 ++ l2) /\ h' a = Some (Node 0 0 v id) /\
    m_map m' = m_map m /\ m_next m' = m_next m /\
    (forall b, ~ In b (addrs (l1 ++ (a, (id, v)) :: l2)) -> h' b = h b).
Proof.
  intros HD Hget. unfold pull. rewrite Hget.
  destruct l1 as [|c1 l1'] eqn:El1.
  { pose proof (d_first _ _ _ HD) as Hf. cbn [app hd_addr fst] in Hf. rewrite Hf, Z.eqb_refl.
    apply pull_first_spec. exact HD. }
  rewrite <- El1 in *.
  destruct (nodup_mid _ _ _ (d_nodup _ _ _ HD)) as (Hna1 & Hna2 & Hnd & Hdisj). cbn [fst] in Hna1, Hna2.
  destruct (Z.eqb_spec a (m_first m)) as [E|Hne].
  { exfalso. rewrite (d_first _ _ _ HD), hd_addr_app in E. apply Hna1. rewrite E. subst l1. now left. }
  destruct (snoc_case l2) as [->|(l2' & cl & El2)].
  { pose proof (d_last _ _ _ HD) as Hl. rewrite last_addr_snoc in Hl. cbn [fst] in Hl. rewrite Hl, Z.eqb_refl.
    rewrite app_nil_r. apply pull_last_spec. exact HD. }
  destruct (Z.eqb_spec a (m_last m)) as [E|Hne2].
  { exfalso. rewrite (d_last _ _ _ HD) in E. rewrite last_addr_app, last_addr_cons in E.
    apply Hna2. rewrite E. apply last_addr_in. intros ->. destruct l2'; discriminate. }
  assert (Hl2 : l2 <> []) by (intros ->; destruct l2'; discriminate).
  clear El2 Hne Hne2 cl l2'.
  assert (Hl1 : l1 <> []) by (intros ->; discriminate). clear El1 c1 l1'.
  destruct (exists_last Hl1) as (l1' & [p [idp vp]] & ->). clear Hl1.
  destruct l2 as [|[n [idn vn]] l2]; [congruence|]. clear Hl2.
  destruct HD as [Hs Hn H0 Hf Hl].
  apply dseg_app in Hs as [Hs1 Hs2]. apply dseg_app in Hs1 as [Hs1 [Hp _]].
  rewrite last_addr_snoc in Hs2. cbn [dseg hd_addr fst] in Hs1, Hs2, Hp. destruct Hs2 as (Ha & Hnn & Hs2).
  rewrite !addrs_app in *. cbn [addrs map fst] in *. fold (addrs l1') in *. fold (addrs l2) in *.
  rewrite !in_app_iff in *. cbn [In] in *.
  assert (Ha0 : a <> 0) by (intros ->; tauto).
  assert (Hp0 : p <> 0) by (intros ->; tauto).
  assert (Hn0 : n <> 0) by (intros ->; tauto).
  assert (Hap : a <> p) by (intros ->; tauto).
  assert (Han : a <> n) by (intros ->; tauto).
  assert (Hpn : p <> n).
  { intros ->. apply (Hdisj n); [apply in_app_iff; right; now left|now left]. }
  unfold get_prev, get_next. rewrite (deref_ok h a _ Ha0 Ha). cbn [bind n_prev n_next].
  rewrite (set_next_ok h p n _ Hp0 Hp). cbn [bind n_prev n_item n_id].
  rewrite (set_prev_ok _ n p (Node a (hd_addr l2 0) vn idn) Hn0) by (now hsimp). cbn [bind n_next n_item n_id].
  rewrite (set_next_ok _ a 0 (Node p n v id) Ha0) by (now hsimp). cbn [bind n_prev n_item n_id].
  rewrite (set_prev_ok _ a 0 (Node p 0 v id) Ha0) by (now hsimp). cbn [bind n_next n_item n_id].
  eexists; eexists. split; [reflexivity|]. split.
  - assert (Hnp : ~ In p (addrs l1')).
    { rewrite <- app_assoc in Hn. cbn [app] in Hn. apply NoDup_remove_2 in Hn. rewrite in_app_iff in Hn. tauto. }
    assert (Hnnl2 : ~ In n (addrs l2)).
    { rewrite <- app_assoc in Hnd. cbn [app] in Hnd.
      change (p :: n :: addrs l2) with ([p] ++ n :: addrs l2) in Hnd. rewrite app_assoc in Hnd.
      apply NoDup_remove_2 in Hnd. rewrite in_app_iff in Hnd. tauto. }
    assert (Hnn1 : ~ In n (addrs l1')).
    { intros H. apply (Hdisj n); [apply in_app_iff; now left|now left]. }
    assert (Hpl2 : ~ In p (addrs l2)).
    { intros H. apply (Hdisj p); [apply in_app_iff; right; now left|now right]. }
    constructor.
    + apply dseg_app. split; [apply dseg_app; split|].
      * cbn [hd_addr fst]. eapply dseg_ext; [|exact Hs1]. intros x Hx.
        assert (x <> a) by (intros ->; tauto). assert (x <> n) by congruence. assert (x <> p) by congruence.
        now hsimp.
      * cbn [dseg hd_addr fst]. hsimp. split; [reflexivity|exact I].
      * rewrite last_addr_snoc. cbn [dseg fst]. hsimp. split; [reflexivity|].
        eapply dseg_ext; [|exact Hs2]. intros x Hx.
        assert (x <> a) by (intros ->; tauto). assert (x <> n) by congruence. assert (x <> p) by congruence.
        now hsimp.
    + rewrite !addrs_app. exact Hnd.
    + rewrite !addrs_app, !in_app_iff. cbn [addrs map fst In]. fold (addrs l1') (addrs l2). tauto.
    + rewrite Hf, !hd_addr_app. reflexivity.
    + rewrite Hl, !last_addr_app, !last_addr_cons. reflexivity.
  - hsimp. repeat split; auto. intros x Hx. rewrite ?addrs_app, ?in_app_iff in Hx. cbn [addrs map fst In] in Hx. rewrite ?in_app_iff in Hx. cbn [In] in Hx.
    assert (x <> a) by (intros ->; tauto). assert (x <> n) by (intros ->; tauto).
    assert (x <> p) by (intros ->; tauto). now hsimp.
Qed.

(** ** put *)

Lemma put_first_spec h m a id v cs : Dl h m cs -> a <> 0 -> ~ In a (addrs cs) ->
  h a = Some (Node 0 0 v id) ->
  exists h' m', put_first h m a = Ok (h', m') /\ Dl h' m' ((a, (id, v)) :: cs) /\
    m_map m' = m_map m /\ m_next m' = m_next m /\
    (forall b, ~ In b (addrs cs) -> b <> a -> h' b = h b).
Proof.
  intros [Hs Hn H0 Hf Hl] Ha0 Hna Ha. unfold put_first. rewrite Hf.
  destruct cs as [|[b [idb vb]] cs].
  - cbn [hd_addr]. rewrite Z.eqb_refl. eexists; eexists. split; [reflexivity|]. split; [|auto].
    constructor; cbn [m_first m_last]; auto.
    + cbn. split; [exact Ha|exact I].
    + cbn. constructor; [tauto|constructor].
    + cbn. intros [H|[]]. congruence.
  - cbn [hd_addr fst]. cbn [dseg addrs map fst] in *. fold (addrs cs) in *. destruct Hs as [Hb Hs].
    assert (Hb0 : b <> 0) by (intros ->; apply H0; now left).
    assert (Hab : a <> b) by (intros ->; apply Hna; now left).
    destruct (Z.eqb_spec b 0); [congruence|]. destruct (Z.eqb_spec b a); [congruence|].
    rewrite (set_next_ok h a b _ Ha0 Ha). cbn [bind n_prev n_item n_id].
    rewrite (set_prev_ok _ b a _ Hb0) by (hsimp; exact Hb). cbn [bind n_next n_item n_id].
    eexists; eexists. split; [reflexivity|]. split.
    + apply NoDup_cons_iff in Hn as [Hnb Hn].
      constructor; cbn [m_first m_last].
      * cbn [dseg hd_addr fst]. hsimp. split; [reflexivity|]. split; [reflexivity|].
        eapply dseg_ext; [|exact Hs]. intros x Hx.
        assert (x <> b) by congruence. assert (x <> a) by (intros ->; apply Hna; now right). now hsimp.
      * cbn [addrs map fst]. fold (addrs cs). repeat constructor; auto.
      * cbn [addrs map fst In]. fold (addrs cs). cbn [In] in H0. intros [H|[H|H]]; [congruence| |]; tauto.
      * reflexivity.
      * rewrite Hl. rewrite !last_addr_cons. reflexivity.
    + repeat split; auto. intros x Hx Hxa. cbn [In] in Hx. assert (x <> b) by (intros ->; tauto). now hsimp.
Qed.

Lemma put_last_spec h m a id v cs : Dl h m cs -> a <> 0 -> ~ In a (addrs cs) ->
  h a = Some (Node 0 0 v id) ->
  exists h' m', put_last h m a = Ok (h', m') /\ Dl h' m' (cs ++ [(a, (id, v))]) /\
    m_map m' = m_map m /\ m_next m' = m_next m /\
    (forall b, ~ In b (addrs cs) -> b <> a -> h' b = h b).
Proof.
  intros [Hs Hn H0 Hf Hl] Ha0 Hna Ha. unfold put_last. rewrite Hl.
  destruct (snoc_case cs) as [->|(cs' & [b [idb vb]] & ->)].
  - unfold last_addr at 1. cbn [rev]. rewrite Z.eqb_refl. eexists; eexists. split; [reflexivity|]. split; [|auto].
    constructor; cbn [m_first m_last app]; auto.
    + cbn. split; [exact Ha|exact I].
    + cbn. constructor; [tauto|constructor].
    + cbn. intros [H|[]]. congruence.
  - rewrite last_addr_snoc. cbn [fst].
    apply dseg_app in Hs as [Hs [Hb _]]. cbn [hd_addr fst] in *.
    destruct (nodup_mid _ _ _ Hn) as (Hnb & _ & Hn' & _). cbn [fst] in Hnb.
    rewrite !addrs_app, !in_app_iff in *. cbn [addrs map fst In] in *. fold (addrs cs') in *.
    assert (Hb0 : b <> 0) by (intros ->; tauto).
    assert (Hab : a <> b) by (intros ->; tauto).
    destruct (Z.eqb_spec b 0); [congruence|]. destruct (Z.eqb_spec b a); [congruence|].
    rewrite (set_next_ok h b a _ Hb0 Hb). cbn [bind n_prev n_item n_id].
    rewrite (set_prev_ok _ a b (Node 0 0 v id) Ha0) by (now hsimp). cbn [bind n_next n_item n_id].
    eexists; eexists. split; [reflexivity|]. split.
    + constructor; cbn [m_first m_last].
      * apply dseg_app. split; [apply dseg_app; split|].
        -- cbn [hd_addr fst]. eapply dseg_ext; [|exact Hs]. intros x Hx.
           assert (x <> b) by congruence. assert (x <> a) by (intros ->; tauto). now hsimp.
        -- cbn [dseg hd_addr fst]. hsimp. split; [reflexivity|exact I].
        -- rewrite last_addr_snoc. cbn [dseg hd_addr fst]. hsimp. split; [reflexivity|exact I].
      * rewrite !addrs_app. cbn [addrs map fst]. fold (addrs cs').
        apply NoDup_remove_rev; [now rewrite app_nil_r|]. rewrite app_nil_r, in_app_iff. cbn [In]. tauto.
      * rewrite !addrs_app, !in_app_iff. cbn [addrs map fst In]. fold (addrs cs').
        intros [[H|[H|[]]]|[H|[]]]; [tauto|tauto|congruence].
      * rewrite Hf, !hd_addr_app. reflexivity.
      * now rewrite last_addr_snoc.
    + repeat split; auto. intros x Hx Hxa. rewrite in_app_iff in Hx. cbn [In] in Hx.
      assert (x <> b) by (intros ->; tauto). now hsimp.
Qed.

(** insertion between two cells *)
Lemma put_mid h p idp vp n idn vn a id v l1 l2 m :
  Dl h m (l1 ++ (p, (idp, vp)) :: (n, (idn, vn)) :: l2) -> a <> 0 ->
  ~ In a (addrs (l1 ++ (p, (idp, vp)) :: (n, (idn, vn)) :: l2)) ->
  h a = Some (Node 0 0 v id) ->
  exists h', (h <- set_next h p a ; h <- set_prev h a p ; h <- set_next h a n ;
              h <- set_prev h n a ; Ok (h, m)) = Ok (h', m) /\
    Dl h' m (l1 ++ (p, (idp, vp)) :: (a, (id, v)) :: (n, (idn, vn)) :: l2) /\
    (forall b, ~ In b (addrs (l1 ++ (p, (idp, vp)) :: (n, (idn, vn)) :: l2)) -> b <> a -> h' b = h b).
Proof.
  intros [Hs Hn H0 Hf Hl] Ha0 Hna Ha.
  apply dseg_app in Hs as [Hs1 Hs2]. cbn [dseg hd_addr fst] in Hs1, Hs2. destruct Hs2 as (Hp & Hnn & Hs2).
  rewrite !addrs_app in *. cbn [addrs map fst] in *. fold (addrs l1) in *. fold (addrs l2) in *.
  pose proof (NoDup_remove_2 _ _ _ Hn) as Hnp. rewrite in_app_iff in Hnp. cbn [In] in Hnp.
  pose proof Hn as Hn2. change (p :: n :: addrs l2) with ([p] ++ n :: addrs l2) in Hn2. rewrite app_assoc in Hn2.
  pose proof (NoDup_remove_2 _ _ _ Hn2) as Hnn2. rewrite !in_app_iff in Hnn2. cbn [In] in Hnn2.
  rewrite !in_app_iff in *. cbn [In] in *.
  assert (Hp0 : p <> 0) by (intros ->; tauto).
  assert (Hn0 : n <> 0) by (intros ->; tauto).
  assert (Hap : a <> p) by (intros ->; tauto).
  assert (Han : a <> n) by (intros ->; tauto).
  assert (Hpn : p <> n) by (intros ->; tauto).
  rewrite (set_next_ok h p a _ Hp0 Hp). cbn [bind n_prev n_item n_id].
  rewrite (set_prev_ok _ a p (Node 0 0 v id) Ha0) by (now hsimp). cbn [bind n_next n_item n_id].
  rewrite (set_next_ok _ a n (Node p 0 v id) Ha0) by (now hsimp). cbn [bind n_prev n_item n_id].
  rewrite (set_prev_ok _ n a (Node p (hd_addr l2 0) vn idn) Hn0) by (hsimp; exact Hnn). cbn [bind n_next n_item n_id].
  eexists. split; [reflexivity|]. split.
  - constructor.
    + apply dseg_app. split.
      * cbn [hd_addr fst]. eapply dseg_ext; [|exact Hs1]. intros x Hx.
        assert (x <> p) by (intros ->; tauto). assert (x <> n) by (intros ->; tauto).
        assert (x <> a) by (intros ->; tauto). now hsimp.
      * cbn [dseg hd_addr fst]. hsimp. split; [reflexivity|]. split; [reflexivity|]. split; [reflexivity|].
        eapply dseg_ext; [|exact Hs2]. intros x Hx.
        assert (x <> p) by (intros ->; tauto). assert (x <> n) by (intros ->; tauto).
        assert (x <> a) by (intros ->; tauto). now hsimp.
    + rewrite addrs_app. cbn [addrs map fst]. fold (addrs l2).
      change (p :: a :: n :: addrs l2) with ([p] ++ a :: n :: addrs l2). rewrite app_assoc.
      apply NoDup_remove_rev; [rewrite <- app_assoc; exact Hn|]. rewrite !in_app_iff. cbn [In]. tauto.
    + rewrite addrs_app, in_app_iff. cbn [addrs map fst In]. fold (addrs l2). intuition congruence.
    + rewrite Hf, !hd_addr_app. reflexivity.
    + rewrite Hl, !last_addr_app, !last_addr_cons. reflexivity.
  - intros x Hx Hxa. inx Hx. assert (x <> p) by (intros ->; tauto). assert (x <> n) by (intros ->; tauto). now hsimp.
Qed.

Lemma put_prev_spec h m n idn vn a id v k1 k2 :
  Dl h m (k1 ++ (n, (idn, vn)) :: k2) -> a <> 0 ->
  ~ In a (addrs (k1 ++ (n, (idn, vn)) :: k2)) ->
  h a = Some (Node 0 0 v id) ->
  exists h' m', put_prev h m n a = Ok (h', m') /\
    Dl h' m' (k1 ++ (a, (id, v)) :: (n, (idn, vn)) :: k2) /\
    m_map m' = m_map m /\ m_next m' = m_next m /\
    (forall b, ~ In b (addrs (k1 ++ (n, (idn, vn)) :: k2)) -> b <> a -> h' b = h b).
Proof.
  intros HD Ha0 Hna Ha. unfold put_prev.
  assert (Hn : In n (addrs (k1 ++ (n, (idn, vn)) :: k2))).
  { rewrite addrs_app, in_app_iff. right. now left. }
  assert (Hn0 : n <> 0) by (intros ->; exact (d_nonnull _ _ _ HD Hn)).
  destruct (Z.eqb_spec n a) as [->|Hne]; [contradiction|].
  pose proof (d_first _ _ _ HD) as Hf. rewrite Hf.
  assert (Hfin : In (hd_addr (k1 ++ (n, (idn, vn)) :: k2) 0) (addrs (k1 ++ (n, (idn, vn)) :: k2))).
  { apply hd_addr_in. destruct k1; discriminate. }
  destruct (Z.eqb_spec (hd_addr (k1 ++ (n, (idn, vn)) :: k2) 0) 0) as [E|_].
  { rewrite E in Hfin. exfalso. exact (d_nonnull _ _ _ HD Hfin). }
  destruct (nodup_mid _ _ _ (d_nodup _ _ _ HD)) as (Hn1 & _). cbn [fst] in Hn1.
  destruct (snoc_case k1) as [->|(k1' & [p [idp vp]] & ->)].
  - cbn [app hd_addr fst]. rewrite Z.eqb_refl. apply put_first_spec; assumption.
  - destruct (Z.eqb_spec n (hd_addr ((k1' ++ [(p, (idp, vp))]) ++ (n, (idn, vn)) :: k2) 0)) as [E|_].
    { exfalso. apply Hn1. rewrite E, hd_addr_app. apply hd_addr_in. destruct k1'; discriminate. }
    rewrite <- app_assoc in *. cbn [app] in *.
    destruct (put_mid h p idp vp n idn vn a id v k1' k2 m HD Ha0 Hna Ha) as (h' & E & HD' & Hfr).
    exists h', m. split; [|rewrite <- app_assoc; auto].
    pose proof (d_seg _ _ _ HD) as Hs. apply dseg_app in Hs as [_ Hs]. cbn [dseg hd_addr fst] in Hs.
    destruct Hs as (_ & Hnn & _).
    unfold get_prev. rewrite (deref_ok h n _ Hn0 Hnn). cbn [bind n_prev]. exact E.
Qed.

Lemma put_next_spec h m p idp vp a id v k1 k2 :
  Dl h m (k1 ++ (p, (idp, vp)) :: k2) -> a <> 0 ->
  ~ In a (addrs (k1 ++ (p, (idp, vp)) :: k2)) ->
  h a = Some (Node 0 0 v id) ->
  exists h' m', put_next h m p a = Ok (h', m') /\
    Dl h' m' (k1 ++ (p, (idp, vp)) :: (a, (id, v)) :: k2) /\
    m_map m' = m_map m /\ m_next m' = m_next m /\
    (forall b, ~ In b (addrs (k1 ++ (p, (idp, vp)) :: k2)) -> b <> a -> h' b = h b).
Proof.
  intros HD Ha0 Hna Ha. unfold put_next.
  assert (Hp : In p (addrs (k1 ++ (p, (idp, vp)) :: k2))).
  { rewrite addrs_app, in_app_iff. right. now left. }
  assert (Hp0 : p <> 0) by (intros ->; exact (d_nonnull _ _ _ HD Hp)).
  destruct (Z.eqb_spec p a) as [->|Hne]; [contradiction|].
  pose proof (d_last _ _ _ HD) as Hl. rewrite Hl.
  assert (Hlin : In (last_addr (k1 ++ (p, (idp, vp)) :: k2) 0) (addrs (k1 ++ (p, (idp, vp)) :: k2))).
  { apply last_addr_in. destruct k1; discriminate. }
  destruct (Z.eqb_spec (last_addr (k1 ++ (p, (idp, vp)) :: k2) 0) 0) as [E|_].
  { rewrite E in Hlin. exfalso. exact (d_nonnull _ _ _ HD Hlin). }
  destruct (nodup_mid _ _ _ (d_nodup _ _ _ HD)) as (_ & Hn2 & _). cbn [fst] in Hn2.
  destruct k2 as [|[n [idn vn]] k2].
  - rewrite last_addr_snoc. cbn [fst]. rewrite Z.eqb_refl.
    destruct (put_last_spec h m a id v _ HD Ha0 Hna Ha) as (h' & m' & E & HD' & H).
    exists h', m'. rewrite <- app_assoc in HD'. auto.
  - destruct (Z.eqb_spec p (last_addr (k1 ++ (p, (idp, vp)) :: (n, (idn, vn)) :: k2) 0)) as [E|_].
    { exfalso. apply Hn2. rewrite E, last_addr_app, last_addr_cons. apply last_addr_in. discriminate. }
    destruct (put_mid h p idp vp n idn vn a id v k1 k2 m HD Ha0 Hna Ha) as (h' & E & HD' & Hfr).
    exists h', m. split; [|auto].
    pose proof (d_seg _ _ _ HD) as Hs. apply dseg_app in Hs as [_ Hs]. cbn [dseg hd_addr fst] in Hs.
    destruct Hs as (Hpp & _).
    unfold get_next. rewrite (deref_ok h p _ Hp0 Hpp). cbn [bind n_next]. exact E.
Qed.

(** ** the map *)

Lemma mget_in k a l : NoDup (map fst l) -> (mget k l = Some a <-> In (k, a) l).
Proof.
  induction l as [|[k' a'] l IH]; cbn [mget map fst In]; intros Hn; [split; [discriminate|tauto]|].
  apply NoDup_cons_iff in Hn as [Hk Hn].
  destruct (Z.eqb_spec k k') as [->|Hne].
  - split; [intros E; apply Some_inj in E; subst; now left|].
    intros [E|Hin]; [congruence|]. exfalso. apply Hk. change k' with (fst (k', a)). now apply in_map.
  - rewrite IH by exact Hn. split; [tauto|]. intros [E|Hin]; [congruence|exact Hin].
Qed.

Lemma mget_none k l : mget k l = None <-> ~ In k (map fst l).
Proof.
  induction l as [|[k' a'] l IH]; cbn [mget map fst In]; [tauto|].
  destruct (Z.eqb_spec k k') as [->|Hne]; [split; [discriminate|tauto]|].
  rewrite IH. split; [intros H [E|E]; [congruence|tauto]|tauto].
Qed.

Lemma mget_perm k l l' : NoDup (map fst l) -> Permutation l l' -> mget k l = mget k l'.
Proof.
  intros Hn Hp.
  assert (Hn' : NoDup (map fst l')) by (eapply Permutation_NoDup; [apply Permutation_map, Hp|exact Hn]).
  destruct (mget k l) as [a|] eqn:E.
  - symmetry. apply mget_in; [exact Hn'|]. eapply Permutation_in; [exact Hp|]. now apply mget_in.
  - symmetry. apply mget_none. apply mget_none in E. intros H. apply E.
    eapply Permutation_in; [apply Permutation_sym, Permutation_map, Hp|exact H].
Qed.

Lemma filter_perm {A} (f : A -> bool) l l' : Permutation l l' -> Permutation (filter f l) (filter f l').
Proof.
  induction 1 as [|x l l' _ IH|x y l|l1 l2 l3 _ IH1 _ IH2]; cbn [filter].
  - constructor.
  - destruct (f x); [now constructor|exact IH].
  - destruct (f x), (f y); try reflexivity. constructor.
  - now transitivity (filter f l2).
Qed.

Lemma entries_keys cs : map fst (entries cs) = ids (map snd cs).
Proof. unfold entries, ids. rewrite !map_map. reflexivity. Qed.

Lemma entries_app a b : entries (a ++ b) = entries a ++ entries b.
Proof. apply map_app. Qed.

Lemma filter_all {A} (f : A -> bool) l : (forall x, In x l -> f x = true) -> filter f l = l.
Proof.
  induction l as [|x l IH]; intros H; [reflexivity|]. cbn [filter].
  rewrite (H x (or_introl eq_refl)), IH; [reflexivity|]. intros y Hy. apply H. now right.
Qed.

Lemma mdel_absent k l : ~ In k (map fst l) -> mdel k l = l.
Proof.
  intros H. apply filter_all. intros [k' a] Hin. cbn [fst].
  destruct (Z.eqb_spec k' k) as [->|]; [|reflexivity]. exfalso. apply H.
  change k with (fst (k, a)). now apply in_map.
Qed.

Lemma mdel_entries l1 a id v l2 : NoDup (ids (map snd (l1 ++ (a, (id, v)) :: l2))) ->
  mdel id (entries (l1 ++ (a, (id, v)) :: l2)) = entries (l1 ++ l2).
Proof.
  rewrite <- entries_keys, !entries_app, map_app. cbn [entries map fst snd].
  intros Hn. pose proof (NoDup_remove_2 _ _ _ Hn) as H. rewrite in_app_iff in H.
  unfold mdel. rewrite filter_app. cbn [filter fst]. rewrite Z.eqb_refl. cbn [negb].
  fold (mdel id (entries l1)). fold (entries l2). fold (mdel id (entries l2)).
  rewrite !mdel_absent by tauto. reflexivity.
Qed.

Lemma rep_get h m cs : Rep h m cs -> forall id, mget id (m_map m) = mget id (entries cs).
Proof.
  intros HR id. apply mget_perm; [|apply (r_map _ _ _ HR)].
  eapply Permutation_NoDup; [apply Permutation_map, Permutation_sym, (r_map _ _ _ HR)|].
  rewrite entries_keys. apply (r_ids _ _ _ HR).
Qed.

Lemma rep_split h m cs id : Rep h m cs ->
  (mget id (m_map m) = None /\ ~ In id (ids (map snd cs))) \/
  (exists l1 a v l2, cs = l1 ++ (a, (id, v)) :: l2 /\ mget id (m_map m) = Some a).
Proof.
  intros HR. rewrite (rep_get _ _ _ HR).
  destruct (mget id (entries cs)) as [a|] eqn:E.
  - right. apply mget_in in E; [|rewrite entries_keys; apply (r_ids _ _ _ HR)].
    unfold entries in E. apply in_map_iff in E as ([a' [id' v]] & Eq & Hin).
    cbn [fst snd] in Eq. inversion Eq; subst a' id'.
    apply in_split in Hin as (l1 & l2 & ->). exists l1, a, v, l2. auto.
  - left. split; [reflexivity|]. apply mget_none in E. now rewrite entries_keys in E.
Qed.

(** ** the abstract list *)

Notation items := (list (Z * V)).

Lemma ids_app (a b : items) : ids (a ++ b) = ids a ++ ids b.
Proof. apply map_app. Qed.

Lemma lookup_none id (l : items) : lookup id l = None <-> ~ In id (ids l).
Proof.
  induction l as [|[k v] l IH]; cbn [lookup ids map fst In]; [tauto|]. fold (ids l).
  destruct (Z.eqb_spec id k) as [->|Hne]; [split; [discriminate|tauto]|].
  rewrite IH. split; [intros H [E|E]; [congruence|tauto]|tauto].
Qed.

Lemma lookup_mid (l1 : items) id v l2 : ~ In id (ids l1) -> lookup id (l1 ++ (id, v) :: l2) = Some v.
Proof.
  induction l1 as [|[k w] l1 IH]; cbn [app lookup ids map fst In]; intros H; [now rewrite Z.eqb_refl|].
  destruct (Z.eqb_spec id k) as [->|]; [tauto|]. apply IH. tauto.
Qed.

Lemma without_absent id (l : items) : ~ In id (ids l) -> without id l = l.
Proof.
  intros H. apply filter_all. intros [k a] Hin. cbn [fst].
  destruct (Z.eqb_spec k id) as [->|]; [|reflexivity]. exfalso. apply H.
  change id with (fst (id, a)). now apply in_map.
Qed.

Lemma without_mid (l1 : items) id v l2 : ~ In id (ids l1) -> ~ In id (ids l2) ->
  without id (l1 ++ (id, v) :: l2 : items) = l1 ++ l2.
Proof.
  intros H1 H2. unfold without. rewrite filter_app. cbn [filter fst]. rewrite Z.eqb_refl. cbn [negb].
  fold (without id l1) (without id l2). now rewrite !without_absent.
Qed.

Lemma before_mid k x (l1 : items) w l2 : ~ In k (ids l1) ->
  before k x (l1 ++ (k, w) :: l2 : items) = l1 ++ x :: (k, w) :: l2.
Proof.
  induction l1 as [|[k' w'] l1 IH]; cbn [app before ids map fst In]; intros H; [now rewrite Z.eqb_refl|].
  destruct (Z.eqb_spec k' k) as [->|]; [tauto|]. rewrite IH by tauto. reflexivity.
Qed.
Lemma after_mid k x (l1 : items) w l2 : ~ In k (ids l1) ->
  after k x (l1 ++ (k, w) :: l2 : items) = l1 ++ (k, w) :: x :: l2.
Proof.
  induction l1 as [|[k' w'] l1 IH]; cbn [app after ids map fst In]; intros H; [now rewrite Z.eqb_refl|].
  destruct (Z.eqb_spec k' k) as [->|]; [tauto|]. rewrite IH by tauto. reflexivity.
Qed.

Lemma ids_mid (l1 l2 : items) id v : NoDup (ids (l1 ++ (id, v) :: l2)) ->
  ~ In id (ids l1) /\ ~ In id (ids l2) /\ NoDup (ids (l1 ++ l2)).
Proof.
  rewrite !ids_app. cbn [ids map fst]. intros H.
  pose proof (NoDup_remove_1 _ _ _ H). pose proof (NoDup_remove_2 _ _ _ H) as H2.
  rewrite in_app_iff in H2. tauto.
Qed.

(** ** steps *)

(** what a step does to the memory outside the list *)
Definition framed h cs a h' cs' : Prop :=
  (forall b, ~ In b (addrs cs) -> b <> a -> h' b = h b) /\
  (forall b, In b (addrs cs') -> In b (addrs cs) \/ b = a).

Lemma rep_fresh h m cs a : Rep h m cs -> h a = None -> ~ In a (addrs cs).
Proof.
  intros HR Ha Hin. unfold addrs in Hin. apply in_map_iff in Hin as ([a' [id v]] & E & Hin). cbn [fst] in E. subst a'.
  pose proof (d_seg _ _ _ (r_dl _ _ _ HR)) as Hs. clear HR. revert Hs. generalize 0 at 1. revert Hin.
  induction cs as [|[b [id2 v2]] cs IH]; intros Hin p Hs; [destruct Hin|].
  cbn [dseg] in Hs. destruct Hs as [H1 H2]. destruct Hin as [E|Hin]; [inversion E; subst; congruence|].
  eapply IH; eauto.
Qed.

Lemma Dl_upd_out h m cs a n : Dl h m cs -> ~ In a (addrs cs) -> Dl (upd h a n) m cs.
Proof.
  intros [Hs Hn H0 Hf Hl] Ha. constructor; auto.
  eapply dseg_ext; [|exact Hs]. intros x Hx. apply upd_other. congruence.
Qed.

Lemma Dl_header h m m' cs : Dl h m cs -> m_first m' = m_first m -> m_last m' = m_last m -> Dl h m' cs.
Proof. intros [Hs Hn H0 Hf Hl] E1 E2. constructor; congruence. Qed.

(** a cell was put somewhere and is then registered in the map *)
Lemma register h0 m0 cs h' m' cs1 cs2 a id v n :
  Rep h0 m0 cs -> cs = cs1 ++ cs2 -> ~ In id (ids (map snd cs)) ->
  Dl h' m' (cs1 ++ (a, (id, v)) :: cs2) -> m_map m' = m_map m0 ->
  Rep h' (LMap (mput id a (m_map m')) (m_first m') (m_last m') n) (cs1 ++ (a, (id, v)) :: cs2).
Proof.
  intros HR -> Hid HD Hm. constructor.
  - eapply Dl_header; [exact HD| |]; reflexivity.
  - rewrite map_app, ids_app in *.
    change (ids (map snd ((a, (id, v)) :: cs2))) with (id :: ids (map snd cs2)). apply NoDup_remove_rev.
    + rewrite <- ids_app, <- map_app. apply (r_ids _ _ _ HR).
    + exact Hid.
  - cbn [m_map]. unfold mput. rewrite mdel_absent.
    + rewrite Hm, entries_app. cbn [entries map fst snd]. fold (entries cs2).
      rewrite <- Permutation_middle. constructor. rewrite <- entries_app. apply (r_map _ _ _ HR).
    + rewrite Hm. intros H. apply Hid. rewrite <- entries_keys.
      eapply Permutation_in; [apply Permutation_map, (r_map _ _ _ HR)|exact H].
Qed.

(** a pulled cell is put back somewhere else *)
Lemma reinsert h0 m0 l1 l2 a id v h' m' k1 k2 :
  Rep h0 m0 (l1 ++ (a, (id, v)) :: l2) -> l1 ++ l2 = k1 ++ k2 ->
  Dl h' m' (k1 ++ (a, (id, v)) :: k2) -> m_map m' = m_map m0 ->
  Rep h' m' (k1 ++ (a, (id, v)) :: k2).
Proof.
  intros HR E HD Hm.
  assert (Hp : Permutation (l1 ++ (a, (id, v)) :: l2) (k1 ++ (a, (id, v)) :: k2)).
  { rewrite <- !Permutation_middle. now rewrite E. }
  constructor; [exact HD| |].
  - eapply Permutation_NoDup; [|apply (r_ids _ _ _ HR)]. unfold ids. now rewrite Hp.
  - rewrite Hm, (r_map _ _ _ HR). unfold entries. now rewrite Hp.
Qed.

(** a pulled cell is unregistered *)
Lemma unregister h0 m0 l1 l2 a id v h' m' :
  Rep h0 m0 (l1 ++ (a, (id, v)) :: l2) -> Dl h' m' (l1 ++ l2) -> m_map m' = m_map m0 ->
  ~ In a (addrs (l1 ++ l2)) ->
  Rep (upd h' a None) (LMap (mdel id (m_map m')) (m_first m') (m_last m') (m_next m')) (l1 ++ l2).
Proof.
  intros HR HD Hm Ha. constructor.
  - apply Dl_upd_out; [|exact Ha]. eapply Dl_header; [exact HD| |]; reflexivity.
  - pose proof (r_ids _ _ _ HR) as H. rewrite map_app in *. cbn [map snd] in H. now apply ids_mid in H.
  - cbn [m_map]. rewrite Hm. rewrite <- (mdel_entries l1 a id v l2 (r_ids _ _ _ HR)).
    apply filter_perm, (r_map _ _ _ HR).
Qed.

End Proofs.
