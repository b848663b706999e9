(** Programs over several lists sharing one heap. *)
From Coq Require Import Permutation.
From Verif Require Import Base LinkedModel LinkedSpec LinkedProofs LinkedProofs2 LinkedProofs3.

Section Proofs4.
Context {V : Type}.
Notation cell := (Z * (Z * V))%type.
Notation heap := (heap V).
Notation items := (list (Z * V)).
Implicit Types (h : heap) (m : lmap) (cs : list cell).

Lemma nth_lset {A} (x : A) : forall l i j,
  nth_error (lset i x l) j = if (i =? j)%nat then (match nth_error l j with Some _ => Some x | None => None end) else nth_error l j.
Proof.
  induction l as [|y l IH]; intros [|i] [|j]; try reflexivity; cbn [lset nth_error Nat.eqb]; try apply IH.
  destruct (i =? j)%nat; reflexivity.
Qed.

Lemma nth_snoc {A} (x : A) l j : nth_error (l ++ [x]) j = if (j =? length l)%nat then Some x else nth_error l j.
Proof.
  destruct (Nat.eqb_spec j (length l)) as [->|Hne].
  - rewrite nth_error_app2, Nat.sub_diag by lia. reflexivity.
  - destruct (Nat.lt_ge_cases j (length l)).
    + now rewrite nth_error_app1.
    + rewrite nth_error_app2 by lia. destruct (j - length l)%nat as [|k] eqn:E; [lia|].
      cbn [nth_error]. rewrite (proj2 (nth_error_None l j)) by lia. now destruct k.
Qed.

Lemma addresses_fresh h al : addresses_ok h al = true -> fresh h al.
Proof.
  unfold fresh. induction al as [|a al IH]; cbn [addresses_ok]; intros H.
  - repeat split; [constructor|tauto|intros a []].
  - rewrite !andb_true_iff, !negb_true_iff in H. destruct H as [[[H0 Hh] He] H].
    destruct (IH H) as (Hn & Hz & Hf). apply Z.eqb_neq in H0. repeat split.
    + constructor; [|exact Hn]. intros Hin. enough (existsb (Z.eqb a) al = true) by congruence.
      apply existsb_exists. exists a. split; [exact Hin|apply Z.eqb_refl].
    + intros [E|Hin]; [congruence|tauto].
    + intros b [<-|Hin]; [|now apply Hf]. destruct (h a); [discriminate|reflexivity].
Qed.

Record WInv h (ms : list (option lmap)) (ss : list (option astate)) (css : nat -> list cell) : Prop := {
  w_rep : forall i, match nth_error ms i, nth_error ss i with
          | Some (Some m), Some (Some s) => Rep h m (css i) /\ s = (map snd (css i), m_next m)
          | Some None, Some None => css i = []
          | None, None => css i = []
          | _, _ => False
          end;
  w_disj : forall i j b, i <> j -> In b (addrs (css i)) -> In b (addrs (css j)) -> False;
}.

Lemma w_len h ms ss css : WInv h ms ss css -> length ms = length ss.
Proof.
  intros HW. destruct (Nat.lt_trichotomy (length ms) (length ss)) as [H|[H|H]]; [|exact H|].
  - pose proof (w_rep _ _ _ _ HW (length ms)) as Hr. rewrite (proj2 (nth_error_None ms _)) in Hr by lia.
    destruct (nth_error ss (length ms)) eqn:E; [destruct Hr|]. apply nth_error_None in E. lia.
  - pose proof (w_rep _ _ _ _ HW (length ss)) as Hr. rewrite (proj2 (nth_error_None ss _)) in Hr by lia.
    destruct (nth_error ms (length ss)) as [[|]|] eqn:E; [destruct Hr..|]. apply nth_error_None in E. lia.
Qed.

Lemma rep_ext h h' m cs : Rep h m cs -> (forall b, In b (addrs cs) -> h' b = h b) -> Rep h' m cs.
Proof.
  intros [HD Hi Hm] He. constructor; auto. destruct HD as [Hs Hn H0 Hf Hl]. constructor; auto.
  eapply dseg_ext; [exact He|exact Hs].
Qed.

Lemma w_live h ms ss css i b : WInv h ms ss css -> In b (addrs (css i)) -> h b <> None.
Proof.
  intros HW Hin Hb. pose proof (w_rep _ _ _ _ HW i) as Hr.
  destruct (nth_error ms i) as [[m|]|], (nth_error ss i) as [[s|]|]; try contradiction;
    try (rewrite Hr in Hin; now destruct Hin). destruct Hr as [Hr _]. now apply (rep_fresh _ _ _ _ Hr Hb).
Qed.

(** adding a list that occupies new addresses *)
Lemma w_add h ms ss css h' m cs al : WInv h ms ss css -> fresh h al ->
  (forall b, ~ In b al -> h' b = h b) -> Rep h' m cs -> (forall b, In b (addrs cs) -> In b al) ->
  WInv h' (ms ++ [Some m]) (ss ++ [Some (map snd cs, m_next m)])
    (fun i => if (i =? length ms)%nat then cs else css i).
Proof.
  intros HW Hf He HR Hal. pose proof (w_len _ _ _ _ HW) as Hlen. destruct Hf as (_ & _ & Hf).
  assert (Hno : forall i b, In b (addrs (css i)) -> ~ In b al).
  { intros i b Hb Hin. apply (w_live _ _ _ _ _ _ HW Hb). now apply Hf. }
  constructor.
  - intros i. rewrite !nth_snoc, <- Hlen. destruct (i =? length ms)%nat; [split; [exact HR|reflexivity]|].
    pose proof (w_rep _ _ _ _ HW i) as Hr.
    destruct (nth_error ms i) as [[m0|]|], (nth_error ss i) as [[s|]|]; auto.
    destruct Hr as [Hr Hs]. split; [|exact Hs]. eapply rep_ext; [exact Hr|]. intros b Hb. apply He. now apply (Hno i).
  - intros i j b Hne. destruct (Nat.eqb_spec i (length ms)), (Nat.eqb_spec j (length ms)); intros Hi Hj.
    + congruence.
    + apply (Hno j b Hj). now apply Hal.
    + apply (Hno i b Hi). now apply Hal.
    + now apply (w_disj _ _ _ _ HW i j b).
Qed.

Lemma drop_map_in : forall (l : list (Z * Z)) h b,
  fold_left (fun h p => upd h (snd p) None) l h b = if existsb (fun p => b =? snd p) l then None else h b.
Proof.
  induction l as [|[k a] l IH]; intros h b; [reflexivity|]. cbn [fold_left existsb snd]. rewrite IH. unfold upd.
  destruct (existsb _ l); [now rewrite orb_true_r|]. rewrite orb_false_r. now destruct (b =? a).
Qed.

Definition quiet h al h' : Prop := forall b, h b = None -> ~ In b al -> h' b = None.

Lemma w_step h ms ss css al o : WInv h ms ss css -> wop_ok ss o ->
  match wstep al h ms o with
  | Ok (h', ms', r) => exists ss' css', awstep ss o = Some (ss', r) /\ WInv h' ms' ss' css' /\ quiet h al h'
  | Err => addresses_ok h al = false \/ length al <> need ms o \/ awstep ss o = None
  | Panic => False
  end.
Proof.
  intros HW Hok. unfold wstep.
  destruct (addresses_ok h al) eqn:Hal; [|left; reflexivity]. cbn [andb].
  destruct (Nat.eqb_spec (length al) (need ms o)) as [Hlen|Hlen]; [|right; left; exact Hlen]. cbn [negb].
  pose proof (addresses_fresh _ _ Hal) as Hf.
  destruct o as [|its n|i o|i|i]; cbn [need] in Hlen; cbn [awstep wop_ok] in *.
  - destruct al; [|discriminate]. eexists; eexists. split; [reflexivity|]. split.
    + eapply (w_add h ms ss css h lnew [] []); auto. apply rep_new. 
    + intros b Hb _. exact Hb.
  - destruct (construct_ok h its n al Hok Hf Hlen) as (h' & m' & E & HR & Hn & He). rewrite E. cbn [bind].
    eexists; eexists. split; [reflexivity|]. split.
    + rewrite <- Hn. rewrite <- (combine_snd al its Hlen) at 1.
      eapply w_add; eauto. intros b. now rewrite combine_fst.
    + intros b Hb Hnb. now rewrite He.
  - pose proof (w_rep _ _ _ _ HW i) as Hr.
    destruct (nth_error ms i) as [[m|]|] eqn:Em, (nth_error ss i) as [[s|]|] eqn:Es; try contradiction; auto.
    destruct Hr as [HR ->].
    destruct al as [|a [|]]; try discriminate. cbn [hd]. destruct Hf as (_ & H0 & Hf).
    assert (Ha : h a = None) by (apply Hf; now left). assert (Ha0 : a <> 0) by (intros ->; apply H0; now left).
    destruct (step_ok h m (css i) a o HR Ha0 Ha (Hok _ eq_refl)) as (h' & m' & cs' & r & E & HR' & Ea & Hfr1 & Hfr2).
    rewrite E. cbn [bind]. rewrite Ea.
    exists (lset i (Some (map snd cs', m_next m')) ss), (fun j => if (i =? j)%nat then cs' else css j).
    split; [reflexivity|]. split.
    + constructor.
      * intros j. rewrite !nth_lset. destruct (Nat.eqb_spec i j) as [<-|Hne].
        { rewrite Em, Es. split; [exact HR'|reflexivity]. }
        pose proof (w_rep _ _ _ _ HW j) as Hr.
        destruct (nth_error ms j) as [[m0|]|], (nth_error ss j) as [[s|]|]; auto.
        destruct Hr as [Hr Hs]. split; [|exact Hs]. eapply rep_ext; [exact Hr|]. intros b Hb. apply Hfr1.
        -- intros Hin. exact (w_disj _ _ _ _ HW i j b Hne Hin Hb).
        -- intros ->. now apply (w_live _ _ _ _ _ _ HW Hb).
      * assert (Hcs : forall j b, i <> j -> In b (addrs cs') -> In b (addrs (css j)) -> False).
        { intros j b Hne Hb Hj. destruct (Hfr2 b Hb) as [Hin| ->].
          - exact (w_disj _ _ _ _ HW i j b Hne Hin Hj).
          - now apply (w_live _ _ _ _ _ _ HW Hj). }
        intros j k b Hne. destruct (Nat.eqb_spec i j) as [<-|Hj], (Nat.eqb_spec i k) as [<-|Hk]; intros H1 H2.
        -- congruence.
        -- now apply (Hcs k b).
        -- now apply (Hcs j b).
        -- now apply (w_disj _ _ _ _ HW j k b).
    + intros b Hb Hnb. rewrite Hfr1; [exact Hb| |intros ->; apply Hnb; now left].
      intros Hin. now apply (w_live _ _ _ _ _ _ HW Hin).
  - pose proof (w_rep _ _ _ _ HW i) as Hr.
    destruct (nth_error ms i) as [[m|]|] eqn:Em, (nth_error ss i) as [[s|]|] eqn:Es; try contradiction; auto.
    destruct Hr as [HR ->]. rewrite (rep_length _ _ _ HR) in Hlen.
    destruct (clone_ok h m (css i) al HR Hf Hlen) as (h' & m' & cs' & E & HR' & Hsnd & Hn & He & Hin).
    rewrite E. cbn [bind]. eexists; eexists. split; [reflexivity|]. split.
    + replace (match map snd (css i) with [] => 0 | _ => m_next m end) with (m_next m').
      2: { rewrite Hn. now destruct (css i). }
      rewrite <- Hsnd. eapply w_add; eauto.
    + intros b Hb Hnb. now rewrite He.
  - pose proof (w_rep _ _ _ _ HW i) as Hr.
    destruct (nth_error ms i) as [[m|]|] eqn:Em, (nth_error ss i) as [[s|]|] eqn:Es; try contradiction; auto.
    destruct Hr as [HR ->].
    eexists; exists (fun j => if (i =? j)%nat then [] else css j). split; [reflexivity|].
    assert (Hex : forall b, existsb (fun p => b =? snd p) (m_map m) = true <-> In b (addrs (css i))).
    { intros b. rewrite existsb_exists. split.
      - intros ([k a] & Hin & E). apply Z.eqb_eq in E. cbn [snd] in E. subst a.
        apply (Permutation_in _ (r_map _ _ _ HR)) in Hin. unfold entries in Hin. apply in_map_iff in Hin as (c & E & Hin).
        injection E as _ <-. now apply in_map.
      - intros Hin. apply in_map_iff in Hin as (c & <- & Hin).
        exists (fst (snd c), fst c). split; [|cbn [snd]; apply Z.eqb_refl].
        apply (Permutation_in _ (Permutation_sym (r_map _ _ _ HR))). unfold entries. now apply (in_map (fun c => (fst (snd c), fst c))). }
    split; [constructor|].
    + intros j. rewrite !nth_lset. destruct (Nat.eqb_spec i j) as [<-|Hne]; [now rewrite Em, Es|].
      pose proof (w_rep _ _ _ _ HW j) as Hr.
      destruct (nth_error ms j) as [[m0|]|], (nth_error ss j) as [[s|]|]; auto.
      destruct Hr as [Hr Hs]. split; [|exact Hs]. eapply rep_ext; [exact Hr|]. intros b Hb.
      unfold drop_map. rewrite drop_map_in. destruct (existsb _ (m_map m)) eqn:Ex; [|reflexivity].
      apply Hex in Ex. exfalso. exact (w_disj _ _ _ _ HW i j b Hne Ex Hb).
    + intros j k b Hne. destruct (Nat.eqb_spec i j) as [<-|Hj], (Nat.eqb_spec i k) as [<-|Hk]; intros H1 H2;
        [destruct H1|destruct H1|destruct H2|now apply (w_disj _ _ _ _ HW j k b)].
    + intros b Hb _. unfold drop_map. rewrite drop_map_in. now destruct (existsb _ _).
Qed.

Lemma w_run : forall prog h ms ss css, WInv h ms ss css -> prog_ok ss (map snd prog) ->
  match wrun h ms prog with
  | Ok (h', ms', rs) => exists ss' css', awrun ss (map snd prog) = Some (ss', rs) /\ WInv h' ms' ss' css'
  | Err => True
  | Panic => False
  end.
Proof.
  induction prog as [|[al o] prog IH]; intros h ms ss css HW Hok.
  - cbn [wrun map awrun]. eauto.
  - cbn [wrun map snd awrun prog_ok] in *. destruct Hok as [H1 H2].
    pose proof (w_step h ms ss css al o HW H1) as Hs.
    destruct (wstep al h ms o) as [[[h' ms'] r]| |]; cbn [bind]; [|exact I|exact Hs].
    destruct Hs as (ss' & css' & Ea & HW' & _). rewrite Ea.
    specialize (IH h' ms' ss' css' HW' (H2 _ _ Ea)).
    destruct (wrun h' ms' prog) as [[[h2 ms2] rs]| |]; cbn [bind]; [|exact I|exact IH].
    destruct IH as (ss2 & css2 & Er & HW2). rewrite Er. eauto.
Qed.

Lemma w_init : WInv no_heap [] [] (fun _ => []).
Proof. constructor; [intros [|i]; reflexivity|intros i j b _ []]. Qed.

Lemma w_shows h ms ss css : WInv h ms ss css -> Forall2 (shows_opt h) ms ss.
Proof.
  intros HW. pose proof (w_rep _ _ _ _ HW) as Hr. pose proof (w_len _ _ _ _ HW) as Hl. clear HW.
  revert ss css Hr Hl. induction ms as [|m ms IH]; intros [|s ss] css Hr Hl; try discriminate; constructor.
  - specialize (Hr O). cbn [nth_error] in Hr. destruct m as [m|], s as [s|]; try destruct Hr; cbn [shows_opt]; auto.
    subst s. now apply rep_shows.
  - apply (IH ss (fun i => css (S i))); [|now injection Hl]. intros i. exact (Hr (S i)).
Qed.

Lemma run_shows prog : prog_ok [] (map snd prog) ->
  match wrun (V := V) no_heap [] prog with
  | Ok (h, ms, rets) => exists ss, awrun [] (map snd prog) = Some (ss, rets) /\ Forall2 (shows_opt h) ms ss
  | Err => True
  | Panic => False
  end.
Proof.
  intros Hok. pose proof (w_run prog no_heap [] [] _ w_init Hok) as H.
  destruct (wrun no_heap [] prog) as [[[h ms] rs]| |]; auto.
  destruct H as (ss & css & E & HW). exists ss. split; [exact E|]. now apply (w_shows _ _ _ css).
Qed.

(** ** addresses always exist *)

Fixpoint zrange (n : nat) (b : Z) : list Z := match n with O => [] | S n => b :: zrange n (b + 1) end.

Lemma zrange_in n b x : In x (zrange n b) -> b <= x < b + Z.of_nat n.
Proof. revert b. induction n as [|n IH]; intros b; cbn [zrange In]; [tauto|]. intros [->|H]; [lia|]. apply IH in H. lia. Qed.

Lemma zrange_ok h n b : 0 < b -> (forall x, b <= x -> h x = None) -> addresses_ok h (zrange n b) = true.
Proof.
  revert b. induction n as [|n IH]; intros b Hb Hh; cbn [zrange addresses_ok]; [reflexivity|].
  rewrite Hh, IH by (try lia; intros; apply Hh; lia).
  destruct (Z.eqb_spec b 0); [lia|]. cbn [negb andb]. destruct (existsb (Z.eqb b) (zrange n (b + 1))) eqn:E; [|reflexivity].
  apply existsb_exists in E as (x & Hx & Ex). apply Z.eqb_eq in Ex. subst x. apply zrange_in in Hx. lia.
Qed.
Lemma zrange_len n b : length (zrange n b) = n.
Proof. revert b. induction n as [|n IH]; intros b; cbn [zrange length]; [reflexivity|]. now rewrite IH. Qed.

Lemma w_exists : forall ops h ms ss css b, WInv h ms ss css -> prog_ok ss ops -> 0 < b -> (forall x, b <= x -> h x = None) ->
  forall out, awrun ss ops = Some out -> exists prog r, map snd prog = ops /\ wrun h ms prog = Ok r.
Proof.
  induction ops as [|o ops IH]; intros h ms ss css b HW Hok Hb Hh out Ho.
  - exists [], (h, ms, []). split; reflexivity.
  - cbn [awrun prog_ok] in *. destruct Hok as [H1 H2].
    pose proof (w_step h ms ss css (zrange (need ms o) b) o HW H1) as Hs.
    destruct (wstep (zrange (need ms o) b) h ms o) as [[[h' ms'] r]| |] eqn:Ew; [| |destruct Hs].
    + destruct Hs as (ss' & css' & Ea & HW' & Hq). rewrite Ea in Ho.
      destruct (awrun ss' ops) as [[ss2 rs]|] eqn:Er; [|discriminate].
      destruct (IH h' ms' ss' css' (b + Z.of_nat (need ms o)) HW' (H2 _ _ Ea)) with (out := (ss2, rs))
        as (prog & [[h2 ms2] rs2] & Em & E2); auto; [lia| |].
      { intros x Hx. apply Hq; [apply Hh; lia|]. intros Hin. apply zrange_in in Hin. lia. }
      exists ((zrange (need ms o) b, o) :: prog), (h2, ms2, r :: rs2). split; [cbn [map snd]; now rewrite Em|].
      cbn [wrun]. rewrite Ew. cbn [bind]. now rewrite E2.
    + exfalso. destruct Hs as [Hs|[Hs|Hs]].
      * rewrite zrange_ok in Hs by assumption. discriminate.
      * apply Hs, zrange_len.
      * rewrite Hs in Ho. discriminate.
Qed.

Lemma run_exists (ops : list (wop V)) out : prog_ok [] ops -> awrun [] ops = Some out ->
  exists prog r, map snd prog = ops /\ wrun no_heap [] prog = Ok r.
Proof. intros Hok Ho. apply (w_exists ops no_heap [] [] _ 1 w_init Hok) with (out := out); auto; lia. Qed.

(** ** a reachable list *)

Lemma reach_rep h m (l : items) n : reachable h m l n -> exists cs, Rep h m cs /\ l = map snd cs /\ n = m_next m.
Proof.
  intros (prog & ms & rets & ss & rets' & i & Hok & Hrun & Hawrun & Hm & Hs).
  pose proof (w_run prog no_heap [] [] _ w_init Hok) as H. rewrite Hrun in H. destruct H as (ss2 & css & E & HW).
  rewrite Hawrun in E. injection E as <- <-.
  pose proof (w_rep _ _ _ _ HW i) as Hr. rewrite Hm, Hs in Hr. destruct Hr as [HR Es]. injection Es as -> ->. eauto.
Qed.

(** ** public programs *)

Definition below (s : astate (V := V)) : Prop := 0 <= snd s /\ forall id, In id (ids (fst s)) -> 0 <= id < snd s.

Lemma in_without (l : items) id x : In x (ids (without id l)) -> In x (ids l).
Proof. unfold ids, without. rewrite !in_map_iff. intros (p & E & Hin). apply filter_In in Hin as [Hin _]. eauto. Qed.
Lemma in_removelast {A} (l : list A) x : In x (removelast l) -> In x l.
Proof. induction l as [|y [|z l] IH]; cbn [removelast In] in *; [tauto|tauto|]. intros [->|H]; auto. Qed.
Lemma in_before k (y : Z * V) l x : In x (ids (before k y l)) -> x = fst y \/ In x (ids l).
Proof.
  induction l as [|z l IH]; cbn [before]; [cbn; tauto|]. destruct (fst z =? k); cbn [ids map In]; [intuition|].
  fold (ids l) (ids (before k y l)). intuition.
Qed.
Lemma in_after k (y : Z * V) l x : In x (ids (after k y l)) -> x = fst y \/ In x (ids l).
Proof.
  induction l as [|z l IH]; cbn [after]; [cbn; tauto|]. destruct (fst z =? k); cbn [ids map In]; [intuition|].
  fold (ids l) (ids (after k y l)). intuition.
Qed.
Lemma lookup_in id (l : items) v : lookup id l = Some v -> In id (ids l).
Proof. intros H. apply has_in. unfold has. now rewrite H. Qed.
Lemma ids_assign id v (l : items) : ids (assign id v l) = ids l.
Proof. unfold ids, assign. rewrite map_map. apply map_ext. intros p. now destruct (fst p =? id). Qed.

Lemma below_step s o : below s -> public o ->
  below (fst (astep s o)) /\ snd s <= snd (fst (astep s o)) <= snd s + 1.
Proof.
  destruct s as [l n]. intros [Hn Hb] Hp. cbn [fst snd] in *. unfold below.
  destruct o; cbn [public] in Hp; try contradiction; cbn [astep fst snd].
  - split; [|lia]. split; [lia|]. intros id Hin. rewrite ids_app, in_app_iff in Hin. destruct Hin as [Hin|[<-|[]]]; [apply Hb in Hin; lia|cbn; lia].
  - split; [|lia]. split; [lia|]. intros id [<-|Hin]; [cbn; lia|]. apply Hb in Hin. lia.
  - split; [|lia]. split; [lia|]. intros k Hin. apply in_without in Hin. now apply Hb.
  - split; [|lia]. split; [lia|]. intros k Hin. apply Hb. destruct l; [destruct Hin|now right].
  - split; [|lia]. split; [lia|]. intros k Hin. apply Hb. unfold ids in *. apply in_map_iff in Hin as (x & <- & Hin). apply in_removelast in Hin. now apply in_map.
  - destruct (lookup id l) eqn:E; cbn [fst snd]; (split; [|lia]); (split; [lia|]); [|exact Hb].
    apply lookup_in in E. intros k [<-|Hin]; [now apply Hb|]. apply in_without in Hin. now apply Hb.
  - destruct (lookup id l) eqn:E; cbn [fst snd]; (split; [|lia]); (split; [lia|]); [|exact Hb].
    apply lookup_in in E. intros k Hin. rewrite ids_app, in_app_iff in Hin. destruct Hin as [Hin|[<-|[]]]; [apply in_without in Hin|]; now apply Hb.
  - destruct (lookup id l) eqn:E; cbn [fst snd]; [destruct ((id =? next_items_id) || negb (has next_items_id l)); cbn [fst snd]|]; (split; [|lia]); (split; [lia|]); try exact Hb.
    apply lookup_in in E. intros k Hin. apply in_before in Hin as [->|Hin]; [now apply Hb|]. apply in_without in Hin. now apply Hb.
  - destruct (lookup id l) eqn:E; cbn [fst snd]; [destruct ((id =? prev_items_id) || negb (has prev_items_id l)); cbn [fst snd]|]; (split; [|lia]); (split; [lia|]); try exact Hb.
    apply lookup_in in E. intros k Hin. apply in_after in Hin as [->|Hin]; [now apply Hb|]. apply in_without in Hin. now apply Hb.
  - split; [|lia]. split; [lia|]. intros k Hin. rewrite ids_assign in Hin. now apply Hb.
Qed.

Lemma below_op_ok s o : below s -> public o -> snd s + 1 < 2 ^ 64 -> op_ok s o.
Proof.
  destruct s as [l n]. intros [Hn Hb] Hp Hov. cbn [fst snd] in *.
  destruct o; cbn [public op_ok fst snd] in *; auto; split; auto; intros Hin; apply Hb in Hin; lia.
Qed.

End Proofs4.
