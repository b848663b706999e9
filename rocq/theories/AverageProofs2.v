From Verif Require Import Base CompactionModel FloatModel PhaseModel PhaseSpec PhaseProofs AverageModel AverageSpec AverageProofs.

(** ** Limits *)

Lemma ascending_below l s size : ascending l -> s <= size -> forall k, nth_error l k = Some s -> (length (filter (fun x => (size <? x)%Z) l) < length l - k)%nat.
Proof.
  intros A Le. induction A as [|x l F A IH]; intros k N; [destruct k; discriminate N|]. destruct k as [|k]; cbn [nth_error] in N.
  - apply Some_inj in N. subst x. cbn [filter length]. destruct (Z.ltb_spec size s); [lia|].
    assert (forall m : list Z, length (filter (fun x => (size <? x)%Z) m) <= length m)%nat as Q; [|specialize (Q l); lia].
    induction m as [|y m IHm]; [reflexivity|]. cbn [filter length]. destruct (size <? y); cbn [length]; lia.
  - assert (In s l) by (eapply nth_error_In; eassumption). rewrite Forall_forall in F. specialize (F s ltac:(assumption)).
    specialize (IH k N). cbn [filter length]. destruct (Z.ltb_spec size x); [lia|]. lia.
Qed.

Lemma nth_not_larger d nth s size : 1 <= nth -> get_nth_largest d nth = Ok (Some s) -> s <= size -> ~ larger nth size d.
Proof.
  unfold get_nth_largest, larger. intros N. destruct (Z.eqb_spec nth 0); [lia|]. destruct (Z.ltb_spec (zlen (sort (map my_size d))) nth); [discriminate|].
  intros E Le. apply Ok_inj in E. apply (ascending_below _ _ _ (sort_ascending _) Le) in E. rewrite filter_sort in E. unfold zlen in *. rewrite sort_length, map_length in *.
  assert (length (filter (fun x => size <? x) (map my_size d)) = length (filter (fun it => size <? my_size it) d)) as Q; [|lia].
  clear. induction d as [|a d IH]; [reflexivity|]. cbn [map filter]. destruct (size <? my_size a); cbn [length]; lia.
Qed.

Lemma over_limit_spec op d it q : desc_len it = zlen (tl q) -> desc_size it = total (tl q) ->
  (forall c nth, cumul op = Some c -> limit_nth c = Some nth -> 1 <= nth <= zlen d) ->
  exists o : bool, over_limit d op it = Ok o /\ if o then at_limit op d q else ~ at_limit op d q.
Proof.
  intros L T N. unfold over_limit, at_limit. destruct (cumul op) as [c|] eqn:C; [|exists false; split; [reflexivity|intros (c & E & _); discriminate]].
  destruct (limit_count c) as [n|] eqn:Lc; [destruct (Z.leb_spec n (desc_len it)) as [Q|Q]|].
  { exists true. split; [reflexivity|]. exists c. split; [reflexivity|]. left. exists n. split; [exact Lc|lia]. }
  all: destruct (limit_nth c) as [m|] eqn:Ln; [|exists false; split; [reflexivity|intros (c' & E & [(n' & E1 & E2)|(n' & E1 & _)]); apply Some_inj in E; subst c';
    [rewrite Lc in E1; first [discriminate E1|apply Some_inj in E1; lia]|congruence]]].
  all: specialize (N c m eq_refl Ln); destruct (get_nth_total d m N) as [s G]; rewrite G; cbn [bind]; (destruct s as [s|];
    [|exfalso; unfold get_nth_largest in G; destruct (Z.eqb_spec m 0); [lia|]; destruct (Z.ltb_spec (zlen (sort (map my_size d))) m); [discriminate G|];
      apply Ok_inj in G; apply nth_error_None in G; unfold zlen in *; lia]).
  all: eexists; split; [reflexivity|]; destruct (Z.leb_spec s (desc_size it)) as [Z0|Z0].
  1,3: exists c; split; [reflexivity|]; right; exists m; split; [exact Ln|]; rewrite <- T; apply (nth_not_larger d m s); [lia|exact G|exact Z0].
  all: intros (c' & E & [(n' & E1 & E2)|(n' & E1 & E2)]); apply Some_inj in E; subst c'; [rewrite Lc in E1; first [discriminate E1|apply Some_inj in E1; lia]|].
  all: rewrite Ln in E1; apply Some_inj in E1; subst n'; apply E2; rewrite <- T; apply (nth_larger d m s); [lia|exact G|exact Z0].
Qed.

(** ** Groups *)

Lemma group saves d j it : kept saves d -> nth_error d j = Some it ->
  exists g, since j saves g /\ my_size it + desc_size it = total g /\ 1 + desc_len it = zlen g /\
    desc_size it = total (tl g) /\ desc_len it = zlen (tl g) /\ 0 <= total g <= total saves /\ 1 <= zlen g <= zlen saves.
Proof.
  intros K N. pose proof (kept_nonneg _ _ K) as NN. destruct (kept_exact _ _ K) as [_ X]. destruct (X j it N) as (b & a & E & F & S0 & L0).
  exists ((j, my_size it) :: a). split; [exists b, (my_size it), a; auto|]. rewrite E in NN. apply Forall_app in NN as [N1 N2].
  pose proof (total_nonneg _ N1). pose proof (total_nonneg _ N2) as T2. pose proof (zlen_nonneg b). pose proof (zlen_nonneg a).
  rewrite E, total_app, zlen_app, zlen_cons. cbn [tl total snd] in *. lia.
Qed.

Lemma shift_spec saves g q sg sq dq lg lq : precise saves -> 0 <= total g <= total saves -> 0 <= total q <= total saves ->
  1 <= zlen g <= zlen saves -> 1 <= zlen q <= zlen saves -> sg = total g -> lg = zlen g -> sq + dq = total q -> 1 + lq = zlen q ->
  should_shift f64_greater sq dq lq sg lg = Ok (total q * zlen g <? total g * zlen q).
Proof.
  intros [P1 P2] G1 Q1 G2 Q2 -> -> S0 L0. unfold should_shift. change (2 ^ 51) with 2251799813685248 in *.
  assert (total saves < 2251799813685248) by nia.
  rewrite uadd_fits by (rewrite S0; lia). cbn [bind]. rewrite S0. rewrite uadd_fits by lia. cbn [bind]. rewrite (uadd_fits 1) by (rewrite L0; lia). cbn [bind]. rewrite L0.
  rewrite uadd_fits by lia. cbn [bind]. f_equal. change (2 ^ 53) with 9007199254740992 in *.
  assert (A : forall x y, 0 <= x <= total saves -> 1 <= y <= zlen saves -> x * y <= total saves * zlen saves).
  { intros x y X Y. apply Z.mul_le_mono_nonneg; lia. }
  pose proof (A (total q) (zlen g) Q1 G2). pose proof (A (total q) (zlen q) Q1 Q2). pose proof (A (total g) (zlen q) G1 Q2).
  rewrite greater_exact; try (change (2 ^ 53) with 9007199254740992; lia).
Qed.

Lemma firstn_snoc {A} (l : list A) k x : nth_error l k = Some x -> firstn (S k) l = firstn k l ++ [x].
Proof.
  revert l. induction k as [|k IH]; intros [|y l] H; try discriminate H; cbn in *.
  - apply Some_inj in H. now subst y.
  - f_equal. now apply IH.
Qed.

Lemma climb_spec op saves d : kept saves d -> precise saves -> length d = S (max_phase op) ->
  (max_phase op = 0%nat -> update_phase_0 op = true) ->
  (forall c nth, cumul op = Some c -> limit_nth c = Some nth -> 1 <= nth <= zlen d) ->
  forall k i, (i + k = length d)%nat -> (1 <= k)%nat -> (forall j, (k - 1 < j <= max_phase op)%nat -> rises op saves d j) ->
  exists p, climb f64_greater d op i (rev (firstn k d)) = Ok p /\ next_save op saves d p.
Proof.
  intros K P L U N. induction k as [|k IH]; intros i I K1 R; [lia|].
  destruct (nth_error d k) as [it|] eqn:Nk; [|apply nth_error_None in Nk; lia].
  rewrite (firstn_snoc d k it Nk), rev_app_distr. change (rev [it] ++ rev (firstn k d)) with (it :: rev (firstn k d)).
  destruct k as [|k'].
  - cbn [firstn rev climb]. eexists. split; [reflexivity|]. replace (1 - 1)%nat with 0%nat in R by lia.
    destruct (update_phase_0 op) eqn:E.
    + split; [lia|]. split; [intros j J; apply R; lia|]. left. auto.
    + assert (max_phase op <> 0)%nat by (intros Z0; specialize (U Z0); discriminate). split; [lia|]. split; [intros j J; apply R; lia|].
      right. left. split; [reflexivity|]. split; [exact E|]. apply R. lia.
  - set (k := S k') in *. destruct (nth_error d k') as [pa|] eqn:Np; [|apply nth_error_None in Np; lia].
    assert (Q : exists r, rev (firstn k d) = pa :: r).
    { exists (rev (firstn k' d)). unfold k. rewrite (firstn_snoc d k' pa Np), rev_app_distr. reflexivity. }
    destruct Q as [r Q]. destruct (group saves d k it K Nk) as (g & G1 & G2 & G3 & G4 & G5 & G6 & G7).
    destruct (group saves d k' pa K Np) as (q & Q1 & Q2 & Q3 & Q4 & Q5 & Q6 & Q7).
    assert (C : forall (o : bool), rises op saves d k -> exists p, climb f64_greater d op (S i) (rev (firstn k d)) = Ok p /\ next_save op saves d p).
    { intros _ R0. apply IH; [lia|lia|]. intros j J. destruct (Nat.eq_dec j k) as [->|]; [exact R0|]. apply R. lia. }
    cbn [climb]. rewrite Q. rewrite Q in C. 
    assert (B : total saves < 2 ^ 51 /\ zlen saves < 2 ^ 51) by (destruct P as [P1 P2]; split; [nia|assumption]). change (2 ^ 51) with 2251799813685248 in B.
    rewrite uadd_fits by lia. cbn [bind]. rewrite uadd_fits by lia. cbn [bind].
    rewrite (shift_spec saves g q) by (assumption || lia). cbn [bind].
    assert (S1 : since (k - 1) saves q) by (replace (k - 1)%nat with k' by lia; exact Q1).
    destruct (Z.ltb_spec (total q * zlen g) (total g * zlen q)) as [H|H].
    + apply (C true). exists g, q. split; [exact G1|]. split; [exact S1|]. left. exact H.
    + destruct i as [|i].
      * destruct (over_limit_spec op d pa q Q5 Q4 N) as (o & O1 & O2). rewrite O1. cbn [bind]. destruct o.
        -- apply (C true). exists g, q. split; [exact G1|]. split; [exact S1|]. right. split; [lia|exact O2].
        -- eexists. split; [reflexivity|]. replace (length d - 1)%nat with k by lia. split; [lia|]. split; [intros j J; lia|].
           right. right. split; [lia|]. exists g, q. split; [exact G1|]. split; [exact S1|]. split; [unfold heavier; lia|]. intros _. exact O2.
      * eexists. split; [reflexivity|]. replace (length d - 1 - S i)%nat with k by lia. split; [lia|]. split; [intros j J; apply R; lia|].
        right. right. split; [lia|]. exists g, q. split; [exact G1|]. split; [exact S1|]. split; [unfold heavier; lia|]. intros Z0. lia.
Qed.

Lemma choice b op saves d : build b = Ok op -> recorded op saves d -> precise saves -> length d = S (max_phase op) ->
  (forall c nth, cumul op = Some c -> limit_nth c = Some nth -> 1 <= nth <= Z.of_nat (max_phase op) + 1) ->
  exists p, calc_next_phase f64_greater d op = Ok p /\ next_save op saves d p.
Proof.
  intros B R P L N. destruct (recorded_kept _ _ _ _ B R) as [K _]. destruct (build_ok _ _ B) as (_ & U & _). unfold calc_next_phase.
  destruct (Nat.leb_spec (length d) (max_phase op)); [lia|]. replace (rev d) with (rev (firstn (length d) d)) by (now rewrite firstn_all).
  apply (climb_spec op saves d K P L U); [|lia|lia|intros j J; lia]. intros c nth E1 E2. specialize (N c nth E1 E2). unfold zlen. lia.
Qed.

(** ** The specification determines the position *)

Lemma since_one j saves g g' : since j saves g -> since j saves g' -> g = g'.
Proof.
  intros (b & s & a & E & G & F) (b' & s' & a' & E' & G' & F'). rewrite E in E'. subst g g'.
  assert (X : forall (l b' a' : list save) s', b' ++ (j, s') :: a' = (l ++ (j, s) :: a) -> Forall (fun e => (j < fst e)%nat) a' -> (length b' < length l)%nat -> False).
  { clear. induction l as [|x l IH]; intros b' a' s' E F L; [cbn in L; lia|]. destruct b' as [|y b'].
    - cbn in E. inversion E; subst. apply Forall_app in F as [_ F]. inversion F; subst. cbn in *. lia.
    - cbn in E. inversion E; subst. eapply IH; [eassumption|eassumption|cbn in L; lia]. }
  assert (Y : forall (l b' a a' : list save) s s', b' ++ (j, s') :: a' = (l ++ (j, s) :: a) -> length b' = length l -> (j, s) :: a = (j, s') :: a').
  { clear. induction l as [|x l IH]; intros [|y b'] a a' s s' E L; try discriminate L; cbn in *.
    - inversion E; subst; reflexivity.
    - inversion E; subst. eapply IH; [eassumption|lia]. }
  destruct (Nat.lt_trichotomy (length b) (length b')) as [Q|[Q|Q]].
  - exfalso. clear X Y. 
    assert (X : forall (l b a : list save) s s' a', b ++ (j, s) :: a = (l ++ (j, s') :: a') -> Forall (fun e => (j < fst e)%nat) a -> (length b < length l)%nat -> False).
    { clear. induction l as [|x l IH]; intros b a s s' a' E F L; [cbn in L; lia|]. destruct b as [|y b].
      - cbn in E. inversion E; subst. apply Forall_app in F as [_ F]. inversion F; subst. cbn in *. lia.
      - cbn in E. inversion E; subst. eapply IH; [eassumption|eassumption|cbn in L; lia]. }
    eapply X; eassumption.
  - eapply Y; [symmetry; exact E'|lia].
  - exfalso. eapply X; [symmetry; exact E'|exact F'|exact Q].
Qed.

Lemma not_both op saves d j : rises op saves d j -> stays op saves d j -> False.
Proof.
  intros (g & q & G & Q & H) (g' & q' & G' & Q' & H1 & H2). pose proof (since_one _ _ _ _ G G') as <-. pose proof (since_one _ _ _ _ Q Q') as <-.
  destruct H as [H|[E H]]; [auto|]. now apply H2.
Qed.

Lemma next_save_one op saves d p p' : next_save op saves d p -> next_save op saves d p' -> (1 <= p /\ 1 <= p' \/ update_phase_0 op = true)%nat -> p = p'.
Proof.
  assert (A : forall p p', next_save op saves d p -> next_save op saves d p' -> (1 <= p /\ 1 <= p' \/ update_phase_0 op = true)%nat -> (p <= p')%nat).
  { clear. intros p p' (L & R & H) (L' & R' & H') U. destruct (Nat.le_gt_cases p p') as [|G]; [assumption|exfalso].
    destruct H as [[-> _]|[(-> & E & _)|[_ H]]]; [lia| |].
    - destruct U as [U|U]; [lia|congruence].
    - eapply not_both; [apply R'|exact H]. lia. }
  intros H H' U. apply Nat.le_antisymm; apply A; auto. tauto.
Qed.
Lemma next_save_low op saves d p : next_save op saves d p -> update_phase_0 op = false -> (1 <= p)%nat.
Proof. intros (_ & _ & [[_ E]|[(-> & _)|[H _]]]) U; [congruence|lia|exact H]. Qed.

Lemma next_save_unique op saves d p p' : next_save op saves d p -> next_save op saves d p' -> p = p'.
Proof.
  intros H H'. apply (next_save_one op saves d); [assumption|assumption|]. destruct (update_phase_0 op) eqn:U; [now right|left].
  split; eapply next_save_low; eassumption.
Qed.
