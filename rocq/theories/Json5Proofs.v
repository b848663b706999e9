(** Proofs about the rules for blanks, numbers, strings and keys (C50). *)
From Coq Require Import String.
From Verif Require Import Base FloatModel CompactionModel StringCompactionModel ArchiveModel DocModel JsonModel Json5Model Json5Spec.

(* ------------------------------------------------------------------ *)
(** * pest *)

Inductive runs {A} (p : list Z -> option (A * list Z)) : list Z -> list A -> list Z -> Prop :=
| runs_stop s : p s = None -> runs p s [] s
| runs_step s a r l r' : p s = Some (a, r) -> runs p r l r' -> runs p s (a :: l) r'.

Definition progress {A} (p : list Z -> option (A * list Z)) : Prop := forall s a r, p s = Some (a, r) -> (length r < length s)%nat.

Lemma rounds_runs A (p : list Z -> option (A * list Z)) n : progress p -> forall s, (length s <= n)%nat ->
  runs p s (fst (rounds n p s)) (snd (rounds n p s)).
Proof.
  intros P. induction n as [|n IH]; intros s Hn.
  - destruct s; [|cbn in Hn; lia]. cbn. apply runs_stop. destruct (p []) as [[a r]|] eqn:E; [|reflexivity]. apply P in E. cbn in E. lia.
  - cbn [rounds]. destruct (p s) as [[a r]|] eqn:E; [|apply runs_stop; exact E].
    pose proof (P _ _ _ E) as L. specialize (IH r ltac:(lia)). destruct (rounds n p r) as [l r'] eqn:E2. cbn [fst snd] in *. eapply runs_step; eassumption.
Qed.

Lemma runs_det A (p : list Z -> option (A * list Z)) s l r : runs p s l r -> forall l' r', runs p s l' r' -> l = l' /\ r = r'.
Proof.
  induction 1 as [s E|s a r l r' E R IH]; intros l2 r2 R2; inversion R2 as [s0 E0|s0 a0 r0 l0 r0' E0 R0]; subst; try congruence.
  - split; reflexivity.
  - rewrite E in E0. apply (f_equal (fun o => match o with Some x => x | None => (a, r) end)), pair_equal_spec in E0 as [<- <-].
    destruct (IH _ _ R0) as [-> ->]. split; reflexivity.
Qed.

Lemma many_runs A (p : list Z -> option (A * list Z)) s l r : progress p -> (many p s = (l, r) <-> runs p s l r).
Proof.
  intros P. pose proof (rounds_runs A p (length s) P s (le_n _)) as R. unfold many. split; intros H.
  - rewrite H in R. exact R.
  - destruct (rounds (length s) p s) as [l0 r0]. destruct (runs_det _ _ _ _ _ R _ _ H) as [<- <-]. reflexivity.
Qed.

Lemma one_some f s a r : one f s = Some (a, r) -> exists c, a = [c] /\ s = c :: r /\ f c = true.
Proof.
  unfold one. destruct s as [|c s]; [discriminate|]. destruct (f c) eqn:E; [|discriminate]. intros H. injection H as <- <-. exists c. auto.
Qed.
Lemma one_cons f c r : f c = true -> one f (c :: r) = Some ([c], r).
Proof. intros H. unfold one. rewrite H. reflexivity. Qed.
Lemma one_none f c r : f c = false -> one f (c :: r) = None.
Proof. intros H. unfold one. rewrite H. reflexivity. Qed.
Lemma chr_some x s a r : chr x s = Some (a, r) -> a = [x] /\ s = x :: r.
Proof. intros H. apply one_some in H as (c & -> & -> & H). apply Z.eqb_eq in H. subst. auto. Qed.
Lemma chr_cons x r : chr x (x :: r) = Some ([x], r).
Proof. apply one_cons, Z.eqb_refl. Qed.
Lemma chr_none x c r : c <> x -> chr x (c :: r) = None.
Proof. intros H. apply one_none, Z.eqb_neq. congruence. Qed.
Lemma one_progress f : progress (one f).
Proof. intros s a r H. apply one_some in H as (c & _ & -> & _). cbn. lia. Qed.
Lemma seq_some p q s a r : seq p q s = Some (a, r) -> exists a1 r1 a2, p s = Some (a1, r1) /\ q r1 = Some (a2, r) /\ a = a1 ++ a2.
Proof.
  unfold seq. destruct (p s) as [[a1 r1]|] eqn:E1; [|discriminate]. destruct (q r1) as [[a2 r2]|] eqn:E2; [|discriminate].
  intros H. injection H as <- <-. exists a1, r1, a2. auto.
Qed.
Lemma seq_ok p q s a1 r1 a2 r : p s = Some (a1, r1) -> q r1 = Some (a2, r) -> seq p q s = Some (a1 ++ a2, r).
Proof. intros H1 H2. unfold seq. rewrite H1, H2. reflexivity. Qed.
Lemma seq_none1 p q s : p s = None -> seq p q s = None.
Proof. intros H. unfold seq. rewrite H. reflexivity. Qed.
Lemma seq_none2 p q s a1 r1 : p s = Some (a1, r1) -> q r1 = None -> seq p q s = None.
Proof. intros H1 H2. unfold seq. rewrite H1, H2. reflexivity. Qed.
Lemma alt_some p q s x : alt p q s = Some x -> p s = Some x \/ (p s = None /\ q s = Some x).
Proof. unfold alt. destruct (p s); auto. Qed.
Lemma alt_1 p q s x : p s = Some x -> alt p q s = Some x.
Proof. intros H. unfold alt. rewrite H. reflexivity. Qed.
Lemma alt_2 p q s x : p s = None -> q s = x -> alt p q s = x.
Proof. intros H E. unfold alt. rewrite H. exact E. Qed.
Lemma opt_some p s a r : opt p s = Some (a, r) -> p s = Some (a, r) \/ (p s = None /\ a = [] /\ r = s).
Proof. unfold opt. destruct (p s) as [x|]; [auto|]. intros H. injection H as <- <-. auto. Qed.
Lemma opt_1 p s x : p s = Some x -> opt p s = Some x.
Proof. intros H. unfold opt. rewrite H. reflexivity. Qed.
Lemma opt_0 p s : p s = None -> opt p s = Some ([], s).
Proof. intros H. unfold opt. rewrite H. reflexivity. Qed.

Definition stop (f : Z -> bool) (r : list Z) : Prop := match r with [] => True | c :: _ => f c = false end.
Lemma stop_one f r : stop f r -> one f r = None.
Proof. destruct r as [|c r]; [reflexivity|]. apply one_none. Qed.

Lemma runs_class f s l r : runs (one f) s l r -> s = concat l ++ r /\ forallb f (concat l) = true /\ stop f r.
Proof.
  induction 1 as [s E|s a r l r' E R (-> & F & S)].
  - split; [reflexivity|]. split; [reflexivity|]. destruct s as [|c s]; [exact Logic.I|]. unfold one in E. cbn. destruct (f c); [discriminate|reflexivity].
  - apply one_some in E as (c & -> & -> & Ec). cbn. rewrite Ec. auto.
Qed.
Lemma class_runs f ds r : forallb f ds = true -> stop f r -> exists l, runs (one f) (ds ++ r) l r /\ concat l = ds.
Proof.
  intros F S. induction ds as [|c ds IH]; cbn [app].
  - exists []. split; [apply runs_stop, stop_one; exact S|reflexivity].
  - cbn in F. apply andb_true_iff in F as [Fc F]. destruct (IH F) as (l & R & E). exists ([c] :: l). split; [|cbn; rewrite E; reflexivity].
    eapply runs_step; [apply one_cons; exact Fc|exact R].
Qed.
Lemma star_some f s a r : star (one f) s = Some (a, r) -> s = a ++ r /\ forallb f a = true /\ stop f r.
Proof.
  unfold star. destruct (many (one f) s) as [l r'] eqn:E. intros H. injection H as <- <-.
  apply (many_runs _ _ _ _ _ (one_progress f)) in E. apply runs_class; exact E.
Qed.
Lemma star_ok f ds r : forallb f ds = true -> stop f r -> star (one f) (ds ++ r) = Some (ds, r).
Proof.
  intros F S. destruct (class_runs f ds r F S) as (l & R & E). unfold star. apply (many_runs _ _ _ _ _ (one_progress f)) in R. rewrite R, E. reflexivity.
Qed.
Lemma plus_some f s a r : plus (one f) s = Some (a, r) -> s = a ++ r /\ a <> [] /\ forallb f a = true /\ stop f r.
Proof.
  intros H. apply seq_some in H as (a1 & r1 & a2 & H1 & H2 & ->). apply one_some in H1 as (c & -> & -> & Hc).
  apply star_some in H2 as (-> & F & S). cbn. rewrite Hc. repeat split; auto. discriminate.
Qed.
Lemma plus_ok f ds r : ds <> [] -> forallb f ds = true -> stop f r -> plus (one f) (ds ++ r) = Some (ds, r).
Proof.
  destruct ds as [|c ds]; [congruence|]. intros _ F S. cbn in F. apply andb_true_iff in F as [Fc F]. cbn [app].
  unfold plus. rewrite (seq_ok _ _ _ _ _ _ _ (one_cons f c (ds ++ r) Fc) (star_ok f ds r F S)). reflexivity.
Qed.
Lemma lit_some t : forall s a r, lit t s = Some (a, r) -> a = t /\ s = t ++ r.
Proof.
  induction t as [|c t IH]; intros s a r H; cbn [lit] in H.
  - injection H as <- <-. auto.
  - apply seq_some in H as (a1 & r1 & a2 & H1 & H2 & ->). apply chr_some in H1 as [-> ->]. apply IH in H2 as [-> ->]. auto.
Qed.
Lemma lit_ok t r : lit t (t ++ r) = Some (t, r).
Proof. induction t as [|c t IH]; [reflexivity|]. cbn [lit app]. rewrite (seq_ok _ _ _ _ _ _ _ (chr_cons c (t ++ r)) IH). reflexivity. Qed.
Lemma lit_none x t c r : c <> x -> lit (x :: t) (c :: r) = None.
Proof. intros H. cbn [lit]. apply seq_none1, chr_none. exact H. Qed.

(* ------------------------------------------------------------------ *)
(** * Blanks *)

Ltac member := first [left; reflexivity | right; member].

Lemma terminator_in c : line_terminator c = true <-> In c line_ends.
Proof.
  unfold line_terminator. rewrite !orb_true_iff, !Z.eqb_eq. cbn. intuition congruence.
Qed.
Lemma whitespace_in c : whitespace c = true <-> In c blanks.
Proof.
  unfold whitespace, space_separator. rewrite !orb_true_iff, andb_true_iff, !Z.eqb_eq, !Z.leb_le, terminator_in.
  unfold blanks. rewrite in_app_iff. split.
  - intros H. destruct (Z.eq_dec c 32) as [-> | N1]; [right; member|]. destruct (Z.eq_dec c 160) as [-> | N2]; [right; member|].
    assert (D : (In c line_ends \/ c = 9 \/ c = 11 \/ c = 12 \/ c = 65279 \/ c = 5760 \/ c = 8239 \/ c = 8287 \/ c = 12288) \/ 8192 <= c <= 8202) by intuition.
    destruct D as [D|D].
    + destruct D as [D|D]; [left; exact D|]. right. repeat (destruct D as [-> | D]; [member|]). subst. member.
    + right. assert (E : c = 8192 \/ c = 8193 \/ c = 8194 \/ c = 8195 \/ c = 8196 \/ c = 8197 \/ c = 8198 \/ c = 8199 \/ c = 8200 \/ c = 8201 \/ c = 8202) by lia.
      repeat (destruct E as [-> | E]; [member|]). subst. member.
  - intros [H|H]; [right; exact H|]. left. cbn in H. repeat (destruct H as [<- | H]; [lia|]). destruct H.
Qed.

Lemma block_end_some s : forall r, block_end s = Some r -> exists body, s = body ++ [42; 47] ++ r /\ forall a b, body <> a ++ [42; 47] ++ b.
Proof.
  assert (G : forall n s, (length s <= n)%nat -> forall r, block_end s = Some r -> exists body, s = body ++ [42; 47] ++ r /\ forall a b, body <> a ++ [42; 47] ++ b).
  { clear s. induction n as [|n IH]; intros s Hn r H; [destruct s; [discriminate|cbn in Hn; lia]|].
    destruct s as [|c s]; [discriminate|].
    assert (D : (exists s', c = 42 /\ s = 47 :: s' /\ r = s') \/ (block_end s = Some r /\ (c <> 42 \/ forall s', s <> 47 :: s'))).
    { clear - H. cbn [block_end] in H. destruct (Z.eq_dec c 42) as [-> | N].
      - destruct s as [|d s]; [right; split; [exact H|right; discriminate]|]. destruct (Z.eq_dec d 47) as [-> | N].
        + left. exists s. injection H as <-. auto.
        + right. split; [|right; congruence]. destruct d as [|d|d]; try exact H. do 6 (destruct d as [d|d|]; try exact H). congruence.
      - right. split; [|left; exact N]. destruct c as [|c|c]; try exact H. do 6 (destruct c as [c|c|]; try exact H). congruence. }
    destruct D as [(s' & -> & -> & ->)|[D N]].
    - exists []. split; [reflexivity|]. intros a b. destruct a; discriminate.
    - cbn in Hn. destruct (IH s ltac:(lia) r D) as (body & -> & F). exists (c :: body). split; [reflexivity|].
      intros a b E. destruct a as [|a0 a].
      + cbn in E. injection E as -> ->. destruct N as [N|N]; [congruence|]. apply (N (b ++ [42; 47] ++ r)). reflexivity.
      + injection E as -> E. apply (F a b E). }
  intros r H. apply (G (length s) s (le_n _) r H).
Qed.
Lemma block_end_ok body r : (forall a b, body <> a ++ [42; 47] ++ b) -> block_end (body ++ [42; 47] ++ r) = Some r.
Proof.
  induction body as [|c body IH]; intros F; [reflexivity|]. cbn [app].
  assert (I : block_end (body ++ [42; 47] ++ r) = Some r). { apply IH. intros a b E. apply (F (c :: a) b). rewrite E. reflexivity. }
  assert (D : block_end (c :: body ++ [42; 47] ++ r) = block_end (body ++ [42; 47] ++ r) \/ (c = 42 /\ exists s', body ++ [42; 47] ++ r = 47 :: s')).
  { generalize (body ++ [42; 47] ++ r). intros s. cbn [block_end]. destruct (Z.eq_dec c 42) as [-> | N].
    - destruct s as [|d s]; [auto|]. destruct (Z.eq_dec d 47) as [-> | N]; [right; eauto|]. left.
      destruct d as [|d|d]; try reflexivity. do 6 (destruct d as [d|d|]; try reflexivity). congruence.
    - left. destruct c as [|c|c]; try reflexivity. do 6 (destruct c as [c|c|]; try reflexivity). congruence. }
  destruct D as [D|[-> [s' D]]]; [exact (eq_trans D I)|]. exfalso. destruct body as [|d body]; [discriminate|].
  cbn in D. injection D as -> _. apply (F [] body). reflexivity.
Qed.
Lemma line_end_some s : exists body, s = body ++ line_end s /\ (forall x, In x body -> ~ In x line_ends) /\
  (line_end s = [] \/ exists c r, line_end s = c :: r /\ In c line_ends).
Proof.
  induction s as [|c s (body & E & F & D)]; cbn [line_end].
  - exists []. split; [reflexivity|]. split; [intros x []|auto].
  - destruct (line_terminator c) eqn:T.
    + exists []. split; [reflexivity|]. split; [intros x []|]. right. exists c, s. split; [reflexivity|apply terminator_in; exact T].
    + exists (c :: body). split; [cbn; f_equal; exact E|]. split; [|exact D]. intros x [<- | H]; [|apply F; exact H].
      intros H. apply terminator_in in H. congruence.
Qed.
Lemma line_end_ok body s : (forall x, In x body -> ~ In x line_ends) -> (s = [] \/ exists c r, s = c :: r /\ In c line_ends) -> line_end (body ++ s) = s.
Proof.
  intros F D. induction body as [|c body IH]; cbn [app].
  - destruct D as [-> | (c & r & -> & H)]; [reflexivity|]. cbn [line_end]. apply terminator_in in H. rewrite H. reflexivity.
  - cbn [line_end]. destruct (line_terminator c) eqn:T; [apply terminator_in in T; elim (F c); [left; reflexivity|exact T]|].
    apply IH. intros x H. apply F. right; exact H.
Qed.

(** what [blank] does, by the first characters *)
Lemma blank_cases c s : (c = 47 /\ exists r, s = 42 :: r /\ blank (c :: s) = match block_end r with Some r' => Some (tt, r') | None => None end) \/
  (c = 47 /\ exists r, s = 47 :: r /\ blank (c :: s) = Some (tt, line_end r)) \/
  (blank (c :: s) = if whitespace c then Some (tt, s) else None).
Proof.
  destruct (Z.eq_dec c 47) as [-> | N].
  - destruct s as [|d r]; [right; right; reflexivity|]. destruct (Z.eq_dec d 42) as [-> | N1]; [left; split; [reflexivity|]; exists r; auto|].
    destruct (Z.eq_dec d 47) as [-> | N2]; [right; left; split; [reflexivity|]; exists r; auto|].
    right; right. destruct d as [|d|d]; try reflexivity. do 6 (destruct d as [d|d|]; try reflexivity); congruence.
  - right; right. destruct c as [|c|c]; try reflexivity. do 6 (destruct c as [c|c|]; try reflexivity); congruence.
Qed.

Lemma blank_progress : progress blank.
Proof.
  intros s [] r H. destruct s as [|c s]; [discriminate|].
  destruct (blank_cases c s) as [(-> & r0 & -> & E)|[(-> & r0 & -> & E)|E]]; rewrite E in H.
  - destruct (block_end r0) as [r1|] eqn:B; [|discriminate]. injection H as <-. apply block_end_some in B as (body & -> & _).
    cbn. rewrite !app_length. cbn. lia.
  - injection H as <-. destruct (line_end_some r0) as (body & B & _). pose proof (f_equal (@length Z) B) as L. rewrite app_length in L. cbn. lia.
  - destruct (whitespace c); [|discriminate]. injection H as <-. cbn. lia.
Qed.

Lemma skip_step s : skip s = match blank s with Some (_, r) => skip r | None => s end.
Proof.
  unfold skip. destruct (many blank s) as [l r] eqn:E. apply (many_runs _ _ _ _ _ blank_progress) in E.
  inversion E as [s0 E0|s0 a r0 l0 r0' E0 R0]; subst; rewrite E0; [reflexivity|]. cbn. apply (many_runs _ _ _ _ _ blank_progress) in R0. rewrite R0. reflexivity.
Qed.
Lemma skip_none s : blank s = None -> skip s = s.
Proof. intros H. rewrite skip_step, H. reflexivity. Qed.
Lemma skip_done s : blank (skip s) = None.
Proof.
  assert (G : forall n s, (length s <= n)%nat -> blank (skip s) = None).
  { clear s. induction n as [|n IH]; intros s Hn; rewrite skip_step.
    - destruct s; [reflexivity|cbn in Hn; lia].
    - destruct (blank s) as [[[] r]|] eqn:E; [|exact E]. apply IH. apply blank_progress in E. lia. }
  apply (G (length s) s (le_n _)).
Qed.

Lemma gap_skip w r : gap w -> skip (w ++ r) = skip r.
Proof.
  intros G. induction G as [|c w H G IH|body w F G IH|body c w F H G IH].
  - reflexivity.
  - cbn [app]. rewrite skip_step. apply whitespace_in in H.
    destruct (blank_cases c (w ++ r)) as [(-> & _)|[(-> & _)|E]]; [discriminate H|discriminate H|]. rewrite E, H. exact IH.
  - rewrite skip_step. replace (([47; 42] ++ body ++ [42; 47] ++ w) ++ r) with ([47; 42] ++ body ++ [42; 47] ++ (w ++ r)) by (rewrite <- !app_assoc; reflexivity).
    cbn [app blank]. change (42 :: 47 :: (w ++ r)) with ([42; 47] ++ (w ++ r)). rewrite (block_end_ok body (w ++ r) F). exact IH.
  - rewrite skip_step. replace (([47; 47] ++ body ++ [c] ++ w) ++ r) with ([47; 47] ++ body ++ [c] ++ (w ++ r)) by (rewrite <- !app_assoc; reflexivity).
    cbn [app blank]. rewrite (line_end_ok body (c :: (w ++ r)) F) by (right; eauto).
    rewrite skip_step. apply terminator_in in H as T. assert (W : whitespace c = true) by (apply whitespace_in; unfold blanks; apply in_or_app; left; exact H).
    destruct (blank_cases c (w ++ r)) as [(-> & _)|[(-> & _)|E]]; [discriminate T|discriminate T|]. rewrite E, W. exact IH.
Qed.
Lemma last_gap_skip w : last_gap w -> skip w = [].
Proof.
  intros [G|(w' & body & -> & G & F)].
  - rewrite <- (app_nil_r w), (gap_skip w [] G). reflexivity.
  - rewrite (gap_skip w' _ G), skip_step. cbn [app blank]. rewrite <- (app_nil_r body), (line_end_ok body [] F) by auto. reflexivity.
Qed.

Lemma skip_some s : exists w, s = w ++ skip s /\ (gap w \/ (skip s = [] /\ last_gap w)).
Proof.
  assert (G : forall n s, (length s <= n)%nat -> exists w, s = w ++ skip s /\ (gap w \/ (skip s = [] /\ last_gap w))).
  { clear s. induction n as [|n IH]; intros s Hn.
    - destruct s; [|cbn in Hn; lia]. exists []. split; [reflexivity|left; constructor].
    - destruct s as [|c s]; [exists []; split; [reflexivity|left; constructor]|].
      destruct (blank_cases c s) as [(-> & r0 & -> & E)|[(-> & r0 & -> & E)|E]]; rewrite (skip_step (_ :: _)), E.
      + destruct (block_end r0) as [r1|] eqn:B; [|exists []; split; [reflexivity|left; constructor]].
        apply block_end_some in B as (body & -> & F). cbn in Hn. rewrite app_length in Hn. cbn in Hn. destruct (IH r1 ltac:(lia)) as (w & Ew & D).
        exists ([47; 42] ++ body ++ [42; 47] ++ w). split; [rewrite Ew at 1; rewrite <- !app_assoc; reflexivity|].
        destruct D as [D|[D1 [D|(w' & b' & -> & D & F')]]]; [left; apply gap_block; assumption|right; split; [exact D1|left; apply gap_block; assumption]|].
        right; split; [exact D1|]. right. exists ([47; 42] ++ body ++ [42; 47] ++ w'), b'. split; [rewrite <- !app_assoc; reflexivity|]. split; [apply gap_block; assumption|exact F'].
      + destruct (line_end_some r0) as (body & Eb & F & D). destruct D as [D|(c & r1 & D & Hc)]; rewrite D in *.
        * exists ([47; 47] ++ body). split; [rewrite skip_step; cbn; rewrite Eb at 1; rewrite app_nil_r; reflexivity|].
          right. split; [reflexivity|]. right. exists [], body. split; [reflexivity|]. split; [constructor|exact F].
        * subst r0. assert (W : skip (c :: r1) = skip r1). { apply (gap_skip [c] r1). apply gap_blank; [unfold blanks; apply in_or_app; left; exact Hc|constructor]. }
          rewrite W. cbn in Hn. rewrite app_length in Hn. cbn in Hn. destruct (IH r1 ltac:(lia)) as (w & Ew & Dw).
          exists ([47; 47] ++ body ++ [c] ++ w). split; [rewrite Ew at 1; rewrite <- !app_assoc; reflexivity|].
          destruct Dw as [D1|[D1 [D2|(w' & b' & -> & D2 & F')]]]; [left; apply gap_line; assumption|right; split; [exact D1|left; apply gap_line; assumption]|].
          right; split; [exact D1|]. right. exists ([47; 47] ++ body ++ [c] ++ w'), b'. split; [rewrite <- !app_assoc; reflexivity|]. split; [apply gap_line; assumption|exact F'].
      + destruct (whitespace c) eqn:W; [|exists []; split; [reflexivity|left; constructor]]. apply whitespace_in in W.
        cbn in Hn. destruct (IH s ltac:(lia)) as (w & Ew & D). exists (c :: w). split; [cbn; f_equal; exact Ew|].
        destruct D as [D|[D1 [D|(w' & b' & -> & D & F')]]]; [left; apply gap_blank; assumption|right; split; [exact D1|left; apply gap_blank; assumption]|].
        right; split; [exact D1|]. right. exists (c :: w'), b'. split; [reflexivity|]. split; [apply gap_blank; assumption|exact F']. }
  apply (G (length s) s (le_n _)).
Qed.
Lemma skip_gap s c r : skip s = c :: r -> exists w, s = w ++ c :: r /\ gap w.
Proof. intros H. destruct (skip_some s) as (w & E & [G|[G _]]); [exists w; rewrite H in E; auto|congruence]. Qed.
