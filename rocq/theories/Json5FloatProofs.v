(** Proofs about rounding to doubles (C50). *)
From Verif Require Import Base FloatModel FloatProofs JsonModel Json5Model Json5Spec.

Local Notation P := (2 ^ 52).

(** the magnitudes of doubles *)
Definition magnitude (m : Z) : Prop := 0 <= m < P \/ exists a j, m = a * 2 ^ j /\ P <= a < 2 * P /\ 0 <= j <= 2045.

Lemma magnitude_repr s m : magnitude m -> repr F64 (FNum s m).
Proof.
  intros [H|(a & j & -> & A & J)]; cbn [repr]; [left; exists m; change (sub F64) with 0; rewrite Z.mul_1_r; split; [reflexivity|exact H]|].
  right. exists a, j. split; [reflexivity|]. split; [exact A|]. change (sub F64) with 0. change (2 ^ ebits F64 - 3) with 2045. lia.
Qed.
Lemma magnitude_bits s m : magnitude m -> u64_range (fenc F64 (FNum s m)) /\ fdec F64 (fenc F64 (FNum s m)) = FNum s m.
Proof. intros H. destruct (fdec_fenc F64 _ wf_F64 (magnitude_repr s m H)) as [A B]. split; [exact B|exact A]. Qed.
Lemma bits_magnitude bits s m : u64_range bits -> fdec F64 bits = FNum s m -> magnitude m /\ bits = fenc F64 (FNum s m).
Proof.
  intros U E. split.
  - destruct (split_bits F64 bits wf_F64 U) as (s' & e & f & He & Hf & _ & H1 & H2 & H3). unfold fdec in E. rewrite H1, H2, H3 in E.
    change (fbits F64) with 52 in *. change (ebits F64) with 11 in *. change (sub F64) with 0 in *.
    destruct (Z.eqb_spec e (2 ^ 11 - 1)) as [E1|E1]; [destruct (f =? 0); discriminate|]. assert (FI : forall a b x y, FNum a x = FNum b y -> x = y) by (intros a b x y H; exact (f_equal (fun v => match v with FNum _ z => z | _ => 0 end) H)).
    destruct (Z.eqb_spec e 0) as [E0|E0]; apply FI in E; rewrite <- E.
    + left. rewrite Z.mul_1_r. exact Hf.
    + right. exists (P + f), (e - 1 + 0). split; [reflexivity|]. split; [lia|]. change (2 ^ 11) with 2048 in *. lia.
  - rewrite <- E. symmetry. apply fenc_fdec; [exact wf_F64|exact U|]. rewrite E. discriminate.
Qed.

Lemma parity_bits s r k : 0 <= k -> 0 <= r <= 2 * P -> k = 0 \/ P <= r -> Z.even (fenc F64 (FNum s (r * 2 ^ k))) = Z.even r.
Proof.
  intros K R D. assert (S : forall x, Z.even ((if s then 2 ^ (fbits F64 + ebits F64) else 0) + x) = Z.even x).
  { intros x. rewrite Z.even_add. destruct s; cbn [fbits ebits F64]; [change (Z.even (2 ^ (52 + 11))) with true|change (Z.even 0) with true]; destruct (Z.even x); reflexivity. }
  cbn [fenc]. rewrite S. change (fbits F64 + sub F64) with 52. change (2 ^ sub F64) with 1. change (fbits F64) with 52. change (sub F64) with 0.
  pose proof (pow2_pos k K) as K2. destruct (Z.ltb_spec (r * 2 ^ k) P) as [L|L].
  - assert (k = 0) as -> by (destruct D as [D|D]; [exact D|nia]). rewrite Z.mul_1_r, Z.div_1_r. reflexivity.
  - cbv zeta. assert (R1 : P <= r). { destruct D as [-> | D]; [rewrite Z.mul_1_r in L; exact L|exact D]. }
    destruct (Z.eq_dec r (2 * P)) as [-> | N].
    + replace (2 * P * 2 ^ k) with (P * 2 ^ (k + 1)) by (rewrite Z.pow_add_r by lia; ring). rewrite (log2_scaled 52 P (k + 1)) by lia.
      replace (52 + (k + 1) - 52) with (k + 1) by lia. rewrite Z.div_mul by (apply Z.pow_nonzero; lia).
      rewrite Z.sub_diag, Z.add_0_r, Z.even_mul. change (Z.even P) with true. change (Z.even (2 * P)) with true. apply orb_true_r.
    + rewrite (log2_scaled 52 r k) by lia. replace (52 + k - 52) with k by lia. rewrite Z.div_mul by lia.
      rewrite Z.even_add, Z.even_sub, Z.even_mul. change (Z.even P) with true. rewrite orb_true_r. destruct (Z.even r); reflexivity.
Qed.

Section Round.
Variable n d : Z.
Hypothesis n_pos : 0 <= n.
Hypothesis d_pos : 0 < d.
Let k := Z.max 0 (Z.log2 (n / d) - 52).
Let q := n / (d * 2 ^ k).
Let r := rne n (d * 2 ^ k).

Lemma k_pos : 0 <= k. Proof. unfold k. lia. Qed.
Lemma step_pos : 0 < 2 ^ k. Proof. apply pow2_pos, k_pos. Qed.
Lemma q_eq : q = n / d / 2 ^ k.
Proof. unfold q. rewrite Z.div_div; [reflexivity|lia|apply step_pos]. Qed.
Lemma q_bounds : 0 <= q < 2 * P /\ (k <> 0 -> P <= q).
Proof.
  pose proof step_pos as K2. assert (Q0 : 0 <= n / d) by (apply Z.div_pos; lia).
  rewrite q_eq. destruct (Z.eq_dec (n / d) 0) as [Z0|Z0].
  - rewrite Z0. rewrite Z.div_0_l by lia. unfold k. rewrite Z0. cbn. lia.
  - pose proof (Z.log2_spec (n / d) ltac:(lia)) as [L1 L2]. split; [split; [apply Z.div_pos; lia|]|].
    + apply Z.div_lt_upper_bound; [lia|]. eapply Z.lt_le_trans; [exact L2|]. replace (2 ^ k * (2 * P)) with (2 ^ (k + 53)) by (rewrite Z.pow_add_r by (pose proof k_pos; lia); ring).
      apply Z.pow_le_mono_r; unfold k; lia.
    + intros K. apply Z.div_le_lower_bound; [lia|]. eapply Z.le_trans; [|exact L1]. rewrite <- Z.pow_add_r by (pose proof k_pos; lia).
      apply Z.pow_le_mono_r; unfold k in *; lia.
Qed.
Lemma n_split : exists x, n = q * 2 ^ k * d + x /\ 0 <= x < d * 2 ^ k /\
  r = (if 2 * x <? d * 2 ^ k then q else if d * 2 ^ k <? 2 * x then q + 1 else if Z.even q then q else q + 1).
Proof.
  exists (n mod (d * 2 ^ k)). pose proof step_pos. split; [unfold q; pose proof (Z.div_mod n (d * 2 ^ k) ltac:(nia)); lia|]. split; [apply Z.mod_pos_bound; nia|]. reflexivity.
Qed.
Lemma apart m : magnitude m -> m <= q * 2 ^ k \/ (q + 1) * 2 ^ k <= m.
Proof.
  pose proof step_pos as K2. pose proof q_bounds as [Q1 Q2]. pose proof k_pos as K. destruct (Z.eq_dec k 0) as [E|E].
  { intros _. rewrite E. rewrite !Z.mul_1_r. lia. }
  specialize (Q2 E). intros [H|(a & j & -> & A & J)]; [left; nia|].
  destruct (Z.le_gt_cases k j) as [L|L].
  - assert (2 ^ j = 2 ^ (j - k) * 2 ^ k) as -> by (rewrite <- Z.pow_add_r by lia; f_equal; lia).
    rewrite Z.mul_assoc. generalize (a * 2 ^ (j - k)). intros y. destruct (Z.le_gt_cases y q); [left|right]; nia.
  - left. assert (H : 2 * 2 ^ j <= 2 ^ k). { replace (2 * 2 ^ j) with (2 ^ (j + 1)) by (rewrite Z.pow_add_r by lia; ring). apply Z.pow_le_mono_r; lia. }
    assert (2 * P * 2 ^ j <= P * 2 ^ k) by nia. assert (a * 2 ^ j <= 2 * P * 2 ^ j) by (pose proof (pow2_pos j ltac:(lia)); nia). nia.
Qed.

Lemma r_bounds : 0 <= r <= 2 * P /\ (k = 0 \/ P <= r).
Proof.
  pose proof q_bounds as [Q1 Q2]. pose proof step_pos. assert (D : q <= r <= q + 1) by (unfold q, r; apply rne_bounds; nia).
  split; [lia|]. destruct (Z.eq_dec k 0); [left; assumption|right; specialize (Q2 n0); lia].
Qed.

Lemma top : 2 ^ 2098 = 2 * P * 2 ^ 2045.
Proof. replace (2 * P) with (2 ^ 53) by reflexivity. rewrite <- Z.pow_add_r by lia. reflexivity. Qed.

Lemma r_magnitude : r * 2 ^ k < 2 ^ 2098 -> magnitude (r * 2 ^ k).
Proof.
  rewrite top. intros L. pose proof r_bounds as [R1 R2]. pose proof k_pos as K. pose proof step_pos as K2.
  assert (B : forall a j, 0 <= j -> P <= a -> a * 2 ^ j < 2 * P * 2 ^ 2045 -> j <= 2045).
  { intros a j J A H. destruct (Z.le_gt_cases j 2045) as [G|G]; [exact G|]. exfalso.
    assert (2 * 2 ^ 2045 <= 2 ^ j). { replace (2 * 2 ^ 2045) with (2 ^ (2045 + 1)) by (rewrite Z.pow_add_r by lia; ring). apply Z.pow_le_mono_r; lia. }
    pose proof (pow2_pos j J). pose proof (pow2_pos 2045 ltac:(lia)). nia. }
  destruct (Z.eq_dec r (2 * P)) as [E|E].
  - right. exists P, (k + 1). rewrite E in *. assert (X : 2 * P * 2 ^ k = P * 2 ^ (k + 1)) by (rewrite Z.pow_add_r by lia; ring). rewrite X in *.
    split; [reflexivity|]. split; [lia|]. split; [lia|]. apply (B P (k + 1)); [lia|lia|exact L].
  - destruct (Z.lt_ge_cases r P) as [G|G].
    + left. destruct R2 as [-> | R2]; [rewrite Z.mul_1_r|]; lia.
    + right. exists r, k. split; [reflexivity|]. split; [lia|]. split; [exact K|]. apply (B r k); [exact K|exact G|exact L].
Qed.

Lemma below : r * 2 ^ k < 2 ^ 2098 <-> 2 * n < (2 * 2 ^ 2098 - 2 ^ 2045) * d.
Proof.
  rewrite top. destruct n_split as (x & En & Hx & Er). pose proof q_bounds as [Q1 Q2]. pose proof step_pos as K2. pose proof k_pos as K. pose proof r_bounds as [R1 R2].
  assert (T : 0 < 2 ^ 2045) by (apply pow2_pos; lia). destruct (Z.lt_trichotomy k 2045) as [L|[E|G]].
  - assert (H : 2 * 2 ^ k <= 2 ^ 2045). { replace (2 * 2 ^ k) with (2 ^ (k + 1)) by (rewrite Z.pow_add_r by lia; ring). apply Z.pow_le_mono_r; lia. }
    revert T H. generalize (2 ^ 2045). intros t T H. split; intros _.
    + assert (A : n < 2 * P * 2 ^ k * d) by nia. assert (B : 2 * n < 2 * P * t * d) by nia. assert (0 < t * d) by nia. nia.
    + assert (A : r * 2 ^ k <= 2 * P * 2 ^ k) by nia. nia.
  - rewrite E in *. assert (Odd : q = 2 * P - 1 -> Z.even q = false) by (intros ->; reflexivity). clear K2 R2 Q2. revert T En Hx Er. generalize (2 ^ 2045). intros t T En Hx Er.
    assert (Dt : 0 < d * t) by nia. split; intros H.
    + assert (R : r < 2 * P) by nia. destruct (Z.eq_dec q (2 * P - 1)) as [Eq|Nq].
      * rewrite (Odd Eq) in Er. destruct (Z.ltb_spec (2 * x) (d * t)) as [C|C]; [|destruct (d * t <? 2 * x); lia]. nia.
      * assert (A : q + 1 <= 2 * P - 1) by lia. assert (B : n < (q + 1) * t * d) by nia. assert (C : n < (2 * P - 1) * t * d) by nia. nia.
    + assert (R : r < 2 * P); [|nia]. destruct (Z.eq_dec q (2 * P - 1)) as [Eq|Nq].
      * destruct (Z.ltb_spec (2 * x) (d * t)) as [C|C]; [lia|]. exfalso. rewrite Eq in En. nia.
      * assert (D : r <= q + 1) by (rewrite Er; destruct (2 * x <? d * t); [lia|]; destruct (d * t <? 2 * x); [lia|]; destruct (Z.even q); lia). lia.
  - assert (H : 2 * 2 ^ 2045 <= 2 ^ k). { replace (2 * 2 ^ 2045) with (2 ^ (2045 + 1)) by (rewrite Z.pow_add_r by lia; ring). apply Z.pow_le_mono_r; lia. }
    specialize (Q2 ltac:(lia)). assert (R : P <= r) by (destruct R2 as [R2|R2]; lia). revert T H. generalize (2 ^ 2045). intros t T H. split; intros H1; exfalso.
    + assert (A : P * (2 * t) <= r * 2 ^ k) by nia. lia.
    + assert (A : P * (2 * t) <= q * 2 ^ k) by nia. assert (B : P * (2 * t) * d <= n) by nia. assert (0 < t * d) by nia. nia.
Qed.

(** the distance of the rounded value *)
Lemma rounded : exists x, n = q * 2 ^ k * d + x /\ 0 <= x < d * 2 ^ k /\
  ((r = q /\ 2 * x < d * 2 ^ k) \/ (r = q + 1 /\ d * 2 ^ k < 2 * x) \/ (2 * x = d * 2 ^ k /\ Z.even r = true /\ (r = q \/ r = q + 1))).
Proof.
  destruct n_split as (x & En & Hx & Er). exists x. split; [exact En|]. split; [exact Hx|].
  destruct (Z.ltb_spec (2 * x) (d * 2 ^ k)); [left; auto|]. destruct (Z.ltb_spec (d * 2 ^ k) (2 * x)); [right; left; auto|]. right; right.
  split; [lia|]. destruct (Z.even q) eqn:E; rewrite Er; [auto|]. split; [|auto]. rewrite Z.even_add, E. reflexivity.
Qed.

Lemma nearer m : magnitude m -> Z.abs (r * 2 ^ k * d - n) <= Z.abs (m * d - n) /\
  (m <> r * 2 ^ k -> Z.abs (m * d - n) = Z.abs (r * 2 ^ k * d - n) -> Z.even r = true /\ ((m = q * 2 ^ k /\ r = q + 1) \/ (m = (q + 1) * 2 ^ k /\ r = q))).
Proof.
  intros M. pose proof step_pos as K2. destruct rounded as (x & En & Hx & Er). destruct (apart m M) as [A|A].
  - assert (B : m * d <= q * 2 ^ k * d) by nia. assert (C : Z.abs (m * d - n) = x + (q * 2 ^ k * d - m * d)) by lia. rewrite C.
    destruct Er as [[-> Er]|[[-> Er]|(Er & Ev & [R|R])]].
    + split; [lia|]. intros Nm E. exfalso. apply Nm. nia.
    + assert (D : Z.abs ((q + 1) * 2 ^ k * d - n) = d * 2 ^ k - x) by lia. rewrite D. split; [lia|]. intros Nm E. lia.
    + rewrite R in *. split; [lia|]. intros Nm E. exfalso. apply Nm. nia.
    + rewrite R in *. assert (D : Z.abs ((q + 1) * 2 ^ k * d - n) = d * 2 ^ k - x) by lia. rewrite D. split; [lia|]. intros Nm E. split; [exact Ev|]. left.
      split; [nia|reflexivity].
  - assert (B : (q + 1) * 2 ^ k * d <= m * d) by nia. assert (C : Z.abs (m * d - n) = d * 2 ^ k - x + (m * d - (q + 1) * 2 ^ k * d)) by lia. rewrite C.
    destruct Er as [[-> Er]|[[-> Er]|(Er & Ev & [R|R])]].
    + assert (D : Z.abs (q * 2 ^ k * d - n) = x) by lia. rewrite D. split; [lia|]. intros Nm E. lia.
    + assert (D : Z.abs ((q + 1) * 2 ^ k * d - n) = d * 2 ^ k - x) by lia. rewrite D. split; [lia|]. intros Nm E. exfalso. apply Nm. nia.
    + rewrite R in *. assert (D : Z.abs (q * 2 ^ k * d - n) = x) by lia. rewrite D. split; [lia|]. intros Nm E. split; [exact Ev|]. right. split; [nia|reflexivity].
    + rewrite R in *. assert (D : Z.abs ((q + 1) * 2 ^ k * d - n) = d * 2 ^ k - x) by lia. rewrite D. split; [lia|]. intros Nm E. exfalso. apply Nm. nia.
Qed.

Lemma nearest_eq : nearest n d = if 2 ^ 2098 <=? r * 2 ^ k then None else Some (r * 2 ^ k).
Proof. reflexivity. Qed.

Lemma nearest_some s m : nearest n d = Some m -> nearest_double s n d (fenc F64 (FNum s m)).
Proof.
  rewrite nearest_eq. destruct (Z.leb_spec (2 ^ 2098) (r * 2 ^ k)) as [L|L]; [discriminate|]. intros H. injection H as <-.
  pose proof (r_magnitude L) as M. destruct (magnitude_bits s _ M) as [U E]. split; [exact U|]. exists (r * 2 ^ k). split; [exact E|]. split; [|split].
  - intros b' m' U' E'. apply bits_magnitude in E' as [M' _]; [|exact U']. apply nearer; exact M'.
  - intros b' m' U' E' N D. apply bits_magnitude in E' as [M' _]; [|exact U']. destruct (nearer m' M') as [_ H]. destruct (H N D) as [Ev _].
    pose proof r_bounds as [R1 R2]. rewrite (parity_bits s r k k_pos R1 R2). exact Ev.
  - apply below. exact L.
Qed.

Lemma nearest_unique s bits : nearest_double s n d bits -> exists m, nearest n d = Some m /\ bits = fenc F64 (FNum s m).
Proof.
  intros (U & m & E & Min & Tie & L). apply below in L. exists (r * 2 ^ k). rewrite nearest_eq. destruct (Z.leb_spec (2 ^ 2098) (r * 2 ^ k)) as [L'|_]; [lia|].
  split; [reflexivity|]. apply bits_magnitude in E as [M Eb]; [|exact U]. pose proof (r_magnitude L) as M0. destruct (magnitude_bits s _ M0) as [U0 E0].
  destruct (Z.eq_dec m (r * 2 ^ k)) as [Em|N]; [rewrite <- Em; exact Eb|]. exfalso.
  pose proof (Min _ _ U0 E0) as D1. destruct (nearer m M) as [D2 T]. destruct (T N ltac:(lia)) as [Ev Eq].
  assert (Evb : Z.even bits = true) by (apply (Tie _ _ U0 E0); [congruence|lia]).
  pose proof r_bounds as [R1 R2]. pose proof k_pos as K. pose proof step_pos as K2.
  (* the other neighbour is odd *)
  assert (O : forall z, m = z * 2 ^ k -> Z.even z = false -> 0 <= z <= 2 * P -> k = 0 \/ P <= z -> False).
  { intros z -> Oz Z1 Z2. rewrite Eb, (parity_bits s z k K Z1 Z2) in Evb. congruence. }
  pose proof q_bounds as [Q1 Q2]. rename Eq into Hq.
  destruct Hq as [[Em Hr]|[Em Hr]].
  - apply (O q Em); [rewrite Hr, Z.even_add in Ev; destruct (Z.even q); [discriminate Ev|reflexivity]|lia|]. destruct (Z.eq_dec k 0) as [E|E]; [left; exact E|right; apply Q2, E].
  - apply (O (q + 1) Em); [rewrite Z.even_add, <- Hr, Ev; reflexivity|lia|]. destruct (Z.eq_dec k 0) as [E|E]; [left; exact E|right; specialize (Q2 E); lia].
Qed.
End Round.
