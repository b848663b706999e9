From Verif Require Import Base CompactionModel FloatModel FloatProofs PhaseModel PhaseSpec PhaseProofs AverageModel AverageSpec.

(** ** Rounding of quotients *)

Definition U : Z := 2 ^ unit_exp.
Lemma U_pos : 0 < U. Proof. reflexivity. Qed.
Lemma U_big : 2 ^ 200 <= U. Proof. unfold U, unit_exp. apply Z.pow_le_mono_r; lia. Qed.
Opaque U.

Lemma rne_error n d : 0 < d -> - d <= 2 * (rne n d * d - n) <= d.
Proof.
  intros Hd. pose proof (Z.div_mod n d ltac:(lia)). pose proof (Z.mod_pos_bound n d Hd). unfold rne.
  set (q := n / d) in *. set (r := n mod d) in *. clearbody q r.
  destruct (Z.ltb_spec (2 * r) d); [nia|]. destruct (Z.ltb_spec d (2 * r)); [nia|]. destruct (Z.even q); nia.
Qed.

Lemma rne_tie n d : 0 < d -> 2 * (rne n d * d - n) = d \/ 2 * (rne n d * d - n) = - d -> Z.even (rne n d) = true.
Proof.
  intros Hd. pose proof (Z.div_mod n d ltac:(lia)) as E. pose proof (Z.mod_pos_bound n d Hd). unfold rne.
  set (q := n / d) in *. set (r := n mod d) in *. clearbody q r. rewrite E.
  destruct (Z.ltb_spec (2 * r) d); [intros [G|G]; nia|]. destruct (Z.ltb_spec d (2 * r)); [intros [G|G]; nia|].
  intros _. destruct (Z.even q) eqn:V; [exact V|]. change (q + 1) with (Z.succ q). rewrite Z.even_succ, <- Z.negb_even, V. reflexivity.
Qed.

Lemma rne_le n1 d1 n2 d2 : 0 < d1 -> 0 < d2 -> n1 * d2 <= n2 * d1 -> rne n1 d1 <= rne n2 d2.
Proof.
  intros D1 D2 L. pose proof (rne_error n1 d1 D1) as [E1 E1']. pose proof (rne_error n2 d2 D2) as [E2 E2'].
  pose proof (rne_tie n1 d1 D1) as T1. pose proof (rne_tie n2 d2 D2) as T2.
  set (r1 := rne n1 d1) in *. set (r2 := rne n2 d2) in *. clearbody r1 r2.
  destruct (Z.le_gt_cases r1 r2) as [|G]; [assumption|exfalso].
  assert (A1 : 2 * r1 * d1 * d2 - d1 * d2 <= 2 * (n1 * d2)) by nia.
  assert (A2 : 2 * (n2 * d1) <= 2 * r2 * d1 * d2 + d1 * d2) by nia.
  assert (P : 0 < d1 * d2) by nia. assert (r1 = r2 + 1) as -> by nia.
  assert (B1 : Z.even (r2 + 1) = true) by (apply T1; left; nia).
  assert (B2 : Z.even r2 = true) by (apply T2; right; nia).
  change (r2 + 1) with (Z.succ r2) in B1. rewrite Z.even_succ, <- Z.negb_even, B2 in B1. discriminate.
Qed.

(** the rounded quotient, before the test for infinity *)
Definition qk (n d : Z) : Z := Z.max 0 (Z.log2 (n / d) - 52).
Definition qround (n d : Z) : Z := rne n (d * 2 ^ qk n d) * 2 ^ qk n d.

Lemma qk_nonneg n d : 0 <= qk n d. Proof. unfold qk. lia. Qed.
Lemma qk_low n d : 0 < d -> 0 <= n -> 0 < qk n d -> d * 2 ^ (qk n d + 52) <= n.
Proof.
  intros D N K. unfold qk in *. destruct (Z.eq_dec (n / d) 0) as [E|E]; [rewrite E in K; cbn in K; lia|].
  assert (0 <= n / d) by (apply Z.div_pos; lia).
  pose proof (Z.log2_spec (n / d) ltac:(lia)) as [L _]. replace (Z.max 0 (Z.log2 (n / d) - 52) + 52) with (Z.log2 (n / d)) by lia.
  pose proof (Z.mul_div_le n d D). set (z := 2 ^ Z.log2 (n / d)) in *. set (q := n / d) in *. clearbody z q. nia.
Qed.
Lemma qk_high n d : 0 < d -> 0 <= n -> n < d * 2 ^ (qk n d + 53).
Proof.
  intros D N. assert (0 <= n / d) by (apply Z.div_pos; lia).
  assert (Q : n / d < 2 ^ (qk n d + 53)).
  { destruct (Z.eq_dec (n / d) 0) as [E|E]; [rewrite E; apply pow2_pos; pose proof (qk_nonneg n d); lia|].
    pose proof (Z.log2_spec (n / d) ltac:(lia)) as [_ L]. eapply Z.lt_le_trans; [exact L|]. apply Z.pow_le_mono_r; [lia|]. unfold qk. lia. }
  pose proof (Z.mul_succ_div_gt n d D). set (z := 2 ^ (qk n d + 53)) in *. set (q := n / d) in *. clearbody z q. nia.
Qed.
Lemma qk_le n1 d1 n2 d2 : 0 < d1 -> 0 < d2 -> 0 <= n1 -> n1 * d2 <= n2 * d1 -> qk n1 d1 <= qk n2 d2.
Proof.
  intros D1 D2 N1 L. unfold qk. enough (Z.log2 (n1 / d1) <= Z.log2 (n2 / d2)) by lia. apply Z.log2_le_mono.
  apply Z.div_le_lower_bound; [exact D2|]. pose proof (Z.mul_div_le n1 d1 D1). set (q := n1 / d1) in *. clearbody q. nia.
Qed.

Lemma qround_le n1 d1 n2 d2 : 0 < d1 -> 0 < d2 -> 0 <= n1 -> n1 * d2 <= n2 * d1 -> qround n1 d1 <= qround n2 d2.
Proof.
  intros D1 D2 N1 L. pose proof (qk_le _ _ _ _ D1 D2 N1 L) as K. assert (N2 : 0 <= n2) by nia. unfold qround.
  pose proof (qk_nonneg n1 d1) as K1. pose proof (pow2_pos (qk n1 d1) K1) as P1. pose proof (pow2_pos (qk n2 d2) ltac:(lia)) as P2.
  destruct (Z.eq_dec (qk n1 d1) (qk n2 d2)) as [E|E].
  - rewrite E in *. apply Z.mul_le_mono_nonneg_r; [lia|]. set (z := 2 ^ qk n2 d2) in *. clearbody z. apply rne_le; nia.
  - pose proof (qk_low n2 d2 D2 N2 ltac:(lia)) as Lo. pose proof (qk_high n1 d1 D1 N1) as Hi.
    assert (A1 : rne n1 (d1 * 2 ^ qk n1 d1) <= 2 ^ 53).
    { replace (2 ^ 53) with (rne (2 ^ 53) 1) by reflexivity. apply rne_le; [nia|lia|]. rewrite Z.pow_add_r in Hi by lia. nia. }
    assert (A2 : 2 ^ 52 <= rne n2 (d2 * 2 ^ qk n2 d2)).
    { replace (2 ^ 52) with (rne (2 ^ 52) 1) by reflexivity. apply rne_le; [lia|nia|]. rewrite Z.pow_add_r in Lo by lia. nia. }
    assert (A3 : 2 * 2 ^ qk n1 d1 <= 2 ^ qk n2 d2).
    { rewrite <- (Z.pow_succ_r 2) by lia. apply Z.pow_le_mono_r; lia. }
    set (x := rne n1 _) in *. set (y := rne n2 _) in *. set (a := 2 ^ qk n1 d1) in *. set (b := 2 ^ qk n2 d2) in *.
    change (2 ^ 53) with (2 * 2 ^ 52) in A1. set (z := 2 ^ 52) in *. clear Lo Hi E K K1. assert (0 < z) by reflexivity. clearbody x y a b z. nia.
Qed.

(** the error of a normal quotient *)
Lemma qround_error n d : 0 < d -> d * 2 ^ 52 <= n -> - n <= 2 ^ 53 * (qround n d * d - n) <= n.
Proof.
  intros D N. assert (N0 : 0 <= n) by (assert (0 < d * 2 ^ 52) by (apply Z.mul_pos_pos; [exact D|reflexivity]); lia).
  unfold qround. pose proof (qk_nonneg n d) as K. pose proof (pow2_pos _ K) as P.
  pose proof (rne_error n (d * 2 ^ qk n d) ltac:(nia)) as E.
  assert (Lo : d * 2 ^ qk n d * 2 ^ 52 <= n).
  { destruct (Z.eq_dec (qk n d) 0) as [Z0|Z0]; [rewrite Z0; lia|]. pose proof (qk_low n d D N0 ltac:(lia)) as Q. rewrite Z.pow_add_r in Q by lia. lia. }
  set (r := rne _ _) in *. set (z := 2 ^ qk n d) in *. change (2 ^ 53) with (2 * 2 ^ 52). set (w := 2 ^ 52) in *. assert (0 < w) by reflexivity. clearbody r z w.
  replace (r * z * d) with (r * (d * z)) by ring. set (t := d * z) in *. clearbody t. nia.
Qed.

(** ** Averages *)

Lemma of_int_exact s : 0 <= s < 2 ^ 53 -> of_int F64 s = FNum false (s * U).
Proof.
  intros S0. unfold of_int. destruct (Z.ltb_spec s 0); [lia|]. rewrite Z.abs_eq by lia. change (2 ^ unit_exp) with U. unfold fround. cbn [sub fbits ebits F64].
  assert (E : rne (s * U) (2 ^ Z.max 0 (Z.log2 (s * U) - 52)) * 2 ^ Z.max 0 (Z.log2 (s * U) - 52) = s * U).
  { set (k := Z.max 0 (Z.log2 (s * U) - 52)). assert (K : 0 <= k <= unit_exp).
    { subst k. enough (Z.log2 (s * U) <= 52 + unit_exp) by (unfold unit_exp in *; lia). destruct (Z.eq_dec s 0) as [->|]; [cbn; lia|].
      change U with (2 ^ unit_exp). rewrite Z.log2_mul_pow2 by (unfold unit_exp; lia). enough (Z.log2 s < 53) by lia. apply Z.log2_lt_pow2; lia. }
    assert (M : s * U = (s * 2 ^ (unit_exp - k)) * 2 ^ k). { rewrite <- Z.mul_assoc, <- Z.pow_add_r by lia. replace (unit_exp - k + k) with unit_exp by lia. reflexivity. }
    pose proof (pow2_pos k ltac:(lia)) as P. clearbody k. rewrite M. unfold rne. rewrite Z.mod_mul, Z.div_mul by lia. destruct (Z.ltb_spec (2 * 0) (2 ^ k)); lia. }
  rewrite E. destruct (Z.leb_spec (2 ^ (52 + 1 + (2 ^ 11 - 3) + 0)) (s * U)) as [Q|_]; [exfalso|reflexivity].
  assert (s * U < 2 ^ 53 * U) by (pose proof U_pos; nia). assert (2 ^ 53 * U <= 2 ^ (52 + 1 + (2 ^ 11 - 3) + 0)); [|lia].
  change U with (2 ^ unit_exp). rewrite <- Z.pow_add_r by (unfold unit_exp; lia). apply Z.pow_le_mono_r; unfold unit_exp; lia.
Qed.

Lemma average s l : 0 <= s < 2 ^ 53 -> 1 <= l < 2 ^ 53 ->
  fdiv F64 (of_int F64 s) (of_int F64 l) = FNum false (qround (s * U) l) .
Proof.
  intros S0 L0. rewrite !of_int_exact by lia. unfold fdiv. pose proof U_pos as UP. destruct (Z.eqb_spec (l * U) 0) as [E|_]; [nia|]. cbn [xorb].
  change (2 ^ unit_exp) with U. unfold fround_quot. cbn [sub fbits ebits F64].
  assert (Q : s * U * U / (l * U) = s * U / l) by (apply Z.div_mul_cancel_r; lia). rewrite Q. fold (qk (s * U) l).
  assert (R : rne (s * U * U) (l * U * 2 ^ qk (s * U) l) = rne (s * U) (l * 2 ^ qk (s * U) l)).
  { pose proof (pow2_pos (qk (s * U) l) (qk_nonneg _ _)) as P. set (z := 2 ^ qk (s * U) l) in *. clearbody z. apply Z.le_antisymm; apply rne_le; nia. }
  rewrite R. fold (qround (s * U) l). destruct (Z.leb_spec (2 ^ (52 + 1 + (2 ^ 11 - 3) + 0)) (qround (s * U) l)) as [B|_]; [exfalso|reflexivity].
  assert (X : qround (s * U) l <= qround (2 ^ 53 * U) 1) by (apply qround_le; nia).
  assert (Y : qround (2 ^ 53 * U) 1 = 2 ^ 53 * U) by (vm_compute; reflexivity).
  assert (2 ^ 53 * U < 2 ^ (52 + 1 + (2 ^ 11 - 3) + 0)); [|lia].
  change U with (2 ^ unit_exp). rewrite <- Z.pow_add_r by (unfold unit_exp; lia). apply Z.pow_lt_mono_r; unfold unit_exp; lia.
Qed.

Lemma greater_true s1 l1 s2 l2 : 0 <= s1 < 2 ^ 53 -> 0 <= s2 < 2 ^ 53 -> 1 <= l1 < 2 ^ 53 -> 1 <= l2 < 2 ^ 53 ->
  f64_greater s1 l1 s2 l2 = true -> s2 * l1 < s1 * l2.
Proof.
  intros S1 S2 L1 L2. unfold f64_greater. rewrite !average by assumption. cbn [fgt signed]. intros H. apply Z.ltb_lt in H.
  destruct (Z.lt_ge_cases (s2 * l1) (s1 * l2)) as [|G]; [assumption|exfalso]. pose proof U_pos.
  assert (qround (s1 * U) l1 <= qround (s2 * U) l2) by (apply qround_le; nia). lia.
Qed.

Lemma greater_exact s1 l1 s2 l2 : 0 <= s1 < 2 ^ 53 -> 0 <= s2 < 2 ^ 53 -> 1 <= l1 < 2 ^ 53 -> 1 <= l2 < 2 ^ 53 ->
  s1 * l2 + s2 * l1 < 2 ^ 53 -> f64_greater s1 l1 s2 l2 = (s2 * l1 <? s1 * l2).
Proof.
  intros S1 S2 L1 L2 B. apply eq_true_iff_eq. rewrite Z.ltb_lt. split; [now apply greater_true|].
  intros G. unfold f64_greater. rewrite !average by assumption. cbn [fgt signed]. apply Z.ltb_lt. pose proof U_pos as UP. pose proof U_big as UB.
  assert (X1 : 1 <= s1) by nia.
  assert (V : forall s l, 1 <= s -> 1 <= l < 2 ^ 53 -> l * 2 ^ 52 <= s * U).
  { intros s l Hs Hl. assert (l * 2 ^ 52 <= 2 ^ 53 * 2 ^ 52) by nia. assert (2 ^ 53 * 2 ^ 52 <= U) by (etransitivity; [|exact UB]; vm_compute; discriminate). nia. }
  pose proof (qround_error (s1 * U) l1 ltac:(lia) (V _ _ X1 L1)) as [E1 _].
  assert (E2 : 2 ^ 53 * (qround (s2 * U) l2 * l2 - s2 * U) <= s2 * U).
  { destruct (Z.eq_dec s2 0) as [->|N2]; [|assert (N2' : 1 <= s2) by lia; assert (N3 : 0 < l2) by lia; apply (qround_error (s2 * U) l2 N3 (V _ _ N2' L2))].
    assert (qround (0 * U) l2 <= qround 0 1) by (apply qround_le; lia). change (qround 0 1) with 0 in *. nia. }
  clear V UB. set (v1 := qround (s1 * U) l1) in *. set (v2 := qround (s2 * U) l2) in *. set (w := 2 ^ 53) in *. clearbody v1 v2 w.
  destruct (Z.lt_ge_cases v2 v1) as [|Q]; [assumption|exfalso].
  pose proof (Z.mul_le_mono_nonneg_r _ _ l2 ltac:(lia) E1) as A1. pose proof (Z.mul_le_mono_nonneg_r _ _ l1 ltac:(lia) E2) as A2.
  assert (A1' : w * (s1 * l2 * U) - s1 * l2 * U <= w * (v1 * (l1 * l2))) by lia.
  assert (A2' : w * (v2 * (l1 * l2)) <= w * (s2 * l1 * U) + s2 * l1 * U) by lia. clear A1 A2 E1 E2.
  assert (A3 : v1 * (l1 * l2) <= v2 * (l1 * l2)) by (apply Z.mul_le_mono_nonneg_r; nia).
  set (a := s1 * l2) in *. set (b := s2 * l1) in *. set (x := v1 * (l1 * l2)) in *. set (y := v2 * (l1 * l2)) in *. clearbody a b x y.
  assert (0 < w) by lia. assert (A4 : w * x <= w * y) by nia. assert (A5 : (w * a - a) * U <= (w * b + b) * U) by nia.
  assert (w * a - a <= w * b + b) by nia. nia.
Qed.
