(** Lemmas about decimal text. *)
From Verif Require Import Base TextModel.

Definition all_digits (ds : list Z) : Prop := Forall (fun c => is_digit c = true) ds.

Lemma is_digit_iff c : is_digit c = true <-> 48 <= c <= 57.
Proof. unfold is_digit. lia. Qed.

Lemma digits_value_snoc ds c : digits_value (ds ++ [c]) = digits_value ds * 10 + (c - 48).
Proof. unfold digits_value. rewrite fold_left_app. reflexivity. Qed.

Lemma digits_value_nonneg ds : all_digits ds -> 0 <= digits_value ds.
Proof.
  induction ds as [|c ds IH] using rev_ind; intros H; [cbn; lia|].
  rewrite digits_value_snoc. apply Forall_app in H as [H1 H2]. inversion H2 as [|? ? Hc _]; subst.
  apply is_digit_iff in Hc. specialize (IH H1). lia.
Qed.

Lemma pow10_pos k : 0 < 10 ^ Z.of_nat k.
Proof. apply Z.pow_pos_nonneg; lia. Qed.
Lemma pow10_S k : 10 ^ Z.of_nat (S k) = 10 * 10 ^ Z.of_nat k.
Proof. rewrite Nat2Z.inj_succ, Z.pow_succ_r by lia. reflexivity. Qed.

Lemma digits_value_app a b :
  digits_value (a ++ b) = digits_value a * 10 ^ Z.of_nat (length b) + digits_value b.
Proof.
  induction b as [|c b IH] using rev_ind.
  - rewrite app_nil_r. cbn. lia.
  - rewrite app_assoc, !digits_value_snoc, IH, app_length, Nat.add_comm.
    cbn [length Nat.add]. rewrite pow10_S. ring.
Qed.

Lemma digits_value_bound ds : all_digits ds -> digits_value ds < 10 ^ Z.of_nat (length ds).
Proof.
  induction ds as [|c ds IH] using rev_ind; intros H; [cbn; lia|].
  apply Forall_app in H as [H1 H2]. inversion H2 as [|? ? Hc _]; subst.
  apply is_digit_iff in Hc. specialize (IH H1).
  rewrite digits_value_snoc, app_length, Nat.add_comm. cbn [length Nat.add]. rewrite pow10_S. lia.
Qed.

Lemma digs_digits f n : 0 <= n -> Forall (fun c => is_digit c = true) (digs f n).
Proof.
  revert n; induction f as [|f IH]; intros n Hn; cbn [digs]; [constructor|].
  destruct (Z.ltb_spec n 10).
  - constructor; [apply is_digit_iff; lia|constructor].
  - constructor; [apply is_digit_iff; lia|]. apply IH. lia.
Qed.

Lemma digs_value f n : 0 <= n < 10 ^ Z.of_nat f -> digits_value (rev (digs f n)) = n.
Proof.
  revert n; induction f as [|f IH]; intros n Hn.
  - cbn in *. lia.
  - rewrite pow10_S in Hn. cbn [digs]. destruct (Z.ltb_spec n 10).
    + cbn [rev app]. unfold digits_value. cbn [fold_left]. lia.
    + cbn [rev]. rewrite digits_value_snoc, IH by lia. lia.
Qed.

Lemma fuel_enough n : 0 <= n -> n < 10 ^ Z.of_nat (S (Z.to_nat (Z.log2 n))).
Proof.
  intros Hn. destruct (Z.eq_dec n 0) as [->|]; [reflexivity|].
  pose proof (Z.log2_spec n ltac:(lia)) as [_ H]. pose proof (Z.log2_nonneg n).
  eapply Z.lt_le_trans; [exact H|].
  replace (Z.of_nat (S (Z.to_nat (Z.log2 n)))) with (Z.succ (Z.log2 n)) by lia.
  apply Z.pow_le_mono_l. lia.
Qed.

Lemma print_uint_value n : 0 <= n -> digits_value (print_uint n) = n.
Proof. intros Hn. apply digs_value. split; [exact Hn|now apply fuel_enough]. Qed.

Lemma print_uint_digits n : 0 <= n -> all_digits (print_uint n).
Proof. intros Hn. apply Forall_rev. now apply digs_digits. Qed.

(** more fuel does not change the result *)
Lemma digs_stop f g n : 0 <= n < 10 ^ Z.of_nat f -> (f <= g)%nat ->
  (0 < f)%nat -> digs g n = digs f n.
Proof.
  revert g n; induction f as [|f IH]; intros g n Hn Hfg Hf; [lia|].
  destruct g as [|g]; [lia|]. rewrite pow10_S in Hn. cbn [digs].
  destruct (Z.ltb_spec n 10); [reflexivity|]. f_equal.
  destruct f as [|f]; [cbn in Hn; lia|]. apply IH; lia.
Qed.

Lemma print_uint_stop n g : 0 <= n -> (S (Z.to_nat (Z.log2 n)) <= g)%nat ->
  rev (digs g n) = print_uint n.
Proof.
  intros Hn Hg. unfold print_uint. f_equal. apply digs_stop; auto; [|lia].
  split; [exact Hn|now apply fuel_enough].
Qed.

(** canonical digit strings: no leading zero unless the string is "0" *)
Definition canonical (ds : list Z) : Prop :=
  all_digits ds /\ ds <> [] /\ (hd 0 ds = 48 -> ds = [48]).

Lemma digs_print ds f : all_digits ds -> ds <> [] -> (hd 0 ds = 48 -> ds = [48]) ->
  (length ds <= f)%nat -> rev (digs f (digits_value ds)) = ds.
Proof.
  revert f. induction ds as [|c ds IH] using rev_ind; intros f Ha Hne Hhd Hf; [congruence|].
  rewrite app_length in Hf. cbn in Hf. destruct f as [|f]; [lia|].
  apply Forall_app in Ha as [Ha Hc]. inversion Hc as [|? ? Hd _]; subst. apply is_digit_iff in Hd.
  rewrite digits_value_snoc. cbn [digs].
  pose proof (digits_value_nonneg ds Ha) as Hnn.
  destruct ds as [|d ds].
  - cbn [digits_value fold_left]. unfold digits_value. cbn [fold_left].
    destruct (Z.ltb_spec (0 * 10 + (c - 48)) 10); [|lia]. cbn [rev app]. f_equal. lia.
  - assert (Hpos : 0 < digits_value (d :: ds)).
    { assert (Hd0 : d <> 48).
      { intros ->. cbn in Hhd. specialize (Hhd eq_refl). destruct ds; discriminate. }
      inversion Ha as [|? ? Hd1 Hds]; subst. apply is_digit_iff in Hd1.
      change (d :: ds) with ([d] ++ ds). rewrite digits_value_app.
      pose proof (digits_value_nonneg ds Hds). pose proof (pow10_pos (length ds)).
      unfold digits_value at 1. cbn [fold_left]. nia. }
    destruct (Z.ltb_spec (digits_value (d :: ds) * 10 + (c - 48)) 10); [lia|].
    replace ((digits_value (d :: ds) * 10 + (c - 48)) / 10) with (digits_value (d :: ds)) by lia.
    replace ((digits_value (d :: ds) * 10 + (c - 48)) mod 10) with (c - 48) by lia.
    cbn [rev]. rewrite IH; auto.
    + replace (48 + (c - 48)) with c by lia. reflexivity.
    + discriminate.
    + cbn. intros ->. cbn in Hhd. specialize (Hhd eq_refl). destruct ds; discriminate.
    + cbn in *. lia.
Qed.

Lemma print_parse ds : canonical ds -> print_uint (digits_value ds) = ds.
Proof.
  intros (Ha & Hne & Hhd).
  pose proof (digits_value_nonneg ds Ha) as Hnn.
  rewrite <- (print_uint_stop (digits_value ds)
    (max (length ds) (S (Z.to_nat (Z.log2 (digits_value ds)))))) by lia.
  apply digs_print; auto. lia.
Qed.

Lemma digs_canonical f n : 0 <= n < 10 ^ Z.of_nat f -> (0 < f)%nat ->
  rev (digs f n) <> [] /\ (hd 0 (rev (digs f n)) = 48 -> rev (digs f n) = [48]).
Proof.
  revert n; induction f as [|f IH]; intros n Hn Hf; [lia|].
  rewrite pow10_S in Hn. cbn [digs]. destruct (Z.ltb_spec n 10).
  - cbn. split; [discriminate|]. intros E. f_equal. exact E.
  - destruct f as [|f]; [cbn in Hn; lia|].
    destruct (IH (n / 10)) as [H1 H2]; [lia|lia|].
    cbn [rev]. destruct (rev (digs (S f) (n / 10))) as [|x l] eqn:E; [congruence|].
    split; [discriminate|]. cbn [app hd]. cbn [hd] in H2. intros ->. specialize (H2 eq_refl).
    injection H2 as ->. exfalso.
    pose proof (digs_value (S f) (n / 10) ltac:(lia)) as Hv. rewrite E in Hv.
    cbn in Hv. lia.
Qed.

Lemma print_canonical n : 0 <= n -> canonical (print_uint n).
Proof.
  intros Hn. unfold canonical. split; [now apply print_uint_digits|].
  apply digs_canonical; [|lia]. split; [exact Hn|now apply fuel_enough].
Qed.

Lemma print_uint_inj m n : 0 <= m -> 0 <= n -> print_uint m = print_uint n -> m = n.
Proof. intros Hm Hn E. rewrite <- (print_uint_value m Hm), E. now apply print_uint_value. Qed.

Lemma span_digits_app ds rest : all_digits ds ->
  (match rest with [] => True | c :: _ => is_digit c = false end) ->
  span_digits (ds ++ rest) = (ds, rest).
Proof.
  intros H; induction H as [|c ds Hc Hds IH]; intros Hr.
  - cbn [app]. destruct rest as [|c r]; [reflexivity|]. cbn [span_digits]. rewrite Hr. reflexivity.
  - cbn [app span_digits]. rewrite Hc, IH by exact Hr. reflexivity.
Qed.

Lemma span_digits_spec s : let (d, t) := span_digits s in
  s = d ++ t /\ all_digits d /\ (match t with [] => True | c :: _ => is_digit c = false end).
Proof.
  induction s as [|c s IH]; cbn [span_digits]; [repeat split; constructor|].
  destruct (is_digit c) eqn:E.
  - destruct (span_digits s) as [d t]. destruct IH as (-> & Hd & Ht). repeat split; auto.
    now constructor.
  - repeat split; [constructor|exact E].
Qed.
