(** Lemmas about the float model and about compaction of scalars. *)
From Verif Require Import Base CompactionModel CompactionSpec FloatModel.

Definition wf_fmt (f : fmt) : Prop := 1 <= fbits f /\ 2 <= ebits f /\ 0 <= sub f.
Lemma wf_F64 : wf_fmt F64. Proof. unfold wf_fmt; cbn; lia. Qed.
Lemma wf_F32 : wf_fmt F32. Proof. unfold wf_fmt; cbn; lia. Qed.

Lemma pow2_pos k : 0 <= k -> 0 < 2 ^ k.
Proof. intros; apply Z.pow_pos_nonneg; lia. Qed.

Lemma log2_scaled p m k : 0 <= p -> 0 <= k -> 2 ^ p <= m < 2 * 2 ^ p ->
  Z.log2 (m * 2 ^ k) = p + k.
Proof.
  intros Hp Hk Hm. pose proof (pow2_pos p Hp).
  rewrite Z.log2_mul_pow2 by lia.
  rewrite (Z.log2_unique m p); [lia|lia|]. rewrite Z.pow_succ_r by lia. lia.
Qed.

(** the three fields of a bit pattern *)
Lemma split_bits f b : wf_fmt f -> 0 <= b < 2 ^ (fbits f + ebits f + 1) ->
  exists (s : bool) e m, 0 <= e < 2 ^ ebits f /\ 0 <= m < 2 ^ fbits f /\
    b = (if s then 2 ^ (fbits f + ebits f) else 0) + e * 2 ^ fbits f + m /\
    negb (b / 2 ^ (fbits f + ebits f) =? 0) = s /\
    (b / 2 ^ fbits f) mod 2 ^ ebits f = e /\ b mod 2 ^ fbits f = m.
Proof.
  intros (Hp & He & Hs) Hb.
  rewrite Z.pow_add_r, Z.pow_add_r in Hb by lia. change (2 ^ 1) with 2 in Hb.
  assert (Hpe : 2 ^ (fbits f + ebits f) = 2 ^ fbits f * 2 ^ ebits f) by (apply Z.pow_add_r; lia).
  rewrite Hpe.
  pose proof (pow2_pos (fbits f) ltac:(lia)) as HP.
  pose proof (pow2_pos (ebits f) ltac:(lia)) as HQ.
  set (P := 2 ^ fbits f) in *. set (Q := 2 ^ ebits f) in *. clearbody P Q.
  assert (HPQ : 0 < P * Q) by nia.
  exists (negb (b / (P * Q) =? 0)), ((b / P) mod Q), (b mod P).
  pose proof (Z.mod_pos_bound (b / P) Q HQ). pose proof (Z.mod_pos_bound b P HP).
  split; [lia|]. split; [lia|]. split; [|split; [reflexivity|split; reflexivity]].
  pose proof (Z.div_mod b P ltac:(lia)) as D1. pose proof (Z.div_mod (b / P) Q ltac:(lia)) as D2.
  rewrite Z.div_div in D2 by lia.
  assert (Hlo : 0 <= b / (P * Q)) by (apply Z.div_pos; lia).
  assert (Hhi : b / (P * Q) < 2) by (apply Z.div_lt_upper_bound; lia).
  destruct (Z.eqb_spec (b / (P * Q)) 0) as [E|E]; cbn [negb].
  - rewrite E in D2. nia.
  - assert (b / (P * Q) = 1) as E1 by lia. rewrite E1 in D2. nia.
Qed.

Lemma join_bits f (s : bool) e m : wf_fmt f ->
  0 <= e < 2 ^ ebits f -> 0 <= m < 2 ^ fbits f ->
  let b := (if s then 2 ^ (fbits f + ebits f) else 0) + e * 2 ^ fbits f + m in
  0 <= b < 2 ^ (fbits f + ebits f + 1) /\
  negb (b / 2 ^ (fbits f + ebits f) =? 0) = s /\
  (b / 2 ^ fbits f) mod 2 ^ ebits f = e /\ b mod 2 ^ fbits f = m.
Proof.
  intros (Hp & He & Hs) Hee Hm. cbv zeta.
  rewrite (Z.pow_add_r 2 (fbits f + ebits f)) by lia. change (2 ^ 1) with 2.
  assert (Hpe : 2 ^ (fbits f + ebits f) = 2 ^ fbits f * 2 ^ ebits f) by (apply Z.pow_add_r; lia).
  rewrite Hpe.
  pose proof (pow2_pos (fbits f) ltac:(lia)) as HP.
  pose proof (pow2_pos (ebits f) ltac:(lia)) as HQ.
  set (P := 2 ^ fbits f) in *. set (Q := 2 ^ ebits f) in *. clearbody P Q.
  assert (HPQ : 0 < P * Q) by nia.
  set (b := (if s then P * Q else 0) + e * P + m).
  assert (Hem : 0 <= e * P + m < P * Q) by nia.
  assert (H1 : b / (P * Q) = if s then 1 else 0).
  { unfold b. destruct s.
    - symmetry. apply (Z.div_unique _ _ _ (e * P + m)); lia.
    - symmetry. apply (Z.div_unique _ _ _ (e * P + m)); lia. }
  assert (H2 : b / P = (if s then Q else 0) + e).
  { unfold b. symmetry. apply (Z.div_unique _ _ _ m); [lia|]. destruct s; lia. }
  assert (H3 : b mod P = m).
  { unfold b. symmetry. apply (Z.mod_unique _ _ ((if s then Q else 0) + e)); [lia|]. destruct s; lia. }
  rewrite H1, H2, H3. split; [unfold b; destruct s; lia|].
  split; [destruct s; reflexivity|]. split; [|reflexivity].
  destruct s; [|apply Z.mod_small; lia].
  symmetry. apply (Z.mod_unique _ _ 1); lia.
Qed.

Lemma fenc_fdec f b : wf_fmt f -> 0 <= b < 2 ^ (fbits f + ebits f + 1) ->
  fdec f b <> FNaN -> fenc f (fdec f b) = b.
Proof.
  intros Hf Hb. destruct (split_bits f b Hf Hb) as (s & e & m & He & Hm & Hbb & H1 & H2 & H3).
  unfold fdec. rewrite H1, H2, H3. destruct Hf as (Hp & Hee & Hs).
  pose proof (pow2_pos (fbits f) ltac:(lia)) as HP.
  pose proof (pow2_pos (sub f) ltac:(lia)) as HS.
  destruct (Z.eqb_spec e (2 ^ ebits f - 1)) as [E1|E1].
  { destruct (Z.eqb_spec m 0); [|congruence]. intros _. cbn [fenc]. subst e m. lia. }
  destruct (Z.eqb_spec e 0) as [E0|E0]; intros _; cbn [fenc].
  - rewrite (Z.pow_add_r 2 (fbits f) (sub f)) by lia.
    destruct (Z.ltb_spec (m * 2 ^ sub f) (2 ^ fbits f * 2 ^ sub f)); [|nia].
    rewrite Z.div_mul by lia. subst e. lia.
  - assert (Hk : 0 <= e - 1 + sub f) by lia.
    pose proof (pow2_pos (e - 1 + sub f) Hk) as HK.
    assert (Hge : 2 ^ (fbits f + sub f) <= (2 ^ fbits f + m) * 2 ^ (e - 1 + sub f)).
    { rewrite Z.pow_add_r by lia.
      assert (2 ^ sub f <= 2 ^ (e - 1 + sub f)) by (apply Z.pow_le_mono_r; lia). nia. }
    destruct (Z.ltb_spec ((2 ^ fbits f + m) * 2 ^ (e - 1 + sub f)) (2 ^ (fbits f + sub f))); [lia|].
    cbv zeta. rewrite (log2_scaled (fbits f)) by lia.
    replace (fbits f + (e - 1 + sub f) - fbits f) with (e - 1 + sub f) by lia.
    rewrite Z.div_mul by lia. lia.
Qed.

(** numbers the format represents exactly *)
Definition repr (f : fmt) (v : fval) : Prop :=
  match v with
  | FNaN => False
  | FInf _ => True
  | FNum _ n =>
      (exists m, n = m * 2 ^ sub f /\ 0 <= m < 2 ^ fbits f) \/
      (exists m k, n = m * 2 ^ k /\ 2 ^ fbits f <= m < 2 * 2 ^ fbits f /\
         sub f <= k <= sub f + (2 ^ ebits f - 3))
  end.

Lemma fdec_fenc f v : wf_fmt f -> repr f v ->
  fdec f (fenc f v) = v /\ 0 <= fenc f v < 2 ^ (fbits f + ebits f + 1).
Proof.
  intros Hf Hr. pose proof Hf as (Hp & Hee & Hs).
  pose proof (pow2_pos (fbits f) ltac:(lia)) as HP.
  pose proof (pow2_pos (sub f) ltac:(lia)) as HS.
  assert (HQ : 4 <= 2 ^ ebits f) by (change 4 with (2 ^ 2); apply Z.pow_le_mono_r; lia).
  destruct v as [|s|s n]; cbn [repr] in Hr; [tauto| |].
  - destruct (join_bits f s (2 ^ ebits f - 1) 0 Hf) as (B & J1 & J2 & J3); [lia|lia|].
    cbv zeta in *. rewrite Z.add_0_r in *. cbn [fenc]. unfold fdec. rewrite J1, J2, J3.
    rewrite Z.eqb_refl. split; [reflexivity|exact B].
  - destruct Hr as [(m & -> & Hm)|(m & k & -> & Hm & Hk)].
    + destruct (join_bits f s 0 m Hf) as (B & J1 & J2 & J3); [lia|lia|].
      cbv zeta in *. cbn [fenc].
      rewrite (Z.pow_add_r 2 (fbits f) (sub f)) by lia.
      destruct (Z.ltb_spec (m * 2 ^ sub f) (2 ^ fbits f * 2 ^ sub f)); [|nia].
      rewrite Z.div_mul by lia.
      replace ((if s then 2 ^ (fbits f + ebits f) else 0) + m)
        with ((if s then 2 ^ (fbits f + ebits f) else 0) + 0 * 2 ^ fbits f + m) by lia.
      unfold fdec. rewrite J1, J2, J3.
      destruct (Z.eqb_spec 0 (2 ^ ebits f - 1)); [lia|]. rewrite Z.eqb_refl.
      split; [reflexivity|exact B].
    + destruct (join_bits f s (k - sub f + 1) (m - 2 ^ fbits f) Hf) as (B & J1 & J2 & J3); [lia|lia|].
      cbv zeta in *. cbn [fenc].
      pose proof (pow2_pos k ltac:(lia)) as HK.
      assert (Hge : 2 ^ (fbits f + sub f) <= m * 2 ^ k).
      { rewrite Z.pow_add_r by lia.
        assert (2 ^ sub f <= 2 ^ k) by (apply Z.pow_le_mono_r; lia). nia. }
      destruct (Z.ltb_spec (m * 2 ^ k) (2 ^ (fbits f + sub f))); [lia|].
      cbv zeta. rewrite (log2_scaled (fbits f)) by lia.
      replace (fbits f + k - fbits f) with k by lia. rewrite Z.div_mul by lia.
      rewrite Z.add_assoc. unfold fdec. rewrite J1, J2, J3.
      destruct (Z.eqb_spec (k - sub f + 1) (2 ^ ebits f - 1)); [lia|].
      destruct (Z.eqb_spec (k - sub f + 1) 0); [lia|].
      split; [|exact B]. f_equal. f_equal; [lia|f_equal; lia].
Qed.

Lemma rne_bounds n d : 0 < d -> n / d <= rne n d <= n / d + 1.
Proof.
  intros Hd. unfold rne. destruct (2 * (n mod d) <? d); [lia|].
  destruct (d <? 2 * (n mod d)); [lia|]. destruct (Z.even (n / d)); lia.
Qed.

Lemma fround_repr f s n : wf_fmt f -> 0 <= n -> repr f (fround f s n).
Proof.
  intros (Hp & Hee & Hs) Hn. unfold fround.
  set (k := Z.max (sub f) (Z.log2 n - fbits f)).
  assert (HQ : 4 <= 2 ^ ebits f) by (change 4 with (2 ^ 2); apply Z.pow_le_mono_r; lia).
  pose proof (pow2_pos (fbits f) ltac:(lia)) as HP.
  assert (Hk0 : 0 <= k) by lia. pose proof (pow2_pos k Hk0) as HK.
  pose proof (rne_bounds n (2 ^ k) HK) as Hq. set (q := rne n (2 ^ k)) in *.
  destruct (Z.leb_spec (2 ^ (fbits f + 1 + (2 ^ ebits f - 3) + sub f)) (q * 2 ^ k)) as [|Hlim]; [exact I|].
  cbn [repr].
  assert (Hq0 : 0 <= q) by (assert (0 <= n / 2 ^ k) by (apply Z.div_pos; lia); lia).
  assert (Hhi : n / 2 ^ k < 2 * 2 ^ fbits f).
  { apply Z.div_lt_upper_bound; [lia|].
    replace (2 ^ k * (2 * 2 ^ fbits f)) with (2 ^ (k + fbits f + 1))
      by (rewrite !Z.pow_add_r by lia; change (2 ^ 1) with 2; ring).
    destruct (Z.eq_dec n 0) as [->|]; [apply pow2_pos; lia|].
    pose proof (Z.log2_spec n ltac:(lia)) as [_ Hl].
    eapply Z.lt_le_trans; [exact Hl|]. apply Z.pow_le_mono_r; lia. }
  assert (Hlo : k <> sub f -> 2 ^ fbits f <= q).
  { intros Hne. assert (Hkl : k = Z.log2 n - fbits f) by lia.
    destruct (Z.eq_dec n 0) as [->|]; [cbn in Hkl; lia|].
    pose proof (Z.log2_spec n ltac:(lia)) as [Hl _].
    enough (2 ^ fbits f <= n / 2 ^ k) by lia.
    apply Z.div_le_lower_bound; [lia|].
    rewrite <- Z.pow_add_r by lia. replace (k + fbits f) with (Z.log2 n) by lia. exact Hl. }
  assert (Hqcases : q < 2 ^ fbits f \/ 2 ^ fbits f <= q < 2 * 2 ^ fbits f \/ q = 2 * 2 ^ fbits f) by lia.
  destruct Hqcases as [Hc|[Hc|Hc]].
  - left. exists q. assert (k = sub f) as -> by (destruct (Z.eq_dec k (sub f)); [assumption|specialize (Hlo ltac:(assumption)); lia]).
    split; [reflexivity|lia].
  - right. exists q, k. split; [reflexivity|]. split; [lia|]. split; [lia|].
    assert (Hlt : 2 ^ (fbits f + k) < 2 ^ (fbits f + 1 + (2 ^ ebits f - 3) + sub f)).
    { rewrite (Z.pow_add_r 2 (fbits f) k) by lia. nia. }
    apply Z.pow_lt_mono_r_iff in Hlt; lia.
  - right. exists (2 ^ fbits f), (k + 1). split.
    { rewrite Hc, Z.pow_add_r by lia. change (2 ^ 1) with 2. ring. }
    split; [lia|]. split; [lia|].
    assert (Hlt : 2 ^ (fbits f + 1 + k) < 2 ^ (fbits f + 1 + (2 ^ ebits f - 3) + sub f)).
    { rewrite (Z.pow_add_r 2 (fbits f + 1) k), (Z.pow_add_r 2 (fbits f) 1) by lia.
      change (2 ^ 1) with 2. rewrite Hc in Hlim. lia. }
    apply Z.pow_lt_mono_r_iff in Hlt; lia.
Qed.

Lemma fround_num f s n s' n' : wf_fmt f -> 0 <= n -> fround f s n = FNum s' n' -> s' = s /\ 0 <= n'.
Proof.
  intros (Hp & He & Hs) Hn. unfold fround.
  set (k := Z.max (sub f) (Z.log2 n - fbits f)).
  pose proof (pow2_pos k ltac:(lia)) as HK. pose proof (rne_bounds n (2 ^ k) HK).
  assert (0 <= n / 2 ^ k) by (apply Z.div_pos; lia).
  destruct (_ <=? _); [discriminate|]. intros E. inversion E; subst. split; [reflexivity|nia].
Qed.

Lemma fdec_nonneg f b s n : 0 <= fbits f -> fdec f b = FNum s n -> 0 <= n.
Proof.
  intros Hf. unfold fdec.
  pose proof (Z.mod_pos_bound b (2 ^ fbits f) (pow2_pos _ Hf)).
  pose proof (pow2_pos _ Hf).
  destruct (_ =? _); [destruct (_ =? _); discriminate|].
  destruct (_ =? 0); intros E; inversion E; subst; apply Z.mul_nonneg_nonneg; try lia;
    apply Z.pow_nonneg; lia.
Qed.

Lemma feq_num s n s' n' : 0 <= n -> 0 < n' -> feq (FNum s n) (FNum s' n') = true ->
  s = s' /\ n = n'.
Proof. cbn [feq]. unfold signed. intros H1 H2 H. destruct s, s'; split; try reflexivity; lia. Qed.

Lemma feq_refl_num s n : feq (FNum s n) (FNum s n) = true.
Proof. cbn. apply Z.eqb_refl. Qed.

Lemma ftrunc_eq s n : 0 <= n -> feq (ftrunc (FNum s n)) (FNum s n) = true ->
  n / 2 ^ unit_exp * 2 ^ unit_exp = n.
Proof.
  intros Hn. cbn [ftrunc feq]. unfold signed. destruct s; lia.
Qed.

Lemma comp_int_as_i64 v : as_i64 (comp_int v) = Some v.
Proof.
  unfold comp_int. destruct (Z.eqb_spec v 0) as [->|]; [reflexivity|].
  destruct (Z.eqb_spec v 1) as [->|]; [reflexivity|].
  destruct (_ =? _); reflexivity.
Qed.

Lemma comp_int_as_f64 v : as_f64 (comp_int v) = Some (fenc F64 (of_int F64 v)).
Proof.
  unfold comp_int. destruct (Z.eqb_spec v 0) as [->|]; [reflexivity|].
  destruct (Z.eqb_spec v 1) as [->|]; [reflexivity|]. destruct (_ =? _); reflexivity.
Qed.

Lemma comp_int_as_f32 v : as_f32 (comp_int v) = Some (fenc F32 (of_int F32 v)).
Proof.
  unfold comp_int. destruct (Z.eqb_spec v 0) as [->|]; [reflexivity|].
  destruct (Z.eqb_spec v 1) as [->|]; [reflexivity|]. destruct (_ =? _); reflexivity.
Qed.

(** a result of a conversion equal to a decoded number is that number, unless zero *)
Lemma round_same f s n b s' n' : wf_fmt f -> 0 <= n -> 0 <= b < 2 ^ (fbits f + ebits f + 1) ->
  fdec f b = FNum s' n' -> 0 < n' -> feq (fround f s n) (FNum s' n') = true ->
  fenc f (fround f s n) = b.
Proof.
  intros Hf Hn Hb Hd Hn' He.
  destruct (fround f s n) as [|s1|s1 n1] eqn:E; cbn [feq] in He; try discriminate.
  destruct (fround_num f s n s1 n1 Hf Hn E) as [-> Hn1].
  destruct (feq_num s n1 s' n' Hn1 Hn' He) as [-> ->].
  rewrite <- Hd. apply fenc_fdec; auto. rewrite Hd. discriminate.
Qed.

Lemma fdec_zero f b s : wf_fmt f -> 0 <= b < 2 ^ (fbits f + ebits f + 1) ->
  fdec f b = FNum s 0 -> b = if s then 2 ^ (fbits f + ebits f) else 0.
Proof.
  intros Hf Hb Hd. rewrite <- (fenc_fdec f b Hf Hb) by (rewrite Hd; discriminate).
  rewrite Hd. cbn [fenc]. pose proof Hf as (H1 & H2 & H3).
  pose proof (pow2_pos (fbits f + sub f) ltac:(lia)).
  destruct (Z.ltb_spec 0 (2 ^ (fbits f + sub f))); [|lia].
  rewrite Z.div_0_l by (pose proof (pow2_pos (sub f) ltac:(lia)); lia). lia.
Qed.

Lemma feq_trans a b c : feq a b = true -> feq b c = true -> feq a c = true.
Proof.
  destruct a as [|s|s n], b as [|s'|s' n'], c as [|s''|s'' n'']; cbn [feq]; try discriminate.
  - destruct s, s', s''; cbn; congruence.
  - lia.
Qed.

Lemma comp_double_lossless b : 0 <= b < 2 ^ 64 -> as_f64 (comp_double b) = Some b.
Proof.
  intros Hb. unfold comp_double.
  destruct (Z.eqb_spec b (2 ^ 63)) as [|Hneg0]; [reflexivity|].
  assert (Hb' : 0 <= b < 2 ^ (fbits F64 + ebits F64 + 1)) by exact Hb.
  cbv zeta. set (num := fdec F64 b).
  destruct (feq (ftrunc num) num) eqn:Etr; cbn [negb]; [|reflexivity].
  destruct (feq (of_int F64 (to_int 64 (ftrunc num))) (ftrunc num)) eqn:Eint.
  - rewrite comp_int_as_f64. f_equal.
    pose proof (feq_trans _ _ _ Eint Etr) as Eq.
    destruct num as [|s|s n] eqn:En; unfold num in En.
    + discriminate.
    + exfalso. clear -Eint. destruct s; vm_compute in Eint; discriminate.
    + pose proof (fdec_nonneg F64 b s n ltac:(cbn; lia) En) as Hn.
      destruct (Z.eq_dec n 0) as [->|Hnz].
      * pose proof (fdec_zero F64 b s wf_F64 Hb' En) as Hz. destruct s.
        -- exfalso. apply Hneg0. exact Hz.
        -- subst b. vm_compute. reflexivity.
      * eapply round_same; eauto using wf_F64; lia.
  - destruct (feq (fcast F64 (fcast F32 num)) num) eqn:Ef; [|reflexivity].
    cbn [as_f64]. f_equal.
    destruct num as [|s|s n] eqn:En; unfold num in En.
    + discriminate.
    + cbn [fcast]. rewrite (proj1 (fdec_fenc F32 (FInf s) wf_F32 I)). cbn [fcast].
      rewrite <- En. apply fenc_fdec; [apply wf_F64|exact Hb'|]. rewrite En. discriminate.
    + pose proof (fdec_nonneg F64 b s n ltac:(cbn; lia) En) as Hn.
      assert (Hnz : n <> 0).
      { intros ->. destruct s; vm_compute in Eint; discriminate. }
      cbn [fcast] in *. rewrite (proj1 (fdec_fenc F32 (fround F32 s n) wf_F32 (fround_repr F32 s n wf_F32 Hn))).
      destruct (fround F32 s n) as [|s1|s1 n1] eqn:E1; cbn [fcast] in Ef |- *; try discriminate.
      destruct (fround_num F32 s n s1 n1 wf_F32 Hn E1) as [_ Hn1].
      eapply round_same; eauto using wf_F64; lia.
Qed.

Lemma to_int_in w s n : - 2 ^ (w - 1) <= signed s (n / 2 ^ unit_exp) <= 2 ^ (w - 1) - 1 ->
  to_int w (FNum s n) = signed s (n / 2 ^ unit_exp).
Proof. intros H. cbn [to_int]. lia. Qed.

Lemma comp_float_lossless b : 0 <= b < 2 ^ 32 -> as_f32 (comp_float b) = Some b.
Proof.
  intros Hb. unfold comp_float.
  destruct (Z.eqb_spec b (2 ^ 31)) as [|Hneg0]; [reflexivity|].
  assert (Hb' : 0 <= b < 2 ^ (fbits F32 + ebits F32 + 1)) by exact Hb.
  cbv zeta. set (num := fdec F32 b).
  destruct (feq (ftrunc num) num) eqn:Etr; cbn [negb]; [|reflexivity].
  destruct (feq (of_int F32 (to_int 32 (ftrunc num))) (ftrunc num)) eqn:Eint; [|reflexivity].
  rewrite comp_int_as_f32. f_equal.
  pose proof (feq_trans _ _ _ Eint Etr) as Eq.
  destruct num as [|s|s n] eqn:En; unfold num in En.
  - discriminate.
  - exfalso. clear -Eint. destruct s; vm_compute in Eint; discriminate.
  - pose proof (fdec_nonneg F32 b s n ltac:(cbn; lia) En) as Hn.
    destruct (Z.eq_dec n 0) as [->|Hnz].
    + pose proof (fdec_zero F32 b s wf_F32 Hb' En) as Hz. destruct s.
      * exfalso. apply Hneg0. exact Hz.
      * subst b. vm_compute. reflexivity.
    + pose proof (ftrunc_eq s n Hn Etr) as Ht.
      cbn [ftrunc] in Eq, Eint |- *. rewrite Ht in Eq, Eint |- *.
      set (v := signed s (n / 2 ^ unit_exp)).
      assert (Hcase : - 2 ^ 31 <= v <= 2 ^ 31 - 1 \/ 2 ^ 31 - 1 < v \/ v < - 2 ^ 31) by lia.
      destruct Hcase as [Hin|[Hgt|Hlt]].
      * assert (H32 : to_int 32 (FNum s n) = v) by (apply to_int_in; exact Hin).
        assert (H64 : to_int 64 (FNum s n) = v).
        { apply to_int_in. fold v. change (64 - 1) with 63.
          assert (2 ^ 31 <= 2 ^ 63) by (apply Z.pow_le_mono_r; lia). lia. }
        rewrite H64. rewrite H32 in Eq.
        eapply round_same; eauto using wf_F32; lia.
      * assert (H32 : to_int 32 (FNum s n) = 2 ^ 31 - 1).
        { cbn [to_int]. fold v. change (32 - 1) with 31. lia. }
        rewrite H32 in Eq.
        assert (Hof : of_int F32 (2 ^ 31 - 1) = FNum false (2 ^ 31 * 2 ^ unit_exp)) by (vm_compute; reflexivity).
        rewrite Hof in Eq.
        destruct (feq_num false (2 ^ 31 * 2 ^ unit_exp) s n) as [Es E2]; [vm_compute; discriminate|lia|exact Eq|].
        subst s n.
        rewrite <- (fenc_fdec F32 b wf_F32 Hb') by (rewrite En; discriminate).
        rewrite En. vm_compute. reflexivity.
      * exfalso. assert (H32 : to_int 32 (FNum s n) = - 2 ^ 31).
        { cbn [to_int]. fold v. change (32 - 1) with 31. lia. }
        rewrite H32 in Eq.
        assert (Hof : of_int F32 (- 2 ^ 31) = FNum true (2 ^ 31 * 2 ^ unit_exp)) by (vm_compute; reflexivity).
        rewrite Hof in Eq.
        destruct (feq_num true (2 ^ 31 * 2 ^ unit_exp) s n) as [Es E2]; [vm_compute; discriminate|lia|exact Eq|].
        subst s n. unfold v in Hlt. rewrite Z.div_mul in Hlt by (vm_compute; discriminate).
        cbn in Hlt. lia.
Qed.

Lemma comp_str_lossless s : as_string (comp_str s) = Some s.
Proof.
  unfold comp_str. destruct (Z.eqb_spec (zlen s) 0) as [E|].
  - destruct s; [reflexivity|unfold zlen in E; cbn in E; lia].
  - destruct (_ <? 16); [reflexivity|]. destruct (_ <? 256); reflexivity.
Qed.

(** ** compacted scalars are values the encoder accepts *)

Lemma to_signed8_eq v : to_signed 8 v = v -> -128 <= v < 128.
Proof.
  unfold to_signed. change (2 ^ 8) with 256. change (2 ^ (8 - 1)) with 128.
  destruct (Z.ltb_spec (v mod 256) 128); lia.
Qed.

Lemma comp_int_wf v : i64_range v -> wf_kval (comp_int v).
Proof.
  intros Hv. unfold comp_int. destruct (v =? 0); [exact I|]. destruct (v =? 1); [exact I|].
  destruct (Z.eqb_spec (to_signed 8 v) v) as [E|]; [|exact Hv]. cbn [wf_kval]. now apply to_signed8_eq.
Qed.

Lemma comp_str_wf s : rust_string (2 ^ 63) s -> wf_kval (comp_str s).
Proof.
  intros (H1 & H2 & H3). unfold comp_str. destruct (zlen s =? 0); [exact I|].
  destruct (Z.ltb_spec (zlen s) 16); [repeat split; auto|].
  destruct (Z.ltb_spec (zlen s) 256); repeat split; auto.
Qed.

Lemma to_int_range v : i64_range (to_int 64 v).
Proof.
  unfold i64_range. destruct v as [|[]|s n]; cbn [to_int].
  - split; [apply Z.opp_nonpos_nonneg; apply Z.pow_nonneg; lia|apply pow2_pos; lia].
  - cbn. lia.
  - cbn. lia.
  - change (64 - 1) with 63. assert (0 < 2 ^ 63) by (apply pow2_pos; lia). lia.
Qed.

Lemma comp_double_wf b : 0 <= b < 2 ^ 64 -> wf_kval (comp_double b).
Proof.
  intros Hb. unfold comp_double. destruct (b =? 2 ^ 63); [exact Hb|]. cbv zeta.
  destruct (negb _); [exact Hb|]. destruct (feq _ _); [apply comp_int_wf, to_int_range|].
  destruct (feq _ _) eqn:E; [|exact Hb]. cbn [wf_kval].
  assert (Hr : repr F32 (fcast F32 (fdec F64 b))).
  { destruct (fdec F64 b) as [|s|s n] eqn:En; cbn [fcast].
    - discriminate.
    - exact I.
    - apply fround_repr; [apply wf_F32|]. eapply fdec_nonneg; [|exact En]. cbn; lia. }
  exact (proj2 (fdec_fenc F32 _ wf_F32 Hr)).
Qed.

Lemma comp_float_wf b : 0 <= b < 2 ^ 32 -> wf_kval (comp_float b).
Proof.
  intros Hb. unfold comp_float. destruct (b =? 2 ^ 31); [exact Hb|]. cbv zeta.
  destruct (negb _); [exact Hb|]. destruct (feq _ _); [apply comp_int_wf, to_int_range|exact Hb].
Qed.
