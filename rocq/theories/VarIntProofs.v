(** Lemmas about the variable length integer codec. *)
From Verif Require Import Base CompactionModel.

Lemma pow256_pos n : 0 < 256 ^ Z.of_nat n.
Proof. apply Z.pow_pos_nonneg; lia. Qed.

Lemma pow256_S n : 256 ^ Z.of_nat (S n) = 256 * 256 ^ Z.of_nat n.
Proof. rewrite Nat2Z.inj_succ, Z.pow_succ_r by lia. reflexivity. Qed.

Lemma le_bytes_length k v : length (le_bytes k v) = k.
Proof. revert v; induction k as [|k IH]; intros v; cbn [le_bytes length]; [|rewrite IH]; reflexivity. Qed.

Lemma le_bytes_wf k v : wf_bytes (le_bytes k v).
Proof.
  revert v; induction k as [|k IH]; intros v; cbn [le_bytes]; constructor.
  - unfold wf_byte; lia.
  - apply IH.
Qed.

Lemma le_value_le_bytes k v :
  0 <= v < 256 ^ Z.of_nat k -> le_value (le_bytes k v) = v.
Proof.
  revert v; induction k as [|k IH]; intros v Hv.
  - cbn in *; lia.
  - rewrite pow256_S in Hv. cbn [le_bytes le_value].
    rewrite IH; [|pose proof (pow256_pos k)]; nia.
Qed.

Lemma le_value_bound l : wf_bytes l -> 0 <= le_value l < 256 ^ Z.of_nat (length l).
Proof.
  induction 1 as [|b l Hb Hl IH]; [cbn; lia|].
  cbn [le_value length]. rewrite pow256_S. unfold wf_byte in Hb. nia.
Qed.

Lemma le_value_app a b :
  le_value (a ++ b) = le_value a + 256 ^ Z.of_nat (length a) * le_value b.
Proof.
  induction a as [|x a IH]; [cbn [app le_value length]; change (256 ^ Z.of_nat 0) with 1; lia|].
  cbn [app le_value length]. rewrite IH, pow256_S. ring.
Qed.

Lemma le_bytes_le_value l : wf_bytes l -> le_bytes (length l) (le_value l) = l.
Proof.
  induction 1 as [|b l Hb Hl IH]; [reflexivity|].
  cbn [length le_value le_bytes]. unfold wf_byte in Hb.
  replace ((b + 256 * le_value l) mod 256) with b by lia.
  replace ((b + 256 * le_value l) / 256) with (le_value l) by lia.
  now rewrite IH.
Qed.

Lemma from_bytes_ok w n vec :
  wf_bytes vec -> (length vec <= n)%nat -> 256 ^ Z.of_nat n <= 2 ^ w ->
  from_bytes w vec = Ok (le_value vec).
Proof.
  intros Hwf; revert n; induction Hwf as [|b l Hb Hl IH]; intros n Hn Hw; [reflexivity|].
  cbn [length] in Hn. destruct n as [|n]; [lia|].
  pose proof (pow256_pos n). rewrite pow256_S in Hw.
  cbn [from_bytes]. rewrite (IH n) by lia. cbn [bind].
  pose proof (le_value_bound l Hl).
  assert (256 ^ Z.of_nat (length l) <= 256 ^ Z.of_nat n)
    by (apply Z.pow_le_mono_r; lia).
  destruct (Z.ltb_spec (le_value l * 256) (2 ^ w)) as [Hlt|Hge]; [|nia].
  cbn [le_value]. f_equal; lia.
Qed.

(** ** the magnitude bytes *)

Definition mag_bytes (cap : nat) (v : Z) : list Z :=
  let bytes := to_bytes cap v in
  if (length bytes <? signed_bytes_loop cap v 1)%nat then bytes ++ [0] else bytes.

Lemma signed_bytes_loop_S f v s :
  signed_bytes_loop f v (S s) = S (signed_bytes_loop f v s).
Proof.
  revert v s; induction f as [|f IH]; intros v s; [reflexivity|].
  cbn [signed_bytes_loop]. destruct (v <? 128); [reflexivity|]. apply IH.
Qed.

Lemma mag_bytes_small f v : 0 <= v < 128 -> mag_bytes (S f) v = [v].
Proof.
  intros Hv. unfold mag_bytes, to_bytes. cbn [signed_bytes_loop].
  destruct (Z.ltb_spec v 128); [|lia].
  destruct (Z.eqb_spec v 0) as [->|Hn]; [reflexivity|].
  cbn [to_bytes_loop]. destruct (Z.eqb_spec v 0); [lia|].
  replace (v / 256) with 0 by lia. replace (v mod 256) with v by lia.
  destruct f; reflexivity.
Qed.

Lemma mag_bytes_big f v :
  128 <= v -> mag_bytes (S (S f)) v = v mod 256 :: mag_bytes (S f) (v / 256).
Proof.
  intros Hv. unfold mag_bytes, to_bytes.
  destruct (Z.eqb_spec v 0); [lia|].
  assert (Hs : signed_bytes_loop (S (S f)) v 1 = S (signed_bytes_loop (S f) (v / 256) 1)).
  { rewrite <- signed_bytes_loop_S. cbn [signed_bytes_loop].
    destruct (Z.ltb_spec v 128); [lia|reflexivity]. }
  rewrite Hs.
  assert (Hl : to_bytes_loop (S (S f)) v = v mod 256 :: to_bytes_loop (S f) (v / 256)).
  { cbn [to_bytes_loop]. destruct (Z.eqb_spec v 0); [lia|reflexivity]. }
  rewrite Hl. cbn [length].
  destruct (Z.eqb_spec (v / 256) 0) as [Hz|Hnz].
  - rewrite Hz. reflexivity.
  - change (S (length (to_bytes_loop (S f) (v / 256))) <? S (signed_bytes_loop (S f) (v / 256) 1))%nat
      with (length (to_bytes_loop (S f) (v / 256)) <? signed_bytes_loop (S f) (v / 256) 1)%nat.
    destruct (Nat.ltb _ _); reflexivity.
Qed.

(** The bytes of a magnitude: how many there are, what they mean, that the
    sign bit is free and that one byte less would not leave it free. *)
Lemma mag_bytes_spec f v :
  0 <= v < 128 * 256 ^ Z.of_nat f ->
  exists n, (n <= f)%nat /\ length (mag_bytes (S f) v) = S n /\
    le_value (mag_bytes (S f) v) = v /\ wf_bytes (mag_bytes (S f) v) /\
    v < 128 * 256 ^ Z.of_nat n /\
    (n = 0%nat \/ 128 * 256 ^ Z.of_nat (n - 1) <= v).
Proof.
  revert v; induction f as [|f IH]; intros v Hv.
  - change (256 ^ Z.of_nat 0) with 1 in Hv. rewrite mag_bytes_small by lia.
    exists 0%nat. change (256 ^ Z.of_nat 0) with 1. cbn [length le_value].
    repeat split; try lia. constructor; [unfold wf_byte; lia|constructor].
  - destruct (Z.lt_ge_cases v 128) as [Hs|Hb].
    + rewrite mag_bytes_small by lia.
      exists 0%nat. change (256 ^ Z.of_nat 0) with 1. cbn [length le_value].
      repeat split; try lia. constructor; [unfold wf_byte; lia|constructor].
    + rewrite mag_bytes_big by lia. rewrite pow256_S in Hv.
      destruct (IH (v / 256)) as (n & Hn & Hlen & Hval & Hwf & Hlt & Hmin); [lia|].
      exists (S n). cbn [length le_value]. rewrite Hlen, Hval, pow256_S.
      repeat split; try lia.
      * constructor; [unfold wf_byte; lia|assumption].
      * right. replace (S n - 1)%nat with n by lia.
        destruct n as [|m]; [change (256 ^ Z.of_nat 0) with 1; lia|].
        destruct Hmin as [Hmin|Hmin]; [discriminate|].
        replace (S m - 1)%nat with m in Hmin by lia. rewrite pow256_S. lia.
Qed.

(** ** the sign bit *)

Lemma land_pow2_low k v : 0 <= k -> 0 <= v < 2 ^ k -> Z.land (2 ^ k) v = 0.
Proof.
  intros Hk Hv. apply Z.bits_inj'. intros i Hi.
  rewrite Z.land_spec, Z.bits_0, Z.pow2_bits_eqb by lia.
  destruct (Z.eqb_spec k i) as [->|]; [|reflexivity].
  rewrite Bool.andb_true_l. apply Z.bits_above_log2_neg || idtac.
  destruct (Z.eq_dec v 0) as [->|]; [apply Z.bits_0|].
  apply Z.bits_above_log2; [lia|]. apply Z.log2_lt_pow2; lia.
Qed.

Lemma land_npow2_low k v : 0 <= k -> 0 <= v < 2 ^ k -> Z.land (- 2 ^ k) v = 0.
Proof.
  intros Hk Hv. rewrite Z.land_comm.
  replace (- 2 ^ k) with (Z.lnot (Z.ones k)) by (rewrite Z.ones_equiv; unfold Z.lnot; lia).
  rewrite <- Z.ldiff_land, Z.ldiff_ones_r by lia.
  rewrite Z.shiftr_div_pow2, Z.div_small by lia. apply Z.shiftl_0_l.
Qed.

Lemma sign_split S v : Z.land S v = 0 ->
  Z.lxor (v + S) S = v /\ Z.land S (v + S) = S.
Proof.
  intros H. rewrite Z.add_nocarry_lxor by (rewrite Z.land_comm; exact H). split.
  - rewrite Z.lxor_assoc, Z.lxor_nilpotent, Z.lxor_0_r. reflexivity.
  - apply Z.bits_inj'. intros i Hi.
    assert (Hb : Z.testbit (Z.land S v) i = false) by (rewrite H; apply Z.bits_0).
    rewrite Z.land_spec in Hb. rewrite Z.land_spec, Z.lxor_spec.
    destruct (Z.testbit S i), (Z.testbit v i); cbn in *; congruence.
Qed.

Lemma pow_128_256 n : 128 * 256 ^ Z.of_nat n = 2 ^ (8 * Z.of_nat n + 7).
Proof.
  rewrite Z.pow_add_r, Z.pow_mul_r by lia. change (2 ^ 8) with 256.
  change (2 ^ 7) with 128. lia.
Qed.

Lemma pow_256_2 n : 256 ^ Z.of_nat n = 2 ^ (8 * Z.of_nat n).
Proof. rewrite Z.pow_mul_r by lia. reflexivity. Qed.

(** What decoding does to a byte list of [n + 1] bytes. *)
Lemma vi_decode_spec w n vec :
  8 * (Z.of_nat n + 1) <= w ->
  wf_bytes vec -> length vec = S n ->
  let s := 128 * 256 ^ Z.of_nat n in
  (le_value vec < s -> vi_decode w vec = Ok (le_value vec)) /\
  (s <= le_value vec -> vi_decode w vec = Ok (- (le_value vec - s) - 1)).
Proof.
  intros Hw Hwf Hlen s.
  pose proof (le_value_bound vec Hwf) as Hb. rewrite Hlen in Hb.
  pose proof (pow256_pos n) as Hpn.
  assert (H2w : 256 ^ Z.of_nat (S n) <= 2 ^ w).
  { rewrite pow_256_2. apply Z.pow_le_mono_r; lia. }
  pose proof H2w as H2w'. rewrite pow256_S in Hb, H2w'.
  assert (Hfb : from_bytes w vec = Ok (le_value vec)).
  { eapply from_bytes_ok with (n := S n); auto; lia. }
  assert (Hdec : vi_decode w vec =
    let ans := to_signed w (le_value vec) in
    let sign_bit := to_signed w s in
    if Z.land sign_bit ans =? 0 then Ok ans
    else let ans := Z.lxor ans sign_bit in
         if ans =? - 2 ^ (w - 1) then Panic else Ok (ans * -1 - 1)).
  { unfold vi_decode. destruct vec as [|b l]; [discriminate|].
    rewrite Hfb. cbn [bind]. unfold zlen. rewrite Hlen.
    destruct (Z.leb_spec w (8 * (Z.of_nat (S n) - 1))); [lia|].
    replace (8 * (Z.of_nat (S n) - 1)) with (8 * Z.of_nat n) by lia.
    rewrite <- pow_256_2. reflexivity. }
  set (u := le_value vec) in *. clearbody u.
  assert (Hw1 : 2 ^ w = 2 * 2 ^ (w - 1)).
  { rewrite <- Z.pow_succ_r by lia. f_equal; lia. }
  assert (Hw0 : 0 < 2 ^ (w - 1)) by (apply Z.pow_pos_nonneg; lia).
  rewrite Hdec. clear Hdec Hfb.
  destruct (Z.eq_dec (8 * (Z.of_nat n + 1)) w) as [He|Hne].
  - (* full width: the sign bit is the most negative number *)
    assert (Hs : s = 2 ^ (w - 1)).
    { unfold s. rewrite pow_128_256. f_equal; lia. }
    assert (HS : to_signed w s = - s).
    { unfold to_signed. rewrite Z.mod_small by lia.
      destruct (Z.ltb_spec s (2 ^ (w - 1))); lia. }
    rewrite HS. split; intros Hu.
    + assert (Hans : to_signed w u = u).
      { unfold to_signed. rewrite Z.mod_small by lia.
        destruct (Z.ltb_spec u (2 ^ (w - 1))); lia. }
      cbv zeta. rewrite Hans.
      assert (Hl : Z.land (- s) u = 0)
        by (rewrite Hs; apply land_npow2_low; lia).
      rewrite Hl. reflexivity.
    + assert (Hans : to_signed w u = (u - s) + - s).
      { unfold to_signed. rewrite Z.mod_small by lia.
        destruct (Z.ltb_spec u (2 ^ (w - 1))); lia. }
      cbv zeta. rewrite Hans.
      assert (Hl : Z.land (- s) (u - s) = 0)
        by (rewrite Hs; apply land_npow2_low; lia).
      destruct (sign_split _ _ Hl) as [Hx Ha]. rewrite Ha, Hx.
      destruct (Z.eqb_spec (- s) 0); [lia|].
      destruct (Z.eqb_spec (u - s) (- 2 ^ (w - 1))); [lia|]. f_equal; lia.
  - assert (Hs : s = 2 ^ (8 * Z.of_nat n + 7)) by (unfold s; apply pow_128_256).
    assert (Hsu : 256 * 256 ^ Z.of_nat n <= 2 ^ (w - 1)).
    { rewrite <- pow256_S, pow_256_2. apply Z.pow_le_mono_r; lia. }
    assert (HS : to_signed w s = s).
    { unfold to_signed. rewrite Z.mod_small by lia.
      destruct (Z.ltb_spec s (2 ^ (w - 1))); lia. }
    assert (Hans : to_signed w u = u).
    { unfold to_signed. rewrite Z.mod_small by lia.
      destruct (Z.ltb_spec u (2 ^ (w - 1))); lia. }
    rewrite HS. cbv zeta. rewrite Hans. split; intros Hu.
    + assert (Hl : Z.land s u = 0) by (rewrite Hs; apply land_pow2_low; lia).
      rewrite Hl. reflexivity.
    + assert (Hl : Z.land s (u - s) = 0) by (rewrite Hs; apply land_pow2_low; lia).
      destruct (sign_split _ _ Hl) as [Hx Ha].
      replace (u - s + s) with u in * by lia. rewrite Ha, Hx.
      destruct (Z.eqb_spec s 0); [lia|].
      destruct (Z.eqb_spec (u - s) (- 2 ^ (w - 1))); [lia|]. f_equal; lia.
Qed.

Lemma lor_128 x : 0 <= x < 128 -> Z.lor x 128 = x + 128.
Proof.
  intros Hx. rewrite Z.add_nocarry_lxor.
  - rewrite Z.lxor_lor; [reflexivity|].
    rewrite Z.land_comm. change 128 with (2 ^ 7). apply land_pow2_low; cbn; lia.
  - rewrite Z.land_comm. change 128 with (2 ^ 7). apply land_pow2_low; cbn; lia.
Qed.

(** Encoding: length, bytes and the value they stand for. *)
Lemma vi_encode_spec f val :
  - (128 * 256 ^ Z.of_nat f) <= val < 128 * 256 ^ Z.of_nat f ->
  exists n, (n <= f)%nat /\ length (vi_encode (S f) val) = S n /\
    wf_bytes (vi_encode (S f) val) /\
    (let s := 128 * 256 ^ Z.of_nat n in
     - s <= val < s /\
     le_value (vi_encode (S f) val) = (if val <? 0 then s + (- val - 1) else val)) /\
    (n = 0%nat \/ let s' := 128 * 256 ^ Z.of_nat (n - 1) in ~ (- s' <= val < s')).
Proof.
  intros Hv.
  set (v := if val <? 0 then (val + 1) * -1 else val).
  assert (Hvr : 0 <= v < 128 * 256 ^ Z.of_nat f).
  { unfold v. destruct (Z.ltb_spec val 0); lia. }
  destruct (mag_bytes_spec f v Hvr) as (n & Hn & Hlen & Hval & Hwf & Hlt & Hmin).
  assert (Henc : vi_encode (S f) val =
    if val <? 0 then or_last (mag_bytes (S f) v) else mag_bytes (S f) v) by reflexivity.
  exists n. split; [exact Hn|]. rewrite Henc.
  destruct (Z.ltb_spec val 0) as [Hneg|Hpos].
  - subst v. assert (Hne : mag_bytes (S f) ((val + 1) * -1) <> []).
    { intros E. rewrite E in Hlen. discriminate. }
    set (m := mag_bytes (S f) ((val + 1) * -1)) in *.
    pose proof (app_removelast_last 0 Hne) as Hsplit.
    unfold or_last.
    set (a := removelast m) in *. set (x := last m 0) in *.
    assert (Hla : length a = n).
    { rewrite Hsplit, app_length in Hlen. cbn in Hlen. lia. }
    assert (Hwfx : wf_byte x /\ wf_bytes a).
    { unfold wf_bytes in Hwf. rewrite Hsplit in Hwf. rewrite Forall_app in Hwf.
      destruct Hwf as [Ha Hx]. inversion Hx; subst. split; assumption. }
    destruct Hwfx as [Hwx Hwa]. unfold wf_byte in Hwx.
    pose proof (pow256_pos n) as Hpn.
    pose proof (le_value_bound a Hwa) as Hba. rewrite Hla in Hba.
    assert (Hlv : le_value a + 256 ^ Z.of_nat n * x = (val + 1) * -1).
    { rewrite <- Hval, Hsplit, le_value_app, Hla. cbn [le_value]. lia. }
    assert (Hx128 : x < 128) by nia.
    rewrite lor_128 by lia.
    repeat split.
    + rewrite app_length, Hla. cbn. lia.
    + apply Forall_app; split; [assumption|]. constructor; [unfold wf_byte; lia|constructor].
    + lia.
    + lia.
    + rewrite le_value_app, Hla. cbn [le_value]. lia.
    + destruct Hmin as [Hmin|Hmin]; [left; exact Hmin|right; cbv zeta; lia].
  - subst v. repeat split; try assumption; try lia.
    destruct Hmin as [Hmin|Hmin]; [left; exact Hmin|right; cbv zeta; lia].
Qed.

Lemma vi_roundtrip f w val :
  w = 8 * (Z.of_nat f + 1) ->
  - (128 * 256 ^ Z.of_nat f) <= val < 128 * 256 ^ Z.of_nat f ->
  vi_decode w (vi_encode (S f) val) = Ok val.
Proof.
  intros Hw Hv. destruct (vi_encode_spec f val Hv) as (n & Hn & Hlen & Hwf & [Hr Hlv] & _).
  destruct (vi_decode_spec w n (vi_encode (S f) val)) as [Hd1 Hd2]; [lia|assumption|assumption|].
  cbv zeta in *. rewrite Hlv in Hd1, Hd2. destruct (Z.ltb_spec val 0).
  - rewrite Hd2 by lia. f_equal; lia.
  - rewrite Hd1 by lia. reflexivity.
Qed.

(** No shorter non-empty byte list decodes to the same integer. *)
Lemma vi_minimal f w val vec :
  w = 8 * (Z.of_nat f + 1) ->
  - (128 * 256 ^ Z.of_nat f) <= val < 128 * 256 ^ Z.of_nat f ->
  wf_bytes vec -> vec <> [] -> vi_decode w vec = Ok val ->
  (length (vi_encode (S f) val) <= length vec)%nat.
Proof.
  intros Hw Hv Hwf Hne Hdec.
  destruct (vi_encode_spec f val Hv) as (n & Hn & Hlen & _ & _ & Hmin).
  rewrite Hlen. destruct vec as [|b l]; [congruence|]. cbn [length].
  destruct (le_lt_dec n (length l)) as [|Hlt]; [lia|exfalso].
  destruct Hmin as [Hmin|Hmin]; [lia|].
  set (m := length l) in *.
  destruct (vi_decode_spec w m (b :: l)) as [Hd1 Hd2]; [lia|assumption|reflexivity|].
  cbv zeta in *.
  pose proof (le_value_bound _ Hwf) as Hb. cbn [length] in Hb. rewrite pow256_S in Hb.
  fold m in Hb.
  assert (Hmono : 256 ^ Z.of_nat m <= 256 ^ Z.of_nat (n - 1)) by (apply Z.pow_le_mono_r; lia).
  set (u := le_value (b :: l)) in *. clearbody u.
  destruct (Z.lt_ge_cases u (128 * 256 ^ Z.of_nat m)) as [H1|H1].
  - rewrite Hd1 in Hdec by assumption. apply Ok_inj in Hdec. apply Hmin. lia.
  - rewrite Hd2 in Hdec by assumption. apply Ok_inj in Hdec. apply Hmin. lia.
Qed.

Lemma i64_range_256 v : i64_range v <-> - (128 * 256 ^ Z.of_nat 7) <= v < 128 * 256 ^ Z.of_nat 7.
Proof. unfold i64_range. rewrite pow_128_256. reflexivity. Qed.
Lemma i128_range_256 v : i128_range v <-> - (128 * 256 ^ Z.of_nat 15) <= v < 128 * 256 ^ Z.of_nat 15.
Proof. unfold i128_range. rewrite pow_128_256. reflexivity. Qed.

Lemma vi64_roundtrip v : i64_range v -> vi_decode 64 (vi_encode 8 v) = Ok v.
Proof. intros H. apply (vi_roundtrip 7); [reflexivity|]. now apply i64_range_256. Qed.
Lemma vi128_roundtrip v : i128_range v -> vi_decode 128 (vi_encode 16 v) = Ok v.
Proof. intros H. apply (vi_roundtrip 15); [reflexivity|]. now apply i128_range_256. Qed.

Lemma vi64_length v : i64_range v -> 1 <= zlen (vi_encode 8 v) <= 8.
Proof.
  intros H. apply i64_range_256 in H. destruct (vi_encode_spec 7 v H) as (n & Hn & Hl & _).
  unfold zlen. rewrite Hl. lia.
Qed.
Lemma vi128_length v : i128_range v -> 1 <= zlen (vi_encode 16 v) <= 16.
Proof.
  intros H. apply i128_range_256 in H. destruct (vi_encode_spec 15 v H) as (n & Hn & Hl & _).
  unfold zlen. rewrite Hl. lia.
Qed.
Lemma vi64_wf v : i64_range v -> wf_bytes (vi_encode 8 v).
Proof. intros H. apply i64_range_256 in H. now destruct (vi_encode_spec 7 v H) as (n & _ & _ & W & _). Qed.
Lemma vi128_wf v : i128_range v -> wf_bytes (vi_encode 16 v).
Proof. intros H. apply i128_range_256 in H. now destruct (vi_encode_spec 15 v H) as (n & _ & _ & W & _). Qed.

Lemma to_bytes_loop_stop cap v :
  0 <= v < 256 ^ Z.of_nat cap -> to_bytes_loop cap v = to_bytes_loop (S cap) v.
Proof.
  revert v; induction cap as [|c IH]; intros v Hv.
  - cbn in Hv. cbn [to_bytes_loop]. destruct (Z.eqb_spec v 0); [reflexivity|lia].
  - rewrite pow256_S in Hv.
    change (to_bytes_loop (S c) v) with (if v =? 0 then [] else v mod 256 :: to_bytes_loop c (v / 256)).
    rewrite IH by lia. reflexivity.
Qed.
