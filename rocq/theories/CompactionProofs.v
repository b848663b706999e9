(** Lemmas about the bit packed encoder and decoder. *)
From Verif Require Import Base CompactionModel CompactionSpec VarIntProofs.

(** ** bits *)

Lemma bits_of_length n v : length (bits_of n v) = n.
Proof. induction n as [|n IH]; cbn; [|rewrite IH]; reflexivity. Qed.

Lemma mod_pow2_S v n : 0 <= n ->
  v mod 2 ^ (n + 1) = (if Z.testbit v n then 1 else 0) * 2 ^ n + v mod 2 ^ n.
Proof.
  intros Hn. pose proof (Z.testbit_spec' v n Hn) as Hb.
  assert (Hp : 0 < 2 ^ n) by (apply Z.pow_pos_nonneg; lia).
  rewrite Z.pow_add_r by lia. change (2 ^ 1) with 2.
  rewrite Z.rem_mul_r by lia. rewrite <- Hb.
  destruct (Z.testbit v n); cbn [Z.b2z]; lia.
Qed.

Lemma read_bits_acc_app n v acc rest :
  read_bits_acc n acc (bits_of n v ++ rest)
  = Ok (acc * 2 ^ Z.of_nat n + v mod 2 ^ Z.of_nat n, rest).
Proof.
  revert acc; induction n as [|n IH]; intros acc.
  - cbn [read_bits_acc bits_of app]. change (2 ^ Z.of_nat 0) with 1.
    rewrite Z.mod_1_r. do 2 f_equal. lia.
  - cbn [read_bits_acc bits_of app read_bit bind]. rewrite IH.
    replace (Z.of_nat (S n)) with (Z.of_nat n + 1) by lia.
    rewrite mod_pow2_S by lia. rewrite Z.pow_add_r by lia. change (2 ^ 1) with 2.
    do 2 f_equal. ring.
Qed.

Lemma read_bits_app n v rest :
  0 <= v < 2 ^ Z.of_nat n -> read_bits n (bits_of n v ++ rest) = Ok (v, rest).
Proof.
  intros Hv. unfold read_bits. rewrite read_bits_acc_app.
  rewrite Z.mod_small by lia. reflexivity.
Qed.

Lemma bits_byte b7 b6 b5 b4 b3 b2 b1 b0 :
  bits_of 8 (bits_value [b7; b6; b5; b4; b3; b2; b1; b0]) = [b7; b6; b5; b4; b3; b2; b1; b0].
Proof. destruct b7, b6, b5, b4, b3, b2, b1, b0; reflexivity. Qed.

Lemma bits_byte_wf b7 b6 b5 b4 b3 b2 b1 b0 :
  wf_byte (bits_value [b7; b6; b5; b4; b3; b2; b1; b0]).
Proof. unfold wf_byte; destruct b7, b6, b5, b4, b3, b2, b1, b0; cbn; lia. Qed.

Lemma pack_spec bs : exists k,
  unpack_bits (pack_bits bs) = bs ++ repeat false k /\
  8 * zlen (pack_bits bs) <= zlen bs + 7 /\
  zlen bs <= 8 * zlen (pack_bits bs) /\ wf_bytes (pack_bits bs).
Proof.
  assert (H : forall n bs, (length bs <= n)%nat -> exists k,
    unpack_bits (pack_bits bs) = bs ++ repeat false k /\
    8 * zlen (pack_bits bs) <= zlen bs + 7 /\
    zlen bs <= 8 * zlen (pack_bits bs) /\ wf_bytes (pack_bits bs)).
  { clear bs. induction n as [|n IH]; intros bs Hn.
    - destruct bs; [|cbn in Hn; lia]. exists 0%nat. cbn. repeat split; try lia. constructor.
    - destruct bs as [|b7 [|b6 [|b5 [|b4 [|b3 [|b2 [|b1 [|b0 rest]]]]]]]].
      1: exists 0%nat; cbn; repeat split; try lia; constructor.
      1-7: cbn [pack_bits length Nat.sub repeat app];
           unfold unpack_bits; cbn [flat_map]; rewrite bits_byte; cbn [app];
           first [ exists 7%nat; split; [reflexivity|] | exists 6%nat; split; [reflexivity|]
                 | exists 5%nat; split; [reflexivity|] | exists 4%nat; split; [reflexivity|]
                 | exists 3%nat; split; [reflexivity|] | exists 2%nat; split; [reflexivity|]
                 | exists 1%nat; split; [reflexivity|] ];
           unfold zlen; cbn [length];
           repeat split; try lia; (constructor; [apply bits_byte_wf|constructor]).
      cbn [pack_bits]. destruct (IH rest) as (k & Hk & H1 & H2 & H3); [cbn in Hn; lia|].
      exists k. unfold unpack_bits in *. cbn [flat_map]. rewrite bits_byte, Hk.
      repeat split.
      + rewrite !zlen_cons. lia.
      + rewrite !zlen_cons. lia.
      + constructor; [apply bits_byte_wf|assumption]. }
  apply (H (length bs)). lia.
Qed.

(** ** reader *)

Lemma read_exact_app l rest n :
  read_exact (zlen l) (l ++ rest, n) = Ok (l, (rest, n + zlen l)).
Proof.
  unfold read_exact. cbn [fst snd]. rewrite zlen_app.
  destruct (Z.ltb_spec (zlen l + zlen rest) (zlen l)); [pose proof (zlen_nonneg rest); lia|].
  unfold zlen at 1 2. rewrite Nat2Z.id, firstn_app_exact, skipn_app_exact. reflexivity.
Qed.

Lemma read_app l rest n :
  zlen l < 2 ^ 63 -> read (zlen l) (l ++ rest, n) = Ok (l, (rest, n + zlen l)).
Proof.
  intros H. unfold read. destruct (Z.leb_spec (2 ^ 63) (zlen l)); [lia|].
  apply read_exact_app.
Qed.

Lemma to_unsigned_small n : 0 <= n < 2 ^ 64 -> to_unsigned 64 n = n.
Proof. intros H. apply Z.mod_small. exact H. Qed.

Lemma pow63_64 : 2 ^ 63 < 2 ^ 64. Proof. reflexivity. Qed.

Lemma read_string_app s rest n :
  rust_string (2 ^ 63) s ->
  read_string (zlen s) (s ++ rest, n) = Ok (s, (rest, n + zlen s)).
Proof.
  intros (Hw & Hu & Hl). unfold read_string. pose proof (zlen_nonneg s). pose proof pow63_64.
  rewrite to_unsigned_small by lia.
  destruct (Z.leb_spec (2 ^ 63) (zlen s)); [lia|].
  rewrite read_exact_app. cbn [bind]. rewrite Hu. reflexivity.
Qed.

Lemma read_binary_app s rest n :
  zlen s < 2 ^ 63 ->
  read_binary (zlen s) (s ++ rest, n) = Ok (s, (rest, n + zlen s)).
Proof.
  intros Hl. unfold read_binary. pose proof (zlen_nonneg s). pose proof pow63_64.
  rewrite to_unsigned_small by lia.
  destruct (Z.leb_spec (2 ^ 63) (zlen s)); [lia|]. apply read_exact_app.
Qed.

Lemma words_length k v : zlen (flat_map (le_bytes k) v) = Z.of_nat k * zlen v.
Proof.
  induction v as [|x v IH]; [cbn; unfold zlen; cbn; lia|].
  cbn [flat_map]. rewrite zlen_app, zlen_cons, IH. unfold zlen at 1. rewrite le_bytes_length. lia.
Qed.

Lemma words_wf k v : wf_bytes (flat_map (le_bytes k) v).
Proof.
  induction v as [|x v IH]; [constructor|]. cbn [flat_map]. apply Forall_app; split; [apply le_bytes_wf|exact IH].
Qed.

Lemma read_words_app k v rest n :
  Forall (fun x => 0 <= x < 256 ^ Z.of_nat k) v ->
  read_words k (length v) (flat_map (le_bytes k) v ++ rest, n)
  = Ok (v, (rest, n + Z.of_nat k * zlen v)).
Proof.
  intros Hv; revert n; induction Hv as [|x v Hx Hv IH]; intros n.
  - cbn. do 3 f_equal. unfold zlen; cbn; lia.
  - cbn [length read_words flat_map]. rewrite <- app_assoc.
    assert (Hk : Z.of_nat k = zlen (le_bytes k x)) by (unfold zlen; rewrite le_bytes_length; reflexivity).
    rewrite Hk at 1. rewrite read_exact_app. cbn [bind]. rewrite IH. cbn [bind].
    rewrite le_value_le_bytes by exact Hx. rewrite <- Hk, zlen_cons. do 3 f_equal. lia.
Qed.

Lemma read_binary_words_app k v rest n :
  Forall (fun x => 0 <= x < 256 ^ Z.of_nat k) v -> (0 < k)%nat ->
  Z.of_nat k * zlen v < 2 ^ 63 ->
  read_binary_words k (zlen v) (flat_map (le_bytes k) v ++ rest, n)
  = Ok (v, (rest, n + Z.of_nat k * zlen v)).
Proof.
  intros Hv Hk Hl. unfold read_binary_words. pose proof (zlen_nonneg v). pose proof pow63_64.
  assert (zlen v <= Z.of_nat k * zlen v) by nia.
  rewrite to_unsigned_small by lia.
  destruct (Z.leb_spec (2 ^ 63) (zlen v * Z.of_nat k)); [lia|]. cbn [fst].
  rewrite zlen_app, words_length. pose proof (zlen_nonneg rest).
  destruct (Z.ltb_spec (Z.of_nat k * zlen v + zlen rest) (zlen v * Z.of_nat k)); [lia|].
  unfold zlen at 1. rewrite Nat2Z.id. now apply read_words_app.
Qed.

Lemma be_length k v : zlen (be_bytes k v) = Z.of_nat k.
Proof. unfold be_bytes, zlen. rewrite rev_length, le_bytes_length. reflexivity. Qed.
Lemma be_roundtrip k v : 0 <= v < 256 ^ Z.of_nat k -> be_value (be_bytes k v) = v.
Proof. intros H. unfold be_value, be_bytes. rewrite rev_involutive. now apply le_value_le_bytes. Qed.
Lemma be_wf k v : wf_bytes (be_bytes k v).
Proof. apply Forall_rev, le_bytes_wf. Qed.

Lemma vi_read_write v rest n :
  i64_range v -> vi_read (vi_write v ++ rest, n) = Ok (v, (rest, n + zlen (vi_write v))).
Proof.
  intros Hv. unfold vi_read, vi_write. cbn [app read_byte fst snd bind].
  pose proof (vi64_length v Hv). rewrite read_app by lia. cbn [bind].
  rewrite vi64_roundtrip by exact Hv. cbn [bind]. rewrite zlen_cons. do 3 f_equal. lia.
Qed.

Lemma vi_write_wf v : i64_range v -> wf_bytes (vi_write v).
Proof.
  intros Hv. unfold vi_write. pose proof (vi64_length v Hv).
  constructor; [unfold wf_byte; lia|]. now apply vi64_wf.
Qed.

(** ** one value *)

Definition item_ok (k : kval) : Prop :=
  exists tb d t, encode_item k = Ok (tb, d) /\
    (forall rest, read_tag (tb ++ rest) = Ok (t, rest)) /\
    (forall rest n, decode_item t (d ++ rest, n) = Ok (plain k, (rest, n + zlen d))) /\
    1 <= zlen tb <= 16 /\ wf_bytes d.

Lemma enc_sized_data len payload n rest :
  0 <= len < 2 ^ 63 ->
  forall A (f : Z -> reader -> res (A * reader)) (g : A -> kval) a k,
  f len (payload ++ rest, n + zlen (vi_encode 8 len)) = Ok (a, k) ->
  ('(bytes, r) <- read (zlen (vi_encode 8 len)) ((vi_encode 8 len ++ payload) ++ rest, n) ;
   len <- vi_decode 64 bytes ;
   '(v, r) <- f len r ; Ok (g v, r)) = Ok (g a, k).
Proof.
  intros Hl A f g a k Hf.
  assert (Hr : i64_range len) by (unfold i64_range; lia).
  pose proof (vi64_length len Hr). rewrite <- app_assoc, read_app by lia. cbn [bind].
  rewrite vi64_roundtrip by exact Hr. cbn [bind]. rewrite Hf. reflexivity.
Qed.

Lemma sized_bits len : 0 <= len < 2 ^ 63 -> 0 <= zlen (vi_encode 8 len) - 1 < 2 ^ Z.of_nat 3.
Proof.
  intros Hl. assert (Hr : i64_range len) by (unfold i64_range; lia).
  pose proof (vi64_length len Hr). cbn. lia.
Qed.

Lemma zlen_bits n v : zlen (bits_of n v) = Z.of_nat n.
Proof. unfold zlen. now rewrite bits_of_length. Qed.

(** [bits_of] of a closed number, computed *)
Ltac compute_bits :=
  repeat match goal with
  | |- context [bits_of ?n (Zpos ?p)] =>
      let b := eval vm_compute in (bits_of n (Zpos p)) in change (bits_of n (Zpos p)) with b
  end; cbn [app].

Lemma sized_item tagval tagbits mk len payload A f (g : A -> kval) a :
  (forall v rest, 0 <= v < 2 ^ Z.of_nat 3 ->
     read_tag ((bits_of tagbits tagval ++ bits_of 3 v) ++ rest) = Ok (mk (v + 1), rest)) ->
  (forall size r, decode_item (mk size) r =
     ('(bytes, r) <- read size r ; len <- vi_decode 64 bytes ;
      '(v, r) <- f len r ; Ok (g v, r))) ->
  0 <= len < 2 ^ 63 -> wf_bytes payload ->
  (forall rest n, f len (payload ++ rest, n) = Ok (a, (rest, n + zlen payload))) ->
  1 <= Z.of_nat tagbits <= 13 ->
  forall k, encode_item k = Ok (enc_sized tagval tagbits len payload) ->
  plain k = g a -> item_ok k.
Proof.
  intros Htag Hdec Hlen Hwf Hf Htb k Henc Hpl.
  exists (bits_of tagbits tagval ++ bits_of 3 (zlen (vi_encode 8 len) - 1)),
    (vi_encode 8 len ++ payload), (mk (zlen (vi_encode 8 len))).
  split; [exact Henc|]. split.
  { intros rest. rewrite Htag by (now apply sized_bits). do 3 f_equal. lia. }
  split.
  { intros rest n. rewrite Hdec, Hpl.
    apply (enc_sized_data len payload n rest Hlen A f g a).
    rewrite Hf, zlen_app. rewrite Z.add_assoc. reflexivity. }
  split.
  { rewrite zlen_app, !zlen_bits. lia. }
  apply Forall_app; split; [|exact Hwf]. apply vi64_wf. unfold i64_range. lia.
Qed.

Lemma rust_string_mono a b s : a <= b -> rust_string a s -> rust_string b s.
Proof. intros H (H1 & H2 & H3). repeat split; auto; lia. Qed.

Lemma to_signed_unsigned8 i : -128 <= i < 128 -> to_signed 8 (to_unsigned 8 i) = i.
Proof.
  intros H. unfold to_signed, to_unsigned. change (2 ^ 8) with 256. change (2 ^ (8 - 1)) with 128.
  rewrite Z.mod_mod by lia. destruct (Z.ltb_spec (i mod 256) 128); lia.
Qed.

Ltac easy_tag := intros rest; compute_bits; reflexivity.
Ltac len_tac := rewrite ?zlen_app, ?zlen_bits; cbn; lia.

(** the tags with a length field: the fixed bits lead to the length field *)
Lemma tag_str16 bs : read_tag (bits_of 4 5 ++ bs) = ('(n, bs) <- read_bits 4 bs ; Ok (TStr16 n, bs)).
Proof. reflexivity. Qed.
Lemma tag_int bs : read_tag (bits_of 4 3 ++ bs) = ('(n, bs) <- read_bits 3 bs ; Ok (TInt (n + 1), bs)).
Proof. reflexivity. Qed.
Lemma tag_decimal bs : read_tag (bits_of 7 33 ++ bs) = ('(n, bs) <- read_bits 4 bs ; Ok (TDecimal (n + 1), bs)).
Proof. reflexivity. Qed.
Lemma tag_bigstr bs : read_tag (bits_of 7 17 ++ bs) = ('(n, bs) <- read_bits 3 bs ; Ok (TBigStr (n + 1), bs)).
Proof. reflexivity. Qed.
Lemma tag_binary bs : read_tag (bits_of 5 3 ++ bs) = ('(n, bs) <- read_bits 3 bs ; Ok (TBinary (n + 1), bs)).
Proof. reflexivity. Qed.
Lemma tag_binary8 bs : read_tag (bits_of 6 5 ++ bs) = ('(n, bs) <- read_bits 3 bs ; Ok (TBinary8 (n + 1), bs)).
Proof. reflexivity. Qed.
Lemma tag_binary4 bs : read_tag (bits_of 7 9 ++ bs) = ('(n, bs) <- read_bits 3 bs ; Ok (TBinary4 (n + 1), bs)).
Proof. reflexivity. Qed.
Lemma tag_binary2 bs : read_tag (bits_of 8 17 ++ bs) = ('(n, bs) <- read_bits 3 bs ; Ok (TBinary2 (n + 1), bs)).
Proof. reflexivity. Qed.

Lemma item_roundtrip k : wf_kval k -> item_ok k.
Proof.
  assert (P63 : 256 < 2 ^ 63) by reflexivity.
  destruct k as [ |b|b|i|s|i|f|s|d|i dot|s|v|v|v|v|v|i]; cbn [wf_kval]; intros Hwf.
  - exists (bits_of 5 9), [], TNull. repeat split; try easy_tag; try (cbn; lia).
    + intros rest n. cbn. do 3 f_equal. unfold zlen; cbn; lia.
    + constructor.
  - exists (bits_of 2 (2 + (if b then 1 else 0))), [], (TBit b). repeat split; try (cbn; lia).
    + intros rest. destruct b; reflexivity.
    + intros rest n. cbn. do 3 f_equal. unfold zlen; cbn; lia.
    + constructor.
  - exists (bits_of 7 (34 + (if b then 1 else 0))), [], (TBool b). repeat split; try (cbn; lia).
    + intros rest. destruct b; reflexivity.
    + intros rest n. cbn. do 3 f_equal. unfold zlen; cbn; lia.
    + constructor.
  - exists (bits_of 3 3), [to_unsigned 8 i], TByte. repeat split; try easy_tag; try (cbn; lia).
    + intros rest n. cbn [decode_item app read_byte fst snd bind].
      rewrite to_signed_unsigned8 by lia. reflexivity.
    + constructor; [|constructor]. unfold wf_byte, to_unsigned. change (2 ^ 8) with 256. lia.
  - destruct Hwf as (Hw & Hu & Hl). pose proof (zlen_nonneg s).
    exists (bits_of 4 5 ++ bits_of 4 (zlen s)), s, (TStr16 (zlen s)).
    split; [cbn [encode_item]; destruct (Z.ltb_spec (zlen s) 16); [reflexivity|lia]|].
    split.
    { intros rest. rewrite <- app_assoc.
      rewrite ?tag_str16, ?tag_int, ?tag_decimal.
      rewrite read_bits_app by (change (2 ^ Z.of_nat 4) with 16; change (2 ^ Z.of_nat 3) with 8; lia). reflexivity. }
    split.
    { intros rest n. cbn [decode_item plain]. rewrite read_string_app; [reflexivity|].
      repeat split; auto; lia. }
    split; [len_tac|exact Hw].
  - pose proof (vi64_length i Hwf) as Hl.
    exists (bits_of 4 3 ++ bits_of 3 (zlen (vi_encode 8 i) - 1)), (vi_encode 8 i), (TInt (zlen (vi_encode 8 i))).
    split.
    { cbn [encode_item]. destruct (Z.eqb_spec (zlen (vi_encode 8 i)) 0); [lia|].
      destruct (Z.leb_spec 9 (zlen (vi_encode 8 i))); [lia|]. reflexivity. }
    split.
    { intros rest. rewrite <- app_assoc.
      rewrite ?tag_str16, ?tag_int, ?tag_decimal.
      rewrite read_bits_app by (change (2 ^ Z.of_nat 4) with 16; change (2 ^ Z.of_nat 3) with 8; lia). cbn [bind].
      rewrite Z.sub_add. reflexivity. }
    split.
    { intros rest n. cbn [decode_item plain]. rewrite read_app by lia. cbn [bind].
      rewrite vi64_roundtrip by exact Hwf. reflexivity. }
    split; [len_tac|now apply vi64_wf].
  - exists (bits_of 8 33), (be_bytes 4 f), TFloat. repeat split; try easy_tag; try (cbn; lia).
    + intros rest n. cbn [decode_item plain]. rewrite <- (be_length 4 f : _ = 4).
      rewrite read_app by (rewrite be_length; cbn; lia). cbn [bind].
      rewrite be_roundtrip by (exact Hwf). reflexivity.
    + apply be_wf.
  - destruct Hwf as (Hw & Hu & Hl). pose proof (zlen_nonneg s).
    exists (bits_of 5 5), (zlen s :: s), TStr256.
    split; [cbn [encode_item]; destruct (Z.leb_spec 256 (zlen s)); [lia|reflexivity]|].
    split; [easy_tag|]. split.
    { intros rest n. cbn [decode_item plain app read_byte fst snd bind].
      rewrite read_string_app by (repeat split; auto; lia). cbn [bind]. rewrite zlen_cons.
      do 3 f_equal. lia. }
    split; [len_tac|]. constructor; [unfold wf_byte; lia|exact Hw].
  - exists (bits_of 6 9), (be_bytes 8 d), TDouble. repeat split; try easy_tag; try (cbn; lia).
    + intros rest n. cbn [decode_item plain]. rewrite <- (be_length 8 d : _ = 8).
      rewrite read_app by (rewrite be_length; cbn; lia). cbn [bind].
      rewrite be_roundtrip by (exact Hwf). reflexivity.
    + apply be_wf.
  - destruct Hwf as [Hi Hd]. pose proof (vi128_length i Hi) as Hl.
    exists (bits_of 7 33 ++ bits_of 4 (zlen (vi_encode 16 i) - 1)), (vi_encode 16 i ++ [dot]),
      (TDecimal (zlen (vi_encode 16 i))).
    split.
    { cbn [encode_item]. destruct (Z.eqb_spec (zlen (vi_encode 16 i)) 0); [lia|].
      destruct (Z.leb_spec 17 (zlen (vi_encode 16 i))); [lia|]. reflexivity. }
    split.
    { intros rest. rewrite <- app_assoc.
      rewrite ?tag_str16, ?tag_int, ?tag_decimal.
      rewrite read_bits_app by (change (2 ^ Z.of_nat 4) with 16; change (2 ^ Z.of_nat 3) with 8; lia). cbn [bind].
      rewrite Z.sub_add. reflexivity. }
    split.
    { intros rest n. cbn [decode_item plain]. rewrite <- app_assoc, read_app by lia. cbn [bind].
      rewrite vi128_roundtrip by exact Hi. cbn [app read_byte fst snd bind].
      rewrite zlen_app. unfold zlen at 3. cbn [length]. do 3 f_equal. lia. }
    split; [len_tac|]. apply Forall_app; split; [now apply vi128_wf|]. constructor; [exact Hd|constructor].
  - destruct Hwf as (Hw & Hu & Hl). pose proof (zlen_nonneg s).
    eapply (sized_item 17 7 TBigStr (zlen s) s _ read_string KBigStr s); try reflexivity; auto; try lia.
    + intros v rest Hv. rewrite <- app_assoc. rewrite ?tag_bigstr, ?tag_binary, ?tag_binary8, ?tag_binary4, ?tag_binary2.
      rewrite read_bits_app by exact Hv. reflexivity.
    + intros rest n. apply read_string_app. repeat split; auto.
  - destruct Hwf as (Hw & Hl). pose proof (zlen_nonneg v).
    eapply (sized_item 3 5 TBinary (zlen v) v _ read_binary KBinary v); try reflexivity; auto; try lia.
    + intros x rest Hv. rewrite <- app_assoc. rewrite ?tag_bigstr, ?tag_binary, ?tag_binary8, ?tag_binary4, ?tag_binary2.
      rewrite read_bits_app by exact Hv. reflexivity.
    + intros rest n. now apply read_binary_app.
  - destruct Hwf as (Hw & Hl). pose proof (zlen_nonneg v).
    eapply (sized_item 3 5 TBinary (zlen v) v _ read_binary KBinary v); try reflexivity; auto; try lia.
    + intros x rest Hv. rewrite <- app_assoc. rewrite ?tag_bigstr, ?tag_binary, ?tag_binary8, ?tag_binary4, ?tag_binary2.
      rewrite read_bits_app by exact Hv. reflexivity.
    + intros rest n. now apply read_binary_app.
  - destruct Hwf as (Hw & Hl). pose proof (zlen_nonneg v).
    eapply (sized_item 5 6 TBinary8 (zlen v) (flat_map (le_bytes 8) v) _ (read_binary_words 8) KBinary8 v);
      try reflexivity; auto; try lia; try apply words_wf.
    + intros x rest Hv. rewrite <- app_assoc. rewrite ?tag_bigstr, ?tag_binary, ?tag_binary8, ?tag_binary4, ?tag_binary2.
      rewrite read_bits_app by exact Hv. reflexivity.
    + intros rest n. rewrite words_length. apply read_binary_words_app; auto; lia.
  - destruct Hwf as (Hw & Hl). pose proof (zlen_nonneg v).
    eapply (sized_item 9 7 TBinary4 (zlen v) (flat_map (le_bytes 4) v) _ (read_binary_words 4) KBinary4 v);
      try reflexivity; auto; try lia; try apply words_wf.
    + intros x rest Hv. rewrite <- app_assoc. rewrite ?tag_bigstr, ?tag_binary, ?tag_binary8, ?tag_binary4, ?tag_binary2.
      rewrite read_bits_app by exact Hv. reflexivity.
    + intros rest n. rewrite words_length. apply read_binary_words_app; auto; lia.
  - destruct Hwf as (Hw & Hl). pose proof (zlen_nonneg v).
    eapply (sized_item 17 8 TBinary2 (zlen v) (flat_map (le_bytes 2) v) _ (read_binary_words 2) KBinary2 v);
      try reflexivity; auto; try lia; try apply words_wf.
    + intros x rest Hv. rewrite <- app_assoc. rewrite ?tag_bigstr, ?tag_binary, ?tag_binary8, ?tag_binary4, ?tag_binary2.
      rewrite read_bits_app by exact Hv. reflexivity.
    + intros rest n. rewrite words_length. apply read_binary_words_app; auto; lia.
  - exists (bits_of 5 1 ++ bits_of (Z.to_nat i) 0 ++ bits_of 1 1), [], (TUndefined i).
    split; [cbn [encode_item]; destruct (Z.leb_spec 8 i); [lia|reflexivity]|].
    assert (Hi : i = 0 \/ i = 1 \/ i = 2 \/ i = 3 \/ i = 4 \/ i = 5 \/ i = 6 \/ i = 7) by lia.
    split.
    { intros rest. repeat destruct Hi as [->|Hi]; [reflexivity..|]. subst i; reflexivity. }
    split.
    { intros rest n. cbn. do 3 f_equal. unfold zlen; cbn; lia. }
    split; [rewrite !zlen_app, !zlen_bits; lia|constructor].
Qed.

(** ** sequences *)

Lemma items_roundtrip ks : Forall wf_kval ks ->
  exists tb d ts, encode_items ks = Ok (tb, d) /\
    (forall rest, read_tags (length ks) (tb ++ rest) = Ok ts) /\
    (forall rest n, decode_items ts (d ++ rest, n) = Ok (map plain ks, (rest, n + zlen d))) /\
    zlen ks <= zlen tb <= 16 * zlen ks /\ wf_bytes d.
Proof.
  induction 1 as [|k ks Hk Hks IH].
  - exists [], [], []. repeat split; try (cbn; lia).
    + intros rest n. cbn. do 3 f_equal. unfold zlen; cbn; lia.
    + constructor.
  - destruct IH as (tb & d & ts & He & Ht & Hd & Hl & Hw).
    destruct (item_roundtrip k Hk) as (tb1 & d1 & t1 & He1 & Ht1 & Hd1 & Hl1 & Hw1).
    exists (tb1 ++ tb), (d1 ++ d), (t1 :: ts). repeat split.
    + cbn [encode_items]. rewrite He1. cbn [bind]. rewrite He. reflexivity.
    + intros rest. cbn [length read_tags]. rewrite <- app_assoc, Ht1. cbn [bind].
      rewrite Ht. reflexivity.
    + intros rest n. cbn [decode_items]. rewrite <- app_assoc, Hd1. cbn [bind].
      rewrite Hd. cbn [bind map]. rewrite zlen_app. do 3 f_equal. lia.
    + rewrite zlen_app, zlen_cons. lia.
    + rewrite zlen_app, zlen_cons. lia.
    + apply Forall_app; split; assumption.
Qed.

Lemma encode_decode ks rest : wf_kvals ks ->
  exists bytes, encode ks = Ok bytes /\ wf_bytes bytes /\
    decode (bytes ++ rest) = Ok (map plain ks, zlen bytes, rest).
Proof.
  intros [Hwf Hlen]. destruct (items_roundtrip ks Hwf) as (tb & d & ts & He & Ht & Hd & Hl & Hw).
  destruct (pack_spec tb) as (pad & Hunpack & Hp1 & Hp2 & Hpw).
  set (tv := pack_bits tb) in *.
  pose proof (zlen_nonneg ks). pose proof (zlen_nonneg tv).
  assert (P : 2 ^ 63 = 32 * 2 ^ 58) by reflexivity.
  assert (P64 : 2 ^ 64 = 64 * 2 ^ 58) by reflexivity.
  assert (Hk64 : i64_range (zlen ks)) by (unfold i64_range; lia).
  assert (Ht64 : i64_range (zlen tv)) by (unfold i64_range; lia).
  exists (vi_write (zlen ks) ++ vi_write (zlen tv) ++ tv ++ d). split; [|split].
  - unfold encode. rewrite He. reflexivity.
  - repeat (apply Forall_app; split); auto; now apply vi_write_wf.
  - unfold decode. rewrite <- !app_assoc.
    rewrite vi_read_write by exact Hk64. cbn [bind].
    rewrite vi_read_write by exact Ht64. cbn [bind].
    rewrite to_unsigned_small by lia. rewrite read_app by lia. cbn [bind].
    destruct (Z.ltb_spec (zlen ks) 0); [lia|].
    destruct (Z.ltb_spec (8 * zlen tv) (zlen ks)); [lia|]. cbn [orb].
    rewrite Hunpack. unfold zlen at 1. rewrite Nat2Z.id, Ht. cbn [bind].
    rewrite Hd. cbn [bind fst snd]. rewrite !zlen_app. do 3 f_equal. lia.
Qed.
