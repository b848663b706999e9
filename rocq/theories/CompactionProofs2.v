(** Unambiguity of encodings, and which byte strings make the decoder panic. *)
From Verif Require Import Base CompactionModel CompactionSpec VarIntProofs CompactionProofs.

(** ** the encoder panics exactly on oversized values *)

Definition wf_or_oversized (k : kval) : Prop := wf_kval k \/ oversized k = true.

Lemma encode_item_oversized k : oversized k = true -> encode_item k = Panic.
Proof.
  destruct k; cbn [oversized encode_item]; try discriminate; intros H.
  - destruct (Z.ltb_spec (zlen s) 16); [lia|reflexivity].
  - rewrite H. reflexivity.
  - rewrite H. reflexivity.
Qed.

Lemma encode_item_wf k : wf_kval k -> exists x, encode_item k = Ok x.
Proof. intros H. destruct (item_roundtrip k H) as (tb & d & t & He & _). eauto. Qed.

Lemma oversized_not_wf k : wf_kval k -> oversized k = false.
Proof.
  destruct k; cbn [wf_kval oversized]; try reflexivity; unfold rust_string; intros; lia.
Qed.

Lemma encode_items_panic ks : Forall wf_or_oversized ks ->
  (encode_items ks = Panic <-> existsb oversized ks = true) /\
  (encode_items ks <> Err).
Proof.
  induction 1 as [|k ks Hk Hks [IH1 IH2]].
  - split; [split; discriminate|discriminate].
  - cbn [encode_items existsb]. destruct Hk as [Hk|Hk].
    + destruct (encode_item_wf k Hk) as [[t d] He]. rewrite He. cbn [bind].
      rewrite (oversized_not_wf k Hk). cbn [orb].
      destruct (encode_items ks) as [[a b]| |]; cbn [bind]; split; try tauto; try discriminate.
      rewrite <- IH1. split; discriminate.
    + rewrite (encode_item_oversized k Hk), Hk. cbn [bind orb]. split; [tauto|discriminate].
Qed.

Lemma encode_panic_iff ks : Forall wf_or_oversized ks ->
  (encode ks = Panic <-> exists k, In k ks /\ oversized k = true).
Proof.
  intros H. destruct (encode_items_panic ks H) as [H1 H2].
  rewrite <- existsb_exists, <- H1. unfold encode.
  destruct (encode_items ks) as [[a b]| |]; cbn [bind]; split; congruence.
Qed.

(** ** unambiguity *)

Lemma encode_prefix_free ks1 ks2 b1 b2 r1 r2 :
  wf_kvals ks1 -> wf_kvals ks2 -> encode ks1 = Ok b1 -> encode ks2 = Ok b2 ->
  b1 ++ r1 = b2 ++ r2 ->
  map plain ks1 = map plain ks2 /\ b1 = b2 /\ r1 = r2.
Proof.
  intros H1 H2 E1 E2 E.
  destruct (encode_decode ks1 r1 H1) as (b1' & E1' & _ & D1).
  destruct (encode_decode ks2 r2 H2) as (b2' & E2' & _ & D2).
  rewrite E1 in E1'. rewrite E2 in E2'. apply Ok_inj in E1', E2'. subst b1' b2'.
  rewrite E, D2 in D1. apply Ok_inj in D1. injection D1 as Hm Hl Hr.
  split; [congruence|]. split; [|congruence]. subst r2. now apply app_inv_tail in E.
Qed.

(** decode [n] streams one after another *)
Fixpoint decode_many (n : nat) (input : list Z) : res (list (list kval) * list Z) :=
  match n with
  | O => Ok ([], input)
  | S m =>
      '(ks, _, rest) <- decode input ;
      '(kss, rest) <- decode_many m rest ;
      Ok (ks :: kss, rest)
  end.

Lemma decode_many_concat kss bs rest :
  Forall2 (fun ks b => wf_kvals ks /\ encode ks = Ok b) kss bs ->
  decode_many (length kss) (concat bs ++ rest) = Ok (map (map plain) kss, rest).
Proof.
  induction 1 as [|ks b kss bs [Hwf He] Hrest IH]; [reflexivity|].
  cbn [length decode_many concat]. rewrite <- app_assoc.
  destruct (encode_decode ks (concat bs ++ rest) Hwf) as (b' & He' & _ & Hd).
  rewrite He in He'. apply Ok_inj in He'. subst b'. rewrite Hd. cbn [bind].
  rewrite IH. reflexivity.
Qed.

(** ** panics on malformed input *)

Lemma vi_decode_short w n vec :
  8 * Z.of_nat n = w -> wf_bytes vec -> (length vec <= n)%nat ->
  exists v, vi_decode w vec = Ok v /\
    (v < 0 <-> vec <> [] /\ 128 <= last vec 0).
Proof.
  intros Hw Hwf Hl.
  assert (D : vec = [] \/ vec <> []) by (destruct vec; [left; reflexivity|right; discriminate]).
  destruct D as [->|Hne].
  - exists 0. split; [reflexivity|]. split; [lia|]. intros [H _]. congruence.
  - destruct (exists_last Hne) as (a & x & ->). clear Hne.
    assert (Hlen : length (a ++ [x]) = S (length a)) by (rewrite app_length; cbn; lia).
    destruct (vi_decode_spec w (length a) (a ++ [x])) as [H1 H2]; [lia|assumption|assumption|].
    cbv zeta in *.
    unfold wf_bytes in Hwf. rewrite Forall_app in Hwf. destruct Hwf as [Ha Hx].
    inversion Hx as [|? ? Hbx _]; subst. unfold wf_byte in Hbx.
    pose proof (le_value_bound a Ha) as Hba.
    pose proof (pow256_pos (length a)).
    assert (Hu : le_value (a ++ [x]) = le_value a + 256 ^ Z.of_nat (length a) * x).
    { rewrite le_value_app. cbn [le_value]. lia. }
    assert (Hne : a ++ [x] <> []) by (destruct a; discriminate).
    rewrite last_last.
    destruct (Z.lt_ge_cases x 128) as [Hs|Hs].
    + exists (le_value (a ++ [x])). split; [apply H1; nia|].
      split; [intros Hneg; nia|]. intros [_ Hc]. lia.
    + eexists. split; [apply H2; nia|]. split.
      * intros _. split; [assumption|]. lia.
      * intros _. nia.
Qed.

Lemma from_bytes_not_err w vec : from_bytes w vec <> Err.
Proof.
  induction vec as [|b l IH]; [discriminate|]. cbn [from_bytes].
  destruct (from_bytes w l); cbn [bind]; try congruence.
  destruct (Z.ltb_spec (a * 256) (2 ^ w)); discriminate.
Qed.

Lemma vi_decode_long w vec : w <= 8 * (zlen vec - 1) -> vec <> [] -> vi_decode w vec = Panic.
Proof.
  intros H Hne. unfold vi_decode. destruct vec as [|b l]; [congruence|].
  pose proof (from_bytes_not_err w (b :: l)).
  destruct (from_bytes w (b :: l)); cbn [bind]; try congruence.
  destruct (Z.leb_spec w (8 * (zlen (b :: l) - 1))); [reflexivity|lia].
Qed.

Lemma read_exact_inv n r l r' : read_exact n r = Ok (l, r') -> 0 <= n ->
  fst r = l ++ fst r' /\ zlen l = n.
Proof.
  unfold read_exact. destruct (Z.ltb_spec (zlen (fst r)) n); [discriminate|].
  intros E Hn. apply Ok_inj in E. injection E as El Er. subst l r'. cbn [fst].
  split; [symmetry; apply firstn_skipn|]. unfold zlen in *. rewrite firstn_length. lia.
Qed.

Lemma read_exact_no_panic n r : read_exact n r <> Panic.
Proof. unfold read_exact. destruct (zlen (fst r) <? n); discriminate. Qed.

Lemma read_string_no_panic n r : read_string n r <> Panic.
Proof.
  unfold read_string. destruct (2 ^ 63 <=? to_unsigned 64 n); [discriminate|].
  pose proof (read_exact_no_panic n r).
  destruct (read_exact n r) as [[s r']| |]; cbn [bind]; try congruence.
  destruct (utf8_valid s); discriminate.
Qed.

Lemma read_binary_no_panic n r : read_binary n r <> Panic.
Proof.
  unfold read_binary. destruct (2 ^ 63 <=? to_unsigned 64 n); [discriminate|].
  apply read_exact_no_panic.
Qed.

Lemma read_words_no_panic k c r : read_words k c r <> Panic.
Proof.
  revert r; induction c as [|c IH]; intros r; [discriminate|]. cbn [read_words].
  pose proof (read_exact_no_panic (Z.of_nat k) r).
  destruct (read_exact (Z.of_nat k) r) as [[s r']| |]; cbn [bind]; try congruence.
  specialize (IH r'). destruct (read_words k c r') as [[? ?]| |]; cbn [bind]; congruence.
Qed.

Lemma read_binary_words_no_panic k n r : read_binary_words k n r <> Panic.
Proof.
  unfold read_binary_words. destruct (2 ^ 63 <=? _); [discriminate|].
  destruct (zlen (fst r) <? _); [discriminate|]. apply read_words_no_panic.
Qed.

(** sizes a tag can carry *)
Definition tag_size_ok (t : ktag) : Prop :=
  match t with
  | TInt n | TBigStr n | TBinary n | TBinary8 n | TBinary4 n | TBinary2 n => 1 <= n <= 8
  | TDecimal n => 1 <= n <= 16
  | _ => True
  end.

Lemma read_bits_acc_bound n : forall acc bs v r,
  read_bits_acc n acc bs = Ok (v, r) ->
  acc * 2 ^ Z.of_nat n <= v < (acc + 1) * 2 ^ Z.of_nat n.
Proof.
  induction n as [|n IH]; intros acc bs v r.
  - cbn. intros E. inversion E. lia.
  - cbn [read_bits_acc]. destruct bs as [|b bs]; cbn [read_bit bind]; [discriminate|].
    intros E. apply IH in E.
    replace (Z.of_nat (S n)) with (Z.of_nat n + 1) by lia.
    rewrite Z.pow_add_r by lia. change (2 ^ 1) with 2.
    assert (0 < 2 ^ Z.of_nat n) by (apply Z.pow_pos_nonneg; lia).
    destruct b; nia.
Qed.

Lemma read_bits_bound n bs v r : read_bits n bs = Ok (v, r) -> 0 <= v < 2 ^ Z.of_nat n.
Proof. intros E. apply read_bits_acc_bound in E. lia. Qed.

Lemma read_next_1_no_panic bs c : read_next_1 bs c <> Panic.
Proof. revert c; induction bs as [|[|] bs IH]; intros c; cbn; try discriminate. apply IH. Qed.

Lemma read_bits_no_panic n bs : read_bits n bs <> Panic.
Proof.
  unfold read_bits. generalize 0. revert bs. induction n as [|n IH]; intros bs a; [discriminate|].
  cbn [read_bits_acc]. destruct bs; cbn [read_bit bind]; [discriminate|]. apply IH.
Qed.

Lemma read_tag_ok bs :
  read_tag bs <> Panic /\
  (forall t r, read_tag bs = Ok (t, r) -> tag_size_ok t).
Proof.
  unfold read_tag.
  pose proof (read_next_1_no_panic bs 0) as N1.
  destruct (read_next_1 bs 0) as [[c bs1]| |]; cbn [bind]; [|split; [discriminate|discriminate]|congruence].
  pose proof (read_next_1_no_panic bs1 0) as N2.
  assert (RB : forall n b, read_bits n b <> Panic) by apply read_bits_no_panic.
  destruct (c =? 0).
  { destruct bs1 as [|b bs1]; cbn [read_bit bind]; split; try discriminate.
    intros t r E; inversion E; exact I. }
  destruct (c =? 1); [|destruct (c =? 2); [|destruct (c =? 3); [|destruct (c =? 4)]]];
  try (split; discriminate);
  (destruct (read_next_1 bs1 0) as [[c2 bs2]| |]; cbn [bind]; [|split; [discriminate|discriminate]|congruence]);
  repeat match goal with
  | |- context [if ?b then _ else _] => destruct b
  end; try (split; discriminate);
  try (split; [discriminate|intros t r E; inversion E; exact I]);
  try (destruct bs2 as [|b bs2]; cbn [read_bit bind]; split; [discriminate|discriminate|discriminate|intros t r E; inversion E; exact I]);
  match goal with |- context [read_bits ?n ?b] =>
    pose proof (RB n b) as HRB; pose proof (read_bits_bound n b) as HBB;
    destruct (read_bits n b) as [[v bs3]| |]; cbn [bind]; [|split; [discriminate|discriminate]|congruence];
    specialize (HBB v bs3 eq_refl)
  end;
  split; try discriminate; intros t r E; apply Ok_inj in E; injection E as E _; subst t;
  cbn [tag_size_ok];
  try (change (2 ^ Z.of_nat 3) with 8 in HBB); try (change (2 ^ Z.of_nat 4) with 16 in HBB);
  try exact I; lia.
Qed.

Lemma read_tags_ok n : forall bs,
  read_tags n bs <> Panic /\ (forall ts, read_tags n bs = Ok ts -> Forall tag_size_ok ts).
Proof.
  induction n as [|n IH]; intros bs.
  - split; [discriminate|]. intros ts E. inversion E. constructor.
  - cbn [read_tags]. destruct (read_tag_ok bs) as [H1 H2].
    destruct (read_tag bs) as [[t r]| |]; cbn [bind]; [|split; discriminate|congruence].
    destruct (IH r) as [H3 H4].
    destruct (read_tags n r) as [ts| |]; cbn [bind]; [|split; discriminate|congruence].
    split; [discriminate|]. intros ts' E. apply Ok_inj in E. subst ts'.
    constructor; [eapply H2; reflexivity|]. now apply H4.
Qed.

Definition wf_reader (r : reader) : Prop := wf_bytes (fst r).

Lemma wf_bytes_app l m : wf_bytes (l ++ m) -> wf_bytes l /\ wf_bytes m.
Proof. intros H. unfold wf_bytes in H. rewrite Forall_app in H. exact H. Qed.

Lemma read_exact_wf n r l r' : wf_reader r -> read_exact n r = Ok (l, r') -> wf_bytes l /\ wf_reader r'.
Proof.
  unfold read_exact, wf_reader. destruct (zlen (fst r) <? n); [discriminate|].
  intros Hw E. apply Ok_inj in E. injection E as El Er. subst l r'. cbn [fst].
  apply wf_bytes_app. rewrite firstn_skipn. exact Hw.
Qed.

Lemma read_small n r : 0 <= n <= 255 -> read n r = read_exact n r.
Proof. intros H. unfold read. destruct (Z.leb_spec (2 ^ 63) n) as [E|E]; [|reflexivity].
  assert (255 < 2 ^ 63) by reflexivity. lia. Qed.

Lemma read_byte_wf r b r' : wf_reader r -> read_byte r = Ok (b, r') -> wf_byte b /\ wf_reader r'.
Proof.
  unfold read_byte, wf_reader. destruct (fst r) as [|x l]; [discriminate|].
  intros Hw E. apply Ok_inj in E. injection E as Eb Er. subst b r'. cbn [fst].
  inversion Hw; subst; split; assumption.
Qed.

Lemma read_words_wf k c : forall r l r', wf_reader r -> read_words k c r = Ok (l, r') -> wf_reader r'.
Proof.
  induction c as [|c IH]; intros r l r' Hw E.
  - cbn in E. inversion E; subst; exact Hw.
  - cbn [read_words] in E. apply bind_ok in E as ([t r1] & E1 & E).
    apply bind_ok in E as ([ws r2] & E2 & E). inversion E; subst.
    eapply IH; [|exact E2]. eapply read_exact_wf; eauto.
Qed.

(** reading a size-prefixed block never panics *)
Lemma sized_no_panic size r A (f : Z -> reader -> res (A * reader)) (g : A -> kval) :
  1 <= size <= 8 -> wf_reader r ->
  (forall n r, f n r <> Panic) ->
  (forall n r a r', wf_reader r -> f n r = Ok (a, r') -> wf_reader r') ->
  let e := ('(bytes, r) <- read size r ; len <- vi_decode 64 bytes ;
            '(v, r) <- f len r ; Ok (g v, r)) in
  e <> Panic /\ (forall k r', e = Ok (k, r') -> wf_reader r').
Proof.
  intros Hs Hw Hf1 Hf2. cbv zeta. rewrite read_small by lia.
  pose proof (read_exact_no_panic size r) as Hp.
  destruct (read_exact size r) as [[bytes r1]| |] eqn:E; cbn [bind]; [|split; discriminate|congruence].
  destruct (read_exact_wf _ _ _ _ Hw E) as [Hwb Hw1].
  destruct (read_exact_inv _ _ _ _ E) as [_ Hlen]; [lia|].
  destruct (vi_decode_short 64 8 bytes) as (v & Hv & _); [reflexivity|assumption|unfold zlen in Hlen; lia|].
  rewrite Hv. cbn [bind]. specialize (Hf1 v r1). specialize (Hf2 v r1).
  destruct (f v r1) as [[a r2]| |]; cbn [bind]; [|split; discriminate|congruence].
  split; [discriminate|]. intros k r' E2. apply Ok_inj in E2. injection E2 as _ E2. subst r'.
  eapply Hf2; eauto.
Qed.

Lemma read_string_wf n r s r' : wf_reader r -> read_string n r = Ok (s, r') -> wf_reader r'.
Proof.
  unfold read_string. destruct (_ <=? _); [discriminate|]. intros Hw E.
  apply bind_ok in E as ([t r1] & E1 & E). destruct (utf8_valid t); [|discriminate].
  inversion E; subst. eapply read_exact_wf; eauto.
Qed.
Lemma read_binary_wf n r s r' : wf_reader r -> read_binary n r = Ok (s, r') -> wf_reader r'.
Proof.
  unfold read_binary. destruct (_ <=? _); [discriminate|]. intros Hw E. eapply read_exact_wf; eauto.
Qed.
Lemma read_binary_words_wf k n r s r' : wf_reader r -> read_binary_words k n r = Ok (s, r') -> wf_reader r'.
Proof.
  unfold read_binary_words. destruct (_ <=? _); [discriminate|]. destruct (_ <? _); [discriminate|].
  intros Hw E. eapply read_words_wf; eauto.
Qed.

Lemma decode_item_ok t r : tag_size_ok t -> wf_reader r ->
  decode_item t r <> Panic /\ (forall k r', decode_item t r = Ok (k, r') -> wf_reader r').
Proof.
  intros Ht Hw.
  destruct t; cbn [tag_size_ok] in Ht; cbn [decode_item];
  try (split; [discriminate|intros k r' E; inversion E; subst; exact Hw]).
  - unfold read_byte at 1. pose proof (read_byte_wf r) as HB. unfold read_byte in HB.
    unfold read_byte. destruct (fst r) as [|b l]; cbn [bind]; split; try discriminate.
    intros k r' E. apply Ok_inj in E. injection E as _ E. subst r'. eapply HB; eauto.
  - pose proof (read_string_no_panic len r) as HP. pose proof (read_string_wf len r) as HW.
    destruct (read_string len r) as [[s r1]| |]; cbn [bind]; [|split; discriminate|congruence].
    split; [discriminate|]. intros k r' E. apply Ok_inj in E. injection E as _ E. subst r'. eauto.
  - rewrite read_small by lia. pose proof (read_exact_no_panic size r) as Hp.
    destruct (read_exact size r) as [[bytes r1]| |] eqn:E; cbn [bind]; [|split; discriminate|congruence].
    destruct (read_exact_wf _ _ _ _ Hw E) as [Hwb Hw1].
    destruct (read_exact_inv _ _ _ _ E) as [_ Hlen]; [lia|].
    destruct (vi_decode_short 64 8 bytes) as (v & Hv & _); [reflexivity|assumption|unfold zlen in Hlen; lia|].
    rewrite Hv. cbn [bind]. split; [discriminate|]. intros k r' E2.
    apply Ok_inj in E2. injection E2 as _ E2. subst r'. assumption.
  - rewrite read_small by lia. pose proof (read_exact_no_panic 4 r) as Hp.
    destruct (read_exact 4 r) as [[bytes r1]| |] eqn:E; cbn [bind]; [|split; discriminate|congruence].
    destruct (read_exact_wf _ _ _ _ Hw E) as [Hwb Hw1]. split; [discriminate|]. intros k r' E2.
    apply Ok_inj in E2. injection E2 as _ E2. subst r'. assumption.
  - pose proof (read_byte_wf r) as HB.
    destruct (read_byte r) as [[b r1]| |] eqn:E; cbn [bind];
      [|split; discriminate|unfold read_byte in E; destruct (fst r); discriminate].
    destruct (HB b r1 Hw eq_refl) as [_ Hw1].
    pose proof (read_string_no_panic b r1) as HP. pose proof (read_string_wf b r1) as HW.
    destruct (read_string b r1) as [[s r2]| |]; cbn [bind]; [|split; discriminate|congruence].
    split; [discriminate|]. intros k r' E2. apply Ok_inj in E2. injection E2 as _ E2. subst r'. eauto.
  - rewrite read_small by lia. pose proof (read_exact_no_panic 8 r) as Hp.
    destruct (read_exact 8 r) as [[bytes r1]| |] eqn:E; cbn [bind]; [|split; discriminate|congruence].
    destruct (read_exact_wf _ _ _ _ Hw E) as [Hwb Hw1]. split; [discriminate|]. intros k r' E2.
    apply Ok_inj in E2. injection E2 as _ E2. subst r'. assumption.
  - rewrite read_small by lia. pose proof (read_exact_no_panic size r) as Hp.
    destruct (read_exact size r) as [[bytes r1]| |] eqn:E; cbn [bind]; [|split; discriminate|congruence].
    destruct (read_exact_wf _ _ _ _ Hw E) as [Hwb Hw1].
    destruct (read_exact_inv _ _ _ _ E) as [_ Hlen]; [lia|].
    destruct (vi_decode_short 128 16 bytes) as (v & Hv & _); [reflexivity|assumption|unfold zlen in Hlen; lia|].
    rewrite Hv. cbn [bind]. pose proof (read_byte_wf r1) as HB.
    destruct (read_byte r1) as [[b r2]| |] eqn:E2; cbn [bind];
      [|split; discriminate|unfold read_byte in E2; destruct (fst r1); discriminate].
    split; [discriminate|]. intros k r' E3. apply Ok_inj in E3. injection E3 as _ E3. subst r'.
    eapply HB; eauto.
  - apply (sized_no_panic size r _ read_string KBigStr); auto using read_string_no_panic.
    exact read_string_wf.
  - apply (sized_no_panic size r _ read_binary KBinary); auto using read_binary_no_panic.
    exact read_binary_wf.
  - apply (sized_no_panic size r _ (read_binary_words 8) KBinary8); auto using read_binary_words_no_panic.
    exact (read_binary_words_wf 8).
  - apply (sized_no_panic size r _ (read_binary_words 4) KBinary4); auto using read_binary_words_no_panic.
    exact (read_binary_words_wf 4).
  - apply (sized_no_panic size r _ (read_binary_words 2) KBinary2); auto using read_binary_words_no_panic.
    exact (read_binary_words_wf 2).
Qed.

Lemma decode_items_no_panic ts : Forall tag_size_ok ts -> forall r, wf_reader r ->
  decode_items ts r <> Panic.
Proof.
  induction 1 as [|t ts Ht Hts IH]; intros r Hw; [discriminate|].
  cbn [decode_items]. destruct (decode_item_ok t r Ht Hw) as [H1 H2].
  destruct (decode_item t r) as [[k r1]| |]; cbn [bind]; [|discriminate|congruence].
  specialize (IH r1 (H2 k r1 eq_refl)).
  destruct (decode_items ts r1) as [[ks r2]| |]; cbn [bind]; congruence.
Qed.

(** ** exactly which inputs panic *)

(** A length-prefixed block at the front of the input. *)
Definition block (input : list Z) (body rest : list Z) : Prop := input = zlen body :: body ++ rest.

Definition panic_input (input : list Z) : Prop :=
  exists b1 r1, block input b1 r1 /\
    (8 < zlen b1 \/
     (exists b2 r2, block r1 b2 r2 /\ (8 < zlen b2 \/ (b2 <> [] /\ 128 <= last b2 0)))).

Lemma vi_read_cases r : wf_reader r ->
  (vi_read r = Err /\ (forall b r', ~ block (fst r) b r')) \/
  (exists b r', block (fst r) b (fst r') /\ wf_bytes b /\ wf_reader r' /\
     (8 < zlen b /\ vi_read r = Panic \/
      zlen b <= 8 /\ exists v, vi_read r = Ok (v, r') /\ (v < 0 <-> b <> [] /\ 128 <= last b 0)
        /\ i64_range v)).
Proof.
  intros Hw. unfold vi_read.
  destruct r as [inp n]. unfold wf_reader in Hw. cbn [fst] in *.
  destruct inp as [|b0 l]; cbn [read_byte fst bind].
  { left. split; [reflexivity|]. intros b r'. unfold block. discriminate. }
  inversion Hw as [|? ? Hb Hl]; subst. unfold wf_byte in Hb. cbn [snd].
  rewrite read_small by lia.
  destruct (read_exact b0 (l, n + 1)) as [[body r1]| |] eqn:E; cbn [bind].
  - right. destruct (read_exact_wf _ _ _ _ (Hl : wf_reader (l, n + 1)) E) as [Hwb Hw1].
    destruct (read_exact_inv _ _ _ _ E) as [He Hlen]; [lia|]. cbn [fst] in He.
    exists body, r1. split; [unfold block; rewrite Hlen, He; reflexivity|].
    split; [assumption|]. split; [assumption|].
    destruct (Z.lt_ge_cases 8 (zlen body)) as [Hb8|Hb8].
    + left. split; [assumption|]. rewrite vi_decode_long; [reflexivity|lia|].
      intros ->. cbn in Hb8. lia.
    + right. split; [lia|].
      destruct (vi_decode_short 64 8 body) as (v & Hv & Hneg); [reflexivity|assumption|unfold zlen in Hb8; lia|].
      exists v. rewrite Hv. cbn [bind]. split; [reflexivity|]. split; [exact Hneg|].
      destruct body as [|x body]; [cbn in Hv; inversion Hv; unfold i64_range; lia|].
      destruct (vi_decode_spec 64 (length body) (x :: body)) as [D1 D2];
        [unfold zlen in Hb8; cbn [length] in Hb8; lia|assumption|reflexivity|].
      cbv zeta in *.
      pose proof (le_value_bound _ Hwb) as HB. cbn [length] in HB. rewrite pow256_S in HB.
      assert (HM : 256 ^ Z.of_nat (length body) <= 256 ^ Z.of_nat 7).
      { apply Z.pow_le_mono_r; [lia|]. unfold zlen in Hb8; cbn [length] in Hb8; lia. }
      apply i64_range_256. set (u := le_value (x :: body)) in *. clearbody u.
      destruct (Z.lt_ge_cases u (128 * 256 ^ Z.of_nat (length body))) as [C|C].
      * rewrite D1 in Hv by assumption. apply Ok_inj in Hv. lia.
      * rewrite D2 in Hv by assumption. apply Ok_inj in Hv. lia.
  - left. split; [reflexivity|]. intros b r' Hbl. unfold block in Hbl. injection Hbl as H1 H2.
    subst. rewrite read_exact_app in E. discriminate.
  - exfalso. eapply read_exact_no_panic; eauto.
Qed.

Lemma block_unique inp b r b' r' : block inp b r -> block inp b' r' -> b = b' /\ r = r'.
Proof.
  unfold block. intros H1 H2. rewrite H1 in H2. injection H2 as Hl Ha.
  unfold zlen in Hl. apply Nat2Z.inj in Hl.
  apply (f_equal (firstn (length b))) in Ha as Hb. rewrite firstn_app_exact in Hb.
  rewrite Hl, firstn_app_exact in Hb. subst b'. split; [reflexivity|].
  now apply app_inv_head in Ha.
Qed.

Lemma decode_panic_iff input : wf_bytes input -> (decode input = Panic <-> panic_input input).
Proof.
  intros Hw. unfold decode, panic_input.
  destruct (vi_read_cases (input, 0) Hw) as [[E Hno]|(b1 & r1 & Hb1 & Hwb1 & Hw1 & Hc)].
  { rewrite E. cbn [bind]. split; [discriminate|]. intros (b1 & r1 & Hb & _).
    exfalso. eapply Hno. exact Hb. }
  cbn [fst] in Hb1.
  destruct Hc as [[H8 E]|[H8 (v1 & E & Hneg1 & Hr1)]]; rewrite E; cbn [bind].
  { split; [intros _|reflexivity]. exists b1, (fst r1). split; [exact Hb1|left; exact H8]. }
  destruct (vi_read_cases r1 Hw1) as [[E2 Hno]|(b2 & r2 & Hb2 & Hwb2 & Hw2 & Hc2)].
  { rewrite E2. cbn [bind]. split; [discriminate|]. intros (b1' & r1' & Hb & Hd).
    destruct (block_unique _ _ _ _ _ Hb1 Hb) as [<- <-].
    destruct Hd as [Hd|(b2 & r2 & Hb2 & _)]; [lia|]. exfalso. eapply Hno; exact Hb2. }
  destruct Hc2 as [[H82 E2]|[H82 (v2 & E2 & Hneg2 & Hr2)]]; rewrite E2; cbn [bind].
  { split; [intros _|reflexivity]. exists b1, (fst r1). split; [exact Hb1|right].
    exists b2, (fst r2). split; [exact Hb2|left; exact H82]. }
  destruct (Z.lt_ge_cases v2 0) as [Hn|Hn].
  - assert (Hread : read (to_unsigned 64 v2) r2 = Panic).
    { unfold read, to_unsigned. unfold i64_range in Hr2.
      assert (P : 2 ^ 64 = 2 * 2 ^ 63) by reflexivity.
      replace (v2 mod 2 ^ 64) with (v2 + 2 ^ 64).
      2:{ symmetry. rewrite <- (Z.mod_small (v2 + 2 ^ 64) (2 ^ 64)) by lia.
          rewrite <- (Z.mul_1_l (2 ^ 64)) at 2. rewrite Z.mod_add by lia. reflexivity. }
      destruct (Z.leb_spec (2 ^ 63) (v2 + 2 ^ 64)); [reflexivity|lia]. }
    rewrite Hread. cbn [bind]. split; [intros _|reflexivity].
    exists b1, (fst r1). split; [exact Hb1|right]. exists b2, (fst r2). split; [exact Hb2|right].
    now apply Hneg2.
  - rewrite to_unsigned_small by (unfold i64_range in Hr2; assert (2 ^ 64 = 2 * 2 ^ 63) by reflexivity; lia).
    assert (Hnp : forall x, x = Panic -> x <> (Panic : res (list kval * Z * list Z)) -> False) by auto.
    split.
    + intros Hp. exfalso. revert Hp. unfold read.
      destruct (Z.leb_spec (2 ^ 63) v2) as [Hbig|_]; [unfold i64_range in Hr2; lia|].
      pose proof (read_exact_no_panic v2 r2) as HP.
      destruct (read_exact v2 r2) as [[tb r3]| |] eqn:E3; cbn [bind]; [|discriminate|congruence].
      destruct (read_exact_wf _ _ _ _ Hw2 E3) as [_ Hw3].
      destruct ((v1 <? 0) || (8 * zlen tb <? v1)); [discriminate|].
      destruct (read_tags_ok (Z.to_nat v1) (unpack_bits tb)) as [HT1 HT2].
      destruct (read_tags (Z.to_nat v1) (unpack_bits tb)) as [ts| |]; cbn [bind]; [|discriminate|congruence].
      pose proof (decode_items_no_panic ts (HT2 ts eq_refl) r3 Hw3) as HD.
      destruct (decode_items ts r3) as [[ks r4]| |]; cbn [bind]; congruence.
    + intros (b1' & r1' & Hb & Hd). exfalso.
      destruct (block_unique _ _ _ _ _ Hb1 Hb) as [<- <-].
      destruct Hd as [Hd|(b2' & r2' & Hb2' & Hd)]; [lia|].
      destruct (block_unique _ _ _ _ _ Hb2 Hb2') as [<- <-].
      destruct Hd as [Hd|Hd]; [lia|]. apply Hneg2 in Hd. lia.
Qed.

Lemma length_prefix n rest pos : 0 <= n < 2 ^ 63 ->
  vi_read (vi_write n ++ rest, pos) = Ok (n, (rest, pos + zlen (vi_write n))).
Proof. intros H. apply vi_read_write. unfold i64_range. lia. Qed.

Lemma malformed_panics :
  (exists input, wf_bytes input /\ decode input = Panic) /\
  decode (9 :: repeat 0 9) = Panic /\ decode [1; 0; 1; 255] = Panic.
Proof.
  split; [|split; reflexivity]. exists [1; 0; 1; 255]. split; [|reflexivity].
  repeat constructor; discriminate.
Qed.
