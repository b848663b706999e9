(** Lemmas about string compaction. *)
From Verif Require Import Base CompactionModel CompactionSpec TextModel TextProofs
  StringCompactionModel StringCompactionSpec CompactionProofs.

Lemma eqb_bytes_eq a b : eqb_bytes a b = true <-> a = b.
Proof.
  revert b; induction a as [|x a IH]; intros [|y b]; cbn [eqb_bytes]; try (split; congruence).
  rewrite andb_true_iff, Z.eqb_eq, IH. split; [intros [-> ->]; reflexivity|].
  intros E; inversion E; auto.
Qed.

Lemma starts_with_one c s : starts_with [c] s = true <-> exists r, s = c :: r.
Proof.
  destruct s as [|x s]; cbn [starts_with]; [split; [discriminate|intros [r Hr]; discriminate]|].
  rewrite andb_true_r, Z.eqb_eq. split; [intros ->; eauto|intros [r Hr]; congruence].
Qed.

Definition sgn (m : bool) : list Z := if m then [45] else [].

Lemma zlen_char_len c : utf8_char_bytes c = Z.of_nat (char_len c).
Proof.
  unfold utf8_char_bytes, char_len. destruct (c <? 128); [reflexivity|].
  destruct (c <? 224); [reflexivity|]. destruct (c <? 240); reflexivity.
Qed.

Lemma utf8_first r c rest : r = c :: rest -> utf8_valid r = true -> wf_bytes r ->
  (char_len c <= length r)%nat.
Proof.
  intros -> Hu Hw. inversion Hw as [|? ? Hc _]; subst. unfold wf_byte in Hc. revert Hu.
  cbn [utf8_valid]. unfold char_len. cbn [length].
  destruct (Z.ltb_spec c 128); intros Hu; [lia|].
  destruct rest as [|b1 l2]; [discriminate Hu|]. cbn [length].
  destruct (Z.ltb_spec c 224); [lia|].
  rewrite andb_false_r in Hu.
  destruct l2 as [|b2 l3]; [discriminate Hu|]. cbn [length].
  destruct (Z.ltb_spec c 240); [lia|].
  rewrite andb_false_r in Hu.
  destruct l3 as [|b3 l4]; [discriminate Hu|]. cbn [length]. lia.
Qed.

Lemma utf8_more c more tail : wf_byte c -> utf8_valid ((c :: more) ++ tail) = true ->
  length (c :: more) = char_len c -> Forall (fun x => 128 <= x) more.
Proof.
  unfold wf_byte. intros Hc Hu. revert Hu. unfold char_len. cbn [app utf8_valid length].
  unfold is_cont.
  destruct (Z.ltb_spec c 128); intros Hu Hl.
  { destruct more; [constructor|discriminate Hl]. }
  destruct (Z.ltb_spec c 224).
  { destruct more as [|b1 [|]]; try discriminate Hl. cbn [app] in Hu.
    destruct (Z.leb_spec 194 c); cbn [andb] in Hu; [repeat constructor; lia|].
    replace (224 <=? c) with false in Hu by lia. cbn [andb] in Hu.
    replace (240 <=? c) with false in Hu by lia. cbn [andb] in Hu.
    destruct tail as [|? [|]]; discriminate Hu. }
  rewrite andb_false_r in Hu.
  destruct (Z.ltb_spec c 240).
  { destruct more as [|b1 [|b2 [|]]]; try discriminate Hl. cbn [app] in Hu.
    replace (224 <=? c) with true in Hu by lia. cbn [andb] in Hu.
    destruct (c =? 224), (c =? 237); repeat constructor; lia. }
  destruct more as [|b1 [|b2 [|b3 [|]]]]; try discriminate Hl. cbn [app] in Hu.
  rewrite andb_false_r in Hu.
  replace (240 <=? c) with true in Hu by lia. cbn [andb] in Hu.
  destruct (c <? 245); [|discriminate Hu].
  destruct (c =? 240), (c =? 244); repeat constructor; lia.
Qed.

Lemma utf8_ascii_app d r : Forall (fun c => 0 <= c < 128) d -> utf8_valid (d ++ r) = utf8_valid r.
Proof.
  induction 1 as [|c d Hc Hd IH]; [reflexivity|].
  cbn [app utf8_valid]. destruct (Z.ltb_spec c 128); [exact IH|lia].
Qed.

Lemma digits_ascii d : all_digits d -> Forall (fun c => 0 <= c < 128) d.
Proof. intros H. eapply Forall_impl; [|exact H]. cbn beta. intros c Hc. apply is_digit_iff in Hc. lia. Qed.

(** what the regular expression match says about the text *)
Lemma rex_inv s c : wf_bytes s -> utf8_valid s = true -> rex s = Some c ->
  s = sgn (c_minus c) ++ c_int c ++ c_sep c ++ c_frac c /\
  all_digits (c_int c) /\ c_int c <> [] /\ all_digits (c_frac c) /\
  match c_sep c with
  | [] => c_frac c = []
  | x :: more => is_digit x = false /\ x <> 10 /\ zlen (c_sep c) = utf8_char_bytes x
  end.
Proof.
  intros Hw Hu. unfold rex.
  set (minus := starts_with [45] s).
  set (t := if minus then tl s else s).
  assert (Hs : s = sgn minus ++ t).
  { subst t. unfold sgn. destruct minus eqn:E; [|reflexivity].
    apply starts_with_one in E as [r ->]. reflexivity. }
  clearbody minus t.
  pose proof (span_digits_spec t) as Hspan. destruct (span_digits t) as [d r].
  destruct Hspan as (Ht & Hd & Hr).
  destruct d as [|d0 d]; [discriminate|].
  destruct r as [|x r].
  - intros E. inversion E; subst c. cbn [c_minus c_int c_sep c_frac]. rewrite !app_nil_r in *.
    subst. repeat split; auto; try discriminate. constructor.
  - destruct (Z.eqb_spec x 10); [discriminate|].
    destruct (forallb is_digit (skipn (char_len x) (x :: r))) eqn:Ef; [|discriminate].
    intros E. inversion E; subst c. cbn [c_minus c_int c_sep c_frac].
    assert (Hfr : all_digits (skipn (char_len x) (x :: r))).
    { apply Forall_forall. rewrite forallb_forall in Ef. exact Ef. }
    assert (Hwr : wf_bytes (x :: r) /\ utf8_valid (x :: r) = true).
    { subst s t. split.
      - unfold wf_bytes in *. rewrite !Forall_app in Hw. tauto.
      - rewrite utf8_ascii_app in Hu; [|unfold sgn; destruct minus; repeat constructor; lia].
        rewrite utf8_ascii_app in Hu by (now apply digits_ascii). exact Hu. }
    pose proof (utf8_first (x :: r) x r eq_refl (proj2 Hwr) (proj1 Hwr)) as Hlen.
    split; [rewrite firstn_skipn; subst; reflexivity|].
    split; [exact Hd|]. split; [discriminate|]. split; [exact Hfr|].
    assert (Hfl : zlen (firstn (char_len x) (x :: r)) = utf8_char_bytes x).
    { unfold zlen. rewrite firstn_length, zlen_char_len. lia. }
    assert (Hnz : exists m, firstn (char_len x) (x :: r) = x :: m).
    { unfold char_len. destruct (x <? 128); [eexists; reflexivity|].
      destruct (x <? 224); [eexists; reflexivity|]. destruct (x <? 240); eexists; reflexivity. }
    destruct Hnz as [m Hm]. rewrite Hm in *. auto.
Qed.

Lemma print_int_sgn m ds : canonical ds -> ds <> [48] ->
  print_int (if m : bool then - digits_value ds else digits_value ds) = sgn m ++ ds.
Proof.
  intros Hc Hne. pose proof Hc as (Ha & _ & Hhd).
  assert (Hpos : 0 < digits_value ds).
  { pose proof (digits_value_nonneg ds Ha).
    destruct (Z.eq_dec (digits_value ds) 0) as [E|]; [|lia]. exfalso. apply Hne.
    rewrite <- (print_parse ds Hc), E. reflexivity. }
  unfold print_int. destruct m; cbn [sgn app].
  - destruct (Z.ltb_spec (- digits_value ds) 0); [|lia].
    rewrite Z.opp_involutive, print_parse by exact Hc. reflexivity.
  - destruct (Z.ltb_spec (digits_value ds) 0); [lia|]. now apply print_parse.
Qed.

Lemma strip_zeros ds : all_digits ds -> ds <> [] ->
  exists z t, ds = repeat 48 z ++ t /\ canonical t.
Proof.
  induction ds as [|c ds IH]; intros Ha Hne; [congruence|].
  inversion Ha as [|? ? Hc Hds]; subst.
  destruct (Z.eq_dec c 48) as [->|Hc48].
  - destruct ds as [|c2 ds].
    + exists 0%nat, [48]. split; [reflexivity|]. repeat split; auto; discriminate.
    + destruct (IH Hds) as (z & t & E & Ht); [discriminate|].
      exists (S z), t. split; [cbn [repeat app]; now rewrite E|exact Ht].
  - exists 0%nat, (c :: ds). split; [reflexivity|]. split; [exact Ha|].
    split; [discriminate|]. cbn. congruence.
Qed.

Lemma digits_value_zeros z t : digits_value (repeat 48 z ++ t) = digits_value t.
Proof.
  rewrite digits_value_app. replace (digits_value (repeat 48 z)) with 0; [lia|].
  induction z as [|z IH]; [reflexivity|].
  change (repeat 48 (S z)) with ([48] ++ repeat 48 z).
  rewrite digits_value_app, <- IH. unfold digits_value. cbn [fold_left]. lia.
Qed.

Lemma value_zero_canonical ds : canonical ds -> digits_value ds = 0 -> ds = [48].
Proof. intros Hc E. rewrite <- (print_parse ds Hc), E. reflexivity. Qed.

(** a number with a fractional part prints back *)
Lemma decimal_print m d frac : all_digits d -> d <> [] -> all_digits frac -> frac <> [] ->
  (hd 0 d = 48 -> d = [48]) ->
  let v := digits_value (d ++ frac) in
  (v = 0 -> m = false) ->
  decimal_to_string (if m : bool then - v else v) (zlen frac) = sgn m ++ d ++ [46] ++ frac.
Proof.
  intros Hd Hdne Hf Hfne Hhd v Hm.
  assert (Hv0 : 0 <= v).
  { apply digits_value_nonneg. apply Forall_app; split; assumption. }
  assert (Hlf : 0 < zlen frac).
  { destruct frac; [congruence|]. rewrite zlen_cons. pose proof (zlen_nonneg frac). lia. }
  unfold decimal_to_string.
  destruct (Z.eqb_spec (zlen frac) 0); [lia|].
  assert (Hneg : ((if m then - v else v) <? 0) = m).
  { destruct m; [|lia]. destruct (Z.eq_dec v 0) as [E|]; [specialize (Hm E); discriminate|lia]. }
  rewrite Hneg.
  assert (Hprint : (if negb m then print_int (if m then - v else v) else tl (print_int (if m then - v else v)))
    = print_uint v).
  { unfold print_int. rewrite Hneg. destruct m; cbn [negb tl]; [|reflexivity].
    now rewrite Z.opp_involutive. }
  rewrite Hprint.
  assert (Hgoal : (if 0 <=? zlen frac - zlen (print_uint v)
      then [48; 46] ++ repeat 48 (Z.to_nat (zlen frac - zlen (print_uint v))) ++ print_uint v
      else firstn (Z.to_nat (zlen (print_uint v) - zlen frac)) (print_uint v) ++
           [46] ++ skipn (Z.to_nat (zlen (print_uint v) - zlen frac)) (print_uint v))
    = d ++ [46] ++ frac).
  { destruct (Z.eq_dec (hd 0 d) 48) as [E|E].
    - pose proof (Hhd E) as Ed. clear Hhd E. subst d. unfold v.
      destruct (strip_zeros frac Hf Hfne) as (z & t & Ef & Ht).
      assert (Hval : digits_value ([48] ++ frac) = digits_value t).
      { rewrite Ef. change ([48] ++ repeat 48 z ++ t) with (repeat 48 (S z) ++ t).
        apply digits_value_zeros. }
      rewrite Hval, (print_parse t Ht).
      assert (Hl : zlen frac - zlen t = Z.of_nat z).
      { rewrite Ef, zlen_app. unfold zlen at 1. rewrite repeat_length. lia. }
      rewrite Hl, Nat2Z.id.
      destruct (Z.leb_spec 0 (Z.of_nat z)); [|lia].
      rewrite Ef. reflexivity.
    - assert (Hc : canonical (d ++ frac)).
      { split; [apply Forall_app; split; assumption|]. split; [destruct d; [congruence|discriminate]|].
        destruct d as [|x d]; [congruence|]. cbn in *. congruence. }
      unfold v. rewrite (print_parse _ Hc). rewrite zlen_app.
      assert (0 < zlen d) by (destruct d; [congruence|]; rewrite zlen_cons; pose proof (zlen_nonneg d); lia).
      destruct (Z.leb_spec 0 (zlen frac - (zlen d + zlen frac))); [lia|].
      replace (zlen d + zlen frac - zlen frac) with (zlen d) by lia.
      unfold zlen. rewrite Nat2Z.id, firstn_app_exact, skipn_app_exact. reflexivity. }
  cbv zeta. rewrite Hgoal. destruct m; reflexivity.
Qed.

Lemma get_str_string s : to_string (get_str s) = Some s.
Proof. unfold get_str. destruct (_ <? 16); [reflexivity|]. destruct (_ <? 256); reflexivity. Qed.

Lemma parse_i128_some m ds v : parse_i128 m ds = Some v ->
  v = (if m then - digits_value ds else digits_value ds) /\
  (if m then digits_value ds <= 2 ^ 127 else digits_value ds < 2 ^ 127).
Proof.
  unfold parse_i128. destruct ((_ <=? _) && (_ <? _)) eqn:E; [|discriminate].
  intros H; apply Some_inj in H; subst v. split; [reflexivity|]. destruct m; lia.
Qed.

Lemma hd_not_zero d sep frac : d <> [] -> starts_with [48] (d ++ sep ++ frac) = false -> hd 0 d <> 48.
Proof.
  destruct d as [|x d]; [congruence|]. intros _. cbn. intros H ->. discriminate H.
Qed.

(** Every string either survives, or is a separated number. *)
Lemma to_enum_cases s : wf_bytes s -> utf8_valid s = true ->
  to_string (to_enum s) = Some s \/ separated_number s.
Proof.
  intros Hw Hu. unfold to_enum.
  destruct (eqb_bytes s [48]) eqn:E1; [apply eqb_bytes_eq in E1; subst; now left|].
  destruct (eqb_bytes s [49]) eqn:E2; [apply eqb_bytes_eq in E2; subst; now left|].
  destruct (eqb_bytes s txt_true) eqn:E3; [apply eqb_bytes_eq in E3; subst; now left|].
  destruct (eqb_bytes s txt_false) eqn:E4; [apply eqb_bytes_eq in E4; subst; now left|].
  destruct (get_number s) as [[[minus dot] number]|] eqn:En; [|left; apply get_str_string].
  unfold get_number in En. destruct (rex s) as [c|] eqn:Er; [|discriminate].
  destruct (rex_inv s c Hw Hu Er) as (Hs & Hd & Hdne & Hf & Hsep).
  destruct c as [m d sep frac]. cbn [c_minus c_int c_sep c_frac] in *.
  destruct sep as [|x more].
  - (* integer *)
    subst frac. cbn [app] in *. rewrite !app_nil_r in *.
    destruct (parse_i128 m d) as [v|] eqn:Ep; [|discriminate].
    apply parse_i128_some in Ep as [Hv _].
    destruct (ends_with_dot d); [discriminate|].
    destruct (starts_with [48] d) eqn:E0.
    { destruct (starts_with [48; 46] d) eqn:E046; [|discriminate]. exfalso.
      destruct d as [|y [|y2 d]]; cbn [starts_with] in E046; try discriminate; try lia.
      inversion Hd as [|? ? _ Hd2]; subst. inversion Hd2 as [|? ? Hy2 _]; subst.
      apply is_digit_iff in Hy2. lia. }
    inversion En; subst minus dot number. left.
    assert (Hhd : hd 0 d <> 48) by (apply (hd_not_zero d [] []); rewrite ?app_nil_r; auto).
    assert (Hc : canonical d) by (repeat split; auto; congruence).
    assert (Hne : d <> [48]) by (intros ->; cbn in Hhd; congruence).
    assert (Hnz : v <> 0).
    { intros E. apply Hne, value_zero_canonical; [exact Hc|]. rewrite E in Hv. destruct m; lia. }
    destruct (Z.eqb_spec v 0); [congruence|]. cbn [andb].
    assert (Hp : print_int v = s) by (rewrite Hv, Hs; now apply print_int_sgn).
    destruct (to_signed 64 v =? v); [destruct (to_signed 8 v =? v)|]; cbn [to_string]; f_equal; try exact Hp.
  - destruct Hsep as (Hx & Hx10 & Hsl).
    assert (Hpos : zlen s - ((if m then 1 else 0) + zlen d) - 1 = zlen more + zlen frac).
    { rewrite Hs, !zlen_app, zlen_cons. unfold sgn. destruct m; rewrite ?zlen_cons, ?zlen_nil; lia. }
    rewrite Hpos in En.
    destruct (Z.ltb_spec (zlen more + zlen frac) 256) as [H256|]; [|discriminate].
    destruct (parse_i128 m (d ++ frac)) as [v|] eqn:Ep; [|discriminate].
    apply parse_i128_some in Ep as [Hv Hfit].
    destruct (ends_with_dot (d ++ (x :: more) ++ frac)) eqn:Eend; [discriminate|].
    destruct (Z.eq_dec x 46) as [->|Hx46].
    + (* a dot *)
      left. assert (more = []) as ->.
      { rewrite zlen_cons in Hsl. change (utf8_char_bytes 46) with 1 in Hsl. destruct more; [reflexivity|].
        rewrite zlen_cons in Hsl. pose proof (zlen_nonneg more). lia. }
      assert (Hfne : frac <> []).
      { intros ->. unfold ends_with_dot in Eend. rewrite app_nil_r, last_last in Eend. discriminate. }
      assert (Hhd : (hd 0 d = 48 -> d = [48]) /\ Some (minus, dot, number) = Some (m, Some (zlen frac), v)).
      { rewrite zlen_nil, Z.add_0_l in En.
        destruct (starts_with [48] (d ++ [46] ++ frac)) eqn:E0.
        - destruct (starts_with [48; 46] (d ++ [46] ++ frac)) eqn:E046; [|discriminate].
          split; [|symmetry; exact En]. intros Hh. destruct d as [|y [|y2 d]]; [congruence|cbn in *; congruence|].
          exfalso. cbn [starts_with app] in E046. inversion Hd as [|? ? _ Hd2]; subst. inversion Hd2 as [|? ? Hy2 _]; subst.
          apply is_digit_iff in Hy2. lia.
        - split; [|symmetry; exact En]. intros Hh. exfalso. eapply (hd_not_zero d [46] frac); eauto. }
      destruct Hhd as [Hhd Eq]. inversion Eq; subst minus dot number. clear En Eq.
      destruct ((v =? 0) && m) eqn:Ez; [apply get_str_string|].
      cbn [to_string]. f_equal. rewrite Hv, Hs. apply decimal_print; auto.
      intros E0. destruct m; [|reflexivity]. lia.
    + right. exists m, d, x, more, frac. repeat split; auto.
      intros Hh. destruct (starts_with [48] (d ++ (x :: more) ++ frac)) eqn:E0.
      * destruct (starts_with [48; 46] (d ++ (x :: more) ++ frac)) eqn:E046; [|discriminate].
        destruct d as [|y [|y2 d]]; [congruence| |].
        -- cbn [starts_with app] in E046. lia.
        -- cbn [starts_with app] in E046. inversion Hd as [|? ? _ Hd2]; subst. inversion Hd2 as [|? ? Hy2 _]; subst.
           apply is_digit_iff in Hy2. lia.
      * eapply (hd_not_zero d (x :: more) frac); eauto.
Qed.

(** characters of a printed decimal after its sign *)
Definition digit_or_dot (c : Z) : Prop := is_digit c = true \/ c = 46.

Lemma decimal_chars v dot : 0 <= dot -> v <> 0 ->
  exists body, decimal_to_string v dot = sgn (v <? 0) ++ body /\ Forall digit_or_dot body.
Proof.
  intros Hdot Hv. unfold decimal_to_string.
  assert (Hd : forall n, 0 <= n -> Forall digit_or_dot (print_uint n)).
  { intros n Hn. eapply Forall_impl; [|now apply print_uint_digits]. intros c Hc. now left. }
  assert (Hpi : exists n, 0 <= n /\ print_int v = sgn (v <? 0) ++ print_uint n).
  { unfold print_int. destruct (Z.ltb_spec v 0); cbn [sgn]; [exists (- v)|exists v]; split; auto; lia. }
  destruct Hpi as (n & Hn & Hp). rewrite Hp.
  destruct (dot =? 0); [eauto|].
  assert (Hs : (if negb (v <? 0) then sgn (v <? 0) ++ print_uint n else tl (sgn (v <? 0) ++ print_uint n))
     = print_uint n) by (destruct (v <? 0); reflexivity).
  cbv zeta. rewrite Hs.
  set (body := if 0 <=? dot - zlen (print_uint n) then _ else _).
  exists body. split; [destruct (v <? 0); reflexivity|].
  subst body. destruct (0 <=? dot - zlen (print_uint n)).
  - repeat (apply Forall_cons; [first [left; reflexivity|right; reflexivity]|]).
    apply Forall_app; split; [|now apply Hd].
    apply Forall_forall. intros c Hc. apply repeat_spec in Hc. subst c. left; reflexivity.
  - set (k := Z.to_nat (zlen (print_uint n) - dot)).
    specialize (Hd n Hn). rewrite <- (firstn_skipn k (print_uint n)) in Hd. apply Forall_app in Hd as [H1 H2].
    apply Forall_app; split; [exact H1|]. constructor; [now right|exact H2].
Qed.

Lemma separated_number_altered s : wf_bytes s -> utf8_valid s = true -> separated_number s -> to_string (to_enum s) <> Some s.
Proof.
  intros Hw Hu (m & d & c & more & tail & Hs & Hd & Hdne & Hh & Hc & Hc46 & Hc10 & Hlen & Ht & H256 & Hfit).
  assert (Hx0 : is_digit (hd 0 s) = true \/ (hd 0 s = 45 /\ m = true)).
  { subst s. destruct m; cbn [app hd]; [right; auto|left]. destruct d as [|x d]; [congruence|].
    cbn. inversion Hd; auto. }
  assert (Hin : In c s).
  { subst s. rewrite !in_app_iff. right; right; left; now left. }
  (* the match *)
  assert (Hm : starts_with [45] s = m).
  { subst s. destruct m; [reflexivity|]. destruct d as [|x d]; [congruence|]. cbn [starts_with app].
    inversion Hd as [|? ? Hx _]; subst. apply is_digit_iff in Hx. lia. }
  assert (Htl : (if m then tl s else s) = d ++ (c :: more) ++ tail) by (subst s; destruct m; reflexivity).
  assert (Hclen : char_len c = length (c :: more)).
  { rewrite zlen_char_len in Hlen. unfold zlen in Hlen. lia. }
  assert (Hrex : rex s = Some (Caps m d (c :: more) tail)).
  { unfold rex. rewrite Hm, Htl. rewrite (span_digits_app d); [|exact Hd|exact Hc].
    destruct d as [|x d]; [congruence|]. cbn [app].
    destruct (Z.eqb_spec c 10); [congruence|].
    change (c :: more ++ tail) with ((c :: more) ++ tail).
    rewrite Hclen, firstn_app_exact, skipn_app_exact.
    replace (forallb is_digit tail) with true; [reflexivity|].
    symmetry. apply forallb_forall. rewrite Forall_forall in Ht. exact Ht. }
  assert (Hvpos : 0 < digits_value (d ++ tail)).
  { assert (Hcan : canonical (d ++ tail)).
    { split; [apply Forall_app; split; assumption|]. split; [destruct d; [congruence|discriminate]|].
      destruct d as [|x d]; [congruence|]. cbn in *. congruence. }
    pose proof (digits_value_nonneg _ (proj1 Hcan)).
    destruct (Z.eq_dec (digits_value (d ++ tail)) 0) as [E|]; [|lia].
    apply value_zero_canonical in E; [|exact Hcan].
    destruct d as [|x d]; [congruence|]. cbn in *. congruence. }
  set (v := if m then - digits_value (d ++ tail) else digits_value (d ++ tail)).
  assert (Hp : parse_i128 m (d ++ tail) = Some v).
  { unfold parse_i128. fold v. assert (0 < 2 ^ 127) by reflexivity.
    replace ((- 2 ^ 127 <=? v) && (v <? 2 ^ 127)) with true; [reflexivity|].
    subst v. destruct m; lia. }
  assert (Hpos : zlen s - ((if m then 1 else 0) + zlen d) - 1 = zlen more + zlen tail).
  { rewrite Hs, !zlen_app, zlen_cons. destruct m; rewrite ?zlen_cons, ?zlen_nil; lia. }
  assert (Hmore : Forall (fun x => 128 <= x) more).
  { subst s. apply (utf8_more c more tail).
    - unfold wf_bytes in Hw. rewrite !Forall_app in Hw. destruct Hw as (_ & _ & H & _). now inversion H.
    - rewrite utf8_ascii_app in Hu by (destruct m; repeat constructor; lia).
      rewrite utf8_ascii_app in Hu by (now apply digits_ascii). exact Hu.
    - now rewrite Hclen. }
  assert (Hnodot : Forall (fun x => x <> 46) (d ++ (c :: more) ++ tail)).
  { assert (Hdig : forall l, all_digits l -> Forall (fun x => x <> 46) l).
    { intros l. apply Forall_impl. intros x Hx. apply is_digit_iff in Hx. lia. }
    rewrite !Forall_app. split; [now apply Hdig|]. split; [|now apply Hdig].
    constructor; [assumption|]. eapply Forall_impl; [|exact Hmore]. cbn beta. lia. }
  assert (Hend : ends_with_dot (d ++ (c :: more) ++ tail) = false).
  { unfold ends_with_dot. apply Z.eqb_neq.
    rewrite Forall_forall in Hnodot. apply Hnodot.
    remember (d ++ (c :: more) ++ tail) as l eqn:El.
    destruct l as [|y l]; [destruct d; discriminate|].
    clear. revert y. induction l as [|z l IH]; intros y; [now left|].
    right. apply (IH z). }
  assert (E0 : starts_with [48] (d ++ (c :: more) ++ tail) = false).
  { destruct d as [|x d]; [congruence|]. cbn [app hd starts_with] in *. destruct (Z.eqb_spec 48 x); [congruence|reflexivity]. }
  assert (En : get_number s = Some (m, Some (zlen more + zlen tail), v)).
  { unfold get_number. rewrite Hrex. cbn [c_minus c_int c_sep c_frac]. rewrite Hpos.
    destruct (Z.ltb_spec (zlen more + zlen tail) 256); [|lia].
    rewrite Hp, Hend, E0. reflexivity. }
  unfold to_enum. rewrite En.
  destruct (eqb_bytes s [48]) eqn:E1.
  { apply eqb_bytes_eq in E1. rewrite E1 in Hin. destruct Hin as [<-|[]]. discriminate. }
  destruct (eqb_bytes s [49]) eqn:E2.
  { apply eqb_bytes_eq in E2. rewrite E2 in Hin. destruct Hin as [<-|[]]. discriminate. }
  destruct (eqb_bytes s txt_true) eqn:E3.
  { apply eqb_bytes_eq in E3. rewrite E3 in Hx0. cbn in Hx0. destruct Hx0 as [?|[? ?]]; discriminate. }
  destruct (eqb_bytes s txt_false) eqn:E4.
  { apply eqb_bytes_eq in E4. rewrite E4 in Hx0. cbn in Hx0. destruct Hx0 as [?|[? ?]]; discriminate. }
  assert (Hv0 : v <> 0) by (subst v; destruct m; lia).
  destruct (Z.eqb_spec v 0); [congruence|]. cbn [andb to_string].
  intros E. apply Some_inj in E.
  pose proof (zlen_nonneg more). pose proof (zlen_nonneg tail).
  destruct (decimal_chars v (zlen more + zlen tail)) as (body & Eb & Hb); [lia|exact Hv0|].
  assert (Hvm : (v <? 0) = m) by (subst v; destruct m; lia).
  rewrite Eb, Hvm, Hs in E. apply app_inv_head in E. subst body.
  rewrite !Forall_app in Hb. destruct Hb as (_ & Hb & _). inversion Hb as [|? ? [Hc2|Hc2] _]; congruence.
Qed.

(** ** whole lists *)

Lemma get_str_wf s : rust_string (2 ^ 63) s -> wf_kval (get_str s) /\ plain (get_str s) = get_str s.
Proof.
  intros (Hw & Hu & Hl). unfold get_str.
  destruct (Z.ltb_spec (zlen s) 16); [repeat split; auto|].
  destruct (Z.ltb_spec (zlen s) 256); repeat split; auto.
Qed.

Lemma to_enum_wf s : rust_string (2 ^ 63) s -> wf_kval (to_enum s) /\ plain (to_enum s) = to_enum s.
Proof.
  intros Hs. pose proof (get_str_wf s Hs) as Hg. unfold to_enum.
  destruct (eqb_bytes s [48]); [repeat split|].
  destruct (eqb_bytes s [49]); [repeat split|].
  destruct (eqb_bytes s txt_true); [repeat split|].
  destruct (eqb_bytes s txt_false); [repeat split|].
  destruct (get_number s) as [[[minus dot] number]|] eqn:En; [|exact Hg].
  assert (Hn : i128_range number /\ forall p, dot = Some p -> wf_byte p).
  { unfold get_number in En. destruct (rex s) as [c|] eqn:Er; [|discriminate].
    destruct Hs as (Hw & Hu & _).
    destruct (rex_inv s c Hw Hu Er) as (Hs & Hd & Hdne & Hf & Hsep).
    set (start := (if c_minus c then 1 else 0) + zlen (c_int c)) in En.
    assert (Hdot : exists o, (match c_sep c with
             | [] => Some None
             | _ => if zlen s - start - 1 <? 256 then Some (Some (zlen s - start - 1)) else None
             end) = Some o /\ forall p, o = Some p -> wf_byte p).
    { cbv zeta in En. destruct (c_sep c) as [|x more] eqn:Es; [exists None; split; [reflexivity|discriminate]|].
      destruct (Z.ltb_spec (zlen s - start - 1) 256) as [Hlt|]; [|discriminate].
      eexists; split; [reflexivity|]. intros p Hp. inversion Hp; subst p. unfold wf_byte. split; [|lia].
      rewrite Hs, !zlen_app, zlen_cons. unfold start, sgn.
      pose proof (zlen_nonneg more). pose proof (zlen_nonneg (c_frac c)).
      destruct (c_minus c); clear; unfold zlen; cbn [length]; lia. }
    destruct Hdot as (o & Ho & Hb). cbv zeta in En. rewrite Ho in En.
    destruct (parse_i128 (c_minus c) (c_int c ++ c_frac c)) as [v|] eqn:Ep; [|discriminate].
    assert (Hv : i128_range v).
    { unfold parse_i128 in Ep. destruct ((_ <=? _) && (_ <? _)) eqn:E; [|discriminate].
      apply Some_inj in Ep. subst v. unfold i128_range. lia. }
    assert (Eq : Some (c_minus c, o, v) = Some (minus, dot, number)).
    { destruct (ends_with_dot _); [discriminate|].
      destruct (starts_with [48] _); [destruct (starts_with [48; 46] _); [|discriminate]|]; exact En. }
    inversion Eq; subst. split; [exact Hv|]. intros p Hp. subst. now apply Hb. }
  destruct Hn as [Hn Hdot].
  destruct ((number =? 0) && minus); [exact Hg|].
  destruct dot as [p|].
  - split; [|reflexivity]. split; [exact Hn|]. now apply Hdot.
  - destruct (Z.eqb_spec (to_signed 64 number) number) as [E|E].
    + assert (Hi : i64_range number).
      { unfold i64_range. unfold to_signed in E. cbv zeta in E. pose proof (Z.mod_pos_bound number (2 ^ 64) ltac:(reflexivity)).
        change (64 - 1) with 63 in E.
        assert (2 ^ 64 = 2 * 2 ^ 63) by reflexivity.
        destruct (Z.ltb_spec (number mod 2 ^ 64) (2 ^ 63)); lia. }
      destruct (Z.eqb_spec (to_signed 8 number) number) as [E8|].
      * split; [|reflexivity]. cbn [wf_kval]. unfold to_signed in E8. cbv zeta in E8.
        change (2 ^ (8 - 1)) with 128 in E8. change (2 ^ 8) with 256 in E8.
        pose proof (Z.mod_pos_bound number 256 ltac:(reflexivity)).
        destruct (Z.ltb_spec (number mod 256) 128); lia.
      * split; [exact Hi|reflexivity].
    + split; [|reflexivity]. split; [exact Hn|]. unfold wf_byte. lia.
Qed.

Lemma strings_roundtrip strs rest : Forall (rust_string (2 ^ 63)) strs -> zlen strs < 2 ^ 58 ->
  exists bytes, compress_strings strs = Ok bytes /\
    decompress (bytes ++ rest) = Ok (map (fun s => to_string (to_enum s)) strs, zlen bytes).
Proof.
  intros Hs Hl. unfold compress_strings, decompress.
  destruct (encode_decode (map to_enum strs) rest) as (bytes & He & _ & Hd).
  { split; [|unfold zlen in *; now rewrite map_length].
    apply Forall_map. eapply Forall_impl; [|exact Hs]. intros s H. now apply to_enum_wf. }
  exists bytes. split; [exact He|]. rewrite Hd. cbn [bind].
  do 2 f_equal. rewrite !map_map. apply map_ext_in. intros s Hin.
  rewrite Forall_forall in Hs. now rewrite (proj2 (to_enum_wf s (Hs s Hin))).
Qed.

Lemma strings_exact strs rest : Forall (rust_string (2 ^ 63)) strs -> zlen strs < 2 ^ 58 ->
  exists bytes out, compress_strings strs = Ok bytes /\
    decompress (bytes ++ rest) = Ok (out, zlen bytes) /\
    Forall2 (fun s o => o = Some s <-> ~ separated_number s) strs out.
Proof.
  intros Hs Hl. destruct (strings_roundtrip strs rest Hs Hl) as (bytes & Hc & Hd).
  exists bytes. eexists. split; [exact Hc|]. split; [exact Hd|].
  clear Hc Hd Hl. induction Hs as [|s strs (Hw & Hu & _) _ IH]; constructor; [|exact IH].
  destruct (to_enum_cases s Hw Hu) as [H|H].
  - split; [|intros _; exact H]. intros _ Hn. now apply (separated_number_altered s Hw Hu Hn).
  - split; [|tauto]. intros E. exfalso. now apply (separated_number_altered s Hw Hu H).
Qed.

Lemma strings_lossless strs rest : Forall (rust_string (2 ^ 63)) strs -> zlen strs < 2 ^ 58 ->
  Forall (fun s => ~ separated_number s) strs ->
  exists bytes, compress_strings strs = Ok bytes /\
    decompress (bytes ++ rest) = Ok (map Some strs, zlen bytes).
Proof.
  intros Hs Hl Hn. destruct (strings_exact strs rest Hs Hl) as (bytes & out & Hc & Hd & Hf).
  exists bytes. split; [exact Hc|]. rewrite Hd. do 2 f_equal. clear Hc Hd Hs Hl.
  revert Hn. induction Hf as [|s o strs out Ho _ IH]; intros Hn; [reflexivity|].
  inversion Hn; subst. cbn [map]. f_equal; [now apply Ho|now apply IH].
Qed.

(** ** URL strings *)

Lemma byte_bits a : wf_byte a -> exists b7 b6 b5 b4 b3 b2 b1 b0,
  a = bits_value [b7; b6; b5; b4; b3; b2; b1; b0].
Proof.
  intros Ha.
  assert (Hl : length (bits_of 8 a) = 8%nat) by apply bits_of_length.
  assert (Hv : read_bits 8 (bits_of 8 a ++ []) = Ok (a, [])).
  { apply read_bits_app. exact Ha. }
  destruct (bits_of 8 a) as [|b7 [|b6 [|b5 [|b4 [|b3 [|b2 [|b1 [|b0 [|]]]]]]]]]; try discriminate Hl.
  exists b7, b6, b5, b4, b3, b2, b1, b0.
  apply Ok_inj in Hv. inversion Hv. destruct b7, b6, b5, b4, b3, b2, b1, b0; reflexivity.
Qed.

Definition sextet (b : Z) : list bool :=
  [get_bit b 6; get_bit b 5; get_bit b 4; get_bit b 3; get_bit b 2; get_bit b 1].

Lemma sextet_bits x1 x2 x3 x4 x5 x6 :
  sextet (bits_value [false; false; x1; x2; x3; x4; x5; x6]) = [x1; x2; x3; x4; x5; x6].
Proof. destruct x1, x2, x3, x4, x5, x6; reflexivity. Qed.

Lemma sextet_char x1 x2 x3 x4 x5 x6 :
  exists c, b6_to_char (bits_value [false; false; x1; x2; x3; x4; x5; x6]) = Some c /\
    char_to_b6 c = Some (bits_value [false; false; x1; x2; x3; x4; x5; x6]).
Proof. destruct x1, x2, x3, x4, x5, x6; eexists; split; reflexivity. Qed.

Definition url_pad (b : list Z) : list Z := if zlen b mod 3 =? 0 then [] else [0].

Lemma url_inner n : forall b, (length b <= n)%nat -> wf_bytes b ->
  exists text, map_opt b6_to_char (to_b6s b) = Some text /\
    map_opt char_to_b6 text = Some (to_b6s b) /\
    to_b8s (to_b6s b) = b ++ url_pad b /\
    zlen text = (8 * zlen b + 5) / 6.
Proof.
  induction n as [|n IH]; intros b Hn Hw.
  { destruct b; [|cbn in Hn; lia]. exists []. repeat split; reflexivity. }
  destruct b as [|p [|q [|r b]]].
  - exists []. repeat split; reflexivity.
  - inversion Hw as [|? ? Hp _]; subst.
    destruct (byte_bits p Hp) as (p7 & p6 & p5 & p4 & p3 & p2 & p1 & p0 & ->).
    unfold to_b6s, unpack_bits. cbn [flat_map app]. rewrite bits_byte.
    cbn [app b6_loop Nat.eqb pack_bits length Nat.sub repeat].
    destruct (sextet_char p7 p6 p5 p4 p3 p2) as (c1 & E1 & F1).
    destruct (sextet_char p1 p0 false false false false) as (c2 & E2 & F2).
    exists [c1; c2]. cbn [map_opt]. rewrite E1, E2. cbn [map_opt]. rewrite F1, F2.
    split; [reflexivity|]. split; [reflexivity|]. split; [|reflexivity].
    unfold to_b8s. cbn [flat_map]. fold (sextet (bits_value [false; false; p7; p6; p5; p4; p3; p2])).
    fold (sextet (bits_value [false; false; p1; p0; false; false; false; false])).
    rewrite !sextet_bits. cbn [app pack_bits length Nat.sub repeat]. reflexivity.
  - inversion Hw as [|? ? Hp Hw2]; subst. inversion Hw2 as [|? ? Hq _]; subst.
    destruct (byte_bits p Hp) as (p7 & p6 & p5 & p4 & p3 & p2 & p1 & p0 & ->).
    destruct (byte_bits q Hq) as (q7 & q6 & q5 & q4 & q3 & q2 & q1 & q0 & ->).
    unfold to_b6s, unpack_bits. cbn [flat_map app]. rewrite !bits_byte.
    cbn [app b6_loop Nat.eqb pack_bits length Nat.sub repeat].
    destruct (sextet_char p7 p6 p5 p4 p3 p2) as (c1 & E1 & F1).
    destruct (sextet_char p1 p0 q7 q6 q5 q4) as (c2 & E2 & F2).
    destruct (sextet_char q3 q2 q1 q0 false false) as (c3 & E3 & F3).
    exists [c1; c2; c3]. cbn [map_opt]. rewrite E1, E2, E3. cbn [map_opt]. rewrite F1, F2, F3.
    split; [reflexivity|]. split; [reflexivity|]. split; [|reflexivity].
    unfold to_b8s. cbn [flat_map]. fold (sextet (bits_value [false; false; p7; p6; p5; p4; p3; p2])).
    fold (sextet (bits_value [false; false; p1; p0; q7; q6; q5; q4])).
    fold (sextet (bits_value [false; false; q3; q2; q1; q0; false; false])).
    rewrite !sextet_bits. cbn [app pack_bits length Nat.sub repeat]. reflexivity.
  - inversion Hw as [|? ? Hp Hw2]; subst. inversion Hw2 as [|? ? Hq Hw3]; subst.
    inversion Hw3 as [|? ? Hr Hw4]; subst.
    destruct (IH b) as (text & G1 & G2 & G3 & G4); [cbn in Hn; lia|exact Hw4|].
    destruct (byte_bits p Hp) as (p7 & p6 & p5 & p4 & p3 & p2 & p1 & p0 & ->).
    destruct (byte_bits q Hq) as (q7 & q6 & q5 & q4 & q3 & q2 & q1 & q0 & ->).
    destruct (byte_bits r Hr) as (r7 & r6 & r5 & r4 & r3 & r2 & r1 & r0 & ->).
    assert (Hb6 : to_b6s (bits_value [p7; p6; p5; p4; p3; p2; p1; p0] ::
        bits_value [q7; q6; q5; q4; q3; q2; q1; q0] ::
        bits_value [r7; r6; r5; r4; r3; r2; r1; r0] :: b) =
      bits_value [false; false; p7; p6; p5; p4; p3; p2] ::
      bits_value [false; false; p1; p0; q7; q6; q5; q4] ::
      bits_value [false; false; q3; q2; q1; q0; r7; r6] ::
      bits_value [false; false; r5; r4; r3; r2; r1; r0] :: to_b6s b).
    { unfold to_b6s, unpack_bits. cbn [flat_map app]. rewrite !bits_byte.
      cbn [app b6_loop Nat.eqb pack_bits].
      destruct (flat_map (bits_of 8) b) as [|x l]; [reflexivity|]. cbn [b6_loop Nat.eqb]. reflexivity. }
    rewrite Hb6.
    destruct (sextet_char p7 p6 p5 p4 p3 p2) as (c1 & E1 & F1).
    destruct (sextet_char p1 p0 q7 q6 q5 q4) as (c2 & E2 & F2).
    destruct (sextet_char q3 q2 q1 q0 r7 r6) as (c3 & E3 & F3).
    destruct (sextet_char r5 r4 r3 r2 r1 r0) as (c4 & E4 & F4).
    exists (c1 :: c2 :: c3 :: c4 :: text). cbn [map_opt].
    rewrite E1, E2, E3, E4, G1, F1, F2, F3, F4, G2.
    split; [reflexivity|]. split; [reflexivity|]. split.
    + unfold to_b8s. cbn [flat_map]. fold (sextet (bits_value [false; false; p7; p6; p5; p4; p3; p2])).
      fold (sextet (bits_value [false; false; p1; p0; q7; q6; q5; q4])).
      fold (sextet (bits_value [false; false; q3; q2; q1; q0; r7; r6])).
      fold (sextet (bits_value [false; false; r5; r4; r3; r2; r1; r0])).
      rewrite !sextet_bits. cbn [app pack_bits]. unfold to_b8s in G3. rewrite G3.
      replace (url_pad (_ :: _ :: _ :: b)) with (url_pad b); [reflexivity|].
      unfold url_pad. rewrite !zlen_cons.
      replace ((1 + (1 + (1 + zlen b)))) with (zlen b + 1 * 3) by lia.
      now rewrite Z_mod_plus_full.
    + rewrite !zlen_cons, G4.
      replace (8 * (1 + (1 + (1 + zlen b))) + 5) with (8 * zlen b + 5 + 4 * 6) by lia.
      rewrite Z_div_plus_full by lia. lia.
Qed.


Lemma map_opt_chars text l : map_opt char_to_b6 text = Some l -> Forall url_char text.
Proof.
  revert l; induction text as [|c text IH]; intros l; cbn [map_opt]; [constructor|].
  destruct (char_to_b6 c) as [b|] eqn:E; [|discriminate].
  destruct (map_opt char_to_b6 text) as [ys|] eqn:E2; [|discriminate].
  intros _. constructor; [|eapply IH; reflexivity].
  unfold char_to_b6 in E. unfold url_char.
  destruct ((65 <=? c) && (c <=? 90)) eqn:H1; [lia|].
  destruct ((97 <=? c) && (c <=? 122)) eqn:H2; [lia|].
  destruct ((48 <=? c) && (c <=? 57)) eqn:H3; [lia|].
  destruct (Z.eqb_spec c 45); [lia|]. destruct (Z.eqb_spec c 95); [lia|discriminate].
Qed.

Lemma url_roundtrip b : wf_bytes b ->
  exists text, get_url_string b = Some text /\ Forall url_char text /\
    zlen text = (8 * zlen b + 5) / 6 /\
    get_bytes text = Some (b ++ (if zlen b mod 3 =? 0 then [] else [0])).
Proof.
  intros Hw. destruct (url_inner (length b) b (le_n _) Hw) as (text & G1 & G2 & G3 & G4).
  exists text. split; [exact G1|]. split; [eapply map_opt_chars; exact G2|]. split; [exact G4|].
  unfold get_bytes. rewrite G2, G3. reflexivity.
Qed.

Lemma url_injective a b : wf_bytes a -> wf_bytes b -> get_url_string a = get_url_string b -> a = b.
Proof.
  intros Ha Hb E.
  destruct (url_roundtrip a Ha) as (ta & A1 & _ & A3 & A4).
  destruct (url_roundtrip b Hb) as (tb & B1 & _ & B3 & B4).
  rewrite A1, B1 in E. apply Some_inj in E. subst tb.
  rewrite A3 in B3. rewrite A4 in B4. apply Some_inj in B4.
  assert (Hl : zlen a = zlen b) by (pose proof (zlen_nonneg a); pose proof (zlen_nonneg b); lia).
  rewrite Hl in B4. eapply app_inv_tail. exact B4.
Qed.
