(** A way to write doubles that meets what C49 asks of [f64::to_string]: all digits. *)
From Coq Require Import String.
From Verif Require Import Base FloatModel FloatProofs TextModel TextProofs CompactionSpec StringCompactionModel Json5Model Json5Spec Json5FloatProofs DocModel JsonModel PrintModel PrintSpec PrintProofs.

(** the digits of a fraction [r / u], at most [fuel] of them *)
Fixpoint fraction (u : Z) (fuel : nat) (r : Z) : list Z :=
  match fuel with
  | O => []
  | S fuel => if r =? 0 then [] else (48 + r * 10 / u) :: fraction u fuel ((r * 10) mod u)
  end.
Definition exact_text (bits : Z) : list Z :=
  match fdec F64 bits with
  | FNum s n =>
      (if s then [45] else []) ++ print_uint (n / 2 ^ 1074) ++
      (if n mod 2 ^ 1074 =? 0 then [] else 46 :: fraction (2 ^ 1074) (Z.to_nat 1074) (n mod 2 ^ 1074))
  | FInf s => if s then txt "-inf" else txt "inf"
  | FNaN => txt "NaN"
  end.

Lemma digits_reads_value ds : all_digits ds -> reads 10 ds (digits_value ds).
Proof.
  induction ds as [|c ds IH] using rev_ind; intros D; [constructor|]. apply Forall_app in D as [D1 D2]. inversion D2 as [|? ? Dc _]; subst. rewrite digits_value_snoc. apply is_digit_iff in Dc. constructor; [apply IH, D1| |]; [left; unfold Json5Spec.is_digit; lia|lia].
Qed.

Lemma fraction_reads u : 0 < u -> forall fuel r i v, 0 <= r < u -> (r * 10 ^ Z.of_nat fuel) mod u = 0 -> reads 10 i v ->
  exists m, reads 10 (i ++ fraction u fuel r) m /\ m * u = (v * u + r) * 10 ^ zlen (fraction u fuel r) /\ Forall Json5Spec.is_digit (fraction u fuel r).
Proof.
  intros U. induction fuel as [|fuel IH]; intros r i v R Z0 H; cbn [fraction].
  - change (10 ^ Z.of_nat 0) with 1 in Z0. rewrite Z.mul_1_r, Z.mod_small in Z0 by exact R. exists v. rewrite app_nil_r. split; [exact H|]. split; [change (zlen (@nil Z)) with 0; lia|constructor].
  - destruct (Z.eqb_spec r 0) as [->|N]; [exists v; rewrite app_nil_r; split; [exact H|]; split; [change (zlen (@nil Z)) with 0; lia|constructor]|].
    set (c := r * 10 / u). set (r' := (r * 10) mod u). pose proof (Z.div_mod (r * 10) u ltac:(lia)) as DM. fold c r' in DM. pose proof (Z.mod_pos_bound (r * 10) u U) as B. fold r' in B.
    assert (C : 0 <= c <= 9). { assert (0 <= c) by (apply Z.div_pos; lia). assert (c < 10) by (apply Z.div_lt_upper_bound; lia). lia. }
    destruct (IH r' (i ++ [48 + c]) (v * 10 + c) B) as (m & A & E & F).
    { rewrite Nat2Z.inj_succ, Z.pow_succ_r in Z0 by lia. rewrite Z.mul_assoc in Z0. unfold r'. rewrite Z.mul_mod_idemp_l by lia. exact Z0. }
    { constructor; [exact H|left; unfold Json5Spec.is_digit; lia|lia]. }
    exists m. rewrite <- app_assoc in A. cbn [app] in A. split; [exact A|]. split; [|constructor; [unfold Json5Spec.is_digit; lia|exact F]].
    rewrite E. unfold zlen. cbn [length]. rewrite Nat2Z.inj_succ, Z.pow_succ_r by lia. rewrite Z.mul_assoc. f_equal. nia.
Qed.

Lemma fraction_nonempty u fuel r : r <> 0 -> (fuel <> 0)%nat -> fraction u fuel r <> [].
Proof. intros N F. destruct fuel; [congruence|]. cbn [fraction]. destruct (Z.eqb_spec r 0); [congruence|discriminate]. Qed.

Lemma canonical_whole n : 0 <= n -> whole_number (print_uint n).
Proof.
  intros H. pose proof (print_canonical n H) as C. destruct C as (D & Ne & Z0). destruct (print_uint n) as [|c r]; [congruence|]. cbn [hd] in Z0. destruct (Z.eq_dec c 48) as [->|N]; [left; apply Z0; reflexivity|]. right. exists c, r.
  inversion D as [|? ? Dc Dr]; subst. apply is_digit_iff in Dc. split; [reflexivity|]. split; [exact Dc|]. split; [exact N|]. eapply Forall_impl; [|exact Dr]. intros a Ha. apply is_digit_iff in Ha. exact Ha.
Qed.

Lemma nearest_exact s n m d bits : u64_range bits -> fdec F64 bits = FNum s n -> 0 < d -> m = n * d -> nearest_double s m d bits.
Proof.
  intros U E D ->. split; [exact U|]. exists n. split; [exact E|]. split; [|split].
  - intros b' m' _ _. rewrite Z.sub_diag. cbn [Z.abs]. lia.
  - intros b' m' _ _ N A. exfalso. rewrite Z.sub_diag in A. cbn [Z.abs] in A. apply N. nia.
  - rewrite Z.mul_assoc. apply Z.mul_lt_mono_pos_r; [exact D|]. destruct (bits_magnitude _ _ _ U E) as [M _].
    assert (Q : 2 ^ 2098 = 2 ^ 53 * 2 ^ 2045) by (rewrite <- Z.pow_add_r by lia; reflexivity). rewrite Q.
    assert (X : 0 < 2 ^ 2045) by (apply Z.pow_pos_nonneg; lia). change (2 ^ 53) with 9007199254740992.
    assert (L : n <= 9007199254740991 * 2 ^ 2045).
    { destruct M as [M|(a & j & -> & A & J)]; [nia|]. assert (2 ^ j <= 2 ^ 2045) by (apply Z.pow_le_mono_r; lia). assert (0 < 2 ^ j) by (apply Z.pow_pos_nonneg; lia). nia. }
    nia.
Qed.

Theorem exact_shows : shows exact_text.
Proof.
  intros bits U. unfold exact_text. destruct (fdec F64 bits) as [|s|s n] eqn:E; [reflexivity|reflexivity|]. destruct (bits_magnitude _ _ _ U E) as [M _].
  assert (N0 : 0 <= n) by (destruct M as [M|(a & j & -> & A & J)]; [lia|assert (0 < 2 ^ j) by (apply Z.pow_pos_nonneg; lia); nia]).
  assert (Tn : (2 ^ 1074 | 10 ^ 1074)). { exists (5 ^ 1074). rewrite <- Z.pow_mul_l. reflexivity. }
  assert (X : 0 < 2 ^ 1074) by (apply Z.pow_pos_nonneg; lia). assert (F1 : Z.of_nat (Z.to_nat 1074) = 1074) by (apply Z2Nat.id; lia). assert (F2 : Z.to_nat 1074 <> 0%nat) by (intros H; rewrite H in F1; discriminate).
  unfold shown. set (u := 2 ^ 1074) in *. set (t := 10 ^ 1074) in *. set (fuel := Z.to_nat 1074) in *.
  assert (Q0 : 0 <= n / u) by (apply Z.div_pos; lia). pose proof (Z.div_mod n u ltac:(lia)) as DM. pose proof (Z.mod_pos_bound n u X) as B.
  set (f := if n mod u =? 0 then [] else fraction u fuel (n mod u)).
  assert (G : exists m, reads 10 (print_uint (n / u) ++ f) m /\ m * u = n * 10 ^ zlen f /\ Forall Json5Spec.is_digit f).
  { pose proof (digits_reads_value _ (print_uint_digits _ Q0)) as R. rewrite print_uint_value in R by exact Q0. unfold f. destruct (Z.eqb_spec (n mod u) 0) as [Z0|Nz].
    - exists (n / u). rewrite app_nil_r. split; [exact R|]. split; [change (zlen (@nil Z)) with 0; change (10 ^ 0) with 1; lia|constructor].
    - assert (Zm : (n mod u * 10 ^ Z.of_nat fuel) mod u = 0). { rewrite F1. fold t. destruct Tn as [q ->]. rewrite Z.mul_assoc. apply Z.mod_mul. lia. }
      destruct (fraction_reads u X fuel (n mod u) _ _ B Zm R) as (m & A1 & A2 & A3).
      exists m. split; [exact A1|]. split; [|exact A3]. rewrite A2. f_equal. lia. }
  destruct G as (m & A1 & A2 & A3). exists s, n, (print_uint (n / u)), (if n mod u =? 0 then [] else [46]), f, m.
  split; [exact E|]. split; [unfold f; destruct (n mod u =? 0); reflexivity|]. split; [apply canonical_whole, Q0|]. split; [exact A3|]. split.
  { unfold f. destruct (Z.eqb_spec (n mod u) 0) as [Z0|Nz]; [auto|]. split; [reflexivity|]. apply fraction_nonempty; assumption. }
  split; [exact A1|]. split.
  { apply (nearest_exact s n); [exact U|exact E|apply Z.pow_pos_nonneg; [lia|unfold zlen; lia]|exact A2]. }
  intros Z0 _. unfold f in A2. rewrite Z0 in A2. cbn [Z.eqb] in A2. change (zlen (@nil Z)) with 0 in A2. change (10 ^ 0) with 1 in A2. nia.
Qed.
