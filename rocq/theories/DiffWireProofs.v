(** Member number sets and parameter values through the diff format. *)
From Verif Require Import Base CompactionModel CompactionSpec FloatModel FloatProofs StringCompactionModel
  LinkedModel LinkedSpec DocModel DiffModel DiffWireModel DiffSpec DiffProofs.

(* ------------------------------------------------------------------ *)
(** * Numbers *)

Lemma u64_i64 x : u64_range x -> u64 (i64 x) = x.
Proof.
  unfold u64_range, u64, i64, to_unsigned, to_signed. intros H. rewrite (Z.mod_small x) by lia.
  destruct (Z.ltb_spec x (2 ^ (64 - 1))); [rewrite Z.mod_small by lia; reflexivity|].
  replace (x - 2 ^ 64) with (x + (-1) * 2 ^ 64) by lia. rewrite Z.mod_add by lia. apply Z.mod_small. lia.
Qed.

Lemma i64_u64 x : i64_range x -> i64 (u64 x) = x.
Proof.
  unfold i64_range, u64, i64, to_unsigned, to_signed. intros H. rewrite Z.mod_mod by lia.
  destruct (Z.ltb_spec x 0).
  - replace (x mod 2 ^ 64) with (x + 2 ^ 64).
    + destruct (Z.ltb_spec (x + 2 ^ 64) (2 ^ (64 - 1))); lia.
    + replace (x mod 2 ^ 64) with ((x + 1 * 2 ^ 64) mod 2 ^ 64) by (rewrite Z.mod_add by lia; reflexivity). rewrite Z.mod_small by lia. lia.
  - rewrite Z.mod_small by lia. destruct (Z.ltb_spec x (2 ^ (64 - 1))); lia.
Qed.

Lemma i64_range_i64 x : i64_range (i64 x).
Proof.
  unfold i64_range, i64, to_signed. pose proof (Z.mod_pos_bound x (2 ^ 64) ltac:(lia)).
  destruct (Z.ltb_spec (x mod 2 ^ 64) (2 ^ (64 - 1))); lia.
Qed.

Lemma u64_range_u64 x : u64_range (u64 x).
Proof. unfold u64_range, u64, to_unsigned. apply Z.mod_pos_bound. lia. Qed.

(* ------------------------------------------------------------------ *)
(** * Reading single values *)

Lemma plain_comp_int i : plain (comp_int i) = comp_int i.
Proof. unfold comp_int. repeat (destruct (_ =? _); try reflexivity). Qed.
Lemma plain_comp_str s : plain (comp_str s) = comp_str s.
Proof. unfold comp_str. destruct (_ =? _); [reflexivity|]. repeat (destruct (_ <? _); try reflexivity). Qed.
Lemma plain_comp_double b : plain (comp_double b) = comp_double b.
Proof.
  unfold comp_double. destruct (_ =? _); [reflexivity|]. cbv zeta.
  destruct (negb _); [reflexivity|]. destruct (feq _ _); [apply plain_comp_int|]. repeat (destruct (feq _ _); try reflexivity).
Qed.

Lemma read_bool_bit b r : read_bool (KBit b :: r) = Ok (b, r).
Proof. reflexivity. Qed.
Lemma read_i64_comp i r : read_i64 (comp_int i :: r) = Ok (i, r).
Proof. unfold read_i64. cbn [next bind]. rewrite comp_int_as_i64. reflexivity. Qed.
Lemma read_string_comp s r : read_string (comp_str s :: r) = Ok (s, r).
Proof. unfold read_string. cbn [next bind]. rewrite comp_str_lossless. reflexivity. Qed.
Lemma read_f64_comp b r : u64_range b -> read_f64 (comp_double b :: r) = Ok (b, r).
Proof. intros H. unfold read_f64. cbn [next bind]. rewrite comp_double_lossless by exact H. reflexivity. Qed.

Lemma read_n_all {A X} (f : list kval -> res (A * list kval)) (w : X -> list kval) (g : X -> A) (P : X -> Prop) :
  (forall x rest, P x -> f (w x ++ rest) = Ok (g x, rest)) ->
  forall xs rest, Forall P xs -> read_n f (length xs) (flat_map w xs ++ rest) = Ok (map g xs, rest).
Proof.
  intros Hf. induction xs as [|x xs IH]; intros rest HP; [reflexivity|].
  apply Forall_cons_iff in HP as [Hx HP]. cbn [length read_n flat_map map]. rewrite <- app_assoc, Hf by exact Hx. cbn [bind].
  rewrite IH by exact HP. reflexivity.
Qed.

(* ------------------------------------------------------------------ *)
(** * Parameters *)

Definition plains (ks : list kval) : list kval := map plain ks.

Lemma flags_roundtrip vt t : acceptable vt t = true ->
  exists fs, write_flags vt t = Ok fs /\ Forall wf_kval fs /\ forall rest, read_flags vt (plains fs ++ rest) = Ok (t, rest).
Proof.
  destruct vt, t; cbn; try discriminate; intros _; eexists; (split; [reflexivity|]); (split; [repeat constructor|]); intros rest; reflexivity.
Qed.

Lemma map_u64_i64 l : Forall i64_range l -> map i64 (map u64 l) = l.
Proof. intros H. rewrite map_map. induction H; cbn; [reflexivity|]. rewrite i64_u64, IHForall by assumption. reflexivity. Qed.

Lemma param_roundtrip mem p vt : acceptable vt (param_qv_type p) = true -> wf_param mem p ->
  exists ks, write_param p vt = Ok ks /\ Forall wf_kval ks /\ forall rest, read_param (type_of p) vt (plains ks ++ rest) = Ok (fresh_param p, rest).
Proof.
  intros A W. destruct (flags_roundtrip vt _ A) as (fs & Ef & Wf & Hf).
  unfold write_param, read_param. rewrite Ef; cbn [bind].
  destruct (param_qv_type p) eqn:Et.
  - assert (exists v, write_param2 p = Ok v /\ Forall wf_kval v /\ forall rest, read_param2 (type_of p) (plains v ++ rest) = Ok (fresh_param p, rest)) as (v & Ev & Wv & Hv).
    { destruct p as [[]|[]|[]|[]|[]|[]|[]]; cbn in Et; try discriminate; cbn [write_param2]; (eexists; split; [reflexivity|]);
        cbn [wf_param] in W; cbn [plains map type_of read_param2 app].
      - split; [repeat constructor|]. reflexivity.
      - split; [repeat constructor; apply comp_double_wf; exact W|]. intros rest. rewrite plain_comp_double, read_f64_comp by exact W. reflexivity.
      - split; [repeat constructor; apply comp_int_wf; exact W|]. intros rest. rewrite plain_comp_int, read_i64_comp. reflexivity.
      - destruct W as [_ W]. split; [repeat constructor; apply comp_str_wf; exact W|]. intros rest. rewrite plain_comp_str, read_string_comp. reflexivity.
      - destruct W as (_ & W & L). split.
        + repeat constructor; cbn [wf_kval].
          * apply Forall_forall. intros x I. apply in_map_iff in I as (y & <- & _). apply u64_range_u64.
          * unfold zlen in *. rewrite map_length. exact L.
        + intros rest. cbn [plain next bind]. rewrite map_u64_i64 by exact W. reflexivity.
      - destruct W as (W & L). split; [repeat constructor; assumption|]. reflexivity.
      - destruct W as (_ & W & L). split; [repeat constructor; assumption|]. reflexivity. }
    rewrite Ev; cbn [bind]. eexists; split; [reflexivity|]. split; [apply Forall_app; auto|].
    intros rest. unfold plains. rewrite map_app, <- app_assoc. fold (plains fs) (plains v). rewrite Hf; cbn [bind]. apply Hv.
  - eexists; split; [reflexivity|]. split; [exact Wf|]. intros rest. rewrite Hf; cbn [bind].
    destruct p as [[]|[]|[]|[]|[]|[]|[]]; cbn in Et; try discriminate; reflexivity.
  - eexists; split; [reflexivity|]. split; [exact Wf|]. intros rest. rewrite Hf; cbn [bind].
    destruct p as [[]|[]|[]|[]|[]|[]|[]]; cbn in Et; try discriminate; reflexivity.
Qed.

Lemma ref_roundtrip q vt : acceptable vt (qv_type_of q) = true -> wf_ref q ->
  exists ks, write_ref q vt = Ok ks /\ Forall wf_kval ks /\ forall rest, read_a_ref vt (plains ks ++ rest) = Ok (q, rest).
Proof.
  intros A W. destruct (flags_roundtrip vt _ A) as (fs & Ef & Wf & Hf).
  unfold write_ref, read_a_ref. rewrite Ef; cbn [bind]. destruct q as [s| |]; cbn [qv_type_of] in *.
  - eexists; split; [reflexivity|]. split; [apply Forall_app; split; [exact Wf|repeat constructor; apply comp_str_wf; exact W]|].
    intros rest. unfold plains. rewrite map_app, <- app_assoc. fold (plains fs). rewrite Hf; cbn [bind map app].
    rewrite plain_comp_str, read_string_comp. reflexivity.
  - eexists; split; [reflexivity|]. split; [exact Wf|]. intros rest. rewrite Hf. reflexivity.
  - eexists; split; [reflexivity|]. split; [exact Wf|]. intros rest. rewrite Hf. reflexivity.
Qed.

(* ------------------------------------------------------------------ *)
(** * Bits *)

Lemma land_pow2 b k : 0 <= k -> negb (Z.land b (2 ^ k) =? 0) = Z.testbit b k.
Proof.
  intros Hk. assert (E : Z.land b (2 ^ k) = if Z.testbit b k then 2 ^ k else 0).
  { apply Z.bits_inj'. intros j Hj. rewrite Z.land_spec, Z.pow2_bits_eqb by exact Hk.
    destruct (Z.eqb_spec k j).
    - subst j. rewrite andb_true_r. destruct (Z.testbit b k); [rewrite Z.pow2_bits_eqb, Z.eqb_refl by exact Hk; reflexivity|rewrite Z.bits_0; reflexivity].
    - rewrite andb_false_r. destruct (Z.testbit b k); [rewrite Z.pow2_bits_eqb by exact Hk; destruct (Z.eqb_spec k j); [contradiction|reflexivity]|rewrite Z.bits_0; reflexivity]. }
  rewrite E. destruct (Z.testbit b k); [|reflexivity]. assert (2 ^ k > 0) by (apply Z.lt_gt, Z.pow_pos_nonneg; lia).
  destruct (Z.eqb_spec (2 ^ k) 0); [lia|reflexivity].
Qed.

(** [k], [k + 1], ..., [n] numbers *)
Fixpoint zseq (k : Z) (n : nat) : list Z := match n with O => [] | S n => k :: zseq (k + 1) n end.

Lemma in_zseq n : forall k i, In i (zseq k n) <-> k <= i < k + Z.of_nat n.
Proof.
  induction n as [|n IH]; intros k i; cbn [zseq In]; [lia|]. rewrite IH. lia.
Qed.

Definition bits_of (b : Z) : list Z := filter (Z.testbit b) (zseq 0 64).

Lemma high_bits b k : 0 <= b < 2 ^ k -> forall n, filter (Z.testbit b) (zseq k n) = [].
Proof.
  intros Hb n. assert (0 <= k) by (destruct (Z.lt_ge_cases k 0); [rewrite Z.pow_neg_r in Hb by lia; lia|lia]).
  assert (G : forall i, In i (zseq k n) -> Z.testbit b i = false).
  { intros i I. apply in_zseq in I. destruct (Z.eq_dec b 0) as [->|]; [apply Z.bits_0|].
    apply Z.bits_above_log2; [lia|]. assert (Z.log2 b < k) by (apply Z.log2_lt_pow2; lia). lia. }
  induction (zseq k n) as [|i l IH]; cbn; [reflexivity|]. rewrite G by (left; reflexivity). apply IH. intros; apply G; right; assumption.
Qed.

Lemma numbers_loop_app {A} (f : Z -> A -> list kval -> res (A * list kval)) l1 l2 a r :
  numbers_loop f (l1 ++ l2) a r = ('(a, r) <- numbers_loop f l1 a r ; numbers_loop f l2 a r).
Proof. revert a r; induction l1 as [|i l1 IH]; intros a r; [reflexivity|]. cbn. destruct (f i a r) as [[a' r']| |]; cbn; auto. Qed.

Lemma bit_loop_numbers {A} (f : Z -> A -> list kval -> res (A * list kval)) b : u64_range b ->
  forall n k a r, 0 <= k -> k + Z.of_nat n = 64 ->
  bit_loop f b n (2 ^ k) k a r = numbers_loop f (filter (Z.testbit b) (zseq k n)) a r.
Proof.
  intros Hb. induction n as [|n IH]; intros k a r Hk Hn; [reflexivity|].
  cbn [bit_loop zseq filter]. rewrite land_pow2 by exact Hk.
  assert (Tail : forall a r, (if b <? to_unsigned 64 (Z.shiftl (2 ^ k) 1) then Ok (a, r)
      else bit_loop f b n (to_unsigned 64 (Z.shiftl (2 ^ k) 1)) (k + 1) a r) = numbers_loop f (filter (Z.testbit b) (zseq (k + 1) n)) a r).
  { intros a' r'. rewrite Z.shiftl_mul_pow2 by lia. replace (2 ^ k * 2 ^ 1) with (2 ^ (k + 1)) by (rewrite Z.pow_add_r by lia; reflexivity).
    destruct n as [|n'].
    - cbn. destruct (b <? _); reflexivity.
    - assert (to_unsigned 64 (2 ^ (k + 1)) = 2 ^ (k + 1)) as ->.
      { unfold to_unsigned. apply Z.mod_small. split; [apply Z.pow_nonneg; lia|]. apply Z.pow_lt_mono_r; lia. }
      destruct (Z.ltb_spec b (2 ^ (k + 1))).
      + rewrite high_bits; [reflexivity|]. unfold u64_range in Hb. lia.
      + apply IH; lia. }
  destruct (Z.testbit b k); cbn [numbers_loop bind].
  - destruct (f k a r) as [[a' r']| |]; cbn [bind]; [|reflexivity|reflexivity]. apply Tail.
  - apply Tail.
Qed.

Lemma read_bits_numbers {A} (f : Z -> A -> list kval -> res (A * list kval)) b a r : u64_range b ->
  read_bits f b a r = numbers_loop f (bits_of b) a r.
Proof. intros Hb. apply (bit_loop_numbers f b Hb 64 0); lia. Qed.

Fixpoint word_bits (words : list Z) (offset : Z) : list Z :=
  match words with [] => [] | w :: words => map (fun i => i + offset) (bits_of w) ++ word_bits words (offset + 64) end.

Lemma numbers_loop_map {A} (f : Z -> A -> list kval -> res (A * list kval)) (g : Z -> Z) l : forall a r,
  numbers_loop (fun i => f (g i)) l a r = numbers_loop f (map g l) a r.
Proof. induction l as [|i l IH]; intros a r; [reflexivity|]. cbn. destruct (f (g i) a r) as [[a' r']| |]; cbn; auto. Qed.

Lemma words_loop_numbers {A} (f : Z -> A -> list kval -> res (A * list kval)) words : Forall u64_range words -> forall offset a r,
  words_loop f words offset a r = numbers_loop f (word_bits words offset) a r.
Proof.
  induction words as [|w words IH]; intros H offset a r; [reflexivity|]. apply Forall_cons_iff in H as [Hw H].
  cbn [words_loop word_bits]. rewrite numbers_loop_app, read_bits_numbers by exact Hw.
  rewrite (numbers_loop_map f (fun i => i + offset)). destruct (numbers_loop f _ a r) as [[a' r']| |]; cbn; auto.
Qed.

(* ------------------------------------------------------------------ *)
(** * Sets of member numbers *)

(** the numbers a stored set stands for, in the order they are read *)
Definition visited (s : stored_ids) : list Z :=
  match s with SZero => [] | SU64 b => bits_of b | SBits w => word_bits w 0 | SNumbers l => l end.

Fixpoint ascending (lo : Z) (l : list Z) : Prop :=
  match l with [] => True | x :: r => lo <= x /\ ascending (x + 1) r end.

Lemma ascending_weaken l : forall lo lo', lo' <= lo -> ascending lo l -> ascending lo' l.
Proof. destruct l; cbn; intros; [exact I|]. intuition lia. Qed.
Lemma ascending_in l : forall lo x, ascending lo l -> In x l -> lo <= x.
Proof.
  induction l as [|y l IH]; cbn; intros lo x H I; [contradiction|]. destruct H as [H1 H2]. destruct I as [->|I]; [lia|]. specialize (IH _ _ H2 I). lia.
Qed.
Lemma ascending_unique : forall a b lo, ascending lo a -> ascending lo b -> (forall x, In x a <-> In x b) -> a = b.
Proof.
  induction a as [|x a IH]; intros b lo Ha Hb H.
  - destruct b as [|y b]; [reflexivity|]. exfalso. apply (H y). left; reflexivity.
  - destruct b as [|y b]; [exfalso; apply (H x); left; reflexivity|]. cbn in Ha, Hb. destruct Ha as [Hx Ha], Hb as [Hy Hb].
    assert (x = y).
    { destruct (proj1 (H x) (or_introl eq_refl)) as [E|I]; [congruence|]. destruct (proj2 (H y) (or_introl eq_refl)) as [E|I']; [congruence|].
      apply (ascending_in _ _ _ Hb) in I. apply (ascending_in _ _ _ Ha) in I'. lia. }
    subst y. f_equal. apply (IH b (x + 1) Ha Hb). intros z. split; intros I.
    + destruct (proj1 (H z) (or_intror I)) as [->|]; [|assumption]. apply (ascending_in _ _ _ Ha) in I. lia.
    + destruct (proj2 (H z) (or_intror I)) as [->|]; [|assumption]. apply (ascending_in _ _ _ Hb) in I. lia.
Qed.
Lemma ascending_filter (p : Z -> bool) l : forall lo, ascending lo l -> ascending lo (filter p l).
Proof.
  induction l as [|x l IH]; cbn; intros lo H; [exact I|]. destruct H as [H1 H2]. destruct (p x); cbn.
  - split; [exact H1|]. apply IH, H2.
  - apply IH. eapply ascending_weaken; [|exact H2]. lia.
Qed.
Lemma ascending_zseq n : forall k, ascending k (zseq k n).
Proof. induction n; cbn; intros; [exact I|]. split; [lia|apply IHn]. Qed.
Lemma ascending_app l1 : forall lo mid l2, ascending lo l1 -> (forall x, In x l1 -> x < mid) -> lo <= mid -> ascending mid l2 -> ascending lo (l1 ++ l2).
Proof.
  induction l1 as [|x l1 IH]; cbn; intros lo mid l2 H1 Hb Hl H2; [eapply ascending_weaken; eassumption|].
  split; [tauto|]. apply (IH _ mid); [tauto|auto| |exact H2]. specialize (Hb x (or_introl eq_refl)). lia.
Qed.
Lemma ascending_shift l : forall lo k, ascending lo l -> ascending (lo + k) (map (fun i => i + k) l).
Proof.
  induction l as [|x l IH]; cbn; intros lo k H; [exact I|]. split; [lia|]. destruct H as [_ H]. specialize (IH _ k H).
  replace (x + k + 1) with (x + 1 + k) by lia. exact IH.
Qed.
Lemma increasing_ascending {A} (m : bmap A) : forall lo, increasing lo m -> ascending lo (map fst m).
Proof. induction m as [|[k v] m IH]; cbn; intros lo H; [exact I|]. destruct H; split; auto. Qed.

Lemma in_bits_of b i : In i (bits_of b) <-> 0 <= i < 64 /\ Z.testbit b i = true.
Proof. unfold bits_of. rewrite filter_In, in_zseq. intuition lia. Qed.
Lemma ascending_bits_of b : ascending 0 (bits_of b).
Proof. apply ascending_filter, ascending_zseq. Qed.

Lemma in_word_bits words : forall offset i, In i (word_bits words offset) <->
  offset <= i /\ exists w, nth_error words (Z.to_nat ((i - offset) / 64)) = Some w /\ Z.testbit w ((i - offset) mod 64) = true.
Proof.
  induction words as [|w words IH]; intros offset i; cbn [word_bits].
  - split; [intros []|]. intros (_ & w & E & _). destruct (Z.to_nat _); discriminate.
  - rewrite in_app_iff, in_map_iff, IH. split.
    + intros [(j & <- & I)|(Ho & w' & E & T)].
      * apply in_bits_of in I as [Hj T]. split; [lia|]. exists w. replace (j + offset - offset) with j by lia.
        rewrite Z.div_small, Z.mod_small by lia. auto.
      * split; [lia|]. exists w'. replace (i - offset) with (i - (offset + 64) + 1 * 64) by lia. rewrite Z.div_add, Z.mod_add by lia.
        rewrite Z2Nat.inj_add by (try lia; apply Z.div_pos; lia). rewrite Nat.add_comm. cbn. auto.
    + intros (Ho & w' & E & T). destruct (Z.lt_ge_cases (i - offset) 64).
      * left. rewrite Z.div_small, Z.mod_small in * by lia. cbn in E. apply Some_inj in E; subst w'. exists (i - offset). split; [lia|]. apply in_bits_of. split; [lia|exact T].
      * right. split; [lia|]. exists w'. replace (i - offset) with (i - (offset + 64) + 1 * 64) in E, T by lia. rewrite Z.div_add in E by lia. rewrite Z.mod_add in T by lia.
        rewrite Z2Nat.inj_add in E by (try lia; apply Z.div_pos; lia). rewrite Nat.add_comm in E. cbn in E. auto.
Qed.

Lemma ascending_word_bits words : forall offset, ascending offset (word_bits words offset).
Proof.
  induction words as [|w words IH]; intros offset; cbn [word_bits]; [exact I|].
  apply (ascending_app _ _ (offset + 64)).
  - replace offset with (0 + offset) at 1 by lia. apply ascending_shift, ascending_bits_of.
  - intros x I. apply in_map_iff in I as (j & <- & I). apply in_bits_of in I. lia.
  - lia.
  - apply IH.
Qed.

(** ** Building the sets *)

Lemma lor_range r i : u64_range r -> 0 <= i < 64 -> u64_range (Z.lor r (Z.shiftl 1 i)).
Proof.
  unfold u64_range. intros Hr Hi. rewrite Z.shiftl_1_l.
  assert (0 < 2 ^ i) by (apply Z.pow_pos_nonneg; lia). split; [apply Z.lor_nonneg; lia|].
  destruct (Z.eq_dec (Z.lor r (2 ^ i)) 0) as [->|N]; [lia|].
  assert (0 <= Z.lor r (2 ^ i)) by (apply Z.lor_nonneg; lia).
  apply Z.log2_lt_pow2; [lia|]. rewrite Z.log2_lor by lia. rewrite Z.log2_pow2 by lia.
  destruct (Z.eq_dec r 0) as [->|]; [cbn; lia|]. assert (Z.log2 r < 64) by (apply Z.log2_lt_pow2; lia). lia.
Qed.

Lemma testbit_put r i j : 0 <= i -> Z.testbit (Z.lor r (Z.shiftl 1 i)) j = Z.testbit r j || (i =? j).
Proof. intros Hi. rewrite Z.lor_spec, Z.shiftl_1_l, Z.pow2_bits_eqb by exact Hi. reflexivity. Qed.

Lemma update_u64_ok keys : forall r, u64_range r -> Forall (fun i => 0 <= i < 64) keys ->
  exists r', update_u64 keys r = Ok r' /\ u64_range r' /\ forall j, Z.testbit r' j = true <-> Z.testbit r j = true \/ In j keys.
Proof.
  induction keys as [|i keys IH]; intros r Hr HF.
  - exists r. split; [reflexivity|]. split; [exact Hr|]. intros j; cbn; tauto.
  - apply Forall_cons_iff in HF as [Hi HF]. unfold update_u64. cbn [mfold]. destruct (Z.ltb_spec i 64); [|lia]. cbn [bind].
    destruct (IH (Z.lor r (Z.shiftl 1 i)) (lor_range r i Hr Hi) HF) as (r' & E & R & T).
    exists r'. split; [exact E|]. split; [exact R|]. intros j. rewrite T, testbit_put by lia. rewrite orb_true_iff, Z.eqb_eq. cbn; tauto.
Qed.

Definition word_at (ws : list Z) (i : Z) : bool :=
  match zget ws (i / 64) with Some w => Z.testbit w (i mod 64) | None => false end.

Lemma update_bits_ok keys : forall ws, Forall u64_range ws -> Forall (fun i => 0 <= i / 64 < zlen ws) keys ->
  exists ws', update_bits keys ws = Ok ws' /\ Forall u64_range ws' /\ zlen ws' = zlen ws /\
    forall j, 0 <= j -> (word_at ws' j = true <-> word_at ws j = true \/ In j keys).
Proof.
  induction keys as [|i keys IH]; intros ws Hw HF.
  - exists ws. split; [reflexivity|]. split; [exact Hw|]. split; [reflexivity|]. intros; cbn; tauto.
  - apply Forall_cons_iff in HF as [Hi HF]. unfold update_bits. cbn [mfold].
    assert (exists w, zget ws (i / 64) = Some w) as [w Ew].
    { unfold zget, zlen in *. destruct (Z.ltb_spec (i / 64) 0); [lia|]. destruct (nth_error ws (Z.to_nat (i / 64))) eqn:E; [eauto|].
      apply nth_error_None in E. lia. }
    rewrite Ew. destruct (vec_set_ok ws (i / 64) (Z.lor w (Z.shiftl 1 (i mod 64))) Hi) as (ws1 & E1 & L1 & G1).
    rewrite E1; cbn [bind]. pose proof (Z.mod_pos_bound i 64 ltac:(lia)) as Hm.
    assert (Wr : u64_range w).
    { unfold zget in Ew. destruct (i / 64 <? 0); [discriminate|]. apply nth_error_In in Ew. rewrite Forall_forall in Hw. apply Hw; exact Ew. }
    destruct (IH ws1) as (ws' & E' & F' & L' & T').
    + apply Forall_forall. intros x I. apply In_nth_error in I as [k Ik].
      assert (Hz : zget ws1 (Z.of_nat k) = Some x) by (unfold zget; destruct (Z.ltb_spec (Z.of_nat k) 0); [lia|]; rewrite Nat2Z.id; exact Ik).
      rewrite G1 in Hz. destruct (Z.eqb_spec (Z.of_nat k) (i / 64)).
      * apply Some_inj in Hz; subst x. apply lor_range; [exact Wr|lia].
      * unfold zget in Hz. destruct (Z.of_nat k <? 0); [discriminate|]. apply nth_error_In in Hz. rewrite Forall_forall in Hw. apply Hw; exact Hz.
    + rewrite L1. exact HF.
    + exists ws'. split; [exact E'|]. split; [exact F'|]. split; [lia|]. intros j Hj. rewrite T' by exact Hj. cbn [In].
      assert (G : word_at ws1 j = true <-> word_at ws j = true \/ i = j); [|tauto].
      unfold word_at. rewrite G1. destruct (Z.eqb_spec (j / 64) (i / 64)) as [Ed|Nd].
      * rewrite Ed, Ew, testbit_put by lia. rewrite orb_true_iff, Z.eqb_eq.
        assert (i mod 64 = j mod 64 <-> i = j); [|tauto].
        split; [|congruence]. intros Em. rewrite (Z.div_mod i 64), (Z.div_mod j 64) by lia. congruence.
      * split; [tauto|]. intros [H| ->]; [exact H|congruence].
Qed.

Lemma word_at_zeros n j : word_at (repeat 0 n) j = false.
Proof.
  unfold word_at, zget. destruct (_ <? _); [reflexivity|]. destruct (nth_error (repeat 0 n) _) eqn:E; [|reflexivity].
  apply nth_error_In, repeat_spec in E. subst. apply Z.bits_0.
Qed.

Lemma last_max keys : forall lo, ascending lo keys -> keys <> [] -> In (last keys 0) keys /\ forall x, In x keys -> x <= last keys 0.
Proof.
  induction keys as [|x keys IH]; intros lo H N; [congruence|]. destruct keys as [|y keys].
  - cbn. split; [auto|]. intros z [->|[]]. lia.
  - destruct H as [Hx H]. destruct (IH _ H ltac:(discriminate)) as [I M]. change (last (x :: y :: keys) 0) with (last (y :: keys) 0).
    split; [right; exact I|]. intros z [->|Iz]; [|apply M; exact Iz]. pose proof (ascending_in _ _ _ H I). lia.
Qed.

Lemma max_and_len_ok keys : ascending 0 keys -> let '(m, l) := max_and_len keys in
  l = zlen keys /\ (forall x, In x keys -> x <= m) /\ 0 <= m /\ (m = 0 \/ In m keys).
Proof.
  intros H. unfold max_and_len. destruct keys as [|k keys].
  - split; [reflexivity|]. split; [intros x []|]. split; [lia|auto].
  - destruct (last_max (k :: keys) 0 H ltac:(discriminate)) as [I M]. split; [reflexivity|]. split; [exact M|].
    split; [apply (ascending_in _ _ _ H); exact I|auto].
Qed.

Definition wf_stored (s : stored_ids) : Prop :=
  match s with
  | SZero => True
  | SU64 b => u64_range b /\ b <> 0
  | SBits w | SNumbers w => Forall u64_range w /\ zlen w < 2 ^ 64
  end.

Lemma store_ids_ok params lists : ascending 0 params -> ascending 0 lists ->
  Forall (fun i => i < 2 ^ 63) params -> Forall (fun i => i < 2 ^ 63) lists -> zlen params + zlen lists < 2 ^ 64 ->
  exists s, store_ids params lists = Ok s /\ wf_stored s /\
    (s = SZero -> params = [] /\ lists = []) /\
    match s with
    | SNumbers l => l = params ++ lists
    | _ => ascending 0 (visited s) /\ forall i, In i (visited s) <-> In i params \/ In i lists
    end.
Proof.
  intros Ap Al Bp Bl Len. pose proof (max_and_len_ok params Ap) as Hp. pose proof (max_and_len_ok lists Al) as Hl.
  unfold store_ids. destruct (max_and_len params) as [m1 l1], (max_and_len lists) as [m2 l2].
  destruct Hp as (-> & Mp & Np & Ip), Hl as (-> & Ml & Nl & Il). set (mx := Z.max (Z.max 0 m1) m2).
  assert (Gp : forall x, In x params -> 0 <= x <= mx) by (intros x I; specialize (Mp x I); pose proof (ascending_in _ _ _ Ap I); lia).
  assert (Gl : forall x, In x lists -> 0 <= x <= mx) by (intros x I; specialize (Ml x I); pose proof (ascending_in _ _ _ Al I); lia).
  assert (Mx : mx < 2 ^ 63).
  { rewrite Forall_forall in Bp, Bl. assert (m1 < 2 ^ 63) by (destruct Ip as [->|I]; [lia|apply Bp; exact I]).
    assert (m2 < 2 ^ 63) by (destruct Il as [->|I]; [lia|apply Bl; exact I]). lia. }
  clearbody mx.
  assert (Zp : 0 <= zlen params) by (unfold zlen; lia). assert (Zl : 0 <= zlen lists) by (unfold zlen; lia).
  destruct (Z.eq_dec (zlen params + zlen lists) 0) as [E0|N0].
  { assert (params = []) as -> by (destruct params; [reflexivity|unfold zlen in *; cbn [length] in *; lia]).
    assert (lists = []) as -> by (destruct lists; [reflexivity|unfold zlen in *; cbn [length] in *; lia]).
    exists SZero. split; [reflexivity|]. split; [exact I|]. split; [auto|]. split; [exact I|]. cbn; tauto. }
  assert (NE : exists x, In x params \/ In x lists).
  { destruct params as [|x]; [destruct lists as [|x]; [unfold zlen in *; cbn [length] in *; lia|]|]; exists x; cbn; auto. }
  assert (U : mx < 64 -> exists s, (r <- update_u64 params 0 ; r <- update_u64 lists r ; Ok (SU64 r)) = Ok s /\ wf_stored s /\
    (s = SZero -> params = [] /\ lists = []) /\
    match s with
    | SNumbers l => l = params ++ lists
    | _ => ascending 0 (visited s) /\ forall i, In i (visited s) <-> In i params \/ In i lists
    end).
  { intros H64. destruct (update_u64_ok params 0) as (r1 & E1 & R1 & T1).
    - unfold u64_range; lia.
    - apply Forall_forall. intros x I. specialize (Gp x I). lia.
    - destruct (update_u64_ok lists r1 R1) as (r2 & E2 & R2 & T2).
      + apply Forall_forall. intros x I. specialize (Gl x I). lia.
      + rewrite E1; cbn [bind]. rewrite E2; cbn [bind]. exists (SU64 r2). split; [reflexivity|].
        assert (T : forall j, Z.testbit r2 j = true <-> In j params \/ In j lists).
        { intros j. rewrite T2, T1, Z.bits_0. intuition discriminate. }
        split; [split; [exact R2|]|split; [discriminate|]].
        * intros ->. destruct NE as [x Hx]. apply T in Hx. rewrite Z.bits_0 in Hx. discriminate.
        * split; [apply ascending_bits_of|]. intros i. cbn [visited]. rewrite in_bits_of, T. split; [tauto|]. intros H. split; [|exact H].
          destruct H as [H|H]; [specialize (Gp i H)|specialize (Gl i H)]; lia. }
  assert (B : exists s, (r <- update_bits params (repeat 0 (Z.to_nat (mx / 64 + 1))) ; r <- update_bits lists r ; Ok (SBits r)) = Ok s /\ wf_stored s /\
    (s = SZero -> params = [] /\ lists = []) /\
    match s with
    | SNumbers l => l = params ++ lists
    | _ => ascending 0 (visited s) /\ forall i, In i (visited s) <-> In i params \/ In i lists
    end).
  { destruct NE as [x0 Hx0]. assert (M0 : 0 <= mx) by (destruct Hx0 as [H|H]; [specialize (Gp _ H)|specialize (Gl _ H)]; lia).
    assert (Lz : zlen (repeat 0 (Z.to_nat (mx / 64 + 1))) = mx / 64 + 1).
    { unfold zlen. rewrite repeat_length. rewrite Z2Nat.id; [reflexivity|]. assert (0 <= mx / 64) by (apply Z.div_pos; lia). lia. }
    assert (Gd : forall x, 0 <= x <= mx -> 0 <= x / 64 < mx / 64 + 1).
    { intros x Hx. split; [apply Z.div_pos; lia|]. assert (x / 64 <= mx / 64) by (apply Z.div_le_mono; lia). lia. }
    destruct (update_bits_ok params (repeat 0 (Z.to_nat (mx / 64 + 1)))) as (w1 & E1 & F1 & L1 & T1).
    - apply Forall_forall. intros x I. apply repeat_spec in I. subst x. unfold u64_range; lia.
    - rewrite Lz. apply Forall_forall. intros x I. apply Gd, Gp, I.
    - destruct (update_bits_ok lists w1 F1) as (w2 & E2 & F2 & L2 & T2).
      + rewrite L1, Lz. apply Forall_forall. intros x I. apply Gd, Gl, I.
      + rewrite E1; cbn [bind]. rewrite E2; cbn [bind]. exists (SBits w2). split; [reflexivity|].
        split; [split; [exact F2|]|split; [discriminate|]].
        * rewrite L2, L1, Lz. assert (mx / 64 <= mx) by (apply Z.div_le_upper_bound; lia). lia.
        * split; [apply ascending_word_bits|]. intros i. cbn [visited]. rewrite in_word_bits, Z.sub_0_r.
          assert (T : 0 <= i -> word_at w2 i = true <-> In i params \/ In i lists).
          { intros Hi. rewrite T2, T1 by exact Hi. rewrite word_at_zeros. intuition discriminate. }
          split.
          -- intros (Hi & w & E & Tb). apply (T Hi). unfold word_at, zget. destruct (Z.ltb_spec (i / 64) 0); [|rewrite E; exact Tb].
             assert (0 <= i / 64) by (apply Z.div_pos; lia). lia.
          -- intros H. assert (Hi : 0 <= i) by (destruct H as [H|H]; [specialize (Gp _ H)|specialize (Gl _ H)]; lia).
             split; [exact Hi|]. apply (T Hi) in H. unfold word_at, zget in H. destruct (i / 64 <? 0); [discriminate|].
             destruct (nth_error w2 (Z.to_nat (i / 64))) as [w|]; [eauto|discriminate]. }
  assert (N : exists s, Ok (SNumbers (params ++ lists)) = Ok s /\ wf_stored s /\
    (s = SZero -> params = [] /\ lists = []) /\
    match s with
    | SNumbers l => l = params ++ lists
    | _ => ascending 0 (visited s) /\ forall i, In i (visited s) <-> In i params \/ In i lists
    end).
  { exists (SNumbers (params ++ lists)). split; [reflexivity|]. split; [|split; [discriminate|reflexivity]]. split.
    - apply Forall_app. unfold u64_range. split; apply Forall_forall; intros x I; [specialize (Gp x I)|specialize (Gl x I)]; lia.
    - unfold zlen in *. rewrite app_length. lia. }
  unfold calc_type. destruct (Z.eqb_spec (zlen params + zlen lists) 0); [contradiction|].
  destruct (Z.ltb_spec mx 64); [destruct (_ >? _); auto|].
  destruct (mx <? 32768); [destruct (_ >? _); auto|].
  destruct (mx <? 8388608); [destruct (_ >? _); auto|].
  destruct (mx <? 2147483648); destruct (_ >? _); auto.
Qed.

(** ** Through the values *)

Lemma read_array_ok l rest : Forall u64_range l -> zlen l < 2 ^ 64 ->
  read_array (comp_int (i64 (zlen l)) :: map (fun s => comp_int (i64 s)) l ++ rest) = Ok (l, rest).
Proof.
  intros F L. unfold read_array. rewrite read_i64_comp; cbn [bind].
  assert (u64_range (zlen l)) by (unfold u64_range, zlen in *; lia).
  rewrite u64_i64 by assumption.
  assert (rounds (zlen l) (map (fun s => comp_int (i64 s)) l ++ rest) = length l) as ->.
  { unfold rounds, zlen. rewrite app_length, map_length. rewrite Z.min_l by lia. apply Nat2Z.id. }
  assert (E : map (fun s => comp_int (i64 s)) l = flat_map (fun s => [comp_int (i64 s)]) l) by (clear; induction l; cbn; congruence).
  rewrite E. rewrite (read_n_all read_i64 (fun s => [comp_int (i64 s)]) i64 (fun _ => True)).
  - cbn [bind]. f_equal. f_equal. rewrite map_map. clear -F. induction F; cbn; [reflexivity|]. rewrite u64_i64, IHF by assumption. reflexivity.
  - intros x r _. apply read_i64_comp.
  - apply Forall_forall. auto.
Qed.

Lemma stored_roundtrip s : wf_stored s ->
  Forall wf_kval (write_stored_ids s) /\ forall rest, read_stored_ids (plains (write_stored_ids s) ++ rest) = Ok (s, rest).
Proof.
  assert (Arr : forall l, Forall wf_kval (map (fun s => comp_int (i64 s)) l)).
  { intros l. apply Forall_forall. intros k I. apply in_map_iff in I as (x & <- & _). apply comp_int_wf, i64_range_i64. }
  assert (Pl : forall l, map plain (map (fun s => comp_int (i64 s)) l) = map (fun s => comp_int (i64 s)) l).
  { intros l. rewrite map_map. apply map_ext. intros; apply plain_comp_int. }
  destruct s as [|b|w|l]; cbn [wf_stored]; intros W.
  - split; [repeat constructor|]. reflexivity.
  - destruct W as [W N]. split; [repeat constructor; apply comp_int_wf, i64_range_i64|]. intros rest.
    cbn [write_stored_ids plains map plain app]. unfold read_stored_ids. rewrite read_bool_bit; cbn [bind]. rewrite plain_comp_int, read_i64_comp; cbn [bind].
    rewrite u64_i64 by exact W. destruct (Z.eqb_spec b 0); [contradiction|reflexivity].
  - destruct W as [W L]. split; [repeat constructor; [apply comp_int_wf, i64_range_i64|apply Arr]|]. intros rest.
    unfold plains. cbn [write_stored_ids map plain app]. rewrite plain_comp_int, Pl. unfold read_stored_ids. rewrite !read_bool_bit; cbn [bind].
    rewrite read_bool_bit; cbn [bind]. rewrite read_array_ok by assumption. reflexivity.
  - destruct W as [W L]. split; [repeat constructor; [apply comp_int_wf, i64_range_i64|apply Arr]|]. intros rest.
    unfold plains. cbn [write_stored_ids map plain app]. rewrite plain_comp_int, Pl. unfold read_stored_ids. rewrite !read_bool_bit; cbn [bind].
    rewrite read_bool_bit; cbn [bind]. rewrite read_array_ok by assumption. reflexivity.
Qed.
