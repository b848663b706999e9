(** Proofs about numbers (C50). *)
From Coq Require Import String.
From Verif Require Import Base FloatModel FloatProofs CompactionModel StringCompactionModel StringCompactionProofs ArchiveModel DocModel JsonModel Json5Model Json5Spec Json5Proofs Json5FloatProofs.

Lemma digit_is c : digit c = true <-> is_digit c.
Proof. unfold digit, is_digit. rewrite andb_true_iff, !Z.leb_le. reflexivity. Qed.
Lemma digits_all ds : forallb digit ds = true <-> Forall is_digit ds.
Proof. rewrite forallb_forall, Forall_forall. split; intros H x I; apply digit_is, H, I. Qed.
Lemma hex_value_is c : hex_digit c = true <-> digit_value c (hex_value c).
Proof.
  unfold hex_digit, digit_value, hex_value, is_digit. rewrite !orb_true_iff, !andb_true_iff, !Z.leb_le, digit_is. unfold is_digit. split.
  - intros H. destruct (digit c) eqn:D; [apply digit_is in D; unfold is_digit in D; left; lia|].
    assert (N : ~ (48 <= c <= 57)) by (intros H1; apply digit_is in H1; congruence). destruct (Z.leb_spec c 70); [right; right|right; left]; lia.
  - intros H. lia.
Qed.
Lemma digit_value_unique c x : digit_value c x -> x = hex_value c.
Proof.
  intros H. assert (D : digit_value c (hex_value c)). { apply hex_value_is. unfold hex_digit. rewrite !orb_true_iff, !andb_true_iff, !Z.leb_le, digit_is. unfold digit_value, is_digit in *. lia. }
  unfold digit_value, is_digit in *. lia.
Qed.

Lemma read_base_snoc b ds c : read_base b (ds ++ [c]) = read_base b ds * b + hex_value c.
Proof. unfold read_base. rewrite fold_left_app. reflexivity. Qed.
Lemma reads_base b ds v : reads b ds v -> v = read_base b ds.
Proof. induction 1 as [|ds v c x R -> D L]; [reflexivity|]. rewrite read_base_snoc, (digit_value_unique c x D). reflexivity. Qed.
Lemma reads_hex b ds v : reads b ds v -> forallb hex_digit ds = true.
Proof.
  induction 1 as [|ds v c x R IH D L]; [reflexivity|]. rewrite forallb_app, IH. cbn. rewrite (digit_value_unique _ _ D) in D. apply hex_value_is in D. rewrite D. reflexivity.
Qed.
Lemma reads_digits ds v : reads 10 ds v -> forallb digit ds = true.
Proof.
  induction 1 as [|ds v c x R IH D L]; [reflexivity|]. rewrite forallb_app, IH. cbn. rewrite andb_true_r. apply digit_is. unfold digit_value, is_digit in *. lia.
Qed.
Lemma hex_reads ds : forallb hex_digit ds = true -> reads 16 ds (read_base 16 ds).
Proof.
  induction ds as [|c ds IH] using rev_ind; [constructor|]. rewrite forallb_app. cbn. rewrite andb_true_r, andb_true_iff. intros [H1 H2].
  rewrite read_base_snoc. apply hex_value_is in H2. constructor; [auto|exact H2|]. unfold digit_value, is_digit in H2. lia.
Qed.
Lemma digits_reads ds : forallb digit ds = true -> reads 10 ds (read_base 10 ds).
Proof.
  induction ds as [|c ds IH] using rev_ind; [constructor|]. rewrite forallb_app. cbn. rewrite andb_true_r, andb_true_iff. intros [H1 H2].
  rewrite read_base_snoc. apply digit_is in H2. assert (D : digit_value c (hex_value c)). { apply hex_value_is. unfold hex_digit. apply digit_is in H2. rewrite H2. reflexivity. }
  constructor; [auto|exact D|]. unfold digit_value, is_digit in *. lia.
Qed.
Lemma reads_nonneg b ds v : 0 < b -> reads b ds v -> 0 <= v.
Proof. intros B. induction 1 as [|ds v c x R IH D L]; [lia|]. unfold digit_value, is_digit in *. nia. Qed.

(* ------------------------------------------------------------------ *)
(** * The rule *)

Inductive numeric : list Z -> Prop :=
| numeric_hex sg x ds : sign sg -> x = 120 \/ x = 88 -> ds <> [] -> forallb hex_digit ds = true -> numeric (sg ++ 48 :: x :: ds)
| numeric_decimal sg i dot f ex e : sign sg -> forallb digit f = true -> exponent ex e ->
    (dot = [46] /\ (whole_number i \/ i = [] /\ f <> [])) \/ (dot = [] /\ whole_number i /\ f = []) -> numeric (sg ++ i ++ dot ++ f ++ ex)
| numeric_word sg w : sign sg -> w = txt "Infinity" \/ w = txt "NaN" -> numeric (sg ++ w).

Lemma sign_opt sg c r : sign sg -> c <> 43 -> c <> 45 -> opt (one (fun c => (c =? 43) || (c =? 45))) (sg ++ c :: r) = Some (sg, c :: r).
Proof.
  intros [-> | [-> | ->]] N1 N2; cbn [app]; [|reflexivity|reflexivity]. apply opt_0, one_none. lia.
Qed.
Lemma opt_sign s a r : opt (one (fun c => (c =? 43) || (c =? 45))) s = Some (a, r) -> sign a /\ s = a ++ r.
Proof.
  intros H. apply opt_some in H as [H|(_ & -> & ->)]; [|split; [left|]; reflexivity]. apply one_some in H as (c & -> & -> & H).
  split; [|reflexivity]. apply orb_true_iff in H as [H|H]; apply Z.eqb_eq in H; subst; [right; left|right; right]; reflexivity.
Qed.

Lemma whole_some s a r : decimal_integer_literal s = Some (a, r) -> s = a ++ r /\ whole_number a.
Proof.
  intros H. apply alt_some in H as [H|[_ H]].
  - apply chr_some in H as [-> ->]. split; [reflexivity|left; reflexivity].
  - apply seq_some in H as (a1 & r1 & a2 & H1 & H2 & ->). apply one_some in H1 as (c & -> & -> & Hc). apply star_some in H2 as (-> & F & _).
    split; [reflexivity|]. right. exists c, a2. split; [reflexivity|]. unfold nonzero_digit in Hc. apply andb_true_iff in Hc as [H1 H2]. apply Z.leb_le in H1, H2.
    unfold is_digit. repeat split; try lia. apply digits_all; exact F.
Qed.
Lemma whole_ok ds r : whole_number ds -> stop digit r -> decimal_integer_literal (ds ++ r) = Some (ds, r).
Proof.
  intros [-> | (c & ds' & -> & D & N & F)] S; [reflexivity|]. cbn [app]. apply alt_2; [apply chr_none; exact N|].
  assert (Hc : nonzero_digit c = true) by (unfold nonzero_digit, is_digit in *; apply andb_true_iff; rewrite !Z.leb_le; lia).
  rewrite (seq_ok _ _ _ _ _ _ _ (one_cons nonzero_digit c (ds' ++ r) Hc) (star_ok digit ds' r (proj2 (digits_all ds') F) S)). reflexivity.
Qed.
Lemma whole_none c r : ~ is_digit c -> decimal_integer_literal (c :: r) = None.
Proof.
  intros H. apply alt_2; [apply chr_none; unfold is_digit in H; lia|]. apply seq_none1, one_none. unfold nonzero_digit, is_digit in *. lia.
Qed.
Lemma whole_nil : decimal_integer_literal [] = None.
Proof. reflexivity. Qed.
Lemma whole_cons ds : whole_number ds -> exists c r, ds = c :: r /\ is_digit c /\ Forall is_digit r /\ (c = 48 -> r = []).
Proof.
  intros [-> | (c & r & -> & D & N & F)]; [exists 48, []; unfold is_digit; repeat split; auto; lia|exists c, r; repeat split; auto; try (unfold is_digit in D; lia); congruence].
Qed.

Lemma exponent_some s a r : opt exponent_part s = Some (a, r) -> s = a ++ r /\ exists e, exponent a e.
Proof.
  intros H. apply opt_some in H as [H|(_ & -> & ->)]; [|split; [reflexivity|exists 0; left; auto]].
  unfold exponent_part in H. apply seq_some in H as (a1 & r1 & a2 & H1 & H2 & ->). apply one_some in H1 as (c & -> & -> & Hc).
  apply seq_some in H2 as (a3 & r3 & a4 & H3 & H4 & ->). apply opt_sign in H3 as [Sg ->]. apply plus_some in H4 as (-> & N & F & _).
  split; [cbn; rewrite <- app_assoc; reflexivity|]. eexists. right. exists c, a3, a4, (read_base 10 a4). split; [reflexivity|].
  split; [apply orb_true_iff in Hc as [Hc|Hc]; apply Z.eqb_eq in Hc; auto|]. split; [exact Sg|]. split; [exact N|]. split; [apply digits_reads; exact F|reflexivity].
Qed.
Lemma exponent_ok ex e r : exponent ex e -> stop digit r -> stop (fun c => (c =? 101) || (c =? 69)) r -> opt exponent_part (ex ++ r) = Some (ex, r).
Proof.
  intros [[-> ->] | (c & sg & ds & v & -> & Hc & Sg & N & R & ->)] S1 S2.
  - cbn [app]. apply opt_0. apply seq_none1, stop_one. exact S2.
  - apply opt_1. cbn [app]. rewrite <- app_assoc. unfold exponent_part.
    rewrite (seq_ok _ _ _ [c] (sg ++ ds ++ r) (sg ++ ds) r); [reflexivity|apply one_cons; lia|].
    destruct ds as [|d ds]; [congruence|]. pose proof (reads_digits _ _ R) as F.
    apply (seq_ok _ _ _ sg ((d :: ds) ++ r) (d :: ds) r); [|apply plus_ok; [discriminate|exact F|exact S1]].
    cbn [app]. cbn in F. apply andb_true_iff in F as [F _]. apply digit_is in F. unfold is_digit in F. apply sign_opt; [exact Sg| lia | lia].
Qed.

Lemma number_some s a r : number s = Some (a, r) -> s = a ++ r /\ numeric a.
Proof.
  intros H. apply seq_some in H as (sg & r1 & b & H1 & H2 & ->). apply opt_sign in H1 as [Sg ->]. rewrite <- app_assoc.
  apply alt_some in H2 as [H|[_ H]].
  - unfold hex_integer_literal in H. apply seq_some in H as (a1 & r2 & a2 & H1 & H2 & ->). apply chr_some in H1 as [-> ->].
    apply seq_some in H2 as (a3 & r3 & a4 & H3 & H4 & ->). apply one_some in H3 as (x & -> & -> & Hx). apply plus_some in H4 as (-> & N & F & _).
    split; [reflexivity|]. apply numeric_hex; auto. lia.
  - apply alt_some in H as [H|[_ H]].
    + unfold decimal_literal in H. apply alt_some in H as [H|[_ H]].
      * apply seq_some in H as (i & r2 & a2 & H1 & H2 & ->). apply whole_some in H1 as [-> W].
        apply seq_some in H2 as (a3 & r3 & a4 & H3 & H4 & ->). apply chr_some in H3 as [-> ->].
        apply seq_some in H4 as (f & r4 & ex & H5 & H6 & ->). apply star_some in H5 as (-> & F & _). apply exponent_some in H6 as [-> (e & Ex)].
        split; [rewrite <- !app_assoc; reflexivity|]. apply (numeric_decimal sg i [46] f ex e); auto.
      * apply alt_some in H as [H|[_ H]].
        -- apply seq_some in H as (a3 & r3 & a4 & H3 & H4 & ->). apply chr_some in H3 as [-> ->].
           apply seq_some in H4 as (f & r4 & ex & H5 & H6 & ->). apply plus_some in H5 as (-> & N & F & _). apply exponent_some in H6 as [-> (e & Ex)].
           split; [cbn; rewrite <- !app_assoc; reflexivity|]. apply (numeric_decimal sg [] [46] f ex e); auto.
        -- apply seq_some in H as (i & r2 & ex & H1 & H2 & ->). apply whole_some in H1 as [-> W]. apply exponent_some in H2 as [-> (e & Ex)].
           split; [rewrite <- !app_assoc; reflexivity|]. apply (numeric_decimal sg i [] [] ex e); auto.
    + apply alt_some in H as [H|[_ H]]; apply lit_some in H as [-> ->]; (split; [reflexivity|]); apply numeric_word; auto.
Qed.

Definition after_number (c : Z) : bool := hex_digit c || (c =? 46) || (c =? 120) || (c =? 88).
Lemma stop_sub f g r : (forall c, f c = true -> g c = true) -> stop g r -> stop f r.
Proof. intros S. destruct r as [|c r]; [auto|]. cbn. intros H. destruct (f c) eqn:E; [|reflexivity]. apply S in E. congruence. Qed.
Ltac stops S := apply (stop_sub _ after_number _); [intros ?c ?H; unfold after_number, hex_digit, digit in *; lia|exact S].

Lemma number_ok a r : numeric a -> stop after_number r -> number (a ++ r) = Some (a, r).
Proof.
  intros Na S. destruct Na as [sg x ds Sg Hx N F|sg i dot f ex e Sg F Ex D|sg w Sg W]; rewrite <- app_assoc; unfold number.
  - rewrite (seq_ok _ _ _ sg ((48 :: x :: ds) ++ r) (48 :: x :: ds) r); [reflexivity|apply sign_opt; [exact Sg| lia | lia]|]. apply alt_1. cbn [app].
    unfold hex_integer_literal. rewrite (seq_ok _ _ _ [48] (x :: ds ++ r) (x :: ds) r); [reflexivity|apply chr_cons|].
    rewrite (seq_ok _ _ _ [x] (ds ++ r) ds r); [reflexivity|apply one_cons; lia|apply plus_ok; [exact N|exact F|stops S]].
  - assert (Hex : stop digit (ex ++ r)).
    { destruct Ex as [[-> _] | (c & sg' & ds & v & -> & Hc & _)]; [cbn [app]; stops S|]. cbn. unfold digit. lia. }
    assert (Eok : opt exponent_part (ex ++ r) = Some (ex, r)) by (apply (exponent_ok ex e r Ex); stops S).
    assert (K : exists c t, (i ++ dot ++ f ++ ex) ++ r = c :: t /\ (is_digit c \/ c = 46)).
    { destruct D as [[-> [W|[-> N]]] | (-> & W & ->)]; [|exists 46, ((f ++ ex) ++ r); auto|];
        apply whole_cons in W as (c & i' & -> & Dc & _); cbn [app]; eexists _, _; (split; [reflexivity|auto]). }
    destruct K as (c & t & K & Hc).
    assert (Sok : opt (one (fun c => (c =? 43) || (c =? 45))) (sg ++ (i ++ dot ++ f ++ ex) ++ r) = Some (sg, (i ++ dot ++ f ++ ex) ++ r)).
    { rewrite K. apply sign_opt; [exact Sg| |]; unfold is_digit in Hc; lia. }
    rewrite (seq_ok _ _ _ sg ((i ++ dot ++ f ++ ex) ++ r) (i ++ dot ++ f ++ ex) r Sok); [reflexivity|]. clear Sok. apply alt_2.
    + (* not hexadecimal *)
      unfold hex_integer_literal. destruct D as [[-> [W|[-> N]]] | (-> & W & ->)].
      * apply whole_cons in W as (c0 & i' & -> & Dc & _ & Z0). cbn [app]. destruct (Z.eq_dec c0 48) as [-> | N0]; [|apply seq_none1, chr_none; exact N0].
        rewrite (Z0 eq_refl). cbn [app]. eapply seq_none2; [apply chr_cons|]. apply seq_none1, one_none. reflexivity.
      * cbn [app]. apply seq_none1, chr_none. lia.
      * apply whole_cons in W as (c0 & i' & -> & Dc & _ & Z0). cbn [app]. destruct (Z.eq_dec c0 48) as [-> | N0]; [|apply seq_none1, chr_none; exact N0].
        rewrite (Z0 eq_refl). cbn [app]. eapply seq_none2; [apply chr_cons|]. apply seq_none1. apply stop_one.
        destruct Ex as [[-> _] | (c1 & sg' & ds & v & -> & Hc1 & _)]; [cbn [app]; stops S|]. destruct Hc1 as [-> | ->]; reflexivity.
    + apply alt_1. unfold decimal_literal. rewrite <- !app_assoc. destruct D as [[-> [W|[-> N]]] | (-> & W & ->)].
      * apply alt_1. apply (seq_ok _ _ _ i ([46] ++ f ++ ex ++ r) ([46] ++ f ++ ex) r); [apply whole_ok; [exact W|reflexivity]|].
        apply (seq_ok _ _ _ [46] (f ++ ex ++ r) (f ++ ex) r); [apply chr_cons|]. apply (seq_ok _ _ _ f (ex ++ r) ex r); [apply star_ok; [exact F|exact Hex]|exact Eok].
      * apply alt_2; [cbn [app]; apply seq_none1, whole_none; unfold is_digit; lia|]. apply alt_1.
        apply (seq_ok _ _ _ [46] (f ++ ex ++ r) (f ++ ex) r); [apply chr_cons|]. apply (seq_ok _ _ _ f (ex ++ r) ex r); [apply plus_ok; [exact N|exact F|exact Hex]|exact Eok].
      * cbn [app]. apply alt_2.
        -- eapply seq_none2; [apply (whole_ok i (ex ++ r) W Hex)|]. apply seq_none1. apply stop_one.
           destruct Ex as [[-> _] | (c1 & sg' & ds & v & -> & Hc1 & _)]; [cbn [app]; stops S|]. destruct Hc1 as [-> | ->]; reflexivity.
        -- apply alt_2; [apply whole_cons in W as (c0 & i' & -> & Dc & _); cbn [app]; apply seq_none1, chr_none; unfold is_digit in Dc; lia|].
           apply (seq_ok _ _ _ i (ex ++ r) ex r); [apply whole_ok; [exact W|exact Hex]|exact Eok].
  - assert (K : exists c t, w ++ r = c :: t /\ (c = 73 \/ c = 78)) by (destruct W as [-> | ->]; cbn [app txt map]; eexists _, _; (split; [reflexivity|vm_compute; auto])).
    destruct K as (c & t & K & Hc). assert (Sok : opt (one (fun c => (c =? 43) || (c =? 45))) (sg ++ w ++ r) = Some (sg, w ++ r)).
    { rewrite K. apply sign_opt; [exact Sg| |]; lia. }
    rewrite (seq_ok _ _ _ sg (w ++ r) w r Sok); [reflexivity|]. apply alt_2; [rewrite K; apply seq_none1, chr_none; lia|].
    apply alt_2.
    + rewrite K. apply alt_2; [apply seq_none1, whole_none; unfold is_digit; lia|]. apply alt_2; [apply seq_none1, chr_none; lia|]. apply seq_none1, whole_none; unfold is_digit; lia.
    + destruct W as [-> | ->]; [apply alt_1, lit_ok|apply alt_2; [reflexivity|apply lit_ok]].
Qed.

(* ------------------------------------------------------------------ *)
(** * Values of numbers *)

Lemma stop_span f ds r : forallb f ds = true -> stop f r -> span_of f (ds ++ r) = (ds, r).
Proof.
  intros F S. induction ds as [|c ds IH]; cbn [app].
  - destruct r as [|c r]; [reflexivity|]. cbn in S |- *. rewrite S. reflexivity.
  - cbn in F. apply andb_true_iff in F as [Fc F]. cbn [span_of]. rewrite Fc, (IH F). reflexivity.
Qed.

Definition negative (sg : list Z) : bool := match sg with [45] => true | _ => false end.
Lemma sign_signed sg v : sign sg -> with_sign sg v = signed (negative sg) v.
Proof. intros [-> | [-> | ->]]; reflexivity. Qed.
Lemma sign_strip sg c r : sign sg -> c <> 45 -> c <> 43 ->
  match sg ++ c :: r with 45 :: r => (true, r) | 43 :: r => (false, r) | _ => (false, sg ++ c :: r) end = (negative sg, c :: r).
Proof.
  intros [-> | [-> | ->]] N1 N2; [|reflexivity|reflexivity]. cbn [app negative].
  destruct c as [|c|c]; try reflexivity. do 6 (destruct c as [c|c|]; try reflexivity); congruence.
Qed.

Lemma absent_digits x ds : ~ is_digit x -> forallb digit ds = true -> existsb (Z.eqb x) ds = false.
Proof.
  intros N F. apply not_true_is_false. intros H. apply existsb_exists in H as (y & I & E). apply Z.eqb_eq in E. subst y.
  rewrite forallb_forall in F. apply F, digit_is in I. exact (N I).
Qed.
Lemma absent_sign x sg : x <> 43 -> x <> 45 -> sign sg -> existsb (Z.eqb x) sg = false.
Proof. intros N1 N2 [-> | [-> | ->]]; [reflexivity| |]; cbn [existsb]; rewrite orb_false_r; apply Z.eqb_neq; assumption. Qed.
Lemma whole_digits i : whole_number i -> forallb digit i = true.
Proof. intros W. apply whole_cons in W as (c & r & -> & D & F & _). cbn. apply digit_is in D. rewrite D. apply digits_all; exact F. Qed.
Lemma not_hex_literal c d r : (c = 48 -> d <> 120 /\ d <> 88) -> is_hex_literal (c :: d :: r) = false.
Proof.
  intros H. unfold is_hex_literal. destruct (Z.eq_dec c 48) as [-> | N].
  - destruct r; [reflexivity|]. destruct (H eq_refl). lia.
  - destruct c as [|c|c]; try reflexivity. do 6 (destruct c as [c|c|]; try reflexivity). congruence.
Qed.
Lemma signed_not_hex sg w : sign sg -> (sg = [] -> is_hex_literal w = false) -> is_hex_literal (sg ++ w) = false.
Proof.
  intros [-> | [-> | ->]] H; [apply H; reflexivity| |]; cbn [app]; (destruct w as [|d w]; [reflexivity|apply not_hex_literal; discriminate]).
Qed.
Lemma whole_not_hex i w : whole_number i -> (match w with [] => True | c :: _ => c <> 120 /\ c <> 88 end) -> is_hex_literal (i ++ w) = false.
Proof.
  intros W H. apply whole_cons in W as (c & r & -> & D & F & Z0). cbn [app]. destruct (r ++ w) as [|d t] eqn:E; [unfold is_hex_literal; destruct c as [|c|c]; try reflexivity; do 6 (destruct c as [c|c|]; try reflexivity)|].
  apply not_hex_literal. intros C. rewrite (Z0 C) in E. cbn in E. subst w. exact H.
Qed.

(** integers *)
Lemma int_value a i : int_text a i -> numeric a /\ is_int a = true /\ parse_integer a = Ok i.
Proof.
  intros [sg ds v Sg W R Rg|x ds v Hx N R L].
  - pose proof (reads_base _ _ _ R) as Ev. pose proof (whole_digits ds W) as F. split; [|split].
    + replace (sg ++ ds) with (sg ++ ds ++ [] ++ [] ++ []) by (cbn; rewrite app_nil_r; reflexivity). apply (numeric_decimal sg ds [] [] [] 0); auto. left; auto.
    + unfold is_int. rewrite !existsb_app. rewrite !(absent_digits _ ds) by (try exact F; unfold is_digit; lia). rewrite !(absent_sign _ sg) by (try exact Sg; lia).
      cbn. apply orb_true_r.
    + unfold parse_integer. rewrite (signed_not_hex sg ds Sg) by (intros _; rewrite <- (app_nil_r ds); apply whole_not_hex; [exact W|exact Logic.I]).
      unfold parse_i64. apply whole_cons in W as (c & r & -> & D & Fr & _). rewrite sign_strip; [|exact Sg|unfold is_digit in D; lia|unfold is_digit in D; lia].
      cbn [is_nil negb andb]. rewrite F. rewrite <- Ev, <- (sign_signed sg v Sg). unfold i64_range in Rg.
      destruct (Z.leb_spec (- 2 ^ 63) (with_sign sg v)); [|lia]. destruct (Z.ltb_spec (with_sign sg v) (2 ^ 63)); [reflexivity|lia].
  - pose proof (reads_base _ _ _ R) as Ev. pose proof (reads_hex _ _ _ R) as F. assert (H : is_hex_literal (48 :: x :: ds) = true).
    { destruct ds as [|d ds]; [congruence|]. cbn. destruct Hx as [-> | ->]; reflexivity. }
    split; [apply (numeric_hex []); auto; left; reflexivity|]. split.
    + unfold is_int. rewrite H. cbn [orb]. rewrite andb_true_r. apply negb_true_iff. cbn [existsb]. destruct (Z.eqb_spec 46 48); [lia|]. destruct (Z.eqb_spec 46 x); [lia|]. cbn [orb].
      apply not_true_is_false. intros X. apply existsb_exists in X as (y & I & E). apply Z.eqb_eq in E. subst y. rewrite forallb_forall in F. apply F in I. discriminate I.
    + unfold parse_integer. rewrite H. cbn [skipn]. unfold parse_hex. rewrite <- Ev. destruct (Z.ltb_spec v (2 ^ 32)); [reflexivity|lia].
Qed.

(** the parts of a decimal number *)
Lemma exponent_head ex e : exponent ex e -> ex = [] \/ exists c t, ex = c :: t /\ (c = 101 \/ c = 69).
Proof. intros [[-> _] | (c & sg & ds & v & -> & Hc & _)]; [auto|right; eauto]. Qed.
Lemma exponent_unique ex e : exponent ex e -> (ex = [] /\ e = 0) \/ exists c r, ex = c :: r /\ (c =? 101) || (c =? 69) = true /\
  exists ds, ds <> [] /\ forallb digit ds = true /\ match r with 45 :: r => (true, r) | 43 :: r => (false, r) | _ => (false, r) end = (negative (firstn (length r - length ds) r), ds) /\
    e = signed (negative (firstn (length r - length ds) r)) (read_base 10 ds).
Proof.
  intros [[-> ->] | (c & sg & ds & v & -> & Hc & Sg & N & R & ->)]; [left; auto|]. right. exists c, (sg ++ ds). split; [reflexivity|]. split; [lia|].
  exists ds. split; [exact N|]. pose proof (reads_digits _ _ R) as F. split; [exact F|].
  assert (E : firstn (length (sg ++ ds) - length ds) (sg ++ ds) = sg).
  { rewrite app_length. replace (length sg + length ds - length ds)%nat with (length sg) by lia. rewrite firstn_app, Nat.sub_diag, firstn_all. cbn. apply app_nil_r. }
  rewrite E. split; [|rewrite <- (reads_base _ _ _ R); apply sign_signed; exact Sg].
  destruct ds as [|d ds]; [congruence|]. cbn in F. apply andb_true_iff in F as [F _]. apply digit_is in F. unfold is_digit in F. apply sign_strip; [exact Sg|lia|lia].
Qed.

Lemma parts_ok sg i dot f ex e : sign sg -> forallb digit f = true -> exponent ex e ->
  (dot = [46] /\ (whole_number i \/ i = [] /\ f <> [])) \/ (dot = [] /\ whole_number i /\ f = []) ->
  number_parts (sg ++ i ++ dot ++ f ++ ex) = Some (negative sg, i, f, e).
Proof.
  intros Sg F Ex D.
  assert (Fi : forallb digit i = true) by (destruct D as [[_ [W|[-> _]]] | (_ & W & _)]; [apply whole_digits; exact W|reflexivity|apply whole_digits; exact W]).
  assert (K : exists c t, i ++ dot ++ f ++ ex = c :: t /\ c <> 45 /\ c <> 43).
  { destruct D as [[-> [W|[-> N]]] | (-> & W & ->)]; [|exists 46, (f ++ ex); split; [reflexivity|lia]|];
      apply whole_cons in W as (c & r & -> & Dc & _); unfold is_digit in Dc; cbn [app]; eexists _, _; (split; [reflexivity|lia]). }
  destruct K as (c & t & K & N1 & N2). unfold number_parts. rewrite K, (sign_strip sg c t Sg N1 N2), <- K. clear c t K N1 N2.
  assert (Hex : stop digit ex) by (destruct (exponent_head ex e Ex) as [-> | (c & t & -> & [-> | ->])]; reflexivity).
  assert (Hf : span_of digit (f ++ ex) = (f, ex)) by (apply stop_span; assumption).
  assert (Hi : span_of digit (i ++ dot ++ f ++ ex) = (i, dot ++ f ++ ex)).
  { apply stop_span; [exact Fi|]. destruct D as [[-> _] | (-> & _ & ->)]; [reflexivity|exact Hex]. }
  rewrite Hi. clear Hi.
  assert (Hd : match dot ++ f ++ ex with 46 :: r => span_of digit r | _ => ([], dot ++ f ++ ex) end = (f, ex)).
  { destruct D as [[-> _] | (-> & _ & ->)]; [exact Hf|]. cbn [app]. destruct (exponent_head ex e Ex) as [-> | (c & t & -> & [-> | ->])]; reflexivity. }
  rewrite Hd. clear Hd.
  assert (Hn : is_nil i && is_nil f = false).
  { destruct D as [[-> [W|[-> N]]] | (-> & W & ->)]; [|destruct f; [congruence|reflexivity]|]; apply whole_cons in W as (c & r & -> & _); reflexivity. }
  rewrite Hn. destruct (exponent_unique ex e Ex) as [[-> ->] | (c & r & -> & Hc & ds & Nd & Fd & Hs & ->)]; [reflexivity|]. rewrite Hc.
  set (z := negative (firstn (length r - length ds) r)) in *. clearbody z.
  destruct (match r with 45 :: r0 => (true, r0) | 43 :: r0 => (false, r0) | _ => (false, r) end) as [en d0]. apply pair_equal_spec in Hs as [-> ->].
  rewrite Fd. destruct ds; [congruence|]. reflexivity.
Qed.

Lemma decimal_not_hex sg i dot f ex e : sign sg -> exponent ex e ->
  (dot = [46] /\ (whole_number i \/ i = [] /\ f <> [])) \/ (dot = [] /\ whole_number i /\ f = []) -> is_hex_literal (sg ++ i ++ dot ++ f ++ ex) = false.
Proof.
  intros Sg Ex D. apply signed_not_hex; [exact Sg|]. intros _. destruct D as [[-> [W|[-> N]]] | (-> & W & ->)].
  - apply whole_not_hex; [exact W|]. cbn. lia.
  - cbn [app]. destruct (f ++ ex); [reflexivity|]. apply not_hex_literal. lia.
  - apply whole_not_hex; [exact W|]. cbn [app]. destruct (exponent_head ex e Ex) as [-> | (c & t & -> & Hc)]; [exact Logic.I|]. lia.
Qed.
Lemma decimal_is_int sg i dot f ex e : sign sg -> forallb digit f = true -> exponent ex e ->
  (dot = [46] /\ (whole_number i \/ i = [] /\ f <> [])) \/ (dot = [] /\ whole_number i /\ f = []) ->
  is_int (sg ++ i ++ dot ++ f ++ ex) = is_nil dot && is_nil ex.
Proof.
  intros Sg F Ex D. unfold is_int. rewrite (decimal_not_hex sg i dot f ex e Sg Ex D). cbn [orb]. rewrite !existsb_app.
  assert (Fi : forallb digit i = true) by (destruct D as [[_ [W|[-> _]]] | (_ & W & _)]; [apply whole_digits; exact W|reflexivity|apply whole_digits; exact W]).
  rewrite !(absent_digits _ i), !(absent_digits _ f) by (try exact F; try exact Fi; unfold is_digit; lia). rewrite !(absent_sign _ sg) by (try exact Sg; lia). cbn [orb].
  destruct D as [[-> _] | (-> & _ & ->)]; [reflexivity|]. cbn [existsb orb is_nil andb].
  destruct (exponent_head ex e Ex) as [-> | (c & t & -> & Hc)]; [reflexivity|]. cbn [is_nil existsb]. destruct Hc as [-> | ->]; cbn [Z.eqb Pos.eqb orb negb andb];
    rewrite ?andb_false_r; reflexivity.
Qed.
Lemma decimal_words sg i dot f ex e : sign sg -> forallb digit f = true -> exponent ex e ->
  (dot = [46] /\ (whole_number i \/ i = [] /\ f <> [])) \/ (dot = [] /\ whole_number i /\ f = []) ->
  parse_number (sg ++ i ++ dot ++ f ++ ex) = parse_f64 (sg ++ i ++ dot ++ f ++ ex).
Proof.
  intros Sg F Ex D. unfold parse_number. rewrite (decimal_not_hex sg i dot f ex e Sg Ex D).
  assert (K : exists c t, i ++ dot ++ f ++ ex = c :: t /\ c <> 73 /\ c <> 78 /\ c <> 45).
  { destruct D as [[-> [W|[-> N]]] | (-> & W & ->)]; [|exists 46, (f ++ ex); split; [reflexivity|lia]|];
      apply whole_cons in W as (c & r & -> & Dc & _); unfold is_digit in Dc; cbn [app]; eexists _, _; (split; [reflexivity|lia]). }
  destruct K as (c & t & K & N1 & N2 & N3). rewrite K.
  assert (Q : forall w, In w [txt "Infinity"; txt "-Infinity"; txt "NaN"; txt "-NaN"] -> eqb_bytes (sg ++ c :: t) w = false).
  { intros w I. apply not_true_is_false. intros E. apply eqb_bytes_eq in E. assert (H : c = 73 \/ c = 78 \/ c = 45).
    { destruct I as [<- | [<- | [<- | [<- | []]]]]; destruct Sg as [-> | [-> | ->]]; cbn in E; try discriminate; injection E as -> _; auto. }
    lia. }
  rewrite !Q by (cbn; auto). reflexivity.
Qed.

(** [parse_f64] of the parts *)
Lemma f64_value sg i dot f ex e m x : sign sg -> forallb digit f = true -> exponent ex e ->
  (dot = [46] /\ (whole_number i \/ i = [] /\ f <> [])) \/ (dot = [] /\ whole_number i /\ f = []) ->
  reads 10 (i ++ f) m -> x = e - zlen f ->
  forall bits, parse_f64 (sg ++ i ++ dot ++ f ++ ex) = Ok bits <-> nearest_double (negative sg) (m * 10 ^ Z.max 0 x * 2 ^ 1074) (10 ^ Z.max 0 (- x)) bits.
Proof.
  intros Sg F Ex D R -> bits. unfold parse_f64. rewrite (parts_ok sg i dot f ex e Sg F Ex D). rewrite <- (reads_base _ _ _ R). change unit_exp with 1074.
  pose proof (reads_nonneg 10 _ _ ltac:(lia) R) as M. set (n := m * 10 ^ Z.max 0 (e - zlen f) * 2 ^ 1074). set (d := 10 ^ Z.max 0 (- (e - zlen f))).
  assert (Hn : 0 <= n). { unfold n. apply Z.mul_nonneg_nonneg; [apply Z.mul_nonneg_nonneg; [exact M|apply Z.pow_nonneg; lia]|apply Z.pow_nonneg; lia]. }
  assert (Hd : 0 < d) by (unfold d; apply Z.pow_pos_nonneg; lia). clearbody n d. split.
  - destruct (nearest n d) as [y|] eqn:E; [|discriminate]. intros H. apply Ok_inj in H. subst bits. apply (nearest_some n d Hn Hd). exact E.
  - intros H. destruct (nearest_unique n d Hn Hd (negative sg) bits H) as (y & -> & ->). reflexivity.
Qed.

Lemma double_value a bits : double_text a bits -> numeric a /\ is_int a = false /\ parse_number a = Ok bits.
Proof.
  intros [sg i dot f ex e m x b Sg F Ex D R Ex' N]. apply digits_all in F.
  assert (D' : (dot = [46] /\ (whole_number i \/ i = [] /\ f <> [])) \/ (dot = [] /\ whole_number i /\ f = [])) by (destruct D as [D|(A & B & C & _)]; auto).
  split; [eapply numeric_decimal; eassumption|]. split.
  - rewrite (decimal_is_int sg i dot f ex e Sg F Ex D'). destruct D as [[-> _] | (-> & _ & _ & Hx)]; [reflexivity|]. destruct ex; [congruence|reflexivity].
  - rewrite (decimal_words sg i dot f ex e Sg F Ex D'). apply (f64_value sg i dot f ex e m x Sg F Ex D' R Ex'). exact N.
Qed.

Lemma word_fails sg w : sign sg -> w = txt "Infinity" \/ w = txt "NaN" -> is_int (sg ++ w) = true /\ parse_integer (sg ++ w) = Err.
Proof. intros [-> | [-> | ->]] [-> | ->]; split; reflexivity. Qed.
Lemma signed_hex_fails sg x ds : sign sg -> sg <> [] -> x = 120 \/ x = 88 -> parse_integer (sg ++ 48 :: x :: ds) = Err /\ parse_number (sg ++ 48 :: x :: ds) = Err.
Proof.
  intros Sg N Hx. assert (H : is_hex_literal (sg ++ 48 :: x :: ds) = false) by (apply signed_not_hex; [exact Sg|congruence]).
  unfold parse_integer, parse_number. rewrite H. split.
  - unfold parse_i64. rewrite sign_strip by (try exact Sg; lia). cbn [is_nil negb andb forallb]. destruct Hx as [-> | ->]; reflexivity.
  - assert (Q : forall w, In w [txt "Infinity"; txt "-Infinity"; txt "NaN"; txt "-NaN"] -> eqb_bytes (sg ++ 48 :: x :: ds) w = false).
    { intros w I. apply not_true_is_false. intros E. apply eqb_bytes_eq in E. destruct I as [<- | [<- | [<- | [<- | []]]]]; destruct Sg as [-> | [-> | ->]]; discriminate. }
    rewrite !Q by (cbn; auto). cbn [orb]. unfold parse_f64, number_parts. rewrite sign_strip by (try exact Sg; lia).
    cbn [span_of]. change (digit 48) with true. destruct Hx as [-> | ->]; reflexivity.
Qed.

Definition number_res (a : list Z) : res jval := if is_int a then i <- parse_integer a ; Ok (JInt i) else d <- parse_number a ; Ok (JDouble d).
Lemma numeric_value a : numeric a -> number_res a <> Panic /\
  forall v, number_res a = Ok v -> (exists i, int_text a i /\ v = JInt i) \/ (exists bits, double_text a bits /\ v = JDouble bits).
Proof.
  intros [sg x ds Sg Hx N F|sg i dot f ex e Sg F Ex D|sg w Sg W]; unfold number_res.
  - destruct sg as [|c sg].
    + cbn [app]. pose proof (hex_reads ds F) as R. set (v := read_base 16 ds) in *. assert (P : parse_integer (48 :: x :: ds) = if v <? 2 ^ 32 then Ok v else Err).
      { unfold parse_integer. destruct ds as [|d ds]; [congruence|]. replace (is_hex_literal (48 :: x :: d :: ds)) with true by (cbn; destruct Hx as [-> | ->]; reflexivity). reflexivity. }
      assert (I : is_int (48 :: x :: ds) = true).
      { unfold is_int. destruct ds as [|d ds]; [congruence|]. replace (is_hex_literal (48 :: x :: d :: ds)) with true by (cbn; destruct Hx as [-> | ->]; reflexivity). cbn [orb]. rewrite andb_true_r.
        apply negb_true_iff. cbn [existsb]. destruct (Z.eqb_spec 46 48); [lia|]. destruct (Z.eqb_spec 46 x); [lia|]. cbn [orb].
        change (existsb (Z.eqb 46) (d :: ds) = false). apply not_true_is_false. intros X. apply existsb_exists in X as (y & I & E). apply Z.eqb_eq in E. subst y. rewrite forallb_forall in F. apply F in I. discriminate I. }
      rewrite I, P. destruct (Z.ltb_spec v (2 ^ 32)) as [L|L]; cbn [bind]; (split; [discriminate|]); intros u E; [|discriminate]. apply Ok_inj in E. subst u.
      left. exists v. split; [|reflexivity]. apply int_hex; auto.
    + destruct (signed_hex_fails (c :: sg) x ds Sg ltac:(discriminate) Hx) as [E1 E2]. rewrite E1, E2. destruct (is_int _); (split; [discriminate|]); intros u E; discriminate.
  - rewrite (decimal_is_int sg i dot f ex e Sg F Ex D). destruct (is_nil dot && is_nil ex) eqn:E.
    + apply andb_true_iff in E as [E1 E2]. destruct dot; [|discriminate]. destruct ex; [|discriminate]. destruct D as [[D _]|(_ & W & ->)]; [discriminate|].
      cbn [app]. rewrite app_nil_r. pose proof (whole_digits i W) as Fi. pose proof (digits_reads i Fi) as R. set (v := read_base 10 i) in *.
      assert (P : parse_integer (sg ++ i) = if (- 2 ^ 63 <=? with_sign sg v) && (with_sign sg v <? 2 ^ 63) then Ok (with_sign sg v) else Err).
      { unfold parse_integer. rewrite (signed_not_hex sg i Sg) by (intros _; rewrite <- (app_nil_r i); apply whole_not_hex; [exact W|exact Logic.I]).
        unfold parse_i64. rewrite (sign_signed sg v Sg). apply whole_cons in W as (c & r & -> & Dc & Fr & _). rewrite sign_strip; [|exact Sg|unfold is_digit in Dc; lia|unfold is_digit in Dc; lia].
        cbn [is_nil negb andb]. rewrite Fi. reflexivity. }
      rewrite P. destruct ((- 2 ^ 63 <=? with_sign sg v) && (with_sign sg v <? 2 ^ 63)) eqn:G; cbn [bind]; (split; [discriminate|]); intros u E; [|discriminate]. apply Ok_inj in E. subst u.
      left. exists (with_sign sg v). split; [|reflexivity]. apply int_decimal; auto. unfold i64_range. apply andb_true_iff in G as [G1 G2]. apply Z.leb_le in G1. apply Z.ltb_lt in G2. lia.
    + rewrite (decimal_words sg i dot f ex e Sg F Ex D).
      assert (Fi : forallb digit i = true) by (destruct D as [[_ [W|[-> _]]] | (_ & W & _)]; [apply whole_digits; exact W|reflexivity|apply whole_digits; exact W]).
      assert (R : reads 10 (i ++ f) (read_base 10 (i ++ f))) by (apply digits_reads; rewrite forallb_app, Fi, F; reflexivity).
      pose proof (f64_value sg i dot f ex e _ _ Sg F Ex D R eq_refl) as V.
      assert (NP : parse_f64 (sg ++ i ++ dot ++ f ++ ex) <> Panic). { unfold parse_f64. destruct (number_parts _) as [[[[? ?] ?] ?]|]; [|discriminate]. destruct (nearest _ _); discriminate. }
      destruct (parse_f64 (sg ++ i ++ dot ++ f ++ ex)) as [b| |]; cbn [bind]; [|split; [discriminate|intros u H; discriminate]|congruence].
      split; [discriminate|]. intros u H. apply Ok_inj in H. subst u. right. exists b. split; [|reflexivity].
      apply (double_is sg i dot f ex e (read_base 10 (i ++ f)) (e - zlen f)); auto; [apply digits_all; exact F| |apply V; reflexivity].
      destruct D as [D|(A & B & C)]; [left; exact D|right]. repeat split; auto. intros X. subst dot ex. discriminate E.
  - destruct (word_fails sg w Sg W) as [-> ->]. split; [discriminate|]. intros u H. discriminate.
Qed.
