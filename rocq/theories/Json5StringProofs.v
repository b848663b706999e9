(** Proofs about strings and keys (C50). *)
From Coq Require Import String.
From Verif Require Import Base FloatModel CompactionModel StringCompactionModel StringCompactionProofs ArchiveModel DocModel JsonModel Json5Model Json5Spec Json5Proofs Json5FloatProofs Json5NumberProofs.

(* ------------------------------------------------------------------ *)
(** * Parts of strings *)

Inductive tok (q : Z) : list Z -> list component -> Prop :=
| tok_char c : c <> q -> char_literal c = true -> tok q [c] [CLiteral [c]]
| tok_escape c : single_escape_char c || non_escape_char c = true -> tok q [92; c] [CEscape [c]]
| tok_nul : tok q [92; 48] [CNul [48]]
| tok_hex a b : hex_digit a = true -> hex_digit b = true -> tok q [92; 120; a; b] [CHex [a; b]]
| tok_unicode a b c d : hex_digit a = true -> hex_digit b = true -> hex_digit c = true -> hex_digit d = true ->
    tok q [92; 117; a; b; c; d] [CHex [a; b; c; d]]
| tok_line c : line_terminator c = true -> tok q [92; c] []
| tok_crlf : tok q [92; 13; 10] [].

Lemma token_some f p s l r : token f p s = Some (l, r) -> exists a, p s = Some (a, r) /\ l = [f a].
Proof. unfold token. destruct (p s) as [[a r0]|]; [|discriminate]. intros H. injection H as <- <-. eauto. Qed.
Lemma after_some A p (g : list Z -> option (A * list Z)) s x : after p g s = Some x -> exists a r, p s = Some (a, r) /\ g r = Some x.
Proof. unfold after. destruct (p s) as [[a r0]|]; [|discriminate]. eauto. Qed.
Lemma either_some A (p g : list Z -> option (A * list Z)) s x : either p g s = Some x -> p s = Some x \/ (p s = None /\ g s = Some x).
Proof. unfold either. destruct (p s); auto. Qed.
Lemma silent_some p s l r : silent p s = Some (l, r) -> exists a, p s = Some (a, r) /\ l = [].
Proof. unfold silent. destruct (p s) as [[a r0]|]; [|discriminate]. intros H. injection H as <- <-. eauto. Qed.

Definition no_lf (t r : list Z) : Prop := t = [92; 13] -> match r with 10 :: _ => False | _ => True end.

Lemma quote_char_some q s l r : quote_char q s = Some (l, r) -> exists t, s = t ++ r /\ tok q t l /\ no_lf t r.
Proof.
  intros H. apply either_some in H as [H|[_ H]].
  - apply after_some in H as (a & r0 & H0 & H). apply chr_some in H0 as [-> ->].
    apply either_some in H as [H|[_ H]]; [|apply either_some in H as [H|[_ H]]; [|apply either_some in H as [H|[_ H]]]].
    + apply token_some in H as (a & H & ->). assert (K : exists c, a = [c] /\ r0 = c :: r /\ single_escape_char c || non_escape_char c = true).
      { apply alt_some in H as [H|[_ H]]; apply one_some in H as (c & -> & -> & Hc); exists c; rewrite Hc; repeat split; auto. apply orb_true_r. }
      destruct K as (c & -> & -> & Hc). exists [92; c]. split; [reflexivity|]. split; [apply tok_escape; exact Hc|]. intros E. injection E as ->. discriminate Hc.
    + apply token_some in H as (a & H & ->). apply chr_some in H as [-> ->]. exists [92; 48]. split; [reflexivity|]. split; [apply tok_nul|intros E; discriminate].
    + apply after_some in H as (a & r1 & H0 & H). apply chr_some in H0 as [-> ->]. apply token_some in H as (a & H & ->).
      apply seq_some in H as (a1 & r2 & a2 & H1 & H2 & ->). apply one_some in H1 as (c1 & -> & -> & F1). apply one_some in H2 as (c2 & -> & -> & F2).
      exists [92; 120; c1; c2]. split; [reflexivity|]. split; [apply tok_hex; assumption|intros E; discriminate].
    + apply after_some in H as (a & r1 & H0 & H). apply chr_some in H0 as [-> ->]. apply token_some in H as (a & H & ->).
      apply seq_some in H as (a1 & r2 & a2 & H1 & H2 & ->). apply one_some in H1 as (c1 & -> & -> & F1).
      apply seq_some in H2 as (a1 & r3 & a3 & H1 & H2 & ->). apply one_some in H1 as (c2 & -> & -> & F2).
      apply seq_some in H2 as (a1 & r4 & a4 & H1 & H2 & ->). apply one_some in H1 as (c3 & -> & -> & F3). apply one_some in H2 as (c4 & -> & -> & F4).
      exists [92; 117; c1; c2; c3; c4]. split; [reflexivity|]. split; [apply tok_unicode; assumption|intros E; discriminate].
  - apply either_some in H as [H|[_ H]].
    + apply silent_some in H as (a & H & ->). apply seq_some in H as (a1 & r1 & a2 & H1 & H2 & ->). apply chr_some in H1 as [-> ->]. apply alt_some in H2 as [H2|[N H2]].
      * apply seq_some in H2 as (a1 & r2 & a3 & H1 & H2 & ->). apply chr_some in H1 as [-> ->]. apply chr_some in H2 as [-> ->].
        exists [92; 13; 10]. split; [reflexivity|]. split; [apply tok_crlf|intros E; discriminate].
      * apply one_some in H2 as (c & -> & -> & Hc). exists [92; c]. split; [reflexivity|]. split; [apply tok_line; exact Hc|]. intros E. injection E as ->.
        destruct r as [|d r]; [exact Logic.I|]. destruct (Z.eq_dec d 10) as [-> | Nd]; [discriminate N|]. destruct d as [|d|d]; try exact Logic.I. do 4 (destruct d as [d|d|]; try exact Logic.I). congruence.
    + apply token_some in H as (a & H & ->). apply one_some in H as (c & -> & -> & Hc). apply andb_true_iff in Hc as [H1 H2]. exists [c]. split; [reflexivity|]. split; [|intros E; discriminate].
      apply tok_char; [|exact H2]. intros ->. rewrite Z.eqb_refl in H1. discriminate.
Qed.

Lemma either_1 A (p g : list Z -> option (A * list Z)) s x : p s = Some x -> either p g s = Some x.
Proof. intros H. unfold either. rewrite H. reflexivity. Qed.
Lemma either_2 A (p g : list Z -> option (A * list Z)) s x : p s = None -> g s = x -> either p g s = x.
Proof. intros H E. unfold either. rewrite H. exact E. Qed.
Lemma after_chr A x (g : list Z -> option (A * list Z)) r : after (chr x) g (x :: r) = g r.
Proof. unfold after. rewrite chr_cons. reflexivity. Qed.
Lemma after_chr_none A x (g : list Z -> option (A * list Z)) c r : c <> x -> after (chr x) g (c :: r) = None.
Proof. intros H. unfold after. rewrite chr_none by exact H. reflexivity. Qed.

Lemma escape_simple c r : single_escape_char c || non_escape_char c = true -> escape_sequence (c :: r) = Some ([CEscape [c]], r).
Proof.
  intros H. apply either_1. unfold token, alt, one. destruct (single_escape_char c); [reflexivity|]. cbn in H. rewrite H. reflexivity.
Qed.
Lemma escape_skip c r : single_escape_char c = false -> non_escape_char c = false ->
  escape_sequence (c :: r) = either (token CNul (chr 48))
    (either (after (chr 120) (token CHex (seq (one hex_digit) (one hex_digit))))
            (after (chr 117) (token CHex (seq (one hex_digit) (seq (one hex_digit) (seq (one hex_digit) (one hex_digit))))))) (c :: r).
Proof. intros H1 H2. apply either_2; [|reflexivity]. unfold token, alt, one. rewrite H1, H2. reflexivity. Qed.
Lemma escape_line c r : line_terminator c = true -> escape_sequence (c :: r) = None.
Proof.
  intros H. apply terminator_in in H. cbn in H. destruct H as [<- | [<- | [<- | [<- | []]]]]; reflexivity.
Qed.

Lemma quote_char_ok q t l r : q <> 92 -> tok q t l -> no_lf t r -> quote_char q (t ++ r) = Some (l, r).
Proof.
  intros Hq [c N C|c E| |a b Fa Fb|a b c d Fa Fb Fc Fd|c L| ] NL; cbn [app]; unfold quote_char.
  - assert (C9 : c <> 92) by (intros ->; discriminate C). apply either_2; [apply after_chr_none; exact C9|]. apply either_2.
    + unfold silent, line_continuation. rewrite seq_none1 by (apply chr_none; exact C9). reflexivity.
    + unfold token, one. destruct (Z.eqb_spec q c); [congruence|]. rewrite C. reflexivity.
  - apply either_1. rewrite after_chr. apply escape_simple. exact E.
  - apply either_1. rewrite after_chr. reflexivity.
  - apply either_1. rewrite after_chr, escape_skip by reflexivity. apply either_2; [reflexivity|]. apply either_1. rewrite after_chr. unfold token.
    rewrite (seq_ok _ _ _ _ _ _ _ (one_cons _ a (b :: r) Fa) (one_cons _ b r Fb)). reflexivity.
  - apply either_1. rewrite after_chr, escape_skip by reflexivity. apply either_2; [reflexivity|]. apply either_2; [apply after_chr_none; discriminate|]. rewrite after_chr. unfold token.
    rewrite (seq_ok _ _ _ _ _ _ _ (one_cons _ a (b :: c :: d :: r) Fa) (seq_ok _ _ _ _ _ _ _ (one_cons _ b (c :: d :: r) Fb) (seq_ok _ _ _ _ _ _ _ (one_cons _ c (d :: r) Fc) (one_cons _ d r Fd)))). reflexivity.
  - apply either_2; [rewrite after_chr; apply escape_line; exact L|]. apply either_1. unfold silent, line_continuation.
    assert (K : alt (seq (chr 13) (chr 10)) (one line_terminator) (c :: r) = Some ([c], r)).
    { apply alt_2; [|apply one_cons; exact L]. destruct (Z.eq_dec c 13) as [-> | N]; [|apply seq_none1, chr_none; exact N].
      apply seq_none2 with (a1 := [13]) (r1 := r); [apply chr_cons|]. specialize (NL eq_refl). destruct r as [|d r]; [reflexivity|]. apply chr_none. intros ->. exact NL. }
    rewrite (seq_ok _ _ _ _ _ _ _ (chr_cons 92 (c :: r)) K). reflexivity.
  - apply either_2; [reflexivity|]. apply either_1. reflexivity.
Qed.
Lemma quote_char_stop q r : q = 34 \/ q = 39 -> quote_char q (q :: r) = None.
Proof. intros [-> | ->]; reflexivity. Qed.
Lemma tok_nonempty q t l : tok q t l -> t <> [].
Proof. intros [| | | | | | ]; discriminate. Qed.
Lemma quote_progress q : progress (quote_char q).
Proof.
  intros s l r H. apply quote_char_some in H as (t & -> & T & _). apply tok_nonempty in T. rewrite app_length. destruct t; [congruence|cbn; lia].
Qed.

Inductive toks (q : Z) : list Z -> list component -> Prop :=
| toks_none : toks q [] []
| toks_more t l t' l' : tok q t l -> toks q t' l' -> toks q (t ++ t') (l ++ l').

Lemma runs_toks q s ls r : runs (quote_char q) s ls r -> exists body, s = body ++ r /\ toks q body (concat ls).
Proof.
  induction 1 as [s _|s a r l r' E R (b & -> & T)]; [exists []; split; [reflexivity|apply toks_none]|].
  apply quote_char_some in E as (t & -> & T0 & _). exists (t ++ b). rewrite app_assoc. split; [reflexivity|]. cbn. apply toks_more; assumption.
Qed.
Lemma toks_head q body l x : q <> 10 -> toks q body l -> match body ++ q :: x with 10 :: _ => False | _ => True end.
Proof.
  intros Q T. destruct T as [|t l t' l' T _]; cbn [app].
  - destruct q as [|q|q]; try exact Logic.I. do 4 (destruct q as [q|q|]; try exact Logic.I). congruence.
  - destruct T as [c N C|c E| |a b Fa Fb|a b c d Fa Fb Fc Fd|c L| ]; cbn [app]; try exact Logic.I.
    destruct (Z.eq_dec c 10) as [-> | Nc]; [discriminate C|]. destruct c as [|c|c]; try exact Logic.I. do 4 (destruct c as [c|c|]; try exact Logic.I). congruence.
Qed.
Lemma toks_runs q body l r : q = 34 \/ q = 39 -> toks q body l -> exists ls, runs (quote_char q) (body ++ q :: r) ls (q :: r) /\ concat ls = l.
Proof.
  intros Q. induction 1 as [|t l t' l' T T' (ls & R & E)].
  - exists []. split; [apply runs_stop, quote_char_stop; exact Q|reflexivity].
  - exists (l :: ls). split; [|cbn; rewrite E; reflexivity]. rewrite <- app_assoc. eapply runs_step; [|exact R]. apply quote_char_ok; [lia|exact T|].
    intros _. eapply toks_head; [lia|exact T'].
Qed.

Lemma quoted_some q s l r : quoted q s = Some (l, r) -> exists body, s = ([q] ++ body ++ [q]) ++ r /\ toks q body l.
Proof.
  unfold quoted. destruct (chr q s) as [[a r0]|] eqn:E; [|discriminate]. apply chr_some in E as [-> ->]. destruct (many (quote_char q) r0) as [ls r1] eqn:M.
  destruct (chr q r1) as [[a r2]|] eqn:E; [|discriminate]. apply chr_some in E as [-> ->]. intros H. injection H as <- <-.
  apply (many_runs _ _ _ _ _ (quote_progress q)), runs_toks in M as (body & -> & T). exists body. split; [|exact T]. cbn. rewrite <- app_assoc. reflexivity.
Qed.
Lemma quoted_ok q body l r : q = 34 \/ q = 39 -> toks q body l -> quoted q (([q] ++ body ++ [q]) ++ r) = Some (l, r).
Proof.
  intros Q T. unfold quoted. cbn [app]. rewrite chr_cons. rewrite <- app_assoc. cbn [app]. destruct (toks_runs q body l r Q T) as (ls & R & <-).
  apply (many_runs _ _ _ _ _ (quote_progress q)) in R. rewrite R, chr_cons. reflexivity.
Qed.

Lemma firstn_before (a r : list Z) : firstn (length (a ++ r) - length r) (a ++ r) = a.
Proof. rewrite app_length. replace (length a + length r - length r)%nat with (length a) by lia. rewrite firstn_app, Nat.sub_diag, firstn_all. cbn. apply app_nil_r. Qed.

Lemma string_some s a l r : string_rule s = Some ((a, l), r) -> s = a ++ r /\ exists q body, (q = 34 \/ q = 39) /\ a = [q] ++ body ++ [q] /\ toks q body l.
Proof.
  unfold string_rule. destruct (either (quoted 34) (quoted 39) s) as [[l0 r0]|] eqn:E; [|discriminate].
  assert (K : exists q body, (q = 34 \/ q = 39) /\ s = ([q] ++ body ++ [q]) ++ r0 /\ toks q body l0).
  { apply either_some in E as [E|[_ E]]; apply quoted_some in E as (body & -> & T); [exists 34, body|exists 39, body]; auto. }
  destruct K as (q & body & Q & -> & T). rewrite firstn_before. intros H. injection H as <- <- <-. split; [reflexivity|]. exists q, body. auto.
Qed.
Lemma string_ok q body l r : q = 34 \/ q = 39 -> toks q body l -> string_rule (([q] ++ body ++ [q]) ++ r) = Some (([q] ++ body ++ [q], l), r).
Proof.
  intros Q T. unfold string_rule. assert (K : either (quoted 34) (quoted 39) (([q] ++ body ++ [q]) ++ r) = Some (l, r)).
  { destruct Q as [-> | ->]; [apply either_1, quoted_ok; auto|]. apply either_2; [reflexivity|]. apply quoted_ok; auto. }
  rewrite K, firstn_before. reflexivity.
Qed.
Lemma string_none c r : c <> 34 -> c <> 39 -> string_rule (c :: r) = None.
Proof. intros H1 H2. unfold string_rule, either, quoted. rewrite !chr_none by congruence. reflexivity. Qed.

(* ------------------------------------------------------------------ *)
(** * What they stand for *)

Lemma reads2 a b : hex_digit a = true -> hex_digit b = true -> reads 16 [a; b] (read_base 16 [a; b]).
Proof. intros Ha Hb. apply hex_reads. cbn. rewrite Ha, Hb. reflexivity. Qed.
Lemma reads4 a b c d : hex_digit a = true -> hex_digit b = true -> hex_digit c = true -> hex_digit d = true -> reads 16 [a; b; c; d] (read_base 16 [a; b; c; d]).
Proof. intros Ha Hb Hc Hd. apply hex_reads. cbn. rewrite Ha, Hb, Hc, Hd. reflexivity. Qed.
Lemma hex_value_range c : hex_digit c = true -> 0 <= hex_value c <= 15.
Proof. intros H. apply hex_value_is in H. unfold digit_value, is_digit in H. lia. Qed.

Lemma terminator_out c : line_terminator c = false <-> ~ In c line_ends.
Proof. rewrite <- terminator_in. destruct (line_terminator c); intuition congruence. Qed.
Lemma literal_is c : char_literal c = true <-> c <> 92 /\ ~ In c line_ends.
Proof. unfold char_literal. rewrite negb_true_iff, orb_false_iff, Z.eqb_neq, terminator_out. reflexivity. Qed.
Lemma escape_is c : single_escape_char c || non_escape_char c = true <-> (c <> 120 /\ c <> 117 /\ ~ is_digit c /\ ~ In c line_ends).
Proof.
  unfold non_escape_char, escape_char. rewrite <- digit_is. pose proof (terminator_in c) as T. destruct (line_terminator c) eqn:L.
  - assert (I : In c line_ends) by (apply T; reflexivity). assert (S : single_escape_char c = false).
    { cbn in I. destruct I as [<- | [<- | [<- | [<- | []]]]]; reflexivity. }
    rewrite S, orb_true_r. cbn. split; [discriminate|tauto].
  - assert (I : ~ In c line_ends) by (intros I; apply T in I; discriminate). clear T.
    destruct (digit c) eqn:D.
    + apply digit_is in D. unfold is_digit in D. assert (S : single_escape_char c = false) by (unfold single_escape_char; repeat (rewrite (proj2 (Z.eqb_neq c _)) by lia); reflexivity).
      rewrite S. cbn. split; [discriminate|]. intros (_ & _ & N & _). destruct N. reflexivity.
    + destruct (Z.eq_dec c 120) as [-> | N1]; [cbn; split; [discriminate|lia]|]. destruct (Z.eq_dec c 117) as [-> | N2]; [cbn; split; [discriminate|lia]|].
      rewrite (proj2 (Z.eqb_neq c 120) N1), (proj2 (Z.eqb_neq c 117) N2). destruct (single_escape_char c); cbn; (split; [intros _|reflexivity]; repeat split; auto; discriminate).
Qed.
Lemma escapes_is c c' : escapes c c' <-> (single_escape_char c || non_escape_char c = true /\ parse_char_escape_sequence [c] = [c']).
Proof.
  rewrite escape_is. unfold escapes. split.
  - intros [[-> ->] | [[-> ->] | [[-> ->] | [[-> ->] | [[-> ->] | [[-> ->] | (N & D & L & ->)]]]]]];
      try (split; [|reflexivity]; repeat split; try lia; [unfold is_digit; lia|cbn; lia]).
    split; [repeat split; auto; intros ->; apply N; cbn; tauto|]. unfold parse_char_escape_sequence.
    destruct c as [|c|c]; try reflexivity. do 7 (destruct c as [c|c|]; try reflexivity); exfalso; apply N; cbn; tauto.
  - intros ((N1 & N2 & D & L) & E).
    destruct (Z.eq_dec c 98) as [-> | M1]; [injection E as <-; auto|]. destruct (Z.eq_dec c 102) as [-> | M2]; [injection E as <-; auto|].
    destruct (Z.eq_dec c 110) as [-> | M3]; [injection E as <-; auto|]. destruct (Z.eq_dec c 114) as [-> | M4]; [injection E as <-; auto 8|].
    destruct (Z.eq_dec c 116) as [-> | M5]; [injection E as <-; auto 8|]. destruct (Z.eq_dec c 118) as [-> | M6]; [injection E as <-; auto 10|].
    do 6 right. assert (NI : ~ In c [98; 102; 110; 114; 116; 118; 120; 117]) by (cbn; intuition). split; [exact NI|]. repeat split; auto.
    revert E. unfold parse_char_escape_sequence. destruct c as [|c|c]; try (intros E; injection E as <-; reflexivity).
    do 7 (destruct c as [c|c|]; try (intros E; injection E as <-; reflexivity)); exfalso; apply NI; cbn; tauto.
Qed.
Lemma escape_one c : exists c', parse_char_escape_sequence [c] = [c'].
Proof. unfold parse_char_escape_sequence. destruct c as [|c|c]; try (eexists; reflexivity). do 7 (destruct c as [c|c|]; try (eexists; reflexivity)). Qed.

Lemma parse_one c : parse_string [c] = a <- parse_component c ; Ok a.
Proof. cbn. destruct (parse_component c); cbn; [rewrite app_nil_r|..]; reflexivity. Qed.

Lemma tok_piece q t l : tok q t l -> parse_string l <> Panic /\ forall s, parse_string l = Ok s -> piece q t s.
Proof.
  intros [c N C|c E| |a b Fa Fb|a b c d Fa Fb Fc Fd|c L| ]; rewrite ?parse_one; cbn [parse_component].
  - split; [discriminate|]. intros s H. apply Ok_inj in H. subst s. apply literal_is in C as [C1 C2]. apply piece_char; assumption.
  - split; [discriminate|]. destruct (escape_one c) as [c' E']. cbn [bind]. rewrite E'. intros s H. apply Ok_inj in H. subst s. apply piece_escape, escapes_is. auto.
  - split; [discriminate|]. intros s H. apply Ok_inj in H. subst s. apply piece_zero.
  - pose proof (reads2 a b Fa Fb) as R. unfold parse_hex, from_u32. assert (B : 0 <= read_base 16 [a; b] < 256).
    { unfold read_base. cbn [fold_left]. pose proof (hex_value_range a Fa). pose proof (hex_value_range b Fb). lia. }
    set (v := read_base 16 [a; b]) in *. destruct (Z.ltb_spec v (2 ^ 32)); [|lia]. cbn [bind]. destruct (Z.leb_spec 0 v); [|lia]. destruct (Z.ltb_spec v 55296); [|lia]. cbn [andb orb bind].
    split; [discriminate|]. intros s E1. apply Ok_inj in E1. subst s. apply piece_hex. exact R.
  - pose proof (reads4 a b c d Fa Fb Fc Fd) as R. unfold parse_hex, from_u32. assert (B : 0 <= read_base 16 [a; b; c; d] < 65536).
    { unfold read_base. cbn [fold_left]. pose proof (hex_value_range a Fa). pose proof (hex_value_range b Fb). pose proof (hex_value_range c Fc). pose proof (hex_value_range d Fd). lia. }
    set (v := read_base 16 [a; b; c; d]) in *. destruct (Z.ltb_spec v (2 ^ 32)); [|lia]. cbn [bind].
    destruct (((0 <=? v) && (v <? 55296)) || ((57344 <=? v) && (v <? 1114112))) eqn:G; cbn [bind]; (split; [discriminate|]); intros s E1; [|discriminate]. apply Ok_inj in E1. subst s.
    apply piece_unicode; [exact R|]. intros X. rewrite (proj2 (Z.ltb_ge v 55296)) in G by lia. rewrite (proj2 (Z.leb_gt 57344 v)) in G by lia. rewrite andb_false_r in G. discriminate.
  - split; [discriminate|]. intros s H. apply Ok_inj in H. subst s. apply piece_line, terminator_in. exact L.
  - split; [discriminate|]. intros s H. apply Ok_inj in H. subst s. apply piece_crlf.
Qed.

Lemma digits2 a b v : reads 16 [a; b] v -> hex_digit a = true /\ hex_digit b = true /\ v = read_base 16 [a; b].
Proof. intros R. pose proof (reads_hex _ _ _ R) as F. rewrite <- (reads_base _ _ _ R). cbn in F. rewrite !andb_true_iff in F. tauto. Qed.
Lemma digits4 a b c d v : reads 16 [a; b; c; d] v -> hex_digit a = true /\ hex_digit b = true /\ hex_digit c = true /\ hex_digit d = true /\ v = read_base 16 [a; b; c; d].
Proof. intros R. pose proof (reads_hex _ _ _ R) as F. rewrite <- (reads_base _ _ _ R). cbn in F. rewrite !andb_true_iff in F. tauto. Qed.

Lemma piece_tok q t s : piece q t s -> exists l, tok q t l /\ parse_string l = Ok s.
Proof.
  intros [c N C L|c c' E| |a b v R|a b c d v R X|c L| ].
  - eexists. split; [apply tok_char; [exact N|apply literal_is; auto]|reflexivity].
  - apply escapes_is in E as [E1 E2]. eexists. split; [apply tok_escape; exact E1|]. rewrite parse_one. cbn [parse_component bind]. rewrite E2. reflexivity.
  - eexists. split; [apply tok_nul|reflexivity].
  - apply digits2 in R as (Fa & Fb & ->). eexists. split; [apply tok_hex; assumption|]. rewrite parse_one. cbn [parse_component]. unfold parse_hex, from_u32.
    assert (B : 0 <= read_base 16 [a; b] < 256). { unfold read_base. cbn [fold_left]. pose proof (hex_value_range a Fa). pose proof (hex_value_range b Fb). lia. }
    set (v := read_base 16 [a; b]) in *. destruct (Z.ltb_spec v (2 ^ 32)); [|lia]. cbn [bind]. destruct (Z.leb_spec 0 v); [|lia]. destruct (Z.ltb_spec v 55296); [|lia]. reflexivity.
  - apply digits4 in R as (Fa & Fb & Fc & Fd & ->). eexists. split; [apply tok_unicode; assumption|]. rewrite parse_one. cbn [parse_component]. unfold parse_hex, from_u32.
    assert (B : 0 <= read_base 16 [a; b; c; d] < 65536).
    { unfold read_base. cbn [fold_left]. pose proof (hex_value_range a Fa). pose proof (hex_value_range b Fb). pose proof (hex_value_range c Fc). pose proof (hex_value_range d Fd). lia. }
    set (v := read_base 16 [a; b; c; d]) in *. destruct (Z.ltb_spec v (2 ^ 32)); [|lia]. cbn [bind].
    replace (((0 <=? v) && (v <? 55296)) || ((57344 <=? v) && (v <? 1114112))) with true; [reflexivity|]. symmetry.
    destruct (Z.leb_spec 0 v); [|lia]. destruct (Z.ltb_spec v 55296); [reflexivity|]. destruct (Z.leb_spec 57344 v); [|lia]. destruct (Z.ltb_spec v 1114112); [reflexivity|lia].
  - eexists. split; [apply tok_line, terminator_in; exact L|reflexivity].
  - eexists. split; [apply tok_crlf|reflexivity].
Qed.

Lemma parse_string_app a b : parse_string (a ++ b) = x <- parse_string a ; y <- parse_string b ; Ok (x ++ y).
Proof.
  induction a as [|c a IH]; cbn [app parse_string].
  - cbn [bind]. destruct (parse_string b); reflexivity.
  - rewrite IH. destruct (parse_component c); cbn [bind]; [|reflexivity|reflexivity]. destruct (parse_string a); cbn [bind]; [|reflexivity|reflexivity]. destruct (parse_string b); cbn [bind]; [rewrite app_assoc|..]; reflexivity.
Qed.
Lemma toks_pieces q t l : toks q t l -> parse_string l <> Panic /\ forall s, parse_string l = Ok s -> pieces q t s.
Proof.
  induction 1 as [|t l t' l' T T' (N & IH)].
  - split; [discriminate|]. intros s H. apply Ok_inj in H. subst s. apply pieces_none.
  - apply tok_piece in T as (N0 & T). rewrite parse_string_app. destruct (parse_string l) as [x| |]; cbn [bind]; [|split; [discriminate|intros; discriminate]|congruence].
    destruct (parse_string l') as [y| |]; cbn [bind]; [|split; [discriminate|intros; discriminate]|congruence]. split; [discriminate|].
    intros s H. apply Ok_inj in H. subst s. apply pieces_more; auto.
Qed.
Lemma pieces_toks q t s : pieces q t s -> exists l, toks q t l /\ parse_string l = Ok s.
Proof.
  induction 1 as [|t s t' s' P P' (l' & T' & E')]; [exists []; split; [apply toks_none|reflexivity]|].
  apply piece_tok in P as (l & T & E). exists (l ++ l'). split; [apply toks_more; assumption|]. rewrite parse_string_app, E, E'. reflexivity.
Qed.

Lemma string_value q body s : q = 34 \/ q = 39 -> pieces q body s ->
  exists l, parse_string l = Ok s /\ forall r, string_rule (([q] ++ body ++ [q]) ++ r) = Some (([q] ++ body ++ [q], l), r).
Proof. intros Q P. apply pieces_toks in P as (l & T & E). exists l. split; [exact E|]. intros r0. apply string_ok; assumption. Qed.

Lemma toks_raw q t l : toks q t l -> exists ps, t = concat ps /\ Forall (fun a => (exists s, piece q a s) \/ unicode_text a) ps.
Proof.
  induction 1 as [|t l t' l' T T' (ps & -> & F)]; [exists []; split; [reflexivity|constructor]|]. exists (t :: ps). split; [reflexivity|]. constructor; [|exact F].
  destruct T as [c N C|c E| |a b Fa Fb|a b c d Fa Fb Fc Fd|c L| ].
  - left. apply literal_is in C as [C1 C2]. eexists. apply piece_char; assumption.
  - left. destruct (escape_one c) as [c' E']. eexists. apply piece_escape, escapes_is. split; eassumption.
  - left. eexists. apply piece_zero.
  - left. eexists. apply piece_hex, reads2; assumption.
  - right. exists a, b, c, d. eexists. split; [reflexivity|]. apply reads4; assumption.
  - left. eexists. apply piece_line, terminator_in. exact L.
  - left. eexists. apply piece_crlf.
Qed.
Lemma raw_toks q ps : Forall (fun a => (exists s, piece q a s) \/ unicode_text a) ps -> exists l, toks q (concat ps) l.
Proof.
  induction 1 as [|a ps H _ (l & IH)]; [exists []; apply toks_none|]. assert (K : exists l0, tok q a l0).
  { destruct H as [[s P]|(x & y & z & w & v & -> & R)]; [apply piece_tok in P as (l0 & T & _); eauto|]. apply digits4 in R as (F1 & F2 & F3 & F4 & _). eexists. apply tok_unicode; assumption. }
  destruct K as [l0 T]. exists (l0 ++ l). cbn. apply toks_more; assumption.
Qed.

(* ------------------------------------------------------------------ *)
(** * Keys *)

Section Unicode.
Variable letter part : Z -> bool.

Lemma out x l : existsb (Z.eqb x) l = false -> ~ In x l.
Proof. intros H I. assert (existsb (Z.eqb x) l = true) by (apply existsb_exists; exists x; split; [exact I|apply Z.eqb_refl]). congruence. Qed.

Lemma start_some s a r : identifier_start letter s = Some (a, r) -> s = a ++ r /\ name_start letter a.
Proof.
  intros H. apply alt_some in H as [H|[_ H]].
  - apply one_some in H as (c & -> & -> & F). split; [reflexivity|]. left. exists c. split; [reflexivity|]. apply andb_true_iff in F as [F L]. apply literal_is in L as [L1 L2].
    repeat split; auto. rewrite !orb_true_iff, !Z.eqb_eq in F. cbn. intuition congruence.
  - apply seq_some in H as (a1 & r1 & a2 & H1 & H & ->). apply chr_some in H1 as [-> ->].
    apply seq_some in H as (a1 & r2 & a3 & H1 & H & ->). apply chr_some in H1 as [-> ->].
    apply seq_some in H as (a1 & r3 & a4 & H1 & H & ->). apply one_some in H1 as (c1 & -> & -> & F1).
    apply seq_some in H as (a1 & r4 & a5 & H1 & H & ->). apply one_some in H1 as (c2 & -> & -> & F2).
    apply seq_some in H as (a1 & r5 & a6 & H1 & H & ->). apply one_some in H1 as (c3 & -> & -> & F3). apply one_some in H as (c4 & -> & -> & F4).
    split; [reflexivity|]. right. exists c1, c2, c3, c4. eexists. split; [reflexivity|]. apply reads4; assumption.
Qed.
Lemma start_ok a r : name_start letter a -> identifier_start letter (a ++ r) = Some (a, r).
Proof.
  intros [(c & -> & C & N & L)|(x & y & z & w & v & -> & R)].
  - apply alt_1, one_cons. rewrite (proj2 (literal_is c) (conj N L)), andb_true_r. rewrite !orb_true_iff, !Z.eqb_eq. cbn in C. intuition congruence.
  - apply digits4 in R as (F1 & F2 & F3 & F4 & _). apply alt_2; [cbn [app]; apply one_none; apply andb_false_r|]. cbn [app].
    rewrite (seq_ok _ _ _ _ _ _ _ (chr_cons 92 _) (seq_ok _ _ _ _ _ _ _ (chr_cons 117 _) (seq_ok _ _ _ _ _ _ _ (one_cons _ x (y :: z :: w :: r) F1)
      (seq_ok _ _ _ _ _ _ _ (one_cons _ y (z :: w :: r) F2) (seq_ok _ _ _ _ _ _ _ (one_cons _ z (w :: r) F3) (one_cons _ w r F4)))))). reflexivity.
Qed.
Lemma part_some s a r : identifier_part letter part s = Some (a, r) -> s = a ++ r /\ name_part letter part a.
Proof.
  intros H. apply alt_some in H as [H|[_ H]].
  - apply start_some in H as [-> H]. split; [reflexivity|]. left. exact H.
  - apply one_some in H as (c & -> & -> & F). split; [reflexivity|]. right. exists c. split; [reflexivity|]. apply andb_true_iff in F as [F L]. apply literal_is in L as [L1 L2].
    repeat split; auto. rewrite !orb_true_iff, !Z.eqb_eq in F. cbn. intuition congruence.
Qed.
Lemma start_not c r : c <> 92 -> ~ (letter c = true \/ In c [36; 95; 64]) -> identifier_start letter (c :: r) = None.
Proof.
  intros N H. apply alt_2; [|apply seq_none1, chr_none; exact N]. apply one_none. apply andb_false_iff. left. rewrite !orb_false_iff, !Z.eqb_neq. cbn in H.
  destruct (letter c); intuition congruence.
Qed.
Lemma part_ok a r : name_part letter part a -> identifier_part letter part (a ++ r) = Some (a, r).
Proof.
  intros [H|(c & -> & C & N & L)]; [apply alt_1, start_ok; exact H|]. cbn [app].
  destruct (letter c || (c =? 36) || (c =? 95) || (c =? 64)) eqn:E.
  - apply alt_1. change (c :: r) with ([c] ++ r). apply start_ok. left. exists c. repeat split; auto. rewrite !orb_true_iff, !Z.eqb_eq in E. cbn. intuition congruence.
  - apply alt_2; [apply start_not; [exact N|]|].
    + rewrite !orb_false_iff, !Z.eqb_neq in E. cbn. intuition congruence.
    + apply one_cons. rewrite (proj2 (literal_is c) (conj N L)), andb_true_r. rewrite !orb_true_iff, !Z.eqb_eq. cbn in C. intuition congruence.
Qed.
Lemma name_nonempty a : name_part letter part a -> a <> [].
Proof. intros [[(c & -> & _)|(x & y & z & w & v & -> & _)]|(c & -> & _)]; discriminate. Qed.
Lemma part_progress : progress (identifier_part letter part).
Proof.
  intros s a r H. apply part_some in H as [-> H]. apply name_nonempty in H. rewrite app_length. destruct a; [congruence|cbn; lia].
Qed.

Lemma runs_parts s l r : runs (identifier_part letter part) s l r -> s = concat l ++ r /\ Forall (name_part letter part) l.
Proof.
  induction 1 as [s E|s a r l r' E R (-> & F)]; [split; [reflexivity|constructor]|]. apply part_some in E as [-> H]. cbn. rewrite app_assoc. split; [reflexivity|]. constructor; assumption.
Qed.
Lemma parts_runs l r : Forall (name_part letter part) l -> identifier_part letter part r = None -> runs (identifier_part letter part) (concat l ++ r) l r.
Proof.
  intros F N. induction F as [|a l H F IH]; cbn [concat app]; [apply runs_stop; exact N|]. rewrite <- app_assoc. eapply runs_step; [apply part_ok; exact H|exact IH].
Qed.

Lemma opt_chr_some x s a r : opt (chr x) s = Some (a, r) -> s = a ++ r /\ (a = [] \/ a = [x]).
Proof. intros H. apply opt_some in H as [H|(_ & -> & ->)]; [apply chr_some in H as [-> ->]|]; auto. Qed.

Lemma identifier_some s a r : identifier letter part s = Some (a, r) -> s = a ++ r /\ name_text letter part a.
Proof.
  intros H. apply seq_some in H as (a1 & r1 & a2 & H1 & H & ->). apply start_some in H1 as [-> S].
  apply seq_some in H as (a3 & r2 & a4 & H1 & H & ->). unfold star in H1. destruct (many (identifier_part letter part) r1) as [l r2'] eqn:M. injection H1 as <- <-.
  apply (many_runs _ _ _ _ _ part_progress), runs_parts in M as [-> F].
  apply seq_some in H as (a5 & r3 & a6 & H1 & H & ->). apply opt_chr_some in H1 as [-> B]. apply opt_chr_some in H as [-> C].
  rewrite <- !app_assoc. split; [reflexivity|]. exists a1, l, a5, a6. auto.
Qed.

Definition follow_key (r : list Z) : Prop := match r with [] => True | c :: _ => In c (blanks ++ [47; 58]) end.

Hypothesis apart : letters_apart letter part.

Lemma part_not c r : In c (blanks ++ [33; 63; 58; 47; 34; 39; 125]) -> identifier_part letter part (c :: r) = None.
Proof.
  intros I. pose proof (apart c) as A. assert (N : forall x, In x [92; 36; 95; 64; 8204; 8205] -> c <> x).
  { intros x Hx ->. revert I. cbn in Hx. destruct Hx as [<- | [<- | [<- | [<- | [<- | [<- | []]]]]]]; apply out; reflexivity. }
  apply alt_2; [apply start_not; [apply N; cbn; tauto|]|].
  - intros [L|L]; [exact (A (or_introl L) I)|]. apply (N c); [|reflexivity]. cbn in L |- *. tauto.
  - apply one_none. apply andb_false_iff. left. rewrite !orb_false_iff, !Z.eqb_neq. split; [split|]; [|apply N; cbn; tauto|apply N; cbn; tauto].
    apply not_true_is_false. intros P. exact (A (or_intror P) I).
Qed.
Lemma ident_not c r : In c (blanks ++ [33; 63; 58; 47; 34; 39; 125]) -> identifier letter part (c :: r) = None.
Proof.
  intros I. apply seq_none1. pose proof (part_not c r I) as H. unfold identifier_part, alt in H. destruct (identifier_start letter (c :: r)); [discriminate|reflexivity].
Qed.
Lemma mark_not x c r : x = 33 \/ x = 63 -> In c (blanks ++ [47; 58]) -> chr x (c :: r) = None.
Proof. intros X I. apply chr_none. intros ->. revert I. destruct X as [-> | ->]; apply out; reflexivity. Qed.
Lemma opt_mark_follow x r : x = 33 \/ x = 63 -> follow_key r -> opt (chr x) r = Some ([], r).
Proof. intros X F. apply opt_0. destruct r as [|c r]; [reflexivity|]. apply mark_not; assumption. Qed.

Lemma identifier_ok a r : name_text letter part a -> follow_key r -> identifier letter part (a ++ r) = Some (a, r).
Proof.
  intros (a1 & l & b & c & -> & S & F & B & C) FR. rewrite <- !app_assoc.
  assert (H3 : opt (chr 63) (c ++ r) = Some (c, r)) by (destruct C as [-> | ->]; [apply opt_mark_follow; auto|apply opt_1, chr_cons]).
  assert (H2 : opt (chr 33) (b ++ c ++ r) = Some (b, c ++ r)).
  { destruct B as [-> | ->]; [|apply opt_1, chr_cons]. destruct C as [-> | ->]; [apply opt_mark_follow; auto|reflexivity]. }
  assert (H1 : star (identifier_part letter part) (concat l ++ b ++ c ++ r) = Some (concat l, b ++ c ++ r)).
  { unfold star. assert (R : runs (identifier_part letter part) (concat l ++ b ++ c ++ r) l (b ++ c ++ r)).
    { apply parts_runs; [exact F|]. destruct B as [-> | ->]; [destruct C as [-> | ->]; [destruct r as [|x r]; [reflexivity|]|]|]; cbn [app]; apply part_not;
        [|apply in_app_iff; right; cbn; tauto|apply in_app_iff; right; cbn; tauto]. unfold follow_key in FR. apply in_app_iff in FR. apply in_app_iff. destruct FR as [FR|FR]; [left; exact FR|right; cbn in FR |- *; tauto]. }
    apply (many_runs _ _ _ _ _ part_progress) in R. rewrite R. reflexivity. }
  unfold identifier. rewrite (seq_ok _ _ _ _ _ _ _ (start_ok a1 _ S) (seq_ok _ _ _ _ _ _ _ H1 (seq_ok _ _ _ _ _ _ _ H2 H3))). reflexivity.
Qed.

Lemma removelast_quoted q (k : list Z) : removelast (tl ([q] ++ k ++ [q])) = k.
Proof. cbn [app tl]. apply removelast_last. Qed.

Lemma key_some s k r : key_rule letter part s = Some (k, r) -> exists t, s = t ++ r /\ key_text letter part t (ident_of k).
Proof.
  unfold key_rule. destruct (identifier letter part s) as [[a r0]|] eqn:E.
  - apply identifier_some in E as [-> N]. intros H. injection H as <- <-. exists a. split; [reflexivity|]. left. auto.
  - destruct (string_rule s) as [[[a l] r0]|] eqn:Es; [|discriminate]. intros H. injection H as <- <-. apply string_some in Es as (-> & q & body & Q & -> & T).
    eexists. split; [reflexivity|]. right. cbn [ident_of]. rewrite removelast_quoted. apply toks_raw in T as (ps & -> & F). exists q, ps. auto.
Qed.
Lemma key_ok t x : key_text letter part t x -> exists k, ident_of k = x /\ forall r, follow_key r -> key_rule letter part (t ++ r) = Some (k, r).
Proof.
  intros [[N ->]|(q & ps & Q & -> & -> & F)].
  - exists (KIdentifier t). split; [reflexivity|]. intros r FR. unfold key_rule. rewrite (identifier_ok t r N FR). reflexivity.
  - apply raw_toks in F as [l T]. exists (KString ([q] ++ concat ps ++ [q]) l). split; [apply removelast_quoted|]. intros r _. unfold key_rule.
    rewrite (string_ok q (concat ps) l r Q T). cbn [app]. rewrite ident_not; [reflexivity|]. apply in_app_iff. right. destruct Q as [-> | ->]; cbn; tauto.
Qed.
(** a key begins with no blank, comment or bracket *)
Lemma key_head t x : key_text letter part t x -> exists c t', t = c :: t' /\ ~ In c (blanks ++ [47; 125]).
Proof.
  intros [[(a & l & b & c & -> & S & _) ->]|(q & ps & Q & -> & _)].
  - destruct S as [(d & -> & C & N & L)|(y & z & w & u & v & -> & _)]; cbn [app]; eexists _, _; (split; [reflexivity|]).
    + intros I. destruct C as [C|C].
      * apply (apart d (or_introl C)). apply in_app_iff in I. apply in_app_iff. destruct I as [I|I]; [left; exact I|right; cbn in I |- *; tauto].
      * revert I. cbn in C. destruct C as [<- | [<- | [<- | []]]]; apply out; reflexivity.
    + apply out. reflexivity.
  - cbn [app]. eexists _, _. split; [reflexivity|]. destruct Q as [-> | ->]; apply out; reflexivity.
Qed.
Lemma key_not_bracket r : key_rule letter part (125 :: r) = None.
Proof.
  unfold key_rule. rewrite ident_not by (apply in_app_iff; right; cbn; tauto). rewrite string_none by discriminate. reflexivity.
Qed.
End Unicode.
