(** Proofs about characters and about the values of texts (C50). *)
From Coq Require Import String.
From Verif Require Import Base FloatModel CompactionModel CompactionSpec StringCompactionModel StringCompactionProofs ArchiveModel DocModel DiffProofs JsonModel JsonSpec LoadSpec Json5Model Json5Spec Json5Proofs Json5FloatProofs Json5NumberProofs Json5StringProofs Json5ValueProofs.

(* ------------------------------------------------------------------ *)
(** * UTF-8 *)

Lemma ltb_t a b : a < b -> (a <? b) = true. Proof. apply Z.ltb_lt. Qed.
Lemma ltb_f a b : b <= a -> (a <? b) = false. Proof. apply Z.ltb_ge. Qed.
Lemma leb_t a b : a <= b -> (a <=? b) = true. Proof. apply Z.leb_le. Qed.
Lemma leb_f a b : b < a -> (a <=? b) = false. Proof. apply Z.leb_gt. Qed.

Lemma split64 c : 0 <= c -> exists q m, c = 64 * q + m /\ 0 <= m < 64 /\ 0 <= q /\ c / 64 = q /\ c mod 64 = m.
Proof. intros H. exists (c / 64), (c mod 64). pose proof (Z.div_mod c 64). pose proof (Z.mod_pos_bound c 64). pose proof (Z.div_pos c 64). lia. Qed.

(** the bytes of a character, by their number *)
Inductive bytes_of : Z -> list Z -> Prop :=
| bytes1 c : 0 <= c < 128 -> bytes_of c [c]
| bytes2 a b : 2 <= a < 32 -> 0 <= b < 64 -> bytes_of (64 * a + b) [192 + a; 128 + b]
| bytes3 a b c : 0 <= a < 16 -> 0 <= b < 64 -> 0 <= c < 64 -> (a = 0 -> 32 <= b) -> (a = 13 -> b < 32) -> bytes_of (64 * (64 * a + b) + c) [224 + a; 128 + b; 128 + c]
| bytes4 a b c d : 0 <= a < 5 -> 0 <= b < 64 -> 0 <= c < 64 -> 0 <= d < 64 -> (a = 0 -> 16 <= b) -> (a = 4 -> b < 16) ->
    bytes_of (64 * (64 * (64 * a + b) + c) + d) [240 + a; 128 + b; 128 + c; 128 + d].

Lemma utf8_bytes c : scalar c -> bytes_of c (utf8 c).
Proof.
  intros S. assert (P : 0 <= c) by (unfold scalar in S; lia). unfold utf8.
  destruct (Z.ltb_spec c 128); [apply bytes1; lia|].
  destruct (split64 c P) as (q & m & Ec & Hm & Hq & E1 & E2).
  destruct (Z.ltb_spec c 2048); [rewrite E1, E2, Ec; apply bytes2; lia|].
  destruct (split64 q Hq) as (q2 & m2 & Eq & Hm2 & Hq2 & E3 & E4).
  replace (c / 4096) with q2 by (change 4096 with (64 * 64); rewrite <- Z.div_div by lia; congruence).
  destruct (Z.ltb_spec c 65536); [rewrite E1, E2, E4, Ec, Eq; unfold scalar in S; apply bytes3; lia|].
  destruct (split64 q2 Hq2) as (q3 & m3 & Eq2 & Hm3 & Hq3 & E5 & E6).
  replace (c / 262144) with q3 by (change 262144 with (64 * 64 * 64); rewrite <- !Z.div_div by lia; congruence).
  rewrite E1, E2, E4, E6, Ec, Eq, Eq2. unfold scalar in S. apply bytes4; lia.
Qed.
Lemma bytes_utf8 c bs : bytes_of c bs -> scalar c /\ utf8 c = bs.
Proof.
  intros [c' H|a b Ha Hb|a b x Ha Hb Hx L1 L2|a b x y Ha Hb Hx Hy L1 L2]; unfold scalar, utf8.
  - rewrite ltb_t by lia. split; [lia|reflexivity].
  - rewrite ltb_f, ltb_t by lia. replace ((64 * a + b) / 64) with a by (rewrite Z.mul_comm, Z.div_add_l by lia; rewrite (Z.div_small b 64) by lia; lia).
    replace ((64 * a + b) mod 64) with b by (rewrite Z.add_comm, Z.mul_comm, Z.mod_add by lia; symmetry; apply Z.mod_small; lia). split; [lia|reflexivity].
  - set (q := 64 * a + b). rewrite !ltb_f, ltb_t by lia. assert (E1 : (64 * q + x) / 64 = q) by (rewrite Z.mul_comm, Z.div_add_l by lia; rewrite (Z.div_small x 64) by lia; lia).
    assert (E2 : (64 * q + x) mod 64 = x) by (rewrite Z.add_comm, Z.mul_comm, Z.mod_add by lia; apply Z.mod_small; lia).
    assert (E3 : q / 64 = a) by (unfold q; rewrite Z.mul_comm, Z.div_add_l by lia; rewrite (Z.div_small b 64) by lia; lia).
    assert (E4 : q mod 64 = b) by (unfold q; rewrite Z.add_comm, Z.mul_comm, Z.mod_add by lia; apply Z.mod_small; lia).
    replace ((64 * q + x) / 4096) with a by (change 4096 with (64 * 64); rewrite <- Z.div_div by lia; congruence). rewrite E1, E2, E4. split; [lia|reflexivity].
  - set (q2 := 64 * a + b). set (q := 64 * q2 + x). rewrite !ltb_f by lia. assert (E1 : (64 * q + y) / 64 = q) by (rewrite Z.mul_comm, Z.div_add_l by lia; rewrite (Z.div_small y 64) by lia; lia).
    assert (E2 : (64 * q + y) mod 64 = y) by (rewrite Z.add_comm, Z.mul_comm, Z.mod_add by lia; apply Z.mod_small; lia).
    assert (E3 : q / 64 = q2) by (unfold q; rewrite Z.mul_comm, Z.div_add_l by lia; rewrite (Z.div_small x 64) by lia; lia).
    assert (E4 : q mod 64 = x) by (unfold q; rewrite Z.add_comm, Z.mul_comm, Z.mod_add by lia; apply Z.mod_small; lia).
    assert (E5 : q2 / 64 = a) by (unfold q2; rewrite Z.mul_comm, Z.div_add_l by lia; rewrite (Z.div_small b 64) by lia; lia).
    assert (E6 : q2 mod 64 = b) by (unfold q2; rewrite Z.add_comm, Z.mul_comm, Z.mod_add by lia; apply Z.mod_small; lia).
    replace ((64 * q + y) / 4096) with q2 by (change 4096 with (64 * 64); rewrite <- Z.div_div by lia; congruence).
    replace ((64 * q + y) / 262144) with a by (change 262144 with (64 * 64 * 64); rewrite <- !Z.div_div by lia; congruence). rewrite E1, E2, E4, E6. split; [lia|reflexivity].
Qed.

Lemma bytes_valid c bs r : bytes_of c bs -> utf8_valid (bs ++ r) = utf8_valid r.
Proof.
  intros [c' H|a b Ha Hb|a b x Ha Hb Hx L1 L2|a b x y Ha Hb Hx Hy L1 L2]; cbn [app utf8_valid]; unfold is_cont.
  - rewrite ltb_t by lia. reflexivity.
  - rewrite (ltb_f (192 + a) 128), (leb_t 194 (192 + a)), (ltb_t (192 + a) 224), (leb_t 128 (128 + b)), (ltb_t (128 + b) 192) by lia. reflexivity.
  - rewrite (ltb_f (224 + a) 128), (leb_t 194 (224 + a)), (ltb_f (224 + a) 224), (leb_t 224 (224 + a)), (ltb_t (224 + a) 240), (leb_t 128 (128 + x)), (ltb_t (128 + x) 192) by lia. cbn [andb].
    rewrite andb_true_r. replace (if 224 + a =? 224 then _ else _) with true; [reflexivity|]. symmetry.
    destruct (Z.eqb_spec (224 + a) 224); [rewrite leb_t, ltb_t by lia; reflexivity|]. destruct (Z.eqb_spec (224 + a) 237); rewrite leb_t, ltb_t by lia; reflexivity.
  - rewrite (ltb_f (240 + a) 128), (leb_t 194 (240 + a)), (ltb_f (240 + a) 224), (leb_t 224 (240 + a)), (ltb_f (240 + a) 240), (leb_t 240 (240 + a)), (ltb_t (240 + a) 245), (leb_t 128 (128 + x)), (ltb_t (128 + x) 192), (leb_t 128 (128 + y)), (ltb_t (128 + y) 192) by lia. cbn [andb].
    rewrite !andb_true_r. replace (if 240 + a =? 240 then _ else _) with true; [reflexivity|]. symmetry.
    destruct (Z.eqb_spec (240 + a) 240); [rewrite leb_t, ltb_t by lia; reflexivity|]. destruct (Z.eqb_spec (240 + a) 244); rewrite leb_t, ltb_t by lia; reflexivity.
Qed.
Lemma bytes_chars c bs r : bytes_of c bs -> chars (bs ++ r) = c :: chars r.
Proof.
  intros [c' H|a b Ha Hb|a b x Ha Hb Hx L1 L2|a b x y Ha Hb Hx Hy L1 L2]; cbn [app chars].
  - rewrite ltb_t by lia. reflexivity.
  - rewrite ltb_f, ltb_t by lia. f_equal. lia.
  - rewrite !ltb_f, ltb_t by lia. f_equal. lia.
  - rewrite !ltb_f by lia. f_equal. lia.
Qed.
Lemma bytes_wf c bs : bytes_of c bs -> wf_bytes bs /\ 1 <= zlen bs <= 4.
Proof.
  intros [c' H|a b Ha Hb|a b x Ha Hb Hx L1 L2|a b x y Ha Hb Hx Hy L1 L2]; (split; [|unfold zlen; cbn; lia]); repeat (constructor; [unfold wf_byte; lia|]); constructor.
Qed.
(** the first character of valid bytes *)
Lemma valid_bytes bs : wf_bytes bs -> utf8_valid bs = true -> bs <> [] -> exists c b r, bytes_of c b /\ bs = b ++ r.
Proof.
  intros W V N. destruct bs as [|b0 l1]; [congruence|]. inversion W as [|? ? W0 W1]; subst. unfold wf_byte in *. cbn [utf8_valid] in V. destruct (Z.ltb_spec b0 128).
  { exists b0, [b0], l1. split; [apply bytes1; lia|reflexivity]. }
  destruct l1 as [|b1 l2]; [discriminate|]. destruct ((194 <=? b0) && (b0 <? 224)) eqn:C2.
  { apply andb_true_iff in V as [V _]. unfold is_cont in V. exists (64 * (b0 - 192) + (b1 - 128)), [b0; b1], l2. split; [|reflexivity].
    replace [b0; b1] with [192 + (b0 - 192); 128 + (b1 - 128)] by (do 2 f_equal; lia). apply bytes2; lia. }
  destruct l2 as [|b2 l3]; [discriminate|]. destruct ((224 <=? b0) && (b0 <? 240)) eqn:C3.
  { rewrite !andb_true_iff in V. destruct V as [[V0 V1] _]. unfold is_cont in *. exists (64 * (64 * (b0 - 224) + (b1 - 128)) + (b2 - 128)), [b0; b1; b2], l3. split; [|reflexivity].
    replace [b0; b1; b2] with [224 + (b0 - 224); 128 + (b1 - 128); 128 + (b2 - 128)] by (repeat f_equal; lia).
    destruct (Z.eqb_spec b0 224); [apply bytes3; lia|]. destruct (Z.eqb_spec b0 237); apply bytes3; lia. }
  destruct l3 as [|b3 l4]; [discriminate|]. destruct ((240 <=? b0) && (b0 <? 245)) eqn:C4; [|discriminate].
  rewrite !andb_true_iff in V. destruct V as [[[V0 V1] V2] _]. unfold is_cont in *. exists (64 * (64 * (64 * (b0 - 240) + (b1 - 128)) + (b2 - 128)) + (b3 - 128)), [b0; b1; b2; b3], l4. split; [|reflexivity].
  replace [b0; b1; b2; b3] with [240 + (b0 - 240); 128 + (b1 - 128); 128 + (b2 - 128); 128 + (b3 - 128)] by (repeat f_equal; lia).
  destruct (Z.eqb_spec b0 240); [apply bytes4; lia|]. destruct (Z.eqb_spec b0 244); apply bytes4; lia.
Qed.

Lemma chars_valid n : forall bs, (length bs <= n)%nat -> wf_bytes bs -> utf8_valid bs = true -> Forall scalar (chars bs) /\ to_bytes (chars bs) = bs /\ zlen (chars bs) <= zlen bs.
Proof.
  induction n as [|n IH]; intros bs L W V.
  - destruct bs; [|cbn in L; lia]. cbn. repeat split; [constructor|lia].
  - destruct bs as [|b0 bs0] eqn:E0; [cbn; repeat split; [constructor|lia]|]. rewrite <- E0 in *. destruct (valid_bytes bs W V ltac:(congruence)) as (c & b & r & B & ->). clear E0 b0 bs0.
    rewrite (bytes_chars c b r B). rewrite (bytes_valid c b r B) in V. apply Forall_app in W as [W0 W]. destruct (bytes_wf c b B) as [_ L0]. destruct (bytes_utf8 c b B) as [Sc U].
    destruct (IH r) as (F & T & Z0); auto; [rewrite app_length in L; unfold zlen in L0; lia|]. split; [constructor; assumption|]. split; [unfold to_bytes in *; cbn; rewrite U, T; reflexivity|].
    unfold zlen in *. rewrite app_length. cbn [length]. lia.
Qed.
Lemma to_bytes_app a b : to_bytes (a ++ b) = to_bytes a ++ to_bytes b.
Proof. unfold to_bytes. rewrite map_app, concat_app. reflexivity. Qed.
Lemma to_bytes_valid s : Forall scalar s -> wf_bytes (to_bytes s) /\ utf8_valid (to_bytes s) = true /\ chars (to_bytes s) = s /\ zlen (to_bytes s) <= 4 * zlen s.
Proof.
  induction 1 as [|c s Hc F (W & V & C & L)]; [repeat split; [constructor|cbn; lia]|]. pose proof (utf8_bytes c Hc) as B. change (to_bytes (c :: s)) with (utf8 c ++ to_bytes s).
  destruct (bytes_wf _ _ B) as [W0 L0]. rewrite (bytes_valid _ _ _ B), (bytes_chars _ _ _ B), C. repeat split; auto; [apply Forall_app; auto|]. unfold zlen in *. rewrite app_length. cbn [length]. lia.
Qed.
Lemma to_bytes_inj a b : Forall scalar a -> Forall scalar b -> to_bytes a = to_bytes b -> a = b.
Proof. intros Fa Fb E. apply to_bytes_valid in Fa as (_ & _ & <- & _). apply to_bytes_valid in Fb as (_ & _ & <- & _). congruence. Qed.

(* ------------------------------------------------------------------ *)
(** * Values *)

Lemma piece_scalar q t s : piece q t s -> Forall scalar t -> Forall scalar s /\ zlen s <= zlen t.
Proof.
  intros [c N C L|c c' E| |a b v R|a b c d v R X|c L| ] F.
  - split; [exact F|lia].
  - inversion F as [|? ? _ F1]; subst. inversion F1 as [|? ? F2 _]; subst. split; [|unfold zlen; cbn; lia]. constructor; [|constructor]. unfold escapes in E. unfold scalar in *. intuition lia.
  - split; [repeat constructor; unfold scalar; lia|unfold zlen; cbn; lia].
  - apply digits2 in R as (Fa & Fb & ->). split; [|unfold zlen; cbn; lia]. constructor; [|constructor]. unfold read_base. cbn [fold_left]. pose proof (hex_value_range a Fa). pose proof (hex_value_range b Fb). unfold scalar. lia.
  - apply digits4 in R as (Fa & Fb & Fc & Fd & ->). split; [|unfold zlen; cbn; lia]. constructor; [|constructor].
    pose proof (hex_value_range a Fa). pose proof (hex_value_range b Fb). pose proof (hex_value_range c Fc). pose proof (hex_value_range d Fd). unfold read_base in *. cbn [fold_left] in *. unfold scalar. lia.
  - split; [constructor|unfold zlen; cbn; lia].
  - split; [constructor|unfold zlen; cbn; lia].
Qed.
Lemma pieces_scalar q t s : pieces q t s -> Forall scalar t -> Forall scalar s /\ zlen s <= zlen t.
Proof.
  induction 1 as [|t s t' s' P _ IH]; intros F; [split; [constructor|lia]|]. apply Forall_app in F as [F F']. destruct (piece_scalar _ _ _ P F) as [A B]. destruct (IH F') as [A' B'].
  split; [apply Forall_app; auto|]. unfold zlen in *. rewrite !app_length. lia.
Qed.

Lemma leaf (P : jval -> Prop) v : P v -> (forall l, v <> JArray l) -> (forall m, v <> JMap m) -> everywhere P v.
Proof. intros H A M. constructor; [exact H|intros l x E; destruct (A l E)|intros m k x E; destruct (M m E)]. Qed.

Section Unicode.
Variable letter part : Z -> bool.

Lemma key_len t k : key_text letter part t k -> 1 <= zlen t /\ zlen k <= zlen t /\ (Forall scalar t -> Forall scalar k).
Proof.
  intros [[(a & l & b & c & -> & S & _) ->]|(q & ps & Q & -> & _)].
  - split; [|split; [lia|auto]]. assert (1 <= zlen a) by (destruct S as [(d & -> & _)|(? & ? & ? & ? & ? & -> & _)]; unfold zlen; cbn; lia). unfold zlen in *. rewrite !app_length. lia.
  - unfold zlen. rewrite !app_length. cbn [length]. split; [lia|]. split; [lia|]. intros F. apply Forall_app in F as [_ F]. apply Forall_app in F as [F _]. exact F.
Qed.

Definition sized (t : list Z) : Prop := Forall scalar t /\ zlen t < 2 ^ 58.
Lemma sized_app a b : sized (a ++ b) -> sized a /\ sized b.
Proof.
  intros [F L]. apply Forall_app in F as [Fa Fb]. unfold sized, zlen in *. rewrite app_length in L. split; (split; [assumption|]); lia.
Qed.

Lemma value_nodes t v : value_text letter part t v -> 1 <= zlen t /\ (sized t -> everywhere read_node v).
Proof.
  apply (value_text_mut letter part
    (fun t v => 1 <= zlen t /\ (sized t -> everywhere read_node v))
    (fun t l => zlen l <= zlen t + 1 /\ (sized t -> forall x, In x l -> everywhere read_node x))
    (fun t m => zlen m <= zlen t + 1 /\ (sized t -> Forall (fun km => rust_string (2 ^ 63) (fst km)) m /\ forall k x, In (k, x) m -> everywhere read_node x))
    (fun t k v => 1 <= zlen t /\ (sized t -> rust_string (2 ^ 63) k /\ everywhere read_node v))); clear t v.
  - split; [unfold zlen; cbn; lia|intros _; apply leaf; [split; exact Logic.I|discriminate|discriminate]].
  - split; [unfold zlen; cbn; lia|intros _; apply leaf; [split; exact Logic.I|discriminate|discriminate]].
  - split; [unfold zlen; cbn; lia|intros _; apply leaf; [split; exact Logic.I|discriminate|discriminate]].
  - split; [unfold zlen; cbn; lia|intros _; apply leaf; [split; exact Logic.I|discriminate|discriminate]].
  - intros t body s (q & Q & -> & P). split; [unfold zlen; rewrite !app_length; cbn [length]; lia|]. intros S. apply sized_app in S as [_ S]. apply sized_app in S as [[F L] _]. apply leaf; [|discriminate|discriminate].
    split; [|exact Logic.I]. destruct (pieces_scalar _ _ _ P F) as [Fs Ls]. destruct (to_bytes_valid s Fs) as (W & V & _ & Lb). change (rust_string (2 ^ 63) (to_bytes s)). repeat split; auto. lia.
  - intros t i I. split; [destruct (int_value t i I) as (N & _); destruct (numeric_head letter part t N) as (c & r & -> & _); unfold zlen; cbn; lia|]. intros _. apply leaf; [|discriminate|discriminate]. split; [|exact Logic.I]. cbn.
    destruct I as [sg ds v Sg W R Rg|x ds v Hx N R L]; [exact Rg|]. pose proof (reads_nonneg 16 _ _ ltac:(lia) R). unfold i64_range. lia.
  - intros t b I. split; [destruct (double_value t b I) as (N & _); destruct (numeric_head letter part t N) as (c & r & -> & _); unfold zlen; cbn; lia|]. intros _. apply leaf; [|discriminate|discriminate].
    destruct I as [sg i dot f ex e m x b Sg F Ex D R Ex' (U & mm & Em & _)]. split; [exact U|]. eauto.
  - intros t l _ (L & K). split; [unfold zlen; rewrite !app_length; cbn [length]; lia|]. intros S. apply sized_app in S as [_ S]. apply sized_app in S as [S _]. constructor.
    + split; [|exact Logic.I]. destruct S as [_ S]. change (16 * zlen l < 2 ^ 63). lia.
    + intros l0 x E I. injection E as <-. apply K; assumption.
    + intros m k x E. discriminate.
  - intros t m _ (L & K) N. split; [unfold zlen; rewrite !app_length; cbn [length]; lia|]. intros S. apply sized_app in S as [_ S]. apply sized_app in S as [S _]. destruct (K S) as [Ks Kv]. constructor.
    + split; [|auto]. destruct S as [_ S]. change (16 * zlen m < 2 ^ 63). lia.
    + intros l0 x E. discriminate.
    + intros m0 k x E I. injection E as <-. eapply Kv. exact I.
  - intros w _. split; [unfold zlen; cbn; lia|]. intros _ x [].
  - intros w1 t v w2 _ _ (L & K) _. split; [unfold zlen; rewrite !app_length; cbn [length]; lia|]. intros S x [<- |[]]. apply sized_app in S as [_ S]. apply sized_app in S as [S _]. auto.
  - intros w1 t v w2 t' l _ _ (L & K) _ _ (L' & K'). split; [unfold zlen in *; rewrite !app_length; cbn [length]; lia|]. intros S. apply sized_app in S as [_ S]. apply sized_app in S as [S S']. apply sized_app in S' as [_ S'].
    apply sized_app in S' as [_ S']. intros x [<- |I]; [auto|]. apply K'; assumption.
  - intros w _. split; [unfold zlen; cbn; lia|]. intros _. split; [constructor|]. intros k x [].
  - intros t k v _ (L & K). split; [unfold zlen in *; cbn [length]; lia|]. intros S. destruct (K S) as [Kk Kv]. split; [constructor; [exact Kk|constructor]|]. intros k0 x [E|[]]. apply pair_equal_spec in E as [<- <-]. exact Kv.
  - intros t k v t' l _ (L & K) _ (L' & K'). split; [unfold zlen in *; rewrite !app_length; cbn [length]; lia|]. intros S. apply sized_app in S as [S S']. apply sized_app in S' as [_ S'].
    destruct (K S) as [Kk Kv]. destruct (K' S') as [Ks Kx]. split; [constructor; assumption|]. intros k0 x [E|I]; [apply pair_equal_spec in E as [<- <-]; exact Kv|]. eapply Kx. exact I.
  - intros w1 t k w2 w3 t' v w4 _ Kt _ _ _ (L & K) _. destruct (key_len t k Kt) as (L1 & L2 & Fk). split; [unfold zlen in *; rewrite !app_length; cbn [length]; lia|]. intros S. apply sized_app in S as [_ S].
    apply sized_app in S as [S S']. apply sized_app in S' as [_ S']. apply sized_app in S' as [_ S']. apply sized_app in S' as [_ S']. apply sized_app in S' as [S' _]. split; [|auto].
    destruct S as [F Ls]. destruct (to_bytes_valid k (Fk F)) as (W & V & _ & Lb). repeat split; auto. lia.
Qed.

Lemma text_nodes s v : text_of letter part s v -> Forall scalar s -> zlen s < 2 ^ 58 -> everywhere read_node v.
Proof.
  intros (w1 & t & w2 & -> & _ & V & _) F L. apply value_nodes in V as [_ K]. apply K. destruct (sized_app w1 (t ++ w2) (conj F L)) as [_ S]. apply sized_app in S as [S _]. exact S.
Qed.

Variable letter' part' : Z -> bool.
Definition agree (t : list Z) : Prop := forall c, In c t -> letter c = letter' c /\ part c = part' c.
Lemma agree_app a b : agree (a ++ b) -> agree a /\ agree b.
Proof. intros H. split; intros c I; apply H, in_app_iff; auto. Qed.
Lemma start_agree t : agree t -> name_start letter t -> name_start letter' t.
Proof. intros A [(c & -> & C & N)|U]; [|right; exact U]. left. exists c. split; [reflexivity|]. split; [|exact N]. destruct (A c ltac:(left; reflexivity)) as [<- _]. exact C. Qed.
Lemma part_agree t : agree t -> name_part letter part t -> name_part letter' part' t.
Proof.
  intros A [S|(c & -> & C & N)]; [left; apply start_agree; assumption|]. right. exists c. split; [reflexivity|]. split; [|exact N]. destruct (A c ltac:(left; reflexivity)) as [_ <-]. exact C.
Qed.
Lemma key_agree t k : agree t -> key_text letter part t k -> key_text letter' part' t k.
Proof.
  intros A [[(a & l & b & c & -> & S & F & M) ->]|K]; [left|right; exact K]. split; [|reflexivity]. exists a, l, b, c. split; [reflexivity|]. apply agree_app in A as [A1 A]. apply agree_app in A as [A2 _].
  split; [apply start_agree; assumption|]. split; [|exact M]. clear -F A2. induction F as [|x l H F IH]; [constructor|]. cbn in A2. apply agree_app in A2 as [A1 A2]. constructor; [apply part_agree; assumption|auto].
Qed.
Lemma value_agree t v : value_text letter part t v -> agree t -> value_text letter' part' t v.
Proof.
  apply (value_text_mut letter part
    (fun t v => agree t -> value_text letter' part' t v)
    (fun t l => agree t -> elements letter' part' t l)
    (fun t m => agree t -> members letter' part' t m)
    (fun t k v => agree t -> member letter' part' t k v)); clear t v.
  - intros _. apply text_null.
  - intros _. apply text_undefined.
  - intros _. apply text_true.
  - intros _. apply text_false.
  - intros t body s S _. eapply text_string. exact S.
  - intros t i I _. apply text_int. exact I.
  - intros t b I _. apply text_double. exact I.
  - intros t l _ K A. apply agree_app in A as [_ A]. apply agree_app in A as [A _]. apply text_array. auto.
  - intros t m _ K N A. apply agree_app in A as [_ A]. apply agree_app in A as [A _]. apply text_map; auto.
  - intros w G _. apply elements_none. exact G.
  - intros w1 t v w2 G1 _ K G2 A. apply agree_app in A as [_ A]. apply agree_app in A as [A _]. apply elements_one; auto.
  - intros w1 t v w2 t' l G1 _ K G2 _ K' A. apply agree_app in A as [_ A]. apply agree_app in A as [A A']. apply agree_app in A' as [_ A']. apply agree_app in A' as [_ A']. apply elements_more; auto.
  - intros w G _. apply members_none. exact G.
  - intros t k v _ K A. apply members_one; auto.
  - intros t k v t' l _ K _ K' A. apply agree_app in A as [A A']. apply agree_app in A' as [_ A']. apply members_more; auto.
  - intros w1 t k w2 w3 t' v w4 G1 Kt G2 G3 _ K G4 A. apply agree_app in A as [_ A]. apply agree_app in A as [A A']. apply agree_app in A' as [_ A']. apply agree_app in A' as [_ A']. apply agree_app in A' as [_ A']. apply agree_app in A' as [A' _].
    apply member_is; auto. apply key_agree; assumption.
Qed.
Lemma text_agree s v : text_of letter part s v -> agree s -> text_of letter' part' s v.
Proof.
  intros (w1 & t & w2 & -> & G1 & V & G2) A. exists w1, t, w2. repeat split; auto. apply value_agree; [exact V|]. apply agree_app in A as [_ A]. apply agree_app in A as [A _]. exact A.
Qed.
End Unicode.

(* ------------------------------------------------------------------ *)
(** * Lines *)

Lemma utf8_len c : 1 <= byte_len c.
Proof. unfold byte_len, utf8. destruct (c <? 128); [cbn; lia|]. destruct (c <? 2048); [cbn; lia|]. destruct (c <? 65536); cbn; lia. Qed.
Lemma line_loop_ok s : forall line, line_loop s (zlen (to_bytes s)) line = Ok (line + Z.of_nat (count_occ Z.eq_dec s 10)).
Proof.
  assert (G : forall n s, (length s <= n)%nat -> forall line, line_loop s (zlen (to_bytes s)) line = Ok (line + Z.of_nat (count_occ Z.eq_dec s 10))).
  { clear s. induction n as [|n IH]; intros s L line.
    - destruct s; [|cbn in L; lia]. cbn. f_equal. lia.
    - destruct s as [|c s]; [cbn; f_equal; lia|]. cbn in L. assert (Z1 : zlen (to_bytes (c :: s)) = byte_len c + zlen (to_bytes s)) by (unfold byte_len, zlen, to_bytes; cbn; rewrite app_length; lia).
      pose proof (utf8_len c) as B. assert (B0 : 0 <= zlen (to_bytes s)) by (unfold zlen; lia). rewrite Z1.
      assert (D : forall line', (if byte_len c + zlen (to_bytes s) <? byte_len c then Panic else line_loop s (byte_len c + zlen (to_bytes s) - byte_len c) line') = Ok (line' + Z.of_nat (count_occ Z.eq_dec s 10))).
      { intros line'. rewrite ltb_f by lia. replace (byte_len c + zlen (to_bytes s) - byte_len c) with (zlen (to_bytes s)) by lia. apply IH. lia. }
      assert (Z2 : byte_len c + zlen (to_bytes s) =? 0 = false) by (apply Z.eqb_neq; lia).
      destruct (Z.eq_dec c 10) as [-> | N1]; [|destruct (Z.eq_dec c 13) as [-> | N2]].
      + cbn [line_loop]. rewrite Z2. replace (byte_len 10 + zlen (to_bytes s) - 1) with (zlen (to_bytes s)) by (change (byte_len 10) with 1; lia). rewrite IH by lia. f_equal. cbn [count_occ]. destruct (Z.eq_dec 10 10); [|congruence]. lia.
      + assert (D13 : line_loop s (byte_len 13 + zlen (to_bytes s) - 1) line = Ok (line + Z.of_nat (count_occ Z.eq_dec (13 :: s) 10))).
        { replace (byte_len 13 + zlen (to_bytes s) - 1) with (zlen (to_bytes s)) by (change (byte_len 13) with 1; lia). rewrite IH by lia. f_equal. }
        destruct s as [|d r]; [cbn [line_loop]; rewrite Z2; exact D13|]. destruct (Z.eq_dec d 10) as [-> | N3].
        * cbn [line_loop]. rewrite Z2. assert (E2 : zlen (to_bytes (10 :: r)) = 1 + zlen (to_bytes r)) by (change (to_bytes (10 :: r)) with (10 :: to_bytes r); unfold zlen; cbn [length]; lia). assert (B1 : 0 <= zlen (to_bytes r)) by (unfold zlen; lia).
          rewrite E2. change (byte_len 13) with 1. replace (1 + (1 + zlen (to_bytes r)) =? 1) with false by (symmetry; apply Z.eqb_neq; lia).
          replace (1 + (1 + zlen (to_bytes r)) - 2) with (zlen (to_bytes r)) by lia. rewrite IH by (cbn in L; lia). f_equal. cbn [count_occ]. destruct (Z.eq_dec 13 10); [lia|]. destruct (Z.eq_dec 10 10); [|congruence]. lia.
        * rewrite <- D13. cbn [line_loop]. rewrite Z2. destruct d as [|d|d]; try reflexivity. do 4 (destruct d as [d|d|]; try reflexivity). congruence.
      + assert (E : line_loop (c :: s) (byte_len c + zlen (to_bytes s)) line = if byte_len c + zlen (to_bytes s) <? byte_len c then Panic else line_loop s (byte_len c + zlen (to_bytes s) - byte_len c) line).
        { cbn [line_loop]. rewrite Z2. destruct c as [|c|c]; try reflexivity. do 4 (destruct c as [c|c|]; try reflexivity); congruence. }
        rewrite E, D. f_equal. cbn [count_occ]. destruct (Z.eq_dec c 10); [congruence|]. reflexivity. }
  intros line. apply (G (length s) s (le_n _)).
Qed.

(* ------------------------------------------------------------------ *)
(** * JSON *)

Lemma blank_gap w : json_blank w -> gap w.
Proof.
  induction 1 as [|c w I _ IH]; [apply gap_none|]. apply gap_blank; [|exact IH]. destruct I as [<- | [<- | [<- | [<- | []]]]]; apply whitespace_in; reflexivity.
Qed.
Lemma json_piece_piece t s : json_piece t s -> piece 34 t s.
Proof.
  intros [c L1 L2 L3 L4 L5|c c' E|a b c d v R N].
  - apply piece_char; [exact L2|exact L3|]. cbn. lia.
  - apply piece_escape. apply escapes_is. repeat (destruct E as [E|E]; [apply pair_equal_spec in E as [<- <-]; split; reflexivity|]). destruct E.
  - apply piece_unicode; assumption.
Qed.
Lemma json_string_text t s : json_string t s -> exists body, string_text t body s.
Proof.
  intros (l & -> & -> & F). exists (concat (map fst l)), 34. split; [auto|]. split; [reflexivity|]. induction F as [|[a b] l P F IH]; [apply pieces_none|]. cbn [map concat fst snd]. apply pieces_more; [apply json_piece_piece; exact P|exact IH].
Qed.
Lemma json_key_text letter part t k : json_key t k -> key_text letter part t k.
Proof.
  intros [-> F]. right. exists 34, (map (fun c => [c]) k). split; [auto|]. split; [reflexivity|]. split; [clear; induction k as [|c k IH]; [reflexivity|cbn; rewrite <- IH; reflexivity]|].
  induction F as [|c k P F IH]; cbn; constructor; [|exact IH]. left. exists [c]. apply json_piece_piece. exact P.
Qed.
Lemma json_sign_sign sg : json_sign sg -> sign sg.
Proof. intros [-> | ->]; unfold sign; auto. Qed.
Lemma json_number_text letter part t v : json_number t v -> value_text letter part t v.
Proof.
  intros [sg ds x Sg W R Rg|sg i fr f ex e m x bits Sg W D F Ex R Ex' N].
  - apply text_int, int_decimal; auto. apply json_sign_sign. exact Sg.
  - apply text_double. apply json_sign_sign in Sg. destruct D as [(-> & -> & Nx)|(-> & Nf)].
    + change (sg ++ i ++ [] ++ ex) with (sg ++ i ++ [] ++ [] ++ ex). eapply double_is; eauto 8.
    + change ((46 :: f) ++ ex) with ([46] ++ f ++ ex). eapply double_is; eauto 8.
Qed.

Scheme json_value_mut := Minimality for json_value Sort Prop
  with json_elements_mut := Minimality for json_elements Sort Prop
  with json_members_mut := Minimality for json_members Sort Prop
  with json_member_mut := Minimality for json_member Sort Prop.
Lemma json_value_text letter part t v : json_value t v -> value_text letter part t v.
Proof.
  apply (json_value_mut (value_text letter part) (elements letter part) (members letter part) (member letter part)); clear t v.
  - apply text_null.
  - apply text_true.
  - apply text_false.
  - intros t s S. apply json_string_text in S as [body S]. eapply text_string. exact S.
  - intros t v. apply json_number_text.
  - intros w W. apply text_array, elements_none, blank_gap. exact W.
  - intros t l _ E. apply text_array. exact E.
  - intros w W. apply text_map; [apply members_none, blank_gap; exact W|constructor].
  - intros t m _ M N. apply text_map; assumption.
  - intros w1 t v w2 W1 _ V W2. apply elements_one; auto using blank_gap.
  - intros w1 t v w2 t' l W1 _ V W2 _ E. apply elements_more; auto using blank_gap.
  - intros t k v _ M. apply members_one. exact M.
  - intros t k v t' l _ M _ E. apply members_more; assumption.
  - intros w1 t k w2 w3 t' v w4 W1 K W2 W3 _ V W4. apply member_is; auto using blank_gap, json_key_text.
Qed.
Lemma json_of_text letter part s v : json_of s v -> text_of letter part s v.
Proof. intros (w1 & t & w2 & -> & W1 & V & W2). exists w1, t, w2. split; [reflexivity|]. split; [apply blank_gap; exact W1|]. split; [apply json_value_text; exact V|]. left. apply blank_gap. exact W2. Qed.
