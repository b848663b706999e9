(** The printed text of a value is read as that value. *)
From Coq Require Import String.
From Verif Require Import Base FloatModel FloatProofs CompactionSpec Json5Model Json5Spec Json5Proofs Json5FloatProofs Json5NumberProofs Json5StringProofs Json5ValueProofs Json5TextProofs DocModel ArchiveModel JsonModel JsonSpec PrintModel PrintSpec.

(* ------------------------------------------------------------------ *)
(** * ASCII *)

Definition ascii (s : list Z) : Prop := Forall (fun c => 0 <= c < 128) s.
Lemma ascii_bytes s : ascii s -> to_bytes s = s.
Proof.
  induction 1 as [|c s H _ IH]; [reflexivity|]. change (to_bytes (c :: s)) with (utf8 c ++ to_bytes s). rewrite IH. unfold utf8. rewrite (ltb_t c 128) by (cbn beta in H; lia). reflexivity.
Qed.
Lemma ascii_scalar s : ascii s -> Forall scalar s.
Proof. intros H. eapply Forall_impl; [|exact H]. intros c L. cbn beta in L. left. lia. Qed.
Lemma ascii_b s : forallb (fun c => (0 <=? c) && (c <? 128)) s = true -> ascii s.
Proof. intros H. apply Forall_forall. intros c I. rewrite forallb_forall in H. apply H in I. lia. Qed.
Ltac asc := apply ascii_b; vm_compute; reflexivity.
Lemma indent_blank n : Forall (fun c => c = 32) (indent_str n).
Proof. unfold indent_str. induction n as [|n IH]; [constructor|]. cbn [repeat concat]. apply Forall_app. split; [|exact IH]. change (txt "  ") with [32; 32]. repeat constructor. Qed.
Lemma spaces_ascii s : Forall (fun c => c = 32) s -> ascii s.
Proof. intros H. eapply Forall_impl; [|exact H]. intros c ->. cbn beta. lia. Qed.
Lemma spaces_gap s : Forall (fun c => c = 32) s -> gap s.
Proof. induction 1 as [|c s -> _ IH]; [constructor|]. apply gap_blank; [cbn; tauto|exact IH]. Qed.
Lemma indent_gap n : gap (indent_str n). Proof. apply spaces_gap, indent_blank. Qed.
Lemma indent_ascii n : ascii (indent_str n). Proof. apply spaces_ascii, indent_blank. Qed.
Lemma line_gap s : gap s -> gap (10 :: s). Proof. intros G. apply gap_blank; [cbn; tauto|exact G]. Qed.
Lemma space_gap s : gap s -> gap (32 :: s). Proof. intros G. apply gap_blank; [cbn; tauto|exact G]. Qed.
Lemma gap_app a b : gap a -> gap b -> gap (a ++ b).
Proof.
  induction 1 as [|c w I _ IH|body w N _ IH|body c w N I _ IH]; intros G; [exact G| | |].
  - cbn [app]. apply gap_blank; auto.
  - replace (([47; 42] ++ body ++ [42; 47] ++ w) ++ b) with ([47; 42] ++ body ++ [42; 47] ++ (w ++ b)) by (rewrite <- !app_assoc; reflexivity). apply gap_block; auto.
  - replace (([47; 47] ++ body ++ [c] ++ w) ++ b) with ([47; 47] ++ body ++ [c] ++ (w ++ b)) by (rewrite <- !app_assoc; reflexivity). apply gap_line; auto.
Qed.

(* ------------------------------------------------------------------ *)
(** * Texts of arrays and objects, of any characters *)

Lemma to_bytes_concat l : to_bytes (concat l) = concat (map to_bytes l).
Proof. induction l as [|a l IH]; [reflexivity|]. cbn [concat map]. rewrite to_bytes_app, IH. reflexivity. Qed.
Lemma removelast_map {A B} (f : A -> B) l : removelast (map f l) = map f (removelast l).
Proof. induction l as [|a [|b l] IH]; [reflexivity|reflexivity|]. cbn [map removelast] in *. rewrite IH. reflexivity. Qed.
Lemma last_map {A B} (f : A -> B) l d : last (map f l) (f d) = f (last l d).
Proof. induction l as [|a [|b l] IH]; [reflexivity|reflexivity|]. cbn [map last] in *. exact IH. Qed.
Ltac push := rewrite ?to_bytes_app, ?(ascii_bytes (indent_str _) (indent_ascii _)).
Lemma txt_bytes s : ascii (txt s) -> to_bytes (txt s) = txt s. Proof. apply ascii_bytes. Qed.

Lemma write_array_bytes l n : to_bytes (write_array l n) = write_array (map to_bytes l) n.
Proof.
  destruct l as [|a [|b [|c l]]]; [reflexivity| | |].
  - cbn [map write_array]. push. reflexivity.
  - cbn [map write_array]. push. reflexivity.
  - cbn [map]. unfold write_array. change (to_bytes b :: to_bytes c :: map to_bytes l) with (map to_bytes (b :: c :: l)). rewrite removelast_map. replace (last (map to_bytes (b :: c :: l)) []) with (to_bytes (last (b :: c :: l) [])) by (symmetry; apply (last_map to_bytes (b :: c :: l) [])).
    push. rewrite to_bytes_concat, map_map, map_map. change (to_bytes (txt "[")) with (txt "["). change (to_bytes (txt "]")) with (txt "]"). change (to_bytes (txt ",")) with (txt ","). change (to_bytes [10]) with [10].
    f_equal. f_equal. f_equal. f_equal. f_equal. f_equal. f_equal; [|f_equal; f_equal; f_equal; f_equal; destruct (n =? 0)%nat; [reflexivity|apply ascii_bytes, indent_ascii]].
    f_equal. apply map_ext. intros x. push. change (to_bytes (txt ",")) with (txt ","). reflexivity.
Qed.
Definition entry_bytes (e : list Z * list Z) : list Z * list Z := (to_bytes (fst e), to_bytes (snd e)).
Lemma write_map_bytes l n : to_bytes (write_map l n) = write_map (map entry_bytes l) n.
Proof.
  destruct l as [|[k v] [|e l]]; [reflexivity| |].
  - cbn [map write_map entry_bytes fst snd]. push. reflexivity.
  - cbn [map]. unfold write_map. change (entry_bytes (k, v) :: entry_bytes e :: map entry_bytes l) with (map entry_bytes ((k, v) :: e :: l)). unfold entry_bytes at 1. cbn [fst snd]. push. rewrite to_bytes_concat, map_map, map_map.
    change (to_bytes (txt "{")) with (txt "{"). change (to_bytes (txt "}")) with (txt "}"). change (to_bytes [10]) with [10].
    f_equal. f_equal. f_equal; [|f_equal; destruct (n =? 0)%nat; [reflexivity|apply ascii_bytes, indent_ascii]].
    f_equal. apply map_ext. intros x. push. reflexivity.
Qed.

Section Texts.
Variable letter part : Z -> bool.
Notation value_text := (value_text letter part).
Notation elements := (elements letter part).
Notation members := (members letter part).

Lemma elements_lines n w0 : gap w0 -> forall rest vals, rest <> [] -> Forall2 value_text rest vals -> forall w, gap w ->
  elements (w ++ concat (map (fun item => indent_str n ++ item ++ txt "," ++ [10]) (removelast rest)) ++ indent_str n ++ last rest [] ++ w0) vals.
Proof.
  intros G0. induction rest as [|a rest IH]; intros vals N F w G; [congruence|]. inversion F as [|a' v rest' vs Ta Fr]; subst. clear F. destruct rest as [|b rest].
  - inversion Fr; subst. cbn [removelast last map concat app]. rewrite (app_assoc w). apply elements_one; [apply gap_app; [exact G|apply indent_gap]|exact Ta|exact G0].
  - assert (N' : b :: rest <> []) by discriminate. specialize (IH vs N' Fr [10] ltac:(apply line_gap; constructor)).
    change (removelast (a :: b :: rest)) with (a :: removelast (b :: rest)). change (last (a :: b :: rest) []) with (last (b :: rest) ([] : list Z)). cbn [map concat].
    replace (w ++ ((indent_str n ++ a ++ txt "," ++ [10]) ++ concat (map (fun item => indent_str n ++ item ++ txt "," ++ [10]) (removelast (b :: rest)))) ++ indent_str n ++ last (b :: rest) [] ++ w0)
      with ((w ++ indent_str n) ++ a ++ [] ++ [44] ++ ([10] ++ concat (map (fun item => indent_str n ++ item ++ txt "," ++ [10]) (removelast (b :: rest))) ++ indent_str n ++ last (b :: rest) [] ++ w0))
      by (change (txt ",") with [44]; rewrite <- !app_assoc; reflexivity).
    apply elements_more; [apply gap_app; [exact G|apply indent_gap]|exact Ta|constructor|exact IH].
Qed.

Lemma array_text l vals n : Forall2 value_text l vals -> value_text (write_array l n) (JArray vals).
Proof.
  intros F. destruct F as [|a v l vs Ta F]; [apply (text_array letter part [] []), elements_none; constructor|].
  destruct F as [|b v2 l vs Tb F].
  { change (write_array [a] n) with (txt "[ " ++ a ++ txt " ]"). replace (txt "[ " ++ a ++ txt " ]") with ([91] ++ ([32] ++ a ++ [32]) ++ [93]) by (change (txt "[ ") with [91; 32]; change (txt " ]") with [32; 93]; rewrite <- !app_assoc; reflexivity).
    apply text_array, elements_one; [apply space_gap; constructor|exact Ta|apply space_gap; constructor]. }
  destruct F as [|c v3 l vs Tc F].
  { change (write_array [a; b] n) with (txt "[ " ++ a ++ txt ", " ++ b ++ txt " ]"). replace (txt "[ " ++ a ++ txt ", " ++ b ++ txt " ]") with ([91] ++ ([32] ++ a ++ [] ++ [44] ++ ([32] ++ b ++ [32])) ++ [93]) by (change (txt "[ ") with [91; 32]; change (txt " ]") with [32; 93]; change (txt ", ") with [44; 32]; rewrite <- !app_assoc; reflexivity).
    apply text_array, elements_more; [apply space_gap; constructor|exact Ta|constructor|apply elements_one; [apply space_gap; constructor|exact Tb|apply space_gap; constructor]]. }
  unfold write_array. set (w0 := [10] ++ (if (n =? 0)%nat then [] else indent_str (n - 1))).
  replace (txt "[" ++ [10] ++ indent_str n ++ a ++ txt "," ++ [10] ++
           concat (map (fun item => indent_str n ++ item ++ txt "," ++ [10]) (removelast (b :: c :: l))) ++
           indent_str n ++ last (b :: c :: l) [] ++ [10] ++ (if (n =? 0)%nat then [] else indent_str (n - 1)) ++ txt "]")
    with ([91] ++ (([10] ++ indent_str n) ++ a ++ [] ++ [44] ++ ([10] ++ concat (map (fun item => indent_str n ++ item ++ txt "," ++ [10]) (removelast (b :: c :: l))) ++ indent_str n ++ last (b :: c :: l) [] ++ w0)) ++ [93])
    by (unfold w0; change (txt "[") with [91]; change (txt "]") with [93]; change (txt ",") with [44]; rewrite <- !app_assoc; reflexivity).
  assert (G0 : gap w0) by (unfold w0; apply line_gap; destruct (n =? 0)%nat; [constructor|apply indent_gap]).
  apply text_array, elements_more; [apply line_gap, indent_gap|exact Ta|constructor|].
  apply elements_lines; [exact G0|discriminate|constructor; [exact Tb|constructor; [exact Tc|exact F]]|apply line_gap; constructor].
Qed.

(** keys between quotation marks *)
Definition plain_text (cs : list Z) : Prop := Forall (fun c => scalar c /\ c <> 34 /\ c <> 92 /\ ~ In c line_ends) cs.
Lemma plain_key k : plain_text k -> key_text letter part ([34] ++ k ++ [34]) k.
Proof.
  intros P. right. exists 34, (map (fun c => [c]) k). split; [auto|]. split; [reflexivity|]. split.
  - clear P. induction k as [|c k IH]; [reflexivity|]. cbn [map concat app]. f_equal. exact IH.
  - apply Forall_forall. intros x I. apply in_map_iff in I as (c & <- & I). left. exists [c]. unfold plain_text in P. rewrite Forall_forall in P. destruct (P c I) as (_ & A & B & C). apply piece_char; auto.
Qed.
Lemma plain_pieces k : plain_text k -> pieces 34 k k.
Proof.
  induction 1 as [|c k (_ & A & B & C) _ IH]; [constructor|]. apply (pieces_more 34 [c] [c] k k); [apply piece_char; auto|exact IH].
Qed.
Lemma plain_string k : plain_text k -> value_text ([34] ++ k ++ [34]) (JString (to_bytes k)).
Proof. intros P. apply (text_string letter part _ k k). exists 34. split; [auto|]. split; [reflexivity|apply plain_pieces, P]. Qed.

Definition entry_text (e : list Z * list Z) (kv : name * jval) : Prop := plain_text (fst e) /\ fst kv = to_bytes (fst e) /\ value_text (snd e) (snd kv).
Lemma members_lines n w1 : gap w1 -> forall es kvs, Forall2 entry_text es kvs -> forall w, gap w ->
  members (w ++ concat (map (fun e => indent_str n ++ [34] ++ fst e ++ [34] ++ txt " : " ++ snd e ++ txt "," ++ [10]) es) ++ w1) kvs.
Proof.
  intros G1. induction 1 as [|[k t] [k' v] es kvs (P & Ek & T) F IH]; intros w G.
  - cbn [map concat app]. apply members_none, gap_app; assumption.
  - cbn [fst snd] in *. subst k'. cbn [map concat fst snd].
    replace (w ++ ((indent_str n ++ [34] ++ k ++ [34] ++ txt " : " ++ t ++ txt "," ++ [10]) ++ concat (map (fun e => indent_str n ++ [34] ++ fst e ++ [34] ++ txt " : " ++ snd e ++ txt "," ++ [10]) es)) ++ w1)
      with (((w ++ indent_str n) ++ ([34] ++ k ++ [34]) ++ [32] ++ [58] ++ [32] ++ t ++ []) ++ [44] ++ ([10] ++ concat (map (fun e => indent_str n ++ [34] ++ fst e ++ [34] ++ txt " : " ++ snd e ++ txt "," ++ [10]) es) ++ w1))
      by (change (txt ",") with [44]; change (txt " : ") with [32; 58; 32]; rewrite <- !app_assoc; reflexivity).
    apply members_more; [|apply IH, line_gap; constructor].
    apply member_is; [apply gap_app; [exact G|apply indent_gap]|apply plain_key, P|apply space_gap; constructor|apply space_gap; constructor|exact T|constructor].
Qed.

Lemma map_text es kvs n : Forall2 entry_text es kvs -> NoDup (map fst kvs) -> value_text (write_map es n) (JMap kvs).
Proof.
  intros F N. destruct F as [|[k t] [k' v] es kvs E F]; [apply (text_map letter part [] []); [apply members_none; constructor|constructor]|].
  destruct F as [|e kv es kvs E2 F].
  - destruct E as (P & Ek & T). cbn [fst snd] in *. subst k'. unfold write_map.
    replace (txt "{ " ++ [34] ++ k ++ [34] ++ txt " : " ++ t ++ txt " }") with ([123] ++ ([32] ++ ([34] ++ k ++ [34]) ++ [32] ++ [58] ++ [32] ++ t ++ [32]) ++ [125])
      by (change (txt "{ ") with [123; 32]; change (txt " }") with [32; 125]; change (txt " : ") with [32; 58; 32]; rewrite <- !app_assoc; reflexivity).
    apply text_map; [|exact N]. apply members_one, member_is; [apply space_gap; constructor|apply plain_key, P|apply space_gap; constructor|apply space_gap; constructor|exact T|apply space_gap; constructor].
  - unfold write_map. set (w1 := if (n =? 0)%nat then [] else indent_str (n - 1)).
    match goal with |- context [concat ?x] => set (X := concat x) end.
    replace (txt "{" ++ [10] ++ X ++ w1 ++ txt "}") with ([123] ++ ([10] ++ X ++ w1) ++ [125]) by (change (txt "{") with [123]; change (txt "}") with [125]; rewrite <- !app_assoc; reflexivity).
    apply text_map; [|exact N]. unfold X. apply (members_lines n w1); [unfold w1; destruct (n =? 0)%nat; [constructor|apply indent_gap]|constructor; [exact E|constructor; [exact E2|exact F]]|apply line_gap; constructor].
Qed.
End Texts.

(* ------------------------------------------------------------------ *)
(** * Numbers *)

(** rounding a whole number is finding the nearest double *)
Lemma round_nearest s n m : 0 <= n -> nearest n 1 = Some m -> fround F64 s n = FNum s m.
Proof.
  intros N. unfold nearest, fround. rewrite Z.div_1_r, Z.mul_1_l. change (sub F64) with 0. change (fbits F64) with 52. change (ebits F64) with 11. cbv zeta.
  change (52 + 1 + (2 ^ 11 - 3) + 0) with 2098. destruct (2 ^ 2098 <=? _); [discriminate|]. intros H. apply Some_inj in H. rewrite H. reflexivity.
Qed.

Lemma whole_nonneg s n bits : fdec F64 bits = FNum s n -> 0 <= n.
Proof. apply fdec_nonneg. cbn. lia. Qed.

(** the integer that a text of a whole number is read as *)
Lemma int_nearest s m bits : 0 <= m -> nearest_double s (m * 2 ^ 1074) 1 bits ->
  (exists n, fdec F64 bits = FNum s n /\ (i64_to_f64 (signed s m) = bits \/ (s = true /\ n = 0 /\ m = 0))) /\
  forall n, fdec F64 bits = FNum s n -> n < 2 ^ 63 * 2 ^ 1074 -> m < 2 ^ 63.
Proof.
  intros M Nd. pose proof (pow2_pos 1074 ltac:(lia)) as HU. change 1074 with unit_exp in *. split.
  - pose proof Nd as (U & n & E & Min & _). exists n. split; [exact E|]. destruct (nearest_unique (m * 2 ^ unit_exp) 1 ltac:(nia) ltac:(lia) s bits Nd) as (m' & Em & Eb).
    destruct (Z.eq_dec m 0) as [-> | Nz].
    + destruct s; [right; split; [reflexivity|]; split; [|reflexivity]|left].
      * specialize (Min (2 ^ 63) 0). assert (A : Z.abs (n * 1 - 0 * 2 ^ unit_exp) <= Z.abs (0 * 1 - 0 * 2 ^ unit_exp)) by (apply Min; [unfold u64_range; lia|vm_compute; reflexivity]). rewrite Z.mul_0_l in A. lia.
      * rewrite Z.mul_0_l in Em. vm_compute in Em. assert (m' = 0) as -> by (symmetry; apply Some_inj, Em). rewrite Eb. vm_compute. reflexivity.
    + left. unfold i64_to_f64, of_int. rewrite Eb. f_equal. assert (S : (signed s m <? 0) = s) by (destruct s; cbn [signed]; lia). assert (A : Z.abs (signed s m) = m) by (destruct s; cbn [signed]; lia). rewrite S, A. apply round_nearest; [nia|exact Em].
  - intros n E L. destruct Nd as (U & n' & E' & Min & _). assert (n' = n) as ->. { rewrite E in E'. symmetry. exact (f_equal (fun v => match v with FNum _ z => z | _ => 0 end) E'). }
    destruct (Z_lt_ge_dec m (2 ^ 63)) as [H|H]; [exact H|exfalso].
    assert (Mg : magnitude (2 ^ 63 * 2 ^ unit_exp)). { right. exists (2 ^ 52), (11 + 1074). split; [|lia]. unfold unit_exp. rewrite (Z.pow_add_r 2 11 1074) by lia. change (2 ^ 63) with (2 ^ 52 * 2 ^ 11). ring. }
    destruct (magnitude_bits s _ Mg) as [U' E2]. specialize (Min _ _ U' E2). revert Min L H HU. generalize (2 ^ unit_exp). intros W Min L H HU. nia.
Qed.

Lemma digits_ascii ds : Forall is_digit ds -> ascii ds.
Proof. intros H. eapply Forall_impl; [|exact H]. unfold is_digit. intros c L. cbn beta in L. lia. Qed.

Section Numbers.
Variable letter part : Z -> bool.
Lemma number_text bits t : clean_number bits -> shown t bits -> ascii t /\ exists j, value_text letter part t j /\ means (MNumber bits) j.
Proof.
  intros (U & s0 & n0 & E0 & L) (s & n & i & dot & f & m & E & -> & Wi & Df & Sh & Rd & Nd & Ex).
  assert (n0 = n /\ s0 = s) as [-> ->]. { rewrite E in E0. split; [exact (f_equal (fun v => match v with FNum _ z => z | _ => 0 end) (eq_sym E0))|exact (f_equal (fun v => match v with FNum b _ => b | _ => true end) (eq_sym E0))]. }
  assert (Di : Forall is_digit i) by (apply digits_all, whole_digits, Wi). pose proof (reads_nonneg 10 (i ++ f) m ltac:(lia) Rd) as M.
  assert (Sg : sign (if s then [45] else [])) by (unfold sign; destruct s; auto).
  assert (Ag : ascii (if s then [45] else [])) by (destruct s; [constructor; [lia|constructor]|constructor]).
  destruct (Z.eqb_spec (n mod 2 ^ 1074) 0) as [W|W]; destruct Sh as [-> Hf].
  - subst f. cbn [app] in *. rewrite !app_nil_r in *. change (10 ^ zlen []) with 1 in Nd. split; [apply Forall_app; split; [exact Ag|apply digits_ascii, Di]|].
    destruct (int_nearest s m bits M Nd) as [(n' & E' & I) R]. assert (n' = n) as ->. { rewrite E in E'. exact (f_equal (fun v => match v with FNum _ z => z | _ => 0 end) (eq_sym E')). }
    specialize (R n E (L W)). assert (Ws : with_sign (if s then [45] else []) m = signed s m) by (destruct s; reflexivity).
    exists (JInt (signed s m)). split.
    + rewrite <- Ws. apply text_int, int_decimal; [exact Sg|exact Wi|exact Rd|]. rewrite Ws. unfold i64_range. destruct s; cbn [signed]; lia.
    + apply (means_int bits s n); [exact E|exact W| |].
      * destruct I as [I|(A & B & ->)]; [left; exact I|right]. subst s. auto.
      * intros B. rewrite (Ex W B). reflexivity.
  - split. { apply Forall_app. split; [exact Ag|]. apply Forall_app. split; [apply digits_ascii, Di|]. apply Forall_app. split; [constructor; [lia|constructor]|apply digits_ascii, Df]. }
    exists (JDouble bits). split; [|apply (means_double bits s n E W)].
    apply text_double. rewrite <- (app_nil_r f) at 1. apply (double_is _ i [46] f [] 0 m (0 - zlen f)); [exact Sg|exact Df|left; auto|left; auto|exact Rd|reflexivity|].
    replace (Z.max 0 (0 - zlen f)) with 0 by (pose proof (zlen_nonneg f); lia). replace (Z.max 0 (- (0 - zlen f))) with (zlen f) by (pose proof (zlen_nonneg f); lia). rewrite Z.mul_1_r.
    assert (B : match (if s then [45] else []) with [45] => true | _ => false end = s) by (destruct s; reflexivity). rewrite B. exact Nd.
Qed.
End Numbers.

(* ------------------------------------------------------------------ *)
(** * Values *)

Section Values.
Variable letter part : Z -> bool.
Variable show : Z -> list Z.
Hypothesis Hshow : shows show.

(** the text and its characters *)
Definition text_is (v : mval) (t : list Z) : Prop :=
  exists cs, t = to_bytes cs /\ Forall scalar cs /\ exists j, value_text letter part cs j /\ means v j.
Lemma ascii_text v t j : ascii t -> value_text letter part t j -> means v j -> text_is v t.
Proof. intros A T M. exists t. split; [symmetry; apply ascii_bytes, A|]. split; [apply ascii_scalar, A|]. exists j. auto. Qed.

Lemma array_scalar l n : Forall (Forall scalar) l -> Forall scalar (write_array l n).
Proof.
  intros F. assert (At : forall s, ascii s -> Forall scalar s) by (intros; apply ascii_scalar; assumption). pose proof (At _ (indent_ascii n)) as Ai. pose proof (At _ (indent_ascii (n - 1))) as Ai'.
  destruct F as [|a l Fa F]; [apply At; asc|]. destruct F as [|b l Fb F]; [cbn [write_array]; repeat (apply Forall_app; split); try assumption; apply At; asc|].
  destruct F as [|c l Fc F]; [cbn [write_array]; repeat (apply Forall_app; split); try assumption; apply At; asc|]. unfold write_array.
  assert (L : Forall (Forall scalar) (b :: c :: l)) by (constructor; [exact Fb|constructor; [exact Fc|exact F]]).
  assert (X : Forall (Forall scalar) (removelast (b :: c :: l)) /\ Forall scalar (last (b :: c :: l) [])).
  { rewrite (app_removelast_last [] (l := b :: c :: l)) in L by discriminate. apply Forall_app in L as [L1 L2]. split; [exact L1|]. inversion L2; assumption. }
  destruct X as [X1 X2]. generalize dependent (removelast (b :: c :: l)). intros mid X1. generalize dependent (last (b :: c :: l) []). intros z X2.
  assert (Xm : Forall scalar (concat (map (fun item => indent_str n ++ item ++ txt "," ++ [10]) mid))).
  { apply Forall_concat. apply Forall_forall. intros x I. apply in_map_iff in I as (y & <- & I). rewrite Forall_forall in X1. specialize (X1 y I). repeat (apply Forall_app; split); try assumption; apply At; asc. }
  repeat (apply Forall_app; split); try assumption; try (apply At; asc). destruct (n =? 0)%nat; [constructor|exact Ai'].
Qed.
Lemma map_scalar (l : list (list Z * list Z)) n : Forall (fun e => Forall scalar (fst e) /\ Forall scalar (snd e)) l -> Forall scalar (write_map l n).
Proof.
  intros F. assert (At : forall s, ascii s -> Forall scalar s) by (intros; apply ascii_scalar; assumption). pose proof (At _ (indent_ascii n)) as Ai. pose proof (At _ (indent_ascii (n - 1))) as Ai'.
  destruct l as [|[k v] [|e l]]; [apply At; asc| |].
  - inversion F as [|a b [Fk Fv] F']; subst. cbn [fst snd] in *. cbn [write_map]. repeat (apply Forall_app; split); try assumption; apply At; asc.
  - unfold write_map. assert (Xm : Forall scalar (concat (map (fun e => indent_str n ++ [34] ++ fst e ++ [34] ++ txt " : " ++ snd e ++ txt "," ++ [10]) ((k, v) :: e :: l)))).
    { apply Forall_concat. apply Forall_forall. intros x I. apply in_map_iff in I as (y & <- & I). rewrite Forall_forall in F. destruct (F y I) as [Fk Fv]. repeat (apply Forall_app; split); try assumption; apply At; asc. }
    generalize dependent (concat (map (fun e => indent_str n ++ [34] ++ fst e ++ [34] ++ txt " : " ++ snd e ++ txt "," ++ [10]) ((k, v) :: e :: l))). intros body Xm.
    repeat (apply Forall_app; split); try assumption; try (apply At; asc). destruct (n =? 0)%nat; [constructor|exact Ai'].
Qed.

Lemma array_is l ts n : Forall2 text_is l ts -> text_is (MArray l) (write_array ts n).
Proof.
  intros F. assert (X : exists css js, ts = map to_bytes css /\ Forall (Forall scalar) css /\ Forall2 (value_text letter part) css js /\ Forall2 means l js).
  { induction F as [|v t l ts (cs & -> & S & j & T & M) _ (css & js & -> & Ss & Ts & Ms)]; [exists [], []; repeat constructor|]. exists (cs :: css), (j :: js). split; [reflexivity|]. split; [constructor; assumption|]. split; constructor; assumption. }
  destruct X as (css & js & -> & Ss & Ts & Ms). exists (write_array css n). split; [symmetry; apply write_array_bytes|]. split; [apply array_scalar, Ss|]. exists (JArray js). split; [apply array_text, Ts|apply means_array, Ms].
Qed.
Lemma map_is (m : smap mval) ts n : NoDup (map fst m) -> Forall (fun e => clean (fst e)) m -> Forall2 (fun e t => fst t = fst e /\ text_is (snd e) (snd t)) m ts -> text_is (MMap m) (write_map ts n).
Proof.
  intros N C F. assert (X : exists ces js, ts = map entry_bytes ces /\ Forall (fun e => Forall scalar (fst e) /\ Forall scalar (snd e)) ces /\ Forall2 (entry_text letter part) ces js /\
    Forall2 (fun a b => fst a = fst b /\ means (snd a) (snd b)) m js /\ map fst js = map fst m).
  { clear N. induction F as [|[k v] [k' t] m ts [Ek (cs & Et & S & j & T & M)] _ IH]; [exists [], []; repeat constructor|]. cbn [fst snd] in *. subst k' t. inversion C as [|a b (ks & Ek & Pk) C']; subst. destruct (IH C') as (ces & js & -> & Ss & Ts & Ms & Eq). cbn [fst] in Ek. subst k.
    exists ((ks, cs) :: ces), ((to_bytes ks, j) :: js). split; [reflexivity|]. split; [constructor; [split; [eapply Forall_impl; [|exact Pk]; intros c (A & _); exact A|exact S]|exact Ss]|]. split; [constructor; [|exact Ts]; split; [exact Pk|split; [reflexivity|exact T]]|]. split; [constructor; [split; [reflexivity|exact M]|exact Ms]|cbn [map fst]; f_equal; exact Eq]. }
  destruct X as (ces & js & -> & Ss & Ts & Ms & Eq). exists (write_map ces n). split; [symmetry; apply write_map_bytes|]. split; [apply map_scalar, Ss|]. exists (JMap js). split; [apply map_text; [exact Ts|rewrite Eq; exact N]|apply means_map, Ms].
Qed.

Lemma write_is v : printable v -> forall n, text_is v (write show v n).
Proof.
  induction 1 as [b|s Hc|bits Hb|l _ IH|m N Hm _ IH| |]; intros n; cbn [write].
  - destruct b; [apply (ascii_text _ _ (JBool true)); [asc|constructor|constructor]|apply (ascii_text _ _ (JBool false)); [asc|constructor|constructor]].
  - destruct Hc as (cs & -> & P). exists ([34] ++ cs ++ [34]). split; [rewrite !to_bytes_app; reflexivity|]. assert (S : Forall scalar cs) by (eapply Forall_impl; [|exact P]; intros c (A & _); exact A).
    split; [repeat (apply Forall_app; split); [apply ascii_scalar; asc|exact S|apply ascii_scalar; asc]|]. exists (JString (to_bytes cs)). split; [apply plain_string, P|constructor].
  - pose proof (Hshow bits (proj1 Hb)) as Sh. destruct Hb as (U & s & k & E & L). rewrite E in Sh. destruct (number_text letter part bits (show bits)) as (A & j & T & M); [split; [exact U|exists s, k; auto]|exact Sh|]. exact (ascii_text _ _ j A T M).
  - apply array_is. clear -IH. induction l as [|x l IHl]; [constructor|]. cbn [map]. constructor; [apply IH; left; reflexivity|apply IHl; intros y I; apply IH; right; exact I].
  - apply map_is; [exact N|apply Forall_forall; intros [k x] I; exact (Hm k x I)|]. clear -IH. induction m as [|[k x] m IHm]; [constructor|]. cbn [map fst snd]. constructor; [split; [reflexivity|cbn [snd]; apply (IH k x); left; reflexivity]|apply IHm; intros k' y I; apply (IH k'); right; exact I].
  - apply (ascii_text _ _ JNull); [asc|constructor|constructor].
  - apply (ascii_text _ _ JUndefined); [asc|constructor|constructor].
Qed.
End Values.

Theorem pretty_read letter part show v : letters_apart letter part -> shows show -> printable v ->
  exists j, parse_file letter part (to_string_pretty show v) = Some j /\ means v j.
Proof.
  intros A Hs P. destruct (write_is letter part show Hs v P 0) as (cs & E & S & j & T & M). exists j. split; [|exact M]. unfold to_string_pretty, parse_file. rewrite E.
  destruct (to_bytes_valid cs S) as (_ & V & C & _). rewrite V, C. assert (X : from_str letter part cs = Ok j). { apply from_str_complete; [exact A|]. exists [], cs, []. rewrite app_nil_r. split; [reflexivity|]. split; [constructor|]. split; [exact T|left; constructor]. }
  rewrite X. reflexivity.
Qed.
