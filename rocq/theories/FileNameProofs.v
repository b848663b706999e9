(** Proofs about file names, folder names and time files. *)
From Verif Require Import Base CompactionModel VarIntProofs TextModel TextProofs
  StringCompactionModel StringCompactionProofs FileNameModel FileNameSpec.

Lemma starts_with_app p s : starts_with p (p ++ s) = true.
Proof. induction p; cbn [app starts_with]; [reflexivity|]. now rewrite Z.eqb_refl. Qed.

Lemma ends_with_app p s : ends_with p (s ++ p) = true.
Proof. unfold ends_with. rewrite rev_app_distr. apply starts_with_app. Qed.

Lemma not_digit_95 : is_digit 95 = false. Proof. reflexivity. Qed.

(** numbers *)
Definition stops (s : list Z) : Prop := match s with c :: _ => is_digit c = false | [] => False end.

Lemma get_num_loop_digits ds rest f acc : all_digits ds -> stops rest -> (length ds < f)%nat ->
  get_num_loop f (ds ++ rest) acc =
  Some (fold_left (fun acc c => acc * 10 + (c - 48)) ds acc, rest).
Proof.
  intros Hd Hr; revert f acc; induction Hd as [|c ds Hc Hd IH]; intros f acc Hf.
  - destruct f as [|f]; [cbn in Hf; lia|].
    destruct rest as [|c rest]; [contradiction|]. cbn [app get_num_loop fold_left].
    cbn in Hr. now rewrite Hr.
  - destruct f as [|f]; [cbn in Hf; lia|]. cbn [app get_num_loop fold_left].
    rewrite Hc. apply IH. cbn [length] in Hf; lia.
Qed.

Lemma get_num_loop_long ds rest f acc : all_digits ds -> (f <= length ds)%nat ->
  get_num_loop f (ds ++ rest) acc = None.
Proof.
  intros Hd; revert f acc; induction Hd as [|c ds Hc Hd IH]; intros f acc Hf.
  - destruct f; [reflexivity|cbn in Hf; lia].
  - destruct f as [|f]; [reflexivity|]. cbn [app get_num_loop]. rewrite Hc. apply IH.
    cbn [length] in Hf; lia.
Qed.

Lemma digits_lower ds : canonical ds -> (1 < length ds)%nat ->
  10 ^ Z.of_nat (length ds - 1) <= digits_value ds.
Proof.
  intros (Hd & Hn & H0) Hl. destruct ds as [|c ds]; [congruence|].
  change (c :: ds) with ([c] ++ ds). rewrite digits_value_app.
  assert (Hc : 49 <= c).
  { inversion Hd as [|? ? Hc _]; subst. apply is_digit_iff in Hc. cbn [hd] in H0.
    destruct (Z.eq_dec c 48); [|lia]. specialize (H0 e). rewrite H0 in Hl. cbn in Hl; lia. }
  replace (length ([c] ++ ds) - 1)%nat with (length ds) by (cbn; lia).
  assert (Hds : all_digits ds) by (inversion Hd; assumption).
  pose proof (digits_value_nonneg _ Hds). pose proof (pow10_pos (length ds)).
  replace (digits_value [c]) with (c - 48) by (cbn; lia). nia.
Qed.

Lemma digits_short n k : 0 <= n < 10 ^ Z.of_nat k -> (0 < k)%nat -> (length (print_uint n) <= k)%nat.
Proof.
  intros Hn Hk. destruct (le_gt_dec (length (print_uint n)) k) as [|Hgt]; [assumption|].
  exfalso. pose proof (digits_lower _ (print_canonical n ltac:(lia)) ltac:(lia)) as H.
  rewrite print_uint_value in H by lia.
  assert (10 ^ Z.of_nat k <= 10 ^ Z.of_nat (length (print_uint n) - 1))
    by (apply Z.pow_le_mono_r; lia). lia.
Qed.

Lemma digits_long n k : 10 ^ Z.of_nat k <= n -> (k < length (print_uint n))%nat.
Proof.
  intros Hn. pose proof (pow10_pos k).
  destruct (le_gt_dec (length (print_uint n)) k) as [Hle|]; [|lia].
  exfalso. pose proof (digits_value_bound _ (print_uint_digits n ltac:(lia))) as H0.
  rewrite print_uint_value in H0 by lia.
  assert (10 ^ Z.of_nat (length (print_uint n)) <= 10 ^ Z.of_nat k) by (apply Z.pow_le_mono_r; lia). lia.
Qed.

Lemma get_num_print n rest : 0 <= n -> stops rest ->
  get_num (95 :: print_uint n ++ rest) = if n <? 100000000 then Some (n, rest) else None.
Proof.
  intros Hn Hr. unfold get_num. rewrite Z.eqb_refl.
  destruct (Z.ltb_spec n 100000000).
  - rewrite get_num_loop_digits; [|now apply print_uint_digits|assumption|].
    + f_equal. f_equal. now apply print_uint_value.
    + pose proof (digits_short n 8 ltac:(cbn; lia) ltac:(lia)). lia.
  - apply get_num_loop_long; [now apply print_uint_digits|].
    pose proof (digits_long n 8 ltac:(cbn; lia)). lia.
Qed.

Definition numtext (l : list Z) : list Z := flat_map (fun n => 95 :: print_uint n) l.

Lemma numtext_stops l : stops (numtext l ++ txt_his).
Proof. destruct l; reflexivity. Qed.

Lemma get_num_his : get_num txt_his = None. Proof. reflexivity. Qed.

Lemma read_order_text l : Forall (fun n => 0 <= n) l -> forall fuel acc, (length l < fuel)%nat ->
  read_order fuel (numtext l ++ txt_his) acc =
  Ok (if forallb (fun n => n <? 100000000) l then Some (acc ++ l) else None).
Proof.
  induction 1 as [|n l Hn Hl IH]; intros fuel acc Hf; (destruct fuel as [|fuel]; [cbn in Hf; lia|]).
  - cbn [numtext flat_map app read_order forallb]. rewrite get_num_his.
    now rewrite app_nil_r.
  - cbn [numtext flat_map read_order forallb]. fold (numtext l).
    cbn [app]. rewrite <- app_assoc.
    rewrite get_num_print by (auto using numtext_stops).
    destruct (n <? 100000000); cbn [andb].
    + rewrite IH by (cbn [length] in Hf; lia).
      rewrite <- app_assoc. reflexivity.
    + assert (H95 : forall x, eqb_bytes (95 :: x) txt_his = false) by reflexivity.
      now rewrite H95.
Qed.

Lemma numtext_length l : (length l <= length (numtext l))%nat.
Proof.
  induction l as [|n l IH]; [apply le_n|]. cbn [numtext flat_map]. fold (numtext l).
  cbn [app length]. rewrite app_length. lia.
Qed.

(** slices *)
Lemma boundary_end s : char_boundary s (length s) = true.
Proof.
  unfold char_boundary. destruct (length s) eqn:E; [reflexivity|]. rewrite <- E.
  assert (H : nth_error s (length s) = None) by (apply nth_error_None; lia).
  rewrite H. apply Nat.eqb_refl.
Qed.

Lemma boundary_at a c b : 0 <= c < 128 -> char_boundary (a ++ c :: b) (length a) = true.
Proof.
  intros Hc. unfold char_boundary. destruct (length a) eqn:E; [reflexivity|]. rewrite <- E.
  rewrite nth_error_app2 by lia. rewrite Nat.sub_diag. cbn [nth_error].
  replace (c <? 128) with true by lia. reflexivity.
Qed.

Lemma slice_tail a b : char_boundary (a ++ b) (length a) = true ->
  slice (a ++ b) (length a) (length (a ++ b)) = Ok b.
Proof.
  intros H. unfold slice. rewrite H, boundary_end.
  replace (length a <=? length (a ++ b))%nat with true
    by (symmetry; apply Nat.leb_le; rewrite app_length; lia).
  cbn [andb]. f_equal. rewrite skipn_app, skipn_all, Nat.sub_diag, app_nil_l. cbn [skipn].
  rewrite app_length. replace (length a + length b - length a)%nat with (length b) by lia.
  apply firstn_all.
Qed.

Lemma slice_one_end b : slice b 0 (length b) = Ok b.
Proof. apply (slice_tail [] b). reflexivity. Qed.

Lemma index_of_app c u r : ~ In c u -> index_of c (u ++ c :: r) = Some (length u).
Proof.
  induction u as [|x u IH]; intros H.
  - cbn. now rewrite Z.eqb_refl.
  - cbn [app index_of length]. destruct (Z.eqb_spec x c).
    + subst. exfalso; apply H; now left.
    + rewrite IH; [reflexivity|]. intro; apply H; now right.
Qed.

Lemma index_of_split c s i : index_of c s = Some i ->
  exists u r, s = u ++ c :: r /\ ~ In c u /\ length u = i.
Proof.
  revert i; induction s as [|x s IH]; intros i H; [discriminate|].
  cbn in H. destruct (Z.eqb_spec x c).
  - subst. apply Some_inj in H; subst. exists [], s. repeat split; auto.
  - destruct (index_of c s) as [j|]; [|discriminate]. cbn in H. apply Some_inj in H; subst.
    destruct (IH j eq_refl) as (u & r & -> & Hn & <-).
    exists (x :: u), r. split; [reflexivity|]. split; [|reflexivity].
    cbn [In]. intuition.
Qed.

Lemma digits_no c ds : all_digits ds -> is_digit c = false -> ~ In c ds.
Proof.
  intros H Hc Hin. unfold all_digits in H. rewrite Forall_forall in H. apply H in Hin. congruence.
Qed.

(** the part of a name after the tag *)
Definition prevtext (prev : option Z) : list Z :=
  match prev with Some p => 40 :: print_uint p ++ [41] | None => [] end.
Definition body (control : Z) (prev : option Z) (order : list Z) : list Z :=
  prevtext prev ++ numtext (control :: order) ++ txt_his.

Lemma filename_shape p : filename p =
  (match p_tag p with Some t => 35 :: t ++ [35] | None => [] end) ++
  body (p_control p) (if p_control p =? p_prev p then None else Some (p_prev p)) (p_order p).
Proof.
  unfold filename, calc_filename, body, prevtext. f_equal. f_equal.
  cbn [numtext flat_map]. cbn [app]. now rewrite <- app_assoc.
Qed.

Lemma filename_ends p : ends_with txt_his (filename p) = true.
Proof. rewrite filename_shape. unfold body. rewrite !app_assoc. apply ends_with_app. Qed.

Lemma zlen_ge2 {A} (a b : A) l : (zlen (a :: b :: l) <=? 1) = false.
Proof. unfold zlen. cbn [length]. lia. Qed.

Lemma zlen_app_his s : (zlen (s ++ txt_his) <=? 1) = false.
Proof. unfold zlen. rewrite app_length. cbn [txt_his length]. lia. Qed.

Lemma get_prev_none order control : get_prev_ctl (numtext (control :: order) ++ txt_his) = Ok None.
Proof. unfold get_prev_ctl. rewrite zlen_app_his. reflexivity. Qed.

Lemma print_uint_nonempty n : 0 <= n -> print_uint n <> [].
Proof. intros H. apply (print_canonical n H). Qed.

Lemma get_prev_some p x : 0 <= p ->
  get_prev_ctl (40 :: print_uint p ++ 41 :: x) = Ok (Some (print_uint p)).
Proof.
  intros Hp. unfold get_prev_ctl.
  replace (zlen (40 :: print_uint p ++ 41 :: x) <=? 1) with false
    by (unfold zlen; cbn [length]; rewrite app_length; cbn [length]; lia).
  cbn [negb Z.eqb Pos.eqb].
  rewrite index_of_app by (apply digits_no; [now apply print_uint_digits|reflexivity]).
  unfold slice.
  pose proof (print_uint_nonempty p Hp). pose proof (print_uint_digits p Hp) as Hd.
  replace (1 <=? length (print_uint p) + 1)%nat with true by (symmetry; apply Nat.leb_le; lia).
  assert (H1 : char_boundary (40 :: print_uint p ++ 41 :: x) 1 = true).
  { destruct (print_uint p) as [|c r]; [congruence|]. inversion Hd as [|? ? Hc _]; subst.
    apply is_digit_iff in Hc. change (40 :: (c :: r) ++ 41 :: x) with ([40] ++ c :: (r ++ 41 :: x)).
    apply (boundary_at [40]). lia. }
  assert (H2 : char_boundary (40 :: print_uint p ++ 41 :: x) (length (print_uint p) + 1) = true).
  { change (40 :: print_uint p ++ 41 :: x) with ((40 :: print_uint p) ++ 41 :: x).
    replace (length (print_uint p) + 1)%nat with (length (40 :: print_uint p)) by (cbn; lia).
    apply boundary_at. lia. }
  rewrite H1, H2. cbn [andb bind skipn].
  replace (length (print_uint p) + 1 - 1)%nat with (length (print_uint p) + 0)%nat by lia.
  rewrite firstn_app_2. cbn [firstn]. now rewrite app_nil_r.
Qed.

Lemma parse_u32_print n : u32 n -> parse_u32 (print_uint n) = Some n.
Proof.
  intros [H0 H1]. pose proof (print_uint_digits n H0) as Hd.
  pose proof (print_uint_nonempty n H0) as Hne. pose proof (print_uint_value n H0) as Hv.
  unfold parse_u32. destruct (print_uint n) as [|c r] eqn:E; [congruence|].
  assert (Hc : (c =? 43) = false).
  { inversion Hd as [|? ? Hc _]; subst. apply is_digit_iff in Hc. lia. }
  rewrite Hc. rewrite Hv.
  replace (forallb is_digit (c :: r)) with true
    by (symmetry; apply forallb_forall; unfold all_digits in Hd; rewrite Forall_forall in Hd; exact Hd).
  replace (n <? 2 ^ 32) with true by lia. reflexivity.
Qed.

Definition small (control : Z) (order : list Z) : bool :=
  (control <? 100000000) && forallb (fun n => n <? 100000000) order.

(** reading from after the previous control number *)
Lemma numbers_read control order prev : 0 <= control -> Forall (fun n => 0 <= n) order ->
  match get_num (numtext (control :: order) ++ txt_his) with
  | None => Ok None
  | Some (n, s) =>
      order <- read_order (S (length s)) s [] ;
      match order with
      | None => Ok None
      | Some order => Ok (props_new n (prev n) order None)
      end
  end = Ok (if small control order then props_new control (prev control) order None else None).
Proof.
  intros Hc Ho. cbn [numtext flat_map]. fold (numtext order).
  cbn [app]. rewrite <- app_assoc.
  rewrite get_num_print by (auto using numtext_stops). unfold small.
  destruct (control <? 100000000); cbn [andb]; [|reflexivity].
  rewrite read_order_text; [|assumption|].
  - cbn [bind]. now destruct (forallb (fun n => n <? 100000000) order).
  - rewrite app_length. pose proof (numtext_length order). lia.
Qed.

Lemma order_nonneg o : Forall u32 o -> Forall (fun n => 0 <= n) o.
Proof. apply Forall_impl. unfold u32. lia. Qed.

Lemma analyze_body control prev order :
  u32 control -> Forall u32 order -> (match prev with Some p => u32 p | None => True end) ->
  analyze_file_name (body control prev order) =
  Ok (if small control order
      then props_new control (match prev with Some p => p | None => control end) order None else None).
Proof.
  intros Hc Ho Hp. unfold analyze_file_name.
  replace (ends_with txt_his (body control prev order)) with true
    by (symmetry; unfold body; rewrite app_assoc; apply ends_with_app).
  cbn [negb].
  assert (Ht : get_tag (body control prev order) = Ok None).
  { unfold get_tag, body. rewrite app_assoc, zlen_app_his. destruct prev; reflexivity. }
  rewrite Ht. cbn [bind]. apply order_nonneg in Ho.
  destruct prev as [p|].
  - unfold body. cbn [prevtext].
    set (x := numtext (control :: order) ++ txt_his).
    assert (E : (40 :: print_uint p ++ [41]) ++ x = 40 :: print_uint p ++ 41 :: x)
      by (cbn [app]; now rewrite <- app_assoc).
    rewrite E, get_prev_some by apply Hp. cbn [bind].
    replace (length (print_uint p) + 2)%nat with (length (40 :: print_uint p ++ [41]))
      by (cbn [length]; rewrite app_length; cbn; lia).
    rewrite <- E, (slice_tail (40 :: print_uint p ++ [41]) x).
    + cbn [bind]. subst x. rewrite parse_u32_print by exact Hp.
      apply (numbers_read control order (fun _ => p)); [apply Hc|assumption].
    + unfold x. cbn [numtext flat_map]. cbn [app].
      apply (boundary_at (40 :: print_uint p ++ [41]) 95). lia.
  - unfold body. cbn [prevtext app].
    change (numtext (control :: order) ++ txt_his) with (numtext (control :: order) ++ txt_his).
    rewrite get_prev_none. cbn [bind].
    apply (numbers_read control order (fun n => n)); [apply Hc|assumption].
Qed.

Lemma props_eta p : Props (p_control p) (p_prev p) (p_order p) (p_tag p) = p.
Proof. now destruct p. Qed.

Lemma small_iff p : p_tag p = None ->
  (small (p_control p) (p_order p) = true <-> readable p).
Proof.
  intros Ht. unfold small, readable. rewrite andb_true_iff, forallb_forall, Forall_forall.
  rewrite Z.ltb_lt. split.
  - intros [H1 H2]. split; [assumption|]. split; [assumption|]. intros x Hx. specialize (H2 x Hx). lia.
  - intros (_ & H1 & H2). split; [assumption|]. intros x Hx. specialize (H2 x Hx). lia.
Qed.

Lemma analyze_untagged p : valid_props p -> p_tag p = None ->
  analyze_file_name (filename p) = Ok (if small (p_control p) (p_order p) then Some p else None).
Proof.
  intros (Hc & Hp & Ho & Hne & _) Ht. rewrite filename_shape, Ht. cbn [app].
  rewrite analyze_body; [|assumption|assumption|destruct (_ =? _); [exact I|assumption]].
  f_equal. destruct (small _ _); [|reflexivity].
  destruct p as [c pv o t]; cbn [p_control p_prev p_order p_tag] in *. subst t.
  unfold props_new. destruct o; [congruence|]. f_equal. f_equal.
  destruct (Z.eqb_spec c pv); congruence.
Qed.

(** tags *)
Lemma first_hash t x : exists u r, t ++ 35 :: x = u ++ 35 :: r /\ ~ In 35 u /\
  t ++ [35] = u ++ 35 :: firstn (length t - length u) r.
Proof.
  induction t as [|c t (u & r & E & Hn & E2)].
  - exists [], x. cbn. repeat split; auto.
  - destruct (Z.eq_dec c 35) as [->|Hc].
    + exists [], (t ++ 35 :: x). cbn [app]. repeat split; auto.
      cbn [length Nat.sub]. f_equal.
      replace (t ++ 35 :: x) with ((t ++ [35]) ++ x) by now rewrite <- app_assoc.
      replace (S (length t)) with (length (t ++ [35%Z]) + 0)%nat by (rewrite app_length; cbn; lia).
      rewrite firstn_app_2. cbn [firstn]. now rewrite app_nil_r.
    + exists (c :: u), r. cbn [app length Nat.sub]. rewrite E, E2. repeat split; auto.
      cbn [In]. intuition.
Qed.

Lemma split_first_unique (c : Z) u r u' r' : u ++ c :: r = u' ++ c :: r' ->
  ~ In c u -> ~ In c u' -> u = u' /\ r = r'.
Proof.
  revert u'; induction u as [|x u IH]; intros [|y u'] H Hu Hu'; cbn [app] in H.
  - injection H; auto.
  - injection H as -> _. exfalso; apply Hu'; now left.
  - injection H as -> _. exfalso; apply Hu; now left.
  - injection H as -> H. destruct (IH u' H); [| |subst; auto].
    + intro; apply Hu; now right.
    + intro; apply Hu'; now right.
Qed.

(** every tag either crashes or not *)
Definition bad_end (u : list Z) : bool :=
  match u with [] => true | _ => (128 <=? last u 0) && (last u 0 <? 192) end.

Lemma last_split (u : list Z) : u <> [] -> u = removelast u ++ [last u 0].
Proof. apply app_removelast_last. Qed.

Lemma head_boundary t x : utf8_valid t = true -> t <> [] -> char_boundary (35 :: t ++ x) 1 = true.
Proof.
  intros H Hn. destruct t as [|c t]; [congruence|]. unfold char_boundary. cbn [nth_error app].
  cbn [utf8_valid] in H.
  destruct (c <? 128) eqn:E; [reflexivity|].
  destruct (Z.leb_spec 192 c) as [|Hlt]; [reflexivity|]. exfalso.
  replace (194 <=? c) with false in H by lia. replace (224 <=? c) with false in H by lia.
  replace (240 <=? c) with false in H by lia. cbn [andb] in H.
  destruct t as [|b1 [|b2 [|b3 t]]]; discriminate H.
Qed.

Lemma analyze_tagged t p x : utf8_valid t = true -> p = 35 :: t ++ 35 :: x ++ txt_his ->
  exists u r, t ++ [35] = u ++ 35 :: r /\ ~ In 35 u /\
  analyze_file_name p = if bad_end u then Panic else Ok None.
Proof.
  intros Hu ->.
  destruct (first_hash t (x ++ txt_his)) as (u & r & E & Hn & E2).
  exists u, (firstn (length t - length u) r). split; [assumption|]. split; [assumption|].
  unfold analyze_file_name.
  replace (ends_with txt_his (35 :: t ++ 35 :: x ++ txt_his)) with true.
  2:{ symmetry. replace (35 :: t ++ 35 :: x ++ txt_his) with ((35 :: t ++ 35 :: x) ++ txt_his)
        by (cbn [app]; now rewrite <- app_assoc). apply ends_with_app. }
  cbn [negb]. unfold get_tag.
  replace (zlen (35 :: t ++ 35 :: x ++ txt_his) <=? 1) with false
    by (unfold zlen; cbn [length]; rewrite app_length; cbn [length]; lia).
  cbn [negb Z.eqb Pos.eqb].
  assert (Ei : index_of 35 (t ++ 35 :: x ++ txt_his) = Some (length u))
    by (rewrite E; now apply index_of_app).
  rewrite Ei.
  destruct u as [|c u].
  - reflexivity.
  - assert (Et : t <> []) by (intros ->; cbn [app] in E2; destruct u; discriminate E2 || (injection E2 as ->; exfalso; apply Hn; now left)).
    unfold slice at 1. rewrite (head_boundary t _ Hu Et).
    replace (1 <=? length (c :: u))%nat with true by reflexivity.
    assert (Hb : char_boundary (35 :: t ++ 35 :: x ++ txt_his) (length (c :: u)) = negb (bad_end (c :: u))).
    { rewrite E. unfold char_boundary. cbn [length nth_error].
      rewrite (last_split (c :: u)) by discriminate.
      assert (El : length (removelast (c :: u)) = length u).
      { pose proof (f_equal (@length Z) (last_split (c :: u) ltac:(discriminate))) as H.
        rewrite app_length in H. cbn [length] in H. lia. }
      rewrite <- app_assoc. rewrite nth_error_app2 by lia. rewrite El, Nat.sub_diag. cbn [app nth_error].
      unfold bad_end. rewrite <- (last_split (c :: u)) by discriminate.
      set (l := last (c :: u) 0).
      destruct (Z.ltb_spec l 128), (Z.leb_spec 192 l), (Z.leb_spec 128 l), (Z.ltb_spec l 192); cbn; try lia; reflexivity. }
    rewrite Hb. destruct (bad_end (c :: u)); cbn [negb andb bind]; [reflexivity|].
    assert (Etag : firstn (length (c :: u) - 1) (skipn 1 (35 :: t ++ 35 :: x ++ txt_his)) = removelast (c :: u)).
    { cbn [skipn length Nat.sub]. rewrite E. rewrite removelast_firstn_len. cbn [length Nat.pred].
      rewrite Nat.sub_0_r. rewrite firstn_app. cbn [length].
      replace (length u - S (length u))%nat with 0%nat by lia. cbn [firstn]. now rewrite app_nil_r. }
    rewrite Etag.
    assert (El : length (removelast (c :: u)) = length u).
    { pose proof (f_equal (@length Z) (last_split (c :: u) ltac:(discriminate))) as H.
      rewrite app_length in H. cbn [length] in H. lia. }
    rewrite El, E.
    change (35 :: (c :: u) ++ 35 :: r) with ((35 :: c :: u) ++ 35 :: r).
    replace (length u + 2)%nat with (length (35 :: c :: u)) by (cbn [length]; lia).
    rewrite slice_tail by (apply boundary_at; lia). cbn [bind].
    assert (Hp : get_prev_ctl (35 :: r) = Ok None)
      by (unfold get_prev_ctl; destruct (zlen _ <=? 1); reflexivity).
    rewrite Hp. reflexivity.
Qed.

Lemma body_ends control prev order : exists x, body control prev order = x ++ txt_his.
Proof. unfold body. rewrite app_assoc. eexists; reflexivity. Qed.

Lemma bad_end_iff u : bad_end u = true <-> (u = [] \/ 128 <= last u 0 < 192).
Proof.
  unfold bad_end. destruct u as [|c u]; [intuition|].
  rewrite andb_true_iff, Z.leb_le, Z.ltb_lt. split; [now right|].
  intros [?|?]; [discriminate|assumption].
Qed.

Lemma analyze_name p : valid_props p ->
  (readable p -> analyze_file_name (filename p) = Ok (Some p)) /\
  (~ readable p -> analyze_file_name (filename p) = Ok None \/ analyze_file_name (filename p) = Panic) /\
  (analyze_file_name (filename p) = Panic <-> exists t, p_tag p = Some t /\ crashing_tag t).
Proof.
  intros Hv. destruct (p_tag p) as [t|] eqn:Ht.
  - assert (Hu : utf8_valid t = true) by (destruct Hv as (_ & _ & _ & _ & Hu); now rewrite Ht in Hu).
    destruct (body_ends (p_control p) (if p_control p =? p_prev p then None else Some (p_prev p)) (p_order p)) as [x Ex].
    assert (Ef : filename p = 35 :: t ++ 35 :: x ++ txt_his).
    { rewrite filename_shape, Ht, Ex. cbn [app]. now rewrite <- app_assoc. }
    destruct (analyze_tagged t _ x Hu Ef) as (u & r & E & Hn & ->).
    split; [|split].
    + intros [H _]. congruence.
    + intros _. destruct (bad_end u); auto.
    + split.
      * destruct (bad_end u) eqn:Eb; [|discriminate]. intros _. exists t. split; [reflexivity|].
        exists u, r. apply bad_end_iff in Eb. auto.
      * intros (t' & Et & u' & r' & E' & Hn' & Hb). apply Some_inj in Et. subst t'.
        rewrite E in E'. destruct (split_first_unique _ _ _ _ _ E' Hn Hn') as [<- _].
        apply bad_end_iff in Hb. now rewrite Hb.
  - rewrite analyze_untagged by assumption. split; [|split].
    + intros Hr. apply small_iff in Hr; [|assumption]. now rewrite Hr.
    + intros Hr. destruct (small _ _) eqn:Es; [|now left].
      apply small_iff in Es; [contradiction|assumption].
    + split; [discriminate|]. intros (t & ? & _). discriminate.
Qed.

(** no input exhausts the fuel *)
Lemma get_num_shorter s n r : get_num s = Some (n, r) -> (length r < length s)%nat.
Proof.
  destruct s as [|c s]; [discriminate|]. cbn [get_num]. destruct (c =? 95); [|discriminate].
  generalize 9%nat. generalize 0. intros acc f H.
  enough (length r <= length s)%nat by (cbn [length]; lia).
  revert s acc H; induction f as [|f IH]; intros s acc H; [discriminate|].
  destruct s as [|b s]; [discriminate|]. cbn [get_num_loop] in H.
  destruct (is_digit b).
  - apply IH in H. cbn [length]. lia.
  - injection H as _ <-. lia.
Qed.

Lemma read_order_total fuel : forall s acc, (length s < fuel)%nat -> read_order fuel s acc <> Err.
Proof.
  induction fuel as [|f IH]; intros s acc Hl; [lia|]. cbn [read_order].
  destruct (get_num s) as [[n r]|] eqn:E; [|discriminate].
  apply IH. apply get_num_shorter in E. lia.
Qed.

Lemma slice_total s a b : slice s a b <> Err.
Proof. unfold slice. destruct (_ && _); discriminate. Qed.

Lemma analyze_total s : analyze_file_name s <> Err.
Proof.
  unfold analyze_file_name. destruct (negb _); [discriminate|].
  destruct (get_tag s) as [tag| |] eqn:Et; cbn [bind]; try discriminate.
  2:{ revert Et. unfold get_tag. destruct (_ <=? _); [discriminate|]. destruct s; [discriminate|].
      destruct (negb _); [discriminate|]. destruct (index_of _ _); [|discriminate].
      destruct (slice _ _ _) eqn:E; cbn [bind]; try discriminate. now apply slice_total in E. }
  set (m := match tag with Some t => _ | None => _ end).
  destruct m as [s1| |] eqn:Em; cbn [bind]; try discriminate.
  2:{ subst m. destruct tag; [|discriminate]. now apply slice_total in Em. }
  destruct (get_prev_ctl s1) as [pc| |] eqn:Ep; cbn [bind]; try discriminate.
  2:{ revert Ep. unfold get_prev_ctl. destruct (_ <=? _); [discriminate|]. destruct s1; [discriminate|].
      destruct (negb _); [discriminate|]. destruct (index_of _ _); [|discriminate].
      destruct (slice _ _ _) eqn:E; cbn [bind]; try discriminate. now apply slice_total in E. }
  set (m2 := match pc with Some t => _ | None => _ end).
  destruct m2 as [s2| |] eqn:Em2; cbn [bind]; try discriminate.
  2:{ subst m2. destruct pc; [|discriminate]. now apply slice_total in Em2. }
  destruct (get_num s2) as [[n s3]|]; [|discriminate].
  destruct (read_order _ _ _) as [o| |] eqn:Eo; cbn [bind]; try discriminate.
  - destruct o; discriminate.
  - exfalso. revert Eo. apply read_order_total. lia.
Qed.

(** distinct names *)
Lemma numtext_inj l : Forall (fun n => 0 <= n) l -> forall l', Forall (fun n => 0 <= n) l' ->
  numtext l ++ txt_his = numtext l' ++ txt_his -> l = l'.
Proof.
  induction 1 as [|n l Hn Hl IH]; intros l' Hl' H.
  - destruct l' as [|m l']; [reflexivity|]. discriminate H.
  - destruct l' as [|m l']; [discriminate H|].
    inversion Hl' as [|? ? Hm Hl2]; subst.
    cbn [numtext flat_map] in H. fold (numtext l) in H. fold (numtext l') in H.
    cbn [app] in H. injection H as H. rewrite <- !app_assoc in H.
    assert (S1 : span_digits (print_uint n ++ numtext l ++ txt_his) = (print_uint n, numtext l ++ txt_his)).
    { apply span_digits_app; [now apply print_uint_digits|destruct l; reflexivity]. }
    assert (S2 : span_digits (print_uint m ++ numtext l' ++ txt_his) = (print_uint m, numtext l' ++ txt_his)).
    { apply span_digits_app; [now apply print_uint_digits|destruct l'; reflexivity]. }
    rewrite H, S2 in S1. injection S1 as E1 E2.
    apply print_uint_inj in E1; [|assumption|assumption]. subst. f_equal. now apply IH.
Qed.

Definition prev_ok (prev : option Z) : Prop := match prev with Some p => 0 <= p | None => True end.

Lemma body_inj c p o c' p' o' : 0 <= c -> prev_ok p -> Forall (fun n => 0 <= n) o ->
  0 <= c' -> prev_ok p' -> Forall (fun n => 0 <= n) o' ->
  body c p o = body c' p' o' -> c = c' /\ p = p' /\ o = o'.
Proof.
  intros Hc Hp Ho Hc' Hp' Ho' H. unfold body in H.
  assert (Hn : forall a b : option Z, numtext (c :: o) ++ txt_his = numtext (c' :: o') ++ txt_his -> a = b -> c = c' /\ a = b /\ o = o').
  { intros a b E Eab. apply numtext_inj in E; [|now constructor|now constructor].
    injection E as -> ->. auto. }
  destruct p as [p|], p' as [p'|]; cbn [prevtext app] in H; try discriminate H.
  - injection H as H. rewrite <- !app_assoc in H. cbn [app] in H.
    apply split_first_unique in H as [E1 E2];
      [|apply digits_no; [now apply print_uint_digits|reflexivity]
       |apply digits_no; [now apply print_uint_digits|reflexivity]].
    apply print_uint_inj in E1; [|assumption|assumption]. subst p'.
    apply (Hn (Some p) (Some p)); [|reflexivity].
    cbn [numtext flat_map app]. rewrite <- !app_assoc. exact E2.
  - apply (Hn (@None Z) None); auto.
Qed.

Lemma numtext_no_hash l : Forall (fun n => 0 <= n) l -> ~ In 35 (numtext l).
Proof.
  induction 1 as [|n l Hn Hl IH]; [intros []|]. cbn [numtext flat_map]. fold (numtext l).
  cbn [app In]. rewrite in_app_iff. intros [H|[H|H]]; [lia| |contradiction].
  exact (digits_no 35 _ (print_uint_digits n Hn) eq_refl H).
Qed.

Lemma body_no_hash c p o : 0 <= c -> prev_ok p -> Forall (fun n => 0 <= n) o -> ~ In 35 (body c p o).
Proof.
  intros Hc Hp Ho. unfold body. rewrite !in_app_iff. intros [H|[H|H]].
  - destruct p as [p|]; [|contradiction]. cbn [prevtext In] in H. rewrite in_app_iff in H.
    destruct H as [H|[H|[H|[]]]]; try lia.
    exact (digits_no 35 _ (print_uint_digits p Hp) eq_refl H).
  - revert H. apply numtext_no_hash. now constructor.
  - cbn in H. intuition lia.
Qed.

Lemma body_head c p o : hd 0 (body c p o) <> 35.
Proof. unfold body. destruct p; cbn; discriminate. Qed.

Lemma split_last_unique (c : Z) u r u' r' : u ++ c :: r = u' ++ c :: r' ->
  ~ In c r -> ~ In c r' -> u = u' /\ r = r'.
Proof.
  intros H Hr Hr'. apply (f_equal (@rev Z)) in H. rewrite !rev_app_distr in H.
  cbn [rev] in H. rewrite <- !app_assoc in H. cbn [app] in H.
  apply split_first_unique in H as [E1 E2]; [|rewrite <- in_rev; assumption|rewrite <- in_rev; assumption].
  split; [rewrite <- (rev_involutive u), E2|rewrite <- (rev_involutive r), E1]; apply rev_involutive.
Qed.

Lemma prev_of_valid p : valid_props p -> prev_ok (if p_control p =? p_prev p then None else Some (p_prev p)).
Proof. intros (_ & Hp & _). destruct (_ =? _); cbn; [exact I|apply Hp]. Qed.

Lemma filename_inj p q : valid_props p -> valid_props q -> filename p = filename q -> p = q.
Proof.
  intros Hp Hq H. pose proof (prev_of_valid p Hp) as Hpp. pose proof (prev_of_valid q Hq) as Hqq.
  destruct Hp as ([Hc _] & _ & Ho & _). destruct Hq as ([Hc' _] & _ & Ho' & _).
  apply order_nonneg in Ho, Ho'.
  rewrite !filename_shape in H.
  assert (Hb : body (p_control p) (if p_control p =? p_prev p then None else Some (p_prev p)) (p_order p) =
               body (p_control q) (if p_control q =? p_prev q then None else Some (p_prev q)) (p_order q) /\
               p_tag p = p_tag q).
  { pose proof (body_no_hash _ _ _ Hc Hpp Ho) as N1. pose proof (body_no_hash _ _ _ Hc' Hqq Ho') as N2.
    set (b1 := body (p_control p) _ _) in *. set (b2 := body (p_control q) _ _) in *.
    destruct (p_tag p) as [t|], (p_tag q) as [t'|]; cbn [app] in H.
    - injection H as H. rewrite <- !app_assoc in H. cbn [app] in H.
      apply split_last_unique in H as [-> ->]; auto.
    - exfalso. apply N2. rewrite <- H. now left.
    - exfalso. apply N1. rewrite H. now left.
    - auto. }
  destruct Hb as [Hb Ht].
  apply body_inj in Hb as (E1 & E2 & E3); try assumption.
  rewrite <- (props_eta p), <- (props_eta q). f_equal; try assumption.
  rewrite E1 in E2. destruct (Z.eqb_spec (p_control q) (p_prev p)), (Z.eqb_spec (p_control q) (p_prev q)).
  - congruence.
  - discriminate E2.
  - discriminate E2.
  - now apply Some_inj in E2.
Qed.

(* ------------------------------------------------------------------ *)
(** * Hash folder names *)

Definition hexval (c : Z) : Z := if c <=? 57 then c - 48 else c - 87.

Lemma hex_char_hex h : 0 <= h < 16 -> is_hex (hex_char h) /\ hexval (hex_char h) = h.
Proof. intros H. unfold hex_char, is_hex, hexval. destruct (Z.ltb_spec h 10);
  [replace (48 + h <=? 57) with true by lia|replace (97 + (h - 10) <=? 57) with false by lia]; lia. Qed.

Lemma hex_to_u64_step c s r : is_hex c ->
  hex_to_u64 (c :: s) r = hex_to_u64 s ((r * 16) mod 2 ^ 64 + hexval c).
Proof.
  intros H. cbn [hex_to_u64]. unfold hexval.
  destruct H as [H|H].
  - replace (c <? 48) with false by lia. replace (c - 48 <=? 9) with true by lia.
    now replace (c <=? 57) with true by lia.
  - replace (c <? 48) with false by lia. replace (c - 48 <=? 9) with false by lia.
    replace (c <? 97) with false by lia. replace (c - 97 <=? 5) with true by lia.
    replace (c <=? 57) with false by lia. f_equal. lia.
Qed.

(** the value of a hexadecimal string *)
Fixpoint hexvalue (s : list Z) (r : Z) : Z :=
  match s with [] => r | c :: s => hexvalue s (r * 16 + hexval c) end.

Lemma pow16 k : 16 ^ Z.of_nat (S k) = 16 * 16 ^ Z.of_nat k.
Proof. rewrite Nat2Z.inj_succ, Z.pow_succ_r by lia. reflexivity. Qed.

Lemma hex_to_u64_value s : Forall is_hex s -> forall r, 0 <= r ->
  r * 16 ^ Z.of_nat (length s) + (16 ^ Z.of_nat (length s) - 1) < 2 ^ 64 ->
  hex_to_u64 s r = Ok (Some (hexvalue s r)).
Proof.
  induction 1 as [|c s Hc Hs IH]; intros r Hr Hb; [reflexivity|].
  cbn [length] in Hb. rewrite pow16 in Hb.
  rewrite hex_to_u64_step by assumption. cbn [hexvalue].
  assert (Hp : 0 < 16 ^ Z.of_nat (length s)) by (apply Z.pow_pos_nonneg; lia).
  assert (Hv : 0 <= hexval c < 16) by (unfold hexval; destruct Hc; [replace (c <=? 57) with true by lia|replace (c <=? 57) with false by lia]; lia).
  rewrite Z.mod_small by nia. apply IH; [lia|nia].
Qed.

Lemma hexvalue_bound s : Forall is_hex s -> forall r,
  r * 16 ^ Z.of_nat (length s) <= hexvalue s r < (r + 1) * 16 ^ Z.of_nat (length s).
Proof.
  induction 1 as [|c s Hc Hs IH]; intros r; [cbn; lia|].
  cbn [hexvalue length]. rewrite pow16.
  assert (Hp : 0 < 16 ^ Z.of_nat (length s)) by (apply Z.pow_pos_nonneg; lia).
  assert (Hv : 0 <= hexval c < 16) by (unfold hexval; destruct Hc; [replace (c <=? 57) with true by lia|replace (c <=? 57) with false by lia]; lia).
  specialize (IH (r * 16 + hexval c)). nia.
Qed.

(** the characters of the top [4 k] bits *)
Lemma u64_to_hex_spec k : (k <= 16)%nat -> forall n r, 0 <= n < 16 ^ Z.of_nat k ->
  Forall is_hex (u64_to_hex k (n * 16 ^ (16 - Z.of_nat k))) /\
  length (u64_to_hex k (n * 16 ^ (16 - Z.of_nat k))) = k /\
  hexvalue (u64_to_hex k (n * 16 ^ (16 - Z.of_nat k))) r = r * 16 ^ Z.of_nat k + n.
Proof.
  induction k as [|k IH]; intros Hk n r Hn.
  - cbn [u64_to_hex hexvalue length]. change (16 ^ Z.of_nat 0) with 1 in *. repeat split; auto. lia.
  - cbn [u64_to_hex]. rewrite pow16 in Hn.
    set (q := 16 ^ Z.of_nat k) in *.
    assert (Hq : 0 < q) by (apply Z.pow_pos_nonneg; lia).
    set (w := 16 ^ (16 - Z.of_nat (S k))).
    assert (Hw : 0 < w) by (apply Z.pow_pos_nonneg; lia).
    assert (Hqw : q * w = 2 ^ 60).
    { unfold q, w. rewrite <- Z.pow_add_r by lia. replace (Z.of_nat k + (16 - Z.of_nat (S k))) with 15 by lia. reflexivity. }
    assert (Hw16 : 16 ^ (16 - Z.of_nat k) = w * 16).
    { unfold w. rewrite Z.mul_comm, <- Z.pow_succ_r by lia. f_equal. lia. }
    assert (Ed : n * w / 2 ^ 60 = n / q).
    { rewrite <- Hqw. rewrite Z.div_mul_cancel_r by lia. reflexivity. }
    assert (Em : (n * w * 16) mod 2 ^ 64 = (n mod q) * 16 ^ (16 - Z.of_nat k)).
    { rewrite Hw16. replace (2 ^ 64) with (q * (w * 16)) by (change (2 ^ 64) with (2 ^ 60 * 16); rewrite <- Hqw; lia).
      replace (n * w * 16) with (n * (w * 16)) by lia. rewrite Z.mul_mod_distr_r by lia. reflexivity. }
    rewrite Ed, Em.
    assert (Hh : 0 <= n / q < 16) by (split; [apply Z.div_pos; lia|apply Z.div_lt_upper_bound; lia]).
    destruct (hex_char_hex _ Hh) as [H1 H2].
    assert (Hm : 0 <= n mod q < q) by (apply Z.mod_pos_bound; lia).
    destruct (IH ltac:(lia) (n mod q) (r * 16 + hexval (hex_char (n / q))) Hm) as (I1 & I2 & I3).
    split; [constructor; assumption|]. split; [cbn [length]; now rewrite I2|].
    cbn [hexvalue]. rewrite I3, H2, pow16. fold q.
    pose proof (Z.div_mod n q ltac:(lia)). nia.
Qed.

Lemma half_spec n : 0 <= n < 2 ^ 64 ->
  Forall is_hex (u64_to_hex 16 n) /\ length (u64_to_hex 16 n) = 16%nat /\
  hex_to_u64 (u64_to_hex 16 n) 0 = Ok (Some n).
Proof.
  intros Hn. destruct (u64_to_hex_spec 16 ltac:(lia) n 0) as (H1 & H2 & H3).
  { change (16 ^ Z.of_nat 16) with (2 ^ 64). lia. }
  change (16 ^ (16 - Z.of_nat 16)) with 1 in *. rewrite Z.mul_1_r in *.
  split; [assumption|split; [assumption|]].
  rewrite hex_to_u64_value; [|assumption|lia|rewrite H2; cbn; lia].
  rewrite H3. reflexivity.
Qed.

Opaque u64_to_hex hex_to_u64 hexvalue.

Lemma folder_name h : 0 <= h < 2 ^ 128 ->
  Forall is_hex (hash_to_folder_name h) /\ length (hash_to_folder_name h) = 32%nat /\
  folder_name_to_hash (hash_to_folder_name h) = Ok (Some h).
Proof.
  intros Hh. unfold hash_to_folder_name.
  destruct (half_spec (h / 2 ^ 64)) as (A1 & A2 & A3); [lia|].
  destruct (half_spec (h mod 2 ^ 64)) as (B1 & B2 & B3); [lia|].
  split; [apply Forall_app; split; assumption|]. split; [rewrite app_length, A2, B2; reflexivity|].
  unfold folder_name_to_hash, zlen. rewrite app_length, A2, B2.
  replace (Z.of_nat (16 + 16) =? 32) with true by reflexivity. cbn [negb].
  set (a := u64_to_hex 16 (h / 2 ^ 64)) in *. set (b := u64_to_hex 16 (h mod 2 ^ 64)) in *.
  replace (firstn 16 (a ++ b)) with a
    by (rewrite <- A2, firstn_app, firstn_all, Nat.sub_diag; cbn [firstn]; now rewrite app_nil_r).
  replace (skipn 16 (a ++ b)) with b
    by (rewrite <- A2, skipn_app, skipn_all, Nat.sub_diag; reflexivity).
  rewrite A3. cbn [bind]. rewrite B3. cbn [bind].
  f_equal. f_equal. pose proof (Z.div_mod h (2 ^ 64) ltac:(lia)). lia.
Qed.

Transparent hex_to_u64 hexvalue.

(** every string *)
Lemma hex_dec c : {is_hex c} + {~ is_hex c}.
Proof.
  unfold is_hex. destruct (Z_le_dec 48 c), (Z_le_dec c 57), (Z_le_dec 97 c), (Z_le_dec c 102); (left; lia) || (right; lia).
Qed.

Lemma hexvalue_inj s : forall s' r r', Forall is_hex s -> Forall is_hex s' -> length s = length s' ->
  hexvalue s r = hexvalue s' r' -> s = s' /\ r = r'.
Proof.
  induction s as [|c s IH]; intros [|c' s'] r r' H H' Hl E; try discriminate Hl; [auto|].
  inversion H as [|? ? Hc Hs]; inversion H' as [|? ? Hc' Hs']; subst.
  cbn [hexvalue] in E. injection Hl as Hl.
  destruct (IH _ _ _ Hs Hs' Hl E) as [-> Er].
  assert (hexval c = hexval c' /\ r = r') as [Ec ->].
  { unfold is_hex in *. unfold hexval in *. destruct (Z.leb_spec c 57), (Z.leb_spec c' 57); lia. }
  split; [|reflexivity]. f_equal. unfold is_hex, hexval in *. destruct (Z.leb_spec c 57), (Z.leb_spec c' 57); lia.
Qed.

(** what a half does: it stops at the first character that is not a digit *)
Lemma hex_first_bad s : Forall is_hex s \/ exists a c b, s = a ++ c :: b /\ Forall is_hex a /\ ~ is_hex c.
Proof.
  induction s as [|c s [IH|(a & d & b & -> & Ha & Hd)]].
  - left; constructor.
  - destruct (hex_dec c); [left; now constructor|]. right. exists [], c, s. auto.
  - destruct (hex_dec c).
    + right. exists (c :: a), d, b. repeat split; auto.
    + right. exists [], c, (a ++ d :: b). repeat split; auto.
Qed.

Lemma hex_to_u64_bad a c b r : Forall is_hex a -> ~ is_hex c ->
  (crashing_char c -> hex_to_u64 (a ++ c :: b) r = Panic) /\
  (~ crashing_char c -> hex_to_u64 (a ++ c :: b) r = Ok None).
Proof.
  intros Ha Hc; revert r; induction Ha as [|x a Hx Ha IH]; intros r.
  - cbn [app hex_to_u64]. unfold is_hex, crashing_char in *. split; intros H.
    + destruct (Z.ltb_spec c 48); [reflexivity|]. replace (c - 48 <=? 9) with false by lia.
      now replace (c <? 97) with true by lia.
    + replace (c <? 48) with false by lia. replace (c - 48 <=? 9) with false by lia.
      replace (c <? 97) with false by lia. now replace (c - 97 <=? 5) with false by lia.
  - cbn [app]. rewrite hex_to_u64_step by assumption. apply IH.
Qed.

Lemma crash_dec c : {crashing_char c} + {~ crashing_char c}.
Proof. unfold crashing_char. destruct (Z_lt_dec c 48), (Z_le_dec 58 c), (Z_lt_dec c 97); (left; lia) || (right; lia). Qed.

Lemma half_value s : Forall is_hex s -> length s = 16%nat ->
  hex_to_u64 s 0 = Ok (Some (hexvalue s 0)) /\ 0 <= hexvalue s 0 < 2 ^ 64.
Proof.
  intros H Hl. split.
  - apply hex_to_u64_value; [assumption|lia|rewrite Hl; cbn; lia].
  - pose proof (hexvalue_bound s H 0). rewrite Hl in H0. change (16 ^ Z.of_nat 16) with (2 ^ 64) in H0. lia.
Qed.

Lemma hexvalue_hex n : 0 <= n < 2 ^ 64 -> hexvalue (u64_to_hex 16 n) 0 = n.
Proof.
  intros Hn. destruct (half_spec n Hn) as (H1 & H2 & H3).
  destruct (half_value _ H1 H2) as [H4 _]. rewrite H3 in H4. apply Ok_inj in H4.
  apply Some_inj in H4. now symmetry.
Qed.

Lemma half_canonical s : Forall is_hex s -> length s = 16%nat -> u64_to_hex 16 (hexvalue s 0) = s.
Proof.
  intros H Hl. destruct (half_value s H Hl) as [_ Hb].
  destruct (half_spec _ Hb) as (H1 & H2 & _).
  apply (hexvalue_inj _ _ 0 0); [assumption|assumption|congruence|now apply hexvalue_hex].
Qed.

Lemma folder_exact s :
  match folder_name_to_hash s with
  | Ok (Some h) => 0 <= h < 2 ^ 128 /\ s = hash_to_folder_name h
  | Ok None => length s <> 32%nat \/ exists a c b, s = a ++ c :: b /\ Forall is_hex a /\ ~ is_hex c /\ ~ crashing_char c
  | Panic => length s = 32%nat /\ exists a c b, s = a ++ c :: b /\ Forall is_hex a /\ crashing_char c
  | Err => False
  end.
Proof.
  unfold folder_name_to_hash, zlen.
  destruct (Z.eqb_spec (Z.of_nat (length s)) 32) as [E|E]; cbn [negb]; [|left; lia].
  assert (Hl : length s = 32%nat) by lia.
  assert (L1 : length (firstn 16 s) = 16%nat) by (rewrite firstn_length; lia).
  assert (L2 : length (skipn 16 s) = 16%nat) by (rewrite skipn_length; lia).
  pose proof (firstn_skipn 16 s) as Es.
  destruct (hex_first_bad (firstn 16 s)) as [Hu|(a & c & b & Ea & Ha & Hc)].
  - destruct (half_value _ Hu L1) as [-> Hb1]. cbn [bind].
    destruct (hex_first_bad (skipn 16 s)) as [Hw|(a & c & b & Ea & Ha & Hc)].
    + destruct (half_value _ Hw L2) as [-> Hb2]. cbn [bind]. split; [lia|].
      unfold hash_to_folder_name.
      rewrite Z.div_add_l by lia. rewrite (Z.div_small (hexvalue (skipn 16 s) 0)) by lia.
      rewrite Z.add_0_r. rewrite Z.add_comm, Z.mod_add, Z.mod_small by lia.
      rewrite !half_canonical by assumption. now symmetry.
    + rewrite Ea. destruct (hex_to_u64_bad a c b 0 Ha Hc) as [P1 P2].
      assert (Es2 : s = (firstn 16 s ++ a) ++ c :: b) by (rewrite <- app_assoc, <- Ea; now symmetry).
      destruct (crash_dec c) as [Hk|Hk].
      * rewrite P1 by assumption. cbn [bind]. split; [assumption|].
        exists (firstn 16 s ++ a), c, b. split; [assumption|]. split; [now apply Forall_app|assumption].
      * rewrite P2 by assumption. cbn [bind]. right.
        exists (firstn 16 s ++ a), c, b. split; [assumption|]. split; [now apply Forall_app|]. auto.
  - rewrite Ea. destruct (hex_to_u64_bad a c b 0 Ha Hc) as [P1 P2].
    assert (Es2 : s = a ++ c :: (b ++ skipn 16 s)).
    { change (c :: b ++ skipn 16 s) with ((c :: b) ++ skipn 16 s). rewrite app_assoc, <- Ea. now symmetry. }
    destruct (crash_dec c) as [Hk|Hk].
    + rewrite P1 by assumption. cbn [bind]. split; [assumption|]. exists a, c, (b ++ skipn 16 s). auto.
    + rewrite P2 by assumption. cbn [bind]. right. exists a, c, (b ++ skipn 16 s). auto.
Qed.

(* ------------------------------------------------------------------ *)
(** * Creation times *)

Lemma le_bytes_len k v : length (le_bytes k v) = k.
Proof. revert v; induction k; intros; cbn [le_bytes length]; congruence. Qed.

Lemma firstn_at {A} (a b : list A) n : length a = n -> firstn n (a ++ b) = a.
Proof. intros <-. rewrite firstn_app, firstn_all, Nat.sub_diag. cbn [firstn]. apply app_nil_r. Qed.
Lemma skipn_at {A} (a b : list A) n : length a = n -> skipn n (a ++ b) = b.
Proof. intros <-. rewrite skipn_app, skipn_all, Nat.sub_diag. reflexivity. Qed.

Lemma time_round t : valid_time t ->
  (0 <= fst t -> exists b, create_time_dat t = Ok b /\ zlen b = 12 /\ forall rest, from_time_dat (b ++ rest) = Ok t) /\
  (fst t < 0 -> create_time_dat t = Err).
Proof.
  intros [Hs Hn]. unfold create_time_dat. split; intros H.
  - replace (fst t <? 0) with false by lia. eexists. split; [reflexivity|].
    split; [unfold zlen; rewrite app_length, !le_bytes_len; reflexivity|]. intros rest.
    unfold from_time_dat, read_exact. cbn [fst snd].
    replace (zlen ((le_bytes 8 (fst t) ++ le_bytes 4 (snd t)) ++ rest) <? 8) with false
      by (unfold zlen; rewrite !app_length, !le_bytes_len; lia).
    cbn [bind fst snd]. change (Z.to_nat 8) with 8%nat. change (Z.to_nat 4) with 4%nat.
    assert (E1 : firstn 8 ((le_bytes 8 (fst t) ++ le_bytes 4 (snd t)) ++ rest) = le_bytes 8 (fst t)).
    { rewrite <- app_assoc. apply firstn_at, le_bytes_len. }
    assert (E2 : skipn 8 ((le_bytes 8 (fst t) ++ le_bytes 4 (snd t)) ++ rest) = le_bytes 4 (snd t) ++ rest).
    { rewrite <- app_assoc. apply skipn_at, le_bytes_len. }
    rewrite E1, E2.
    replace (zlen (le_bytes 4 (snd t) ++ rest) <? 4) with false
      by (unfold zlen; rewrite !app_length, !le_bytes_len; lia).
    cbn [bind].
    assert (E3 : firstn 4 (le_bytes 4 (snd t) ++ rest) = le_bytes 4 (snd t)).
    { apply firstn_at, le_bytes_len. }
    rewrite E3. rewrite !le_value_le_bytes by (cbn; lia).
    rewrite Z.div_small, Z.mod_small, Z.add_0_r by lia.
    replace (2 ^ 63 <=? fst t) with false by lia. now destruct t.
  - now replace (fst t <? 0) with true by lia.
Qed.

Lemma time_read b : wf_bytes b ->
  match from_time_dat b with
  | Ok t => 12 <= zlen b /\ valid_time t /\ 0 <= fst t
  | Err => zlen b < 12
  | Panic => 12 <= zlen b /\ 2 ^ 63 <= le_value (firstn 8 b) + le_value (firstn 4 (skipn 8 b)) / 10 ^ 9
  end.
Proof.
  intros Hb. unfold from_time_dat, read_exact. cbn [fst snd].
  destruct (Z.ltb_spec (zlen b) 8); cbn [bind fst snd]; [lia|].
  change (Z.to_nat 8) with 8%nat. change (Z.to_nat 4) with 4%nat.
  assert (Hz : zlen (skipn 8 b) = zlen b - 8) by (unfold zlen in *; rewrite skipn_length; lia).
  rewrite Hz. destruct (Z.ltb_spec (zlen b - 8) 4); cbn [bind]; [lia|].
  assert (H1 : 0 <= le_value (firstn 8 b)).
  { apply le_value_bound. unfold wf_bytes in *. rewrite <- (firstn_skipn 8 b) in Hb. now apply Forall_app in Hb. }
  assert (H2 : 0 <= le_value (firstn 4 (skipn 8 b))).
  { apply le_value_bound. unfold wf_bytes in *. rewrite <- (firstn_skipn 8 b) in Hb. apply Forall_app in Hb as [_ Hb].
    rewrite <- (firstn_skipn 4 (skipn 8 b)) in Hb. now apply Forall_app in Hb. }
  set (s := le_value (firstn 8 b)) in *. set (n := le_value (firstn 4 (skipn 8 b))) in *.
  assert (H3 : 0 <= n / 10 ^ 9) by (apply Z.div_pos; lia).
  destruct (Z.leb_spec (2 ^ 63) s); [lia|].
  destruct (Z.leb_spec (2 ^ 63) (s + n / 10 ^ 9)); [lia|].
  unfold valid_time. cbn [fst snd]. pose proof (Z.mod_pos_bound n (10 ^ 9) ltac:(lia)). lia.
Qed.
