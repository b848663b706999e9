From Verif Require Import Base CompactionModel CompactionSpec CompactionProofs FloatProofs PhaseModel PhaseSpec.

Lemma total_app a b : total (a ++ b) = total a + total b.
Proof. induction a as [|e a IH]; cbn [total app]; lia. Qed.

Lemma uadd_ok a b c : uadd a b = Ok c -> c = a + b /\ a + b < 2 ^ 64.
Proof. unfold uadd. destruct (Z.ltb_spec (a + b) (2 ^ 64)) as [H|H]; [|discriminate]. intros E. apply Ok_inj in E. lia. Qed.
Lemma uadd_fits a b : a + b < 2 ^ 64 -> uadd a b = Ok (a + b).
Proof. intros H. unfold uadd. destruct (Z.ltb_spec (a + b) (2 ^ 64)); [reflexivity|lia]. Qed.

(** ** Sizes *)

Lemma pitem_add_ok size it it' : pitem_add size it = Ok it' ->
  my_size it' = my_size it /\ desc_size it' = desc_size it + size /\ desc_len it' = desc_len it + 1.
Proof.
  unfold pitem_add. intros H. apply bind_ok in H as (s & Hs & H). apply bind_ok in H as (n & Hn & H).
  apply uadd_ok in Hs. apply uadd_ok in Hn. apply Ok_inj in H. subst it'. cbn [my_size desc_size desc_len]. lia.
Qed.

Lemma add_all_ok size d : forall d', add_all size d = Ok d' ->
  length d' = length d /\ forall j it', nth_error d' j = Some it' -> exists it, nth_error d j = Some it /\
    my_size it' = my_size it /\ desc_size it' = desc_size it + size /\ desc_len it' = desc_len it + 1.
Proof.
  induction d as [|it d IH]; intros d' H; cbn [add_all] in H.
  - apply Ok_inj in H. subst. split; [reflexivity|]. intros [|j] it' E; discriminate.
  - apply bind_ok in H as (a & Ha & H). apply bind_ok in H as (r & Hr & H). apply Ok_inj in H. subst d'.
    destruct (IH _ Hr) as [L N]. split; [cbn [length]; lia|].
    intros [|j] it' E; cbn [nth_error] in *.
    + apply Some_inj in E. subst it'. exists it. split; [reflexivity|]. now apply pitem_add_ok.
    + now apply N.
Qed.

Lemma nth_error_firstn {A} (l : list A) : forall n j x, nth_error (firstn n l) j = Some x -> nth_error l j = Some x /\ (j < n)%nat.
Proof.
  induction l as [|y l IH]; intros [|n] [|j] x H; cbn in *; try discriminate.
  - split; [assumption|lia].
  - apply IH in H as [H ?]. split; [assumption|lia].
Qed.

Lemma push_ok d size d' : push d size = Ok d' ->
  length d' = S (length d) /\ forall j it', nth_error d' j = Some it' ->
    (j = length d /\ it' = PItem size 0 0) \/
    ((j < length d)%nat /\ exists it, nth_error d j = Some it /\
      my_size it' = my_size it /\ desc_size it' = desc_size it + size /\ desc_len it' = desc_len it + 1).
Proof.
  unfold push. intros H. apply bind_ok in H as (r & Hr & H). apply Ok_inj in H. subst d'.
  apply add_all_ok in Hr as [L N]. split; [rewrite app_length; cbn [length]; lia|].
  intros j it' E. destruct (Nat.lt_ge_cases j (length r)) as [J|J].
  - right. split; [lia|]. rewrite nth_error_app1 in E by assumption. now apply N.
  - left. rewrite nth_error_app2 in E by assumption. destruct (j - length r)%nat as [|k] eqn:K; cbn [nth_error] in E.
    + apply Some_inj in E. subst it'. split; [lia|reflexivity].
    + destruct k; discriminate.
Qed.

Lemma kept_exact saves d : kept saves d -> exact_sizes saves d.
Proof.
  induction 1 as [size S0|saves d j size d' K [IHl IH] J S0 H].
  - split; [exists [], 0%nat, size; split; reflexivity|]. intros [|j] it E; [|destruct j; discriminate].
    apply Some_inj in E. subst it. exists [], []. cbn. auto.
  - unfold pop_and_push in H. apply push_ok in H as [L N]. rewrite firstn_length in L, N.
    split; [exists saves, j, size; split; [reflexivity|lia]|].
    intros k it' E. destruct (N _ _ E) as [[-> ->]|(Hk & it & Hit & M & S & C)].
    + replace (Nat.min j (length d)) with j by lia. exists saves, []. cbn. auto.
    + apply nth_error_firstn in Hit as [Hit Hj]. destruct (IH _ _ Hit) as (b & a & E1 & F & T & Z0).
      exists b, (a ++ [(j, size)]). rewrite E1, <- app_assoc, M. cbn [app].
      split; [reflexivity|]. split; [apply Forall_app; split; [assumption|constructor; [exact Hj|constructor]]|].
      rewrite total_app, zlen_app. cbn [total snd]. change (zlen [(j, size)]) with 1. lia.
Qed.

Lemma kept_nonneg saves d : kept saves d -> Forall (fun e => 0 <= snd e) saves.
Proof.
  induction 1; [repeat constructor; assumption|]. apply Forall_app. split; [assumption|]. constructor; [assumption|constructor].
Qed.
Lemma total_nonneg l : Forall (fun e : save => 0 <= snd e) l -> 0 <= total l.
Proof. induction 1; cbn [total]; lia. Qed.

(** what an item holds, in numbers *)
Lemma kept_item saves d j it : kept saves d -> nth_error d j = Some it ->
  0 <= my_size it /\ 0 <= desc_size it /\ 0 <= desc_len it /\
  my_size it + desc_size it <= total saves /\ 1 + desc_len it <= zlen saves.
Proof.
  intros K E. pose proof (kept_nonneg _ _ K) as NN. destruct (kept_exact _ _ K) as [_ X].
  destruct (X _ _ E) as (b & a & -> & _ & Sz & Ln). apply Forall_app in NN as [Nb Na]. inversion Na; subst.
  cbn [snd] in *. pose proof (total_nonneg _ Nb). pose proof (total_nonneg a ltac:(assumption)).
  rewrite total_app, zlen_app, zlen_cons. cbn [total snd]. pose proof (zlen_nonneg a). pose proof (zlen_nonneg b). lia.
Qed.

Lemma add_all_fits size d : Forall (fun it => desc_size it + size < 2 ^ 64 /\ desc_len it + 1 < 2 ^ 64) d ->
  exists d', add_all size d = Ok d'.
Proof.
  induction 1 as [|it d [H1 H2] _ [d' IH]]; [now exists []|]. cbn [add_all]. unfold pitem_add.
  rewrite (uadd_fits _ _ H1), (uadd_fits _ _ H2), IH. cbn [bind]. eauto.
Qed.

Lemma kept_step saves d j size : kept saves d -> 0 <= size -> total saves + size < 2 ^ 64 -> zlen saves < 2 ^ 64 - 1 ->
  exists d', pop_and_push d j size = Ok d'.
Proof.
  intros K S0 T L. unfold pop_and_push, push. destruct (add_all_fits size (firstn j d)) as [d' E].
  - apply Forall_forall. intros it I. apply In_nth_error in I as [k I]. apply nth_error_firstn in I as [I _].
    pose proof (kept_item _ _ _ _ K I). lia.
  - rewrite E. cbn [bind]. eauto.
Qed.

(** ** The file *)

Lemma to_unsigned_signed v : u64_range v -> to_unsigned 64 (to_signed 64 v) = v.
Proof.
  unfold u64_range, to_unsigned, to_signed. intros H. rewrite (Z.mod_small v) by assumption.
  destruct (Z.ltb_spec v (2 ^ (64 - 1))) as [Q|Q]; [now apply Z.mod_small|].
  replace (v - 2 ^ 64) with (v + (-1) * 2 ^ 64) by lia. rewrite Z.mod_add by lia. now apply Z.mod_small.
Qed.
Lemma to_signed_range v : i64_range (to_signed 64 v).
Proof.
  unfold i64_range, to_signed. pose proof (Z.mod_pos_bound v (2 ^ 64) ltac:(lia)).
  destruct (Z.ltb_spec (v mod 2 ^ 64) (2 ^ (64 - 1))) as [Q|Q]; lia.
Qed.

Definition in_range (it : pitem) : Prop := u64_range (my_size it) /\ u64_range (desc_size it) /\ u64_range (desc_len it).

Lemma plain_comp_int v : plain (comp_int v) = comp_int v.
Proof. unfold comp_int. repeat match goal with |- context [if ?b then _ else _] => destruct b end; reflexivity. Qed.

Lemma decode_pitem_encode it rest : in_range it -> decode_pitem (map plain (encode_pitem it) ++ rest) = Ok (it, rest).
Proof.
  intros (A & B & C). unfold encode_pitem. cbn [map app]. rewrite !plain_comp_int. unfold decode_pitem. cbn [read_int].
  rewrite !comp_int_as_i64. cbn [bind read_int]. rewrite !comp_int_as_i64. cbn [bind read_int]. rewrite !comp_int_as_i64. cbn [bind].
  rewrite !to_unsigned_signed by assumption. now destruct it.
Qed.

Lemma decode_pitems_encode d : Forall in_range d ->
  decode_pitems (length d) (map plain (flat_map encode_pitem d)) = Ok d.
Proof.
  induction 1 as [|it d R _ IH]; [reflexivity|].
  change (flat_map encode_pitem (it :: d)) with (encode_pitem it ++ flat_map encode_pitem d).
  rewrite map_app. cbn [length decode_pitems]. rewrite decode_pitem_encode by assumption. cbn [bind]. rewrite IH. reflexivity.
Qed.

Lemma flat_pitem_length d : length (flat_map encode_pitem d) = (3 * length d)%nat.
Proof. induction d as [|it d IH]; [reflexivity|]. cbn [flat_map encode_pitem app length]. lia. Qed.

Lemma decode_pdata_encode d : Forall in_range d -> zlen d < 2 ^ 63 ->
  decode_pdata (map plain (encode_pdata d)) = Ok d.
Proof.
  intros R L. unfold encode_pdata, decode_pdata. cbn [map]. rewrite plain_comp_int, comp_int_as_i64.
  pose proof (zlen_nonneg d). rewrite to_unsigned_signed by (unfold u64_range; lia).
  destruct (Z.ltb_spec (zlen (map plain (flat_map encode_pitem d))) (zlen d)) as [Q|Q].
  - exfalso. unfold zlen in Q. rewrite map_length, flat_pitem_length in Q. lia.
  - unfold zlen. rewrite Nat2Z.id. now apply decode_pitems_encode.
Qed.

Lemma encode_pdata_wf d : zlen d < 2 ^ 50 -> wf_kvals (encode_pdata d).
Proof.
  intros L. unfold wf_kvals, encode_pdata. split.
  - constructor; [apply comp_int_wf, to_signed_range|]. apply Forall_forall. intros k I. apply in_flat_map in I as (it & _ & I).
    unfold encode_pitem in I. cbn [In] in I. destruct I as [<-|[<-|[<-|[]]]]; apply comp_int_wf, to_signed_range.
  - rewrite zlen_cons. unfold zlen in *. rewrite flat_pitem_length. lia.
Qed.

Lemma pdata_file d rest : Forall in_range d -> zlen d < 2 ^ 50 ->
  exists bytes, encode (encode_pdata d) = Ok bytes /\ wf_bytes bytes /\
    exists vals, decode (bytes ++ rest) = Ok (vals, zlen bytes, rest) /\ decode_pdata vals = Ok d.
Proof.
  intros R L. destruct (encode_decode (encode_pdata d) rest (encode_pdata_wf d L)) as (bytes & E & W & D).
  exists bytes. split; [exact E|]. split; [exact W|]. eexists. split; [exact D|]. apply decode_pdata_encode; [assumption|lia].
Qed.

(** ** The next position *)

Lemma climb_ok greater op d : forall r i j, climb greater d op i r = Ok j -> (length d = i + length r)%nat -> (1 <= length r)%nat ->
  (2 <= length d \/ update_phase_0 op = true)%nat -> (j < length d)%nat /\ (update_phase_0 op = false -> 1 <= j)%nat.
Proof.
  induction r as [|c r IH]; intros i j H L P U; cbn [climb length] in *; [lia|].
  destruct r as [|p r'].
  - apply Ok_inj in H. subst j. destruct (update_phase_0 op); split; try lia; try discriminate.
  - apply bind_ok in H as (t & _ & H). apply bind_ok in H as (l & _ & H). apply bind_ok in H as (sh & _ & H).
    destruct sh; [apply (IH (S i) j H); cbn [length] in *; lia|].
    destruct i as [|i].
    + apply bind_ok in H as (ov & _ & H). destruct ov; [apply (IH 1%nat j H); cbn [length] in *; lia|].
      apply Ok_inj in H. subst j. cbn [length] in *. lia.
    + apply Ok_inj in H. subst j. cbn [length] in *. lia.
Qed.

Lemma build_ok b op : build b = Ok op -> op = b /\ (max_phase op = O -> update_phase_0 op = true) /\
  (forall c, cumul op = Some c -> (max_phase op = O -> limit_nth c = None) /\ limit_nth c <> Some 0 /\ limit_count c <> Some 0).
Proof.
  unfold build, cumulative_from. destruct b as [m u c]. cbn [max_phase update_phase_0 cumul]. intros H.
  assert (op = Options m u c).
  { destruct (match m with O => _ | _ => _ end); [discriminate|]. destruct c as [[[[|?|?]|] [[|?|?]|]]|]; cbn in H; now inversion H. }
  subst op. cbn [max_phase update_phase_0 cumul]. split; [reflexivity|].
  destruct m; destruct u; destruct c as [[[[|?|?]|] [[|?|?]|]]|]; cbn in H; try discriminate H;
    (split; [first [reflexivity|discriminate]|]); intros c E; inversion E; subst; cbn [limit_nth limit_count];
    (split; [first [reflexivity|discriminate]|]); split; discriminate.
Qed.

Lemma calc_ok greater b op d j : build b = Ok op -> calc_next_phase greater d op = Ok j ->
  (1 <= length d)%nat -> (length d <= S (max_phase op))%nat ->
  (j <= max_phase op)%nat /\ (j <= length d)%nat /\ (length d <= max_phase op -> j = length d)%nat /\
  (update_phase_0 op = false -> 1 <= j)%nat.
Proof.
  intros B H P L. apply build_ok in B as (_ & B & _). unfold calc_next_phase in H.
  destruct (Nat.leb_spec (length d) (max_phase op)) as [Q|Q].
  - apply Ok_inj in H. subst j. lia.
  - assert (U : (2 <= length d \/ update_phase_0 op = true)%nat).
    { destruct (update_phase_0 op) eqn:U; [now right|]. destruct (max_phase op) eqn:M; [specialize (B eq_refl); discriminate|]. left; lia. }
    destruct (climb_ok greater op d (rev d) 0 j H ltac:(rewrite rev_length; lia) ltac:(rewrite rev_length; lia) U). split; [lia|]. split; [lia|]. split; [lia|assumption].
Qed.

Lemma recorded_kept op b saves d : build b = Ok op -> recorded op saves d ->
  kept saves d /\ (1 <= length d <= S (max_phase op))%nat.
Proof.
  intros B. induction 1 as [size S0|greater saves d j size d' R [IH IL] H S0 P].
  - split; [now constructor|]. cbn. lia.
  - destruct (calc_ok _ _ _ _ _ B H (proj1 IL) (proj2 IL)) as (Jm & Jl & _).
    split; [now apply kept_next with d|]. unfold pop_and_push in P. apply push_ok in P as [P _]. rewrite firstn_length in P. lia.
Qed.

(** no panic but one *)
Lemma insert_length x l : length (insert_sorted x l) = S (length l).
Proof. induction l as [|y l IH]; [reflexivity|]. cbn [insert_sorted]. destruct (x <=? y); cbn [length]; lia. Qed.
Lemma sort_length l : length (sort l) = length l.
Proof. induction l as [|a l IH]; [reflexivity|]. cbn [sort fold_right length]. rewrite insert_length. now f_equal. Qed.

Lemma get_nth_total d nth : 1 <= nth <= zlen d -> exists s, get_nth_largest d nth = Ok s.
Proof.
  unfold get_nth_largest. intros N. destruct (Z.eqb_spec nth 0); [lia|].
  destruct (Z.ltb_spec (zlen (sort (map my_size d))) nth) as [Q|Q]; [|eauto].
  exfalso. unfold zlen in *. rewrite sort_length, map_length in Q. lia.
Qed.

Lemma climb_total greater op saves d : kept saves d -> moderate saves ->
  (forall c nth, cumul op = Some c -> limit_nth c = Some nth -> 1 <= nth <= zlen d) ->
  forall r i, (forall it, In it r -> In it d) -> exists j, climb greater d op i r = Ok j.
Proof.
  intros K [T L] N. induction r as [|c r IH]; intros i I; cbn [climb]; [eauto|].
  destruct r as [|p r']; [eauto|].
  assert (G : forall it, In it (c :: p :: r') -> 0 <= my_size it /\ 0 <= desc_size it /\ 0 <= desc_len it /\
    my_size it + desc_size it <= total saves /\ 1 + desc_len it <= zlen saves).
  { intros it H. apply I in H. apply In_nth_error in H as [k H]. now apply kept_item with d k. }
  pose proof (G c ltac:(cbn; auto)). pose proof (G p ltac:(cbn; auto)).
  rewrite (uadd_fits (my_size c)), (uadd_fits 1) by lia. cbn [bind]. unfold should_shift.
  rewrite (uadd_fits (my_size p)) by lia. cbn [bind]. rewrite (uadd_fits (_ + _)) by lia. cbn [bind].
  rewrite (uadd_fits 1 (desc_len p)) by lia. cbn [bind]. rewrite uadd_fits by lia. cbn [bind].
  assert (IH' : forall i, exists j, climb greater d op i (p :: r') = Ok j) by (intros; apply IH; intros; apply I; now right).
  destruct (greater _ _ _ _); [apply IH'|]. destruct i as [|i]; [|eauto].
  assert (O : exists ov, over_limit d op p = Ok ov).
  { unfold over_limit. destruct (cumul op) as [cu|]; [|eauto]. destruct (match limit_count cu with Some c0 => _ | None => _ end); [eauto|].
    destruct (limit_nth cu) as [nth|] eqn:E; [|eauto]. destruct (get_nth_total d nth (N cu nth eq_refl E)) as [s Hs]. rewrite Hs. cbn [bind]. eauto. }
  destruct O as [ov ->]. cbn [bind]. destruct ov; [apply IH'|eauto].
Qed.

Lemma next_position greater b op saves d : build b = Ok op -> recorded op saves d -> moderate saves ->
  (forall c nth, cumul op = Some c -> limit_nth c = Some nth -> 1 <= nth <= Z.of_nat (max_phase op) + 1) ->
  exists j, calc_next_phase greater d op = Ok j /\ (j <= max_phase op)%nat /\
    (length d <= max_phase op -> j = length d)%nat /\ (update_phase_0 op = false -> 1 <= j)%nat.
Proof.
  intros B R M N. destruct (recorded_kept _ _ _ _ B R) as [K L].
  assert (E : exists j, calc_next_phase greater d op = Ok j).
  { unfold calc_next_phase. destruct (Nat.leb_spec (length d) (max_phase op)) as [Q|Q]; [eauto|].
    apply (climb_total greater op saves d K M).
    - intros c nth C E. specialize (N c nth C E). unfold zlen. lia.
    - intros it. rewrite <- in_rev. auto. }
  destruct E as [j E]. exists j. split; [exact E|]. pose proof (calc_ok _ _ _ _ _ B E (proj1 L) (proj2 L)). tauto.
Qed.

Lemma only_failure greater b op saves d : build b = Ok op -> recorded op saves d -> moderate saves ->
  (forall c nth, cumul op = Some c -> limit_nth c = Some nth -> 0 <= nth) ->
  (exists j, calc_next_phase greater d op = Ok j) \/
  (exists c nth, cumul op = Some c /\ limit_nth c = Some nth /\ Z.of_nat (max_phase op) + 1 < nth).
Proof.
  intros B R M U. destruct (build_ok _ _ B) as (_ & _ & Z0).
  assert (G : (forall c nth, cumul op = Some c -> limit_nth c = Some nth -> 1 <= nth <= Z.of_nat (max_phase op) + 1) ->
    exists j, calc_next_phase greater d op = Ok j).
  { intros N. destruct (next_position greater b op saves d B R M N) as (j & E & _). eauto. }
  destruct (cumul op) as [c|] eqn:C; [|left; apply G; discriminate].
  destruct (limit_nth c) as [nth|] eqn:N.
  - destruct (Z.le_gt_cases nth (Z.of_nat (max_phase op) + 1)) as [H|H]; [|right; eauto].
    left. apply G. intros c' nth' C' N'. inversion C'; subst c'. rewrite N in N'. inversion N'; subst nth'.
    pose proof (U c nth eq_refl N). destruct (Z0 c eq_refl) as (_ & X & _). rewrite N in X. assert (nth <> 0) by congruence. lia.
  - left. apply G. intros c' nth' C' N'. inversion C'; subst c'. congruence.
Qed.

Lemma recorded_next_ok greater b op saves d size : build b = Ok op -> recorded op saves d -> moderate saves ->
  0 <= size -> total saves + size < 2 ^ 64 ->
  forall j, calc_next_phase greater d op = Ok j -> exists d', pop_and_push d j size = Ok d' /\ recorded op (saves ++ [(j, size)]) d'.
Proof.
  intros B R [M1 M2] S0 T j E. destruct (recorded_kept _ _ _ _ B R) as [K _].
  destruct (kept_step saves d j size K S0 T ltac:(lia)) as [d' P]. exists d'. split; [exact P|].
  now apply recorded_next with greater d.
Qed.

Lemma kept_in_range saves d : kept saves d -> moderate saves -> Forall in_range d.
Proof.
  intros K [T L]. apply Forall_forall. intros it I. apply In_nth_error in I as [k I]. pose proof (kept_item _ _ _ _ K I).
  unfold in_range, u64_range. lia.
Qed.

(** ** Limits of the last phase *)

Lemma climb_low greater op d : forall r i j, climb greater d op (S i) r = Ok j -> (length d = S (i + length r))%nat -> (1 <= length r)%nat ->
  (3 <= length d \/ 2 <= length d /\ update_phase_0 op = true)%nat -> (j < length d - 1)%nat.
Proof.
  induction r as [|c r IH]; intros i j H L P U; cbn [climb length] in *; [lia|]. destruct r as [|p r'].
  - apply Ok_inj in H. subst j. destruct (update_phase_0 op); destruct U as [U|[U E]]; try discriminate E; lia.
  - apply bind_ok in H as (t & _ & H). apply bind_ok in H as (l & _ & H). apply bind_ok in H as (sh & _ & H).
    destruct sh; [apply (IH (S i) j H); cbn [length] in *; lia|]. apply Ok_inj in H. subst j. cbn [length] in *. lia.
Qed.

Lemma rev_cons2 {A} (l : list A) c p r : rev l = c :: p :: r -> nth_error l (length l - 2) = Some p.
Proof.
  intros H. rewrite <- (rev_involutive l), H. cbn [rev]. rewrite <- !app_assoc. cbn [app]. rewrite app_length. cbn [length].
  rewrite nth_error_app2 by lia. replace (_ + 2 - 2 - _)%nat with 0%nat by lia. reflexivity.
Qed.

(** a save into a full last phase was not over the limit *)
Lemma calc_last greater b op d : build b = Ok op -> (2 <= max_phase op \/ update_phase_0 op = true)%nat ->
  length d = S (max_phase op) -> (1 <= max_phase op)%nat -> calc_next_phase greater d op = Ok (max_phase op) ->
  exists p, nth_error d (max_phase op - 1) = Some p /\ over_limit d op p = Ok false.
Proof.
  intros B U L M H. unfold calc_next_phase in H. destruct (Nat.leb_spec (length d) (max_phase op)) as [Q|_]; [lia|].
  pose proof (rev_length d) as RL. destruct (rev d) as [|c [|p r]] eqn:R; cbn [length] in RL; [lia|lia|].
  pose proof (rev_cons2 d c p r R) as N. replace (max_phase op - 1)%nat with (length d - 2)%nat by lia. exists p. split; [exact N|].
  cbn [climb] in H. apply bind_ok in H as (t & _ & H). apply bind_ok in H as (l & _ & H). apply bind_ok in H as (sh & _ & H).
  assert (W : climb greater d op 1 (p :: r) = Ok (max_phase op) -> False).
  { intros H'. apply climb_low in H'; cbn [length] in *; try lia. destruct U; [left|right]; intuition lia. }
  destruct sh; [destruct (W H)|]. apply bind_ok in H as (ov & O & H). destruct ov; [destruct (W H)|exact O].
Qed.

Lemma add_all_nth size d d' : add_all size d = Ok d' -> forall j it', nth_error d' j = Some it' ->
  exists it, nth_error d j = Some it /\ my_size it' = my_size it /\ desc_size it' = desc_size it + size /\ desc_len it' = desc_len it + 1.
Proof.
  revert d'. induction d as [|a d IH]; intros d' H j it' N; cbn [add_all] in H.
  - apply Ok_inj in H. subst d'. destruct j; discriminate N.
  - apply bind_ok in H as (a' & Ha & H). apply bind_ok in H as (r & Hr & H). apply Ok_inj in H. subst d'.
    destruct j as [|j]; cbn [nth_error] in *.
    + apply Some_inj in N. subst it'. exists a. unfold pitem_add in Ha. apply bind_ok in Ha as (s & Hs & Ha). apply bind_ok in Ha as (n & Hn & Ha).
      apply uadd_ok in Hs as [-> _]. apply uadd_ok in Hn as [-> _]. apply Ok_inj in Ha. subst a'. cbn. auto.
    + apply (IH r Hr j it' N).
Qed.

Lemma kept_last saves d : kept saves d -> forall it, nth_error d (length d - 1) = Some it -> desc_len it = 0.
Proof.
  intros K it N. destruct (kept_exact _ _ K) as [(b0 & j0 & s0 & E0 & L0) X]. destruct (X _ _ N) as (b & a & E & F & _ & ->).
  rewrite L0 in *. replace (S j0 - 1)%nat with j0 in * by lia. destruct a as [|e a _] using rev_ind; [reflexivity|].
  rewrite E0 in E. change (b ++ (j0, my_size it) :: a ++ [e]) with (b ++ ((j0, my_size it) :: a) ++ [e]) in E. rewrite app_assoc in E.
  apply app_inj_tail in E as [_ <-]. apply Forall_app in F as [_ F]. inversion F; subst. cbn in *. lia.
Qed.

Definition last_len (op : options) (n : Z) (d : pdata) : Prop :=
  length d = S (max_phase op) -> forall it, nth_error d (max_phase op - 1) = Some it -> desc_len it <= n.

Lemma count_kept b op saves d c n : build b = Ok op -> recorded op saves d -> (2 <= max_phase op \/ update_phase_0 op = true)%nat ->
  (1 <= max_phase op)%nat -> cumul op = Some c -> limit_count c = Some n -> 1 <= n -> last_len op n d.
Proof.
  intros B R U M C Ln N1. induction R as [size S0|greater saves d j size d' R IH H S0 P]; intros L it N.
  - cbn in L. lia.
  - destruct (recorded_kept _ _ _ _ B R) as [K KL]. pose proof (calc_ok _ _ _ _ _ B H (proj1 KL) (proj2 KL)) as (J & Jl & Je & _).
    pose proof P as P0. unfold pop_and_push in P. pose proof (push_ok _ _ _ P) as [PL _]. rewrite firstn_length in PL. assert (j = max_phase op) by lia. subst j.
    unfold push in P. apply bind_ok in P as (e & A & P). apply Ok_inj in P. subst d'. assert (length e = max_phase op) by (rewrite app_length in L; cbn in L; lia).
    rewrite nth_error_app1 in N by lia. destruct (add_all_nth _ _ _ A _ _ N) as (it0 & N0 & _ & _ & ->). apply nth_error_firstn in N0 as [N0 _].
    destruct (Nat.eq_dec (length d) (max_phase op)) as [Q|Q].
    + rewrite <- Q in N0. rewrite (kept_last _ _ K _ N0). lia.
    + destruct (calc_last greater b op d B U ltac:(lia) M H) as (p & Np & O). rewrite N0 in Np. apply Some_inj in Np. subst p.
      unfold over_limit in O. rewrite C, Ln in O. destruct (Z.leb_spec n (desc_len it0)); [discriminate O|lia].
Qed.

(** the run of the last phase is part of what the item before it counts *)
Lemma run_within b op saves d run : build b = Ok op -> recorded op saves d -> (1 <= max_phase op)%nat -> last_run op saves run -> run <> [] ->
  length d = S (max_phase op) /\ forall it, nth_error d (max_phase op - 1) = Some it -> zlen run <= desc_len it /\ total run <= desc_size it.
Proof.
  intros B R M [[b0 E0] F] NE. destruct (recorded_kept _ _ _ _ B R) as [K KL]. destruct (kept_exact _ _ K) as [(b1 & j1 & s1 & E1 & L1) X].
  assert (j1 = max_phase op).
  { destruct run as [|e run _] using rev_ind; [now destruct NE|]. rewrite E1, app_assoc in E0. apply app_inj_tail in E0 as [_ <-]. apply Forall_app in F as [_ F]. now inversion F. }
  split; [lia|]. intros it N. destruct (X _ _ N) as (b2 & a & E2 & Fa & -> & ->). rewrite E0 in E2.
  assert (exists x, a = x ++ run) as [x ->].
  { clear - E2 F M. revert b0 E2. induction a as [|e a IH] using rev_ind; intros b0 E2.
    - destruct run as [|e run _] using rev_ind; [exists []; reflexivity|]. rewrite app_assoc in E2. apply app_inj_tail in E2 as [_ ->]. apply Forall_app in F as [_ F]. inversion F; subst. cbn in *. lia.
    - clear IH. revert b0 b2 a e E2. induction run as [|r run IH] using rev_ind; intros b0 b2 a e E2; [exists (a ++ [e]); now rewrite app_nil_r|].
      change (b2 ++ (?x) :: a ++ [e]) with (b2 ++ (x :: a) ++ [e]) in E2. rewrite !app_assoc in E2. apply app_inj_tail in E2 as [E2 ->]. apply Forall_app in F as [F _].
      destruct a as [|e' a _] using rev_ind.
      + destruct run as [|r' run _] using rev_ind; [exists []; reflexivity|]. rewrite app_assoc in E2. apply app_inj_tail in E2 as [_ ->]. apply Forall_app in F as [_ F]. inversion F; subst. cbn in *. lia.
      + destruct (IH F b0 b2 a e' E2) as [x ->]. exists x. now rewrite app_assoc. }
  rewrite total_app. unfold zlen. rewrite app_length. apply Forall_app in Fa as [Fx _].
  assert (0 <= total x). { apply total_nonneg. pose proof (kept_nonneg _ _ K) as G. rewrite E0, E2 in G. apply Forall_app in G as [_ G]. apply Forall_inv_tail in G. apply Forall_app in G. tauto. }
  lia.
Qed.

Lemma count_limit b op saves d c n run : build b = Ok op -> recorded op saves d -> (2 <= max_phase op \/ update_phase_0 op = true)%nat ->
  cumul op = Some c -> limit_count c = Some n -> 0 <= n -> last_run op saves run -> (1 <= max_phase op)%nat -> zlen run <= n.
Proof.
  intros B R U C Ln N0 LR M. assert (1 <= n). { destruct (build_ok _ _ B) as (_ & _ & Z0). destruct (Z0 c C) as (_ & _ & Z1). assert (n <> 0) by congruence. lia. }
  destruct (list_eq_dec (fun a b : save => ltac:(decide equality; [apply Z.eq_dec|apply Nat.eq_dec])) run []) as [->|NE]; [cbn; lia|].
  destruct (run_within _ _ _ _ _ B R M LR NE) as [L X]. destruct (nth_error d (max_phase op - 1)) as [it|] eqn:N; [|apply nth_error_None in N; lia].
  pose proof (count_kept b op saves d c n B R U M C Ln ltac:(assumption) L it N). destruct (X it eq_refl). lia.
Qed.

(** the [n]th largest *)
Lemma filter_insert f x l : length (filter f (insert_sorted x l)) = length (filter f (x :: l)).
Proof.
  induction l as [|y l IH]; [reflexivity|]. cbn [insert_sorted]. destruct (x <=? y); [reflexivity|]. cbn [filter] in *. destruct (f y), (f x); cbn [length] in *; lia.
Qed.
Lemma filter_sort f l : length (filter f (sort l)) = length (filter f l).
Proof. induction l as [|x l IH]; [reflexivity|]. cbn [sort fold_right]. rewrite filter_insert. cbn [filter]. destruct (f x); cbn [length]; unfold sort in IH; lia. Qed.
Inductive ascending : list Z -> Prop :=
| asc_nil : ascending []
| asc_cons x l : Forall (Z.le x) l -> ascending l -> ascending (x :: l).
Lemma insert_ascending x l : ascending l -> ascending (insert_sorted x l).
Proof.
  induction 1 as [|y l F A IH]; cbn [insert_sorted]; [repeat constructor|]. destruct (Z.leb_spec x y).
  - constructor; [|now constructor]. constructor; [lia|]. eapply Forall_impl; [|exact F]. intros; lia.
  - constructor; [|exact IH]. clear - F H. induction l as [|z l IHl]; cbn [insert_sorted]; [repeat constructor; lia|]. inversion F; subst. destruct (x <=? z); repeat constructor; auto; lia.
Qed.
Lemma sort_ascending l : ascending (sort l).
Proof. induction l as [|x l IH]; [constructor|]. cbn [sort fold_right]. now apply insert_ascending. Qed.
Lemma ascending_above l s size : ascending l -> size < s -> forall k, nth_error l k = Some s -> (length l - k <= length (filter (fun x => (size <? x)%Z) l))%nat.
Proof.
  intros A Lt. induction A as [|x l F A IH]; intros k N; [destruct k; discriminate N|]. destruct k as [|k]; cbn [nth_error] in N.
  - apply Some_inj in N. subst x. cbn [filter length]. destruct (Z.ltb_spec size s); [|lia]. cbn [length]. assert (filter (fun x => size <? x) l = l) as ->; [|lia].
    clear - F H. induction F as [|y l G F IH]; [reflexivity|]. cbn [filter]. destruct (Z.ltb_spec size y); [now f_equal|lia].
  - specialize (IH k N). cbn [filter length]. destruct (size <? x); cbn [length]; lia.
Qed.

Lemma nth_larger d nth s size : 1 <= nth -> get_nth_largest d nth = Ok (Some s) -> size < s -> larger nth size d.
Proof.
  unfold get_nth_largest, larger. intros N. destruct (Z.eqb_spec nth 0); [lia|]. destruct (Z.ltb_spec (zlen (sort (map my_size d))) nth); [discriminate|].
  intros E Lt. apply Ok_inj in E. apply (ascending_above _ _ _ (sort_ascending _) Lt) in E. rewrite filter_sort in E. unfold zlen in *. rewrite sort_length, map_length in *.
  assert (length (filter (fun x => size <? x) (map my_size d)) = length (filter (fun it => size <? my_size it) d)) as Q; [|lia].
  clear. induction d as [|a d IH]; [reflexivity|]. cbn [map filter]. destruct (size <? my_size a); cbn [length]; lia.
Qed.

Lemma size_limit greater b op saves d c n run : build b = Ok op -> recorded op saves d -> (2 <= max_phase op \/ update_phase_0 op = true)%nat ->
  (1 <= max_phase op)%nat -> cumul op = Some c -> limit_nth c = Some n -> 0 <= n -> last_run op saves run -> run <> [] ->
  calc_next_phase greater d op = Ok (max_phase op) -> larger n (total run) d.
Proof.
  intros B R U M C Ln N0 LR NE H. assert (1 <= n). { destruct (build_ok _ _ B) as (_ & _ & Z0). destruct (Z0 c C) as (_ & Z1 & _). assert (n <> 0) by congruence. lia. }
  destruct (run_within _ _ _ _ _ B R M LR NE) as [L X]. destruct (calc_last greater b op d B U L M H) as (p & Np & O). destruct (X p Np) as [_ Xs].
  unfold over_limit in O. rewrite C, Ln in O. destruct (match limit_count c with Some c0 => _ | None => _ end); [discriminate O|].
  apply bind_ok in O as (s & G & O). apply Ok_inj in O. destruct s as [s|].
  - apply (nth_larger d n s (total run) ltac:(assumption) G). apply Z.leb_gt in O. lia.
  - exfalso. unfold get_nth_largest in G. destruct (Z.eqb_spec n 0); [lia|]. destruct (Z.ltb_spec (zlen (sort (map my_size d))) n); [discriminate G|].
    apply Ok_inj in G. apply nth_error_None in G. unfold zlen in *. lia.
Qed.
