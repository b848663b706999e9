(** The numbers of root members do not depend on the iteration order of hash maps (C51). *)
From Coq Require Import String.
From Verif Require Import Base StringCompactionModel StringCompactionProofs DocModel DiffSpec DiffProofs ArchiveModel
  JsonModel JsonSpec JsonNameProofs JsonProofs.

Section Order.
Variable addr : list Z -> Z.
Variable parse : list Z -> option jval.
Variables iter1 iter2 : forall A, hmap A -> hmap A.
Hypothesis It1 : iterates iter1.
Hypothesis It2 : iterates iter2.

Definition nums {A} (m : hmap (Z * A)) : hmap Z := map (fun e => (fst e, fst (snd e))) m.

Lemma nums_hset {A} k c (v : A) m : nums (hset k (c, v) m) = hset k c (nums m).
Proof. induction m as [|[x [i a]] m IH]; cbn; [reflexivity|]. destruct (eqb_bytes x k); cbn; [reflexivity|]. f_equal. exact IH. Qed.

Lemma zlen_hset {A} k (v : A) m : zlen (hset k v m) = match hget k m with None => zlen m + 1 | Some _ => zlen m end.
Proof.
  induction m as [|[x a] m IH]; [reflexivity|]. cbn [hset hget]. destruct (eqb_bytes x k); [reflexivity|].
  unfold zlen in *. cbn [length]. destruct (hget k m); lia.
Qed.

(** the same numbers for the same names *)
Definition sim {A B} (m1 : hmap (Z * A)) (m2 : hmap (Z * B)) : Prop :=
  zlen m1 = zlen m2 /\ forall k, option_map fst (hget k m1) = option_map fst (hget k m2).

Lemma hget_nums {A} k (m : hmap (Z * A)) : hget k (nums m) = option_map fst (hget k m).
Proof. induction m as [|[x [i a]] m IH]; cbn; [reflexivity|]. destruct (eqb_bytes x k); [reflexivity|exact IH]. Qed.

Lemma sim_of_nums {A B} (m1 : hmap (Z * A)) (m2 : hmap (Z * B)) : NoDup (map fst m1) -> Permutation (nums m1) (nums m2) -> sim m1 m2.
Proof.
  intros N P. split.
  - apply Permutation_length in P. unfold nums in P. rewrite !map_length in P. unfold zlen. lia.
  - intros k. rewrite <- !hget_nums. apply hget_perm; [exact P|]. unfold nums. rewrite map_map. exact N.
Qed.

Lemma sim_hset {A B} k (v1 : A) (v2 : B) m1 m2 : sim m1 m2 -> sim (hset k (zlen m1, v1) m1) (hset k (zlen m2, v2) m2).
Proof.
  intros [L H]. split.
  - rewrite !zlen_hset, L. specialize (H k). destruct (hget k m1), (hget k m2); cbn in H; try discriminate; lia.
  - intros x. destruct (list_eq_dec Z.eq_dec x k) as [->|Nx]; [rewrite !hget_hset_same; cbn; congruence|].
    rewrite !hget_hset_other by congruence. apply H.
Qed.

(** two runs over one object *)
Lemma obj_step_sim arr1 obj1 arr2 obj2 is_ref a1 a2 e b1 b2 :
  obj_step addr iter1 arr1 obj1 is_ref a1 e = Ok b1 -> obj_step addr iter2 arr2 obj2 is_ref a2 e = Ok b2 ->
  nums (to_default (fst a1)) = nums (to_default (fst a2)) /\ snd a1 = snd a2 ->
  nums (to_default (fst b1)) = nums (to_default (fst b2)) /\ snd b1 = snd b2.
Proof.
  destruct a1 as [r1 c1], a2 as [r2 c2], b1 as [s1 d1], b2 as [s2 d2], e as [k v]. cbn [fst snd]. intros E1 E2 [N ->].
  unfold obj_step in E1, E2. destruct (json_name k) as [[nm vt|sn]|]; [| |discriminate].
  - apply bind_ok in E1 as (x1 & _ & E1). apply bind_ok in E2 as (x2 & _ & E2). apply Ok_inj, pair_equal_spec in E1 as [<- <-]. apply Ok_inj, pair_equal_spec in E2 as [<- <-].
    cbn [to_default]. rewrite !nums_hset, N. auto.
  - assert (K1 : to_default s1 = to_default r1 /\ d1 = c2).
    { clear E2. destruct sn.
      - destruct v; try discriminate. apply bind_ok in E1 as (x & _ & E1). apply Ok_inj, pair_equal_spec in E1 as [<- <-]. auto.
      - destruct (is_some (to_id r1)); [discriminate|]. destruct (get_id v); [|discriminate]. apply Ok_inj, pair_equal_spec in E1 as [<- <-]. auto.
      - destruct (negb _); [discriminate|]. destruct v; try discriminate. apply bind_ok in E1 as (x & _ & E1). apply Ok_inj, pair_equal_spec in E1 as [<- <-]. auto.
      - destruct (negb _); [discriminate|]. destruct v; try discriminate. apply bind_ok in E1 as (x & _ & E1). apply Ok_inj, pair_equal_spec in E1 as [<- <-]. auto. }
    assert (K2 : to_default s2 = to_default r2 /\ d2 = c2).
    { clear E1. destruct sn.
      - destruct v; try discriminate. apply bind_ok in E2 as (x & _ & E2). apply Ok_inj, pair_equal_spec in E2 as [<- <-]. auto.
      - destruct (is_some (to_id r2)); [discriminate|]. destruct (get_id v); [|discriminate]. apply Ok_inj, pair_equal_spec in E2 as [<- <-]. auto.
      - destruct (negb _); [discriminate|]. destruct v; try discriminate. apply bind_ok in E2 as (x & _ & E2). apply Ok_inj, pair_equal_spec in E2 as [<- <-]. auto.
      - destruct (negb _); [discriminate|]. destruct v; try discriminate. apply bind_ok in E2 as (x & _ & E2). apply Ok_inj, pair_equal_spec in E2 as [<- <-]. auto. }
    destruct K1 as [-> ->], K2 as [-> ->]. auto.
Qed.

Lemma obj_fold_sim arr1 obj1 arr2 obj2 is_ref m : forall a1 a2 b1 b2,
  mfold (obj_step addr iter1 arr1 obj1 is_ref) m a1 = Ok b1 -> mfold (obj_step addr iter2 arr2 obj2 is_ref) m a2 = Ok b2 ->
  nums (to_default (fst a1)) = nums (to_default (fst a2)) /\ snd a1 = snd a2 ->
  nums (to_default (fst b1)) = nums (to_default (fst b2)) /\ snd b1 = snd b2.
Proof.
  induction m as [|e m IH]; intros a1 a2 b1 b2 E1 E2 H; cbn [mfold] in *.
  - apply Ok_inj in E1, E2. subst. exact H.
  - apply bind_ok in E1 as (x1 & E1 & F1). apply bind_ok in E2 as (x2 & E2 & F2). eapply IH; [exact F1|exact F2|]. eapply obj_step_sim; eassumption.
Qed.

Lemma obj_sim n m o1 o2 : obj_of addr iter1 n m false = Ok o1 -> obj_of addr iter2 n m false = Ok o2 ->
  nums (to_default o1) = nums (to_default o2).
Proof.
  destruct n; [discriminate|]. unfold obj_of. cbn [convert]. destruct (convert addr iter1 n), (convert addr iter2 n). cbn [snd].
  unfold json_obj_to_rust. intros E1 E2. apply bind_ok in E1 as ([x1 c1] & E1 & F1). apply bind_ok in E2 as ([x2 c2] & E2 & F2).
  apply Ok_inj in F1, F2. subst. apply (obj_fold_sim _ _ _ _ _ _ _ _ _ _ E1 E2). auto.
Qed.

Lemma to_root_hash_nums iter (It : iterates iter) m r s : NoDup (map fst m) -> to_root_hash iter m = Ok (r, s) -> Permutation (nums r) (nums m).
Proof.
  intros ND E. unfold to_root_hash in E. apply (to_root_hash_from) in E; [|apply iter_nodup; assumption]. cbn in E. destruct E as (A & B & _).
  assert (X : nums r = nums (iter _ m)).
  { clear - A B. revert A B. generalize (iter _ m) as l. induction r as [|[k [i v]] r IH]; intros [|[k' [i' v']] l] A B; cbn in *; try discriminate; [reflexivity|].
    injection A as -> A. injection B as -> B. f_equal. apply IH; assumption. }
  rewrite X. apply Permutation_map, It.
Qed.

Lemma json_root_sim v r1 r2 : json_root_to_rust addr iter1 v = Ok r1 -> json_root_to_rust addr iter2 v = Ok r2 ->
  sim (ro_default r1) (ro_default r2).
Proof.
  unfold json_root_to_rust. destruct v as [| | | | | | |m]; try discriminate. intros E1 E2.
  apply bind_ok in E1 as (o1 & O1 & E1). apply bind_ok in E2 as (o2 & O2 & E2).
  assert (D : (dm m < jdepth (JMap m))%nat) by (cbn; fold (dm m); lia).
  pose proof (good_ok _ _ _ (proj2 (convert_wf addr iter1 It1 _) m false D) O1) as (N1 & _).
  pose proof (good_ok _ _ _ (proj2 (convert_wf addr iter2 It2 _) m false D) O2) as (N2 & _).
  pose proof (obj_sim _ _ _ _ O1 O2) as S. unfold into_root_obj in E1, E2.
  destruct (_ || _) in E1; [discriminate|]. destruct (_ || _) in E2; [discriminate|].
  apply bind_ok in E1 as ([d1 s1] & H1 & E1). apply bind_ok in E2 as ([d2 s2] & H2 & E2).
  unfold new_root in E1, E2. apply bind_ok in E1 as (T1 & _ & E1). apply bind_ok in E2 as (T2 & _ & E2). apply Ok_inj in E1, E2. subst r1 r2. cbn.
  pose proof (to_root_hash_nums _ It1 _ _ _ N1 H1) as P1. pose proof (to_root_hash_nums _ It2 _ _ _ N2 H2) as P2.
  apply sim_of_nums; [|rewrite P1, P2, S; reflexivity].
  assert (X : Permutation (map fst d1) (map fst (to_default o1))).
  { apply (Permutation_map fst) in P1. unfold nums in P1. rewrite !map_map in P1. exact P1. }
  eapply Permutation_NoDup; [apply Permutation_sym, X|exact N1].
Qed.

Definition item_sim (x1 x2 : res archiving_item) : Prop :=
  match x1, x2 with
  | Ok (ARoot r1), Ok (ARoot r2) => sim (ro_default r1) (ro_default r2)
  | Ok (AItem n1 _ _), Ok (AItem n2 _ _) => n1 = n2
  | Ok _, Ok _ => False
  | _, _ => True
  end.

Lemma file_sim f : item_sim (json_file_to_rust addr iter1 parse (fst f) (snd f)) (json_file_to_rust addr iter2 parse (fst f) (snd f)).
Proof.
  unfold json_file_to_rust. destruct (eqb_bytes (file_stem (fst f)) (txt "root")).
  - destruct (parse (snd f)) as [v|]; [|exact I]. cbn [ok_or bind].
    pose proof (json_root_sim v) as S.
    destruct (json_root_to_rust addr iter1 v); [|exact I|exact I]. destruct (json_root_to_rust addr iter2 v); [|exact I|exact I]. cbn. auto.
  - destruct (json_name (file_stem (fst f))) as [[nm vt|]|]; try exact I. destruct (parse (snd f)) as [v|]; [|exact I]. cbn [ok_or bind].
    destruct (json_item_str_to_rust addr iter1 v vt) as [a1| |]; [|exact I|exact I]. cbn [bind].
    destruct (into_root_value a1) as [[v1 o1]| |]; [|exact I|exact I]. cbn [bind].
    destruct (json_item_str_to_rust addr iter2 v vt) as [a2| |]; [|exact I|exact I]. cbn [bind].
    destruct (into_root_value a2) as [[v2 o2]| |]; [|exact I|exact I]. reflexivity.
Qed.

Lemma take_root_sim l1 : forall l2 r1 r2 o1 o2, Forall2 item_sim l1 l2 -> existsb (fun x => negb (is_ok x)) l1 = false -> existsb (fun x => negb (is_ok x)) l2 = false ->
  take_root l1 = Some (r1, o1) -> take_root l2 = Some (r2, o2) -> sim (ro_default r1) (ro_default r2) /\ Forall2 item_sim o1 o2.
Proof.
  induction l1 as [|x1 l1 IH]; intros [|x2 l2] r1 r2 o1 o2 F X1 X2 T1 T2; try discriminate.
  inversion F as [|? ? ? ? Hx F']; subst. cbn in X1, X2. apply orb_false_iff in X1 as [Y1 X1], X2 as [Y2 X2].
  destruct x1 as [[ra|na va sa]| |], x2 as [[rb|nb vb sb]| |]; try discriminate; cbn in Hx; try destruct Hx; cbn in T1, T2.
  - injection T1 as <- <-. injection T2 as <- <-. split; [split; assumption|assumption].
  - destruct (take_root l1) as [[q1 p1]|] eqn:U1; [|discriminate]. destruct (take_root l2) as [[q2 p2]|] eqn:U2; [|discriminate].
    injection T1 as <- <-. injection T2 as <- <-. destruct (IH l2 q1 q2 p1 p2 F' X1 X2 eq_refl U2) as [A B]. split; [exact A|]. constructor; [reflexivity|exact B].
Qed.

Lemma other_items_sim l1 l2 v1 v2 : Forall2 item_sim l1 l2 -> other_items l1 = Ok v1 -> other_items l2 = Ok v2 -> map fst v1 = map fst v2.
Proof.
  intros F. revert v1 v2. induction F as [|x1 x2 l1 l2 Hx F IH]; intros v1 v2 E1 E2; unfold other_items in *; cbn [mmap] in *.
  - apply Ok_inj in E1, E2. subst. reflexivity.
  - destruct x1 as [[ra|na va sa]| |], x2 as [[rb|nb vb sb]| |]; try discriminate. cbn [bind] in E1, E2. cbn in Hx. subst nb.
    apply bind_ok in E1 as (w1 & E1 & G1). apply bind_ok in E2 as (w2 & E2 & G2). apply Ok_inj in G1, G2. subst. cbn. f_equal. apply IH; assumption.
Qed.

Lemma insert_names {A B} (e1 : name * A) (e2 : name * B) : forall l1 l2, fst e1 = fst e2 -> map fst l1 = map fst l2 ->
  map fst (insert_by_name e1 l1) = map fst (insert_by_name e2 l2).
Proof.
  induction l1 as [|x1 l1 IH]; intros [|x2 l2] E M; try discriminate; cbn; [congruence|]. cbn in M. injection M as M1 M2. rewrite <- M1, <- E.
  destruct (bytes_lt (fst e1) (fst x1)); cbn; [congruence|]. rewrite M1. f_equal. apply IH; assumption.
Qed.
Lemma sort_names {A B} : forall (l1 : list (name * A)) (l2 : list (name * B)), map fst l1 = map fst l2 -> map fst (sort_by_name l1) = map fst (sort_by_name l2).
Proof.
  unfold sort_by_name. intros l1 l2. generalize (@nil (name * A)) (@nil (name * B)) (eq_refl : map fst (@nil (name * A)) = map fst (@nil (name * B))).
  revert l2. induction l1 as [|e1 l1 IH]; intros [|e2 l2] a1 a2 M E; try discriminate; cbn; [exact M|]. cbn in E. injection E as E1 E2.
  apply IH; [apply insert_names; assumption|exact E2].
Qed.

Lemma construct_sim (l1 : list (name * (rootvalue * option (rootsab mutlist)))) : forall l2 d1 d2 s1 s2, map fst l1 = map fst l2 -> sim d1 d2 ->
  let f := fun st e => let '(default, sabun) := st in let '(nm, (value, sab)) := e in
                 (hset nm (zlen default, value) default, match sab with Some sab => hset nm sab sabun | None => sabun end) in
  sim (fst (fold_left f l1 (d1, s1))) (fst (fold_left f l2 (d2, s2))).
Proof.
  induction l1 as [|[n1 [v1 o1]] l1 IH]; intros [|[n2 [v2 o2]] l2] d1 d2 s1 s2 E S f; try discriminate; cbn; [exact S|].
  cbn in E. injection E as -> E. apply IH; [exact E|]. apply sim_hset, S.
Qed.

Theorem root_numbers_order files r1 r2 : files_to_root addr iter1 parse files = Ok r1 -> files_to_root addr iter2 parse files = Ok r2 ->
  forall key, option_map fst (hget key (ro_default r1)) = option_map fst (hget key (ro_default r2)).
Proof.
  unfold files_to_root. set (i1 := map (fun f => json_file_to_rust addr iter1 parse (fst f) (snd f)) files).
  set (i2 := map (fun f => json_file_to_rust addr iter2 parse (fst f) (snd f)) files).
  assert (F : Forall2 item_sim i1 i2) by (subst i1 i2; induction files as [|f files IH]; constructor; [apply file_sim|exact IH]).
  clearbody i1 i2.
  destruct (existsb is_panic i1); [discriminate|]. destruct (existsb is_panic i2); [discriminate|].
  destruct (existsb (fun x => negb (is_ok x)) i1) eqn:X1; [discriminate|]. destruct (existsb (fun x => negb (is_ok x)) i2) eqn:X2; [discriminate|].
  intros E1 E2. apply bind_ok in E1 as ([q1 o1] & T1 & E1). apply bind_ok in E2 as ([q2 o2] & T2 & E2).
  destruct (take_root i1) as [[? ?]|] eqn:U1; [|discriminate]. destruct (take_root i2) as [[? ?]|] eqn:U2; [|discriminate].
  apply Ok_inj in T1, T2. injection T1 as -> ->. injection T2 as -> ->.
  destruct (take_root_sim _ _ _ _ _ _ F X1 X2 U1 U2) as [S Fo].
  apply bind_ok in E1 as (v1 & V1 & E1). apply bind_ok in E2 as (v2 & V2 & E2). pose proof (other_items_sim _ _ _ _ Fo V1 V2) as N.
  unfold construct_root in E1, E2.
  pose proof (construct_sim (sort_by_name v1) (sort_by_name v2) (ro_default q1) (ro_default q2) (ro_sabun q1) (ro_sabun q2) (sort_names _ _ N) S) as C. cbv zeta in C.
  destruct (fold_left _ (sort_by_name v1) _) as [d1 s1]. destruct (fold_left _ (sort_by_name v2) _) as [d2 s2]. cbn [fst] in C.
  unfold new_root in E1, E2. apply bind_ok in E1 as (T1 & _ & E1). apply bind_ok in E2 as (T2 & _ & E2). apply Ok_inj in E1, E2. subst r1 r2. cbn. apply C.
Qed.
End Order.
